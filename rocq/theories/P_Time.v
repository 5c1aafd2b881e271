(** Timers: the randomized election timeout, ticks of a follower, CheckQuorum. *)
From Verif Require Import Prelude Types M_Util M_Quorum M_Inflights M_Progress M_Tracker.
From Verif Require Import M_Storage M_Unstable M_Log M_ReadOnly M_ConfPb M_ConfChange M_Raft M_RawNode.
From Verif Require Import P_Inflights P_Frame P_Prim Sys_Node P_Node P_Fields P_Vote P_New Spec_Node.

Section Time.
Context {E : Env}.

Definition rand_ok (r : raft) : Prop :=
  0 < k_el_timeout (r_cfg r) /\ k_el_timeout (r_cfg r) <= r_rand_timeout r < 2 * k_el_timeout (r_cfg r).

Lemma rand_ok_eq r r' : r_cfg r' = r_cfg r -> r_rand_timeout r' = r_rand_timeout r -> rand_ok r -> rand_ok r'.
Proof. unfold rand_ok. intros -> ->. auto. Qed.
Lemma rand_ok_reset t r r' : r' = reset t r -> 0 < k_el_timeout (r_cfg r) -> rand_ok r'.
Proof.
  intros Er H. destruct (reset_fields _ _ _ Er) as (A1&_). destruct (reset_more _ _ _ Er) as (_&_&_&_&_&_&_&_&_&A2&_).
  clear Er. unfold rand_ok. rewrite A1, A2. split; auto.
  pose proof (N.mod_lt (match r_tape r with [] => 0 | n :: _ => n end) (k_el_timeout (r_cfg r))). lia.
Qed.
Lemma rand_ok_follow t l r : 0 < k_el_timeout (r_cfg r) -> rand_ok (become_follower t l r).
Proof.
  intros H. unfold become_follower. hide (reset t r) r0 E0. pose proof (rand_ok_reset _ _ _ E0 H) as K. clear E0.
  revert K. apply rand_ok_eq; reflexivity.
Qed.
Lemma append_rand es r r' : append_entry es r = Ok (Some r') -> r_rand_timeout r' = r_rand_timeout r.
Proof. intros H. apply append_entry_fields in H. destruct H as (l & p & u & ->). reflexivity. Qed.

Lemma rand_ok_prim im r r' : prim im r r' -> rand_ok r -> rand_ok r'.
Proof.
  intros H K. pose proof (proj1 (prim_spec _ _ _ H)) as Hc.
  destruct H as [r' Kp|r' Hl S|m Hm|t l Ht _|r' Hcd|r' Hcd|Hs|Hs|to lt ctx Hs Hlt Hz|Ht Hm Hz Hv Hu|r' Hs Hv Hb|
                 es r1 r' Hs Ht He Hf Ha|p p' Hs Ht Hr Hm Hg|r' b Hs Hcd|Hg Hm Hs|l last Ht Hm Hs Hcd Ha|
                 l Ht Hm Hs Hcd|l Ht Hm Hs Hcd Hmt Hct|r1 Ht Hm Hs Hr].
  all: try (revert K; apply rand_ok_eq; auto; fail).
  - revert K. apply rand_ok_eq; auto. apply Kp.
  - revert K. apply rand_ok_eq; auto. apply S.
  - apply rand_ok_follow. apply K.
  - unfold become_candidate in Hcd. destruct (is_leader r); [discriminate|]. apply Ok_inj in Hcd.
    hide (reset (r_term r + 1) r) r0 E0. pose proof (rand_ok_reset _ _ _ E0 (proj1 K)) as K0. clear E0. subst r'.
    revert K0. apply rand_ok_eq; reflexivity.
  - unfold become_pre_candidate in Hcd. destruct (is_leader r); [discriminate|]. apply Ok_inj in Hcd. subst r'.
    revert K. apply rand_ok_eq; reflexivity.
  - apply become_leader_inv in Hb. destruct Hb as (pr & r1 & u & _ & _ & Ha & ->).
    hide (reset (r_term r) r) r0 E0. pose proof (rand_ok_reset _ _ _ E0 (proj1 K)) as K0.
    destruct (reset_fields _ _ _ E0) as (A1&_). clear E0.
    apply append_rand in Ha. revert K0. apply rand_ok_eq; [rewrite Hc, A1; auto|exact Ha].
  - apply filter_prop_fields in Hf. destruct Hf as [k ->]. revert K. apply rand_ok_eq; auto.
    destruct Ha as [Ha|[_ ->]]; [apply append_rand in Ha; exact Ha|reflexivity].
  - apply raft_maybe_commit_state in Hcd. destruct Hcd as [l ->]. revert K. apply rand_ok_eq; auto.
  - apply restore_inv in Hr; auto. destruct Hr as (_ & _ & _ & cp & pr & pr' & b & _ & _ & _ & _ & ->).
    revert K. apply rand_ok_eq; reflexivity.
Qed.
Lemma rand_ok_apr a b : rand_ok (snd a) -> apr a b -> rand_ok (snd b).
Proof.
  intros K H. destruct H; cbn [snd] in *; auto.
  - eapply rand_ok_prim; eauto.
  - apply append_entry_fields in H0. destruct H0 as (l & p & u & ->). exact K.
Qed.
Lemma rand_ok_aprs a b : aprs a b -> rand_ok (snd a) -> rand_ok (snd b).
Proof. apply (aprs_ind_inv (fun x => rand_ok (snd x))). apply rand_ok_apr. Qed.

Lemma raft_new_rand c tape r : raft_new c tape = Ok r ->
  rand_ok r /\ r_rand_timeout r = Z.to_N (c_election_tick c) + hd 0 tape mod Z.to_N (c_election_tick c) /\ r_tape r = tl tape.
Proof.
  intros H. pose proof (raft_new_spec _ _ _ H) as (s & cp & Hv & Hs & _ & _ & _ & _ & F).
  assert (H0 : 0 < k_el_timeout (r_cfg r)).
  { rewrite (fr_cfg _ _ _ _ F). cbn. destruct (validate c) as [c' o] eqn:Ev. cbn in Hv. subst o. apply validate_ok in Ev. lia. }
  unfold raft_new in H. destruct (validate c) as [c' o] eqn:Ev. cbn in Hv. subst o. apply validate_ok in Ev.
  destruct Ev as (V1 & V2 & V3 & V4 & V5 & V6 & Ec). rewrite Hs in *.
  assert (Hs' : c_storage c' = Some s) by (rewrite Ec; auto). rewrite Hs' in H.
  unfold ms_initial_state in H. cbv zeta iota beta in H.
  destruct (cc_restore _ _) as [cp'|]; [|discriminate]. apply bind_ok in H. destruct H as ([r1 cs] & H1 & H).
  destruct (negb _); [discriminate|]. apply bind_ok in H. destruct H as (r2 & H2 & H). apply bind_ok in H. destruct H as (r3 & H3 & H).
  assert (T1 : r_tape r1 = tape /\ r_cfg r1 = cfg_of c).
  { unfold switch_to_config in H1. cbv zeta in H1. unfold is_leader in H1. cbn [r_state set_r_learner set_r_trk role_eqb] in H1.
    cbn [negb orb] in H1. rewrite andb_false_r in H1. inv H1. cbn. auto. }
  assert (T2 : r_tape r2 = tape /\ r_cfg r2 = cfg_of c).
  { destruct (is_empty_hs _); [inv H2; auto|]. unfold load_state in H2. destruct (_ || _); [discriminate|]. inv H2. auto. }
  assert (T3 : r_tape r3 = tape /\ r_cfg r3 = cfg_of c).
  { destruct (0 <? _); [|inv H3; auto]. apply bind_ok in H3. destruct H3 as (l & _ & H3). inv H3. auto. }
  clear H1 H2 H3 T1 T2 F. apply Ok_inj in H. unfold become_follower in H. hide (reset (r_term r3) r3) r4 E4.
  assert (H0' : 0 < k_el_timeout (r_cfg r3)) by (rewrite (proj2 T3); cbn; lia).
  pose proof (rand_ok_reset _ _ _ E4 H0') as K. destruct (reset_more _ _ _ E4) as (_&_&_&_&_&_&_&_&_&A2&A3). clear E4. subst r.
  split; [revert K; apply rand_ok_eq; reflexivity|]. cbn. rewrite A2, A3. destruct T3 as [T3 T3']. rewrite T3, T3'. cbn [k_el_timeout cfg_of]. split; auto.
Qed.

Lemma promotable_iff n : promotable (rn_raft n) = true <-> electable n.
Proof.
  unfold promotable, electable, trk_get. cbn [rn_status ns_id]. unfold log_has_pending_snapshot.
  destruct (mget (r_id (rn_raft n)) (t_progress (r_trk (rn_raft n)))) as [p|].
  - split.
    + intros H. apply andb_prop in H. destruct H as [H1 H2]. split; [exists p; split; auto; destruct (p_learner p); auto; discriminate|].
      intros s Es. rewrite Es in H2. lia.
    + intros [(q & Hq & Hl) Hs]. inv Hq. rewrite Hl. cbn. destruct (u_snap _) as [s|]; auto. rewrite (Hs s eq_refl). reflexivity.
  - split; [discriminate|]. intros [(q & Hq & _) _]. discriminate.
Qed.
Lemma promotable_false n : promotable (rn_raft n) = false <-> ~ electable n.
Proof. rewrite <- promotable_iff. destruct (promotable (rn_raft n)); split; auto; try discriminate. intros H. exfalso; auto. Qed.

(** Ticks of a node that is not leader. *)
Definition elapse (k : N) (n : rawnode) : rawnode :=
  set_rn_raft (set_r_el_elapsed (r_el_elapsed (rn_raft n) + k) (rn_raft n)) n.
Definition at_rest (n : rawnode) : rawnode := set_rn_raft (set_r_el_elapsed 0 (rn_raft n)) n.

Lemma elapse_elapse j k n : elapse j (elapse k n) = elapse (j + k) n.
Proof. unfold elapse, set_rn_raft, set_r_el_elapsed. cbn. do 2 f_equal. lia. Qed.
Lemma tick_quiet n : r_state (rn_raft n) <> RLeader ->
  promotable (rn_raft n) = false \/ r_el_elapsed (rn_raft n) + 1 < r_rand_timeout (rn_raft n) ->
  rn_tick n = Ok (elapse 1 n).
Proof.
  intros Hl Hq. unfold rn_tick, tick, tick_election.
  assert (Hb : promotable (set_r_el_elapsed (r_el_elapsed (rn_raft n) + 1) (rn_raft n)) &&
     past_election_timeout (set_r_el_elapsed (r_el_elapsed (rn_raft n) + 1) (rn_raft n)) = false).
  { destruct Hq as [Hq|Hq]; [change (promotable (set_r_el_elapsed _ _)) with (promotable (rn_raft n)); rewrite Hq; auto|].
    apply andb_false_intro2. unfold past_election_timeout. cbn. apply N.leb_gt. lia. }
  destruct (r_state (rn_raft n)); try tauto; cbv zeta; rewrite Hb; reflexivity.
Qed.
Lemma hup_step m r : m_term m = 0 -> m_type m = MsgHup ->
  step m r = okr (hup (if k_pre_vote (r_cfg r) then CPreElection else CElection) r).
Proof. intros H1 H2. unfold step. rewrite H1. cbn. unfold step_dispatch. rewrite H2. reflexivity. Qed.
Lemma tick_fires n : r_state (rn_raft n) <> RLeader -> promotable (rn_raft n) = true ->
  r_rand_timeout (rn_raft n) <= r_el_elapsed (rn_raft n) + 1 ->
  rn_tick n = ('(n', _) <- rn_campaign (at_rest n) ;; Ok n').
Proof.
  intros Hl Hp Hq. unfold rn_tick, tick, tick_election, rn_campaign, rn_raft_step.
  assert (Hb : promotable (set_r_el_elapsed (r_el_elapsed (rn_raft n) + 1) (rn_raft n)) &&
     past_election_timeout (set_r_el_elapsed (r_el_elapsed (rn_raft n) + 1) (rn_raft n)) = true).
  { change (promotable (set_r_el_elapsed _ _)) with (promotable (rn_raft n)). rewrite Hp.
    unfold past_election_timeout. cbn. apply N.leb_le. lia. }
  cbv zeta. rewrite Hb, !hup_step by reflexivity. cbn [rn_raft at_rest set_rn_raft].
  change (set_r_el_elapsed 0 (set_r_el_elapsed (r_el_elapsed (rn_raft n) + 1) (rn_raft n))) with (set_r_el_elapsed 0 (rn_raft n)).
  unfold okr, at_rest, set_rn_raft. cbn [rn_prev_soft rn_prev_hard rn_ready].
  destruct (r_state (rn_raft n)); try tauto; cbn [rn_raft]; destruct (hup _ _); reflexivity.
Qed.

(** Becoming a pre-candidate keeps term and vote. *)
Lemma send_vote_reqs t term tr l r r' : mfold (send_vote_req t term tr) l r = Ok r' ->
  exists ms, r' = set_r_msgs (r_msgs r ++ ms) r.
Proof.
  intros H.
  apply (mfold_inv (send_vote_req t term tr) (fun a b => exists ms, b = set_r_msgs (r_msgs a ++ ms) a) l) in H; auto.
  - intros s. exists []. rewrite app_nil_r. destruct s; auto.
  - intros a b c [x ->] [y ->]. exists (x ++ y). rewrite app_assoc. reflexivity.
  - intros a s s' _ Hs. unfold send_vote_req in Hs. apply bind_ok in Hs. destruct Hs as (lt & _ & Hs).
    apply send_ok in Hs. destruct Hs as [-> _]. eexists [_]. reflexivity.
Qed.
Lemma campaign_real_state tr r r' : campaign_real tr r = Ok r' ->
  (r_state r' = RCandidate \/ r_state r' = RLeader) /\ r_term r' = r_term r + 1 /\ r_vote r' = r_id r.
Proof.
  unfold campaign_real. intros H. apply bind_ok in H. destruct H as (r1 & H1 & H).
  apply become_candidate_all in H1. destruct H1 as (A0&A1&A2&A3&A4&A5&A6&A7&A8&A9&A10&A11).
  destruct (poll (r_id r1) true r1) as [r2 v] eqn:Hp. unfold poll in Hp. inv Hp.
  assert (K : mfold (send_vote_req MsgVote (r_term r1) tr) (other_voters (set_r_trk (trk_record_vote (r_id r1) true (r_trk r1)) r1))
     (set_r_trk (trk_record_vote (r_id r1) true (r_trk r1)) r1) = Ok r' -> 
     (r_state r' = RCandidate \/ r_state r' = RLeader) /\ r_term r' = r_term r + 1 /\ r_vote r' = r_id r).
  { intros K. apply send_vote_reqs in K. destruct K as [ms ->]. cbn. auto. }
  destruct (tc_vote_result _ _) in H; auto. apply become_leader_all in H. destruct H as (B0&B1&B2&B3&B4&_).
  cbn in B2, B3. split; [auto|]. split; congruence.
Qed.
Lemma hup_state t r r' : hup t r = Ok r' -> r' = r \/
  (r_state r' = RPreCandidate /\ r_term r' = r_term r /\ r_vote r' = r_vote r) \/
  ((r_state r' = RCandidate \/ r_state r' = RLeader) /\ r_term r' = r_term r + 1 /\ r_vote r' = r_id r).
Proof.
  unfold hup. destruct (is_leader r); [intros H; inv H; auto|]. destruct (negb (promotable r)); [intros H; inv H; auto|].
  intros H. apply bind_ok in H. destruct H as ([ents|] & _ & H); [|discriminate].
  destruct (_ && _); [inv H; auto|]. right. destruct t; cbn [campaign] in H; try (apply campaign_real_state in H; auto; fail).
  apply bind_ok in H. destruct H as (r1 & H1 & H).
  apply become_pre_all in H1. destruct H1 as (A0&A1&A2&A3&A4&A5&A6&A7&A8&A9&A10&A11).
  destruct (poll (r_id r1) true r1) as [r2 v] eqn:Hp. unfold poll in Hp. inv Hp.
  assert (K : mfold (send_vote_req MsgPreVote (r_term r1 + 1) false) (other_voters (set_r_trk (trk_record_vote (r_id r1) true (r_trk r1)) r1))
     (set_r_trk (trk_record_vote (r_id r1) true (r_trk r1)) r1) = Ok r' -> 
     (r_state r' = RPreCandidate /\ r_term r' = r_term r /\ r_vote r' = r_vote r)).
  { intros K. apply send_vote_reqs in K. destruct K as [ms ->]. cbn. auto. }
  destruct (tc_vote_result _ _) in H; auto. apply campaign_real_state in H. cbn [r_term r_id r_cfg set_r_trk] in H. right.
  change (r_id (set_r_trk _ r1)) with (r_id r1) in H. unfold r_id in *. rewrite A1 in H. rewrite <- A2. exact H.
Qed.
End Time.
