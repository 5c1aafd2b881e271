(** What the composite functions leave unchanged. *)
From Verif Require Import Prelude Types M_Util M_Quorum M_Inflights M_Progress M_Tracker.
From Verif Require Import M_Storage M_Unstable M_Log M_ReadOnly M_ConfPb M_ConfChange M_Raft M_RawNode.
From Verif Require Import P_Inflights P_Frame P_Prim Sys_Node P_Node.

(** Name a term without leaving its body around. *)
Ltac hide tm x Hx :=
  let X := fresh in assert (X : exists x, x = tm) by (eexists; reflexivity);
  destruct X as [x Hx]; rewrite <- ?Hx in *.

Section Fields.
Context {E : Env}.

Lemma Ok_inj {A} (a b : A) : Ok a = Ok b -> a = b. Proof. congruence. Qed.

Lemma filter_prop_fields es : forall i r es' r', filter_prop i es r = Ok (es', r') ->
  exists k, r' = set_r_pending_conf k r.
Proof.
  induction es as [|e es IH]; intros i r es' r' H; cbn [filter_prop] in H.
  - inv H. exists (r_pending_conf r'). destruct r'; auto.
  - apply bind_ok in H. destruct H as (o & Ho & H).
    destruct o as [cc|]; [destruct (cc_refused cc (r_pending_conf r) r)|]; cbv iota beta in H;
      apply bind_ok in H; destruct H as ([t' r''] & Ht & H); inv H; apply IH in Ht; destruct Ht as [k ->];
      exists k; destruct r; reflexivity.
Qed.

Lemma reset_fields t r r' : r' = reset t r ->
  r_cfg r' = r_cfg r /\ r_term r' = t /\ r_vote r' = (if r_term r =? t then r_vote r else 0) /\
  r_log r' = r_log r /\ r_state r' = r_state r /\ r_learner r' = r_learner r /\ r_msgs r' = r_msgs r /\
  r_lead r' = 0 /\ t_config (r_trk r') = t_config (r_trk r) /\ t_votes (r_trk r') = [] /\
  t_max_inflight (r_trk r') = t_max_inflight (r_trk r).
Proof. intros ->. unfold reset. cbv zeta. cbn. destruct (N.eqb_spec (r_term r) t); cbn; subst; repeat split; auto. Qed.

Lemma reset_id t r : r_id (reset t r) = r_id r.
Proof. unfold r_id. destruct (reset_fields t r _ eq_refl) as [-> _]; auto. Qed.
Lemma become_leader_inv r r' : become_leader r = Ok r' -> exists pr r1 u,
  r_state r <> RFollower /\ trk_get (r_id r) (r_trk (reset (r_term r) r)) = Some pr /\
  append_entry [empty_entry] (lead_base pr (reset (r_term r) r)) = Ok (Some r1) /\ r' = set_r_uncommitted u r1.
Proof.
  unfold become_leader. destruct (role_eqb (r_state r) RFollower) eqn:Hf; [discriminate|].
  rewrite <- (reset_id (r_term r) r). hide (reset (r_term r) r) r0 Er0. clear Er0.
  unfold become_leader_reset.
  destruct (trk_get (r_id r0) (r_trk r0)) as [pr|] eqn:Hg; [|discriminate]. intros H.
  apply bind_ok in H. destruct H as ([r1|] & Hm & H); [|discriminate].
  destruct (reduce_uncommitted_fields [empty_entry] r1) as [u Hu]. rewrite Hu in H. inv H.
  exists pr, r1, u. repeat split; auto. intros X; rewrite X in Hf; discriminate.
Qed.

Lemma become_follower_fields t l r r' : r' = become_follower t l r ->
  r_cfg r' = r_cfg r /\ r_term r' = t /\ r_vote r' = (if r_term r =? t then r_vote r else 0) /\
  r_log r' = r_log r /\ r_state r' = RFollower /\ r_learner r' = r_learner r /\ r_msgs r' = r_msgs r /\
  r_lead r' = l /\ t_config (r_trk r') = t_config (r_trk r) /\ t_votes (r_trk r') = [] /\
  t_max_inflight (r_trk r') = t_max_inflight (r_trk r).
Proof.
  unfold become_follower. hide (reset t r) r0 Er0. intros ->.
  destruct (reset_fields t r _ Er0) as (A1&A2&A3&A4&A5&A6&A7&A8&A9&A10&A11). clear Er0. cbn. repeat split; auto.
Qed.
Lemma become_candidate_all r r' : become_candidate r = Ok r' ->
  r_state r <> RLeader /\ r_cfg r' = r_cfg r /\ r_term r' = r_term r + 1 /\ r_vote r' = r_id r /\
  r_log r' = r_log r /\ r_state r' = RCandidate /\ r_learner r' = r_learner r /\ r_msgs r' = r_msgs r /\
  r_lead r' = 0 /\ t_config (r_trk r') = t_config (r_trk r) /\ t_votes (r_trk r') = [] /\
  t_max_inflight (r_trk r') = t_max_inflight (r_trk r).
Proof.
  unfold become_candidate. destruct (is_leader r) eqn:Hl; [discriminate|]. intros H; apply Ok_inj in H.
  pose proof (reset_id (r_term r + 1) r) as Hid. hide (reset (r_term r + 1) r) r0 Er0. subst r'.
  destruct (reset_fields _ _ _ Er0) as (A1&A2&A3&A4&A5&A6&A7&A8&A9&A10&A11). clear Er0. cbn. repeat split; auto.
  intros X. unfold is_leader in Hl. rewrite X in Hl. discriminate.
Qed.
Lemma become_pre_all r r' : become_pre_candidate r = Ok r' ->
  r_state r <> RLeader /\ r_cfg r' = r_cfg r /\ r_term r' = r_term r /\ r_vote r' = r_vote r /\
  r_log r' = r_log r /\ r_state r' = RPreCandidate /\ r_learner r' = r_learner r /\ r_msgs r' = r_msgs r /\
  r_lead r' = 0 /\ t_config (r_trk r') = t_config (r_trk r) /\ t_votes (r_trk r') = [] /\
  t_max_inflight (r_trk r') = t_max_inflight (r_trk r) /\ t_progress (r_trk r') = t_progress (r_trk r).
Proof.
  unfold become_pre_candidate. destruct (is_leader r) eqn:Hl; [discriminate|]. intros H; apply Ok_inj in H; subst r'. cbn. repeat split; auto.
  intros X. unfold is_leader in Hl. rewrite X in Hl. discriminate.
Qed.
Lemma become_leader_all r r' : become_leader r = Ok r' ->
  r_state r <> RFollower /\ r_cfg r' = r_cfg r /\ r_term r' = r_term r /\ r_vote r' = r_vote r /\
  r_state r' = RLeader /\ r_learner r' = r_learner r /\ r_msgs r' = r_msgs r /\ r_lead r' = r_id r /\
  t_config (r_trk r') = t_config (r_trk r) /\ t_max_inflight (r_trk r') = t_max_inflight (r_trk r).
Proof.
  intros H. apply become_leader_inv in H. destruct H as (pr & r1 & u & H1 & H2 & H3 & ->).
  apply append_entry_fields in H3. destruct H3 as (l & p & u' & ->).
  pose proof (reset_id (r_term r) r) as Hid. hide (reset (r_term r) r) r0 Er0.
  destruct (reset_fields _ _ _ Er0) as (A1&A2&A3&A4&A5&A6&A7&A8&A9&A10&A11). rewrite N.eqb_refl in A3.
  clear Er0. cbn. repeat split; auto.
Qed.
Lemma prop_fields es r es' r1 r' : filter_prop 0 es r = Ok (es', r1) ->
  (append_entry es' r1 = Ok (Some r') \/ append_entry es' r1 = Ok None /\ r' = r1) ->
  r_cfg r' = r_cfg r /\ r_term r' = r_term r /\ r_vote r' = r_vote r /\ r_state r' = r_state r /\
  r_learner r' = r_learner r /\ r_msgs r' = r_msgs r /\ r_lead r' = r_lead r /\
  t_config (r_trk r') = t_config (r_trk r) /\ t_max_inflight (r_trk r') = t_max_inflight (r_trk r) /\
  t_votes (r_trk r') = t_votes (r_trk r).
Proof.
  intros H1 H2. apply filter_prop_fields in H1. destruct H1 as [k ->]. destruct H2 as [H2|[_ ->]].
  - apply append_entry_fields in H2. destruct H2 as (l & p & u & ->). cbn. repeat split; auto.
  - cbn. repeat split; auto.
Qed.
Lemma restore_inv s r r1 : r_state r = RFollower -> raft_restore s r = Ok (r1, true) ->
  l_committed (r_log r) < sn_index s /\
  (smem (r_id r) (cs_voters (sn_conf s)) || smem (r_id r) (cs_learners (sn_conf s))
     || smem (r_id r) (cs_outgoing (sn_conf s))) = true /\
  log_match_term (sn_index s) (sn_term s) (r_log r) = Ok false /\
  exists cp pr pr' b,
    cc_restore (mkChanger (new_tracker (t_max_inflight (r_trk r))) (log_last (log_restore s (r_log r)))) (sn_conf s) = SOk cp /\
    confstate_eqb (sn_conf s) (trk_confstate (set_t_progress (snd cp) (set_t_config (fst cp) (new_tracker (t_max_inflight (r_trk r)))))) = true /\
    mget (r_id r) (snd cp) = Some pr /\ pr_maybe_update (wsub (p_next pr) 1) pr = (pr', b) /\
    r1 = put_progress (r_id r) pr' (set_r_learner (p_learner pr)
          (set_r_trk (set_t_progress (snd cp) (set_t_config (fst cp) (new_tracker (t_max_inflight (r_trk r)))))
          (set_r_log (log_restore s (r_log r)) r))).
Proof.
  intros Hf. unfold raft_restore. destruct (N.leb_spec (sn_index s) (l_committed (r_log r))); [discriminate|].
  rewrite Hf. cbn [role_eqb negb].
  match goal with |- context[negb ?b] => destruct b eqn:Hb end; cbn [negb]; [|discriminate].
  intros H0. mon. destruct x; mon. 
  match goal with H : context[cc_restore ?a ?b] |- _ => destruct (cc_restore a b) as [cp|] eqn:Hc end; [|discriminate].
  mon. destruct x as [r2 cs2].
  unfold switch_to_config in Hm0. cbv zeta in Hm0.
  unfold is_leader in Hm0. cbn [r_state set_r_learner set_r_trk set_r_log] in Hm0. rewrite Hf in Hm0.
  cbn [role_eqb negb orb] in Hm0. rewrite andb_false_r in Hm0. inv Hm0.
  match goal with H : context[negb ?b] |- _ => destruct b eqn:Hcs end; cbn [negb] in H0; [|discriminate].
  unfold trk_get in H0. cbn [r_trk set_r_learner set_r_trk set_r_log t_progress set_t_progress r_id r_cfg] in H0.
  change (r_id (set_r_learner _ _)) with (r_id r) in H0.
  destruct (mget (r_id r) (snd cp)) as [pr|] eqn:Hg; [|discriminate].
  destruct (pr_maybe_update (wsub (p_next pr) 1) pr) as [pr' b] eqn:Hu. inv H0.
  split; auto. split; auto. split; auto. exists cp, pr, pr', b.
  repeat split; auto. unfold trk_get; cbn. change (r_id (set_r_trk _ _)) with (r_id r). rewrite Hg. auto.
Qed.
Lemma restore_fields s r r1 : r_state r = RFollower -> raft_restore s r = Ok (r1, true) ->
  r_cfg r1 = r_cfg r /\ r_term r1 = r_term r /\ r_vote r1 = r_vote r /\ r_log r1 = log_restore s (r_log r) /\
  r_state r1 = RFollower /\ r_msgs r1 = r_msgs r /\ r_lead r1 = r_lead r.
Proof.
  intros Hf H. apply restore_inv in H; auto. destruct H as (_ & _ & _ & cp & pr & pr' & b & _ & _ & _ & _ & ->).
  cbn. repeat split; auto.
Qed.
Lemma raft_commit_fields r r' b : raft_maybe_commit r = Ok (r', b) ->
  r_cfg r' = r_cfg r /\ r_term r' = r_term r /\ r_vote r' = r_vote r /\ r_state r' = r_state r /\
  r_learner r' = r_learner r /\ r_msgs r' = r_msgs r /\ r_lead r' = r_lead r /\ r_trk r' = r_trk r.
Proof. intros H. apply raft_maybe_commit_state in H. destruct H as [l ->]. cbn; repeat split; auto. Qed.
End Fields.
