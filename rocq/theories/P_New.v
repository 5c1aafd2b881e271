(** What creating a node yields. *)
From Verif Require Import Prelude Types M_Util M_Quorum M_Inflights M_Progress M_Tracker.
From Verif Require Import M_Storage M_Unstable M_Log M_ReadOnly M_ConfPb M_ConfChange M_Raft M_RawNode.
From Verif Require Import P_Inflights P_Frame P_Prim P_Fields.

Section New.
Context {E : Env}.

(** Validate only fills in defaults. *)
Lemma validate_ok c c' : validate c = (c', None) ->
  c_id c <> 0 /\ (0 < c_heartbeat_tick c)%Z /\ (c_heartbeat_tick c < c_election_tick c)%Z /\
  c_storage c <> None /\ (0 < c_max_inflight c)%Z /\ (c_ro c = RoLeaseBased -> c_check_quorum c = true) /\
  c' = mkConfig (c_id c) (c_election_tick c) (c_heartbeat_tick c) (c_storage c) (c_applied c) (c_max_size c)
         (if c_max_committed c =? 0 then c_max_size c else c_max_committed c)
         (if c_max_uncommitted c =? 0 then UINT64_MAX else c_max_uncommitted c)
         (c_max_inflight c) (c_check_quorum c) (c_pre_vote c) (c_ro c) (c_disable_fwd c).
Proof.
  unfold validate. destruct (N.eqb_spec (c_id c) 0); [discriminate|].
  destruct (Z.leb_spec (c_heartbeat_tick c) 0); [discriminate|].
  destruct (Z.leb_spec (c_election_tick c) (c_heartbeat_tick c)); [discriminate|].
  destruct (c_storage c) eqn:Hs; [|discriminate]. destruct (Z.leb_spec (c_max_inflight c) 0); [discriminate|].
  destruct (roption_eqb (c_ro c) RoLeaseBased && negb (c_check_quorum c)) eqn:Hr; [discriminate|]. intros Hx. inv Hx.
  repeat split; auto; try discriminate. intros X. rewrite X in Hr. cbn in Hr. destruct (c_check_quorum c); auto; discriminate.
Qed.
Lemma validate_complete c : c_id c <> 0 -> (0 < c_heartbeat_tick c)%Z -> (c_heartbeat_tick c < c_election_tick c)%Z ->
  c_storage c <> None -> (0 < c_max_inflight c)%Z -> (c_ro c = RoLeaseBased -> c_check_quorum c = true) ->
  snd (validate c) = None.
Proof.
  intros H1 H2 H3 H4 H5 H6. unfold validate. destruct (N.eqb_spec (c_id c) 0); [tauto|].
  destruct (Z.leb_spec (c_heartbeat_tick c) 0); [lia|].
  destruct (Z.leb_spec (c_election_tick c) (c_heartbeat_tick c)); [lia|].
  destruct (c_storage c) eqn:Hs; [|tauto]. destruct (Z.leb_spec (c_max_inflight c) 0); [lia|].
  destruct (c_ro c) eqn:Hr; cbn; auto. rewrite H6; auto.
Qed.

Definition cfg_of (c : config) : rcfg :=
  mkRCfg (c_id c) (c_max_size c) (if c_max_uncommitted c =? 0 then UINT64_MAX else c_max_uncommitted c)
    (c_check_quorum c) (c_pre_vote c) (Z.to_N (c_heartbeat_tick c)) (Z.to_N (c_election_tick c)) (c_disable_fwd c).
Definition max_committed_of (c : config) : N := if c_max_committed c =? 0 then c_max_size c else c_max_committed c.

Record fresh_raft (c : config) (s : mstorage) (cp : cfgprs) (r : raft) : Prop := {
  fr_cfg : r_cfg r = cfg_of c;
  fr_term : r_term r = hs_term (ms_hs s);
  fr_vote : r_vote r = hs_vote (ms_hs s);
  fr_state : r_state r = RFollower;
  fr_lead : r_lead r = 0;
  fr_msgs : r_msgs r = [];
  fr_reads : r_read_states r = [];
  fr_tconf : t_config (r_trk r) = fst cp;
  fr_prs : forall id, mget id (t_progress (r_trk r)) = option_map (fun pr =>
      let p := new_progress (r_last r + 1) 0 (Z.to_N (c_max_inflight c)) (p_learner pr) false in
      if id =? c_id c then set_p_match (r_last r) p else p) (mget id (snd cp));
  fr_keys : keys (t_progress (r_trk r)) = keys (snd cp);
  fr_votes : t_votes (r_trk r) = [];
  fr_maxinf : t_max_inflight (r_trk r) = Z.to_N (c_max_inflight c);
  fr_log : r_log r =
     set_l_applied (if 0 <? c_applied c then c_applied c else ms_first_index s - 1)
       (set_l_committed (if is_empty_hs (ms_hs s) then ms_first_index s - 1 else hs_commit (ms_hs s))
         (new_log s (max_committed_of c)));
  fr_learner : r_learner r = match mget (c_id c) (snd cp) with Some p => p_learner p | None => false end;
  fr_ro : r_ro r = new_readonly (c_ro c);
  fr_pend : r_pend_reads r = [];
  fr_transferee : r_transferee r = 0;
  fr_pconf : r_pending_conf r = 0;
  fr_unc : r_uncommitted r = 0;
  fr_el : r_el_elapsed r = 0;
  fr_hb : r_hb_elapsed r = 0
}.

Lemma reset_more t r r' : r' = reset t r ->
  r_read_states r' = r_read_states r /\ r_ro r' = new_readonly (ro_option (r_ro r)) /\ r_pend_reads r' = r_pend_reads r /\
  r_transferee r' = 0 /\ r_pending_conf r' = 0 /\ r_uncommitted r' = 0 /\ r_el_elapsed r' = 0 /\ r_hb_elapsed r' = 0 /\
  t_progress (r_trk r') = mmap (fun id pr =>
      let p := new_progress (r_last r + 1) 0 (t_max_inflight (r_trk r)) (p_learner pr) false in
      if id =? r_id r then set_p_match (r_last r) p else p) (t_progress (r_trk r)) /\
  r_rand_timeout r' = k_el_timeout (r_cfg r) + match r_tape r with [] => 0 | n :: _ => n end mod k_el_timeout (r_cfg r) /\
  r_tape r' = tl (r_tape r).
Proof.
  intros ->. unfold reset, reset_rand. cbv zeta. destruct (r_term r =? t); cbn; repeat split; auto.
Qed.

(** Creating a Raft succeeds exactly like this. *)
Lemma raft_new_spec c tape r : raft_new c tape = Ok r -> exists s cp,
  snd (validate c) = None /\ c_storage c = Some s /\
  cc_restore (mkChanger (new_tracker (Z.to_N (c_max_inflight c))) (ms_last_index s)) (sn_conf (ms_snap s)) = SOk cp /\
  confstate_eqb (sn_conf (ms_snap s))
    (trk_confstate (set_t_progress (snd cp) (set_t_config (fst cp) (new_tracker (Z.to_N (c_max_inflight c)))))) = true /\
  (is_empty_hs (ms_hs s) = true \/ ms_first_index s - 1 <= hs_commit (ms_hs s) <= ms_last_index s) /\
  (c_applied c = 0 \/ ms_first_index s - 1 <= c_applied c <= (if is_empty_hs (ms_hs s) then ms_first_index s - 1 else hs_commit (ms_hs s))) /\
  fresh_raft c s cp r.
Proof.
  unfold raft_new. destruct (validate c) as [c' [e|]] eqn:Hv; [discriminate|].
  apply validate_ok in Hv. destruct Hv as (V1 & V2 & V3 & V4 & V5 & V6 & ->). cbn [c_storage c_applied c_id c_max_committed c_max_inflight c_ro].
  destruct (c_storage c) as [s|] eqn:Hs; [|discriminate]. unfold ms_initial_state. cbv zeta iota beta.
  fold (max_committed_of c).
  set (k := mkRCfg _ _ _ _ _ _ _ _). change k with (cfg_of c). clear k.
  set (r0 := mkRaft _ _ _ _ _ _ _ _ _ _ _ _ _ _ _ _ _ _ _).
  change (r_trk r0) with (new_tracker (Z.to_N (c_max_inflight c))).
  change (log_last (new_log s (max_committed_of c))) with (ms_last_index s).
  destruct (cc_restore _ _) as [cp|] eqn:Hc; [|discriminate]. intros H. apply bind_ok in H. destruct H as ([r1 cs2] & H1 & H).
  unfold switch_to_config in H1. cbv zeta in H1. unfold is_leader in H1. cbn [r_state set_r_learner set_r_trk r0 role_eqb] in H1.
  cbn [negb orb] in H1. rewrite andb_false_r in H1. inv H1.
  match type of H with (if negb ?b then _ else _) = _ => destruct b eqn:Hcs; [|discriminate] end. cbn [negb] in H.
  exists s, cp. split; [reflexivity|]. split; auto. split; auto. split; [exact Hcs|].
  apply bind_ok in H. destruct H as (r2 & H2 & H). apply bind_ok in H. destruct H as (r3 & H3 & H).
  apply Ok_inj in H.
  match type of H2 with (if _ then Ok ?a else _) = _ => set (ra := a) in * end.
  assert (A2 : r2 = set_r_vote (hs_vote (ms_hs s)) (set_r_term (hs_term (ms_hs s)) (set_r_log (set_l_committed (if is_empty_hs (ms_hs s) then ms_first_index s - 1 else hs_commit (ms_hs s)) (new_log s (max_committed_of c))) ra)) /\
     (is_empty_hs (ms_hs s) = true \/ ms_first_index s - 1 <= hs_commit (ms_hs s) <= ms_last_index s)).
  { destruct (is_empty_hs (ms_hs s)) eqn:He.
    - inv H2. split; auto. unfold is_empty_hs in He. unfold ra, r0.
      replace (hs_vote (ms_hs s)) with 0 by lia. replace (hs_term (ms_hs s)) with 0 by lia. reflexivity.
    - unfold load_state in H2.
      change (l_committed (r_log ra)) with (ms_first_index s - 1) in H2. change (r_last ra) with (ms_last_index s) in H2.
      destruct (_ || _) eqn:Hb; [discriminate|]. inv H2. split; [reflexivity|right; lia]. }
  destruct A2 as [A2 A2']. split; [exact A2'|]. clear H2.
  assert (A3 : r3 = set_r_log (set_l_applied (if 0 <? c_applied c then c_applied c else ms_first_index s - 1) (r_log r2)) r2 /\
    (c_applied c = 0 \/ ms_first_index s - 1 <= c_applied c <= (if is_empty_hs (ms_hs s) then ms_first_index s - 1 else hs_commit (ms_hs s)))).
  { destruct (N.ltb_spec 0 (c_applied c)).
    - apply bind_ok in H3. destruct H3 as (l & H3 & H4). unfold log_applied_to in H3.
      destruct (N.eqb_spec (c_applied c) 0); [lia|]. rewrite A2 in H3.
      cbn [r_log set_r_vote set_r_term set_r_log l_committed set_l_committed l_applied new_log] in H3.
      destruct (_ || _) eqn:Hb; [discriminate|]. inv H3. inv H4. split; [reflexivity|right; lia].
    - inv H3. split; [reflexivity|left; lia]. }
  destruct A3 as [A3 A3']. split; [exact A3'|]. clear H3.
  assert (F : r_cfg r3 = cfg_of c /\ r_term r3 = hs_term (ms_hs s) /\ r_vote r3 = hs_vote (ms_hs s) /\ r_msgs r3 = [] /\
     r_read_states r3 = [] /\ t_config (r_trk r3) = fst cp /\ t_progress (r_trk r3) = snd cp /\
     t_max_inflight (r_trk r3) = Z.to_N (c_max_inflight c) /\ r_log r3 =
     set_l_applied (if 0 <? c_applied c then c_applied c else ms_first_index s - 1)
       (set_l_committed (if is_empty_hs (ms_hs s) then ms_first_index s - 1 else hs_commit (ms_hs s))
         (new_log s (max_committed_of c))) /\
     r_learner r3 = match mget (c_id c) (snd cp) with Some p => p_learner p | None => false end /\
     ro_option (r_ro r3) = c_ro c /\ r_pend_reads r3 = []).
  { rewrite A3, A2. unfold ra, r0. repeat split; reflexivity. }
  clear A2 A3 Hcs. clearbody ra. clear ra r0. 
  destruct F as (F1&F2&F3&F4&F5&F6&F7&F8&F9&F10&F11&F12).
  unfold become_follower in H. hide (reset (r_term r3) r3) r4 E4.
  destruct (reset_fields _ _ _ E4) as (B1&B2&B3&B4&B5&B6&B7&B8&B9&B10&B11). rewrite N.eqb_refl in B3.
  destruct (reset_more _ _ _ E4) as (C1&C2&C3&C4&C5&C6&C7&C8&C9&_).
  clear E4. subst r.
  constructor; cbn [r_cfg r_term r_vote r_state r_lead r_msgs r_read_states r_trk r_log r_learner r_ro r_pend_reads r_transferee r_pending_conf r_uncommitted r_el_elapsed r_hb_elapsed set_r_state set_r_lead]; try congruence.
  - intros id. rewrite C9, mget_mmap. unfold r_last. cbn [r_log set_r_state set_r_lead]. rewrite B4, F7, F8. unfold r_id. rewrite F1. reflexivity.
  - rewrite C9, keys_mmap. congruence.
Qed.

Lemma rn_new_spec c tape n : rn_new c tape = Ok n -> exists r, raft_new c tape = Ok r /\
  n = mkRN r (soft_state r) (hard_state r) None.
Proof. unfold rn_new. intros H. apply bind_ok in H. destruct H as (r & H1 & H2). inv H2. eauto. Qed.
Lemma rn_new_fresh c tape n : rn_new c tape = Ok n ->
  r_msgs (rn_raft n) = [] /\ rn_prev_hard n = hard_state (rn_raft n) /\ rn_ready n = None.
Proof.
  intros H. apply rn_new_spec in H. destruct H as (r & H & ->). apply raft_new_spec in H.
  destruct H as (s & cp & _ & _ & _ & _ & _ & _ & F). cbn. split; [apply F|auto].
Qed.
End New.
