(** The loop body with membership changes applied before Advance. *)
From Verif Require Import Prelude Types M_Util M_Quorum M_Inflights M_Progress M_Tracker.
From Verif Require Import M_Storage M_Unstable M_Log M_ReadOnly M_ConfPb M_ConfChange M_Raft M_RawNode.
From Verif Require Import P_Inflights Spec_Log P_Lists P_Storage P_Log Spec_Storage Sys_Storage P_StorageSeq Spec_RaftLog Sys_RaftLog P_RaftLogSeq.
From Verif Require Import P_Frame P_Prim Sys_Node P_Node P_Fields P_Persist P_NodeLog P_Handle P_NodeRun Spec_Node Spec_Prop Prop_Prop Sys_Loop.

Section Loop.
Context {E : Env}.

(** What applying membership changes leaves alone. *)
Record confed (r r' : raft) : Prop := {
  cf_log : exists c, r_log r' = set_l_committed c (r_log r) /\ l_committed (r_log r) <= c <= a_last (log_abs (r_log r));
  cf_state : r_state r' = r_state r;
  cf_term : r_term r' = r_term r;
  cf_vote : r_vote r' = r_vote r;
  cf_cfg : r_cfg r' = r_cfg r;
  cf_pend : r_pending_conf r' = r_pending_conf r;
  cf_unc : r_uncommitted r' = r_uncommitted r
}.
Lemma set_com_id l : set_l_committed (l_committed l) l = l. Proof. destruct l; reflexivity. Qed.
Lemma confed_log r r' : lwf (r_log r) -> r_log r' = r_log r -> r_state r' = r_state r -> r_term r' = r_term r -> r_vote r' = r_vote r ->
  r_cfg r' = r_cfg r -> r_pending_conf r' = r_pending_conf r -> r_uncommitted r' = r_uncommitted r -> confed r r'.
Proof. intros W H. constructor; auto. exists (l_committed (r_log r)). rewrite set_com_id. split; [auto|]. destruct (lwf_com _ W). lia. Qed.
Lemma confed_refl r : lwf (r_log r) -> confed r r.
Proof. intros W. apply confed_log; auto. Qed.
Lemma confed_trans a b c : confed a b -> confed b c -> confed a c.
Proof.
  intros [(x & A1 & A2) B1 B2 B3 B4 B5 B6] [(y & C1 & C2) D1 D2 D3 D4 D5 D6]. constructor; try congruence.
  exists y. rewrite C1, A1. split; [reflexivity|]. rewrite A1 in C2. cbn [l_committed set_l_committed] in C2. change (log_abs (set_l_committed x (r_log a))) with (log_abs (r_log a)) in C2. lia.
Qed.
Lemma confed_wf r r' : lwf (r_log r) -> confed r r' -> lwf (r_log r').
Proof.
  intros W [(c & -> & H) _ _ _ _ _ _]. destruct W as [W1 W2 W3 W4 W5]. constructor; auto; cbn [l_committed l_applied set_l_committed]; [|lia].
  change (log_abs (set_l_committed c (r_log r))) with (log_abs (r_log r)). lia.
Qed.
Lemma mfold_sends (f : N -> raft -> res raft) : (forall id a b, f id a = Ok b -> sends a b) -> forall l r r', mfold f l r = Ok r' -> sends r r'.
Proof. intros Hf l. apply (mfold_inv f sends); eauto using sends_refl, sends_trans. Qed.
Lemma switch_confed cp r r' cs : lwf (r_log r) -> (r_state r = RLeader -> 0 < r_term r) -> switch_to_config cp r = Ok (r', cs) -> confed r r' /\ t_config (r_trk r') = fst cp.
Proof.
  intros W Ht H. unfold switch_to_config in H. cbv zeta in H.
  match type of H with context[set_r_learner ?b ?x] => set (r0 := set_r_learner b x) in * end.
  assert (C0 : confed r r0) by (apply confed_log; auto; reflexivity).
  assert (G0 : t_config (r_trk r0) = fst cp) by reflexivity.
  assert (Hl : is_leader r0 = true -> 0 < r_term r0).
  { intros X. apply Ht. unfold is_leader in X. change (r_state r0) with (r_state r) in X. destruct (r_state r); auto; discriminate. }
  clearbody r0. match type of H with (if ?b then _ else _) = _ => destruct b end; [apply Ok_inj, pair_equal_spec in H; destruct H as [<- _]; auto|].
  match type of H with (if ?b then _ else _) = _ => destruct b eqn:Hb end; [apply Ok_inj, pair_equal_spec in H; destruct H as [<- _]; auto|].
  apply orb_false_elim in Hb. destruct Hb as [Hb _]. apply negb_false_iff in Hb. specialize (Hl Hb).
  apply bind_ok in H. destruct H as (r1 & H & Hx). apply Ok_inj, pair_equal_spec in Hx. destruct Hx as [<- _].
  unfold switch_leader in H. apply bind_ok in H. destruct H as ([r2 b2] & H2 & H). apply bind_ok in H. destruct H as (r3 & H3 & H).
  assert (W0 : lwf (r_log r0)) by (apply (confed_wf r); auto).
  destruct (commit_log_w _ _ _ W0 Hl H2) as (mci & _ & Eb & A3 & W2 & A5).
  assert (C2 : confed r0 r2 /\ t_config (r_trk r2) = t_config (r_trk r0)).
  { rewrite A3. destruct b2; [|split; [apply confed_refl; auto|reflexivity]]. split; [|reflexivity]. constructor; auto. exists mci. split; [reflexivity|].
    specialize (A5 eq_refl). apply a_term_range in A5. symmetry in Eb. apply andb_prop in Eb. destruct Eb as [Eb _]. apply N.ltb_lt in Eb. lia. }
  assert (S3 : sends r2 r3).
  { destruct b2; [apply bcast_append_sends; auto|]. revert H3. apply mfold_sends. intros id a b X. apply bind_ok in X. destruct X as ([q z] & X & Y). apply Ok_inj in Y. subst q. eapply maybe_send_append_sends; eauto. }
  destruct S3 as [[] _ _ _ _].
  assert (C3 : confed r2 r3 /\ t_config (r_trk r3) = t_config (r_trk r2)) by (split; [apply confed_log; auto|auto]).
  assert (C4 : confed r3 r1 /\ t_config (r_trk r1) = t_config (r_trk r3)).
  { assert (W3 : lwf (r_log r3)) by (rewrite sm_log; exact W2). match type of H with (if ?b then _ else _) = _ => destruct b end; apply Ok_inj in H; subst r1; (split; [apply confed_log; auto|reflexivity]). }
  destruct C2 as [C2 E2], C3 as [C3 E3], C4 as [C4 E4]. split; [|congruence].
  eapply confed_trans; [exact C0|]. eapply confed_trans; [exact C2|]. eapply confed_trans; [exact C3|exact C4].
Qed.
Lemma apply_cc_confed cc r r' cs : lwf (r_log r) -> (r_state r = RLeader -> 0 < r_term r) -> raft_apply_conf_change cc r = Ok (r', cs) -> confed r r'.
Proof.
  intros W Ht H. unfold raft_apply_conf_change in H. cbv zeta in H. apply bind_ok in H. destruct H as ([cp|] & _ & H); [|discriminate].
  eapply switch_confed; eauto.
Qed.
Lemma rn_apply_confed cc n n' cs : lwf (r_log (rn_raft n)) -> (r_state (rn_raft n) = RLeader -> 0 < r_term (rn_raft n)) -> rn_apply_conf_change cc n = Ok (n', cs) ->
  confed (rn_raft n) (rn_raft n') /\ n' = set_rn_raft (rn_raft n') n.
Proof.
  intros W Ht H. unfold rn_apply_conf_change in H. apply bind_ok in H. destruct H as (c & _ & H). apply bind_ok in H. destruct H as ([r1 c1] & H & Hx).
  apply Ok_inj, pair_equal_spec in Hx. destruct Hx as [<- _]. split; [eapply apply_cc_confed; eauto|reflexivity].
Qed.
Lemma apply_confs_confed es : forall n n', lwf (r_log (rn_raft n)) -> (r_state (rn_raft n) = RLeader -> 0 < r_term (rn_raft n)) -> apply_confs es n = Ok n' ->
  confed (rn_raft n) (rn_raft n') /\ n' = set_rn_raft (rn_raft n') n /\ (Forall (fun e => conf_of e = None) es -> n' = n).
Proof.
  induction es as [|e es IH]; intros n n' W Ht H; cbn [apply_confs] in H.
  - apply Ok_inj in H. subst n'. split; [apply confed_refl; auto|]. split; [destruct n; reflexivity|auto].
  - destruct (conf_of e) as [cc|] eqn:He.
    + apply bind_ok in H. destruct H as ([n1 cs] & H1 & H). destruct (rn_apply_confed _ _ _ _ W Ht H1) as [C1 E1].
      destruct (IH n1 n') as (C2 & E2 & _); auto; [eapply confed_wf; eauto|rewrite (cf_state _ _ C1), (cf_term _ _ C1); exact Ht|].
      split; [eapply confed_trans; eauto|]. split; [rewrite E2 at 1; rewrite E1; reflexivity|]. intros X. inversion_clear X. congruence.
    + destruct (IH n n' W Ht H) as (C2 & E2 & E3). split; [exact C2|]. split; [exact E2|]. intros X. inversion_clear X. auto.
Qed.

(** Advance after the changes. *)
Definition due (n n' : rawnode) (rd : ready) : Prop :=
  tc_auto_leave (t_config (r_trk (rn_raft n'))) = true /\ r_state (rn_raft n) = RLeader /\ 0 < applied_cursor rd /\
  l_applied (r_log (rn_raft n)) <= r_pending_conf (rn_raft n) <= applied_cursor rd.
Record lspec (n n' : rawnode) (rd : ready) : Prop := {
  ls_ready : ready_of n rd;
  ls_next : rd_committed rd = next_of (r_log (rn_raft n));
  ls_applied : l_applied (r_log (rn_raft n')) = applied_after rd (r_log (rn_raft n));
  ls_app_le : l_applied (r_log (rn_raft n)) <= applied_after rd (r_log (rn_raft n)) <= l_committed (r_log (rn_raft n));
  ls_com : l_committed (r_log (rn_raft n)) <= l_committed (r_log (rn_raft n'));
  ls_state : r_state (rn_raft n') = r_state (rn_raft n);
  ls_term : r_term (rn_raft n') = r_term (rn_raft n);
  ls_vote : r_vote (rn_raft n') = r_vote (rn_raft n);
  ls_cfg : r_cfg (rn_raft n') = r_cfg (rn_raft n);
  ls_st : ms_abs (node_storage n') = log_abs (r_log (rn_raft n));
  ls_prev : rn_prev_hard n' = hard_state (rn_raft n);
  ls_conf : Forall (fun e => conf_of e = None) (rd_committed rd) -> t_config (r_trk (rn_raft n')) = t_config (r_trk (rn_raft n));
  ls_stay : ~ due n n' rd -> log_abs (r_log (rn_raft n')) = log_abs (r_log (rn_raft n)) /\ r_pending_conf (rn_raft n') = r_pending_conf (rn_raft n);
  ls_leave : due n n' rd ->
    log_abs (r_log (rn_raft n')) = a_app (log_abs (r_log (rn_raft n))) (stamp (r_term (rn_raft n)) (a_last (log_abs (r_log (rn_raft n))) + 1) [auto_leave_entry]) /\
    r_pending_conf (rn_raft n') = a_last (log_abs (r_log (rn_raft n))) + 1;
  ls_unc : r_uncommitted (rn_raft n') = r_uncommitted (reduce_uncommitted (rd_committed rd) (rn_raft n))
}.

Lemma advance_inv n rd s c rx ra : linv (r_log (rn_raft n)) -> ready_of n rd -> persisted_st (r_log (rn_raft n)) rd s ->
  r_log rx = set_l_committed c (set_l_st s (r_log (rn_raft n))) -> l_committed (r_log (rn_raft n)) <= c <= a_last (log_abs (r_log (rn_raft n))) ->
  (r_state rx = RLeader -> 0 < r_term rx) -> raft_advance rd rx = Ok ra ->
  let l := r_log (rn_raft n) in
  l_applied l <= applied_after rd l <= c /\
  exists u rb r1, rb = set_r_log (set_l_applied (applied_after rd l) (r_log rx)) (set_r_uncommitted u rx) /\
    u = r_uncommitted (reduce_uncommitted (rd_committed rd) rx) /\
    ((r1 = rb /\ ~ leaving rx rd) \/ r_state rx = RLeader /\ exists r0, append_entry [auto_leave_entry] rb = Ok (Some r0) /\ r1 = set_r_pending_conf (r_last r0) r0 /\ leaving rx rd) /\
    ra = set_r_log (set_l_us (mkUnstable None (ndrop (nlen (u_ents (l_us l))) (u_ents (l_us (r_log r1)))) (a_last (log_abs l) + 1)) (r_log r1)) r1 /\
    lwf (r_log rb) /\ log_abs (r_log rb) = log_abs l /\ lwf (r_log ra) /\ log_abs (r_log ra) = log_abs (r_log r1).
Proof.
  intros Hi R Hps Hlog Hc Hlt H3. cbv zeta. set (l := r_log (rn_raft n)) in *.
  unfold raft_advance in H3. destruct (reduce_uncommitted_fields (rd_committed rd) rx) as [u Hu].
  assert (Hru : u = r_uncommitted (reduce_uncommitted (rd_committed rd) rx)) by (rewrite Hu; reflexivity).
  rewrite Hu in H3. clear Hu. apply bind_ok in H3. destruct H3 as (rb & H5 & H6). apply bind_ok in H6. destruct H6 as (rc & H6 & H7).
  destruct (set_st_log s l Hi (ps_wf _ _ _ Hps) (ps_abs _ _ _ Hps)) as [Hw0 Habs0].
  set (lx0 := set_l_committed c (set_l_st s l)) in *.
  assert (Hw : lwf lx0).
  { destruct Hw0 as [V1 V2 V3 V4 V5]. constructor; auto; cbn [lx0 l_committed l_applied set_l_committed set_l_st]; [|cbn [l_applied l_committed set_l_st] in V5; lia].
    change (log_abs lx0) with (log_abs (set_l_st s l)). rewrite Habs0 in *. cbn [l_committed set_l_st] in V4. lia. }
  assert (Habs : log_abs lx0 = log_abs l) by exact Habs0.
  set (rb0 := set_r_log (set_l_applied (applied_after rd l) (r_log rx)) (set_r_uncommitted u rx)).
  assert (Happ : l_applied l <= applied_after rd l <= c /\ lwf (r_log rb0) /\ log_abs (r_log rb0) = log_abs l /\
     ((rb = rb0 /\ ~ leaving rx rd) \/ r_state rx = RLeader /\ exists r0, append_entry [auto_leave_entry] rb0 = Ok (Some r0) /\ rb = set_r_pending_conf (r_last r0) r0 /\ leaving rx rd)).
  { assert (Hl0 : r_log rb0 = set_l_applied (applied_after rd l) lx0) by (unfold rb0; rewrite Hlog; reflexivity).
    unfold applied_after in *. destruct (N.ltb_spec 0 (applied_cursor rd)) as [Hz|Hz].
    - apply bind_ok in H5. destruct H5 as (l1 & H8 & H9).
      replace (r_log (set_r_uncommitted u rx)) with lx0 in H8 by (symmetry; exact Hlog).
      pose proof (log_applied_to_abs (applied_cursor rd) lx0 Hw) as HA.
      destruct (N.eqb_spec (applied_cursor rd) 0); [lia|].
      destruct (_ || _) eqn:Hb in HA; [destruct HA as [w HA]; congruence|]. destruct HA as [HA1 HA2].
      rewrite HA1 in H8. apply Ok_inj in H8. rewrite <- H8 in H9. cbn [lx0 l_committed l_applied set_l_st set_l_committed] in Hb. split; [lia|].
      replace (set_r_log (set_l_applied (applied_cursor rd) lx0) (set_r_uncommitted u rx)) with rb0 in H9 by (unfold rb0; rewrite Hlog; reflexivity).
      split; [rewrite Hl0; exact HA2|]. split; [rewrite Hl0; exact Habs|].
      unfold maybe_auto_leave in H9.
      match type of H9 with (if ?b then _ else _) = _ => assert (Hlv : b = true <-> leaving rx rd) end.
      { unfold leaving. cbn [rb0 r_trk r_log r_pending_conf r_state set_r_log set_r_uncommitted].
        unfold is_leader. cbn [rb0 r_state set_r_log set_r_uncommitted]. rewrite !andb_true_iff, !N.leb_le.
        destruct (r_state rx); cbn [role_eqb]; intuition (try discriminate; auto). }
      match type of H9 with (if ?b then _ else _) = _ => destruct b eqn:Hl end; [|apply Ok_inj in H9; subst rb; left; split; [reflexivity|]; intros Hy; apply Hlv in Hy; discriminate].
      apply bind_ok in H9. destruct H9 as ([r0|] & H10 & H11); [|discriminate]. apply Ok_inj in H11. right.
      pose proof (proj1 Hlv eq_refl) as Hlv1. pose proof Hlv1 as (_ & Hst & _). split; [exact Hst|]. exists r0. auto.
    - apply Ok_inj in H5. rewrite <- H5. clear H5. pose proof (lwf_app _ (li_wf _ Hi)) as X. fold l in X.
      assert (Hl1 : r_log rb0 = lx0) by (rewrite Hl0; reflexivity). assert (Hb0 : rb0 = set_r_uncommitted u rx). { unfold rb0. change (l_applied l) with (l_applied lx0). rewrite Hlog. replace (set_l_applied (l_applied lx0) lx0) with lx0 by reflexivity. rewrite <- Hlog. destruct rx; reflexivity. }
      rewrite Hl1. split; [lia|]. split; [auto|]. split; [auto|]. left. split; [auto|]. intros (_ & _ & Hy & _). lia. }
  destruct Happ as (Happ & Hwb & Hab & Hcase). split; [exact Happ|].
  exists u, rb0, rb. split; [reflexivity|]. split; [exact Hru|]. split; [exact Hcase|].
  assert (Lb : l_st (r_log rb0) = s /\ u_ents (l_us (r_log rb0)) = u_ents (l_us l) /\ u_off (l_us (r_log rb0)) = u_off (l_us l) /\ u_snap (l_us (r_log rb0)) = u_snap (l_us l)) by (unfold rb0; cbn [r_log set_r_log]; rewrite Hlog; repeat split).
  destruct Lb as (Lb1 & Lb2 & Lb3 & Lb4).
  assert (Hrb : lwf (r_log rb) /\ stored_to (a_last (log_abs l)) (r_log rb) /\
     (exists es, log_abs (r_log rb) = a_app (log_abs l) es /\ u_ents (l_us (r_log rb)) = u_ents (l_us l) ++ es) /\
     u_off (l_us (r_log rb)) = u_off (l_us l) /\ u_snap (l_us (r_log rb)) = u_snap (l_us l)).
  { destruct Hcase as [[-> _]|(Hl & r0 & Ha & -> & _)].
    - split; [auto|]. split; [|split; [exists []; rewrite a_app_nil, app_nil_r; auto|auto]].
      unfold stored_to. rewrite Hab, Lb1, (ps_abs _ _ _ Hps). fold l.
      rewrite ntake_all by (unfold a_last; lia). destruct (log_abs l); auto.
    - destruct (append_log_w _ _ _ Hwb (Hlt Hl) Ha) as (A1 & A2 & A3 & _). cbn [r_log set_r_pending_conf]. rewrite Hab in *.
      cbv zeta in *. split; [auto|]. split.
      + unfold stored_to. rewrite A2. replace (l_st (r_log r0)) with s by (rewrite A3; symmetry; exact Lb1).
        rewrite (ps_abs _ _ _ Hps). fold l. unfold a_app; cbn [a_base a_bterm a_ents].
        rewrite ntake_app. rewrite ntake_all by (unfold a_last; lia).
        replace (a_last (log_abs l) - a_base (log_abs l) - nlen (a_ents (log_abs l))) with 0 by (unfold a_last; lia).
        rewrite ntake_0, app_nil_r. destruct (log_abs l); auto.
      + split; [|split; [rewrite A3; exact Lb3|rewrite A3; exact Lb4]]. eexists; split; [exact A2|]. rewrite A3. cbn [tail_log l_us u_ents]. rewrite <- Lb2. reflexivity. }
  destruct Hrb as (S1 & S2 & S3 & S4 & S5).
  assert (H8 : exists lx, match rev (rd_ents rd) with e :: _ => log_stable_to (e_index e) (e_term e) (r_log rb) | [] => Ok (r_log rb) end = Ok lx /\ rc = set_r_log lx rb).
  { destruct (rev (rd_ents rd)); [apply Ok_inj in H6; subst rc; exists (r_log rb); split; auto; destruct rb; auto|].
    apply bind_ok in H6. destruct H6 as (lx & H6 & H8). apply Ok_inj in H8. subst rc. eauto. }
  destruct H8 as (lx & H8 & ->).
  destruct (stable_both l (r_log rb) rd lx _ _ Hi S1 S2 S3 S4 S5 (ro_ents _ _ R) (ro_snap _ _ R) eq_refl H8 eq_refl) as (T1 & T2 & T3).
  assert (Hra : ra = set_r_log (if sn_index (rd_snap rd) =? 0 then lx else log_stable_snap_to (sn_index (rd_snap rd)) lx) rb).
  { destruct (sn_index (rd_snap rd) =? 0); apply Ok_inj in H7; subst ra; reflexivity. }
  split; [rewrite <- T1; exact Hra|]. split; [exact Hwb|]. split; [exact Hab|].
  rewrite Hra. cbn [r_log set_r_log]. auto.
Qed.

Lemma loop_dinv n n' rd : dinv n -> n_loop n = Ok (n', rd) -> dinv n' /\ lspec n n' rd.
Proof.
  intros D H. pose proof D as [[N1 N2 N3] D2 D3 D4 D5 D6 D7 D8 D9].
  unfold n_loop in H. apply bind_ok in H. destruct H as ([n1 rd1] & H1 & H).
  apply bind_ok in H. destruct H as (st & H2 & H). apply bind_ok in H. destruct H as (n2 & H3 & H). apply bind_ok in H. destruct H as (n3 & H4 & H).
  apply Ok_inj, pair_equal_spec in H. destruct H as [-> ->].
  apply get_ready_inv in H1. destruct H1 as (R & Hr1 & Hs1 & Hp1 & Hrd1).
  assert (Hps : persisted_st (r_log (rn_raft n)) rd st).
  { destruct (persist_ready_ok n rd N1 R) as (s' & P1 & P2). unfold node_storage in *. rewrite Hr1 in H2.
    cbn [r_log set_r_msgs set_r_read_states] in H2. rewrite P1 in H2. apply Ok_inj in H2. subst s'. auto. }
  clear H2. set (l := r_log (rn_raft n)) in *. pose proof (li_wf _ N1) as Hw. pose proof (lwf_com _ Hw) as Hcom. fold l in Hw, Hcom.
  destruct (set_st_log st l N1 (ps_wf _ _ _ Hps) (ps_abs _ _ _ Hps)) as [Hw0 Habs0].
  assert (B : r_log (rn_raft (set_storage st n1)) = set_l_st st l /\ r_state (rn_raft (set_storage st n1)) = r_state (rn_raft n) /\ r_term (rn_raft (set_storage st n1)) = r_term (rn_raft n) /\
     r_vote (rn_raft (set_storage st n1)) = r_vote (rn_raft n) /\ r_cfg (rn_raft (set_storage st n1)) = r_cfg (rn_raft n) /\ r_pending_conf (rn_raft (set_storage st n1)) = r_pending_conf (rn_raft n) /\
     r_uncommitted (rn_raft (set_storage st n1)) = r_uncommitted (rn_raft n) /\ r_trk (rn_raft (set_storage st n1)) = r_trk (rn_raft n)).
  { unfold set_storage, set_rn_raft. cbn [rn_raft]. rewrite Hr1. repeat split. }
  destruct B as (B1 & B2 & B3 & B4 & B5 & B6 & B7 & B8).
  destruct (apply_confs_confed (rd_committed rd) (set_storage st n1) n2) as (C & E2 & Hnc); [rewrite B1; exact Hw0|rewrite B2, B3; auto|exact H3|].
  destruct C as [(c & C1 & C1') C2 C3 C4 C5 C6 C7]. rewrite B1 in C1, C1'. rewrite B2 in C2. rewrite B3 in C3. rewrite B4 in C4. rewrite B5 in C5. rewrite B6 in C6. rewrite B7 in C7.
  rewrite Habs0 in C1'. cbn [l_committed set_l_st] in C1'.
  assert (Q0 : rn_ready n2 = Some rd /\ rn_prev_soft n2 = rn_prev_soft n1 /\ rn_prev_hard n2 = rn_prev_hard n).
  { rewrite E2. unfold set_rn_raft, set_storage. cbn [rn_ready rn_prev_soft rn_prev_hard]. auto. }
  destruct Q0 as (Q01 & Q02 & Q03).
  unfold rn_advance in H4. rewrite Q01 in H4. apply bind_ok in H4. destruct H4 as (ra & H4 & H5). apply Ok_inj in H5.
  destruct (advance_inv n rd st c (rn_raft n2) ra N1 R Hps C1 C1') as (HA & u & rb & r1 & Hrb & Hru & Hr1' & Hrn & Hwb & Hab & Hwn & Han); [rewrite C2, C3; auto|exact H4|].
  fold l in HA, Hrb, Hrn, Hab. subst n'. cbn [rn_raft rn_prev_hard rn_ready] in *.
  assert (HA' : applied_after rd l <= l_committed l).
  { unfold applied_after. destruct (N.ltb_spec 0 (applied_cursor rd)); [|exact (lwf_app _ Hw)]. unfold applied_cursor.
    destruct (rev (rd_committed rd)) as [|e es] eqn:Hrev.
    - rewrite (ro_snap _ _ R). fold l. destruct (u_snap (l_us l)) as [s0|] eqn:Hu; [|cbn; lia]. unfold log_abs in Hcom. rewrite Hu in Hcom. cbn in Hcom. lia.
    - assert (He : In e (rd_committed rd)) by (rewrite <- (rev_involutive (rd_committed rd)), Hrev; apply in_rev; rewrite rev_involutive; left; auto).
      rewrite (next_of_ok _ _ Hw (ro_committed _ _ R)) in He. fold l in He. unfold next_of in He. cbv zeta in He.
      match type of He with In _ (if ?b then _ else _) => destruct b eqn:Hb end; [|destruct He]. apply N.ltb_lt in Hb.
      destruct (limit_size_prefix (a_slice (log_abs l) (N.max (l_applied l + 1) (a_first (log_abs l))) (l_committed l + 1)) (l_maxnext l)) as [rest Hx].
      assert (He2 : In e (a_slice (log_abs l) (N.max (l_applied l + 1) (a_first (log_abs l))) (l_committed l + 1))) by (rewrite Hx; apply in_or_app; left; exact He).
      unfold a_slice in He2. apply In_nnth in He2. destruct He2 as [k Hk]. pose proof (nnth_Some_lt _ _ _ Hk) as Hkl. rewrite nlen_ntake in Hkl.
      rewrite nnth_ntake in Hk. destruct (N.ltb_spec k (l_committed l + 1 - N.max (l_applied l + 1) (a_first (log_abs l)))) as [Hk1|]; [|discriminate]. rewrite nnth_ndrop in Hk. pose proof (log_abs_wf _ (lwf_0 _ Hw)) as Hwf. specialize (Hwf _ _ Hk). unfold a_first in *. lia. }
  (* the HardState on disk *)
  assert (Hpr : (if is_empty_hs (rd_hard rd) then rn_prev_hard n2 else rd_hard rd) = hard_state (rn_raft n)).
  { rewrite Q03, (ro_hard _ _ R). destruct (hardstate_eqb _ _) eqn:Heq.
    - apply hardstate_eqb_eq in Heq. change (is_empty_hs empty_hardstate) with true. cbv iota. congruence.
    - destruct (is_empty_hs (hard_state (rn_raft n))) eqn:Hem; auto. exfalso.
      assert (Y : rn_prev_hard n = hard_state (rn_raft n)); [|rewrite Y in Heq; unfold hardstate_eqb in Heq; lia].
      clear - Hem D6 D5. subst l. unfold is_empty_hs, hard_state in *. cbn in Hem. destruct (rn_prev_hard n) as [pt pv pc]. cbn in *.
      unfold hs_forward in D6. cbn in D6. f_equal; lia. }
  assert (Hms : ms_hs st = if is_empty_hs (rd_hard rd) then ms_hs (node_storage n) else rd_hard rd) by (apply (ps_hs _ _ _ Hps)).
  assert (Hst : restart_hs st = hard_state (rn_raft n)).
  { unfold restart_hs. rewrite Hms. destruct (is_empty_hs (rd_hard rd)) eqn:Hem.
    - rewrite Q03 in Hpr. unfold restart_hs in D3.
      destruct (is_empty_hs (ms_hs (node_storage n))) eqn:He2; [|congruence].
      rewrite <- Hpr, D3. f_equal. rewrite !ms_first_abs, (ps_abs _ _ _ Hps). unfold a_first.
      assert (Hb : hs_commit (rn_prev_hard n) = l_committed l) by (rewrite Hpr; auto).
      unfold log_abs in *. fold l. destruct (u_snap (l_us l)) as [s0|] eqn:Hu; [|cbn [a_base]; reflexivity].
      exfalso. cbn in Hcom. specialize (D8 _ eq_refl). lia.
    - rewrite Hem. auto. }
  assert (Hsa : ms_abs st = log_abs l) by apply Hps.
  assert (Hsn : ms_snap st = match u_snap (l_us l) with Some s => s | None => ms_snap (node_storage n) end) by apply Hps.
  assert (Hlb : l_applied (r_log rb) = applied_after rd l /\ l_committed (r_log rb) = c /\ l_st (r_log rb) = st /\
     r_term rb = r_term (rn_raft n) /\ r_vote rb = r_vote (rn_raft n) /\ r_state rb = r_state (rn_raft n) /\ r_cfg rb = r_cfg (rn_raft n) /\ r_pending_conf rb = r_pending_conf (rn_raft n) /\
     r_trk rb = r_trk (rn_raft n2) /\ r_uncommitted rb = u).
  { rewrite Hrb. cbn [r_log set_r_log r_term r_vote r_state r_cfg r_pending_conf r_trk r_uncommitted set_r_uncommitted l_applied set_l_applied l_committed l_st]. rewrite C1. repeat split; auto. }
  destruct Hlb as (L1 & L2 & L3 & L5 & L6 & L7 & L8 & L9 & L10 & L11).
  assert (Hl1 : l_applied (r_log r1) = l_applied (r_log rb) /\ l_committed (r_log rb) <= l_committed (r_log r1) /\ l_st (r_log r1) = st /\
     r_term r1 = r_term rb /\ r_vote r1 = r_vote rb /\ r_state r1 = r_state rb /\ r_cfg r1 = r_cfg rb /\ apos (log_abs (r_log r1)) /\
     a_base (log_abs (r_log r1)) = a_base (log_abs (r_log rb)) /\ t_config (r_trk r1) = t_config (r_trk rb) /\ r_uncommitted r1 = r_uncommitted rb).
  { destruct Hr1' as [[-> _]|(Hl & r0 & Ha & -> & _)].
    - rewrite Hab. split; [auto|]. split; [lia|]. repeat (split; [auto; fail|]). split; [apply N2|]. auto.
    - rewrite C2 in Hl. assert (H0 : 0 < r_term rb) by (rewrite L5; auto).
      destruct (append_log_w _ _ _ Hwb H0 Ha) as (A1 & A2 & A3 & pr & pr' & u0 & mci & _ & _ & _ & _ & _ & A4 & _).
      cbv zeta in *. destruct (append_entry_fields _ _ _ Ha) as (lx & px & ux & Ef).
      assert (Hf : r_term r0 = r_term rb /\ r_vote r0 = r_vote rb /\ r_state r0 = r_state rb /\ r_cfg r0 = r_cfg rb /\ t_config (r_trk r0) = t_config (r_trk rb)) by (rewrite Ef; auto 10).
      destruct (append_unc _ _ _ Ha) as (U1 & _). cbn [payload auto_leave_entry e_data String.length] in U1. change (N.of_nat 0 + 0) with 0 in U1. rewrite N.add_0_r in U1.
      cbn [r_log r_term r_vote r_state r_cfg r_trk r_uncommitted set_r_pending_conf]. destruct Hf as (F1 & F2 & F3 & F4 & F5).
      split; [rewrite A3; auto|]. split; [auto|]. split; [rewrite A3; auto|].
      split; [auto|]. split; [auto|]. split; [auto|]. split; [auto|]. rewrite A2. split; [|auto]. rewrite Hab.
      destruct (lp_log _ N2) as [P1 P2]. constructor; auto. unfold a_app; cbn [a_ents]. intros e He.
      apply in_app_or in He. destruct He as [He|He]; auto. apply stamp_term in He. lia. }
  destruct Hl1 as (M1 & M2 & M3 & M5 & M6 & M7 & M71 & M8 & M9 & M10 & M11).
  assert (Hn1 : l_applied (r_log ra) = applied_after rd l /\ l_committed (r_log ra) = l_committed (r_log r1) /\ l_st (r_log ra) = st /\ u_snap (l_us (r_log ra)) = None /\
     u_off (l_us (r_log ra)) = a_last (log_abs l) + 1 /\
     r_term ra = r_term (rn_raft n) /\ r_vote ra = r_vote (rn_raft n) /\ r_state ra = r_state (rn_raft n) /\ r_cfg ra = r_cfg (rn_raft n) /\ t_config (r_trk ra) = t_config (r_trk (rn_raft n2)) /\
     r_pending_conf ra = r_pending_conf r1 /\ r_uncommitted ra = u).
  { rewrite Hrn. cbn [r_log set_r_log l_applied set_l_us l_committed l_st l_maxnext l_us u_snap u_off r_term r_vote r_state r_cfg r_trk r_pending_conf r_uncommitted].
    repeat split; try congruence. }
  destruct Hn1 as (Q1 & Q2 & Q3 & Q5 & Q6 & Q7 & Q8 & Q9 & Q10 & Q11 & Q12 & Q13).
  assert (Hsni : sn_index (ms_snap st) <= l_committed l).
  { rewrite Hsn. pose proof (li_snap _ N1) as Hx. fold l in Hx. destruct (u_snap (l_us l)) eqn:Hu; [|auto].
    unfold log_abs in Hcom. rewrite Hu in Hcom. cbn in Hcom. lia. }
  assert (Hsnt : sn_index (ms_snap st) <> 0 -> 0 < sn_term (ms_snap st)).
  { rewrite Hsn. pose proof (lp_log _ N2) as Hx. fold l in Hx. destruct (u_snap (l_us l)) eqn:Hu.
    - unfold log_abs in Hx. rewrite Hu in Hx. apply Hx.
    - apply storage_ok_abs in D2. destruct D2 as (_ & _ & X & _). auto. }
  assert (Hsok : storage_ok st).
  { apply storage_ok_abs. rewrite Hst, Hsa. cbn [hs_commit hard_state]. fold l. split; [apply Hps|]. split; [apply N2|]. auto. }
  assert (Hdue : leaving (rn_raft n2) rd <-> due n (mkRN ra (rn_prev_soft n2) (if is_empty_hs (rd_hard rd) then rn_prev_hard n2 else rd_hard rd) None) rd).
  { unfold leaving, due. cbn [rn_raft]. rewrite Q11, C2, C6, C1. reflexivity. }
  split.
  - constructor; cbn [rn_raft rn_prev_hard rn_ready]; unfold node_storage; cbn [rn_raft]; auto.
    + constructor.
      * constructor; [auto|rewrite Q1, Q6; lia|rewrite Q5]. rewrite Q3. lia.
      * constructor; rewrite ?Q3, ?Q5; auto; [rewrite Han; auto|rewrite Hsa; apply N2|discriminate].
      * rewrite Q7, Q9. auto.
    + rewrite Q3; auto.
    + rewrite Q3, Hpr; auto.
    + rewrite Q1, Hpr. cbn. fold l. lia.
    + rewrite Hpr. cbn. fold l. lia.
    + rewrite Hpr. unfold hard_state. rewrite Q7, Q8. right. cbn. auto.
    + rewrite Q5. discriminate.
    + intros _. rewrite Han, M9, Hab, Q1. destruct (u_snap (l_us l)) as [s0|] eqn:Hu; [|specialize (D9 eq_refl); lia].
      unfold applied_after, applied_cursor. rewrite (ro_snap _ _ R). fold l. rewrite Hu. unfold log_abs in *. rewrite Hu in *. cbn [a_base] in *.
      destruct (rev (rd_committed rd)) as [|e es] eqn:Hrev.
      * destruct (N.ltb_spec 0 (sn_index s0)); lia.
      * pose proof (lwf_0 _ Hw) as Hwz. assert (He : In e (rd_committed rd)) by (rewrite <- (rev_involutive (rd_committed rd)), Hrev; apply in_rev; rewrite rev_involutive; left; auto).
        rewrite (next_of_ok _ _ Hw (ro_committed _ _ R)) in He. fold l in He. unfold next_of in He. cbv zeta in He.
        destruct (_ <? _) in He; [|destruct He]. destruct (limit_size_prefix (a_slice (log_abs l) (N.max (l_applied l + 1) (a_first (log_abs l))) (l_committed l + 1)) (l_maxnext l)) as [rest Hx].
        assert (He2 : In e (a_ents (log_abs l))).
        { eapply in_slice. rewrite Hx. apply in_or_app. left. exact He. }
        apply In_nnth in He2. destruct He2 as [k Hk]. pose proof (log_abs_wf _ Hwz) as Hwf. specialize (Hwf k e Hk).
        unfold log_abs in Hwf. rewrite Hu in Hwf. cbn in Hwf. destruct (N.ltb_spec 0 (e_index e)); lia.
  - constructor; cbn [rn_raft rn_prev_hard rn_ready]; unfold node_storage; cbn [rn_raft]; fold l; auto; try lia.
    + apply next_of_ok; auto. apply R.
    + rewrite Q3; auto.
    + intros X. rewrite Q11. rewrite (Hnc X), B8. reflexivity.
    + intros Hnl. destruct Hr1' as [[E1 _]|(_ & r0 & _ & _ & Hlv)]; [|apply Hdue in Hlv; contradiction]. rewrite Han, Q12, E1. auto.
    + intros Hlv. apply Hdue in Hlv. destruct Hr1' as [[_ Hnl]|(Hl & r0 & Ha & E1 & _)]; [contradiction|]. rewrite C2 in Hl.
      assert (Htb : 0 < r_term rb) by (rewrite L5; auto). destruct (append_log_w _ _ _ Hwb Htb Ha) as (A0 & A1 & _). cbv zeta in A1. rewrite Han, E1. cbn [r_log set_r_pending_conf].
      rewrite Hab, L5 in A1. split; [exact A1|]. rewrite Q12, E1. cbn [r_pending_conf set_r_pending_conf]. unfold r_last. rewrite log_last_abs by (apply lwf_0; exact A0).
      rewrite A1, a_last_app, stamp_len. reflexivity.
    + rewrite Q13, Hru. unfold reduce_uncommitted. rewrite C7. repeat match goal with |- context[if ?b then _ else _] => destruct b end; cbn [r_uncommitted set_r_uncommitted]; auto.
Qed.
End Loop.
