(** The documented loop body: GetReady, persist, Advance. *)
From Verif Require Import Prelude Types M_Util M_Quorum M_Inflights M_Progress M_Tracker.
From Verif Require Import M_Storage M_Unstable M_Log M_ReadOnly M_ConfPb M_ConfChange M_Raft M_RawNode.
From Verif Require Import P_Inflights Spec_Log P_Lists P_Storage P_Log Spec_Storage Sys_Storage P_StorageSeq Spec_RaftLog Sys_RaftLog P_RaftLogSeq.
From Verif Require Import P_Frame P_Prim Sys_Node P_Node P_Fields P_NodeLog.

Section Handle.
Context {E : Env}.

(** After persisting the unstable part the storage holds the whole logical log. *)
Lemma persist_st l : linv l ->
  let st1 := match u_snap (l_us l) with Some s => fst (ms_apply_snapshot s (l_st l)) | None => l_st l end in
  exists st2, ms_append (u_ents (l_us l)) st1 = Ok st2 /\ swf st2 /\ ms_abs st2 = log_abs l /\
    ms_hs st2 = ms_hs (l_st l) /\
    ms_snap st2 = match u_snap (l_us l) with Some s => s | None => ms_snap (l_st l) end.
Proof.
  intros [Hw Ha Hsn]. cbv zeta. pose proof (lwf_0 l Hw) as Hw0. pose proof (log_off_abs l Hw0) as [Ho Hf].
  pose proof Hw as [W1 W2 W3 W4 W5].
  set (st1 := match u_snap (l_us l) with Some s => fst (ms_apply_snapshot s (l_st l)) | None => l_st l end).
  assert (H1 : swf st1 /\ ms_hs st1 = ms_hs (l_st l) /\ ms_snap st1 = match u_snap (l_us l) with Some s => s | None => ms_snap (l_st l) end /\
    u_off (l_us l) <= a_last (ms_abs st1) + 1 /\ a_first (ms_abs st1) <= u_off (l_us l) /\
    log_abs l = mkALog (a_base (ms_abs st1)) (a_bterm (ms_abs st1))
       (ntake (u_off (l_us l) - a_first (ms_abs st1)) (a_ents (ms_abs st1)) ++ u_ents (l_us l)) /\
    (u_ents (l_us l) = [] -> u_off (l_us l) = a_last (ms_abs st1) + 1)).
  { unfold st1, log_abs, ms_apply_snapshot in *. destruct (u_snap (l_us l)) as [s|] eqn:Hs.
    - destruct (N.leb_spec (sn_index s) (sn_index (ms_snap (l_st l)))); [lia|]. cbn in *.
      unfold a_last, a_first in *; cbn in *. nl. unfold swf, a_wf; cbn.
      split; [apply contig_nil|]. rewrite W3. replace (sn_index s + 1 - (sn_index s + 1)) with 0 by lia.
      rewrite ntake_0. cbn. repeat split; auto; lia.
    - cbn in *. destruct W3 as [W3a W3b]. repeat split; auto; lia. }
  clearbody st1. destruct H1 as (Q1 & Q2 & Q3 & Q6 & Q7 & Q8 & Q9).
  destruct (u_ents (l_us l)) as [|e0 es0] eqn:He.
  - exists st1. split; auto. split; auto. split; auto.
    rewrite Q8, app_nil_r. rewrite ntake_all; [destruct (ms_abs st1); auto|].
    rewrite Q9 by auto. unfold a_last, a_first. lia.
  - rewrite <- He in *. pose proof (ms_append_abs st1 (u_ents (l_us l)) (u_off (l_us l)) Q1 W2) as HA.
    assert (Hl : 0 < nlen (u_ents (l_us l))) by (rewrite He, nlen_cons; lia).
    specialize (HA ltac:(rewrite He; discriminate)). unfold a_first in *.
    specialize (HA ltac:(lia)).
    destruct (N.ltb_spec (a_last (ms_abs st1) + 1) (u_off (l_us l))); [lia|].
    destruct HA as (st2 & A1 & A2 & A3 & A4 & A5). exists st2. split; [auto|]. split; [auto|]. split; [|split; congruence].
    destruct (N.leb_spec (u_off (l_us l) + nlen (u_ents (l_us l))) (a_base (ms_abs st1) + 1)); [lia|].
    rewrite A5, Q8. unfold a_replace. f_equal. f_equal.
    + f_equal. lia.
    + replace (a_base (ms_abs st1) + 1 - u_off (l_us l)) with 0 by lia. apply ndrop_0.
Qed.

(** Replacing the storage by one that holds the whole log changes nothing. *)
Lemma set_st_log st l : linv l -> swf st -> ms_abs st = log_abs l ->
  lwf (set_l_st st l) /\ log_abs (set_l_st st l) = log_abs l.
Proof.
  intros [Hw Ha Hsn] Hs Hst. pose proof (lwf_0 l Hw) as Hw0. pose proof (log_off_abs l Hw0) as [Ho Hf].
  pose proof Hw as [W1 W2 W3 W4 W5].
  assert (Habs : log_abs (set_l_st st l) = log_abs l).
  { unfold log_abs at 1. cbn [l_us set_l_st l_st]. destruct (u_snap (l_us l)) as [s|] eqn:Hu; [unfold log_abs; rewrite Hu; auto|].
    rewrite Hst. destruct W3 as [W3 W3'].
    assert (Hpre : ntake (u_off (l_us l) - a_first (log_abs l)) (a_ents (log_abs l)) ++ u_ents (l_us l) = a_ents (log_abs l)).
    { unfold log_abs at 1 2 3. rewrite Hu. cbn. unfold a_first; cbn. rewrite ntake_app.
      rewrite ntake_ntake. rewrite nlen_ntake. unfold a_first, a_last in *; cbn in *.
      rewrite N.min_id.
      match goal with |- (_ ++ ntake ?n _) ++ _ = _ => replace n with 0 by lia end.
      rewrite ntake_0, app_nil_r. reflexivity. }
    rewrite Hpre. destruct (log_abs l); auto. }
  split; auto. constructor; auto.
  - cbn [l_us set_l_st l_st]. destruct (u_snap (l_us l)) eqn:Hu; auto. rewrite Hst. split; [lia|].
    intros Hn. rewrite Hn in Ho. nl.
  - rewrite Habs. auto.
Qed.

(** StableTo and StableSnapTo of what was just persisted, possibly after one more append. *)
Lemma stable_both l0 l rd lx lx1 lx2 : linv l0 -> lwf l -> stored_to (a_last (log_abs l0)) l ->
  (exists es, log_abs l = a_app (log_abs l0) es /\ u_ents (l_us l) = u_ents (l_us l0) ++ es) ->
  u_off (l_us l) = u_off (l_us l0) -> u_snap (l_us l) = u_snap (l_us l0) ->
  rd_ents rd = u_ents (l_us l0) -> rd_snap rd = match u_snap (l_us l0) with Some s => s | None => empty_snapshot end ->
  lx1 = l ->
  match rev (rd_ents rd) with
  | e :: _ => log_stable_to (e_index e) (e_term e) l
  | [] => Ok l
  end = Ok lx ->
  lx2 = (if sn_index (rd_snap rd) =? 0 then lx else log_stable_snap_to (sn_index (rd_snap rd)) lx) ->
  lx2 = set_l_us (mkUnstable None (ndrop (nlen (u_ents (l_us l0))) (u_ents (l_us l))) (a_last (log_abs l0) + 1)) l /\
  lwf lx2 /\ log_abs lx2 = log_abs l.
Proof.
  intros Hi0 Hw Hst (es & Hle & Hue) Hoff Hsn Hre Hrs _ H1 H2.
  pose proof (li_wf _ Hi0) as Hw0. pose proof (log_off_abs _ (lwf_0 _ Hw0)) as [O1 O2].
  assert (Hgoal : lx2 = set_l_us (mkUnstable None (ndrop (nlen (u_ents (l_us l0))) (u_ents (l_us l))) (a_last (log_abs l0) + 1)) l).
  { assert (Hlx : lx = set_l_us (mkUnstable (u_snap (l_us l)) (ndrop (nlen (u_ents (l_us l0))) (u_ents (l_us l))) (a_last (log_abs l0) + 1)) l).
    { rewrite Hre in H1. destruct (rev (u_ents (l_us l0))) as [|e t] eqn:Hr.
      - assert (Hn : u_ents (l_us l0) = []) by (rewrite <- (rev_involutive (u_ents (l_us l0))), Hr; auto).
        inv H1. rewrite Hn in *. nl. change (nlen (@nil entry)) with 0 in *. rewrite ndrop_0. rewrite <- O1, N.add_0_r, <- Hoff.
        destruct lx as [? [] ? ? ?]; auto.
      - pose proof (lwf_us _ Hw0) as Hc. pose proof (rev_contig _ _ _ _ Hc Hr) as He.
        pose proof (rev_last _ _ _ Hr) as Hl.
        assert (Hlen : 0 < nlen (u_ents (l_us l0))) by (rewrite Hl, nlen_app, nlen_cons; lia).
        unfold log_stable_to, us_stable_to, us_maybe_term in H1. rewrite Hoff in H1.
        destruct (N.ltb_spec (e_index e) (u_off (l_us l0))); [lia|].
        unfold us_maybe_last in H1. destruct (u_ents (l_us l)) as [|x xs] eqn:Hx.
        { destruct (u_ents (l_us l0)); [nl|discriminate]. }
        rewrite <- Hx in *. clear Hx.
        assert (Hlen2 : nlen (u_ents (l_us l)) = nlen (u_ents (l_us l0)) + nlen es) by (rewrite Hue, nlen_app; auto).
        rewrite Hoff in H1.
        destruct (N.ltb_spec (u_off (l_us l0) + nlen (u_ents (l_us l)) - 1) (e_index e)); [lia|].
        assert (Hn : nnth (u_ents (l_us l)) (e_index e - u_off (l_us l0)) = Some e).
        { rewrite Hue. rewrite nnth_app1 by lia. rewrite Hl in *. rewrite nlen_app, nlen_cons in *. nl.
          rewrite nnth_app2 by lia. replace (e_index e - u_off (l_us l0) - nlen (rev t)) with 0 by lia. auto. }
        rewrite Hn in H1. cbn [bind] in H1. rewrite N.eqb_refl in H1.
        destruct (N.leb_spec (u_off (l_us l0)) (e_index e)); [|lia].
        cbn [andb bind] in H1. inv H1. do 2 f_equal; [f_equal; lia|lia]. }
    rewrite H2, Hrs, Hlx, Hsn. destruct Hi0 as [_ _ Hs0]. destruct (u_snap (l_us l0)) as [s|].
    - destruct (N.eqb_spec (sn_index s) 0); [lia|]. unfold log_stable_snap_to, us_stable_snap_to, set_l_us; cbn.
      rewrite N.eqb_refl. reflexivity.
    - reflexivity. }
  split; auto. rewrite Hgoal.
  replace (nlen (u_ents (l_us l0))) with (a_last (log_abs l0) + 1 - u_off (l_us l)) by lia.
  apply log_stable_abs; auto; [lia|]. rewrite Hle, a_last_app. lia.
Qed.

Definition next_of (l : rlog) : list entry :=
  let off := N.max (l_applied l + 1) (a_first (log_abs l)) in
  if off <? l_committed l + 1
  then limit_size (a_slice (log_abs l) off (l_committed l + 1)) (l_maxnext l) else [].
Definition applied_after (rd : ready) (l : rlog) : N :=
  if 0 <? applied_cursor rd then applied_cursor rd else l_applied l.

Record ready_of (n : rawnode) (rd : ready) : Prop := {
  ro_soft : rd_soft rd = if softstate_eqb (soft_state (rn_raft n)) (rn_prev_soft n) then None else Some (soft_state (rn_raft n));
  ro_hard : rd_hard rd = if hardstate_eqb (hard_state (rn_raft n)) (rn_prev_hard n) then empty_hardstate else hard_state (rn_raft n);
  ro_reads : rd_reads rd = r_read_states (rn_raft n);
  ro_ents : rd_ents rd = u_ents (l_us (r_log (rn_raft n)));
  ro_snap : rd_snap rd = match u_snap (l_us (r_log (rn_raft n))) with Some s => s | None => empty_snapshot end;
  ro_committed : log_next_ents (r_log (rn_raft n)) = Ok (rd_committed rd);
  ro_msgs : rd_msgs rd = r_msgs (rn_raft n);
  ro_sync : rd_must_sync rd = must_sync (hard_state (rn_raft n)) (rn_prev_hard n) (nlen (u_ents (l_us (r_log (rn_raft n)))))
}.
Lemma new_ready_of n rd : new_ready n = Ok rd <-> ready_of n rd.
Proof.
  unfold new_ready. split.
  - intros H. apply bind_ok in H. destruct H as (c & Hc & H). inv H. constructor; cbn; auto.
  - intros [A1 A2 A3 A4 A5 A6 A7 A8]. rewrite A6. cbn [bind]. destruct rd; cbn in *. subst. reflexivity.
Qed.
Lemma get_ready_inv n n' rd : rn_get_ready n = Ok (n', rd) -> ready_of n rd /\
  rn_raft n' = set_r_msgs [] (set_r_read_states [] (rn_raft n)) /\
  rn_prev_soft n' = match rd_soft rd with Some s => s | None => rn_prev_soft n end /\
  rn_prev_hard n' = rn_prev_hard n /\ rn_ready n' = Some rd.
Proof.
  unfold rn_get_ready. intros H. apply bind_ok in H. destruct H as (rd' & H1 & H). inv H.
  split; [apply new_ready_of; auto|]. apply new_ready_of in H1. destruct H1. cbn. repeat split; auto.
  destruct (rd_reads rd) eqn:Hx; cbn; auto. destruct (rn_raft n); cbn in *. subst. auto.
Qed.

(** What the application has on disk after persisting [rd]. *)
Record persisted_st (l : rlog) (rd : ready) (s : mstorage) : Prop := {
  ps_wf : swf s;
  ps_abs : ms_abs s = log_abs l;
  ps_hs : ms_hs s = if is_empty_hs (rd_hard rd) then ms_hs (l_st l) else rd_hard rd;
  ps_snap : ms_snap s = match u_snap (l_us l) with Some s => s | None => ms_snap (l_st l) end
}.
Lemma persist_ready_ok n rd : linv (r_log (rn_raft n)) -> ready_of n rd ->
  exists s, persist_ready rd (node_storage n) = Ok s /\ persisted_st (r_log (rn_raft n)) rd s.
Proof.
  intros Hi R. unfold persist_ready, node_storage. rewrite (ro_ents _ _ R), (ro_snap _ _ R).
  destruct (persist_st _ Hi) as (st2 & A1 & A2 & A3 & A4 & A5).
  assert (Hx : (if sn_index match u_snap (l_us (r_log (rn_raft n))) with Some s => s | None => empty_snapshot end =? 0
                then l_st (r_log (rn_raft n)) else fst (ms_apply_snapshot match u_snap (l_us (r_log (rn_raft n))) with Some s => s | None => empty_snapshot end (l_st (r_log (rn_raft n))))) =
      match u_snap (l_us (r_log (rn_raft n))) with Some s => fst (ms_apply_snapshot s (l_st (r_log (rn_raft n)))) | None => l_st (r_log (rn_raft n)) end).
  { destruct Hi as [_ _ Hs]. destruct (u_snap (l_us (r_log (rn_raft n)))) as [s|]; auto.
    destruct (N.eqb_spec (sn_index s) 0); [lia|auto]. }
  cbv zeta in *. rewrite Hx, A1. cbn [bind]. eexists; split; [reflexivity|].
  destruct (is_empty_hs (rd_hard rd)) eqn:He; constructor; rewrite ?He; auto.
Qed.

(** Advance finds the joint configuration due to be left. *)
Definition leaving (r : raft) (rd : ready) : Prop :=
  tc_auto_leave (t_config (r_trk r)) = true /\ r_state r = RLeader /\ 0 < applied_cursor rd /\ l_applied (r_log r) <= r_pending_conf r <= applied_cursor rd.
Record handled (n n' : rawnode) (rd : ready) : Prop := {
  hd_ready : ready_of n rd;
  hd_prev : rn_prev_hard n' = if is_empty_hs (rd_hard rd) then rn_prev_hard n else rd_hard rd;
  hd_soft : rn_prev_soft n' = match rd_soft rd with Some s => s | None => rn_prev_soft n end;
  hd_none : rn_ready n' = None;
  hd_app : l_applied (r_log (rn_raft n)) <= applied_after rd (r_log (rn_raft n)) <= l_committed (r_log (rn_raft n));
  hd_raft : let r := rn_raft n in let l := r_log r in
    exists st u rb r1, persisted_st l rd st /\
      rb = set_r_log (set_l_applied (applied_after rd l) (set_l_st st l))
             (set_r_uncommitted u (set_r_msgs [] (set_r_read_states [] r))) /\
      ((r1 = rb /\ ~ leaving r rd) \/ r_state r = RLeader /\ exists r0, append_entry [auto_leave_entry] rb = Ok (Some r0) /\
                    r1 = set_r_pending_conf (r_last r0) r0 /\ r_pending_conf r <= applied_after rd l /\ leaving r rd) /\
      rn_raft n' = set_r_log (set_l_us (mkUnstable None (ndrop (nlen (u_ents (l_us l))) (u_ents (l_us (r_log r1))))
                     (a_last (log_abs l) + 1)) (r_log r1)) r1 /\
      lwf (r_log rb) /\ log_abs (r_log rb) = log_abs l /\
      lwf (r_log (rn_raft n')) /\ log_abs (r_log (rn_raft n')) = log_abs (r_log r1) /\
      u = r_uncommitted (reduce_uncommitted (rd_committed rd) r)
}.

Lemma handle_inv n n' rd : linv (r_log (rn_raft n)) -> (r_state (rn_raft n) = RLeader -> 0 < r_term (rn_raft n)) ->
  n_handle n = Ok (n', rd) -> handled n n' rd.
Proof.
  intros Hi Hlt H. unfold n_handle in H. apply bind_ok in H. destruct H as ([n1 rd1] & H1 & H).
  apply bind_ok in H. destruct H as (s & H2 & H). apply bind_ok in H. destruct H as (n2 & H3 & H). inv H.
  apply get_ready_inv in H1. destruct H1 as (R & Hr1 & Hs1 & Hp1 & Hrd1).
  assert (Hps : persisted_st (r_log (rn_raft n)) rd s).
  { destruct (persist_ready_ok n rd Hi R) as (s' & P1 & P2). unfold node_storage in *. rewrite Hr1 in H2.
    cbn [r_log set_r_msgs set_r_read_states] in H2. rewrite P1 in H2. inv H2. auto. }
  clear H2. unfold rn_advance in H3. unfold set_storage, set_rn_raft in H3. cbn [rn_ready rn_raft rn_prev_hard rn_prev_soft] in H3.
  rewrite Hrd1 in H3. apply bind_ok in H3. destruct H3 as (ra & H3 & H4). inv H4. cbn [rn_prev_hard].
  rewrite Hr1 in H3. cbn [r_log set_r_msgs set_r_read_states] in H3. rewrite Hp1.
  set (l := r_log (rn_raft n)) in *.
  match type of H3 with raft_advance _ ?x = _ => hide x rx Ex end.
  unfold raft_advance in H3. destruct (reduce_uncommitted_fields (rd_committed rd) rx) as [u Hu].
  assert (Hru : u = r_uncommitted (reduce_uncommitted (rd_committed rd) (rn_raft n))).
  { transitivity (r_uncommitted (reduce_uncommitted (rd_committed rd) rx)); [rewrite Hu; reflexivity|]. rewrite Ex. unfold reduce_uncommitted. cbn [r_uncommitted set_r_log set_r_msgs set_r_read_states]. repeat match goal with |- context[if ?b then _ else _] => destruct b end; reflexivity. }
  rewrite Hu in H3. clear Hu.
  apply bind_ok in H3. destruct H3 as (rb & H5 & H6). apply bind_ok in H6. destruct H6 as (rc & H6 & H7).
  assert (Hlog : r_log rx = set_l_st s l) by (rewrite Ex; reflexivity).
  destruct (set_st_log s l Hi (ps_wf _ _ _ Hps) (ps_abs _ _ _ Hps)) as [Hw Habs].
  (* the applied mark *)
  set (rb0 := set_r_log (set_l_applied (applied_after rd l) (set_l_st s l)) (set_r_uncommitted u (set_r_msgs [] (set_r_read_states [] (rn_raft n))))).
  assert (Happ : l_applied l <= applied_after rd l <= l_committed l /\ lwf (r_log rb0) /\ log_abs (r_log rb0) = log_abs l /\
     ((rb = rb0 /\ ~ leaving (rn_raft n) rd) \/ r_state (rn_raft n) = RLeader /\ exists r0, append_entry [auto_leave_entry] rb0 = Ok (Some r0) /\ rb = set_r_pending_conf (r_last r0) r0 /\ r_pending_conf (rn_raft n) <= applied_after rd l /\ leaving (rn_raft n) rd)).
  { assert (Hrx' : set_r_uncommitted u rx = set_r_log (set_l_st s l) (set_r_uncommitted u (set_r_msgs [] (set_r_read_states [] (rn_raft n))))).
    { rewrite Ex. reflexivity. }
    unfold applied_after in *. destruct (N.ltb_spec 0 (applied_cursor rd)) as [Hc|Hc].
    - apply bind_ok in H5. destruct H5 as (l1 & H8 & H9).
      replace (r_log (set_r_uncommitted u rx)) with (set_l_st s l) in H8 by (rewrite Hrx'; reflexivity).
      pose proof (log_applied_to_abs (applied_cursor rd) (set_l_st s l) Hw) as HA.
      destruct (N.eqb_spec (applied_cursor rd) 0); [lia|].
      destruct (_ || _) eqn:Hb in HA; [destruct HA as [w HA]; congruence|]. destruct HA as [HA1 HA2].
      rewrite HA1 in H8. apply Ok_inj in H8. rewrite <- H8 in H9. cbn [l_committed l_applied set_l_st] in Hb. split; [lia|].
      replace (set_r_log (set_l_applied (applied_cursor rd) (set_l_st s l)) (set_r_uncommitted u rx)) with rb0 in H9 by (rewrite Hrx'; reflexivity).
      split; [exact HA2|]. split; [exact Habs|].
      unfold maybe_auto_leave in H9.
      match type of H9 with (if ?b then _ else _) = _ => assert (Hlv : b = true <-> leaving (rn_raft n) rd) end.
      { unfold leaving. rewrite Hrx'. cbn [rb0 r_trk r_log r_pending_conf r_state set_r_log set_r_uncommitted set_r_msgs set_r_read_states l_applied set_l_st set_l_applied]. fold l.
        unfold is_leader. cbn [rb0 r_state set_r_log set_r_uncommitted set_r_msgs set_r_read_states]. rewrite !andb_true_iff, !N.leb_le.
        assert (Hr : role_eqb (r_state (rn_raft n)) RLeader = true <-> r_state (rn_raft n) = RLeader) by (destruct (r_state (rn_raft n)); split; intros; discriminate || reflexivity).
        destruct (r_state (rn_raft n)); cbn in Hr; intuition (try discriminate; auto). }
      match type of H9 with (if ?b then _ else _) = _ => destruct b eqn:Hl end; [|apply Ok_inj in H9; subst rb; left; split; [reflexivity|]; intros Hz; apply Hlv in Hz; discriminate].
      apply bind_ok in H9. destruct H9 as ([r0|] & H10 & H11); [|discriminate]. inv H11. right.
      pose proof (proj1 Hlv eq_refl) as Hlv1. pose proof Hlv1 as (_ & Hst & _ & _ & Hpc). split; [exact Hst|]. exists r0. auto.
    - apply Ok_inj in H5. rewrite <- H5. clear H5. pose proof (lwf_app _ (li_wf _ Hi)).
      assert (Hb0 : rb0 = set_r_uncommitted u rx). { rewrite Hrx'. unfold rb0. destruct l; reflexivity. }
      rewrite Hb0, Hrx'. cbn [r_log set_r_log]. split; [lia|]. split; [auto|]. split; [auto|]. left. split; [reflexivity|]. intros (_ & _ & Hz & _). lia. }
  destruct Happ as (Happ & Hwb & Hab & Hcase).
  constructor; auto. cbv zeta. fold l. exists s, u, rb0, rb. split; [auto|]. split; [reflexivity|]. split; [auto|].
  (* stable *)
  assert (Hrb : lwf (r_log rb) /\ stored_to (a_last (log_abs l)) (r_log rb) /\
     (exists es, log_abs (r_log rb) = a_app (log_abs l) es /\ u_ents (l_us (r_log rb)) = u_ents (l_us l) ++ es) /\
     u_off (l_us (r_log rb)) = u_off (l_us l) /\ u_snap (l_us (r_log rb)) = u_snap (l_us l)).
  { destruct Hcase as [[-> _]|(Hl & r0 & Ha & -> & Hpc & _)].
    - split; [auto|]. split; [|split; [exists []; rewrite a_app_nil, app_nil_r; auto|auto]].
      unfold stored_to. rewrite Hab. cbn [r_log rb0 set_r_log l_st set_l_applied set_l_st]. rewrite (ps_abs _ _ _ Hps). fold l.
      rewrite ntake_all by (unfold a_last; lia). destruct (log_abs l); auto.
    - destruct (append_log_w _ _ _ Hwb (Hlt Hl) Ha) as (A1 & A2 & A3 & _). cbn [r_log set_r_pending_conf]. rewrite Hab in *.
      cbv zeta in *. split; [auto|]. split.
      + unfold stored_to. rewrite A2. replace (l_st (r_log r0)) with s by (rewrite A3; reflexivity).
        rewrite (ps_abs _ _ _ Hps). fold l. unfold a_app; cbn [a_base a_bterm a_ents].
        rewrite ntake_app. rewrite ntake_all by (unfold a_last; lia).
        replace (a_last (log_abs l) - a_base (log_abs l) - nlen (a_ents (log_abs l))) with 0 by (unfold a_last; lia).
        rewrite ntake_0, app_nil_r. destruct (log_abs l); auto.
      + split; [|split; rewrite A3; reflexivity]. eexists; split; [exact A2|]. rewrite A3. reflexivity. }
  destruct Hrb as (S1 & S2 & S3 & S4 & S5).
  assert (H8 : exists lx, match rev (rd_ents rd) with e :: _ => log_stable_to (e_index e) (e_term e) (r_log rb) | [] => Ok (r_log rb) end = Ok lx /\ rc = set_r_log lx rb).
  { destruct (rev (rd_ents rd)); [inv H6; exists (r_log rc); split; auto; destruct rc; auto|].
    apply bind_ok in H6. destruct H6 as (lx & H6 & H8). inv H8. eauto. }
  destruct H8 as (lx & H8 & ->).
  destruct (stable_both l (r_log rb) rd lx _ _ Hi S1 S2 S3 S4 S5 (ro_ents _ _ R) (ro_snap _ _ R) eq_refl H8 eq_refl) as (T1 & T2 & T3).
  assert (Hra : ra = set_r_log (if sn_index (rd_snap rd) =? 0 then lx else log_stable_snap_to (sn_index (rd_snap rd)) lx) rb).
  { destruct (sn_index (rd_snap rd) =? 0); inv H7; reflexivity. }
  split; [rewrite <- T1; cbn [rn_raft]; exact Hra|]. split; [exact Hwb|]. split; [exact Hab|].
  cbn [rn_raft]. rewrite Hra. cbn [r_log set_r_log]. auto.
Qed.
End Handle.
