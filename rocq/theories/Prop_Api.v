(** The RawNode API: HasReady, MustSync, Step's filter, configuration checks, restart, Bootstrap
    (C43, C47-C50). *)
From Verif Require Import Prelude Types M_Util M_Quorum M_Inflights M_Progress M_Tracker.
From Verif Require Import M_Storage M_Unstable M_Log M_ReadOnly M_ConfPb M_ConfChange M_Raft M_RawNode.
From Verif Require Import P_Inflights Spec_Log P_Lists P_Storage P_Log Spec_Storage Sys_Storage P_StorageSeq Spec_RaftLog Sys_RaftLog P_RaftLogSeq.
From Verif Require Import Spec_ConfChange Sys_ConfChange P_ConfChange P_ConfPb P_Conf.
From Verif Require Import P_Frame P_Prim Sys_Node P_Node P_Fields P_Vote Spec_Node Spec_Api P_New P_NodeLog P_Handle P_NodeRun P_Boot.
From Verif Require Import Prop_ConfPb Prop_Deliver Ex_Env Ex_Node Ex_Check Ex_Case.

Section Props.
Context {E : Env}.

(** C43: GetReady never fails, and HasReady says whether it would return something. *)
Theorem C43_has_ready n : node_at n ->
  exists n' rd, rn_get_ready n = Ok (n', rd) /\ (rn_has_ready n = true <-> ready_nonempty rd).
Proof.
  intros Ha. pose proof (node_at_dinv _ Ha) as D. pose proof (li_wf _ (ni_log _ (di_ninv _ D))) as W.
  pose proof (lwf_0 _ W) as W0. unfold rn_get_ready, new_ready. rewrite log_next_ents_abs by auto. cbn [bind]. eexists. eexists. split; [reflexivity|].
  unfold ready_nonempty, rn_has_ready, log_has_next_ents, log_has_pending_snapshot, log_unstable_entries. rewrite log_first_abs.
  cbn [rd_soft rd_hard rd_reads rd_ents rd_snap rd_committed rd_msgs].
  assert (Hc : (if N.max (l_applied (r_log (rn_raft n)) + 1) (a_first (log_abs (r_log (rn_raft n)))) <? l_committed (r_log (rn_raft n)) + 1
     then limit_size (a_slice (log_abs (r_log (rn_raft n))) (N.max (l_applied (r_log (rn_raft n)) + 1) (a_first (log_abs (r_log (rn_raft n)))))
        (l_committed (r_log (rn_raft n)) + 1)) (l_maxnext (r_log (rn_raft n))) else []) <> [] <->
     (N.max (l_applied (r_log (rn_raft n)) + 1) (a_first (log_abs (r_log (rn_raft n)))) <? l_committed (r_log (rn_raft n)) + 1) = true).
  { destruct (_ <? _) eqn:Hl; [|split; congruence]. split; auto. intros _. apply limit_size_nonnil. intros Hz.
    apply (f_equal nlen) in Hz. rewrite nlen_slice in Hz; nl; pose proof (lwf_com _ W); unfold a_first in *; lia. }
  rewrite Hc. clear Hc.
  assert (Hh : (if hardstate_eqb (hard_state (rn_raft n)) (rn_prev_hard n) then empty_hardstate else hard_state (rn_raft n)) <> empty_hardstate <->
    negb (is_empty_hs (hard_state (rn_raft n))) && negb (hardstate_eqb (hard_state (rn_raft n)) (rn_prev_hard n)) = true).
  { destruct (hardstate_eqb _ _); [rewrite andb_false_r; split; congruence|]. rewrite andb_true_r. unfold is_empty_hs, empty_hardstate.
    destruct (hard_state (rn_raft n)) as [t v k]. cbn. split.
    - intros Hx. apply negb_true_iff. destruct ((t =? 0) && (v =? 0) && (k =? 0)) eqn:Hy; auto. exfalso. apply Hx. f_equal; lia.
    - intros Hx Hy. inv Hy. discriminate. }
  rewrite Hh. clear Hh.
  assert (Hl : forall A (l : list A), l <> [] <-> negb (is_nil l) = true) by (intros A [|]; cbn; split; congruence).
  rewrite !Hl, !orb_true_iff.
  assert (Hs : (if softstate_eqb (soft_state (rn_raft n)) (rn_prev_soft n) then None else Some (soft_state (rn_raft n))) <> None <->
    negb (softstate_eqb (soft_state (rn_raft n)) (rn_prev_soft n)) = true) by (destruct (softstate_eqb _ _); cbn; split; congruence).
  rewrite Hs. clear Hs.
  assert (Hp : sn_index match u_snap (l_us (r_log (rn_raft n))) with Some s => s | None => empty_snapshot end <> 0 <->
    match u_snap (l_us (r_log (rn_raft n))) with Some s => negb (sn_index s =? 0) | None => false end = true).
  { destruct (u_snap _) as [s|]; cbn; [rewrite negb_true_iff, N.eqb_neq; tauto|split; [tauto|discriminate]]. }
  rewrite Hp. clear. tauto.
Qed.

(** C43: must_sync is set exactly when there are entries to persist or the term or the vote differ
    from the HardState on disk. *)
Theorem C43_must_sync n n' rd : node_at n -> rn_get_ready n = Ok (n', rd) ->
  (rd_must_sync rd = true <->
   rd_ents rd <> [] \/ hs_term (node_hard n) <> hs_term (restart_hs (node_storage n)) \/
   hs_vote (node_hard n) <> hs_vote (restart_hs (node_storage n))).
Proof.
  intros Ha H. pose proof (node_at_dinv _ Ha) as D. unfold rn_get_ready in H. apply bind_ok in H. destruct H as (rd' & H1 & H2). inv H2.
  apply new_ready_of in H1. rewrite (ro_sync _ _ H1), (ro_ents _ _ H1), (di_hs _ D). unfold must_sync, node_hard, rn_status. cbn [ns_hard].
  rewrite !orb_true_iff, !negb_true_iff, !N.eqb_neq.
  assert (Hx : nlen (u_ents (l_us (r_log (rn_raft n)))) <> 0 <-> u_ents (l_us (r_log (rn_raft n))) <> []).
  { destruct (u_ents _); nl; [tauto|]. rewrite nlen_cons. split; [discriminate|lia]. }
  rewrite Hx. tauto.
Qed.

(** C47: local messages and answers from peers this node does not track are refused and change
    nothing, in any state. *)
Theorem C47_step_filter n m :
  (local_only (m_type m) -> rn_step m n = Ok (n, Some EStepLocal)) /\
  (an_answer (m_type m) -> mget (m_from m) (t_progress (r_trk (rn_raft n))) = None -> rn_step m n = Ok (n, Some EPeerNotFound)).
Proof.
  unfold rn_step, local_only, an_answer, trk_get. split.
  - intros H. destruct H as [H|[H|[H|[H|H]]]]; rewrite H; reflexivity.
  - intros H Hg. rewrite Hg. destruct H as [H|[H|[H|H]]]; rewrite H; reflexivity.
Qed.
(** ... and everything else reaches the state machine. *)
Theorem C47_step_passes n m : ~ local_only (m_type m) ->
  (an_answer (m_type m) -> mget (m_from m) (t_progress (r_trk (rn_raft n))) <> None) ->
  rn_step m n = ('(r, e) <- step m (rn_raft n) ;; Ok (set_rn_raft r n, e)).
Proof.
  unfold rn_step, local_only, an_answer, trk_get, rn_raft_step. intros H1 H2.
  destruct (m_type m) eqn:Ht; cbn [is_local_msg is_response_msg negb]; try (exfalso; apply H1; intuition discriminate).
  all: rewrite ?orb_true_r; auto.
  all: destruct (mget _ _); auto; exfalso; apply H2; auto.
Qed.

(** C48: a node is created only from a valid configuration; an invalid one aborts. *)
Theorem C48_validate c tape n : rn_new c tape = Ok n -> config_valid c.
Proof.
  intros H. apply rn_new_spec in H. destruct H as (r & H & _). apply raft_new_spec in H. destruct H as (s & cp & V & _).
  destruct (validate c) as [c' e] eqn:Ev. cbn in V. subst e. apply validate_ok in Ev. destruct Ev as (V1 & V2 & V3 & V4 & V5 & V6 & _).
  constructor; auto.
Qed.
Theorem C48_invalid_aborts c tape : ~ config_valid c -> exists w, rn_new c tape = Fatal w.
Proof.
  intros H. unfold rn_new, raft_new. destruct (validate c) as [c' [e|]] eqn:Ev; [cbn; eauto|]. exfalso. apply H.
  apply validate_ok in Ev. destruct Ev as (V1 & V2 & V3 & V4 & V5 & V6 & _). constructor; auto.
Qed.

Lemma describes_eqb cs c prs mi : describes cs c -> conf_wf c prs ->
  NoDup (cs_voters cs) -> NoDup (cs_learners cs) -> NoDup (cs_outgoing cs) -> NoDup (cs_learners_next cs) ->
  confstate_eqb cs (trk_confstate (set_t_progress prs (set_t_config c (new_tracker mi)))) = true.
Proof.
  intros (D1 & D2 & D3 & D4 & D5) W N1 N2 N3 N4. apply C24_confstate_eq. cbn.
  assert (HP : forall a b, NoDup a -> sorted b -> same_set a b -> Permutation a b).
  { intros a b Ha Hb Hs. apply NoDup_Permutation; auto. apply sorted_NoDup; auto. }
  repeat split; auto; apply HP; auto; apply W.
Qed.

Lemma raft_new_total c s cp tape : config_valid c -> c_storage c = Some s ->
  cc_restore (mkChanger (new_tracker (Z.to_N (c_max_inflight c))) (ms_last_index s)) (sn_conf (ms_snap s)) = SOk cp ->
  confstate_eqb (sn_conf (ms_snap s))
    (trk_confstate (set_t_progress (snd cp) (set_t_config (fst cp) (new_tracker (Z.to_N (c_max_inflight c)))))) = true ->
  (is_empty_hs (ms_hs s) = true \/ ms_first_index s - 1 <= hs_commit (ms_hs s) <= ms_last_index s) ->
  (c_applied c = 0 \/ ms_first_index s - 1 <= c_applied c <= (if is_empty_hs (ms_hs s) then ms_first_index s - 1 else hs_commit (ms_hs s))) ->
  exists r, raft_new c tape = Ok r.
Proof.
  intros [V1 V2 V3 V4 V5 V6] Hs Hc He Hh Ha. unfold raft_new.
  pose proof (validate_complete c V1 V2 V3 V4 V5 V6) as Hv. destruct (validate c) as [c' e] eqn:Ev. cbn in Hv. subst e.
  apply validate_ok in Ev. destruct Ev as (_ & _ & _ & _ & _ & _ & ->). cbn [c_storage c_applied c_id c_max_committed c_max_inflight c_ro].
  rewrite Hs. unfold ms_initial_state. cbv zeta iota beta.
  set (k := mkRCfg _ _ _ _ _ _ _ _).
  set (r0 := mkRaft _ _ _ _ _ _ _ _ _ _ _ _ _ _ _ _ _ _ _).
  change (r_trk r0) with (new_tracker (Z.to_N (c_max_inflight c))).
  match goal with |- context [log_last ?l] => change (log_last l) with (ms_last_index s) end. rewrite Hc.
  unfold switch_to_config. cbv zeta. unfold is_leader. cbn [r_state set_r_learner set_r_trk r0 role_eqb negb orb].
  rewrite andb_false_r. cbn [bind]. 
  match goal with |- context [confstate_eqb ?a ?b] => change (confstate_eqb a b) with (confstate_eqb (sn_conf (ms_snap s))
    (trk_confstate (set_t_progress (snd cp) (set_t_config (fst cp) (new_tracker (Z.to_N (c_max_inflight c))))))) end. rewrite He. cbn [negb].
  match goal with |- context [load_state _ ?a] => set (ra := a) end.
  assert (H2 : exists r2, (if is_empty_hs (ms_hs s) then Ok ra else load_state (ms_hs s) ra) = Ok r2 /\
     l_committed (r_log r2) = (if is_empty_hs (ms_hs s) then ms_first_index s - 1 else hs_commit (ms_hs s)) /\
     l_applied (r_log r2) = ms_first_index s - 1).
  { destruct (is_empty_hs (ms_hs s)) eqn:Hem; [exists ra; auto|]. destruct Hh as [Hh|Hh]; [congruence|].
    unfold load_state. change (l_committed (r_log ra)) with (ms_first_index s - 1). change (r_last ra) with (ms_last_index s).
    destruct (N.ltb_spec (hs_commit (ms_hs s)) (ms_first_index s - 1)); [lia|].
    destruct (N.ltb_spec (ms_last_index s) (hs_commit (ms_hs s))); [lia|]. cbn [orb]. eexists. split; [reflexivity|auto]. }
  destruct H2 as (r2 & -> & H3 & H4). cbn [bind].
  assert (H5 : exists r3, (if 0 <? c_applied c then l <- log_applied_to (c_applied c) (r_log r2) ;; Ok (set_r_log l r2) else Ok r2) = Ok r3).
  { destruct (N.ltb_spec 0 (c_applied c)); [|eauto]. unfold log_applied_to. destruct (N.eqb_spec (c_applied c) 0); [lia|].
    destruct Ha as [Ha|Ha]; [lia|]. rewrite H3, H4. destruct (N.ltb_spec (if is_empty_hs (ms_hs s) then ms_first_index s - 1 else hs_commit (ms_hs s)) (c_applied c)); [lia|].
    destruct (N.ltb_spec (c_applied c) (ms_first_index s - 1)); [lia|]. cbn. eauto. }
  destruct H5 as (r3 & ->). cbn [bind]. eauto.
Qed.

(** C50: a node created from a good storage with a valid ConfState is a follower with no leader,
    with exactly the stored term, vote, commit index, log and membership. *)
Theorem C50_restart c s tape : config_valid c -> c_storage c = Some s -> storage_ok s ->
  confstate_valid (sn_conf (ms_snap s)) ->
  NoDup (cs_voters (sn_conf (ms_snap s))) -> NoDup (cs_learners (sn_conf (ms_snap s))) ->
  NoDup (cs_outgoing (sn_conf (ms_snap s))) -> NoDup (cs_learners_next (sn_conf (ms_snap s))) ->
  (c_applied c = 0 \/ e_index (ms_dummy s) <= c_applied c <= hs_commit (restart_hs s)) ->
  exists n, rn_new c tape = Ok n /\
    node_id n = c_id c /\ node_role n = RFollower /\ node_lead n = 0 /\
    node_hard n = restart_hs s /\
    node_applied n = (if c_applied c =? 0 then e_index (ms_dummy s) else c_applied c) /\
    describes (sn_conf (ms_snap s)) (ns_config (rn_status n)) /\
    node_first n = e_index (ms_dummy s) + 1 /\ node_last n = e_index (ms_dummy s) + nlen (ms_tail s) /\
    (forall i e, holds_entry n i e <-> e_index e = i /\ In e (ms_tail s)) /\
    pending n = [] /\ node_storage n = s.
Proof.
  intros V Hs Hok Hcv N1 N2 N3 N4 Ha.
  destruct (restore_ok (Z.to_N (c_max_inflight c)) (ms_last_index s) _ Hcv) as (cf & prs & Hc & Hw & _ & Hd & _).
  pose proof (describes_eqb _ _ _ (Z.to_N (c_max_inflight c)) Hd Hw N1 N2 N3 N4) as He.
  pose proof (so_com _ Hok) as Hcom. unfold restart_hs in Hcom, Ha. 
  assert (Hfi : ms_first_index s - 1 = e_index (ms_dummy s)) by (unfold ms_first_index; lia).
  destruct (raft_new_total c s (cf, prs) tape V Hs Hc He) as (r & Hr).
  { destruct (is_empty_hs (ms_hs s)); [auto|right; lia]. }
  { rewrite Hfi in *. destruct (is_empty_hs (ms_hs s)); cbn in Ha; [|auto]. auto. }
  assert (Hn : rn_new c tape = Ok (mkRN r (soft_state r) (hard_state r) None)) by (unfold rn_new; rewrite Hr; reflexivity).
  eexists. split; [exact Hn|].
  destruct (dinv_new _ _ _ _ Hs Hok Hn) as (D & HA & HSt).
  pose proof Hr as F. apply raft_new_spec in F. destruct F as (s' & cp' & _ & Hs' & Hc' & _ & _ & _ & F).
  assert (s' = s) by congruence. subst s'. rewrite Hc in Hc'. injection Hc' as <-.
  set (n := mkRN r (soft_state r) (hard_state r) None) in *.
  split. { unfold node_id, n; cbn. unfold r_id. rewrite (fr_cfg _ _ _ _ F). reflexivity. }
  split. { unfold node_role, n; cbn. apply F. }
  split. { unfold node_lead, n; cbn. apply F. }
  split. { unfold node_hard, n; cbn. unfold hard_state. rewrite (fr_term _ _ _ _ F), (fr_vote _ _ _ _ F), (fr_log _ _ _ _ F). cbn.
    unfold restart_hs. destruct (is_empty_hs (ms_hs s)) eqn:Hem; [|destruct (ms_hs s); reflexivity].
    unfold is_empty_hs in Hem. f_equal; lia. }
  split. { unfold node_applied, n; cbn. rewrite (fr_log _ _ _ _ F). cbn. rewrite Hfi.
    destruct (N.ltb_spec 0 (c_applied c)), (N.eqb_spec (c_applied c) 0); lia. }
  split. { unfold n; cbn. rewrite (fr_tconf _ _ _ _ F). exact Hd. }
  pose proof (lwf_0 _ (li_wf _ (ni_log _ (di_ninv _ D)))) as W0.
  split. { unfold node_first. rewrite log_first_abs, HA. unfold a_first, ms_abs. cbn. lia. }
  split. { unfold node_last. rewrite log_last_abs, HA by auto. unfold a_last, ms_abs. cbn. lia. }
  split.
  { intros i e. rewrite holds_abs by auto. rewrite HA. unfold a_entry, ms_abs. cbn.
    pose proof (so_contig _ Hok) as Hct. split.
    - intros H. destruct (N.ltb_spec (e_index (ms_dummy s)) i); [|discriminate]. pose proof (Hct _ _ H). split; [lia|]. eapply nnth_In; eauto.
    - intros [H1 H2]. apply In_nnth in H2. destruct H2 as [k Hk]. pose proof (Hct _ _ Hk). destruct (N.ltb_spec (e_index (ms_dummy s)) i); [|lia].
      replace (i - e_index (ms_dummy s) - 1) with k by lia. exact Hk. }
  split; [unfold pending, n; cbn; apply F|exact HSt].
Qed.

(** C49: on an empty storage Bootstrap appends one conf-change entry per peer, in order, at term 1,
    all of them committed, and makes the peers the voters; the node is a follower of term 1. *)
Theorem C49_bootstrap c s tape ps : config_valid c -> c_storage c = Some s -> storage_empty s -> c_applied c = 0 ->
  ps <> [] -> (forall p, In p ps -> pe_id p <> 0) ->
  exists n0 n, rn_new c tape = Ok n0 /\ rn_bootstrap ps n0 = Ok (n, None) /\ rn_start c tape ps = Ok n /\
    node_role n = RFollower /\ node_lead n = 0 /\ node_hard n = mkHardState 1 0 (nlen ps) /\
    node_first n = 1 /\ node_last n = nlen ps /\ node_applied n = 0 /\
    (forall k p, nnth ps k = Some p ->
       holds_entry n (1 + k) (mkEntry 1 (1 + k) EntryConfChange (enc_cc (mkConfChange CcAddNode (pe_id p) (pe_ctx p) 0)))) /\
    (forall id, In id (node_incoming n) <-> exists p, In p ps /\ pe_id p = id) /\
    node_outgoing n = [] /\ tc_learners (ns_config (rn_status n)) = [] /\
    rn_has_ready n = true.
Proof.
  intros V Hs He Ha Hps Hz. destruct (storage_empty_ok s He) as (Hok & HR & HA & HL & HF).
  assert (Hn : exists n0, rn_new c tape = Ok n0).
  { destruct (raft_new_total c s (mkTConfig [] [] false [] [], []) tape V Hs) as (r & Hr).
    - destruct He as (_ & -> & _). reflexivity.
    - destruct He as (_ & -> & _). reflexivity.
    - left. destruct He as (-> & _). reflexivity.
    - auto.
    - unfold rn_new. rewrite Hr. cbn. eauto. }
  destruct Hn as [n0 Hn]. destruct (bootstrap_ok c s tape n0 ps Hs He Hn Hps Hz) as (n & Hb & B).
  exists n0, n. split; auto. split; auto. split; [unfold rn_start; rewrite Hn; cbn [bind]; rewrite Hb; auto|].
  pose proof (lwf_0 _ (li_wf _ (ni_log _ (di_ninv _ (bo_dinv _ _ _ _ B))))) as W0. destruct (boot_ents_spec ps 1) as (I1 & I2 & I3 & I4).
  unfold node_role, node_lead, node_hard, node_first, node_last, node_applied, node_incoming, node_outgoing, rn_status, soft_state; cbn [ns_soft ns_hard ns_applied ns_config ss_state ss_lead].
  split; [apply B|]. split; [apply B|]. split; [apply B|].
  rewrite log_first_abs, log_last_abs, (bo_abs _ _ _ _ B) by auto.
  split; [reflexivity|]. split; [unfold a_last; cbn; lia|]. split; [apply B|].
  split. { intros k p Hk. apply holds_abs; [apply B|]. rewrite (bo_abs _ _ _ _ B). unfold a_entry. cbn [a_base a_ents].
    destruct (N.ltb_spec 0 (1 + k)); [|lia]. replace (1 + k - 0 - 1) with k by lia. apply I4; auto. }
  split; [apply B|]. split; [apply B|]. split; [apply B|].
  unfold rn_has_ready, log_unstable_entries. rewrite (bo_us _ _ _ _ B). assert (X : is_nil (bootstrap_ents 1 ps) = false) by (destruct ps; [tauto|reflexivity]).
  rewrite X. rewrite orb_comm. cbn [negb]. rewrite !orb_true_r. reflexivity.
Qed.
Theorem C49_no_peers n : exists e, rn_bootstrap [] n = Ok (n, Some e).
Proof. eexists. reflexivity. Qed.
End Props.

(** C49: the documented error for a non-empty storage does not exist: Bootstrap on a storage with
    HardState (2, vote 0, commit 0) and one entry reports success, lowers the term from 2 to 1 and
    overwrites the stored entry. *)
Theorem C49_nonempty_storage_refuted : exists c s tape n0 n ps,
  config_valid c /\ c_storage c = Some s /\ storage_ok s /\ ms_last_index s = 1 /\
  @rn_new ex_env c tape = Ok n0 /\ @rn_bootstrap ex_env ps n0 = Ok (n, None) /\
  node_term n0 = 2 /\ node_term n = 1 /\
  (exists e, @holds_entry ex_env n0 1 e /\ e_term e = 2 /\ e_type e = EntryNormal) /\
  (exists e, @holds_entry ex_env n 1 e /\ e_term e = 1 /\ e_type e = EntryConfChange).
Proof.
  set (s := mkMS (mkHardState 2 0 0) empty_snapshot (mkEntry 0 0 EntryNormal EmptyString) [mkEntry 2 1 EntryNormal "a"]).
  set (c := mkConfig 1 10 1 (Some s) 0 1000 1000 0 4 false false RoSafe false).
  assert (H : exists n0 n, @rn_new ex_env c [] = Ok n0 /\ @rn_bootstrap ex_env [mkPeer 1 EmptyString] n0 = Ok (n, None) /\
    node_term n0 = 2 /\ node_term n = 1 /\
    (exists e, @holds_entry ex_env n0 1 e /\ e_term e = 2 /\ e_type e = EntryNormal) /\
    (exists e, @holds_entry ex_env n 1 e /\ e_term e = 1 /\ e_type e = EntryConfChange)).
  { vm_compute. eexists. eexists. split; [reflexivity|]. split; [reflexivity|]. split; [reflexivity|]. split; [reflexivity|].
    split; eexists; (split; [reflexivity|split; reflexivity]). }
  destruct H as (n0 & n & H). exists c, s, [], n0, n, [mkPeer 1 EmptyString].
  split; [constructor; cbn; try discriminate; lia|]. split; [reflexivity|].
  split; [apply storage_okb_ok; reflexivity|]. split; [reflexivity|]. exact H.
Qed.

(* ---- concrete cases ---- *)
Example C43_example : exists n n' out, @node_at ex_env n /\ nop_ok NHandle n /\ @n_step ex_env NHandle n = Ok (n', out) /\
  (rn_has_ready n && negb (rn_has_ready n') && match o_ready out with Some rd => rd_must_sync rd | None => false end) = true.
Proof. apply (case_ok (ex_cfg 1) ex_tape [NHandle; NCampaign] NHandle _). vm_compute. reflexivity. Qed.
(** After the first acknowledgement only the commit index changes: no sync needed. *)
Example C43_example_no_sync : exists n n' out, @node_at ex_env n /\ nop_ok NHandle n /\ @n_step ex_env NHandle n = Ok (n', out) /\
  (rn_has_ready n && match o_ready out with Some rd => negb (rd_must_sync rd) && (hs_commit (rd_hard rd) =? 8) | None => false end) = true.
Proof. apply (case_ok (ex_cfg 1) ex_tape (ex_elect ++ [NStep (ex_app_resp 2 3 8)]) NHandle _). vm_compute. reflexivity. Qed.
Example C47_example : exists n n' out, @node_at ex_env n /\ nop_ok (NStep (ex_app_resp 9 3 8)) n /\ @n_step ex_env (NStep (ex_app_resp 9 3 8)) n = Ok (n', out) /\
  match o_err out with Some EPeerNotFound => true | _ => false end = true.
Proof. apply (case_ok (ex_cfg 1) ex_tape ex_elect _ _). vm_compute. reflexivity. Qed.
Example C48_example : config_valid (ex_cfg 1) /\ ~ config_valid (ex_cfg 0) /\
  ~ config_valid (mkConfig 1 10 1 (Some ex_storage) 0 1000 1000 0 4 false false RoLeaseBased false).
Proof.
  split; [constructor; cbn; try discriminate; lia|]. split; [intros [H _ _ _ _ _]; apply H; reflexivity|].
  intros [_ _ _ _ _ H]. specialize (H eq_refl). discriminate.
Qed.
Example C50_example : storage_ok ex_storage /\ confstate_valid (sn_conf (ms_snap ex_storage)) /\ NoDup (cs_voters (sn_conf (ms_snap ex_storage))) /\
  match @rn_new ex_env (ex_cfg 1) [] with Ok n => node_hard n = mkHardState 2 0 6 | _ => False end.
Proof.
  split; [apply storage_okb_ok; vm_compute; reflexivity|]. split.
  { constructor; cbn; try discriminate; try tauto. intuition discriminate. }
  split; [cbn; repeat constructor; cbn; intuition discriminate|]. vm_compute. reflexivity.
Qed.
Example C49_example : match @rn_start ex_env (mkConfig 1 10 1 (Some (mkMS empty_hardstate empty_snapshot (mkEntry 0 0 EntryNormal EmptyString) [])) 0 1000 1000 0 4 false false RoSafe false)
     [] [mkPeer 1 "a"; mkPeer 2 "b"] with
  | Ok n => node_incoming n = [1; 2] /\ node_hard n = mkHardState 1 0 2
  | _ => False
  end.
Proof. vm_compute. auto. Qed.
