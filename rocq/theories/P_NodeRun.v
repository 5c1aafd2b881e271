(** The node invariant along disciplined runs. *)
From Verif Require Import Prelude Types M_Util M_Quorum M_Inflights M_Progress M_Tracker.
From Verif Require Import M_Storage M_Unstable M_Log M_ReadOnly M_ConfPb M_ConfChange M_Raft M_RawNode.
From Verif Require Import P_Inflights Spec_Log P_Lists P_Storage P_Log Spec_Storage Sys_Storage P_StorageSeq Spec_RaftLog Sys_RaftLog P_RaftLogSeq.
From Verif Require Import P_Frame P_Prim Sys_Node Sys_ConfChange P_Node P_Fields P_Vote Spec_Node P_Persist P_New P_NodeLog P_Handle.

Section NodeRun.
Context {E : Env}.

Inductive npr : raft -> raft -> Prop :=
| NpMsg im r r' : in_ok im -> log_msg_wf im -> prim im r r' -> npr r r'
| NpSwitch r cp b o : cc_call o (mkChanger (r_trk r) (r_last r)) = Ok (SOk cp) ->
    npr r (set_r_learner b (set_r_trk (set_t_progress (snd cp) (set_t_config (fst cp) (r_trk r))) r)).
Inductive nprs : raft -> raft -> Prop :=
| NpNil a : nprs a a
| NpCons a b c : npr a b -> nprs b c -> nprs a c.
Lemma nprs_one a b : npr a b -> nprs a b. Proof. intros; econstructor; eauto; constructor. Qed.
Lemma nprs_trans a b c : nprs a b -> nprs b c -> nprs a c.
Proof. induction 1; auto. intros; econstructor; eauto. Qed.
Lemma nprs_prims im r r' : in_ok im -> log_msg_wf im -> prims im r r' -> nprs r r'.
Proof. intros Hi Hw H. induction H; [constructor|]. econstructor; [eapply NpMsg; eauto|auto]. Qed.
Lemma nprs_ind_inv (P : raft -> Prop) : (forall a b, P a -> npr a b -> P b) ->
  forall a b, nprs a b -> P a -> P b.
Proof. intros H a b Hp. induction Hp; eauto. Qed.
Lemma nprs_ind_rel (I : raft -> Prop) (P : raft -> raft -> Prop) :
  (forall a, P a a) -> (forall a b c, P a b -> P b c -> P a c) -> (forall a b, I a -> npr a b -> I b /\ P a b) ->
  forall a b, nprs a b -> I a -> I b /\ P a b.
Proof.
  intros H1 H2 H3 a b H. induction H; auto. intros Ha. destruct (H3 _ _ Ha H) as [Hb Hp].
  destruct (IHnprs Hb); eauto.
Qed.

Lemma local_log_wf m : m_type m <> MsgApp -> m_type m <> MsgSnap -> log_msg_wf m.
Proof. intros; split; intros; congruence. Qed.
Lemma nprs_lprims r r' : lprims r r' -> nprs r r'.
Proof.
  induction 1 as [|m a b c Ht Hp Hl IH]; [constructor|]. eapply nprs_trans; [|exact IH].
  eapply nprs_prims; eauto.
  - right. destruct Ht as [H1 [H|[H|H]]]; split; auto; rewrite H; auto.
  - destruct Ht as [H1 [H|[H|H]]]; apply local_log_wf; congruence.
Qed.
Lemma rn_raft_step_nprs m n n' e : in_ok m -> log_msg_wf m -> rn_raft_step m n = Ok (n', e) ->
  nprs (rn_raft n) (rn_raft n').
Proof.
  intros Hi Hw H. unfold rn_raft_step in H. mon. destruct x as [r e']. mon. cbn.
  eapply nprs_prims; eauto. eapply step_prims; eauto using in_ok_wf.
Qed.
Lemma switch_nprs o cp r r' cs : cc_call o (mkChanger (r_trk r) (r_last r)) = Ok (SOk cp) ->
  switch_to_config cp r = Ok (r', cs) -> nprs r r'.
Proof.
  intros Ho. unfold switch_to_config. cbv zeta.
  match goal with |- context[set_r_learner ?b ?x] => set (r1 := set_r_learner b x) end.
  assert (A : npr r r1) by (eapply NpSwitch; eauto).
  clearbody r1. destruct (_ && is_leader r1); [intros H; inv H; apply nprs_one; auto|].
  destruct (_ || _) eqn:Hl; [intros H; inv H; apply nprs_one; auto|]. intros H. mon.
  eapply NpCons; [exact A|]. unfold switch_leader in Hm. mon. destruct x as [r2 cm]. mon. rename x into r3.
  assert (L1 : r_state r1 = RLeader).
  { unfold is_leader in Hl. destruct (r_state r1); cbn in Hl; try discriminate; auto. }
  pose proof (raft_maybe_commit_state _ _ _ Hm0) as [l El].
  assert (L2 : r_state r2 = RLeader) by (rewrite El; auto).
  assert (P1 : prims (new_msg MsgHup) r1 r').
  { eapply PsCons; [eapply PCommit; eauto|]. eapply PsCons.
    - apply PSends; [exact L2|]. instantiate (1 := r3). destruct cm; [eapply bcast_append_sends; eauto|].
      eapply (mfold_inv _ sends); [apply sends_refl|apply sends_trans| |exact Hm1].
      intros a s s' _ Hs. cbv beta in Hs. mon. destruct x. mon. eapply maybe_send_append_sends; eauto.
    - destruct (_ && _); mon; [|constructor]. apply prims_one, PKeep.
      constructor; try reflexivity; try (left; reflexivity). split; [cbn; auto|intros id; cbn; destruct (mget id _); auto using pr_keep_refl]. }
  eapply nprs_prims; eauto using tick_in_ok. apply local_log_wf; discriminate.
Qed.

Lemma apply_cc_nprs cc n n' cs : rn_apply_conf_change cc n = Ok (n', cs) -> nprs (rn_raft n) (rn_raft n').
Proof.
  unfold rn_apply_conf_change. intros H. mon. destruct x0 as [r cs']. mon. cbn.
  unfold raft_apply_conf_change in Hm0. mon. destruct x0 as [cp|]; [|discriminate].
  assert (Ho : exists o, cc_call o (mkChanger (r_trk (rn_raft n)) (r_last (rn_raft n))) = Ok (SOk cp)).
  { destruct (leave_joint x); [exists OpLeave; auto|]. destruct (enter_joint x) as [al j]. destruct j.
    - exists (OpEnter al (c2_changes x)). auto.
    - exists (OpSimple (c2_changes x)). auto. }
  destruct Ho as [o Ho]. eapply switch_nprs; eauto.
Qed.

(** Calls that touch neither the storage nor the pending Ready. *)
Definition plain (o : nop) : Prop :=
  match o with NReady | NAdvance | NHandle | NStorage _ | NCompact _ | NCreateSnapshot _ _ _ => False | _ => True end.
Theorem n_step_nprs o n n' out : plain o -> nop_ok o n -> n_step o n = Ok (n', out) ->
  nprs (rn_raft n) (rn_raft n') /\ rn_prev_hard n' = rn_prev_hard n /\ rn_ready n' = rn_ready n /\ o_ready out = None.
Proof.
  intros Hp [Hw Hok] H.
  assert (Hq : rn_prev_hard n' = rn_prev_hard n /\ rn_ready n' = rn_ready n /\ readys [out] = []).
  { eapply step_plain; eauto. destruct o; auto. }
  destruct Hq as (Q1 & Q2 & Q3).
  assert (Q4 : o_ready out = None). { unfold readys in Q3; cbn in Q3. destruct (o_ready out); auto; discriminate. }
  split; [|auto]. clear Q1 Q2 Q3 Q4.
  assert (L : forall m, m_term m = 0 -> local_type (m_type m) = true -> in_ok m /\ log_msg_wf m).
  { intros m L1 L2. split; [right; split; auto|]. apply local_log_wf; intros X; rewrite X in L2; discriminate. }
  destruct o; try (destruct Hp; fail); cbn [n_step] in H; mon; try (destruct x as [? ?]; mon).
  - unfold rn_tick in Hm. mon. apply nprs_lprims, tick_prims; auto.
  - apply nprs_one. eapply NpMsg; [apply tick_in_ok|apply local_log_wf; discriminate|].
    apply PKeep. constructor; try reflexivity; try (left; reflexivity).
    split; [cbn; auto|intros id; cbn; destruct (mget id _); auto using pr_keep_refl].
  - refine (rn_raft_step_nprs _ _ _ _ _ _ Hm); apply L; auto.
  - refine (rn_raft_step_nprs _ _ _ _ _ _ Hm); apply L; auto.
  - unfold rn_propose_conf_change in Hm. mon. destruct x as [t d].
    refine (rn_raft_step_nprs _ _ _ _ _ _ Hm); apply L; auto.
  - eapply apply_cc_nprs; eauto.
  - unfold rn_step in Hm. destruct (is_local_msg _); [inv Hm; constructor|]. destruct (_ || _); [|inv Hm; constructor].
    refine (rn_raft_step_nprs _ _ _ _ _ Hok Hm). left; exact Hw.
  - unfold rn_report_unreachable in Hm. mon. destruct x. mon. refine (rn_raft_step_nprs _ _ _ _ _ _ Hm0); apply L; auto.
  - unfold rn_report_snapshot in Hm. mon. destruct x. mon. refine (rn_raft_step_nprs _ _ _ _ _ _ Hm0); apply L; auto.
  - unfold rn_transfer_leader in Hm. mon. destruct x. mon. refine (rn_raft_step_nprs _ _ _ _ _ _ Hm0); apply L; auto.
  - unfold rn_read_index in Hm. mon. destruct x. mon. refine (rn_raft_step_nprs _ _ _ _ _ _ Hm0); apply L; auto.
Qed.

Lemma npr_ninv a b : ninv a -> npr a b -> ninv b /\ lkeep (r_log a) (r_log b).
Proof.
  intros Hn Hp. revert Hn. destruct Hp as [im r r' Hi Hw H|r cp bo o Ho]; intros Hn.
  - destruct (prim_log _ _ _ Hw Hn H) as [H1 H2]. split; auto. eapply leff_keep; eauto.
  - split; [|apply lkeep_refl]. apply (ninv_same r); auto.
Qed.
Lemma nprs_ninv a b : nprs a b -> ninv a -> ninv b /\ lkeep (r_log a) (r_log b).
Proof.
  apply (nprs_ind_rel ninv (fun a b => lkeep (r_log a) (r_log b))).
  - intros; apply lkeep_refl.
  - intros x y z; apply lkeep_trans.
  - apply npr_ninv.
Qed.

Record dinv (n : rawnode) : Prop := {
  di_ninv : ninv (rn_raft n);
  di_st : storage_ok (node_storage n);
  di_hs : rn_prev_hard n = restart_hs (node_storage n);
  di_app : l_applied (r_log (rn_raft n)) <= hs_commit (rn_prev_hard n);
  di_com : hs_commit (rn_prev_hard n) <= l_committed (r_log (rn_raft n));
  di_fwd : hs_forward (rn_prev_hard n) (hard_state (rn_raft n));
  di_ready : rn_ready n = None;
  di_pend : forall s, u_snap (l_us (r_log (rn_raft n))) = Some s -> hs_commit (rn_prev_hard n) < sn_index s;
  di_base : u_snap (l_us (r_log (rn_raft n))) = None -> a_base (log_abs (r_log (rn_raft n))) <= l_applied (r_log (rn_raft n))
}.

(** The storage stays good when the application snapshots or compacts. *)
Lemma apos_ndrop a i t k : apos a -> (i <> 0 -> 0 < t) -> apos (mkALog i t (ndrop k (a_ents a))).
Proof.
  intros [P1 P2] Ht. constructor; cbn; auto. intros e He. apply P1. rewrite <- (ntake_ndrop k (a_ents a)). apply in_or_app; auto.
Qed.
Lemma storage_ok_abs s : storage_ok s <-> swf s /\ apos (ms_abs s) /\ (sn_index (ms_snap s) <> 0 -> 0 < sn_term (ms_snap s)) /\
  sn_index (ms_snap s) <= hs_commit (restart_hs s) /\ a_base (ms_abs s) <= hs_commit (restart_hs s) <= a_last (ms_abs s).
Proof.
  rewrite <- ms_last_abs. split.
  - intros [A1 A2 A3 A4 A5 A6]. split; [auto|]. split; [constructor; auto|]. auto.
  - intros (H1 & [H2 H3] & H4 & H5 & H6). constructor; auto.
Qed.

Lemma compact_dinv i n s e : dinv n -> i <= l_applied (r_log (rn_raft n)) ->
  ms_compact i (node_storage n) = Ok (s, e) -> dinv (set_storage s n).
Proof.
  intros [[N1 N2 N3] D2 D3 D4 D5 D6 D7 D8 D9] Hi H. pose proof D2 as D2'. apply storage_ok_abs in D2'.
  destruct D2' as (S1 & S2 & S3 & S4 & S5).
  pose proof (ms_compact_abs (node_storage n) i S1) as HC.
  destruct (N.leb_spec i (a_base (ms_abs (node_storage n)))).
  { rewrite HC in H. inv H. replace (set_storage (node_storage n) n) with n by (unfold set_storage, node_storage; destruct n as [[] ? ? ?]; cbn; destruct r_log; auto).
    constructor; auto. constructor; auto. }
  destruct (N.ltb_spec (a_last (ms_abs (node_storage n))) i); [destruct HC as [w HC]; congruence|].
  destruct HC as (s' & t & C1 & C2 & C3 & C4 & C5 & C6). rewrite C1 in H. inv H.
  assert (Hrh : restart_hs s = restart_hs (node_storage n)).
  { unfold restart_hs. rewrite C3. destruct (is_empty_hs (ms_hs (node_storage n))) eqn:He; auto.
    exfalso. unfold restart_hs in D3. rewrite He in D3. rewrite D3 in D4. cbn in D4. rewrite ms_first_abs in D4. unfold a_first in D4. lia. }
  assert (Hap : apos (ms_abs s)).
  { rewrite C6. apply apos_ndrop; auto. intros. eapply apos_term; eauto. }
  assert (Hst : storage_ok s).
  { apply storage_ok_abs. rewrite Hrh. split; [auto|]. split; [auto|]. rewrite C4. split; [auto|]. split; [auto|].
    rewrite C6. cbn [a_base]. unfold a_last; cbn [a_base a_ents]. rewrite nlen_ndrop. rewrite <- D3 in *. unfold a_last in *. lia. }
  unfold set_storage, set_rn_raft.
  constructor; auto; cbn [rn_raft rn_prev_hard node_storage r_log set_r_log l_st set_l_st]; [|rewrite D3; auto|].
  2:{ cbn [l_us set_l_st l_applied]. intros Hu. unfold log_abs. cbn [l_us set_l_st l_st]. rewrite Hu, C6. cbn. lia. }
  constructor; cbn [r_log set_r_log r_state r_term]; auto.
  - destruct (u_snap (l_us (r_log (rn_raft n)))) as [sn|] eqn:Hu.
    + destruct N1 as [[W1 W2 W3 W4 W5] Ha Hs]. constructor; cbn; auto; [|rewrite Hu in *; unfold node_storage in C4; rewrite C4; auto].
      assert (Hx : log_abs (set_l_st s (r_log (rn_raft n))) = log_abs (r_log (rn_raft n))).
      { unfold log_abs. cbn. rewrite Hu. auto. }
      constructor; auto; [|rewrite Hx; auto]. cbn. rewrite Hu in *. auto.
    + destruct (log_compact_ok i (r_log (rn_raft n)) N1 Hu Hi) as [K1 K2].
      assert (Hb : a_base (log_abs (r_log (rn_raft n))) = a_base (ms_abs (node_storage n))) by (unfold log_abs; rewrite Hu; auto).
      destruct K2 as (st' & t' & K2 & K3 & K4 & _); [lia|]. unfold node_storage in C1. rewrite C1 in K2. inv K2. auto.
  - destruct N2 as [P1 P2 P3 P4]. constructor; cbn; auto; [|rewrite C4; auto].
    unfold log_abs in *. cbn. destruct (u_snap (l_us (r_log (rn_raft n)))) as [sn|] eqn:Hu; auto.
    destruct P1 as [P1 P1']. destruct Hap as [Q1 Q2]. cbn [a_ents a_base a_bterm] in *. constructor; cbn [a_ents a_base a_bterm]; auto.
    intros e He. apply in_app_or in He. destruct He as [He|He].
    + apply Q1. match type of He with In _ (ntake ?k _) => rewrite <- (ntake_ndrop k (a_ents (ms_abs s))) end. apply in_or_app; auto.
    + apply P1. apply in_or_app; auto.
Qed.

Lemma snapshot_dinv i cs d n s e : dinv n -> i <= l_applied (r_log (rn_raft n)) ->
  ms_create_snapshot i cs d (node_storage n) = Ok (s, e) -> dinv (set_storage s n).
Proof.
  intros [[N1 N2 N3] D2 D3 D4 D5 D6 D7 D8 D9] Hi H. pose proof D2 as D2'. apply storage_ok_abs in D2'.
  destruct D2' as (S1 & S2 & S3 & S4 & S5).
  assert (Hs : s = node_storage n \/ exists sn, s = set_ms_snap sn (node_storage n) /\ sn_index sn = i /\ (i <> 0 -> 0 < sn_term sn)).
  { unfold ms_create_snapshot in H. destruct (_ <=? _); [inv H; auto|]. destruct (_ <? i); [discriminate|].
    destruct (N.ltb_spec i (e_index (ms_dummy (node_storage n)))); [discriminate|]. destruct (nnth _ _) as [x|] eqn:Hn; [|discriminate].
    inv H. right. eexists; split; [reflexivity|]. cbn [sn_index sn_term]. split; auto. intros Hz.
    unfold ms_ents in Hn. destruct D2 as [Q1 Q2 Q3 Q4 Q5 Q6]. destruct (N.eqb_spec (i - e_index (ms_dummy (node_storage n))) 0) as [Hd|Hd].
    - rewrite Hd in Hn. rewrite nnth_cons0 in Hn. inv Hn. apply Q3. lia.
    - apply Q2. rewrite nnth_consS in Hn by lia. eapply nnth_In; eauto. }
  destruct Hs as [-> |(sn & -> & Hsi & Hst)].
  { replace (set_storage (node_storage n) n) with n by (unfold set_storage, node_storage; destruct n as [[] ? ? ?]; cbn; destruct r_log; auto).
    constructor; auto. constructor; auto. }
  unfold set_storage, set_rn_raft.
  constructor; auto; cbn [rn_raft rn_prev_hard node_storage r_log set_r_log l_st set_l_st].
  - constructor; cbn [r_log set_r_log r_state r_term]; auto.
    + destruct N1 as [[W1 W2 W3 W4 W5] Ha Hs]. constructor; cbn; auto.
      * constructor; auto.
      * pose proof (lp_pend _ N2) as Hp. destruct (u_snap _); [specialize (Hp _ eq_refl)|]; lia.
    + destruct N2. constructor; cbn; auto. rewrite Hsi; auto.
  - destruct D2. constructor; auto; cbn; rewrite Hsi; auto.
    change (restart_hs (set_ms_snap sn (node_storage n))) with (restart_hs (node_storage n)). rewrite <- D3. lia.
Qed.

(** What one iteration of the Ready loop does. *)
Record hspec (n n' : rawnode) (rd : ready) : Prop := {
  hs_ready : ready_of n rd;
  hs_next : rd_committed rd = next_of (r_log (rn_raft n));
  hs_applied : l_applied (r_log (rn_raft n')) = applied_after rd (r_log (rn_raft n));
  hs_app_le : l_applied (r_log (rn_raft n)) <= applied_after rd (r_log (rn_raft n)) <= l_committed (r_log (rn_raft n));
  hs_com : l_committed (r_log (rn_raft n)) <= l_committed (r_log (rn_raft n'));
  hs_st : ms_abs (node_storage n') = log_abs (r_log (rn_raft n));
  hs_snap : ms_snap (node_storage n') = match u_snap (l_us (r_log (rn_raft n))) with Some s => s | None => ms_snap (node_storage n) end;
  hs_us : u_snap (l_us (r_log (rn_raft n'))) = None;
  hs_prev : rn_prev_hard n' = hard_state (rn_raft n);
  hs_max : l_maxnext (r_log (rn_raft n')) = l_maxnext (r_log (rn_raft n));
  hs_case :
    (exists u, rn_raft n' = set_r_log (r_log (rn_raft n')) (set_r_uncommitted u (set_r_msgs [] (set_r_read_states [] (rn_raft n)))) /\
      log_abs (r_log (rn_raft n')) = log_abs (r_log (rn_raft n)) /\ u_ents (l_us (r_log (rn_raft n'))) = [] /\
      l_committed (r_log (rn_raft n')) = l_committed (r_log (rn_raft n)) /\
      u = r_uncommitted (reduce_uncommitted (rd_committed rd) (rn_raft n))) \/
    (r_state (rn_raft n) = RLeader /\ exists rb r0,
      (exists u l, rb = set_r_log l (set_r_uncommitted u (set_r_msgs [] (set_r_read_states [] (rn_raft n)))) /\
         lwf l /\ log_abs l = log_abs (r_log (rn_raft n)) /\ l_committed l = l_committed (r_log (rn_raft n)) /\
         u = r_uncommitted (reduce_uncommitted (rd_committed rd) (rn_raft n))) /\
      append_entry [auto_leave_entry] rb = Ok (Some r0) /\
      rn_raft n' = set_r_log (r_log (rn_raft n')) (set_r_pending_conf (r_last r0) r0) /\
      log_abs (r_log (rn_raft n')) = log_abs (r_log r0) /\ l_committed (r_log (rn_raft n')) = l_committed (r_log r0) /\
      r_pending_conf (rn_raft n) <= l_applied (r_log (rn_raft n')));
  hs_stay : ~ leaving (rn_raft n) rd -> log_abs (r_log (rn_raft n')) = log_abs (r_log (rn_raft n)) /\ l_committed (r_log (rn_raft n')) = l_committed (r_log (rn_raft n));
  hs_leave : leaving (rn_raft n) rd ->
    log_abs (r_log (rn_raft n')) = a_app (log_abs (r_log (rn_raft n))) (stamp (r_term (rn_raft n)) (a_last (log_abs (r_log (rn_raft n))) + 1) [auto_leave_entry]) /\
    r_pending_conf (rn_raft n') = a_last (log_abs (r_log (rn_raft n))) + 1
}.

Lemma set_log_eta r l r0 : r = set_r_log l r0 -> r = set_r_log (r_log r) r0.
Proof. intros ->. reflexivity. Qed.
Lemma set_log_eta2 r r1 l l2 r0 : r = set_r_log l r1 -> r1 = set_r_log l2 r0 -> r = set_r_log (r_log r) r0.
Proof. intros -> ->. reflexivity. Qed.
Lemma hardstate_eqb_eq a b : hardstate_eqb a b = true -> a = b.
Proof. unfold hardstate_eqb. destruct a, b; cbn. intros. f_equal; lia. Qed.
Lemma next_of_ok l ents : lwf l -> log_next_ents l = Ok ents -> ents = next_of l.
Proof. intros Hw H. rewrite log_next_ents_abs in H by auto. cbv zeta in H. unfold next_of. cbv zeta. destruct (_ <? _); inv H; auto. Qed.

Lemma in_slice a lo hi e : In e (a_slice a lo hi) -> In e (a_ents a).
Proof.
  unfold a_slice. intros H. rewrite <- (ntake_ndrop (lo - a_base a - 1) (a_ents a)). apply in_or_app. right.
  match type of H with In _ (ntake ?k ?l) => rewrite <- (ntake_ndrop k l) end. apply in_or_app; auto.
Qed.
Lemma handle_dinv n n' rd : dinv n -> n_handle n = Ok (n', rd) -> dinv n' /\ hspec n n' rd.
Proof.
  intros [[N1 N2 N3] D2 D3 D4 D5 D6 D7 D8 D9] H.
  pose proof (handle_inv n n' rd N1 (fun h => N3 (or_introl h)) H) as [R HP HS HN HA HR].
  pose proof D2 as D2'. apply storage_ok_abs in D2'. destruct D2' as (S1 & S2 & S3 & S4 & S5).
  cbv zeta in HR. destruct HR as (st & u & rb & r1 & Hps & Hrb & Hr1 & Hrn & Hwb & Hab & Hwn & Han & Hru).
  pose proof (li_wf _ N1) as Hw. pose proof (lwf_com _ Hw) as Hcom.
  (* the HardState on disk *)
  assert (Hpr : rn_prev_hard n' = hard_state (rn_raft n)).
  { rewrite HP, (ro_hard _ _ R). destruct (hardstate_eqb _ _) eqn:Heq.
    - apply hardstate_eqb_eq in Heq. change (is_empty_hs empty_hardstate) with true. cbv iota. congruence.
    - destruct (is_empty_hs (hard_state (rn_raft n))) eqn:Hem; auto. exfalso.
      assert (rn_prev_hard n = hard_state (rn_raft n)); [|rewrite H0 in Heq; unfold hardstate_eqb in Heq; lia].
      unfold is_empty_hs, hard_state in *. cbn in Hem. destruct (rn_prev_hard n) as [pt pv pc]. cbn in *.
      unfold hs_forward in D6. cbn in D6. f_equal; lia. }
  assert (Hms : ms_hs st = if is_empty_hs (rd_hard rd) then ms_hs (node_storage n) else rd_hard rd) by (apply (ps_hs _ _ _ Hps)).
  assert (Hst : restart_hs st = rn_prev_hard n').
  { unfold restart_hs. rewrite Hms. destruct (is_empty_hs (rd_hard rd)) eqn:Hem.
    - rewrite Hpr. rewrite HP in Hpr. unfold restart_hs in D3.
      destruct (is_empty_hs (ms_hs (node_storage n))) eqn:He2; [|congruence].
      rewrite <- Hpr, D3. f_equal. rewrite !ms_first_abs, (ps_abs _ _ _ Hps). unfold a_first.
      assert (Hb : hs_commit (rn_prev_hard n) = l_committed (r_log (rn_raft n))) by (rewrite Hpr; auto).
      unfold log_abs in *. destruct (u_snap (l_us (r_log (rn_raft n)))) as [s0|] eqn:Hu; [|cbn [a_base]; reflexivity].
      exfalso. cbn in Hcom. specialize (D8 _ eq_refl). lia.
    - rewrite Hem. rewrite HP. auto. }
  assert (Hsa : ms_abs st = log_abs (r_log (rn_raft n))) by apply Hps.
  assert (Hsn : ms_snap st = match u_snap (l_us (r_log (rn_raft n))) with Some s => s | None => ms_snap (node_storage n) end) by apply Hps.
  assert (Hlb : l_applied (r_log rb) = applied_after rd (r_log (rn_raft n)) /\ l_committed (r_log rb) = l_committed (r_log (rn_raft n)) /\
     l_st (r_log rb) = st /\ l_maxnext (r_log rb) = l_maxnext (r_log (rn_raft n)) /\
     r_term rb = r_term (rn_raft n) /\ r_vote rb = r_vote (rn_raft n) /\ r_state rb = r_state (rn_raft n) /\
     u_ents (l_us (r_log rb)) = u_ents (l_us (r_log (rn_raft n)))).
  { rewrite Hrb. repeat split. }
  destruct Hlb as (L1 & L2 & L3 & L4 & L5 & L6 & L7 & L8).
  assert (Hl1 : l_applied (r_log r1) = l_applied (r_log rb) /\ l_committed (r_log rb) <= l_committed (r_log r1) /\
     l_st (r_log r1) = st /\ l_maxnext (r_log r1) = l_maxnext (r_log rb) /\
     r_term r1 = r_term rb /\ r_vote r1 = r_vote rb /\ r_state r1 = r_state rb /\ apos (log_abs (r_log r1)) /\
     a_base (log_abs (r_log r1)) = a_base (log_abs (r_log rb))).
  { destruct Hr1 as [[-> _]|(Hl & r0 & Ha & -> & Hpc & _)].
    - rewrite Hab. split; [auto|]. split; [lia|]. repeat (split; [auto; fail|]). split; auto. apply N2.
    - assert (0 < r_term rb) by (rewrite L5; auto).
      destruct (append_log_w _ _ _ Hwb H0 Ha) as (A1 & A2 & A3 & pr & pr' & u0 & mci & _ & _ & _ & _ & _ & A4 & _).
      cbv zeta in *. destruct (append_entry_fields _ _ _ Ha) as (lx & px & ux & Ef).
      assert (Hf : r_term r0 = r_term rb /\ r_vote r0 = r_vote rb /\ r_state r0 = r_state rb) by (rewrite Ef; auto).
      cbn [r_log r_term r_vote r_state set_r_pending_conf]. destruct Hf as (F1 & F2 & F3).
      split; [rewrite A3; auto|]. split; [auto|]. split; [rewrite A3; auto|]. split; [rewrite A3; auto|].
      split; [auto|]. split; [auto|]. split; [auto|]. rewrite A2. split; [|reflexivity]. rewrite Hab.
      destruct (lp_log _ N2) as [P1 P2]. constructor; auto. unfold a_app; cbn [a_ents]. intros e He.
      apply in_app_or in He. destruct He as [He|He]; auto. apply stamp_term in He. lia. }
  destruct Hl1 as (M1 & M2 & M3 & M4 & M5 & M6 & M7 & M8 & M9).
  assert (Hn1 : l_applied (r_log (rn_raft n')) = applied_after rd (r_log (rn_raft n)) /\
     l_committed (r_log (rn_raft n')) = l_committed (r_log r1) /\ node_storage n' = st /\
     l_maxnext (r_log (rn_raft n')) = l_maxnext (r_log (rn_raft n)) /\ u_snap (l_us (r_log (rn_raft n'))) = None /\
     u_off (l_us (r_log (rn_raft n'))) = a_last (log_abs (r_log (rn_raft n))) + 1 /\
     r_term (rn_raft n') = r_term (rn_raft n) /\ r_vote (rn_raft n') = r_vote (rn_raft n) /\ r_state (rn_raft n') = r_state (rn_raft n)).
  { unfold node_storage. rewrite Hrn. cbn [r_log set_r_log l_applied set_l_us l_committed l_st l_maxnext l_us u_snap u_off r_term r_vote r_state].
    repeat split; congruence. }
  destruct Hn1 as (Q1 & Q2 & Q3 & Q4 & Q5 & Q6 & Q7 & Q8 & Q9).
  assert (Hsni : sn_index (ms_snap st) <= l_committed (r_log (rn_raft n))).
  { rewrite Hsn. pose proof (li_snap _ N1) as Hx. destruct (u_snap (l_us (r_log (rn_raft n)))) eqn:Hu; [|auto].
    unfold log_abs in Hcom. rewrite Hu in Hcom. cbn in Hcom. lia. }
  assert (Hsnt : sn_index (ms_snap st) <> 0 -> 0 < sn_term (ms_snap st)).
  { rewrite Hsn. pose proof (lp_log _ N2) as Hx. destruct (u_snap (l_us (r_log (rn_raft n)))) eqn:Hu; [|auto].
    unfold log_abs in Hx. rewrite Hu in Hx. apply Hx. }
  assert (Hsok : storage_ok st).
  { apply storage_ok_abs. rewrite Hst, Hpr, Hsa. cbn [hs_commit hard_state]. split; [apply Hps|]. split; [apply N2|]. auto. }
  split.
  - constructor; auto.
    + constructor.
      * constructor; [auto|rewrite Q1, Q6; lia|rewrite Q5]. fold (node_storage n'). rewrite Q3. lia.
      * constructor; fold (node_storage n'); rewrite ?Q3, ?Q5; auto; [rewrite Han; auto|rewrite Hsa; apply N2|discriminate].
      * rewrite Q7, Q9. auto.
    + rewrite Q3; auto.
    + rewrite Q3; auto.
    + rewrite Q1, Hpr. cbn. lia.
    + rewrite Hpr. cbn. lia.
    + rewrite Hpr. unfold hard_state. rewrite Q7, Q8. right. cbn. auto.
    + rewrite Q5. discriminate.
    + intros _. rewrite Han, M9, Hab, Q1. destruct (u_snap (l_us (r_log (rn_raft n)))) as [s0|] eqn:Hu; [|specialize (D9 eq_refl); lia].
      unfold applied_after, applied_cursor. rewrite (ro_snap _ _ R), Hu. unfold log_abs in *. rewrite Hu in *. cbn [a_base] in *.
      destruct (rev (rd_committed rd)) as [|e es] eqn:Hrev.
      * destruct (N.ltb_spec 0 (sn_index s0)); lia.
      * pose proof (lwf_0 _ Hw) as Hw0. assert (He : In e (rd_committed rd)) by (rewrite <- (rev_involutive (rd_committed rd)), Hrev; apply in_rev; rewrite rev_involutive; left; auto).
        rewrite (next_of_ok _ _ Hw (ro_committed _ _ R)) in He. unfold next_of in He. cbv zeta in He.
        destruct (_ <? _) in He; [|destruct He]. destruct (limit_size_prefix (a_slice (log_abs (r_log (rn_raft n))) (N.max (l_applied (r_log (rn_raft n)) + 1) (a_first (log_abs (r_log (rn_raft n))))) (l_committed (r_log (rn_raft n)) + 1)) (l_maxnext (r_log (rn_raft n)))) as [rest Hx].
        assert (He2 : In e (a_ents (log_abs (r_log (rn_raft n))))).
        { eapply in_slice. rewrite Hx. apply in_or_app. left. exact He. }
        apply In_nnth in He2. destruct He2 as [k Hk]. pose proof (log_abs_wf _ Hw0) as Hwf. specialize (Hwf k e Hk).
        unfold log_abs in Hwf. rewrite Hu in Hwf. cbn in Hwf. destruct (N.ltb_spec 0 (e_index e)); lia.
  - constructor; auto; try lia.
    + apply next_of_ok; auto. apply R.
    + rewrite Q3; auto.
    + rewrite Q3; auto.
    + destruct Hr1 as [[E1 _]|(Hl & r0 & Ha & E1 & Hpc & _)].
      * left. exists u. rewrite Han, Q2, E1. split.
        { eapply set_log_eta2; [exact Hrn|]. rewrite E1. exact Hrb. }
        split; [auto|]. split; [|auto]. rewrite Hrn. cbn [r_log set_r_log l_us set_l_us u_ents].
        rewrite E1, L8. apply ndrop_all. lia.
      * right. split; auto. exists rb, r0. split; [exists u; eexists; split; [exact Hrb|]|].
        { replace (set_l_applied (applied_after rd (r_log (rn_raft n))) (set_l_st st (r_log (rn_raft n)))) with (r_log rb) by (rewrite Hrb; auto). auto. }
        split; auto. split; [rewrite <- E1; eapply set_log_eta; exact Hrn|]. rewrite Han, Q2, E1, Q1. auto.
    + intros Hnl. destruct Hr1 as [[E1 _]|(_ & r0 & _ & _ & _ & Hlv)]; [|contradiction]. rewrite Han, Q2, E1. auto.
    + intros Hlv. destruct Hr1 as [[_ Hnl]|(Hl & r0 & Ha & E1 & _ & _)]; [contradiction|].
      assert (Htb : 0 < r_term rb) by (rewrite L5; auto). destruct (append_log_w _ _ _ Hwb Htb Ha) as (A0 & A1 & _). cbv zeta in A1. rewrite Han, E1. cbn [r_log set_r_pending_conf].
      rewrite Hab, L5 in A1. split; [exact A1|]. rewrite Hrn, E1. cbn [r_pending_conf set_r_log set_r_pending_conf]. unfold r_last. rewrite log_last_abs by (apply lwf_0; exact A0).
      rewrite A1, a_last_app, stamp_len. reflexivity.
Qed.

Theorem n_step_dinv o n n' out : nop_ok o n -> n_step o n = Ok (n', out) -> dinv n ->
  dinv n' /\ match o with
             | NHandle => exists rd, out = mkOut None (Some rd) /\ hspec n n' rd
             | NCompact _ | NCreateSnapshot _ _ _ => exists s, n' = set_storage s n /\ o_ready out = None /\ ms_hs s = ms_hs (node_storage n)
             | _ => nprs (rn_raft n) (rn_raft n') /\ o_ready out = None
             end.
Proof.
  intros Hok H D. assert (Hp : plain o \/ ~ plain o) by (destruct o; cbn; tauto). destruct Hp as [Hp|Hp].
  - destruct (n_step_nprs o n n' out Hp Hok H) as (A1 & A2 & A3 & A4).
    assert (Hg : dinv n').
    { destruct D as [N1 D2 D3 D4 D5 D6 D7 D8 D9]. destruct (nprs_ninv _ _ A1 N1) as [B1 [B2 B3 B4 B5 B6 B7 _ _]].
      unfold node_storage in *. constructor; unfold node_storage; rewrite ?A2, ?A3, ?B3, ?B4; auto; [lia| | |].
      - eapply fwd_trans; [exact D6|]. pose proof (n_step_aprs o n n' out [] (proj1 Hok) H) as Ha. apply aprs_tv in Ha. apply Ha.
      - intros s Hs. destruct (B6 s Hs); auto. lia.
      - intros Hs. destruct (B7 Hs) as [X ->]. auto. }
    split; auto. destruct o; auto; cbn in Hp; tauto.
  - destruct o; cbn in Hp; try tauto; destruct Hok as [Hw Hok]; try tauto; cbn [n_step] in H; apply bind_ok in H.
    + destruct H as ([n1 rd] & H1 & H2). inv H2. destruct (handle_dinv _ _ _ D H1). eauto.
    + destruct H as ([s e] & H1 & H2). inv H2. split; [eapply compact_dinv; eauto|]. exists s. repeat split.
      destruct D. pose proof (proj1 (storage_ok_abs _) di_st0) as (S1 & _). pose proof (ms_compact_abs (node_storage n) i S1) as HC.
      destruct (_ <=? _); [rewrite HC in H1; inv H1; auto|]. destruct (_ <? _); [destruct HC as [w HC]; congruence|].
      destruct HC as (s' & t & C1 & _ & C2 & _). congruence.
    + destruct H as ([s e] & H1 & H2). inv H2. split; [eapply snapshot_dinv; eauto|]. exists s. repeat split.
      unfold ms_create_snapshot in H1. destruct (_ <=? _); [inv H1; auto|]. destruct (_ <? i); [discriminate|].
      destruct (_ <? _); [discriminate|]. destruct (nnth _ _); inv H1; auto.
Qed.

(** Committed entries never change. *)
Record cfix (l l' : rlog) : Prop := {
  cx_com : l_committed l <= l_committed l';
  cx_bmono : a_base (log_abs l) <= a_base (log_abs l');
  cx_pref : forall i, a_base (log_abs l') < i -> i <= l_committed l -> a_entry (log_abs l') i = a_entry (log_abs l) i
}.
Lemma cfix_refl l : cfix l l. Proof. constructor; auto; lia. Qed.
Lemma cfix_trans a b c : cfix a b -> cfix b c -> cfix a c.
Proof. intros [A1 A2 A3] [B1 B2 B3]. constructor; try lia. intros. rewrite B3 by lia. apply A3; lia. Qed.
Lemma n_step_cfix o n n' out : nop_ok o n -> n_step o n = Ok (n', out) -> dinv n -> cfix (r_log (rn_raft n)) (r_log (rn_raft n')).
Proof.
  intros Hok H D. pose proof (n_step_dinv o n n' out Hok H D) as [D' X].
  pose proof (lwf_com _ (li_wf _ (ni_log _ (di_ninv _ D)))) as Hc.
  assert (Hp : plain o \/ ~ plain o) by (destruct o; cbn; tauto). destruct Hp as [Hp|Hp].
  - destruct (n_step_nprs o n n' out Hp Hok H) as (A1 & _). destruct (nprs_ninv _ _ A1 (di_ninv _ D)) as [_ []]. constructor; auto.
  - destruct o; cbn in Hp; try tauto; destruct Hok as [Hw Hok]; try tauto.
    + destruct X as (rd & _ & [R1 R2 R3 R4 R5 R6 R7 R8 R9 R10 R11]). destruct R11 as [(u & E1 & E2 & _)|(Hl & rb & r0 & (u & l & E1 & E2 & E3 & E6 & _) & Ha & E4 & E5 & _)].
      * constructor; rewrite ?E2; auto. lia.
      * assert (Ht : 0 < r_term rb) by (rewrite E1; apply (ni_term _ (di_ninv _ D)); auto).
        assert (Hwb : lwf (r_log rb)) by (rewrite E1; auto).
        destruct (append_log_w _ _ _ Hwb Ht Ha) as (_ & A2 & _). cbv zeta in A2.
        replace (r_log rb) with l in A2 by (rewrite E1; auto). rewrite E3 in A2.
        constructor; [auto| |]; rewrite E5, A2; [cbn; lia|]. intros i H1 H2. apply a_entry_app. lia.
    + cbn [n_step] in H. apply bind_ok in H. destruct H as ([s e] & H1 & H2). inv H2.
      destruct D as [[N1 N2 N3] D2 D3 D4 D5 D6 D7 D8 D9].
      assert (Hs : s = node_storage n \/ s <> node_storage n /\ a_base (ms_abs (node_storage n)) < i).
      { pose proof (proj1 (storage_ok_abs _) D2) as (S1 & _). pose proof (ms_compact_abs (node_storage n) i S1) as HC.
        destruct (N.leb_spec i (a_base (ms_abs (node_storage n)))); [rewrite HC in H1; inv H1; auto|].
        destruct (_ <? _); [destruct HC as [w HC]; congruence|]. destruct HC as (s' & t & C1 & _ & _ & _ & _ & C6).
        rewrite C1 in H1. inv H1. right. split; auto. intros X1. rewrite X1 in C6. rewrite C6 in H. cbn in H. lia. }
      destruct Hs as [-> |[Hne Hs]].
      { replace (set_storage (node_storage n) n) with n by (unfold set_storage, node_storage; destruct n as [[] ? ? ?]; cbn; destruct r_log; auto).
        apply cfix_refl. }
      unfold set_storage, set_rn_raft. cbn [rn_raft r_log set_r_log].
      destruct (u_snap (l_us (r_log (rn_raft n)))) as [sn|] eqn:Hu.
      * constructor; cbn; unfold log_abs; cbn; rewrite ?Hu; auto; lia.
      * destruct (log_compact_ok i (r_log (rn_raft n)) N1 Hu Hok) as [K1 K2].
        assert (Hb : a_base (log_abs (r_log (rn_raft n))) = a_base (ms_abs (node_storage n))) by (unfold log_abs; rewrite Hu; auto).
        destruct K2 as (st' & t & K2 & K3 & K4 & K5 & K6 & K7); [lia|]. unfold node_storage in H1. rewrite H1 in K2. inv K2.
        constructor; cbn [l_committed set_l_st]; [lia| |]; rewrite K7; cbn [a_base]; [lia|].
        intros j J1 J2. unfold a_entry; cbn [a_base a_ents]. destruct (N.ltb_spec i j); [|lia].
        destruct (N.ltb_spec (a_base (log_abs (r_log (rn_raft n)))) j); [|lia]. rewrite nnth_ndrop. f_equal. lia.
    + clear X D'. cbn [n_step] in H. apply bind_ok in H. destruct H as ([s e] & H1 & H2). inv H2.
      assert (Hs : ms_abs s = ms_abs (node_storage n)).
      { unfold ms_create_snapshot in H1. destruct (_ <=? _); [inv H1; auto|]. destruct (_ <? i); [discriminate|].
        destruct (_ <? _); [discriminate|]. destruct (nnth _ _); inv H1; auto. }
      assert (Hl : log_abs (r_log (rn_raft (set_storage s n))) = log_abs (r_log (rn_raft n))).
      { unfold log_abs. cbn [set_storage set_rn_raft rn_raft r_log set_r_log l_us set_l_st l_st]. rewrite Hs. reflexivity. }
      constructor; rewrite ?Hl; auto; cbn; lia.
Qed.
Theorem n_run_cfix os : forall n n' outs, n_run_ok os n -> n_run os n = Ok (n', outs) -> dinv n -> cfix (r_log (rn_raft n)) (r_log (rn_raft n')).
Proof.
  induction os as [|o os IH]; intros n n' outs Hok H D; cbn [n_run] in H; mon; [apply cfix_refl|].
  destruct x as [n1 out]. mon. destruct x as [n2 outs']. mon. cbn [n_run_ok] in Hok. destruct Hok as [H1 H2].
  rewrite Hm in H2. eapply cfix_trans; [eapply n_step_cfix; eauto|]. eapply IH; eauto. eapply n_step_dinv; eauto.
Qed.

Theorem n_run_dinv os : forall n n' outs, n_run_ok os n -> n_run os n = Ok (n', outs) -> dinv n -> dinv n'.
Proof.
  induction os as [|o os IH]; intros n n' outs Hok H D; cbn [n_run] in H; mon; auto.
  destruct x as [n1 out]. mon. destruct x as [n2 outs']. mon. cbn [n_run_ok] in Hok. destruct Hok as [H1 H2].
  rewrite Hm in H2. eapply IH; eauto. eapply n_step_dinv; eauto.
Qed.

Lemma dinv_new c s tape n : c_storage c = Some s -> storage_ok s -> rn_new c tape = Ok n -> dinv n /\
  log_abs (r_log (rn_raft n)) = ms_abs s /\ node_storage n = s.
Proof.
  intros Hs Hok H. apply rn_new_spec in H. destruct H as (r & Hr & ->). apply raft_new_spec in Hr.
  destruct Hr as (s' & cp & _ & Hs' & _ & _ & Hcom & Happ & F). assert (s' = s) by congruence. subst s'.
  pose proof Hok as Hok'. apply storage_ok_abs in Hok'. destruct Hok' as (S1 & S2 & S3 & S4 & S5).
  set (l := r_log r). assert (Hl : l = r_log r) by auto. clearbody l.
  pose proof (fr_log _ _ _ _ F) as Fl. rewrite <- Hl in Fl.
  set (ap := if 0 <? c_applied c then c_applied c else ms_first_index s - 1) in *.
  set (cm := if is_empty_hs (ms_hs s) then ms_first_index s - 1 else hs_commit (ms_hs s)) in *.
  assert (Ecm : hs_commit (restart_hs s) = cm). { unfold restart_hs, cm. destruct (is_empty_hs (ms_hs s)); auto. }
  assert (Hap : a_base (ms_abs s) <= ap <= cm).
  { unfold ap. rewrite ms_first_abs in *. unfold a_first in *. destruct (N.ltb_spec 0 (c_applied c)); lia. }
  assert (Habs : log_abs l = ms_abs s).
  { rewrite Fl. unfold log_abs, new_log. cbn [l_us u_snap set_l_applied set_l_committed l_st u_off u_ents].
    rewrite app_nil_r, ntake_all; [destruct (ms_abs s); auto|]. rewrite ms_last_abs. unfold a_last, a_first. lia. }
  assert (E0 : l_applied l = ap /\ l_committed l = cm /\ l_st l = s /\ l_us l = mkUnstable None [] (a_last (ms_abs s) + 1)).
  { rewrite Fl. cbn. rewrite ms_last_abs. auto. }
  destruct E0 as (E1 & E2 & E3 & E4).
  assert (Hh : hard_state r = restart_hs s).
  { unfold hard_state. rewrite (fr_term _ _ _ _ F), (fr_vote _ _ _ _ F), <- Hl, E2. unfold restart_hs, cm.
    destruct (is_empty_hs (ms_hs s)) eqn:He; [|destruct (ms_hs s); auto]. unfold is_empty_hs in He. f_equal; lia. }
  rewrite Ecm in *.
  split; [|cbn [rn_raft node_storage]; unfold node_storage; cbn [rn_raft]; rewrite <- Hl; auto].
  constructor; cbn [rn_raft rn_prev_hard rn_ready]; unfold node_storage; cbn [rn_raft]; rewrite <- ?Hl; auto.
  - constructor; rewrite <- ?Hl.
    + constructor; rewrite ?E4, ?E3, ?E2, ?E1; cbn [u_snap u_off]; [|lia|auto].
      constructor; rewrite ?E4, ?E3, ?E2, ?E1, ?Habs; cbn [u_snap u_off u_ents]; auto; [apply contig_nil| |lia].
      split; [unfold a_first, a_last; lia|auto].
    + constructor; rewrite ?Habs, ?E3, ?E4; auto. cbn. discriminate.
    + rewrite (fr_state _ _ _ _ F). intros [X|X]; discriminate.
  - rewrite E3; auto.
  - rewrite E3; auto.
  - rewrite Hh, Ecm, E1. lia.
  - rewrite Hh, Ecm, E2. lia.
  - apply fwd_refl.
  - rewrite E4. cbn. discriminate.
  - intros _. rewrite Habs, E1. lia.
Qed.

Theorem node_at_dinv n : node_at n -> dinv n.
Proof.
  intros (c & tape & s & n0 & os & outs & H1 & H2 & H3 & H4 & H5).
  destruct (dinv_new _ _ _ _ H1 H2 H3) as [D _]. eapply n_run_dinv; eauto.
Qed.
End NodeRun.
