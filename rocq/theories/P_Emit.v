(** What a call emits: every new message in the outbox comes from one primitive transition, and
    which input message that transition handled. *)
From Verif Require Import Prelude Types M_Util M_Quorum M_Inflights M_Progress M_Tracker.
From Verif Require Import M_Storage M_Unstable M_Log M_ReadOnly M_ConfPb M_ConfChange M_Raft M_RawNode.
From Verif Require Import P_Inflights Spec_Log P_Lists P_Storage P_Log Spec_Storage Sys_Storage P_StorageSeq Spec_RaftLog Sys_RaftLog P_RaftLogSeq.
From Verif Require Import P_Frame P_Prim Sys_Node Sys_ConfChange P_Node P_Fields P_Vote Spec_Node P_Persist P_New P_NodeLog P_Handle P_NodeRun.

Section Emit.
Context {E : Env}.

(** Primitive transitions whose input message satisfies [Q]. *)
Inductive qprs (Q : msg -> Prop) : raft -> raft -> Prop :=
| QNil r : qprs Q r r
| QCons im a b c : Q im -> prim im a b -> qprs Q b c -> qprs Q a c.
Lemma qprs_trans Q a b c : qprs Q a b -> qprs Q b c -> qprs Q a c.
Proof. induction 1; auto. intros; econstructor; eauto. Qed.
Lemma qprs_prims (Q : msg -> Prop) im a b : Q im -> prims im a b -> qprs Q a b.
Proof. intros Hq H. induction H; [constructor|]. econstructor; eauto. Qed.
Lemma qprs_ind_rel (Q : msg -> Prop) (I : raft -> Prop) (P : raft -> raft -> Prop) :
  (forall a, P a a) -> (forall a b c, P a b -> P b c -> P a c) ->
  (forall im a b, Q im -> I a -> prim im a b -> I b /\ P a b) ->
  forall a b, qprs Q a b -> I a -> I b /\ P a b.
Proof.
  intros H1 H2 H3 a b H. induction H; auto. intros Ha. destruct (H3 _ _ _ H Ha H0) as [Hb Hp].
  destruct (IHqprs Hb); eauto.
Qed.
Lemma qprs_ind_inv (Q : msg -> Prop) (I : raft -> Prop) :
  (forall im a b, Q im -> I a -> prim im a b -> I b) -> forall a b, qprs Q a b -> I a -> I b.
Proof. intros H a b Hp. induction Hp; eauto. Qed.

(** The messages a call makes Raft handle. *)
Definition call_msg (id : N) (o : nop) (im : msg) : Prop :=
  match o with
  | NStep m => im = m
  | NTick => tick_msg im
  | NTickQuiesced | NCampaign | NApplyCC _ => im = new_msg MsgHup
  | NPropose d => im = propose_msg id d
  | NProposeCC cc => exists t d, cci_marshal cc = Ok (t, d) /\ im = set_m_entries [mkEntry 0 0 t d] (new_msg MsgProp)
  | NReportUnreachable p => im = set_m_from p (new_msg MsgUnreachable)
  | NReportSnapshot p f => im = set_m_reject f (set_m_from p (new_msg MsgSnapStatus))
  | NTransferLeader p => im = set_m_from p (new_msg MsgTransferLeader)
  | NReadIndex c => im = read_index_msg c
  | _ => False
  end.
Lemma call_msg_local id o im : call_msg id o im -> (forall m, o <> NStep m) ->
  m_term im = 0 /\ local_type (m_type im) = true.
Proof.
  intros H Hs. destruct o; cbn in H; try tauto; try (subst; auto; fail).
  - destruct H as [H1 [H2|[H2|H2]]]; split; auto; rewrite H2; auto.
  - destruct H as (t & d & _ & ->). auto.
  - exfalso. eapply Hs; eauto.
Qed.
Lemma call_msg_in id o im : plain o -> nop_wf o -> call_msg id o im -> in_ok im.
Proof.
  intros Hp Hw H. assert (Hd : (exists m, o = NStep m) \/ forall m, o <> NStep m) by (destruct o; eauto; right; discriminate).
  destruct Hd as [[m ->]|Hd]; [cbn in *; subst; left; auto|]. right. eapply call_msg_local; eauto.
Qed.
Lemma call_msg_log id o n im : plain o -> nop_ok o n -> call_msg id o im -> log_msg_wf im.
Proof.
  intros Hp [Hw Hk] H. assert (Hd : (exists m, o = NStep m) \/ forall m, o <> NStep m) by (destruct o; eauto; right; discriminate).
  destruct Hd as [[m ->]|Hd]; [cbn in *; subst; auto|]. destruct (call_msg_local _ _ _ H Hd) as [_ L].
  apply local_log_wf; intros X; rewrite X in L; discriminate.
Qed.

(** The configuration switch an ApplyConfChange starts with. *)
Definition switched (o : nop) (r r0 : raft) : Prop :=
  r0 = r \/ exists cc cp b op, o = NApplyCC cc /\ cc_call op (mkChanger (r_trk r) (r_last r)) = Ok (SOk cp) /\
    r0 = set_r_learner b (set_r_trk (set_t_progress (snd cp) (set_t_config (fst cp) (r_trk r))) r).

Lemma qprs_lprims (Q : msg -> Prop) r r' : (forall m, tick_msg m -> Q m) -> lprims r r' -> qprs Q r r'.
Proof.
  intros HQ. induction 1 as [|m a b c Ht Hp Hl IH]; [constructor|]. eapply qprs_trans; [|exact IH].
  eapply qprs_prims; eauto.
Qed.
Lemma rn_raft_step_qprs (Q : msg -> Prop) m n n' e : Q m -> wf_in m -> rn_raft_step m n = Ok (n', e) ->
  qprs Q (rn_raft n) (rn_raft n').
Proof.
  intros Hi Hw H. unfold rn_raft_step in H. mon. destruct x as [r e']. mon. cbn.
  eapply qprs_prims; eauto. eapply step_prims; eauto.
Qed.
Lemma switch_qprs (Q : msg -> Prop) cc o cp r r' cs : Q (new_msg MsgHup) ->
  cc_call o (mkChanger (r_trk r) (r_last r)) = Ok (SOk cp) ->
  switch_to_config cp r = Ok (r', cs) -> exists r0, switched (NApplyCC cc) r r0 /\ qprs Q r0 r'.
Proof.
  intros HQ Ho. unfold switch_to_config. cbv zeta.
  match goal with |- context[set_r_learner ?b ?x] => set (r1 := set_r_learner b x) end.
  assert (A : switched (NApplyCC cc) r r1) by (right; do 4 eexists; split; [reflexivity|split; [exact Ho|reflexivity]]).
  clearbody r1. intros H. exists r1. split; auto. clear A. revert H.
  destruct (_ && is_leader r1); [intros H; inv H; constructor|].
  destruct (_ || _) eqn:Hl; [intros H; inv H; constructor|]. intros H. mon.
  unfold switch_leader in Hm. mon. destruct x as [r2 cm]. mon. rename x into r3.
  assert (L1 : r_state r1 = RLeader).
  { unfold is_leader in Hl. destruct (r_state r1); cbn in Hl; try discriminate; auto. }
  pose proof (raft_maybe_commit_state _ _ _ Hm0) as [l El].
  assert (L2 : r_state r2 = RLeader) by (rewrite El; auto).
  assert (P1 : prims (new_msg MsgHup) r1 r').
  { eapply PsCons; [eapply PCommit; eauto|]. eapply PsCons.
    - apply PSends; [exact L2|]. instantiate (1 := r3). destruct cm; [eapply bcast_append_sends; eauto|].
      eapply (mfold_inv _ sends); [apply sends_refl|apply sends_trans| |exact Hm1].
      intros a s s' _ Hs. cbv beta in Hs. mon. destruct x. mon. eapply maybe_send_append_sends; eauto.
    - destruct (_ && _); mon; [|constructor]. apply prims_one, PKeep.
      constructor; try reflexivity; try (left; reflexivity). split; [cbn; auto|intros id; cbn; destruct (mget id _); auto using pr_keep_refl]. }
  eapply qprs_prims; [exact HQ|exact P1].
Qed.

Theorem n_step_qprs o n n' out : plain o -> nop_wf o -> n_step o n = Ok (n', out) ->
  exists r0, switched o (rn_raft n) r0 /\ qprs (call_msg (r_id (rn_raft n)) o) r0 (rn_raft n').
Proof.
  intros Hp Hw H.
  assert (S0 : qprs (call_msg (r_id (rn_raft n)) o) (rn_raft n) (rn_raft n') -> exists r0, switched o (rn_raft n) r0 /\ qprs (call_msg (r_id (rn_raft n)) o) r0 (rn_raft n')).
  { intros Hq. eexists; split; [left; reflexivity|auto]. }
  assert (W : forall m, call_msg (r_id (rn_raft n)) o m -> wf_in m) by (intros; eapply in_ok_wf, call_msg_in; eauto).
  destruct o; try (destruct Hp; fail); cbn [n_step] in H; mon; try (destruct x as [? ?]; mon).
  - apply S0. unfold rn_tick in Hm. mon. apply qprs_lprims; [auto|]. apply tick_prims; auto.
  - apply S0. eapply (QCons _ (new_msg MsgHup)); [reflexivity| |constructor].
    apply PKeep. constructor; try reflexivity; try (left; reflexivity).
    split; [cbn; auto|intros id; cbn; destruct (mget id _); auto using pr_keep_refl].
  - apply S0. refine (rn_raft_step_qprs _ _ _ _ _ _ _ Hm); [|apply W]; reflexivity.
  - apply S0. refine (rn_raft_step_qprs _ _ _ _ _ _ _ Hm); [|apply W]; reflexivity.
  - apply S0. unfold rn_propose_conf_change in Hm. mon. destruct x as [t d].
    refine (rn_raft_step_qprs _ _ _ _ _ _ _ Hm); [|apply W]; exists t, d; auto.
  - clear S0. unfold rn_apply_conf_change in Hm. mon. destruct x0 as [r cs']. mon. cbn.
    unfold raft_apply_conf_change in Hm1. mon. destruct x0 as [cp|]; [|discriminate].
    assert (Ho : exists o, cc_call o (mkChanger (r_trk (rn_raft n)) (r_last (rn_raft n))) = Ok (SOk cp)).
    { destruct (leave_joint x); [exists OpLeave; auto|]. destruct (enter_joint x) as [al j]. destruct j.
      - exists (OpEnter al (c2_changes x)). auto.
      - exists (OpSimple (c2_changes x)). auto. }
    destruct Ho as [o Ho]. eapply switch_qprs; eauto. reflexivity.
  - apply S0. unfold rn_step in Hm. destruct (is_local_msg _); [inv Hm; constructor|]. destruct (_ || _); [|inv Hm; constructor].
    refine (rn_raft_step_qprs _ _ _ _ _ _ _ Hm); [|apply W]; reflexivity.
  - apply S0. unfold rn_report_unreachable in Hm. mon. destruct x. mon. refine (rn_raft_step_qprs _ _ _ _ _ _ _ Hm0); [|apply W]; reflexivity.
  - apply S0. unfold rn_report_snapshot in Hm. mon. destruct x. mon. refine (rn_raft_step_qprs _ _ _ _ _ _ _ Hm0); [|apply W]; reflexivity.
  - apply S0. unfold rn_transfer_leader in Hm. mon. destruct x. mon. refine (rn_raft_step_qprs _ _ _ _ _ _ _ Hm0); [|apply W]; reflexivity.
  - apply S0. unfold rn_read_index in Hm. mon. destruct x. mon. refine (rn_raft_step_qprs _ _ _ _ _ _ _ Hm0); [|apply W]; reflexivity.
Qed.

(** Where a new message comes from. *)
Lemma qprs_msgs Q r r' : qprs Q r r' -> exists new, r_msgs r' = r_msgs r ++ new /\
  forall x, In x new -> exists im a b, Q im /\ qprs Q r a /\ prim im a b /\ pmsg im a b x /\ qprs Q b r'.
Proof.
  induction 1 as [r|im a b c Hq Hp Hc IH]; [exists []; rewrite app_nil_r; split; [auto|intros x []]|].
  destruct IH as (new & E1 & E2). pose proof (prim_spec _ _ _ Hp) as (_ & _ & new0 & F1 & F2).
  exists (new0 ++ new). split; [rewrite E1, F1, app_assoc; reflexivity|]. intros x Hx. apply in_app_or in Hx. destruct Hx as [Hx|Hx].
  - rewrite Forall_forall in F2. exists im, a, b. split; [exact Hq|]. split; [constructor|]. split; [exact Hp|]. split; [apply F2; exact Hx|exact Hc].
  - destruct (E2 x Hx) as (im' & a' & b' & G1 & G2 & G3 & G4 & G5). exists im', a', b'.
    split; [exact G1|]. split; [exact (QCons _ _ _ _ _ Hq Hp G2)|]. split; [exact G3|split; [exact G4|exact G5]].
Qed.

(** Calls that are not [plain] leave no new messages: GetReady empties the outbox, and neither
    Advance nor the storage calls send. *)
Lemma advance_msgs n n' : rn_advance n = Ok n' -> r_msgs (rn_raft n') = r_msgs (rn_raft n).
Proof.
  unfold rn_advance. destruct (rn_ready n) as [rd|]; [|discriminate]. intros H. mon. cbn [rn_raft].
  unfold raft_advance in Hm. mon. rename x0 into r1, x1 into r2.
  destruct (reduce_uncommitted_fields (rd_committed rd) (rn_raft n)) as [u Hu]. rewrite Hu in Hm0.
  assert (A1 : r_msgs r1 = r_msgs (rn_raft n)).
  { destruct (0 <? applied_cursor rd); mon; [|auto]. unfold maybe_auto_leave in Hm0.
    match type of Hm0 with (if ?b then _ else _) = _ => destruct b end; mon; auto.
    destruct x1; [|discriminate]. inv Hm0. match goal with H : append_entry _ _ = _ |- _ => apply append_term in H; destruct H as (_&_&_&_&M&_) end. cbn in *. congruence. }
  assert (A2 : r_msgs r2 = r_msgs r1) by (destruct (rev (rd_ents rd)); mon; auto).
  destruct (_ =? 0); mon; cbn; congruence.
Qed.
Lemma not_plain_msgs o n n' out : ~ plain o -> n_step o n = Ok (n', out) ->
  r_msgs (rn_raft n') = r_msgs (rn_raft n) \/ r_msgs (rn_raft n') = [].
Proof.
  intros Hp H. destruct o; try (exfalso; apply Hp; exact I); cbn [n_step] in H; mon; try (destruct x as [? ?]; mon); auto.
  - right. apply get_ready_inv in Hm. destruct Hm as (_ & -> & _). auto.
  - left. apply advance_msgs; auto.
  - right. unfold n_handle in Hm. mon. destruct x as [n1 rd]. mon. match goal with H : rn_advance _ = _ |- _ => apply advance_msgs in H; rewrite H end. cbn.
    match goal with H : rn_get_ready _ = _ |- _ => apply get_ready_inv in H; destruct H as (_ & -> & _) end. auto.
Qed.
Lemma plain_dec o : plain o \/ ~ plain o. Proof. destruct o; cbn; tauto. Qed.

Theorem emits_inv o n n' x : nop_wf o -> emits o n n' x -> plain o /\ exists r0 im a b,
  switched o (rn_raft n) r0 /\ call_msg (r_id (rn_raft n)) o im /\ qprs (call_msg (r_id (rn_raft n)) o) r0 a /\ prim im a b /\ pmsg im a b x /\
  qprs (call_msg (r_id (rn_raft n)) o) b (rn_raft n').
Proof.
  intros Hw (out & new & H1 & H2 & H3). unfold pending in H2. destruct (plain_dec o) as [Hp|Hp].
  - split; auto. destruct (n_step_qprs _ _ _ _ Hp Hw H1) as (r0 & S & Q). exists r0.
    assert (M : r_msgs r0 = r_msgs (rn_raft n)).
    { destruct S as [->|(cc & cp & b & op & _ & _ & ->)]; auto. }
    destruct (qprs_msgs _ _ _ Q) as (new' & E1 & E2). rewrite M in E1. rewrite E1 in H2. apply app_inv_head in H2. subst new'.
    destruct (E2 x H3) as (im & a & b & G). exists im, a, b. tauto.
  - exfalso. destruct (not_plain_msgs _ _ _ _ Hp H1) as [X|X]; rewrite X in H2.
    + rewrite <- (app_nil_r (r_msgs (rn_raft n))) in H2 at 1. apply app_inv_head in H2. subst. auto.
    + symmetry in H2. apply app_eq_nil in H2. destruct H2; subst; auto.
Qed.
End Emit.
