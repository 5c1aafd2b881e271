(** Every API call on a node is a sequence of primitive transitions. *)
From Verif Require Import Prelude Types M_Util M_Quorum M_Inflights M_Progress M_Tracker.
From Verif Require Import M_Storage M_Unstable M_Log M_ReadOnly M_ConfPb M_ConfChange M_Raft M_RawNode.
From Verif Require Import P_Inflights P_Frame P_Prim Sys_Node Sys_ConfChange.

Section Node.
Context {E : Env}.

Definition local_msg (m : msg) : Prop := m_term m = 0 /\ local_type (m_type m) = true.
Definition in_ok (m : msg) : Prop := peer_msg_wf m \/ local_msg m.
Lemma in_ok_wf m : in_ok m -> wf_in m.
Proof. intros [[_ H]|[H1 H2]] Hz; auto. destruct (H Hz) as [->|[->| ->]]; auto. Qed.

(** State: the messages handed out so far, and the raft state. *)
Definition nst := (list msg * raft)%type.
Inductive apr : nst -> nst -> Prop :=
| AMsg im ms r r' : in_ok im -> prim im r r' -> apr (ms, r) (ms, r')
| AFlush ms r l : apr (ms, r) (ms ++ r_msgs r, set_r_msgs [] (set_r_read_states l r))
| ASwitch ms r cp b o : cc_call o (mkChanger (r_trk r) (r_last r)) = Ok (SOk cp) -> apr (ms, r)
    (ms, set_r_learner b (set_r_trk (set_t_progress (snd cp) (set_t_config (fst cp) (r_trk r))) r))
| AAdm ms r l u : l_committed l = l_committed (r_log r) ->
    apr (ms, r) (ms, set_r_log l (set_r_uncommitted u r))
| AAuto ms r r1 : r_state r = RLeader -> append_entry [auto_leave_entry] r = Ok (Some r1) ->
    apr (ms, r) (ms, set_r_pending_conf (r_last r1) r1).
Inductive aprs : nst -> nst -> Prop :=
| ApNil a : aprs a a
| ApCons a b c : apr a b -> aprs b c -> aprs a c.
Lemma aprs_one a b : apr a b -> aprs a b. Proof. intros; econstructor; eauto; constructor. Qed.
Lemma aprs_trans a b c : aprs a b -> aprs b c -> aprs a c.
Proof. induction 1; auto. intros; econstructor; eauto. Qed.
Lemma aprs_prims im ms r r' : in_ok im -> prims im r r' -> aprs (ms, r) (ms, r').
Proof. intros Hi H. induction H; [constructor|]. econstructor; [eapply AMsg; eauto|auto]. Qed.
Lemma aprs_lprims ms r r' : lprims r r' -> aprs (ms, r) (ms, r').
Proof.
  induction 1 as [|m a b c Ht Hp Hl IH]; [constructor|]. eapply aprs_trans; [|exact IH].
  eapply aprs_prims; eauto. right. destruct Ht as [H1 [H|[H|H]]]; split; auto; rewrite H; auto.
Qed.
Lemma aprs_ind_inv (P : nst -> Prop) : (forall a b, P a -> apr a b -> P b) ->
  forall a b, aprs a b -> P a -> P b.
Proof. intros H a b Hp. induction Hp; eauto. Qed.
Lemma aprs_ind_rel (P : nst -> nst -> Prop) :
  (forall a, P a a) -> (forall a b c, P a b -> P b c -> P a c) -> (forall a b, apr a b -> P a b) ->
  forall a b, aprs a b -> P a b.
Proof. intros H1 H2 H3 a b H. induction H; eauto. Qed.

Lemma rn_raft_step_aprs m n n' e ms : in_ok m -> rn_raft_step m n = Ok (n', e) ->
  aprs (ms, rn_raft n) (ms, rn_raft n').
Proof.
  intros Hi H. unfold rn_raft_step in H. mon. destruct x as [r e']. mon. cbn.
  eapply aprs_prims; eauto. eapply step_prims; eauto using in_ok_wf.
Qed.

Lemma set_eta r : set_r_msgs (r_msgs r) r = r. Proof. destruct r; auto. Qed.
Lemma get_ready_aprs n n' rd ms : rn_get_ready n = Ok (n', rd) ->
  aprs (ms, rn_raft n) (ms ++ rd_msgs rd, rn_raft n').
Proof.
  unfold rn_get_ready. intros H. mon. cbn [rn_raft]. unfold new_ready in Hm. mon. cbn [rd_msgs].
  unfold accept_ready; cbn [rd_reads rn_raft]. apply aprs_one.
  destruct (r_read_states (rn_raft n)) eqn:Hr.
  - cbn [is_nil]. pose proof (AFlush ms (rn_raft n) []) as A.
    replace (set_r_read_states [] (rn_raft n)) with (rn_raft n) in A; auto.
    destruct (rn_raft n); cbn in *; subst; auto.
  - cbn [is_nil]. apply AFlush.
Qed.

Lemma applied_to_com i l l' : log_applied_to i l = Ok l' -> l_committed l' = l_committed l.
Proof. unfold log_applied_to. repeat match goal with |- context[if ?b then _ else _] => destruct b end; intros H; inv H; auto. Qed.
Lemma stable_to_com i t l l' : log_stable_to i t l = Ok l' -> l_committed l' = l_committed l.
Proof. unfold log_stable_to. intros H. mon. auto. Qed.

Lemma AAdm_log ms r l : l_committed l = l_committed (r_log r) -> apr (ms, r) (ms, set_r_log l r).
Proof. intros H. pose proof (AAdm ms r l (r_uncommitted r) H) as A. destruct r; exact A. Qed.
Lemma AAdm_unc ms r u : apr (ms, r) (ms, set_r_uncommitted u r).
Proof. pose proof (AAdm ms r (r_log r) u eq_refl) as A. destruct r; exact A. Qed.

Lemma advance_aprs n n' ms : rn_advance n = Ok n' -> aprs (ms, rn_raft n) (ms, rn_raft n').
Proof.
  unfold rn_advance. destruct (rn_ready n) as [rd|]; [|discriminate]. intros H. mon. cbn [rn_raft].
  unfold raft_advance in Hm. mon. rename x0 into r1, x1 into r2.
  destruct (reduce_uncommitted_fields (rd_committed rd) (rn_raft n)) as [u Hu]. rewrite Hu in Hm0.
  eapply ApCons; [apply (AAdm_unc ms (rn_raft n) u)|]. clear Hu.
  set (r0 := set_r_uncommitted u (rn_raft n)) in *. clearbody r0.
  assert (H1 : aprs (ms, r0) (ms, r1)).
  { destruct (0 <? applied_cursor rd); mon; [|constructor].
    eapply ApCons; [apply (AAdm_log ms r0 x0); eapply applied_to_com; eauto|].
    unfold maybe_auto_leave in Hm0.
    match type of Hm0 with (if ?b then _ else _) = _ => destruct b eqn:Hb end; mon; [|constructor].
    destruct x1; [|discriminate]. inv Hm0. apply aprs_one. apply AAuto; auto.
    unfold is_leader in Hb. destruct (r_state (set_r_log x0 r0)); cbn in Hb; rewrite ?andb_false_r in Hb; auto; discriminate. }
  eapply aprs_trans; [exact H1|].
  assert (H2 : aprs (ms, r1) (ms, r2)).
  { destruct (rev (rd_ents rd)); mon; [constructor|]. apply aprs_one. apply AAdm_log. eapply stable_to_com; eauto. }
  eapply aprs_trans; [exact H2|].
  destruct (_ =? 0); mon; [constructor|]. apply aprs_one, AAdm_log. reflexivity.
Qed.

Lemma tick_in_ok : in_ok (new_msg MsgHup). Proof. right; split; auto. Qed.
Lemma switch_aprs o cp r r' cs ms : cc_call o (mkChanger (r_trk r) (r_last r)) = Ok (SOk cp) ->
  switch_to_config cp r = Ok (r', cs) -> aprs (ms, r) (ms, r').
Proof.
  intros Ho. unfold switch_to_config. cbv zeta.
  match goal with |- context[set_r_learner ?b ?x] => set (r1 := set_r_learner b x) end.
  assert (A : apr (ms, r) (ms, r1)) by (eapply ASwitch; eauto).
  clearbody r1. destruct (_ && is_leader r1); [intros H; inv H; apply aprs_one; auto|].
  destruct (_ || _) eqn:Hl; [intros H; inv H; apply aprs_one; auto|]. intros H. mon.
  eapply ApCons; [exact A|]. unfold switch_leader in Hm. mon. destruct x as [r2 cm]. mon. rename x into r3.
  assert (L1 : r_state r1 = RLeader).
  { unfold is_leader in Hl. destruct (r_state r1); cbn in Hl; try discriminate; auto. }
  pose proof (raft_maybe_commit_state _ _ _ Hm0) as [l El].
  assert (L2 : r_state r2 = RLeader) by (rewrite El; auto).
  assert (P1 : prims (new_msg MsgHup) r1 r').
  { eapply PsCons; [eapply PCommit; eauto|]. eapply PsCons.
    - apply PSends; [exact L2|]. instantiate (1 := r3). destruct cm; [eapply bcast_append_sends; eauto|].
      eapply (mfold_inv _ sends); [apply sends_refl|apply sends_trans| |exact Hm1].
      intros a s s' _ Hs. cbv beta in Hs. mon. destruct x. mon. eapply maybe_send_append_sends; eauto.
    - destruct (_ && _); mon; [|constructor]. apply prims_one, PKeep.
      constructor; try reflexivity; try (left; reflexivity). split; [cbn; auto|intros id; cbn; destruct (mget id _); auto using pr_keep_refl]. }
  eapply aprs_prims; eauto using tick_in_ok.
Qed.
Lemma apply_cc_aprs cc n n' cs ms : rn_apply_conf_change cc n = Ok (n', cs) ->
  aprs (ms, rn_raft n) (ms, rn_raft n').
Proof.
  unfold rn_apply_conf_change. intros H. mon. destruct x0 as [r cs']. mon. cbn.
  unfold raft_apply_conf_change in Hm0. mon. destruct x0 as [cp|]; [|discriminate].
  assert (Ho : exists o, cc_call o (mkChanger (r_trk (rn_raft n)) (r_last (rn_raft n))) = Ok (SOk cp)).
  { destruct (leave_joint x); [exists OpLeave; auto|]. destruct (enter_joint x) as [al j]. destruct j.
    - exists (OpEnter al (c2_changes x)). auto.
    - exists (OpSimple (c2_changes x)). auto. }
  destruct Ho as [o Ho]. eapply switch_aprs; eauto.
Qed.

Lemma tick_quiesced_apr r ms : apr (ms, r) (ms, tick_quiesced r).
Proof.
  eapply AMsg; [apply tick_in_ok|]. apply PKeep. constructor; try reflexivity; try (left; reflexivity).
  split; [cbn; auto|intros id; cbn; destruct (mget id _); auto using pr_keep_refl].
Qed.

Theorem n_step_aprs o n n' out ms : nop_wf o -> n_step o n = Ok (n', out) ->
  aprs (ms, rn_raft n) (ms ++ sent [out], rn_raft n').
Proof.
  intros Hw H.
  assert (Hno : forall e, ms ++ sent [mkOut e None] = ms) by (intros; unfold sent; cbn; apply app_nil_r).
  assert (Hrd : forall rd, ms ++ sent [mkOut None (Some rd)] = ms ++ rd_msgs rd).
  { intros; unfold sent; cbn. rewrite !app_nil_r; auto. }
  destruct o; cbn [n_step] in H; mon; try (destruct x as [? ?]; mon);
    unfold no_out in *; rewrite ?Hno, ?Hrd.
  - unfold rn_tick in Hm. mon. apply aprs_lprims, tick_prims; auto.
  - apply aprs_one, tick_quiesced_apr.
  - eapply rn_raft_step_aprs; [|exact Hm]. right; split; auto.
  - eapply rn_raft_step_aprs; [|exact Hm]. right; split; auto.
  - unfold rn_propose_conf_change in Hm. mon. destruct x as [t d].
    eapply rn_raft_step_aprs; [|exact Hm]. right; split; auto.
  - eapply apply_cc_aprs; eauto.
  - unfold rn_step in Hm. destruct (is_local_msg _); [inv Hm; constructor|]. destruct (_ || _); [|inv Hm; constructor].
    eapply rn_raft_step_aprs; [|exact Hm]. left; exact Hw.
  - eapply get_ready_aprs; eauto.
  - eapply advance_aprs; eauto.
  - apply aprs_one. apply AAdm_log. auto.
  - unfold n_handle in Hm. mon. destruct x as [n1 rd]. mon.
    eapply aprs_trans; [eapply get_ready_aprs; eauto|].
    eapply ApCons; [|eapply advance_aprs; eauto]. apply AAdm_log. auto.
  - apply aprs_one. apply AAdm_log. auto.
  - apply aprs_one. apply AAdm_log. auto.
  - unfold rn_report_unreachable in Hm. mon. destruct x. mon. eapply rn_raft_step_aprs; [|eassumption]. right; split; auto.
  - unfold rn_report_snapshot in Hm. mon. destruct x. mon. eapply rn_raft_step_aprs; [|eassumption]. right; split; auto.
  - unfold rn_transfer_leader in Hm. mon. destruct x. mon. eapply rn_raft_step_aprs; [|eassumption]. right; split; auto.
  - unfold rn_read_index in Hm. mon. destruct x. mon. eapply rn_raft_step_aprs; [|eassumption]. right; split; auto.
Qed.

Theorem n_run_aprs os : forall n n' outs ms, Forall nop_wf os -> n_run os n = Ok (n', outs) ->
  aprs (ms, rn_raft n) (ms ++ sent outs, rn_raft n').
Proof.
  induction os as [|o os IH]; intros n n' outs ms Hw H; cbn [n_run] in H; mon.
  - unfold sent; cbn. rewrite app_nil_r. constructor.
  - destruct x as [n1 out]. mon. destruct x as [n2 outs']. mon. inv Hw.
    eapply aprs_trans; [eapply n_step_aprs; eauto|].
    replace (ms ++ sent (out :: outs')) with ((ms ++ sent [out]) ++ sent outs').
    + eapply IH; eauto.
    + unfold sent. cbn. rewrite app_nil_r, flat_map_app, app_assoc. auto.
Qed.
End Node.
