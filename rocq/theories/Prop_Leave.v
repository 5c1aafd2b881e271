(** Automatic leave of joint configurations, in the documented loop (C67). *)
From Verif Require Import Prelude Types M_Util M_Quorum M_Inflights M_Progress M_Tracker.
From Verif Require Import M_Storage M_Unstable M_Log M_ReadOnly M_ConfPb M_ConfChange M_Raft M_RawNode.
From Verif Require Import P_Inflights Spec_Log P_Lists P_Storage P_Log Spec_RaftLog P_RaftLogSeq.
From Verif Require Import P_Frame P_Prim Sys_Node P_Node P_Fields Spec_Node P_New P_NodeLog P_Handle P_NodeRun P_Emit Spec_Prop Prop_Prop Prop_Deliver P_Lead P_Conf R_Elig.
From Verif Require Import Sys_Loop P_Loop Spec_Leave P_Leave.
From Verif Require Import Ex_Env Ex_Node Ex_Check Ex_Case.

Section Props.
Context {E : Env}.
Lemma apply_confs_tok es : forall n n', apply_confs es n = Ok n' -> tok (rn_raft n) -> tok (rn_raft n').
Proof.
  induction es as [|e es IH]; intros n n' H T; cbn [apply_confs] in H; [apply Ok_inj in H; congruence|].
  destruct (conf_of e) as [cc|]; [|eauto]. apply bind_ok in H. destruct H as ([n1 cs] & H1 & H). eapply IH; [exact H|].
  apply (n_step_tok (NApplyCC cc) n n1 no_out); [exact Logic.I|cbn [n_step]; rewrite H1; reflexivity|exact T].
Qed.
Lemma loop_tok n n' rd : n_loop n = Ok (n', rd) -> tok (rn_raft n) -> tok (rn_raft n').
Proof.
  intros H T. unfold n_loop in H. apply bind_ok in H. destruct H as ([n1 rd1] & H1 & H).
  apply bind_ok in H. destruct H as (st & H2 & H). apply bind_ok in H. destruct H as (n2 & H3 & H). apply bind_ok in H. destruct H as (n3 & H4 & H).
  apply Ok_inj, pair_equal_spec in H. destruct H as [-> ->].
  assert (T1 : tok (rn_raft n1)).
  { apply (n_step_tok NReady n n1 (mkOut None (Some rd))); [exact Logic.I|cbn [n_step]; rewrite H1; reflexivity|exact T]. }
  assert (T2 : tok (rn_raft n2)) by (eapply apply_confs_tok; [exact H3|exact T1]).
  apply (n_step_tok NAdvance n2 n' no_out); [exact Logic.I|cbn [n_step]; rewrite H4; reflexivity|exact T2].
Qed.

Record lnode (n : rawnode) : Prop := { ln_dinv : dinv n; ln_tok : tok (rn_raft n) }.
Lemma l_step_lnode o n n' out : lop_ok o n -> l_step o n = Ok (n', out) -> lnode n -> lnode n'.
Proof.
  intros Hok H [D T]. destruct o as [o|]; cbn [l_step] in H.
  - assert (Ho : nop_ok o n) by (destruct o; cbn in Hok; auto; contradiction). constructor; [eapply n_step_dinv; eauto|eapply n_step_tok; eauto; apply Ho].
  - apply bind_ok in H. destruct H as ([n1 rd] & H & Hx). inv Hx. constructor; [eapply loop_dinv; eauto|eapply loop_tok; eauto].
Qed.
Lemma l_step_kinv o n n' out : lop_ok o n -> l_step o n = Ok (n', out) -> lnode n -> o_err out <> Some EDropped -> kinv (rn_raft n) -> kstep (rn_raft n) (rn_raft n').
Proof.
  intros Hok H [D T] He K. destruct o as [o|]; cbn [l_step] in H.
  - eapply n_step_kinv; eauto; destruct o; cbn in Hok; auto; try contradiction; discriminate.
  - apply bind_ok in H. destruct H as ([n1 rd] & H & Hx). inv Hx. eapply loop_kinv; eauto.
Qed.
Lemma l_step_lost t o n n' out : lop_ok o n -> l_step o n = Ok (n', out) -> lnode n -> lost t (rn_raft n) -> lost t (rn_raft n').
Proof.
  intros Hok H [D T] K. destruct o as [o|]; cbn [l_step] in H.
  - assert (Ho : nop_ok o n) by (destruct o; cbn in Hok; auto; contradiction).
    destruct (n_step_gfix t _ _ _ _ Ho H D (or_intror K)) as [(G1 & G2 & _)|G]; [|exact G]. exfalso. eapply lost_leader; eauto.
  - apply bind_ok in H. destruct H as ([n1 rd] & H & Hx). inv Hx. destruct (loop_dinv _ _ _ D H) as [_ L]. eapply lost_eq; [apply L|apply L|exact K].
Qed.
Lemma l_run_kinv os : forall n n' outs, l_run_ok os n -> l_run os n = Ok (n', outs) -> lnode n -> none_dropped outs -> kinv (rn_raft n) ->
  lnode n' /\ kstep (rn_raft n) (rn_raft n') /\ (forall t, lost t (rn_raft n) -> lost t (rn_raft n')).
Proof.
  induction os as [|o os IH]; intros n n' outs Hok H L Hnd K; cbn [l_run] in H.
  { inv H. split; [auto|]. split; [apply kstep_refl; auto|auto]. }
  apply bind_ok in H. destruct H as ([n1 out] & H1 & H). apply bind_ok in H. destruct H as ([n2 outs'] & H2 & H). inv H.
  cbn [l_run_ok] in Hok. destruct Hok as [Ho Hos]. rewrite H1 in Hos. inversion_clear Hnd.
  pose proof (l_step_lnode _ _ _ _ Ho H1 L) as L1. pose proof (l_step_kinv _ _ _ _ Ho H1 L H K) as [S1 S2].
  destruct (IH _ _ _ Hos H2 L1 H0 S1) as (L2 & [S3 S4] & S5). split; [auto|]. split.
  - split; [auto|]. intros Hl. destruct (S2 Hl) as [(A1 & A2 & A3)|A]; [|right; auto].
    destruct (S4 A1) as [(B1 & B2 & B3)|B]; [left|right; congruence]. split; [auto|]. split; [congruence|auto].
  - intros t X. apply S5. eapply l_step_lost; eauto.
Qed.
Lemma looped_inv c n outs : looped c n outs -> lnode n /\ (none_dropped outs -> kinv (rn_raft n)).
Proof.
  intros (tape & s & n0 & os & H1 & H2 & H3 & H4 & H5).
  assert (L0 : lnode n0).
  { constructor; [eapply node_at_dinv; exists c, tape, s, n0, [], []; cbn; auto 10|]. apply rn_new_spec in H3. destruct H3 as (r & H3 & ->). cbn. eapply tok_new; eauto. }
  assert (K0 : kinv (rn_raft n0)).
  { destruct (created_fresh _ _ _ H3) as (s' & cp & _ & F). intros X. rewrite (fr_state _ _ _ _ F) in X. discriminate. }
  split; [|intros X; destruct (l_run_kinv _ _ _ _ H4 H5 L0 X K0) as (_ & [Y _] & _); exact Y].
  clear K0 H1 H2 H3. revert n0 outs H4 H5 L0. induction os as [|o os IH]; intros n0 outs Hok H L; cbn [l_run] in H; [inv H; auto|].
  apply bind_ok in H. destruct H as ([n1 out] & X1 & H). apply bind_ok in H. destruct H as ([n2 outs'] & X2 & H). inv H.
  cbn [l_run_ok] in Hok. destruct Hok as [Ho Hos]. rewrite X1 in Hos. eapply IH; eauto. eapply l_step_lnode; eauto.
Qed.
Lemma node_last_abs n : dinv n -> node_last n = a_last (log_abs (r_log (rn_raft n))).
Proof. intros D. unfold node_last. apply log_last_abs, lwf_0, D. Qed.

(** A leader that awaits the automatic leave has a log entry it has not applied yet. *)
Theorem C67_never_idle c n outs : looped c n outs -> none_dropped outs -> node_role n = RLeader -> awaits_leave n ->
  node_applied n < node_last n.
Proof.
  intros H Hnd Hl Ha. destruct (looped_inv _ _ _ H) as [[D T] K]. destruct (K Hnd Hl) as [B [K1 K2 K3 K4 K5]]. rewrite node_last_abs by auto.
  change (node_applied n) with (l_applied (r_log (rn_raft n))). destruct (K5 Ha) as [X1 [X2|[X2 _]]]; lia.
Qed.
(** Once a leader has applied what it had in its log at some moment of its reign, and its configuration
    still awaits the automatic leave, a leave entry of its own is in its log, to be applied. *)
Theorem C67_leave_in_flight c n outs0 os n' outs :
  looped c n outs0 -> none_dropped outs0 -> l_run_ok os n -> l_run os n = Ok (n', outs) -> none_dropped outs ->
  node_role n = RLeader -> node_role n' = RLeader -> node_term n' = node_term n ->
  awaits_leave n' -> node_last n <= node_applied n' ->
  exists i e, node_applied n' < i /\ holds_entry n' i e /\ leaves e /\ e_term e = node_term n'.
Proof.
  intros H Hnd0 Hok Hr Hnd Hl Hl' Ht Ha Hap. destruct (looped_inv _ _ _ H) as [L K]. specialize (K Hnd0).
  destruct (l_run_kinv _ _ _ _ Hok Hr L Hnd K) as ([D' T'] & [_ S] & _). destruct (S Hl) as [(_ & _ & S1)|S1]; [|exfalso; exact (lost_leader _ _ Hl' Ht S1)].
  destruct (K Hl) as [B KB]. destruct (S1 _ KB) as [K1 K2 K3 K4 K5]. pose proof (ki_base _ _ KB) as HB. rewrite <- node_last_abs in HB by apply L.
  destruct (K5 Ha) as [X1 [X2|(X2 & e & X3 & X4 & X5)]]; [change (node_applied n') with (l_applied (r_log (rn_raft n'))) in Hap; lia|].
  exists (r_pending_conf (rn_raft n')), e. split; [exact X2|]. split; [apply holds_abs; auto|]. auto.
Qed.
(** Exactly when one iteration appends a leave entry, and that it changes the log in no other way. *)
Theorem C67_iteration c n outs n' rd : looped c n outs -> n_loop n = Ok (n', rd) ->
  (node_role n <> RLeader -> log_kept n n') /\
  (node_role n = RLeader -> none_dropped outs -> exists k,
    k <= node_last n /\ (forall i e, holds_entry n i e -> conf_change e -> i <= k) /\
    (leave_appended n n' /\ awaits_leave n' /\ delivers rd /\ node_applied n <= k <= node_applied n' \/
     log_kept n n' /\ ~ (awaits_leave n' /\ delivers rd /\ node_applied n <= k <= node_applied n'))).
Proof.
  intros H Hs. destruct (looped_inv _ _ _ H) as [[D T] K]. destruct (loop_dinv _ _ _ D Hs) as [D' L].
  assert (Kept : ~ due n n' rd -> log_kept n n').
  { intros Hd. destruct (ls_stay _ _ _ L Hd) as [L1 _]. split; [rewrite !node_last_abs, L1 by auto; reflexivity|]. intros i e. rewrite !holds_abs, L1 by auto. tauto. }
  split; [intros Hl; apply Kept; intros (_ & X & _); exact (Hl X)|]. intros Hl Hnd. destruct (K Hnd Hl) as [B [K1 K2 K3 K4 K5]].
  exists (r_pending_conf (rn_raft n)). split; [rewrite node_last_abs by auto; exact K2|]. split; [intros i e He; rewrite holds_abs in He by auto; eauto|].
  assert (Hcur : delivers rd <-> 0 < applied_cursor rd).
  { pose proof (loop_delivery _ _ _ D L) as (_ & H2 & _). unfold delivers, applied_cursor. destruct (rev (rd_committed rd)) as [|x xs] eqn:Hrev.
    - assert (Hnil : rd_committed rd = []) by (rewrite <- (rev_involutive (rd_committed rd)), Hrev; auto). rewrite Hnil. split; [intros [X|X]; [congruence|lia]|right; lia].
    - pose proof (rev_contig _ _ _ _ H2 Hrev) as X. pose proof (rev_last _ _ _ Hrev) as Y. split; [|left; rewrite Y; destruct (rev xs); discriminate].
      assert (0 < nlen (rd_committed rd)) by (rewrite Y, nlen_app, nlen_cons; lia). lia. }
  assert (Happ : delivers rd -> node_applied n' = applied_cursor rd).
  { intros X. apply Hcur in X. change (node_applied n') with (l_applied (r_log (rn_raft n'))). rewrite (ls_applied _ _ _ L). unfold applied_after. destruct (N.ltb_spec 0 (applied_cursor rd)); lia. }
  assert (Hdue : due n n' rd <-> awaits_leave n' /\ delivers rd /\ node_applied n <= r_pending_conf (rn_raft n) <= node_applied n').
  { unfold due. change (node_applied n) with (l_applied (r_log (rn_raft n))). split.
    - intros (X1 & X2 & X3 & X4). apply Hcur in X3. rewrite (Happ X3). auto.
    - intros (X1 & X2 & X3). rewrite (Happ X2) in X3. split; [exact X1|]. split; [exact Hl|]. split; [apply Hcur; auto|exact X3]. }
  assert (Hdec : due n n' rd \/ ~ due n n' rd).
  { unfold due. destruct (tc_auto_leave (t_config (r_trk (rn_raft n')))); [|right; intuition discriminate].
    destruct (N.ltb_spec 0 (applied_cursor rd)); [|right; lia].
    destruct (N.leb_spec (l_applied (r_log (rn_raft n))) (r_pending_conf (rn_raft n))); [|right; lia].
    destruct (N.leb_spec (r_pending_conf (rn_raft n)) (applied_cursor rd)); [|right; lia]. left. auto. }
  destruct Hdec as [Hd|Hd]; [left|right; split; [auto|rewrite <- Hdue; exact Hd]]. split; [|apply Hdue; exact Hd].
  destruct (ls_leave _ _ _ L Hd) as [L1 _]. unfold leave_appended. rewrite !node_last_abs by auto.
  assert (Hla : a_last (log_abs (r_log (rn_raft n'))) = a_last (log_abs (r_log (rn_raft n))) + 1) by (rewrite L1, a_last_app, stamp_len; reflexivity).
  split; [exact Hla|]. split; [intros i e Hi; rewrite !holds_abs, L1, a_entry_app by auto; tauto|]. rewrite holds_abs, L1 by auto.
  unfold a_entry, a_app; cbn [a_base a_ents]. unfold a_last. destruct (N.ltb_spec (a_base (log_abs (r_log (rn_raft n)))) (a_base (log_abs (r_log (rn_raft n))) + nlen (a_ents (log_abs (r_log (rn_raft n)))) + 1)); [|lia].
  rewrite nnth_app2 by lia. rewrite stamp_nnth. replace (_ - _ - 1 - _) with 0 by lia. cbn. rewrite N.add_0_r. reflexivity.
Qed.
End Props.

(* ---- concrete cases ---- *)
Section Cases.
Context {E : Env}.
Definition lop_okb (o : lop) (n : rawnode) : bool :=
  match o with
  | LCall NHandle | LCall (NApplyCC _) => false
  | LCall o => nop_okb o n
  | LLoop => true
  end.
Fixpoint l_run_okb (os : list lop) (n : rawnode) : bool :=
  match os with
  | [] => true
  | o :: t => lop_okb o n && match l_step o n with Ok (n', _) => l_run_okb t n' | _ => true end
  end.
Lemma lop_okb_ok o n : lop_okb o n = true -> lop_ok o n.
Proof. destruct o as [o|]; cbn; auto. destruct o; try discriminate; intros H; apply nop_okb_ok in H; exact H. Qed.
Lemma l_run_okb_ok os : forall n, l_run_okb os n = true -> l_run_ok os n.
Proof.
  induction os as [|o os IH]; intros n H; cbn in *; auto. apply andb_prop in H. destruct H as [H1 H2]. split; [apply lop_okb_ok; auto|].
  destruct (l_step o n) as [[n' out]| | |]; auto.
Qed.
Definition none_droppedb (outs : list nout) : bool := forallb (fun o => match o_err o with Some EDropped => false | _ => true end) outs.
Lemma none_droppedb_ok outs : none_droppedb outs = true -> none_dropped outs.
Proof.
  intros H. apply Forall_forall. intros o Ho X. unfold none_droppedb in H. rewrite forallb_forall in H. specialize (H _ Ho). rewrite X in H. discriminate.
Qed.
Definition loop_case_b (c : config) (tape : list N) (os os2 : list lop) (chk : rawnode -> rawnode -> bool) : bool :=
  match c_storage c with
  | None => false
  | Some s => storage_okb s &&
      match rn_new c tape with
      | Ok n0 => l_run_okb os n0 &&
          match l_run os n0 with
          | Ok (n, outs) => none_droppedb outs && l_run_okb os2 n && match l_run os2 n with Ok (n', outs') => none_droppedb outs' && chk n n' | _ => false end
          | _ => false
          end
      | _ => false
      end
  end.
Lemma loop_case_ok c tape os os2 chk : loop_case_b c tape os os2 chk = true ->
  exists n outs n' outs', looped c n outs /\ none_dropped outs /\ l_run_ok os2 n /\ l_run os2 n = Ok (n', outs') /\ none_dropped outs' /\ chk n n' = true.
Proof.
  unfold loop_case_b. destruct (c_storage c) as [s|] eqn:Hs; [|discriminate]. intros H. apply andb_prop in H. destruct H as [H1 H].
  destruct (rn_new c tape) as [n0| | |] eqn:H0; try discriminate. apply andb_prop in H. destruct H as [H2 H].
  destruct (l_run os n0) as [[n outs]| | |] eqn:Hr; try discriminate. apply andb_prop in H. destruct H as [H3 H]. apply andb_prop in H3. destruct H3 as [H3 H4].
  destruct (l_run os2 n) as [[n' outs']| | |] eqn:Ho; try discriminate. apply andb_prop in H. destruct H as [H5 H6].
  exists n, outs, n', outs'. split; [|split; [apply none_droppedb_ok; auto|split; [apply l_run_okb_ok; auto|split; [auto|split; [apply none_droppedb_ok; auto|auto]]]]].
  exists tape, s, n0, os. split; [exact Hs|]. split; [apply storage_okb_ok; exact H1|]. split; [exact H0|].
  split; [apply l_run_okb_ok; exact H2|exact Hr].
Qed.
End Cases.

(** An environment in which the empty string is the empty V2 change and "2" is "add 4 and remove 3
    through a joint configuration to be left automatically". *)
Definition ex_env_jt : Env := {|
  esize := fun e => N.of_nat (String.length (e_data e)) + 2;
  enc_cc := fun _ => "1"%string;
  enc_ccv2 := fun v => if is_nil (c2_changes v) then EmptyString else "2"%string;
  dec_cc := fun _ => Some (mkConfChange CcAddNode 4 EmptyString 0);
  dec_ccv2 := fun d => if String.eqb d EmptyString then Some (mkConfChangeV2 TrAuto [] EmptyString)
                       else Some (mkConfChangeV2 TrJointImplicit [mkCC CcAddNode 4; mkCC CcRemoveNode 3] EmptyString)
|}.
#[local] Existing Instance ex_env_jt.
Definition ex_joint : cci := CCv2 (mkConfChangeV2 TrJointImplicit [mkCC CcAddNode 4; mkCC CcRemoveNode 3] EmptyString).
Definition ex_l (os : list nop) : list lop := map (fun o => match o with NHandle => LLoop | _ => LCall o end) os.
(** The leader of term 3 (its entry is 8) proposes the change (entry 9) and then "x" (entry 10). *)
Definition ex_enter : list lop := ex_l (ex_elect ++ [NHandle; NStep (ex_app_resp 2 3 8); NHandle; NProposeCC ex_joint; NPropose "x"; NHandle]).
(** All three are committed: in one iteration it enters the joint configuration and appends entry 11. *)
Definition ex_entered : list lop := [LCall (NStep (ex_app_resp 2 3 10)); LLoop].
(** Entry 11 is committed (by majorities of 1,2,3 and of 1,2,4) and applied. *)
Definition ex_left : list lop := [LCall (NStep (ex_app_resp 2 3 11)); LLoop].

Definition ex_jt_chk (applied last : N) (auto : bool) (n n' : rawnode) : bool :=
  match node_role n, node_role n' with RLeader, RLeader => true | _, _ => false end &&
  (node_term n' =? node_term n) && (node_applied n' =? applied) && (node_last n' =? last) && (node_last n <=? node_applied n') && Bool.eqb (tc_auto_leave (ns_config (rn_status n'))) auto.
Example C67_example_enter : exists n outs n' outs', looped (ex_cfg 1) n outs /\ none_dropped outs /\ l_run_ok ex_entered n /\
  l_run ex_entered n = Ok (n', outs') /\ none_dropped outs' /\ ex_jt_chk 10 11 true n n' = true.
Proof. apply (loop_case_ok (ex_cfg 1) ex_tape ex_enter). vm_compute. reflexivity. Qed.
Example C67_example_left : exists n outs n' outs', looped (ex_cfg 1) n outs /\ none_dropped outs /\ l_run_ok ex_left n /\
  l_run ex_left n = Ok (n', outs') /\ none_dropped outs' /\ ex_jt_chk 11 11 false n n' = true.
Proof. apply (loop_case_ok (ex_cfg 1) ex_tape (ex_enter ++ ex_entered)). vm_compute. reflexivity. Qed.
(** The place of ApplyConfChange matters: called after Advance, with a later entry in the same Ready,
    it leaves the leader with everything applied, in the joint configuration, and no leave entry; a
    further proposal, committed and applied, does not help. *)
Definition ex_late : list nop := ex_elect ++ [NHandle; NStep (ex_app_resp 2 3 8); NHandle; NProposeCC ex_joint; NPropose "x"; NHandle; NStep (ex_app_resp 2 3 10); NHandle].
Example C67_order_matters : exists n n' out, node_at n /\ nop_ok (NApplyCC ex_joint) n /\ n_step (NApplyCC ex_joint) n = Ok (n', out) /\
  (match node_role n' with RLeader => true | _ => false end && tc_auto_leave (ns_config (rn_status n')) && (node_applied n' =? 10) && (node_last n' =? 10)) = true.
Proof. apply (case_ok (ex_cfg 1) ex_tape ex_late). vm_compute. reflexivity. Qed.
Example C67_order_matters_later : exists n n' out, node_at n /\ nop_ok NHandle n /\ n_step NHandle n = Ok (n', out) /\
  (match node_role n' with RLeader => true | _ => false end && tc_auto_leave (ns_config (rn_status n')) && (node_applied n' =? 11) && (node_last n' =? 11)) = true.
Proof. apply (case_ok (ex_cfg 1) ex_tape (ex_late ++ [NApplyCC ex_joint; NPropose "y"; NHandle; NStep (ex_app_resp 2 3 11)])). vm_compute. reflexivity. Qed.
