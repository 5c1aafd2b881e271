(** No node is asked to pass on a transfer request that was already passed on. *)
From Coq Require Import Permutation.
From Verif Require Import Prelude Types M_Util M_Quorum M_Inflights M_Progress M_Tracker.
From Verif Require Import M_Storage M_Unstable M_Log M_ReadOnly M_ConfPb M_ConfChange M_Raft M_RawNode.
From Verif Require Import Spec_RaftLog Spec_Quorum P_Quorum P_Inflights Spec_Log P_Lists P_Storage P_Log P_RaftLogSeq P_Frame P_Prim Sys_Node P_Node P_Fields P_Vote Spec_Node P_New P_NodeLog P_Handle P_NodeRun P_Emit A_Proto Sys_Cluster R_Log R_Sim R_Elig P_Conf R_Node R_Cluster.
From Verif Require Import Prop_Api P_Total P_Total2 Spec_Total P_Total3 P_Total4 P_Total5 P_Total6 Spec_Api P_Self R_Total.
From Verif Require Import P_Transfer Prop_Transfer R_Switch R_Self R_Own.

Section RT2.
Context {E : Env}.

Lemma n_step_sf o n n' out : plain o -> nop_wf o -> (forall cc, o <> NApplyCC cc) -> n_step o n = Ok (n', out) ->
  exists im, match o with NStep m => im = m | _ => ~ kmsg im /\ ~ lmsg im end /\ (sf im (rn_raft n) (rn_raft n') \/ fwd im (rn_raft n) (rn_raft n')).
Proof.
  intros Hp Hw Ha H.
  assert (S : forall m x y, wf_in m -> match o with NStep m' => m = m' | _ => ~ kmsg m /\ ~ lmsg m end -> rn_raft_step m n = Ok (x, y) ->
     exists im, match o with NStep m => im = m | _ => ~ kmsg im /\ ~ lmsg im end /\ (sf im (rn_raft n) (rn_raft x) \/ fwd im (rn_raft n) (rn_raft x))).
  { intros m x y Hwm Ho Hs. unfold rn_raft_step in Hs. apply bind_ok in Hs. destruct Hs as ([r1 e1] & Hs & Hx). inv Hx. cbn [rn_raft].
    exists m. split; auto. eapply step_sf; eauto. }
  assert (W : forall m, m_term m = 0 -> local_type (m_type m) = true -> wf_in m) by (intros m _ X _; exact X).
  destruct o; try (destruct Hp; fail); cbn [n_step] in H.
  - apply bind_ok in H. destruct H as (n1 & H & Hx). inv Hx. unfold rn_tick in H. apply bind_ok in H. destruct H as (r1 & H & Hx). inv Hx.
    exists (new_msg MsgHup). split; [split; intros []|]. left. cbn. apply tick_sf; [exact H|intros []].
  - inv H. exists (new_msg MsgHup). split; [split; intros []|]. left. apply sf_eq; reflexivity.
  - apply bind_ok in H. destruct H as ([n1 e1] & H & Hx). inv Hx. eapply S; [| |exact H]; [apply W; reflexivity|split; intros []].
  - apply bind_ok in H. destruct H as ([n1 e1] & H & Hx). inv Hx. eapply S; [| |exact H]; [apply W; reflexivity|split; intros []].
  - apply bind_ok in H. destruct H as ([n1 e1] & H & Hx). inv Hx. unfold rn_propose_conf_change in H. apply bind_ok in H. destruct H as ([t d] & _ & H).
    eapply S; [| |exact H]; [apply W; reflexivity|split; intros []].
  - exfalso. eapply Ha. reflexivity.
  - apply bind_ok in H. destruct H as ([n1 e1] & H & Hx). inv Hx. unfold rn_step in H. cbn in Hw.
    assert (Wm : wf_in m) by (intros Hz; destruct Hw as [_ Hw]; destruct (Hw Hz) as [Y|[Y|Y]]; rewrite Y; reflexivity).
    destruct (is_local_msg _); [inv H; exists m; split; auto; left; apply sf_refl|].
    destruct (_ || _); [|inv H; exists m; split; auto; left; apply sf_refl].
    eapply S; [exact Wm|reflexivity|exact H].
  - apply bind_ok in H. destruct H as (n1 & H & Hx). inv Hx. unfold rn_report_unreachable in H. apply bind_ok in H. destruct H as ([n2 e2] & H & Hx). inv Hx.
    eapply S; [| |exact H]; [apply W; reflexivity|split; intros []].
  - apply bind_ok in H. destruct H as (n1 & H & Hx). inv Hx. unfold rn_report_snapshot in H. apply bind_ok in H. destruct H as ([n2 e2] & H & Hx). inv Hx.
    eapply S; [| |exact H]; [apply W; reflexivity|split; intros []].
  - apply bind_ok in H. destruct H as (n1 & H & Hx). inv Hx. unfold rn_transfer_leader in H. apply bind_ok in H. destruct H as ([n2 e2] & H & Hx). inv Hx.
    eapply S; [| |exact H]; [apply W; reflexivity|split; intros []].
  - apply bind_ok in H. destruct H as (n1 & H & Hx). inv Hx. unfold rn_read_index in H. apply bind_ok in H. destruct H as ([n2 e2] & H & Hx). inv Hx.
    eapply S; [| |exact H]; [apply W; reflexivity|split; intros []].
Qed.

Variable cs : confstate.
Hypothesis cs_ne : cs_voters cs <> [].
Variable t0 : N.
Notation gi := (ginv (vquorum cs) t0).

Definition lm (F : list fact) (m : msg) : Prop :=
  (kmsg m -> m_from m <> m_to m) /\ (m_type m = MsgTransferLeader -> m_term m <> 0 -> exists L, In (FLead (m_term m) (m_to m) L) F).
Record lnode (F : list fact) (r : raft) : Prop := {
  ln_lead : r_lead r = 0 \/ r_state r = RLeader \/ (r_lead r <> r_id r /\ exists L, In (FLead (r_term r) (r_lead r) L) F);
  ln_msgs : Forall (lm F) (r_msgs r)
}.
Lemma lm_mono F G m : incl F G -> lm F m -> lm G m.
Proof. intros H [A B]. split; auto. intros X Y. destruct (B X Y) as (L & HL). eauto. Qed.
Lemma lms_mono F G l : incl F G -> Forall (lm F) l -> Forall (lm G) l.
Proof. intros H. apply Forall_impl. intros m. apply lm_mono; auto. Qed.
Lemma lnode_mono F G r : incl F G -> lnode F r -> lnode G r.
Proof. intros H [A B]. constructor; [|eapply lms_mono; eauto]. destruct A as [A|[A|(A & L & HL)]]; eauto 7. Qed.

Lemma lnode_sf F im r r' : lnode F r -> (kmsg im -> m_from im <> r_id r) -> (lmsg im -> exists L, In (FLead (m_term im) (m_from im) L) F) ->
  (sf im r r' \/ fwd im r r') -> lnode F r'.
Proof.
  intros [A B] Hk Hl [S|(F1 & F2 & F3 & F4 & ->)].
  - pose proof (sf_id _ _ _ S) as Hid. constructor.
    + destruct (sf_lead _ _ _ S) as [X|[(X1 & X2 & X3)|[[X1 X2]|(X1 & X2 & X3)]]]; auto.
      * rewrite X1, X2, Hid. destruct A as [A|[A|A]]; auto.
      * right. right. rewrite Hid, X3. split; [|rewrite <- X2; auto]. apply Hk. unfold lmsg, kmsg in *. destruct (m_type im); auto; contradiction.
    + destruct (sf_msgs _ _ _ S) as (ms & -> & X). apply Forall_app. split; auto. eapply Forall_impl; [|exact X].
      intros m [Y1 Y2]. split; [|congruence]. intros Z. destruct (Y2 Z) as [Z1 [Z2|[Z2 Z3]]]; [congruence|]. rewrite Z1, Z3. intros Q. apply (Hk Z2). congruence.
  - constructor; [exact A|]. cbn [emit r_msgs set_r_msgs]. apply Forall_app. split; auto. constructor; auto. split; unfold kmsg; rewrite outm_ty; cbn [m_type set_m_to].
    + destruct im; cbn in *. rewrite F3. intros [].
    + intros _ _. destruct A as [A|[A|(_ & L & A)]]; [congruence|congruence|]. exists L. rewrite outm_to. destruct im as [ty a b c d e f g h i j k]. cbn in F3, F4. subst ty c. unfold outm. cbn. destruct (b =? 0); cbn; exact A.
Qed.

Definition linv (F : list fact) (cl : cluster) : Prop :=
  (forall id n, mget id (cl_nodes cl) = Some n -> lnode F (rn_raft n)) /\ Forall (lm F) (cl_net cl).

Lemma node_id_eq g F id n : gi g F -> nodeinv cs id F (g id) n -> r_id (rn_raft n) = id.
Proof. intros G V. destruct (run_state cs cs_ne t0 _ _ _ _ G V) as (s & O & _ & V' & _). apply V'. Qed.
Lemma no_stray g F cl id n m : R_Cluster.cinv cs t0 g F cl -> linv F cl -> mget id (cl_nodes cl) = Some n -> In m (cl_net cl) -> m_to m = id ->
  ~ stray (rn_raft n) m.
Proof.
  intros I [L1 L2] Hn Hin Hto (S1 & S2 & S3 & S4 & S5). rewrite Forall_forall in L2. destruct (L2 _ Hin) as [_ X]. destruct (X S1 S5) as (L & HL).
  destruct (ln_lead _ _ (L1 _ _ Hn)) as [A|[A|(A & L' & HL')]]; try congruence. rewrite S2 in HL.
  destruct (gi_lead1 _ _ _ _ (ci_g _ _ _ _ _ I) _ _ _ _ _ HL HL') as [Q _]. apply A. rewrite <- Q, Hto. symmetry. eapply node_id_eq; [apply I|apply (ci_node _ _ _ _ _ I _ _ Hn)].
Qed.

Lemma linv_start F cl : cl_net cl = [] -> (forall id n, mget id (cl_nodes cl) = Some n -> exists c tape, rn_new c tape = Ok n) -> linv F cl.
Proof.
  intros H1 H2. split; [|rewrite H1; constructor]. intros id n Hn. destruct (H2 _ _ Hn) as (c & tape & H). apply rn_new_spec in H. destruct H as (r & Hr & ->).
  apply raft_new_spec in Hr. destruct Hr as (s' & cp & _ & _ & _ & _ & _ & _ & Fr). cbn [rn_raft].
  constructor; [left; apply (fr_lead _ _ _ _ Fr)|rewrite (fr_msgs _ _ _ _ Fr); constructor].
Qed.
Lemma lnode_new F c tape n : rn_new c tape = Ok n -> lnode F (rn_raft n).
Proof.
  intros H. apply rn_new_spec in H. destruct H as (r & Hr & ->). apply raft_new_spec in Hr. destruct Hr as (s' & cp & _ & _ & _ & _ & _ & _ & Fr). cbn [rn_raft].
  constructor; [left; apply (fr_lead _ _ _ _ Fr)|rewrite (fr_msgs _ _ _ _ Fr); constructor].
Qed.
Lemma put_linv F cl id n' net hist : linv F cl -> lnode F (rn_raft n') -> Forall (lm F) net -> linv F (mkCluster (mset id n' (cl_nodes cl)) net hist).
Proof.
  intros [A B] H1 H2. split; cbn [cl_nodes cl_net]; auto. intros i x Hx. rewrite mget_mset in Hx. destruct (N.eqb_spec i id); [|eauto]. injection Hx as <-. auto.
Qed.
(** What makes a leader send nothing to itself. *)
Definition oinv (cl : cluster) : Prop := forall id n, mget id (cl_nodes cl) = Some n -> vself (rn_raft n) /\ own (rn_raft n).
Lemma own_new c tape n : rn_new c tape = Ok n -> vself (rn_raft n) /\ own (rn_raft n).
Proof.
  intros H. split; [eapply created_vself; eauto|]. apply rn_new_spec in H. destruct H as (r & Hr & ->). apply raft_new_spec in Hr. destruct Hr as (s' & cp & _ & _ & _ & _ & _ & _ & Fr). cbn [rn_raft].
  pose proof (fr_state _ _ _ _ Fr) as X. split; [intros Y; congruence|intros Y; congruence].
Qed.
Lemma oinv_put id n' cl net hist : oinv cl -> vself (rn_raft n') /\ own (rn_raft n') -> oinv (mkCluster (mset id n' (cl_nodes cl)) net hist).
Proof. intros A B i x Hx. cbn in Hx. rewrite mget_mset in Hx. destruct (N.eqb_spec i id); [|eauto]. injection Hx as <-. auto. Qed.
Lemma n_step_vself o n n' out : nop_wf o -> n_step o n = Ok (n', out) -> vself (rn_raft n) -> vself (rn_raft n').
Proof. intros W H V. exact (vself_aprs _ _ (n_step_aprs _ _ _ _ [] W H) V). Qed.
Lemma oinv_step g F cl cl' : R_Cluster.cinv cs t0 g F cl -> linv F cl -> oinv cl -> cstep cs cl cl' -> oinv cl'.
Proof.
  intros I [LA LB] OI H. destruct H as [id o n n' out Hn Hc Hs|id m n n' out Hn Hin Hto Hs|id c tape n n' Hn Hc Hst Hr].
  - pose proof (ci_node _ _ _ _ _ I _ _ Hn) as V. destruct (OI _ _ Hn) as [O1 O2]. destruct (ci_el _ _ _ _ _ I _ _ Hn) as [T1 T2]. apply oinv_put; auto.
    assert (Hok : nop_ok o n) by (destruct o; cbn in *; repeat split; cbn; auto; try contradiction; tauto).
    split; [eapply n_step_vself; eauto; apply Hok|].
    assert (C : (exists cc, o = NApplyCC cc) \/ forall cc, o <> NApplyCC cc) by (destruct o; try (right; discriminate); left; eauto).
    destruct C as [[cc ->]|C].
    + refine (proj1 (apply_own (new_msg MsgHup) cc n n' out _ T1 T2 _ Hs O2)); [apply V|]. eapply call_kept; eauto.
    + eapply n_step_own; eauto; [apply V|]. intros m ->. destruct Hc.
  - pose proof (ci_node _ _ _ _ _ I _ _ Hn) as V. destruct (OI _ _ Hn) as [O1 O2]. apply oinv_put; auto.
    pose proof (proj1 (Forall_forall _ _) (ci_net _ _ _ _ _ I) _ Hin) as [M1 M2 M3].
    assert (Hok : nop_ok (NStep m) n) by (split; cbn; auto).
    split; [eapply n_step_vself; eauto; apply Hok|]. eapply n_step_own; eauto; [apply V|discriminate|]. intros m' Hm' K. injection Hm' as <-.
    rewrite Forall_forall in LB. destruct (LB _ Hin) as [B1 _]. rewrite (node_id_eq _ _ _ _ (ci_g _ _ _ _ _ I) V), <- Hto. auto.
  - apply oinv_put; auto. eapply own_new; eauto.
Qed.
Lemma linv_step g F cl cl' : R_Cluster.cinv cs t0 g F cl -> linv F cl -> oinv cl -> cstep cs cl cl' -> linv F cl'.
Proof.
  intros I LI OI H. pose proof LI as [A B]. destruct H as [id o n n' out Hn Hc Hs|id m n n' out Hn Hin Hto Hs|id c tape n n' Hn Hc Hst Hr].
  - pose proof (ci_node _ _ _ _ _ I _ _ Hn) as V. pose proof (A _ _ Hn) as Ln.
    assert (Hb : Forall (lm F) (cl_net cl ++ out_msgs out)).
    { apply Forall_app. split; auto. apply Forall_forall. intros m Hm. apply (proj1 (Forall_forall _ _) (ln_msgs _ _ Ln)). eapply out_msgs_in; eauto. }
    apply put_linv; auto. destruct (plain_dec o) as [Hp|Hp].
    + assert (Hok : nop_wf o) by (destruct o; cbn in *; auto; contradiction).
      assert (C : (exists cc, o = NApplyCC cc) \/ forall cc, o <> NApplyCC cc) by (destruct o; try (right; discriminate); left; eauto).
      destruct C as [[cc ->]|Ha].
      { destruct (OI _ _ Hn) as [_ O2]. destruct (ci_el _ _ _ _ _ I _ _ Hn) as [T1 T2].
        destruct (apply_own (new_msg MsgHup) cc n n' out (nv_d _ _ _ _ _ V) T1 T2 (call_kept cs _ _ _ _ _ V Hc) Hs O2) as [_ Sf].
        eapply lnode_sf; [exact Ln| | |left; exact Sf]; intros []. }
      destruct (n_step_sf _ _ _ _ Hp Hok Ha Hs) as (im & Hi & Sf).
      assert (K : ~ kmsg im /\ ~ lmsg im) by (destruct o; try exact Hi; contradiction). destruct K as [K1 K2].
      eapply lnode_sf; [exact Ln| | |exact Sf]; intros X; contradiction.
    + destruct o; try (destruct Hc; fail); try (exfalso; apply Hp; exact Logic.I).
      * (* Handle *) cbn [n_step] in Hs. apply bind_ok in Hs. destruct Hs as ([n1 rd] & Hs & Hx). apply Ok_inj in Hx. injection Hx as <- _.
        apply handle_inv in Hs; [|apply (nv_d _ _ _ _ _ V)|intros X; apply (di_ninv _ (nv_d _ _ _ _ _ V)); auto].
        destruct (hd_raft _ _ _ Hs) as (st & u & rb & r1 & _ & Hrb & H1 & Hn' & _). rewrite Hn'.
        assert (Q : r_lead r1 = r_lead (rn_raft n) /\ r_state r1 = r_state (rn_raft n) /\ r_term r1 = r_term (rn_raft n) /\ r_cfg r1 = r_cfg (rn_raft n) /\ r_msgs r1 = []).
        { clear - Hrb H1. destruct H1 as [[-> _]|(_ & r0 & H1 & -> & _)]; [subst rb; repeat split|].
          apply append_entry_fields in H1. destruct H1 as (l & p & u' & ->). subst rb. repeat split. }
        destruct Q as (Q1 & Q2 & Q3 & Q4 & Q5). destruct Ln as [Ln1 Ln2].
        constructor; cbn [r_lead r_state r_term r_msgs set_r_log]; [|rewrite Q5; constructor].
        unfold r_id. cbn [r_cfg set_r_log]. rewrite Q1, Q2, Q3, Q4. exact Ln1.
      * cbn [n_step] in Hs. apply bind_ok in Hs. destruct Hs as ([s e] & _ & Hx). apply Ok_inj in Hx. injection Hx as <- _. destruct Ln as [Ln1 Ln2]. constructor; [exact Ln1|exact Ln2].
      * cbn [n_step] in Hs. apply bind_ok in Hs. destruct Hs as ([s e] & _ & Hx). apply Ok_inj in Hx. injection Hx as <- _. destruct Ln as [Ln1 Ln2]. constructor; [exact Ln1|exact Ln2].
  - apply put_linv; auto. pose proof (ci_node _ _ _ _ _ I _ _ Hn) as V. rewrite Forall_forall in B. destruct (B _ Hin) as [B1 _].
    pose proof (proj1 (Forall_forall _ _) (ci_net _ _ _ _ _ I) _ Hin) as [M1 M2 M3].
    destruct (n_step_sf _ _ _ _ (Logic.I : plain (NStep m)) M1 ltac:(discriminate) Hs) as (im & -> & Sf).
    eapply lnode_sf; [exact (A _ _ Hn)| | |exact Sf].
    + intros X. rewrite (node_id_eq _ _ _ _ (ci_g _ _ _ _ _ I) V), <- Hto. auto.
    + intros X. unfold lmsg in X. unfold msg_fact in M3. destruct (m_type m); try contradiction.
      * destruct M3 as (L & _ & _ & M3 & _). eauto.
      * destruct M3 as (L & _ & _ & M3 & _). eauto.
      * destruct M3 as [(L & M3) _]. eauto.
  - apply put_linv; auto. eapply lnode_new; eauto.
Qed.
End RT2.
