(** What a leader does to its log and to the commit index (C33, C34, C38). *)
From Verif Require Import Prelude Types M_Util M_Quorum M_Inflights M_Progress M_Tracker.
From Verif Require Import M_Storage M_Unstable M_Log M_ReadOnly M_ConfPb M_ConfChange M_Raft M_RawNode.
From Verif Require Import P_Inflights Spec_Log P_Lists P_Storage P_Log Spec_Storage Sys_Storage P_StorageSeq Spec_RaftLog Sys_RaftLog P_RaftLogSeq.
From Verif Require Import Spec_Quorum P_Quorum.
From Verif Require Import P_Frame P_Prim Sys_Node Sys_ConfChange P_Node P_Fields P_Vote Spec_Node P_Persist P_New P_Time P_NodeLog P_Handle P_NodeRun P_Emit P_Ack P_Lead.
From Verif Require Import Prop_Vote Prop_Deliver Prop_Msg Ex_Env Ex_Node Ex_Check Ex_Case.

Section Props.
Context {E : Env}.

(** C33: between any two moments of one reign (the node leads the same term at both), whatever was
    called in between, the log was only appended to, and only with entries of that term; below it
    may have been compacted. *)
Theorem C33_leader_append_only n os n' outs :
  node_at n -> n_run_ok os n -> n_run os n = Ok (n', outs) ->
  node_role n = RLeader -> node_role n' = RLeader -> node_term n' = node_term n ->
  node_last n <= node_last n' /\
  (forall i e, node_first n' <= i -> i <= node_last n -> (holds_entry n' i e <-> holds_entry n i e)) /\
  (forall i e, node_last n < i -> holds_entry n' i e -> e_term e = node_term n).
Proof.
  intros Ha Hok H R1 R2 Ht. pose proof (node_at_dinv _ Ha) as D. pose proof (n_run_dinv _ _ _ _ Hok H D) as D'.
  pose proof (lwf_0 _ (li_wf _ (ni_log _ (di_ninv _ D)))) as W. pose proof (lwf_0 _ (li_wf _ (ni_log _ (di_ninv _ D')))) as W'.
  unfold node_last, node_first, node_term, node_role, node_hard in *; cbn in R1, R2, Ht |- *. rewrite !log_last_abs, !log_first_abs by auto.
  destruct (n_run_gfix (r_term (rn_raft n)) os n n' outs Hok H D (or_introl (conj R1 eq_refl))) as [(_ & _ & _ & _ & [G1 G2 G3 G4 G5])|L];
    [|exfalso; eapply lost_leader; eauto].
  split; [exact G3|]. split.
  - intros i e H1 H2. rewrite !holds_abs by auto. rewrite G4; [tauto|unfold a_first in H1; lia|auto].
  - intros i e H1 H2. rewrite holds_abs in H2 by auto. eauto.
Qed.

(* ---- commit ---- *)
Section Just.
Variable A : N -> N -> N -> Prop.
Hypothesis Hdown : forall t id i j, A t id i -> j <= i -> A t id j.

Definition qjust (r : raft) (i : N) : Prop := exists Q,
  majority (tc_incoming (t_config (r_trk r))) Q /\ majority (tc_outgoing (t_config (r_trk r))) Q /\
  forall id, Q id = true -> id = r_id r \/ A (r_term r) id i.
Lemma qjust_quorum r i : ackinv A r -> r_state r = RLeader -> trk_committed (r_trk r) = Ok i -> 0 < i -> qjust r i.
Proof.
  intros HA Hl Hc Hi. unfold trk_committed in Hc. destruct (joint_ci_le _ _ _ _ i Hc ltac:(lia)) as [M1 M2].
  exists (acked (match_acked (t_progress (r_trk r))) i). split; [exact M1|]. split; [exact M2|].
  intros id Hq. unfold acked, match_acked in Hq. destruct (mget id (t_progress (r_trk r))) as [p|] eqn:Hg; cbn in Hq; [|lia].
  destruct (N.eqb_spec id (r_id r)); [auto|]. right. destruct (HA Hl id p n Hg) as [Z|Z]; [lia|]. eapply Hdown; [exact Z|lia].
Qed.
Lemma qjust_same r r' i : r_cfg r' = r_cfg r -> r_term r' = r_term r -> t_config (r_trk r') = t_config (r_trk r) ->
  qjust r i -> qjust r' i.
Proof. intros H1 H2 H3 (Q & Q1 & Q2 & Q3). exists Q. unfold r_id. rewrite H1, H2, H3. auto. Qed.
(** The commit index [i] of [x] grew and was justified. *)
Definition cjust (c0 : N) (x : raft) : Prop :=
  let i := l_committed (r_log x) in
  i = c0 \/ (c0 < i /\ a_term (log_abs (r_log x)) i = Some (r_term x) /\ qjust x i).
Definition kinv (t b c0 : N) (x : raft) : Prop :=
  ninv x /\ ackinv A x /\
  ((r_state x = RLeader /\ r_term x = t /\ a_base (log_abs (r_log x)) = b /\ cjust c0 x) \/ lost t x).
Lemma kinv_prim t b c0 im x y : log_msg_wf im ->
  (m_type im = MsgAppResp -> m_reject im = false -> A (m_term im) (m_from im) (m_index im)) ->
  kinv t b c0 x -> prim im x y -> kinv t b c0 y.
Proof.
  intros Hw HA (N1 & A1 & K) Hp. destruct (prim_log _ _ _ Hw N1 Hp) as [N2 LE]. pose proof (prim_ack _ _ _ _ HA A1 Hp) as A2.
  split; [exact N2|]. split; [exact A2|]. destruct K as [(S1 & S2 & S3 & S4)|L]; [|right; eapply prim_lost; eauto].
  destruct (prim_lead _ _ _ S1 Hp) as [(T1 & T2 & T3 & T4)|L]; [|right; rewrite <- S2; exact L].
  left. split; [exact T1|]. split; [congruence|].
  pose proof (lwf_com _ (li_wf _ (ni_log _ N1))) as Hc.
  destruct LE as [H|es mci pr pr' u t0 H1 H2 H3 H4 H5 H6 H7 H8 H9 H10 H11 H12|mci H1 H2 H3 H4 H5 H6|l H1 H2 H3 H4 H5 H6|c H1 H2 H3 H4 H5|r1 H1 H2 H3 H4 H5 H6 H7 H8 H9]; try congruence.
  - rewrite H. split; [auto|]. unfold cjust in *. rewrite H, T2. destruct S4 as [S4|(S4 & S5 & S6)]; auto. right. split; auto. split; auto.
    eapply qjust_same; eauto.
  - rewrite H6. split; [exact S3|]. unfold cjust in *. cbv zeta in *. rewrite T2.
    destruct (N.eq_dec (l_committed (r_log y)) (l_committed (r_log x))) as [Ec|Ec].
    + rewrite Ec. destruct S4 as [S4|(S4 & S5 & S6)]; auto. right. split; auto. split; [|eapply qjust_same; eauto].
      rewrite H6. rewrite a_term_app; auto; [apply log_abs_wf, lwf_0, N1|lia].
    + destruct (H12 Ec) as [M1 M2]. right. rewrite M1 in *. split; [destruct S4 as [S4|[S4 _]]; lia|]. split; [exact M2|].
      apply qjust_quorum; auto. lia.
  - rewrite H6. cbn [r_log set_r_log r_term]. split; [exact S3|]. unfold cjust in *. cbv zeta in *. cbn [r_log set_r_log l_committed set_l_committed r_term].
    right. split; [destruct S4 as [S4|[S4 _]]; lia|]. split; [exact H5|]. rewrite H6 in A2. apply qjust_quorum; auto. lia.
Qed.
Lemma kinv_qprs (Q : msg -> Prop) t b c0 x y :
  (forall im, Q im -> log_msg_wf im /\ (m_type im = MsgAppResp -> m_reject im = false -> A (m_term im) (m_from im) (m_index im))) ->
  kinv t b c0 x -> qprs Q x y -> kinv t b c0 y.
Proof. intros HQ HK H. revert HK. apply (qprs_ind_inv Q (kinv t b c0)); auto. intros im p q Hq HK Hp. destruct (HQ im Hq). eapply kinv_prim; eauto. Qed.

Lemma via_just x y : ninv x -> via x y -> cjust (l_committed (r_log x)) y /\ a_base (log_abs (r_log y)) = a_base (log_abs (r_log x)).
Proof.
  intros Hn (a & b & B1 & B2 & B3 & B4 & B5 & B6 & B7 & B8).
  assert (Na : ninv a).
  { destruct Hn as [X1 X2 X3]. constructor; rewrite ?B1; auto. intros _. destruct B5 as [B5|[B5 B9]]; [lia|]. rewrite B9. auto. }
  assert (Hp : prim (new_msg MsgHup) a b) by (apply PLead; auto).
  destruct (prim_log (new_msg MsgHup) a b) as [N2 LE]; auto; [apply local_log_wf; discriminate|].
  assert (A2 : ackinv A b).
  { eapply (prim_ack A (new_msg MsgHup) a); [discriminate| |exact Hp]. apply ackinv_nl. congruence. }
  assert (Ey : r_log y = r_log b /\ r_term y = r_term b /\ r_cfg y = r_cfg b /\ t_config (r_trk y) = t_config (r_trk b)).
  { destruct B8 as [[] _ _ _]. auto. }
  destruct Ey as (Y1 & Y2 & Y3 & Y4). unfold cjust. cbv zeta. rewrite Y1, Y2.
  assert (G : cjust (l_committed (r_log x)) b /\ a_base (log_abs (r_log b)) = a_base (log_abs (r_log x))).
  { pose proof (lwf_com _ (li_wf _ (ni_log _ Na))) as Hc. rewrite <- B1.
    destruct LE as [H|es mci pr pr' u t0 H1 H2 H3 H4 H5 H6 H7 H8 H9 H10 H11 H12|mci H1 H2 H3 H4 H5 H6|l H1 H2 H3 H4 H5 H6|c H1 H2 H3 H4 H5|r1 H1 H2 H3 H4 H5 H6 H7 H8 H9]; try congruence.
    - rewrite H. split; auto. unfold cjust. rewrite H. auto.
    - rewrite H6. split; auto. unfold cjust. cbv zeta. destruct (N.eq_dec (l_committed (r_log b)) (l_committed (r_log a))) as [Ec|Ec]; auto.
      destruct (H12 Ec) as [M1 M2]. right. rewrite M1 in *. split; [lia|]. split; [congruence|]. apply qjust_quorum; auto. lia. }
  destruct G as [[G|(G1 & G2 & G3)] G4]; (split; [|exact G4]); auto. right. split; auto. split; auto. eapply qjust_same; eauto.
Qed.

Theorem n_step_just o n n' out : nop_ok o n -> dinv n -> ackinv A (rn_raft n) ->
  (forall m, o = NStep m -> m_type m = MsgAppResp -> m_reject m = false -> A (m_term m) (m_from m) (m_index m)) ->
  n_step o n = Ok (n', out) -> r_state (rn_raft n') = RLeader ->
  cjust (l_committed (r_log (rn_raft n))) (rn_raft n') /\
  (l_committed (r_log (rn_raft n)) < l_committed (r_log (rn_raft n')) -> a_base (log_abs (r_log (rn_raft n'))) <= l_committed (r_log (rn_raft n))).
Proof.
  intros Hok D HA HS H Hl. pose proof (n_step_dinv o n n' out Hok H D) as [D' X].
  pose proof (lwf_com _ (li_wf _ (ni_log _ (di_ninv _ D)))) as Hcm.
  destruct (nop_plain o) as [Hp|Hp].
  - assert (HQ : forall im, call_msg (r_id (rn_raft n)) o im -> log_msg_wf im /\ (m_type im = MsgAppResp -> m_reject im = false -> A (m_term im) (m_from im) (m_index im))).
    { intros im Hc. split; [eapply call_msg_log; eauto|]. intros Ht Hr.
      assert (Hd : (exists m, o = NStep m) \/ forall m, o <> NStep m) by (destruct o; eauto; right; discriminate).
      destruct Hd as [[m ->]|Hd]; [cbn in Hc; subst; eauto|]. destruct (call_msg_local _ _ _ Hc Hd) as [_ L]. rewrite Ht in L. discriminate. }
    destruct (n_step_qprs _ _ _ _ Hp (proj1 Hok) H) as (r0 & S & Q).
    assert (E0 : r_cfg r0 = r_cfg (rn_raft n) /\ r_term r0 = r_term (rn_raft n) /\ r_log r0 = r_log (rn_raft n) /\ r_state r0 = r_state (rn_raft n)).
    { destruct S as [->|(cc & cp & bb & op & _ & _ & ->)]; auto. }
    destruct E0 as (E1 & E2 & E3 & E4).
    assert (N0 : ninv r0) by (apply (ninv_same (rn_raft n)); auto; apply D). pose proof (switched_ack A _ _ _ S HA) as A0.
    assert (LK : r_state (rn_raft n) = RLeader -> r_term (rn_raft n') = r_term (rn_raft n) -> cjust (l_committed (r_log (rn_raft n))) (rn_raft n') /\
       a_base (log_abs (r_log (rn_raft n'))) = a_base (log_abs (r_log (rn_raft n)))).
    { intros L1 L2. assert (K0 : kinv (r_term (rn_raft n)) (a_base (log_abs (r_log (rn_raft n)))) (l_committed (r_log (rn_raft n))) r0).
      { split; [exact N0|]. split; [exact A0|]. left. unfold cjust. cbv zeta. rewrite E2, E3, E4. split; [exact L1|]. split; [reflexivity|]. split; [reflexivity|]. left; reflexivity. }
      destruct (kinv_qprs _ _ _ _ _ _ HQ K0 Q) as (_ & _ & [(_ & _ & K1 & K2)|L]); auto. exfalso. exact (lost_leader _ _ Hl L2 L). }
    assert (G : cjust (l_committed (r_log (rn_raft n))) (rn_raft n') /\ a_base (log_abs (r_log (rn_raft n'))) = a_base (log_abs (r_log (rn_raft n)))).
    { assert (Hcc : (exists cc, o = NApplyCC cc) \/ forall cc, o <> NApplyCC cc) by (destruct o; eauto; right; discriminate).
      destruct Hcc as [[cc ->]|Hcc].
      - cbn [n_step] in H. apply bind_ok in H. destruct H as ([n1 cs] & H & Hx). inv Hx. unfold rn_apply_conf_change in H.
        apply bind_ok in H. destruct H as (cc2 & _ & H). apply bind_ok in H. destruct H as ([r1 cs1] & H & Hx). inv Hx. cbn [rn_raft set_rn_raft] in *.
        assert (F : r_state r1 = r_state (rn_raft n) /\ r_term r1 = r_term (rn_raft n)).
        { unfold raft_apply_conf_change in H. apply bind_ok in H. destruct H as ([cp|] & _ & H); [|discriminate].
          unfold switch_to_config in H. cbv zeta in H.
          match type of H with context[set_r_learner ?b ?x] => set (r2 := set_r_learner b x) in * end.
          assert (F2 : r_state r2 = r_state (rn_raft n) /\ r_term r2 = r_term (rn_raft n)) by (split; reflexivity). clearbody r2.
          destruct (_ && is_leader r2); [inv H; auto|]. destruct (_ || _); [inv H; auto|].
          apply bind_ok in H. destruct H as (r3 & H & Hx). inv Hx. unfold switch_leader in H.
          apply bind_ok in H. destruct H as ([r4 cm] & H4 & H). apply raft_maybe_commit_state in H4. destruct H4 as [l4 H4].
          apply bind_ok in H. destruct H as (r5 & H5 & H).
          assert (S5 : sends r4 r5).
          { destruct cm; [eapply bcast_append_sends; eauto|]. eapply (mfold_inv _ sends); [apply sends_refl|apply sends_trans| |exact H5].
            intros a s s' _ Hs. cbv beta in Hs. apply bind_ok in Hs. destruct Hs as ([? ?] & Hs & Hx). inv Hx. eapply maybe_send_append_sends; eauto. }
          assert (F5 : r_state r5 = r_state r2 /\ r_term r5 = r_term r2) by (destruct S5 as [[] _ _ _]; rewrite H4 in *; cbn in *; auto).
          destruct F5, F2. destruct (_ && _); inv H; cbn; split; congruence. }
        destruct F as [F1 F2]. apply LK; congruence.
      - destruct (n_step_leads o n n' out Hp H Hcc Hl) as [[L1 L2]|V]; [apply LK; auto|]. apply via_just; auto. apply D. }
    destruct G as [G1 G2]. split; auto. intros _. rewrite G2. lia.
  - assert (Same : r_log (rn_raft n') = r_log (rn_raft n) \/ l_committed (r_log (rn_raft n')) = l_committed (r_log (rn_raft n)) ->
      cjust (l_committed (r_log (rn_raft n))) (rn_raft n') /\
      (l_committed (r_log (rn_raft n)) < l_committed (r_log (rn_raft n')) -> a_base (log_abs (r_log (rn_raft n'))) <= l_committed (r_log (rn_raft n)))).
    { intros Z. assert (Z' : l_committed (r_log (rn_raft n')) = l_committed (r_log (rn_raft n))) by (destruct Z; congruence). split; [left; auto|lia]. }
    destruct o; cbn in Hp; try tauto; destruct Hok as [Hw Hok]; try tauto.
    + destruct X as (rd & _ & [R1 R2 R3 R4 R5 R6 R7 R8 R9 R10 R11]). destruct R11 as [(u & E1 & E2 & _ & E4 & _)|(HL & rb & r0 & (u & l & E1 & E2 & E3 & E6 & _) & Ha & E4 & E5 & E7 & _)].
      * apply Same. right; exact E4.
      * assert (Ht : 0 < r_term rb) by (rewrite E1; apply (ni_term _ (di_ninv _ D)); auto).
        assert (Hwb : lwf (r_log rb)) by (rewrite E1; auto).
        destruct (append_log_w _ _ _ Hwb Ht Ha) as (A1 & A2 & A3 & pr & pr' & u0 & mci & B1 & B2 & B3 & B5 & B4 & B6 & B7 & _). cbv zeta in *.
        pose proof (n_step_ack A NHandle n n' out Hw ltac:(discriminate) H HA) as HA'.
        destruct (append_entry_fields _ _ _ Ha) as (lx & px & ux & Ef).
        assert (Tk : r_trk (rn_raft n') = r_trk r0 /\ r_term (rn_raft n') = r_term r0) by (rewrite E4; auto). destruct Tk as [Tk1 Tk2].
        assert (Tb : r_term r0 = r_term rb) by (rewrite Ef; auto).
        destruct (N.eq_dec (l_committed (r_log r0)) (l_committed (r_log rb))) as [Ec|Ec].
        { apply Same. right. rewrite E7, Ec, E1. auto. }
        destruct (B7 Ec) as [M1 M2].
        assert (Cb : l_committed (r_log rb) = l_committed (r_log (rn_raft n))) by (rewrite E1; cbn; auto).
        split.
        { right. rewrite E5, E7, M1, Tk2, Tb. split; [lia|]. split; [exact M2|]. apply qjust_quorum; auto; [rewrite Tk1; exact B5|lia]. }
        { intros _. rewrite E5, A2, E1. cbn [r_log set_r_log a_app a_base]. rewrite E3. lia. }
    + destruct X as (s & -> & _). apply Same. right; reflexivity.
    + destruct X as (s & -> & _). apply Same. right; reflexivity.
Qed.
End Just.

Lemma n_run_ack (A : N -> N -> N -> Prop) os : forall n n' outs, n_run_ok os n ->
  (forall m, In (NStep m) os -> m_type m = MsgAppResp -> m_reject m = false -> A (m_term m) (m_from m) (m_index m)) ->
  n_run os n = Ok (n', outs) -> ackinv A (rn_raft n) -> ackinv A (rn_raft n').
Proof.
  induction os as [|o os IH]; intros n n' outs Hok HA H HI; cbn [n_run] in H; [inv H; auto|].
  apply bind_ok in H. destruct H as ([n1 out] & H1 & H). apply bind_ok in H. destruct H as ([n2 outs'] & H2 & H). inv H.
  cbn [n_run_ok] in Hok. destruct Hok as [Ho Hos]. rewrite H1 in Hos.
  eapply IH; [exact Hos| |exact H2|]. { intros m Hm. apply HA. right; auto. }
  eapply n_step_ack; [apply Ho| |exact H1|exact HI]. intros m ->. apply HA. left; auto.
Qed.
Lemma ack_down os t id i j : acknowledged os t id i -> j <= i -> acknowledged os t id j.
Proof. intros (m & H1 & H2 & H3 & H4 & H5 & H6) H. exists m. repeat (split; [auto; fail|]). lia. Qed.
Lemma ack_self os m : In (NStep m) os -> m_type m = MsgAppResp -> m_reject m = false -> acknowledged os (m_term m) (m_from m) (m_index m).
Proof. intros. exists m. repeat (split; [auto; fail|]). lia. Qed.
Lemma created_ack c s tape n0 os n outs os' : c_storage c = Some s -> storage_ok s -> rn_new c tape = Ok n0 ->
  n_run_ok os n0 -> n_run os n0 = Ok (n, outs) -> incl os os' -> dinv n /\ ackinv (acknowledged os') (rn_raft n).
Proof.
  intros H1 H2 H3 H4 H5 Hi. split.
  - apply node_at_dinv. exists c, tape, s, n0, os, outs. auto 10.
  - eapply n_run_ack; [exact H4| |exact H5|].
    + intros m Hm Ht Hr. apply ack_self; auto.
    + apply ackinv_nl. apply rn_new_spec in H3. destruct H3 as (r & H3 & ->). apply raft_new_spec in H3.
      destruct H3 as (s' & cp & _ & _ & _ & _ & _ & _ & F). cbn. rewrite (fr_state _ _ _ _ F). discriminate.
Qed.

(** C34: a call that moves the commit index of a leader moves it to an entry of the leader's own
    term which a majority of the voters -- of both halves of a joint configuration -- hold: each
    member of the majority is the leader itself or sent it, in this term, an accepting MsgAppResp
    for at least that index. *)
Theorem C34_commit_rule c s tape n0 os n outs o n' out :
  c_storage c = Some s -> storage_ok s -> rn_new c tape = Ok n0 -> n_run_ok os n0 -> n_run os n0 = Ok (n, outs) ->
  nop_ok o n -> n_step o n = Ok (n', out) ->
  node_role n' = RLeader -> node_commit n <> node_commit n' ->
  node_commit n < node_commit n' /\
  (exists e, holds_entry n' (node_commit n') e /\ e_term e = node_term n') /\
  exists Q, majority (node_incoming n') Q /\ majority (node_outgoing n') Q /\
    forall id, Q id = true -> id = node_id n' \/ acknowledged (os ++ [o]) (node_term n') id (node_commit n').
Proof.
  intros H1 H2 H3 H4 H5 Hok H Hl Hc.
  destruct (created_ack c s tape n0 os n outs (os ++ [o]) H1 H2 H3 H4 H5 (incl_appl _ (incl_refl _))) as [D HA].
  pose proof (proj1 (n_step_dinv _ _ _ _ Hok H D)) as D'.
  destruct (n_step_just (acknowledged (os ++ [o])) (fun t id i j => ack_down (os ++ [o]) t id i j) o n n' out Hok D HA) as [J B]; auto.
  { intros m -> Ht Hr. apply ack_self; auto. apply in_or_app; right; left; auto. }
  unfold node_commit, node_term, node_hard, node_incoming, node_outgoing, node_id in *; cbn in Hc |- *.
  destruct J as [J|(J1 & J2 & J3)]; [congruence|]. split; [exact J1|]. split; [|exact J3]. specialize (B J1).
  set (cm := l_committed (r_log (rn_raft n'))) in *.
  unfold a_term in J2. destruct (N.eqb_spec cm (a_base (log_abs (r_log (rn_raft n'))))); [lia|].
  destruct (a_entry (log_abs (r_log (rn_raft n'))) cm) as [e|] eqn:Hn; [|discriminate].
  exists e. split; [apply holds_abs; auto|cbn in J2; congruence].
Qed.

(** C38: a heartbeat goes to a peer, never carries a commit index above the sender's, and only one
    the receiver has acknowledged holding in the sender's term. *)
Theorem C38_heartbeat_commit c s tape n0 os n outs o n' x :
  c_storage c = Some s -> storage_ok s -> rn_new c tape = Ok n0 -> n_run_ok os n0 -> n_run os n0 = Ok (n, outs) ->
  nop_ok o n -> emits o n n' x -> m_type x = MsgHeartbeat ->
  m_to x <> node_id n /\ m_commit x <= node_commit n' /\
  (m_commit x = 0 \/ acknowledged (os ++ [o]) (m_term x) (m_to x) (m_commit x)).
Proof.
  intros H1 H2 H3 H4 H5 Hok He Hx.
  destruct (created_ack c s tape n0 os n outs (os ++ [o]) H1 H2 H3 H4 H5 (incl_appl _ (incl_refl _))) as [D HA].
  destruct (emits_inv _ _ _ _ (proj1 Hok) He) as (Hp & r0 & im & a & b & HS & Hc & Q1 & P1 & Hm & Q2).
  assert (E0 : r_cfg r0 = r_cfg (rn_raft n) /\ r_term r0 = r_term (rn_raft n) /\ r_log r0 = r_log (rn_raft n) /\ r_state r0 = r_state (rn_raft n)).
  { destruct HS as [->|(cc & cp & bb & op & _ & _ & ->)]; auto. }
  destruct E0 as (E1 & E2 & E3 & E4).
  assert (HQ : forall im, call_msg (r_id (rn_raft n)) o im -> m_type im = MsgAppResp -> m_reject im = false -> acknowledged (os ++ [o]) (m_term im) (m_from im) (m_index im)).
  { intros im0 Hc0 Ht Hr. assert (Hd : (exists m, o = NStep m) \/ forall m, o <> NStep m) by (destruct o; eauto; right; discriminate).
    destruct Hd as [[m ->]|Hd]; [cbn in Hc0; subst; apply ack_self; auto; apply in_or_app; right; left; auto|].
    destruct (call_msg_local _ _ _ Hc0 Hd) as [_ L]. rewrite Ht in L. discriminate. }
  pose proof (qprs_ack _ _ _ _ HQ (switched_ack _ _ _ _ HS HA) Q1) as Aa. destruct (qprs_tv _ _ _ Q1) as [C1 T1].
  assert (Hida : r_id a = node_id n) by (unfold node_id; cbn; unfold r_id; congruence).
  assert (N0 : ninv r0) by (apply (ninv_same (rn_raft n)); auto; apply D).
  assert (NP : forall p q, qprs (call_msg (r_id (rn_raft n)) o) p q -> ninv p -> ninv q /\ l_committed (r_log p) <= l_committed (r_log q)).
  { intros p q. apply (qprs_ind_rel _ ninv (fun p q => l_committed (r_log p) <= l_committed (r_log q))); [intros; lia|intros; lia|].
    intros im0 p0 q0 Hq HN HP. destruct (prim_log _ _ _ (call_msg_log _ _ _ _ Hp Hok Hq) HN HP) as [X1 X2]. split; auto. apply (leff_keep _ _ _ HN X2). }
  destruct (NP _ _ Q1 N0) as [Na _]. destruct (prim_log _ _ _ (call_msg_log _ _ _ _ Hp Hok Hc) Na P1) as [Nb X2].
  destruct (NP _ _ Q2 Nb) as [_ Cb]. pose proof (lk_com _ _ (leff_keep _ _ _ Na X2)) as Ca.
  unfold node_commit, node_hard; cbn.
  destruct Hm as [m Hl Hs|m Hmi|? ? ? ? ? ?|? ? ? ? ? ? ?|i ? ?]; try discriminate.
  - destruct Hs; try discriminate. cbn [m_to m_commit m_term]. split; [rewrite Hida in H0; exact H0|]. split; [lia|].
    destruct (N.eq_dec (p_match pr) 0) as [Z|Z]; [left; lia|]. right.
    unfold trk_get in H. destruct (Aa Hl to pr H0 H) as [Y|Y]; [tauto|]. eapply ack_down; [exact Y|lia].
  - destruct Hmi; try discriminate. exfalso. rewrite outm_type in Hx. cbn [m_type set_m_to] in Hx. intuition congruence.
Qed.
End Props.

(* ---- concrete cases meeting the hypotheses ---- *)
(** The leader of term 3 appends a proposal of its own term; its old entries stay. *)
Example C33_example : exists n n' out, @node_at ex_env n /\ nop_ok (NPropose "x") n /\ @n_step ex_env (NPropose "x") n = Ok (n', out) /\
  ((match node_role n, node_role n' with RLeader, RLeader => true | _, _ => false end) && (node_term n' =? node_term n) &&
   (node_last n =? 8) && (node_last n' =? 9)) = true.
Proof. apply (case_ok (ex_cfg 1) ex_tape ex_elect (NPropose "x") _). vm_compute. reflexivity. Qed.
(** The acknowledgement of a second voter moves the leader's commit index to its own entry. *)
Definition ex_ack : nop := NStep (ex_app_resp 2 3 8).
Example C34_example : exists n n' out, @node_at ex_env n /\ nop_ok ex_ack n /\ @n_step ex_env ex_ack n = Ok (n', out) /\
  ((match node_role n' with RLeader => true | _ => false end) && (node_commit n =? 6) && (node_commit n' =? 8)) = true.
Proof. apply (case_ok (ex_cfg 1) ex_tape ex_elect ex_ack _). vm_compute. reflexivity. Qed.
(** An acknowledgement of an older term's entry alone does not. *)
Example C34_example_old_term : exists n n' out, @node_at ex_env n /\ nop_ok (NStep (ex_app_resp 2 3 7)) n /\
  @n_step ex_env (NStep (ex_app_resp 2 3 7)) n = Ok (n', out) /\
  ((match node_role n' with RLeader => true | _ => false end) && (node_commit n =? 6) && (node_commit n' =? 6)) = true.
Proof. apply (case_ok (ex_cfg 1) ex_tape ex_elect _ _). vm_compute. reflexivity. Qed.
Example C38_example : exists n n' x, @node_at ex_env n /\ nop_ok NTick n /\ @emits ex_env NTick n n' x /\
  (mtype_eqb (m_type x) MsgHeartbeat && (m_to x =? 2) && (m_commit x =? 8)) = true.
Proof. apply (emit_case_ok (ex_cfg 1) ex_tape (ex_elect ++ [ex_ack; NHandle])). vm_compute. reflexivity. Qed.
Example C38_example_behind : exists n n' x, @node_at ex_env n /\ nop_ok NTick n /\ @emits ex_env NTick n n' x /\
  (mtype_eqb (m_type x) MsgHeartbeat && (m_to x =? 3) && (m_commit x =? 0)) = true.
Proof. apply (emit_case_ok (ex_cfg 1) ex_tape (ex_elect ++ [ex_ack; NHandle])). vm_compute. reflexivity. Qed.
