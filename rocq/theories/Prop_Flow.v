(** C45: flow control, on reachable nodes of the RawNode API. *)
From Verif Require Import Prelude Types M_Util M_Quorum M_Inflights M_Progress M_Tracker.
From Verif Require Import M_Storage M_Unstable M_Log M_ReadOnly M_ConfPb M_ConfChange M_Raft M_RawNode.
From Verif Require Import Spec_Inflights P_Inflights Spec_Log P_Lists P_Storage P_Log P_RaftLogSeq P_NodeLog P_Frame P_Prim Sys_Node P_Node P_Fields P_Vote Spec_Node P_New P_Time P_Handle P_NodeRun P_Emit P_Lead P_Ack P_Transfer P_Flow Spec_ConfChange Sys_ConfChange P_ConfChange P_Conf P_Window P_FlowRun.
From Verif Require Import Spec_Flow Prop_Deliver Prop_Msg Prop_Transfer Ex_Env Ex_Node Ex_Check Ex_Case.

Section F.
Context {E : Env}.

Lemma made_at c n : made c n -> node_at n.
Proof. intros (tape & s & n0 & os & outs & H). exists c, tape, s, n0, os, outs. exact H. Qed.
Lemma winv_new c tape n : rn_new c tape = Ok n -> winv (rn_raft n).
Proof.
  intros H Hl. exfalso. apply rn_new_spec in H. destruct H as (r & H & ->). cbn in Hl. apply raft_new_spec in H.
  destruct H as (s & cp & _ & _ & _ & _ & _ & _ & F). rewrite (fr_state _ _ _ _ F) in Hl. discriminate.
Qed.
Lemma n_run_winv os : forall n n' outs, n_run_ok os n -> dinv n -> vself (rn_raft n) -> n_run os n = Ok (n', outs) ->
  winv (rn_raft n) -> winv (rn_raft n').
Proof.
  induction os as [|o t IH]; intros n n' outs Hk D V H I; cbn in H; [inv H; auto|].
  apply bind_ok in H. destruct H as ([n1 out] & H1 & H). apply bind_ok in H. destruct H as ([n2 outs2] & H2 & Hx). inv Hx.
  cbn in Hk. destruct Hk as [Hk Hks]. rewrite H1 in Hks.
  refine (IH n1 n' outs2 Hks _ _ H2 _).
  - exact (proj1 (n_step_dinv _ _ _ _ Hk H1 D)).
  - assert (R : n_run [o] n = Ok (n1, [out])) by (cbn [n_run]; rewrite H1; reflexivity).
    refine (vself_aprs _ _ (n_run_aprs _ _ _ _ [] _ R) V). constructor; [apply Hk|constructor].
  - eapply n_step_winv; eauto.
Qed.
Record minv (c : config) (n : rawnode) : Prop := {
  mi_dinv : dinv n;
  mi_vself : vself (rn_raft n);
  mi_win : winv (rn_raft n);
  mi_cfg : r_cfg (rn_raft n) = cfg_of c;
  mi_max : maxinf (rn_raft n) = max_inflight c
}.
Lemma made_inv c n : made c n -> minv c n.
Proof.
  intros H. pose proof (made_at _ _ H) as Ha. destruct H as (tape & s & n0 & os & outs & H1 & H2 & H3 & H4 & H5).
  assert (D0 : dinv n0) by (apply node_at_dinv; exists c, tape, s, n0, [], []; repeat split; auto; apply H2).
  pose proof (created_vself _ _ _ H3) as V0.
  pose proof (n_run_aprs _ _ _ _ [] (nop_ok_wf _ _ H4 _ _ H5) H5) as A.
  assert (F : r_cfg (rn_raft n0) = cfg_of c /\ maxinf (rn_raft n0) = max_inflight c).
  { pose proof (rn_new_spec _ _ _ H3) as (r & Hr & ->). cbn. apply raft_new_spec in Hr. destruct Hr as (s' & cp & _ & _ & _ & _ & _ & _ & F).
    split; [apply (fr_cfg _ _ _ _ F)|apply (fr_maxinf _ _ _ _ F)]. }
  destruct F as [F1 F2]. constructor.
  - apply node_at_dinv; auto.
  - apply node_at_vself; auto.
  - eapply n_run_winv; eauto. eapply winv_new; eauto.
  - rewrite <- F1. exact (proj1 (aprs_tv _ _ A)).
  - rewrite <- F2. exact (maxinf_aprs _ _ A).
Qed.
Lemma minv_step c o n n' out : nop_ok o n -> n_step o n = Ok (n', out) -> minv c n -> minv c n'.
Proof.
  intros Hk H [A B C D F]. assert (R : n_run [o] n = Ok (n', [out])) by (cbn [n_run]; rewrite H; reflexivity).
  assert (A' : aprs ([], rn_raft n) (sent [out], rn_raft n')).
  { apply (n_run_aprs [o] n n' [out] []); auto. constructor; [apply Hk|constructor]. }
  constructor.
  - exact (proj1 (n_step_dinv _ _ _ _ Hk H A)).
  - exact (vself_aprs _ _ A' B).
  - eapply n_step_winv; eauto.
  - rewrite <- D. exact (proj1 (aprs_tv _ _ A')).
  - rewrite <- F. exact (maxinf_aprs _ _ A').
Qed.
Lemma peer_get n to : node_role n = RLeader -> peer n to = trk_get to (r_trk (rn_raft n)).
Proof. intros H. change (r_state (rn_raft n) = RLeader) in H. unfold peer, rn_status. cbn. unfold is_leader. rewrite H. reflexivity. Qed.

(** C45: a leader's window for a follower never holds more than max_inflight append messages. *)
Theorem C45_window c n to p :
  made c n -> node_role n = RLeader -> to <> node_id n -> peer n to = Some p ->
  i_count (p_infl p) <= max_inflight c.
Proof.
  intros Hm Hl Hto Hp. destruct (made_inv _ _ Hm) as [D V I Hc Hk]. rewrite peer_get in Hp by auto.
  destruct (I Hl to p Hto Hp) as [[A _] [q (B & _)]]. rewrite <- Hk, <- A. destruct B. lia.
Qed.

(** What an append message carries, in terms of the sender's log. *)
Record app_content (max : N) (l : rlog) (x : msg) : Prop := {
  ac_first : log_first l <= m_index x + 1;
  ac_entries : forall k e, nnth (m_entries x) k = Some e -> a_entry (log_abs l) (m_index x + 1 + k) = Some e /\ e_index e = m_index x + 1 + k;
  ac_size : total_size (m_entries x) <= max \/ nlen (m_entries x) = 1;
  ac_some : m_index x < log_last l -> m_entries x <> [];
  ac_prev : log_term (m_index x) l = Ok (SOk (m_logterm x))
}.
Lemma smsg_content r x : lwf (r_log r) -> smsg r x -> m_type x = MsgApp -> app_content (k_max_msg_size (r_cfg r)) (r_log r) x /\
   m_from x = r_id r /\ m_term x = r_term r /\ m_commit x = l_committed (r_log r).
Proof.
  intros Hw H Ht. pose proof (lwf_0 _ Hw) as Hw0. destruct H as [to next t es pr H1 H2 H3 H4 H5| | | |]; cbn in Ht; try discriminate. clear Ht H2 H5.
  split; [|auto]. assert (F : a_first (log_abs (r_log r)) <= next).
  { destruct (N.le_gt_cases (a_first (log_abs (r_log r))) next) as [Hf|Hf]; auto. exfalso.
    unfold log_entries in H4. rewrite log_last_abs in H4 by auto. destruct (N.ltb_spec (a_last (log_abs (r_log r))) next) as [X|X].
    - unfold a_first, a_last in *. lia.
    - rewrite log_slice_compacted in H4 by (auto; lia). discriminate. }
  rewrite log_entries_abs in H4 by auto. inv H4.
  set (a := log_abs (r_log r)) in *. assert (W : wsub next 1 + 1 = next) by (unfold a_first, wsub in *; destruct (N.leb_spec 1 next); lia).
  assert (W1 : wsub next 1 = next - 1) by lia. destruct (limit_size_spec (ndrop (next - a_first a) (a_ents a)) (k_max_msg_size (r_cfg r))) as (rest & L1 & L2 & L3 & L4).
  set (es := limit_size _ _) in *. constructor; cbn [m_index m_entries m_logterm].
  - rewrite log_first_abs by auto. fold a. lia.
  - intros k e Hk. assert (Hk' : nnth (a_ents a) (next - a_first a + k) = Some e).
    { rewrite <- nnth_ndrop, L1, nnth_app1; auto. eapply nnth_Some_lt; eauto. }
    assert (Hc : a_wf a) by (apply log_abs_wf; auto). split.
    + rewrite W. fold a. unfold a_entry. unfold a_first in *. destruct (N.ltb_spec (a_base a) (next + k)) as [X|X]; [|clear - X F; lia]. rewrite <- Hk'. f_equal. revert F. generalize (a_base a). clear. intros; lia.
    + unfold a_wf in Hc. unfold a_first in *. rewrite (Hc _ _ Hk'). rewrite W. revert F. generalize (a_base a). clear. intros; lia.
  - exact L3.
  - intros Hl. apply L2. intros X. rewrite log_last_abs in Hl by auto. fold a in Hl. assert (Y : nlen (ndrop (next - a_first a) (a_ents a)) = 0) by (rewrite X; reflexivity).
    rewrite nlen_ndrop in Y. unfold a_first, a_last in *. clear - Hl Y W F. lia.
  - exact H3.
Qed.

Lemma call_about id o m to : call_msg id o m -> ~ about o to -> m_from m = to -> forall p p', ~ rin m p p'.
Proof.
  intros H Ha Hf p p' R. unfold rin in R. destruct o; cbn in H, Ha; try contradiction; try (subst m; cbn in *; tauto).
  - destruct H as [_ [H|[H|H]]]; rewrite H in R; auto.
  - destruct H as (t & d & _ & ->). cbn in R. auto.
Qed.
Lemma heard_about id o m r im to : call_msg id o m -> heard m r im -> ~ about o to -> m_from im = to -> forall p p', ~ rin im p p'.
Proof. intros H [[-> _]| ->] Ha Hf; [eapply call_about; eauto|]. intros p p' R. exact R. Qed.

(** One call seen by one follower, in which the node keeps leading. *)
Lemma peer_step c o n n' out to p : minv c n -> nop_ok o n -> n_step o n = Ok (n', out) -> still_leads n n' -> to <> node_id n ->
  peer n to = Some p -> (forall cc, o <> NApplyCC cc) ->
  exists p1 new p', peer n' to = Some p' /\ emitted n [out] n' new /\
    (pact p p1 \/ exists m im, call_msg (node_id n) o m /\ heard m (rn_raft n) im /\ m_from im = to /\ rin im p p1) /\
    pflow to p1 new p' /\ forall x, In x new -> m_type x = MsgApp -> appgood x /\ app_content (c_max_size c) (r_log (rn_raft n')) x.
Proof.
  intros M Hk H (L & L' & T) Hto Hp Hcc. pose proof (minv_step _ _ _ _ _ Hk H M) as M'. rewrite peer_get in * by auto.
  change (r_state (rn_raft n) = RLeader) in L. change (r_state (rn_raft n') = RLeader) in L'. change (r_term (rn_raft n') = r_term (rn_raft n)) in T.
  change (to <> r_id (rn_raft n)) in Hto.
  destruct (plain_dec o) as [Hpl|Hpl].
  - pose proof (n_step_dinv _ _ _ _ Hk H (mi_dinv _ _ M)) as [D' Hout].
    assert (Ho : o_ready out = None) by (destruct o; try (destruct Hpl; fail); apply Hout). clear Hout.
    destruct (n_step_flow _ _ _ _ Hpl (proj1 Hk) (mi_vself _ _ M) H L L' T) as (r0 & m & im & S & Hc & Hh & r1 & new & Tk & F & Hn & Hs & Hlog & Hrest).
    assert (r0 = rn_raft n) by (destruct S as [S|(cc & ? & ? & ? & S & _)]; [auto|destruct (Hcc cc); auto]). subst r0.
    pose proof (tk_prs _ _ _ Tk to Hto) as Tp. rewrite Hp in Tp. destruct (trk_get to (r_trk r1)) as [p1|] eqn:G1; [|contradiction].
    destruct (F to p1 new G1 Hn) as (p' & G2 & P). exists p1, new, p'. split; auto. split.
    { unfold emitted, pending, sent, readys. cbn. rewrite Ho. cbn. rewrite Hn, (tk_msgs _ _ _ Tk). reflexivity. }
    split; [destruct Tp as [Tp|[T1 T2]]; [left; auto|right; exists m, im; auto]|]. split; auto.
    intros x Hx Ht. assert (Hw1 : lwf (r_log r1)) by (rewrite <- Hlog; apply (li_wf _ (ni_log _ (di_ninv _ D')))).
    pose proof (Hs x Hx (or_introl Ht)) as Sx. split; [eapply smsg_app_good; eauto|].
    destruct (smsg_content _ _ Hw1 Sx Ht) as [Ct _]. rewrite <- Hlog, <- (proj1 Hrest), (mi_cfg _ _ M') in Ct. exact Ct.
  - destruct (not_plain_peers _ _ _ _ Hpl H) as (P1 & P2 & P3 & P4 & P5). exists p, [], p. split; [rewrite P5; auto|].
    split; [|split; [left; apply pact_refl|split; [constructor|intros x []]]].
    pose proof (n_step_dinv _ _ _ _ Hk H (mi_dinv _ _ M)) as [_ Hout]. unfold emitted. rewrite app_nil_r. unfold sent, readys, pending. cbn.
    destruct Hk as [_ Hk]. destruct o; try (exfalso; apply Hpl; exact I); try contradiction; cbn in Hout.
    + destruct Hout as (rd & -> & Hs). cbn. rewrite app_nil_r, (ro_msgs _ _ (hs_ready _ _ _ Hs)).
      destruct (not_plain_msgs _ _ _ _ Hpl H) as [X|X]; [|rewrite X, app_nil_r; reflexivity].
      cbn [n_step] in H. apply bind_ok in H. destruct H as ([n1 rd1] & H & Hx). inv Hx. unfold n_handle in H.
      apply bind_ok in H. destruct H as ([n2 rd2] & H & H1). apply bind_ok in H1. destruct H1 as (st & _ & H1).
      apply bind_ok in H1. destruct H1 as (n3 & H1 & Hx). inv Hx. apply advance_msgs in H1. rewrite H1. cbn.
      apply get_ready_inv in H. destruct H as (_ & -> & _). cbn. rewrite app_nil_r. reflexivity.
    + destruct Hout as (s & -> & Hr & _). rewrite Hr. cbn. reflexivity.
    + destruct Hout as (s & -> & Hr & _). rewrite Hr. cbn. reflexivity.
Qed.

Lemma paused_is K p : i_size (p_infl p) = K -> paused K p -> pr_is_paused p = true.
Proof. intros Hk. unfold paused, pr_is_paused, inf_full. destruct (p_state p); auto. intros ->. rewrite Hk. apply N.eqb_refl. Qed.

(** C45: a leader sends neither entries nor a snapshot to a paused follower, until it hears from or
    about that follower (or the configuration changes); its flow-control state stays as it is. *)
Theorem C45_paused_silent c o n n' out to p :
  made c n -> nop_ok o n -> n_step o n = Ok (n', out) -> still_leads n n' -> to <> node_id n ->
  peer n to = Some p -> paused (max_inflight c) p -> ~ about o to ->
  (exists p', peer n' to = Some p' /\ paused (max_inflight c) p') /\
  forall x, emits o n n' x -> m_to x = to -> m_type x <> MsgApp /\ m_type x <> MsgSnap.
Proof.
  intros Hm Hk H SL Hto Hp Hpa Hab. pose proof (made_inv _ _ Hm) as M.
  assert (Hsz : i_size (p_infl p) = max_inflight c).
  { destruct SL as [L _]. rewrite peer_get in Hp by auto. rewrite <- (mi_max _ _ M). apply (proj1 (mi_win _ _ M L to p Hto Hp)). }
  destruct (peer_step _ _ _ _ _ _ _ M Hk H SL Hto Hp) as (p1 & new & p' & G & Em & Hin & Fl & _).
  { intros cc ->. apply Hab. exact I. }
  assert (P1 : pact p p1).
  { destruct Hin as [X|(m & im & X1 & X2 & X3 & X4)]; auto. destruct (heard_about _ _ _ _ _ _ X1 X2 Hab X3 _ _ X4). }
  assert (Hpa1 : pr_is_paused p1 = true) by (destruct P1 as [b ->]; exact (paused_is _ _ Hsz Hpa)).
  destruct (pflow_paused _ _ _ _ Fl Hpa1) as [-> Hid]. split.
  - exists p1. split; auto. destruct P1 as [b ->]. exact Hpa.
  - intros x (out' & new' & H' & Hn & Hx) Ht. assert (out' = out) by congruence. subst out'.
    apply Hid; auto. destruct (emits_inv o n n' x (proj1 Hk)) as [Hpl _]; [exists out, new'; auto|].
    pose proof (n_step_dinv _ _ _ _ Hk H (mi_dinv _ _ M)) as [_ Hout].
    assert (Ho : o_ready out = None) by (destruct o; try (destruct Hpl; fail); apply Hout).
    unfold emitted, sent, readys in Em. cbn in Em. rewrite Ho in Em. cbn in Em. rewrite Hn in Em. apply app_inv_head in Em. congruence.
Qed.

(** The append messages of one call continue one another. *)
Lemma pflow_pipe to p ms p' : pflow to p ms p' -> 
  (forall x, In x ms -> m_type x = MsgApp -> m_to x = to -> forall next e t, 1 <= next -> m_index x = wsub next 1 -> rev (m_entries x) = e :: t -> e_index e + 1 = next + nlen (m_entries x)) ->
  1 <= p_next p -> p_state p' = StReplicate -> p_state p = StReplicate /\ pipelined to (p_next p) ms (p_next p').
Proof.
  induction 1 as [p|p m ms p' Ho Hp IH|p m ms p1 p' Hto Hty Hpa Hi Haa Hp IH|p m ms p' Hto Hty Hpa Hac Hp IH]; intros Hg H1 Hr.
  - cbn. auto.
  - destruct (IH ltac:(intros; eapply Hg; [right| | | | |]; eauto) H1 Hr) as [A B]. split; auto. cbn.
    destruct (mtype_eqb (m_type m) MsgApp) eqn:E1; [|exact B]. apply mtype_eqb_eq in E1.
    destruct (N.eqb_spec (m_to m) to) as [E2|E2]; [|exact B]. exfalso. destruct Ho as [Ho|[Ho _]]; congruence.
  - cbn [pipelined]. rewrite Hty, Hto, N.eqb_refl. cbn [mtype_eqb andb].
    assert (W : m_index m + 1 = p_next p) by (rewrite Hi; unfold wsub; destruct (N.leb_spec 1 (p_next p)); lia).
    unfold after_app in Haa. destruct (rev (m_entries m)) as [|e t] eqn:Hrev.
    + subst p1. destruct (IH ltac:(intros; eapply Hg; [right| | | | |]; eauto) H1 Hr) as [A B]. split; auto. split; auto.
      assert (En : m_entries m = []) by (rewrite <- (rev_involutive (m_entries m)), Hrev; reflexivity). rewrite En. nl. rewrite N.add_0_r. exact B.
    + pose proof (Hg m (or_introl eq_refl) Hty Hto (p_next p) e t H1 Hi Hrev) as G2.
      destruct (p_state p) eqn:Hs; [| |contradiction].
      * subst p1. destruct (IH ltac:(intros; eapply Hg; [right| | | | |]; eauto) H1 Hr) as [A B]. cbn in A. congruence.
      * destruct Haa as (inf & _ & ->). destruct (IH ltac:(intros; eapply Hg; [right| | | | |]; eauto)) as [A B]; [cbn; lia|auto|].
        split; auto. split; auto. cbn in B. rewrite <- G2. exact B.
  - exfalso. apply pflow_snap in Hp; [congruence|reflexivity].
Qed.

(** Where append and snapshot messages come from. *)
Lemma switch_sender cp r r' cs : switch_to_config cp r = Ok (r', cs) ->
  exists r1 r3, r_msgs r1 = r_msgs r /\ (r3 = r1 \/ r_state r1 = RLeader /\ sends r1 r3) /\ r_msgs r' = r_msgs r3 /\
    r_log r' = r_log r3 /\ r_state r' = r_state r3 /\ r_term r' = r_term r3 /\ r_cfg r' = r_cfg r3.
Proof.
  unfold switch_to_config. cbv zeta.
  match goal with |- context[set_r_learner ?b ?x] => set (r1 := set_r_learner b x) end.
  assert (A : r_msgs r1 = r_msgs r) by reflexivity. clearbody r1.
  assert (Z : exists r1 r3, r_msgs r1 = r_msgs r /\ (r3 = r1 \/ r_state r1 = RLeader /\ sends r1 r3) /\ r_msgs r1 = r_msgs r3 /\
    r_log r1 = r_log r3 /\ r_state r1 = r_state r3 /\ r_term r1 = r_term r3 /\ r_cfg r1 = r_cfg r3) by (exists r1, r1; repeat split; auto).
  destruct (_ && is_leader r1); [intros H; inv H; exists r', r'; repeat split; auto|].
  destruct (_ || _) eqn:Hl; [intros H; inv H; exists r', r'; repeat split; auto|]. intros H.
  apply orb_false_iff in Hl. destruct Hl as [Hl _]. apply negb_false_iff in Hl.
  assert (L : r_state r1 = RLeader) by (unfold is_leader in Hl; destruct (r_state r1); auto; discriminate).
  apply bind_ok in H. destruct H as (ra & H & Hx). inv Hx.
  unfold switch_leader in H. apply bind_ok in H. destruct H as ([r2 com] & H1 & H).
  apply raft_maybe_commit_state in H1. destruct H1 as [l ->]. apply bind_ok in H. destruct H as (r3 & H2 & H).
  assert (S : sends (set_r_log l r1) r3).
  { destruct com; [apply bcast_append_sends; auto|]. apply (mfold_inv _ sends) in H2; auto using sends_refl; [intros; eapply sends_trans; eauto|].
    intros a s s' _ Hs. apply bind_ok in Hs. destruct Hs as ([r5 b] & Hs & Hx). inv Hx. eapply maybe_send_append_sends; eauto. }
  exists (set_r_log l r1), r3. split; [exact A|]. split; [right; split; auto|]. destruct (_ && _) in H; inv H; repeat split; auto.
Qed.
Lemma sender o n n' x : nop_wf o -> vself (rn_raft n) -> emits o n n' x -> m_type x = MsgApp \/ m_type x = MsgSnap ->
  exists r1, r_state r1 = RLeader /\ smsg r1 x /\ r_log (rn_raft n') = r_log r1 /\ r_state (rn_raft n') = RLeader /\
    r_term (rn_raft n') = r_term r1 /\ r_cfg (rn_raft n') = r_cfg r1.
Proof.
  intros Hw V Hem Ht. destruct (emits_inv _ _ _ _ Hw Hem) as [Hp _]. destruct Hem as (out & new & H & Hn & Hx). unfold pending in Hn.
  assert (C : (exists cc, o = NApplyCC cc) \/ tres (rn_raft n) (rn_raft n')).
  { destruct (n_step_tres _ _ _ _ Hp Hw V H) as [[T|[T _]] _]; auto. }
  destruct C as [[cc ->]|(r1 & (ms & A1 & A2) & HS)].
  - cbn [n_step] in H. apply bind_ok in H. destruct H as ([n1 e1] & H & Hx1). inv Hx1. unfold rn_apply_conf_change in H. apply bind_ok in H. destruct H as (c & _ & H).
    apply bind_ok in H. destruct H as ([r1 cs] & H & Hx1). inv Hx1. cbn in *. unfold raft_apply_conf_change in H. cbv zeta in H. apply bind_ok in H. destruct H as ([cp|] & _ & H); [|discriminate].
    apply switch_sender in H. destruct H as (ra & r3 & B1 & B2 & B3 & B4 & B5 & B6 & B7). destruct B2 as [->|[L S]].
    { exfalso. rewrite B3, B1 in Hn. rewrite <- (app_nil_r (r_msgs _)) in Hn at 1. apply app_inv_head in Hn. subst new. destruct Hx. }
    destruct (sd_msgs _ _ S) as (ms & M1 & M2). rewrite B3, M1, B1 in Hn. apply app_inv_head in Hn. subst ms. rewrite Forall_forall in M2.
    pose proof (sd_same _ _ S) as Sm. exists ra. split; auto. split; [apply M2; auto|]. split; [rewrite B4; apply Sm|].
    split; [rewrite B5, (sm_state _ _ Sm); auto|]. split; [rewrite B6; apply Sm|rewrite B7; apply Sm].
  - rewrite Forall_forall in A2. assert (Na : ~ In x ms) by (intros Hi; destruct (A2 _ Hi) as (_ & N1 & N2); destruct Ht; auto).
    destruct HS as [->|[L S]].
    { exfalso. rewrite A1 in Hn. apply app_inv_head in Hn. subst new. auto. }
    destruct (sd_msgs _ _ S) as (ms2 & M1 & M2). rewrite M1, A1, <- app_assoc in Hn. apply app_inv_head in Hn. subst new.
    apply in_app_or in Hx. destruct Hx as [Hx|Hx]; [contradiction|]. rewrite Forall_forall in M2.
    pose proof (sd_same _ _ S) as Sm. exists r1. split; auto. split; [apply M2; auto|]. split; [apply Sm|].
    split; [rewrite (sm_state _ _ Sm); auto|]. split; apply Sm.
Qed.

(** C45: an append message is sent by a leader, from its own log: the term of the entry before it,
    the entries that follow (as many as the size limit lets, at least one if there is any), its
    commit index. *)
Theorem C45_append_content c o n n' x :
  made c n -> nop_ok o n -> emits o n n' x -> m_type x = MsgApp ->
  node_role n' = RLeader /\ m_from x = node_id n' /\ m_term x = node_term n' /\ m_commit x = node_commit n' /\
  (forall k e, nnth (m_entries x) k = Some e -> holds_entry n' (m_index x + 1 + k) e /\ e_index e = m_index x + 1 + k) /\
  (total_size (m_entries x) <= c_max_size c \/ nlen (m_entries x) = 1) /\
  (m_index x < node_last n' -> m_entries x <> []) /\
  (forall e, holds_entry n' (m_index x) e -> m_logterm x = e_term e) /\ node_first n' <= m_index x + 1.
Proof.
  intros Hm Hk Hem Ht. pose proof (made_inv _ _ Hm) as M. destruct (sender _ _ _ _ (proj1 Hk) (mi_vself _ _ M) Hem (or_introl Ht)) as (r1 & L & S & Hlog & L' & T & C).
  destruct Hem as (out & new & H & Hn & Hx). pose proof (minv_step _ _ _ _ _ Hk H M) as M'. pose proof (mi_dinv _ _ M') as D'.
  pose proof (li_wf _ (ni_log _ (di_ninv _ D'))) as Hw. rewrite Hlog in Hw. destruct (smsg_content _ _ Hw S Ht) as ([A1 A2 A3 A4 A5] & B1 & B2 & B3).
  rewrite <- Hlog, <- ?C in *. split; [exact L'|]. split; [rewrite B1; unfold r_id; rewrite <- C; reflexivity|]. split; [rewrite B2, <- T; reflexivity|]. split; [exact B3|].
  split. { intros k e He. destruct (A2 _ _ He) as [X Y]. split; auto. apply holds_abs; auto. }
  split. { rewrite (mi_cfg _ _ M') in A3. exact A3. }
  split; [exact A4|]. split; [|exact A1]. intros e He. apply holds_abs in He; auto. rewrite log_term_abs in A5 by (apply lwf_0; auto).
  apply Ok_inj in A5. injection A5 as A5. rewrite <- A5. unfold a_term. destruct (N.eqb_spec (m_index x) (a_base (log_abs (r_log (rn_raft n'))))) as [X|X].
  - unfold a_entry in He. rewrite X, N.ltb_irrefl in He. discriminate.
  - rewrite He. reflexivity.
Qed.

Lemma content_last max l x next e t : app_content max l x -> 1 <= next -> m_index x = wsub next 1 -> rev (m_entries x) = e :: t ->
  e_index e + 1 = next + nlen (m_entries x).
Proof.
  intros C H1 Hi Hr. apply rev_last in Hr. assert (W : m_index x + 1 = next) by (rewrite Hi; unfold wsub; destruct (N.leb_spec 1 next); lia).
  assert (Hn : nnth (m_entries x) (nlen (m_entries x) - 1) = Some e).
  { rewrite Hr. replace (nlen (rev t ++ [e]) - 1) with (nlen (rev t)) by (rewrite nlen_app, nlen_cons; nl; lia). rewrite nnth_app2 by lia. rewrite N.sub_diag. reflexivity. }
  destruct (ac_entries _ _ _ C _ _ Hn) as [_ X]. rewrite X. assert (0 < nlen (m_entries x)) by (rewrite Hr, nlen_app, nlen_cons; lia). lia.
Qed.
Lemma rin_next m p p1 : rin m p p1 -> p_state p = StReplicate -> p_state p1 = StReplicate ->
  p_next p1 = p_next p \/ (m_type m = MsgAppResp /\ m_reject m = false /\ p_next p1 = m_index m + 1 /\ p_next p <= m_index m).
Proof.
  unfold rin. intros H Hs Hs1. destruct (m_type m); try contradiction.
  - destruct (m_reject m).
    + destruct H as [h H]. unfold onrej, pr_maybe_decr_to in H. cbn [p_state set_p_active p_match] in H. rewrite Hs in H.
      destruct (m_index m <=? p_match p); cbn in H; rewrite ?Hs in H; cbn in H; subst p1; [left; reflexivity|].
      exfalso. revert Hs1. unfold pr_become_probe. cbn. rewrite Hs. cbn. discriminate.
    + unfold onack in H. destruct (pr_maybe_update (m_index m) (set_p_active true p)) as [p2 u] eqn:Hu.
      assert (X : p_state p2 = p_state p /\ (p_next p2 = p_next p \/ p_next p2 = m_index m + 1 /\ p_next p <= m_index m)).
      { unfold pr_maybe_update in Hu. cbn in Hu. destruct (p_match p <? m_index m); inv Hu; cbn; split; auto; lia. }
      destruct X as [X1 X2]. assert (Y : p_next p1 = p_next p2).
      { destruct u; [|subst; auto]. unfold ack_progress in H. rewrite X1, Hs in H. apply bind_ok in H. destruct H as (inf & _ & H). apply Ok_inj in H. subst p1. reflexivity. }
      rewrite Y. destruct X2 as [X2|X2]; [left; auto|right; tauto].
  - unfold onbeat in H. destruct (_ && _) in H; [destruct H as (inf & _ & ->)|subst p1]; left; reflexivity.
  - unfold onunreach in H. subst p1. rewrite Hs in *. cbn in *. revert Hs1. unfold pr_become_probe. rewrite Hs. discriminate.
  - unfold onstatus in H. rewrite Hs in H. subst p1. auto.
Qed.
(** C45: to a replicating follower a leader sends consecutive entries, each append message starting
    where the previous one ended, across any sequence of calls: [p_next] is where the next one starts.
    It only jumps ahead when the follower acknowledges more than it was sent. *)
Theorem C45_pipelined c o n n' out to p p' :
  made c n -> nop_ok o n -> n_step o n = Ok (n', out) -> still_leads n n' -> to <> node_id n -> (forall cc, o <> NApplyCC cc) ->
  peer n to = Some p -> p_state p = StReplicate -> peer n' to = Some p' -> p_state p' = StReplicate ->
  exists new next, emitted n [out] n' new /\ pipelined to next new (p_next p') /\
    (next = p_next p \/
     exists m, o = NStep m /\ m_type m = MsgAppResp /\ m_from m = to /\ m_term m = node_term n /\ p_next p <= m_index m /\ next = m_index m + 1).
Proof.
  intros Hm Hk H SL Hto Hcc Hp Hs Hp' Hs'. pose proof (made_inv _ _ Hm) as M.
  destruct (peer_step _ _ _ _ _ _ _ M Hk H SL Hto Hp Hcc) as (p1 & new & p2 & G & Em & Hin & Fl & Hg).
  assert (p2 = p') by congruence. subst p2.
  assert (Z : nz p). { destruct SL as [L _]. rewrite peer_get in Hp by auto. exact (proj2 (proj1 (mi_win _ _ M L to p Hto Hp))). }
  assert (Z1 : nz p1). { destruct Hin as [[b ->]|(m & im & _ & _ & _ & R)]; [exact Z|eapply nz_rin; eauto]. }
  assert (R1 : p_state p1 = StReplicate).
  { clear - Fl Hs'. induction Fl as [p|p m ms p' Ho Hp IH|p m ms p1 p' Hto Hty Hpa Hi Haa Hp IH|p m ms p' Hto Hty Hpa Hac Hp IH]; auto.
    - specialize (IH Hs'). unfold after_app in Haa. destruct (rev _); [subst; auto|]. destruct (p_state p) eqn:Hq; [subst p1; cbn in IH; congruence|auto|contradiction].
    - apply pflow_snap in Hp; [congruence|reflexivity]. }
  destruct (pflow_pipe _ _ _ _ Fl) as [_ P]; auto.
  { intros x Hx Ht _ next e t N1 Hi Hr. eapply content_last; eauto. apply Hg; auto. }
  exists new, (p_next p1). split; auto. split; auto. destruct Hin as [[b ->]|(m & im & Hc & Hh & Hf & R)]; [left; reflexivity|].
  destruct (rin_next _ _ _ R Hs R1) as [X|(X1 & _ & X2 & X3)]; [left; auto|right].
  destruct Hh as [[-> Hh]| ->]; [|discriminate]. exists m.
  assert (Ho : o = NStep m).
  { destruct o; cbn in Hc; try contradiction; try (subst m; discriminate X1); try congruence.
    - destruct Hc as [_ [Hc|[Hc|Hc]]]; congruence.
    - destruct Hc as (? & ? & _ & ->). discriminate X1. }
  split; auto. split; auto. split; auto. split; [|auto]. destruct Hh as [Hh|Hh]; auto.
  subst o. destruct Hk as [[_ Hk] _]. destruct (Hk Hh) as [Y|[Y|Y]]; rewrite Y in X1; discriminate.
Qed.

(** A configuration change, for a follower that replicates after it. *)
Lemma peer_step_cc c cc n n' out to p p' : minv c n -> nop_ok (NApplyCC cc) n -> n_step (NApplyCC cc) n = Ok (n', out) -> still_leads n n' ->
  to <> node_id n -> peer n to = Some p -> peer n' to = Some p' -> p_state p' = StReplicate ->
  exists p1 new, emitted n [out] n' new /\ (exists a b, p1 = set_p_active a (set_p_learner b p)) /\
    pflow to p1 new p' /\ forall x, In x new -> m_type x = MsgApp -> appgood x.
Proof.
  intros M Hk H (L & L' & T) Hto Hp Hp' Hs'. rewrite peer_get in * by auto. pose proof (minv_step _ _ _ _ _ Hk H M) as M'.
  change (r_state (rn_raft n) = RLeader) in L. change (r_state (rn_raft n') = RLeader) in L'. change (r_term (rn_raft n') = r_term (rn_raft n)) in T.
  change (to <> r_id (rn_raft n)) in Hto.
  pose proof (n_step_dinv _ _ _ _ Hk H (mi_dinv _ _ M)) as [D' Ho]. cbn in Ho.
  destruct (n_step_flow (NApplyCC cc) _ _ _ I I (mi_vself _ _ M) H L L' T) as (r0 & m & im & S & Hc & Hh & r1 & new & Tk & F & Hn & Hs & Hlog & _ & _ & Hb).
  pose proof (Hb _ _ Hp') as Hb1. destruct (trk_get to (r_trk r1)) as [p1|] eqn:G1; [|congruence]. clear Hb Hb1.
  destruct (F to p1 new G1 Hn) as (p2 & G2 & P). assert (p2 = p') by congruence. subst p2.
  assert (Hid : r_id r0 = r_id (rn_raft n)) by (destruct S as [->|(? & ? & ? & ? & _ & _ & ->)]; reflexivity).
  pose proof (tk_prs _ _ _ Tk to ltac:(congruence)) as Tp. rewrite G1 in Tp. destruct (trk_get to (r_trk r0)) as [p0|] eqn:G0; [|contradiction].
  assert (Him : im = new_msg MsgHup) by (cbn in Hc; subst m; destruct Hh as [[? _]|?]; auto). subst im.
  assert (PA : pact p0 p1) by (destruct Tp as [?|[_ []]]; auto).
  assert (Ht0 : r_msgs r0 = r_msgs (rn_raft n)) by (destruct S as [->|(? & ? & ? & ? & _ & _ & ->)]; reflexivity).
  exists p1, new. split. { unfold emitted, pending, sent, readys. cbn. assert (Ho2 : o_ready out = None) by apply Ho. rewrite Ho2. cbn. rewrite Hn, (tk_msgs _ _ _ Tk), Ht0. reflexivity. }
  split; [|split; auto].
  - assert (R1 : p_state p1 = StReplicate).
    { clear - P Hs'. induction P as [p|p m ms p' Ho Hp IH|p m ms p1 p' Hto Hty Hpa Hi Haa Hp IH|p m ms p' Hto Hty Hpa Hac Hp IH]; auto.
      - specialize (IH Hs'). unfold after_app in Haa. destruct (rev _); [subst; auto|]. destruct (p_state p) eqn:Hq; [subst p1; cbn in IH; congruence|auto|contradiction].
      - apply pflow_snap in Hp; [congruence|reflexivity]. }
    destruct PA as [a ->]. exists a. cbn in R1. destruct S as [->|(cc' & cp & b & op & _ & Hcall & ->)].
    + exists (p_learner p). assert (p0 = p) by congruence. subst p0. rewrite <- set_learner_same. reflexivity.
    + apply call_ev in Hcall. cbn [ch_trk ch_last r_trk set_r_learner set_r_trk] in *. unfold trk_get in *. cbn in G0. destruct (Hcall _ _ G0) as [(q & b' & X1 & ->)|(b' & ->)].
      * exists b'. congruence.
      * discriminate R1.
  - intros x Hx Ht. eapply smsg_app_good; [|apply Hs; [exact Hx|left; exact Ht]|exact Ht]. rewrite <- Hlog. apply (li_wf _ (ni_log _ (di_ninv _ D'))).
Qed.

Definition undone (os : list nop) (t to i : N) : bool := negb (existsb (acks t to i) os).
Lemma emitted_cons n out n1 outs n' a b : emitted n [out] n1 a -> emitted n1 outs n' b -> emitted n (out :: outs) n' (a ++ b).
Proof.
  unfold emitted, sent, readys. cbn [flat_map]. intros H1 H2. rewrite app_nil_r in H1.
  rewrite app_assoc, H1, flat_map_app, <- !app_assoc, H2. reflexivity.
Qed.
Lemma filter_nlen_le {A} (f g : A -> bool) l : (forall x, f x = true -> g x = true) -> nlen (filter f l) <= nlen (filter g l).
Proof.
  intros H. induction l as [|a l IH]; cbn; [lia|]. destruct (f a) eqn:Hf; [rewrite (H _ Hf), !nlen_cons; lia|]. destruct (g a); rewrite ?nlen_cons; lia.
Qed.
Lemma lasts_app to a b : lasts to (a ++ b) = lasts to a ++ lasts to b.
Proof. apply flat_map_app. Qed.
Lemma window_step c t to o n n1 out p p1 q : minv c n -> nop_ok o n -> n_step o n = Ok (n1, out) -> to <> node_id n ->
  replicates t to n -> replicates t to n1 -> peer n to = Some p -> win p q -> peer n1 to = Some p1 ->
  exists new d q1, emitted n [out] n1 new /\ win p1 q1 /\ q ++ lasts to new = d ++ q1 /\
    nlen (filter (fun i => negb (acks t to i o)) d) <= nlen (filter (beat_resp t to) [o]).
Proof.
  intros M Hk H Hto (L & T & pa & Hpa & Hs) (L1 & T1 & pb & Hpb & Hs1) Hp W Hp1.
  assert (pa = p) by congruence. assert (pb = p1) by congruence. subst pa pb.
  assert (SL : still_leads n n1) by (repeat split; auto; congruence).
  assert (C : (exists cc, o = NApplyCC cc) \/ forall cc, o <> NApplyCC cc) by (destruct o; eauto; right; discriminate).
  destruct C as [[cc ->]|C].
  - destruct (peer_step_cc _ _ _ _ _ _ _ _ M Hk H SL Hto Hp Hp1 Hs1) as (pm & new & Em & (a & b & ->) & Fl & Hg).
    assert (Wm : win (set_p_active a (set_p_learner b p)) q) by exact W.
    destruct (pflow_win _ _ _ _ Fl Hg _ Wm) as (_ & q1 & W1 & Hq). destruct (Hq Hs1) as [_ ->].
    exists new, [], (q ++ lasts to new). split; auto. split; auto. split; auto. apply N.le_0_l.
  - destruct (peer_step _ _ _ _ _ _ _ M Hk H SL Hto Hp C) as (pm & new & p' & Gp & Em & Hin & Fl & Hg). assert (p' = p1) by congruence. subst p'.
    assert (Hg' : forall x, In x new -> m_type x = MsgApp -> appgood x) by (intros x X1 X2; apply (Hg x X1 X2)).
    destruct Hin as [[b ->]|(m & im & Hc & Hh & Hf & R)].
    + assert (Wm : win (set_p_active b p) q) by exact W.
      destruct (pflow_win _ _ _ _ Fl Hg' _ Wm) as (_ & q1 & W1 & Hq). destruct (Hq Hs1) as [_ ->].
      exists new, [], (q ++ lasts to new). split; auto. split; auto. split; auto. apply N.le_0_l.
    + destruct (rin_win _ _ _ _ R W) as (_ & qm & Wm & Hfr). destruct (pflow_win _ _ _ _ Fl Hg' _ Wm) as (_ & q1 & W1 & Hq).
      destruct (Hq Hs1) as [Hsm ->]. destruct (Hfr Hs Hsm) as (d & -> & Hd).
      exists new, d, (qm ++ lasts to new). split; auto. split; auto. split; [rewrite app_assoc; reflexivity|].
      destruct Hd as [->|Hd]; [apply N.le_0_l|].
      assert (Ho : o = NStep im /\ m_term im = t).
      { destruct Hh as [[-> Hh]| ->]; [|destruct R].
        assert (Ho : o = NStep m).
        { destruct o; cbn in Hc; try contradiction; try congruence; try (subst m; cbn in Hd; destruct Hd as [[Hd _]|[Hd _]]; discriminate).
          - exfalso. destruct Hc as [_ [Hc|[Hc|Hc]]]; destruct Hd as [[Hd _]|[Hd _]]; congruence.
          - exfalso. destruct Hc as (? & ? & _ & ->). destruct Hd as [[Hd _]|[Hd _]]; discriminate. }
        split; auto. change (node_term n) with (r_term (rn_raft n)) in T. destruct Hh as [Hh|Hh]; [|congruence].
        subst o. destruct Hk as [[_ Hk] _]. exfalso. destruct (Hk Hh) as [Y|[Y|Y]]; destruct Hd as [[Hd _]|[Hd _]]; congruence. }
      destruct Ho as [-> Ht]. destruct Hd as [(D1 & D2 & D3)|(D1 & x & ->)].
      * assert (Hz : filter (fun i => negb (acks t to i (NStep im))) d = []).
        { cbn [acks]. rewrite D1, D2, Hf, Ht, !N.eqb_refl. cbn. clear - D3. induction d as [|a d IH]; auto. cbn.
          destruct (N.leb_spec a (m_index im)) as [X|X]; [cbn; apply IH; intros; apply D3; right; auto|]. specialize (D3 a (or_introl eq_refl)). lia. }
        rewrite Hz. apply N.le_0_l.
      * cbn [filter beat_resp]. rewrite D1, Hf, Ht, !N.eqb_refl. cbn [mtype_eqb andb]. destruct (negb _); [apply N.le_refl|apply N.le_0_l].
Qed.
Lemma throughout_hd P os n : throughout P os n -> P n. Proof. destruct os; cbn; tauto. Qed.
Lemma window_run c t to os : forall n n' outs p q, minv c n -> n_run_ok os n -> n_run os n = Ok (n', outs) -> to <> node_id n ->
  throughout (replicates t to) os n -> peer n to = Some p -> win p q ->
  exists ms D p' q', emitted n outs n' ms /\ peer n' to = Some p' /\ win p' q' /\ minv c n' /\ node_role n' = RLeader /\ node_id n' = node_id n /\
    q ++ lasts to ms = D ++ q' /\
    nlen (filter (undone os t to) D) <= nlen (filter (beat_resp t to) os).
Proof.
  induction os as [|o os IH]; intros n n' outs p q M Hk H Hto Th Hp W; cbn [n_run] in H.
  - inv H. exists [], [], p, q. cbn in Th. destruct Th as [(Th & _) _]. unfold emitted, sent, readys. cbn. rewrite !app_nil_r.
    split; auto. split; auto. split; auto. split; auto. split; auto. split; auto. split; auto. apply N.le_0_l.
  - apply bind_ok in H. destruct H as ([n1 out] & H1 & H). apply bind_ok in H. destruct H as ([n2 outs2] & H2 & H). inv H.
    cbn [n_run_ok] in Hk. rewrite H1 in Hk. destruct Hk as [K1 K2]. cbn [throughout] in Th. destruct Th as [Th0 Th]. specialize (Th _ _ H1).
    pose proof (throughout_hd _ _ _ Th) as Th1. pose proof (minv_step _ _ _ _ _ K1 H1 M) as M1.
    pose proof Th1 as (_ & _ & p1 & Hp1 & _).
    destruct (window_step _ _ _ _ _ _ _ _ _ _ M K1 H1 Hto Th0 Th1 Hp W Hp1) as (new & d & q1 & Em & W1 & Hq & Hd).
    assert (Hid : node_id n1 = node_id n) by (change (node_id n1) with (k_id (r_cfg (rn_raft n1))); change (node_id n) with (k_id (r_cfg (rn_raft n))); rewrite (mi_cfg _ _ M), (mi_cfg _ _ M1); reflexivity).
    destruct (IH n1 n' outs2 p1 q1 M1 K2 H2 ltac:(congruence) Th Hp1 W1) as (ms & D & p' & q' & Em2 & Gp & W' & M' & R' & Hid' & Hq2 & HD).
    exists (new ++ ms), (d ++ D), p', q'. split; [eapply emitted_cons; eauto|]. split; auto. split; auto. split; auto. split; auto. split; [congruence|].
    split. { rewrite lasts_app, app_assoc, Hq, <- !app_assoc, Hq2. reflexivity. }
    rewrite filter_app, nlen_app.
    assert (A1 : nlen (filter (undone (o :: os) t to) d) <= nlen (filter (fun i => negb (acks t to i o)) d)).
    { apply filter_nlen_le. intros i. unfold undone. cbn [existsb]. destruct (acks t to i o); auto. }
    assert (A2 : nlen (filter (undone (o :: os) t to) D) <= nlen (filter (undone os t to) D)).
    { apply filter_nlen_le. intros i. unfold undone. cbn [existsb]. destruct (acks t to i o); cbn; auto. discriminate. }
    assert (A3 : nlen (filter (beat_resp t to) (o :: os)) = nlen (filter (beat_resp t to) [o]) + nlen (filter (beat_resp t to) os)).
    { change (o :: os) with ([o] ++ os). rewrite filter_app, nlen_app. reflexivity. }
    rewrite A3. lia.
Qed.
Lemma unacked_lasts os t to ms : nlen (filter (unacked os t to) ms) = nlen (filter (undone os t to) (lasts to ms)).
Proof.
  induction ms as [|m ms IH]; [reflexivity|]. change (m :: ms) with ([m] ++ ms). rewrite lasts_app, !filter_app, !nlen_app, <- IH. f_equal.
  unfold lasts, last_of, unacked, undone. cbn [filter flat_map]. rewrite app_nil_r.
  destruct (mtype_eqb (m_type m) MsgApp && (m_to m =? to)); cbn [andb filter]; [|reflexivity].
  destruct (rev (m_entries m)); cbn [filter]; [reflexivity|]. destruct (negb _); reflexivity.
Qed.
(** C45: while a leader keeps replicating to a follower, at most max_inflight of the append messages
    with entries it sent it in that time are unacknowledged - plus one for each heartbeat response
    received from that follower (it frees a slot of a full window so that replication can go on). *)
Theorem C45_unacked c n os n' outs t to ms :
  made c n -> n_run_ok os n -> n_run os n = Ok (n', outs) -> to <> node_id n ->
  throughout (replicates t to) os n -> emitted n outs n' ms ->
  nlen (filter (unacked os t to) ms) <= max_inflight c + nlen (filter (beat_resp t to) os).
Proof.
  intros Hm Hk H Hto Th Em. pose proof (made_inv _ _ Hm) as M. pose proof (throughout_hd _ _ _ Th) as (L & _ & p & Hp & _).
  pose proof Hp as Hp0. rewrite peer_get in Hp0 by auto. destruct (mi_win _ _ M L to p Hto Hp0) as [_ [q W]].
  destruct (window_run _ _ _ _ _ _ _ _ _ M Hk H Hto Th Hp W) as (ms2 & D & p' & q' & Em2 & Gp & W' & M' & R' & Hid & Hq & HD).
  assert (ms2 = ms) by (unfold emitted in *; rewrite <- Em in Em2; apply app_inv_head in Em2; auto). subst ms2.
  rewrite unacked_lasts.
  assert (A : nlen (filter (undone os t to) (lasts to ms)) <= nlen (filter (undone os t to) (q ++ lasts to ms))) by (rewrite filter_app, nlen_app; lia).
  assert (B : nlen q' <= max_inflight c).
  { rewrite peer_get in Gp by auto. assert (Hto' : to <> r_id (rn_raft n')) by (change (to <> node_id n'); congruence).
    destruct (mi_win _ _ M' R' to p' Hto' Gp) as [[A1 _] _]. destruct W' as (B1 & B2 & _). rewrite <- (mi_max _ _ M'), <- A1. destruct B1, B2. lia. }
  rewrite Hq, filter_app, nlen_app in A.
  assert (F : nlen (filter (undone os t to) q') <= nlen q') by (clear; induction q'; cbn; [lia|]; destruct (undone _ _ _ _); rewrite ?nlen_cons; lia).
  lia.
Qed.
End F.

(* ---- concrete cases ---- *)
Section FCase.
Context {E : Env}.
Definition replicatesb (t to : N) (n : rawnode) : bool :=
  role_eqb (node_role n) RLeader && (node_term n =? t) && match peer n to with Some p => pstate_eqb (p_state p) StReplicate | None => false end.
Lemma replicatesb_ok t to n : replicatesb t to n = true -> replicates t to n.
Proof.
  unfold replicatesb, replicates. intros H. apply andb_prop in H. destruct H as [H H3]. apply andb_prop in H. destruct H as [H1 H2].
  split; [destruct (node_role n); auto; discriminate|]. split; [apply N.eqb_eq; auto|]. destruct (peer n to) as [p|]; [|discriminate].
  exists p. split; auto. destruct (p_state p); auto; discriminate.
Qed.
Fixpoint throughoutb (P : rawnode -> bool) (os : list nop) (n : rawnode) : bool :=
  P n && match os with [] => true | o :: t => match n_step o n with Ok (n1, _) => throughoutb P t n1 | _ => true end end.
Lemma throughoutb_ok (Pb : rawnode -> bool) (P : rawnode -> Prop) : (forall n, Pb n = true -> P n) -> forall os n, throughoutb Pb os n = true -> throughout P os n.
Proof.
  intros HP. induction os as [|o os IH]; intros n H; cbn in *; apply andb_prop in H; destruct H as [H1 H2]; split; auto.
  intros n1 out Hs. rewrite Hs in H2. auto.
Qed.
(** The node after [pre], then the run [os]; everything it emits in [os]. *)
Definition flow_case (c : config) (tape : list N) (pre os : list nop) (chk : rawnode -> list msg -> rawnode -> bool) : bool :=
  match c_storage c with
  | None => false
  | Some s => storage_okb s &&
      match rn_new c tape with
      | Ok n0 => n_run_okb pre n0 &&
          match n_run pre n0 with
          | Ok (n, _) => n_run_okb os n && is_nil (pending n) &&
              match n_run os n with Ok (n', outs) => chk n (sent outs ++ pending n') n' | _ => false end
          | _ => false
          end
      | _ => false
      end
  end.
Lemma flow_case_ok c tape pre os chk : flow_case c tape pre os chk = true ->
  exists n n' outs ms, made c n /\ n_run_ok os n /\ n_run os n = Ok (n', outs) /\ emitted n outs n' ms /\ chk n ms n' = true.
Proof.
  unfold flow_case. destruct (c_storage c) as [s|] eqn:Hs; [|discriminate]. intros H. apply andb_prop in H. destruct H as [H1 H].
  destruct (rn_new c tape) as [n0| | |] eqn:H0; try discriminate. apply andb_prop in H. destruct H as [H2 H].
  destruct (n_run pre n0) as [[n outs]| | |] eqn:Hr; try discriminate. apply andb_prop in H. destruct H as [H3 H]. apply andb_prop in H3. destruct H3 as [H3 H4].
  destruct (n_run os n) as [[n' outs']| | |] eqn:Ho; try discriminate.
  exists n, n', outs', (sent outs' ++ pending n'). split.
  { exists tape, s, n0, pre, outs. split; auto. split; [apply storage_okb_ok; auto|]. split; auto. split; [apply n_run_okb_ok; auto|auto]. }
  split; [apply n_run_okb_ok; auto|]. split; auto. split; auto. unfold emitted. destruct (pending n); [reflexivity|discriminate].
Qed.
End FCase.
#[local] Existing Instance ex_env.
Definition ex_beat_resp (from term : N) : msg := mkMsg MsgHeartbeatResp 1 from term 0 0 [] 0 empty_snapshot false 0 EmptyString.
Definition ex_repl : list nop := ex_elect ++ [NStep (ex_app_resp 2 3 8); NHandle].
(** Six proposals, none acknowledged: exactly max_inflight = 4 append messages; two heartbeat responses let two more out. *)
Definition ex_flood : list nop := [NPropose "a"; NPropose "b"; NPropose "c"; NPropose "d"; NPropose "e"; NPropose "f"; NHandle].
Example C45_example_unacked : exists n n' outs ms, @made ex_env (ex_cfg 1) n /\ @n_run_ok ex_env ex_flood n /\ @n_run ex_env ex_flood n = Ok (n', outs) /\
  @emitted ex_env n outs n' ms /\
  (throughoutb (replicatesb 3 2) ex_flood n && (nlen (filter (unacked ex_flood 3 2) ms) =? max_inflight (ex_cfg 1)))%bool = true.
Proof. apply (flow_case_ok (ex_cfg 1) ex_tape ex_repl ex_flood (fun n ms _ => throughoutb (replicatesb 3 2) ex_flood n && (nlen (filter (unacked ex_flood 3 2) ms) =? max_inflight (ex_cfg 1)))). vm_compute. reflexivity. Qed.
Definition ex_flood2 : list nop := ex_flood ++ [NStep (ex_beat_resp 2 3); NStep (ex_beat_resp 2 3); NHandle].
Example C45_example_beats : exists n n' outs ms, @made ex_env (ex_cfg 1) n /\ @n_run_ok ex_env ex_flood2 n /\ @n_run ex_env ex_flood2 n = Ok (n', outs) /\
  @emitted ex_env n outs n' ms /\
  (throughoutb (replicatesb 3 2) ex_flood2 n && (nlen (filter (unacked ex_flood2 3 2) ms) =? 4 + 1))%bool = true.
Proof. apply (flow_case_ok (ex_cfg 1) ex_tape ex_repl ex_flood2 (fun n ms _ => throughoutb (replicatesb 3 2) ex_flood2 n && (nlen (filter (unacked ex_flood2 3 2) ms) =? 4 + 1))). vm_compute. reflexivity. Qed.
(** A paused follower: its window is full when the next proposal comes. *)
Example C45_example_paused : exists n n' outs ms, @made ex_env (ex_cfg 1) n /\ @n_run_ok ex_env [NPropose "x"] n /\ @n_run ex_env [NPropose "x"] n = Ok (n', outs) /\
  @emitted ex_env n outs n' ms /\
  (role_eqb (node_role n') RLeader && match peer n 2 with Some p => pstate_eqb (p_state p) StReplicate && (i_count (p_infl p) =? 4) | None => false end &&
   match peer n 3 with Some p => pstate_eqb (p_state p) StProbe && p_probe_sent p | None => false end && is_nil ms)%bool = true.
Proof. apply (flow_case_ok (ex_cfg 1) ex_tape (ex_repl ++ ex_flood) [NPropose "x"] (fun n ms n' => role_eqb (node_role n') RLeader && match peer n 2 with Some p => pstate_eqb (p_state p) StReplicate && (i_count (p_infl p) =? 4) | None => false end &&
   match peer n 3 with Some p => pstate_eqb (p_state p) StProbe && p_probe_sent p | None => false end && is_nil ms)%bool). vm_compute. reflexivity. Qed.
(** Content and pipelining: two proposals to a replicating follower, messages (8..] and (9..]. *)
Example C45_example_pipelined : exists n n' outs ms, @made ex_env (ex_cfg 1) n /\ @n_run_ok ex_env [NPropose "x"; NPropose "y"] n /\ @n_run ex_env [NPropose "x"; NPropose "y"] n = Ok (n', outs) /\
  @emitted ex_env n outs n' ms /\
  (match ms with
   | [a; b] => mtype_eqb (m_type a) MsgApp && (m_index a =? 8) && (nlen (m_entries a) =? 1) && (m_logterm a =? 3) && mtype_eqb (m_type b) MsgApp && (m_index b =? 9) && (nlen (m_entries b) =? 1)
   | _ => false end)%bool = true.
Proof. apply (flow_case_ok (ex_cfg 1) ex_tape ex_repl [NPropose "x"; NPropose "y"] (fun n ms n' => match ms with
   | [a; b] => mtype_eqb (m_type a) MsgApp && (m_index a =? 8) && (nlen (m_entries a) =? 1) && (m_logterm a =? 3) && mtype_eqb (m_type b) MsgApp && (m_index b =? 9) && (nlen (m_entries b) =? 1)
   | _ => false end)%bool). vm_compute. reflexivity. Qed.
