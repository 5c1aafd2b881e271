(** A leader's own Progress: Match covers its log and Next is above Match, so nothing is ever sent to
    itself. *)
From Coq Require Import Permutation.
From Verif Require Import Prelude Types M_Util M_Quorum M_Inflights M_Progress M_Tracker.
From Verif Require Import M_Storage M_Unstable M_Log M_ReadOnly M_ConfPb M_ConfChange M_Raft M_RawNode.
From Verif Require Import Spec_Inflights P_Inflights Spec_Log P_Lists P_RaftLogSeq P_Log P_Frame P_Prim Sys_Node P_Node P_Fields P_Vote Spec_Node P_New P_NodeLog P_Time P_Handle P_NodeRun P_Emit P_Lead P_Transfer P_Ack P_Flow P_Window P_FlowRun.
From Verif Require Import Spec_ConfChange Sys_ConfChange P_ConfChange P_Conf Prop_ConfChange P_Commit Sys_Cluster R_Switch P_Self R_Elig.

Section RSelf.
Context {E : Env}.

Definition smn (r : raft) : Prop := r_state r = RLeader -> forall p, trk_get (r_id r) (r_trk r) = Some p -> p_match p < p_next p.

Lemma pflow_mn to p ms p' : pflow to p ms p' -> (forall m, In m ms -> m_type m = MsgApp -> appgood m) -> mnle p p'.
Proof.
  induction 1 as [p|p m ms p' Ho Hp IH|p m ms p1 p' Hto Hty Hpa Hi Haa Hp IH|p m ms p' Hto Hty Hpa Hac Hp IH]; intros Hg Hmn; auto.
  - apply IH; auto. intros; apply Hg; [right|]; auto.
  - apply IH; [intros; apply Hg; [right|]; auto|]. assert (Hgm : appgood m) by (apply Hg; [left; auto|auto]).
    unfold after_app in Haa. destruct (rev (m_entries m)) as [|e t] eqn:Hr; [subst p1; auto|]. specialize (Hgm _ _ _ Hi Hr).
    destruct (p_state p); [subst p1; exact Hmn| |contradiction]. destruct Haa as (inf & _ & ->). cbn. lia.
  - apply IH; [intros; apply Hg; [right|]; auto|]. exact Hmn.
Qed.
Lemma mnle_rin m p p' : ~ kmsg m -> rin m p p' -> mnle p p'.
Proof.
  unfold rin, kmsg. intros Hk H Hmn. destruct (m_type m); try contradiction; try (exfalso; apply Hk; exact I).
  - unfold onunreach in H. subst p'. destruct (pstate_eqb _ _); [|auto]. unfold pr_become_probe. destruct (p_state p); cbn; lia.
  - unfold onstatus in H. destruct (p_state p) eqn:Hs; subst p'; auto. unfold pr_become_probe. destruct (m_reject m); cbn; rewrite Hs; cbn; lia.
Qed.
Lemma lfl_mn m r r' : lfl m r r' -> lwf (r_log r') -> r_state r = RLeader -> (kmsg m -> m_from m <> r_id r) -> smn r -> smn r'.
Proof.
  intros (r1 & new & T & F & M & Hs & Hlog & Hc & Hk & Hg) Hw Hl Hkm I _ p Hp. destruct T as [T1 T2 T3 T4 T5 T6 T7].
  assert (Hid : r_id r' = r_id r) by (unfold r_id; congruence). rewrite Hid in Hp. specialize (Hg _ _ Hp).
  destruct (trk_get (r_id r) (r_trk r1)) as [p1|] eqn:G1; [|congruence]. destruct (F _ _ _ G1 M) as (p2 & G2 & Pf).
  assert (p2 = p) by congruence. subst p2. destruct (T7 p1 eq_refl) as (p0 & G0 & X).
  apply (pflow_mn _ _ _ _ Pf); [intros x Hx Hty; eapply smsg_app_good; [rewrite <- Hlog; exact Hw|apply Hs; auto|auto]|].
  specialize (I Hl _ G0). destruct X as [X|[X1 X2]]; [apply X; exact I|].
  refine (mnle_rin m p0 p1 _ X2 I). intros Y. exact (Hkm Y X1).
Qed.
Lemma lead_smn r r' : become_leader r = Ok r' -> smn r'.
Proof.
  intros Hb _ p Hp. apply become_leader_inv in Hb. destruct Hb as (pr & r1 & u & _ & _ & B2 & ->).
  change (trk_get (r_id r1) (r_trk r1) = Some p) in Hp. hide (reset (r_term r) r) r0 Er0. clear Er0.
  hide (lead_base pr r0) rb Erb. apply lead_base_fields in Erb. destruct Erb as (L1 & L2).
  apply (append_taken (new_msg MsgHup)) in B2. destruct B2 as [T1 T2 T3 T4 T5 T6 T7].
  assert (Hid : r_id r1 = r_id rb) by (unfold r_id; congruence). rewrite Hid in Hp.
  destruct (T7 _ Hp) as (p0 & G0 & [X|[_ []]]). apply X. unfold trk_get in G0. rewrite L2 in G0.
  assert (Hid2 : r_id rb = r_id r0) by (unfold r_id; congruence). rewrite Hid2, mget_mset, N.eqb_refl in G0.
  injection G0 as <-. unfold pr_become_replicate. cbn. lia.
Qed.
Lemma sends_smn r r' : sends r r' -> lwf (r_log r') -> r_state r = RLeader -> smn r -> smn r'.
Proof. intros S W L. apply (lfl_mn (new_msg MsgHup)); auto. apply lflow_lfl, lflow_sends; auto. Qed.

(** A call other than ApplyConfChange. *)
Lemma n_step_smn o n n' out : nop_ok o n -> dinv n -> vself (rn_raft n) -> n_step o n = Ok (n', out) -> (forall cc, o <> NApplyCC cc) ->
  (forall m, o = NStep m -> kmsg m -> m_from m <> r_id (rn_raft n)) -> smn (rn_raft n) -> smn (rn_raft n').
Proof.
  intros Hk D V H C Hm I. pose proof (n_step_dinv _ _ _ _ Hk H D) as [D' _]. pose proof (li_wf _ (ni_log _ (di_ninv _ D'))) as LI.
  destruct (plain_dec o) as [Hp|Hp].
  - intros Hl. revert Hl. intros Hl. destruct (n_step_leads _ _ _ _ Hp H C Hl) as [[L T]|(a & b & A1 & A2 & A3 & A4 & A5 & A6 & A7 & A8)].
    + destruct (n_step_flow _ _ _ _ Hp (proj1 Hk) V H L Hl T) as (r0 & m & im & S & Hc & Hh & F).
      assert (r0 = rn_raft n) by (destruct S as [S|(cc & _ & _ & _ & S & _)]; [auto|destruct (C _ S)]). subst r0.
      revert Hl. refine (lfl_mn im _ _ F LI L _ I). intros Y. destruct Hh as [[-> _]| ->]; [|destruct Y].
      destruct o; cbn in Hc; try (subst m; destruct Y; fail); try contradiction.
      * destruct Hc as [_ [X|[X|X]]]; unfold kmsg in Y; rewrite X in Y; destruct Y.
      * destruct Hc as (t & d & _ & ->). destruct Y.
      * subst m. apply (Hm _ eq_refl); auto.
    + assert (r_state b = RLeader) by (apply become_leader_all in A7; decompose [and] A7; auto).
      revert Hl. eapply sends_smn; eauto. eapply lead_smn; eauto.
  - intros Hl p Hp'.
    assert (K : (trk_get (r_id (rn_raft n')) (r_trk (rn_raft n')) = trk_get (r_id (rn_raft n)) (r_trk (rn_raft n)) /\ r_state (rn_raft n') = r_state (rn_raft n)) \/ o = NAdvance \/ o = NHandle).
    { destruct o; auto; try (exfalso; apply Hp; exact Logic.I); left; cbn [n_step] in H; try (apply Ok_inj, pair_equal_spec in H; destruct H as [<- _]; split; reflexivity); apply bind_ok in H.
      - destruct H as ([n1 rd] & H & Hx). inv Hx. apply get_ready_inv in H. destruct H as (_ & -> & _). split; reflexivity.
      - destruct H as ([s e] & H & Hx). inv Hx. split; reflexivity.
      - destruct H as ([s e] & H & Hx). inv Hx. split; reflexivity. }
    destruct K as [[K1 K2]|K]; [rewrite K1 in Hp'; apply I; auto; congruence|].
    assert (Adv : forall k k', rn_advance k = Ok k' -> rn_raft k' = rn_raft n' -> (trk_get (r_id (rn_raft k)) (r_trk (rn_raft k)) = trk_get (r_id (rn_raft n)) (r_trk (rn_raft n)) /\ r_state (rn_raft k) = r_state (rn_raft n)) -> p_match p < p_next p).
    { intros k k' Ha Hk' [K1 K2]. rewrite <- Hk' in *. clear K. unfold rn_advance in Ha. destruct (rn_ready k) as [rd|]; [|discriminate]. apply bind_ok in Ha. destruct Ha as (r & Ha & Hx). apply Ok_inj in Hx.
      assert (Er : rn_raft k' = r) by (rewrite <- Hx; reflexivity). rewrite Er in *.
      unfold raft_advance in Ha. apply bind_ok in Ha. destruct Ha as (r1 & H1 & Ha). apply bind_ok in Ha. destruct Ha as (r2 & H2 & Ha).
      destruct (reduce_uncommitted_fields (rd_committed rd) (rn_raft k)) as [u Hu]. rewrite Hu in H1. clear Hu.
      assert (A2 : r_state r2 = r_state r1 /\ r_cfg r2 = r_cfg r1 /\ r_trk r2 = r_trk r1).
      { destruct (rev (rd_ents rd)); [inv H2; auto|]. apply bind_ok in H2. destruct H2 as (l2 & _ & H2). inv H2. auto. }
      assert (A3 : r_state r = r_state r2 /\ r_cfg r = r_cfg r2 /\ r_trk r = r_trk r2) by (destruct (_ =? 0) in Ha; inv Ha; auto).
      destruct A2 as (C1&C2&C3), A3 as (D1&D2&D3).
      assert (Hp1 : trk_get (r_id r1) (r_trk r1) = Some p) by (unfold r_id in *; rewrite <- C2, <- D2, <- C3, <- D3; exact Hp').
      assert (L1 : r_state r1 = RLeader) by congruence. clear Hp' D1 D2 D3 C1 C2 C3 Ha H2.
      match type of H1 with (if ?b then _ else _) = _ => destruct b end;
        [|apply Ok_inj in H1; subst r1; apply I; [rewrite <- K2; exact L1|rewrite <- K1; exact Hp1]].
      apply bind_ok in H1. destruct H1 as (l & _ & H1). unfold maybe_auto_leave in H1.
      match type of H1 with (if ?b then _ else _) = _ => destruct b end;
        [|apply Ok_inj in H1; subst r1; apply I; [rewrite <- K2; exact L1|rewrite <- K1; exact Hp1]].
      apply bind_ok in H1. destruct H1 as ([ra|] & H1 & Hx'); [|discriminate]. apply Ok_inj in Hx'. subst r1.
      apply (append_taken (new_msg MsgHup)) in H1. destruct H1 as [T1 T2 T3 T4 T5 T6 T7].
      change (r_id (set_r_pending_conf (r_last ra) ra)) with (r_id ra) in Hp1. cbn [r_trk set_r_pending_conf] in Hp1.
      assert (Hid : r_id ra = r_id (rn_raft k)) by (unfold r_id; rewrite T4; reflexivity). rewrite Hid in Hp1.
      destruct (T7 p Hp1) as (p0 & G0 & [X|[_ []]]). apply X. apply I; [|rewrite <- K1; exact G0]. rewrite <- K2. cbn [r_state set_r_pending_conf] in L1. rewrite T2 in L1. exact L1. }
    destruct K as [-> | ->]; cbn [n_step] in H; apply bind_ok in H.
    + destruct H as (n1 & H & Hx). inv Hx. eapply Adv; eauto.
    + destruct H as ([n1 rd] & H & Hx). apply Ok_inj, pair_equal_spec in Hx. destruct Hx as [<- _]. unfold n_handle in H. apply bind_ok in H. destruct H as ([n2 rd2] & H & H1).
      apply bind_ok in H1. destruct H1 as (s & _ & H1). apply bind_ok in H1. destruct H1 as (n3 & H1 & Hx). apply Ok_inj, pair_equal_spec in Hx. destruct Hx as [Hx _]. subst n3.
      apply get_ready_inv in H. destruct H as (_ & H & _). eapply Adv; [exact H1|reflexivity|]. cbn. rewrite H. split; reflexivity.
Qed.
End RSelf.
