(** A leader in a joint configuration that is to be left automatically never runs dry. *)
From Verif Require Import Prelude Types M_Util M_Quorum M_Inflights M_Progress M_Tracker.
From Verif Require Import M_Storage M_Unstable M_Log M_ReadOnly M_ConfPb M_ConfChange M_Raft M_RawNode.
From Verif Require Import P_Inflights Spec_Log P_Lists P_Storage P_Log Spec_Storage Sys_Storage P_StorageSeq Spec_RaftLog Sys_RaftLog P_RaftLogSeq.
From Verif Require Import P_Frame P_Prim Sys_Node P_Node P_Fields P_New P_Persist P_NodeLog P_Handle P_NodeRun P_Emit Spec_Node Spec_Prop Prop_Prop Sys_Loop P_Loop Spec_Leave P_Conf R_Elig P_Lead Spec_ConfChange Prop_Deliver.

Section Leave.
Context {E : Env}.
(** [B]: the last index of the log before this leader's own entries. *)
Record kinv0 (B : N) (r : raft) : Prop := {
  ki_conf : forall i e, a_entry (log_abs (r_log r)) i = Some e -> conf_change e -> i <= r_pending_conf r;
  ki_last : r_pending_conf r <= a_last (log_abs (r_log r));
  ki_base : B < a_last (log_abs (r_log r));
  ki_uniq : B < r_pending_conf r -> forall i e, a_entry (log_abs (r_log r)) i = Some e -> conf_change e -> l_applied (r_log r) < i -> i = r_pending_conf r;
  ki_auto : tc_auto_leave (t_config (r_trk r)) = true -> l_applied (r_log r) <= r_pending_conf r /\
    (r_pending_conf r <= B \/ (l_applied (r_log r) < r_pending_conf r /\
      exists e, a_entry (log_abs (r_log r)) (r_pending_conf r) = Some e /\ leaves e /\ e_term e = r_term r))
}.
Definition kinv (r : raft) : Prop := r_state r = RLeader -> exists B, kinv0 B r.
Lemma kinv0_eq B r r' : log_abs (r_log r') = log_abs (r_log r) -> l_applied (r_log r') = l_applied (r_log r) -> r_term r' = r_term r ->
  r_pending_conf r' = r_pending_conf r -> t_config (r_trk r') = t_config (r_trk r) -> kinv0 B r -> kinv0 B r'.
Proof. intros H1 H2 H3 H4 H5 [A C D F G]. constructor; rewrite ?H1, ?H2, ?H3, ?H4, ?H5; auto. Qed.

Lemma a_entry_le a i e : a_entry a i = Some e -> i <= a_last a.
Proof. unfold a_entry. destruct (_ <? _); [|discriminate]. intros H. apply nnth_Some_lt in H. unfold a_last. lia. Qed.
Lemma lead_kinv r r' : ninv r -> 0 < r_term r -> become_leader r = Ok r' -> exists B, kinv0 B r'.
Proof.
  intros Hn Ht Hb. pose proof (li_wf _ (ni_log _ Hn)) as W. pose proof (lwf_app _ W) as Wa. pose proof (lwf_com _ W) as Wc.
  assert (Hlast : r_last r = a_last (log_abs (r_log r))) by (unfold r_last; apply log_last_abs, lwf_0; auto).
  destruct (become_leader_side _ _ Hb) as [_ B2]. rewrite Hlast in B2.
  apply become_leader_inv in Hb. destruct Hb as (pr & r1 & u & _ & H2 & H3 & ->).
  pose proof (reset_id (r_term r) r) as Hid. hide (reset (r_term r) r) r0 Er0.
  destruct (reset_fields _ _ _ Er0) as (A1&A2&A3&A4&A5&A6&A7&A8&A9&A10&A11). clear Er0.
  assert (Lb : r_log (lead_base pr r0) = r_log r) by (rewrite <- A4; reflexivity).
  assert (Tb : r_term (lead_base pr r0) = r_term r) by (rewrite <- A2; reflexivity).
  destruct (append_log [empty_entry] (lead_base pr r0) r1) as (_ & L2 & _ & L4 & _); [rewrite Lb; apply Hn|rewrite Tb; auto|exact H3|].
  cbv zeta in L2, L4. rewrite Lb, Tb in L2. rewrite Lb in L4. clear H2 H3.
  change (r_pending_conf r1 = a_last (log_abs (r_log r))) in B2.
  assert (Hl1 : a_last (log_abs (r_log r1)) = a_last (log_abs (r_log r)) + 1) by (rewrite L2, a_last_app, stamp_len; reflexivity).
  exists (a_last (log_abs (r_log r))).
  constructor; cbn [r_log r_pending_conf r_trk set_r_uncommitted].
  - intros i e He Hc. rewrite B2. destruct (N.le_gt_cases i (a_last (log_abs (r_log r)))) as [Hi|Hi]; auto. exfalso.
    rewrite L2 in He. apply a_entry_app_new in He; auto. rewrite stamp_nnth in He.
    destruct (nnth [empty_entry] _) as [x|] eqn:Hx; [|discriminate]. apply nnth_In in Hx. destruct Hx as [<-|[]]. inv He. apply Hc. reflexivity.
  - lia.
  - lia.
  - lia.
  - intros _. rewrite L4, B2. split; [lia|left; lia].
Qed.
(** One step: a leader of the same term keeps the invariant, a new one starts it. *)
Lemma prim_kinv im r r' : log_msg_wf im -> ninv r -> m_type im <> MsgProp -> prim im r r' -> r_state r' = RLeader ->
  (r_state r = RLeader /\ forall B, kinv0 B r -> kinv0 B r') \/ (r_state r <> RLeader /\ exists B, kinv0 B r').
Proof.
  intros Hwf Hn HX Hp.
  assert (Q : forall r', log_abs (r_log r') = log_abs (r_log r) -> l_applied (r_log r') = l_applied (r_log r) -> r_term r' = r_term r -> r_state r' = r_state r ->
    r_pending_conf r' = r_pending_conf r -> t_config (r_trk r') = t_config (r_trk r) -> r_state r' = RLeader ->
    (r_state r = RLeader /\ forall B, kinv0 B r -> kinv0 B r') \/ (r_state r <> RLeader /\ exists B, kinv0 B r')).
  { intros a A1 A2 A3 A4 A5 A6 A7. left. split; [congruence|]. intros B. apply kinv0_eq; auto. }
  revert HX. destruct Hp as [r' HK|r' Hs HS|m Hm|t0 l Ht Hl|r' Hc|r' Hc|Hs|Hs|to lt ctx Hs Hlt Hz|Ht Hmt Hz Hv Hu|r' Hs Hw Hb|es r1 r' Hs Ht Hne Hf Ha|p p' Hs Ht Hr Hmt Hg H1 H2 H3 H4 H5|r' b Hs Hc|Ht Hmt Hs|l last Ht Hmt Hs Hc Ha|l Ht Hmt Hs Hc|l Ht Hmt Hs Hc Hm Hl|r1 Ht Hmt Hs Hr]; intros HX;
    try (apply Q; reflexivity; fail); try contradiction.
  - destruct HK. apply Q; congruence.
  - destruct HS as [[] _ _ _]. apply Q; congruence.
  - intros X. discriminate X.
  - assert (A : r_state r' = RCandidate) by apply (become_candidate_all _ _ Hc). congruence.
  - pose proof (become_pre_all _ _ Hc) as (A0&A1&A2&A3&A4&A5&_). congruence.
  - unfold poll, trk_record_vote. cbn [fst]. destruct (mget _ _); apply Q; reflexivity.
  - unfold poll, trk_record_vote. cbn [fst]. destruct (mget _ _); apply Q; reflexivity.
  - intros _. right. split; [congruence|]. eapply lead_kinv; eauto. apply (ni_term _ Hn). auto.
  - destruct (commit_log _ _ _ (ni_log _ Hn) (ni_term _ Hn (or_introl Hs)) Hc) as (mci & _ & _ & -> & _). destruct b; apply Q; reflexivity.
  - cbn. congruence.
  - cbn. congruence.
  - cbn. congruence.
  - apply restore_inv in Hr; auto. destruct Hr as (_ & _ & _ & cp & pr & pr' & b & _ & _ & _ & _ & ->). cbn. congruence.
Qed.

Lemma filter_prop_new es : forall i r es' r', filter_prop i es r = Ok (es', r') ->
  r_pending_conf r' = r_pending_conf r \/ exists k e, nnth es' k = Some e /\ conf_change e /\ r_pending_conf r' = r_last r + i + k + 1.
Proof.
  induction es as [|e es IH]; intros i r es' r' H; cbn [filter_prop] in H; [inv H; auto|].
  apply bind_ok in H. destruct H as (o & Ho & H). apply entry_cc_conf in Ho.
  assert (K : forall x r1, r_last r1 = r_last r -> (r_pending_conf r1 = r_pending_conf r \/ (conf_change x /\ r_pending_conf r1 = r_last r + i + 1)) ->
     ('(t', r'') <- filter_prop (i + 1) es r1 ;; Ok (x :: t', r'')) = Ok (es', r') ->
     r_pending_conf r' = r_pending_conf r \/ exists k e, nnth es' k = Some e /\ conf_change e /\ r_pending_conf r' = r_last r + i + k + 1).
  { intros x r1 L1 P1 X. apply bind_ok in X. destruct X as ([t' r''] & X & Y). inv Y. apply IH in X. destruct X as [X|(k & e1 & X1 & X2 & X3)].
    - destruct P1 as [P1|[P0 P1]]; [left; congruence|]. right. exists 0, x. rewrite nnth_cons0. split; [auto|]. split; [auto|]. lia.
    - right. exists (k + 1), e1. rewrite nnth_consS by lia. replace (k + 1 - 1) with k by lia. split; [auto|]. split; [auto|]. lia. }
  destruct o as [cc|]; [destruct (cc_refused _ _ _)|]; cbv iota beta in H; revert H; apply K; auto; right; split; auto; reflexivity.
Qed.
Lemma Forall2_nnth {A B} (P : A -> B -> Prop) l l' k y : Forall2 P l l' -> nnth l' k = Some y -> exists x, nnth l k = Some x /\ P x y.
Proof.
  unfold nnth. intros F. generalize (N.to_nat k). induction F as [|a b l l' H1 H2 IH]; intros [|j]; cbn; try discriminate; eauto.
  intros X. inv X. eauto.
Qed.
Lemma filtered_leaves x y : filtered true x y -> (exists o, entry_cc x = Ok o) -> conf_change y -> leaves y.
Proof.
  intros [[-> H]|[_ ->]] [o Ho] Hc; [|exfalso; apply Hc; reflexivity]. unfold leaves, conf_change in *. unfold entry_cc in *.
  destruct (e_type x); [congruence| |].
  - exfalso. destruct (dec_cc (e_data x)) as [c|]; [|discriminate]. specialize (H _ eq_refl). discriminate H.
  - split; [reflexivity|]. right. destruct (dec_ccv2 (e_data x)) as [v|]; [|discriminate]. specialize (H _ eq_refl). exists v. split; auto.
    destruct (c2_changes v); [auto|discriminate].
Qed.

Lemma auto_joint r : tok r -> tc_auto_leave (t_config (r_trk r)) = true -> tc_joint (t_config (r_trk r)) = true.
Proof.
  intros T Ha. unfold tc_joint. destruct (tc_outgoing (t_config (r_trk r))) eqn:Ho; [|reflexivity]. exfalso.
  pose proof (cw_simple _ _ T Ho) as X. intuition congruence.
Qed.

(** A proposal that is not dropped. *)
Lemma prop_kinv m r r' e : ninv r -> tok r -> m_type m = MsgProp -> step m r = Ok (r', e) -> e <> Some EDropped -> r_state r' = RLeader ->
  r_state r = RLeader /\ forall B, kinv0 B r -> kinv0 B r'.
Proof.
  intros Hn T Hm H He Hr'.
  assert (F : forall a, r_state a = RFollower -> step_dispatch m a = Ok (r', e) -> r_state r' <> RLeader).
  { intros a Ha X. unfold step_dispatch in X. rewrite Hm, Ha in X. unfold step_follower in X. rewrite Hm in X.
    destruct (N.eqb_spec (r_lead a) 0); [inv X; congruence|]. destruct (k_disable_fwd _); [inv X; congruence|].
    unfold okr in X. apply bind_ok in X. destruct X as (r1 & X & Y). inv Y. apply send_ok in X. destruct X as [-> _]. cbn. congruence. }
  assert (D : step_dispatch m r = Ok (r', e) -> r_state r = RLeader /\ forall B, kinv0 B r -> kinv0 B r').
  { intros X. destruct (r_state r) eqn:Hs; [exfalso; eapply F; eauto| | |];
      unfold step_dispatch in X; rewrite Hm, Hs in X.
    - unfold step_candidate in X. rewrite Hm in X. inv X. congruence.
    - split; [reflexivity|]. intros B K. unfold step_leader in X. rewrite Hm in X. unfold leader_prop in X. destruct (is_nil (m_entries m)); [discriminate|].
      destruct (trk_get _ _); [|inv X; auto]. destruct (negb _); [inv X; auto|].
      apply bind_ok in X. destruct X as ([es r1] & Hf & X). apply bind_ok in X. destruct X as ([r2|] & Ha & X); [|inv X; congruence].
      unfold okr in X. apply bind_ok in X. destruct X as (r3 & X & Y). inv Y. apply bcast_append_sends in X.
      pose proof (li_wf _ (ni_log _ Hn)) as W. pose proof (lwf_app _ W) as Wa. pose proof (lwf_com _ W) as Wc.
      assert (Hlast : r_last r = a_last (log_abs (r_log r))) by (unfold r_last; apply log_last_abs, lwf_0; auto).
      destruct (filter_prop_spec _ _ _ _ _ Hf) as [F0 FC]; [lia|]. destruct (filter_prop_fields _ _ _ _ _ Hf) as [k E1]. pose proof (filter_prop_new _ _ _ _ _ Hf) as FN.
      assert (L1 : r_log r1 = r_log r /\ r_term r1 = r_term r /\ r_trk r1 = r_trk r) by (rewrite E1; auto 10). destruct L1 as (L1 & L2 & L3).
      destruct (append_unc _ _ _ Ha) as (U1 & U2 & U3 & U4 & U5).
      destruct (append_log es r1 r2) as (_ & A2 & _ & A4 & _); [rewrite L1; apply Hn|rewrite L2; apply (ni_term _ Hn); auto|exact Ha|]. cbv zeta in A2, A4.
      rewrite L1, L2 in A2. rewrite L1 in A4.
      destruct (append_entry_fields _ _ _ Ha) as (lx & px & ux & E2).
      apply (kinv0_eq B r2); try (destruct X as [[] _ _ _]; congruence).
      destruct K as [K1 K2 K4 K5 K3].
      assert (Hl2 : a_last (log_abs (r_log r2)) = a_last (log_abs (r_log r)) + nlen es) by (rewrite A2, a_last_app, stamp_len; reflexivity).
      assert (Hcf : t_config (r_trk r2) = t_config (r_trk r)) by (rewrite <- L3, E2; reflexivity).
      assert (Htm : r_term r2 = r_term r) by (rewrite <- L2, E2; reflexivity).
      assert (HP : r_pending_conf r <= r_pending_conf r2 <= a_last (log_abs (r_log r2))).
      { rewrite U5. destruct FC as [[FC _]|(P & k0 & P1 & P2 & _)]; [lia|]. lia. }
      assert (New : forall i x, a_entry (log_abs (r_log r2)) i = Some x -> a_last (log_abs (r_log r)) < i -> conf_change x -> exists y, nnth es (i - a_last (log_abs (r_log r)) - 1) = Some y /\ conf_change y).
      { intros i x Hx Hi Hc. rewrite A2 in Hx. apply a_entry_app_new in Hx; auto. rewrite stamp_nnth in Hx.
        destruct (nnth es (i - a_last (log_abs (r_log r)) - 1)) as [y|] eqn:Hy; [|discriminate]. exists y. split; [reflexivity|]. cbn in Hx. inv Hx. exact Hc. }
      assert (Old : forall i x, a_entry (log_abs (r_log r2)) i = Some x -> i <= a_last (log_abs (r_log r)) -> a_entry (log_abs (r_log r)) i = Some x).
      { intros i x Hx Hi. rewrite A2 in Hx. rewrite a_entry_app in Hx by auto. exact Hx. }
      constructor.
      + intros i x Hx Hc. destruct (N.le_gt_cases i (a_last (log_abs (r_log r)))) as [Hi|Hi]; [pose proof (K1 _ _ (Old _ _ Hx Hi) Hc); lia|].
        destruct (New _ _ Hx Hi Hc) as (y & Hy & Hcy).
        destruct FC as [[_ FC]|(_ & k0 & FC1 & FC2 & FC3)].
        { rewrite Forall_forall in FC. apply nnth_In in Hy. apply FC in Hy. contradiction. }
        specialize (FC3 _ _ Hy Hcy). lia.
      + lia.
      + lia.
      + intros HB i x Hx Hc Hi0. rewrite A4 in Hi0. destruct (N.le_gt_cases i (a_last (log_abs (r_log r)))) as [Hi|Hi].
        * pose proof (Old _ _ Hx Hi) as Hx'. pose proof (K1 _ _ Hx' Hc). rewrite U5 in *. destruct FC as [[FC _]|(P & k0 & P1 & P2 & _)]; [|lia].
          rewrite FC in *. eapply K5; eauto.
        * destruct (New _ _ Hx Hi Hc) as (y & Hy & Hcy). rewrite U5 in *.
          destruct FC as [[_ FC]|(_ & k0 & FC1 & FC2 & FC3)].
          { rewrite Forall_forall in FC. apply nnth_In in Hy. apply FC in Hy. contradiction. }
          specialize (FC3 _ _ Hy Hcy). lia.
      + intros Hau. rewrite Hcf in Hau. specialize (K3 Hau). rewrite A4, U5, Htm. destruct K3 as [K3 K6]. rewrite U5 in HP.
        split; [lia|]. destruct FN as [FN|(k0 & y & FN1 & FN2 & FN3)].
        * rewrite FN. destruct K6 as [K6|(K6 & x & K7 & K8 & K9)]; [left; auto|right]. split; [auto|]. exists x. split; [|auto].
          rewrite A2, a_entry_app; auto.
        * rewrite Hlast in FN3. pose proof (nnth_Some_lt _ _ _ FN1) as Hk0. right. split; [lia|]. exists (set_e_index (a_last (log_abs (r_log r)) + 1 + k0) (set_e_term (r_term r) y)).
          split; [|split; [|reflexivity]].
          -- rewrite A2, FN3. unfold a_entry, a_app; cbn [a_base a_ents]. unfold a_last in *. destruct (N.ltb_spec (a_base (log_abs (r_log r))) (a_base (log_abs (r_log r)) + nlen (a_ents (log_abs (r_log r))) + 0 + k0 + 1)); [|lia].
             rewrite nnth_app2 by lia. rewrite stamp_nnth. replace (_ - _ - 1 - _) with k0 by lia. rewrite FN1. reflexivity.
          -- destruct (Forall2_nnth _ _ _ _ _ F0 FN1) as (x & Hx1 & Hx2). rewrite (auto_joint _ T Hau) in Hx2.
             assert (Ly : leaves y) by (eapply filtered_leaves; eauto; eapply filter_prop_total; [exact Hf|eapply nnth_In; exact Hx1]). exact Ly.
    - unfold step_candidate in X. rewrite Hm in X. inv X. congruence. }
  unfold step in H. destruct (m_term m =? 0); [auto|]. destruct (_ <? _).
  { rewrite Hm in H. cbn [mtype_eqb orb andb] in H. cbv zeta in H. hide (become_follower (m_term m) 0 r) rf Erf.
    destruct (become_follower_fields _ _ _ _ Erf) as (_ & _ & _ & Q). exfalso. eapply F; [|exact H|exact Hr']. tauto. }
  destruct (_ <? _); [|auto]. rewrite Hm in H. cbn [mtype_eqb orb] in H. rewrite andb_false_r in H. inv H. auto.
Qed.

Definition kstep (a b : raft) : Prop := kinv b /\
  (r_state a = RLeader -> (r_state b = RLeader /\ r_term b = r_term a /\ forall B, kinv0 B a -> kinv0 B b) \/ lost (r_term a) b).
Lemma kstep_refl a : kinv a -> kstep a a.
Proof. intros K. split; auto. Qed.
Lemma kstep_prim a b c im : log_msg_wf im -> ninv b -> m_type im <> MsgProp -> prim im b c -> kstep a b -> kstep a c.
Proof.
  intros Hl Hn Ht Hp [K1 K2]. split.
  - intros Hc. destruct (prim_kinv _ _ _ Hl Hn Ht Hp Hc) as [[P1 P2]|[_ P]]; [|exact P]. destruct (K1 P1) as [B KB]. eauto.
  - intros Ha. destruct (K2 Ha) as [(Q1 & Q2 & Q3)|Q]; [|right; eapply prim_lost; eauto].
    destruct (prim_lead _ _ _ Q1 Hp) as [(S1 & S2 & _)|S]; [|right; rewrite <- Q2; exact S].
    left. split; [exact S1|]. split; [congruence|]. intros B KB. destruct (prim_kinv _ _ _ Hl Hn Ht Hp S1) as [[_ P]|[P _]]; [auto|congruence].
Qed.
Lemma op_prop o : (exists d, o = NPropose d) \/ (exists cc, o = NProposeCC cc) \/ (exists m, o = NStep m /\ m_type m = MsgProp) \/
  (forall id im, call_msg id o im -> m_type im <> MsgProp).
Proof.
  destruct o; eauto; try (right; right; right; cbn; intros; subst; try tauto; discriminate).
  - right; right; right. cbn. intros id im [_ [H|[H|H]]]; rewrite H; discriminate.
  - right; right. destruct (mtype_eqb (m_type m) MsgProp) eqn:Hm; [left; exists m; split; auto; destruct (m_type m); auto; discriminate|].
    right. cbn. intros _ im -> X. rewrite X in Hm. discriminate.
Qed.
Lemma op_prop_step o n n' out : ((exists d, o = NPropose d) \/ (exists cc, o = NProposeCC cc) \/ (exists m, o = NStep m /\ m_type m = MsgProp)) ->
  n_step o n = Ok (n', out) -> exists m, m_type m = MsgProp /\ step m (rn_raft n) = Ok (rn_raft n', o_err out).
Proof.
  intros [(d & ->)|[(cc & ->)|(m & -> & Hm)]] H; cbn [n_step] in H; apply bind_ok in H; destruct H as ([n1 e] & H & Hx); inv Hx; cbn [o_err].
  - unfold rn_propose, rn_raft_step in H. apply bind_ok in H. destruct H as ([r e1] & H & Hx). inv Hx. exists (propose_msg (r_id (rn_raft n)) d). auto.
  - unfold rn_propose_conf_change in H. apply bind_ok in H. destruct H as ([t d] & _ & H). unfold rn_raft_step in H. apply bind_ok in H. destruct H as ([r e1] & H & Hx). inv Hx.
    eexists. split; [|exact H]. reflexivity.
  - unfold rn_step in H. rewrite Hm in H. cbn [is_local_msg is_response_msg negb] in H. rewrite orb_true_r in H. unfold rn_raft_step in H. apply bind_ok in H. destruct H as ([r e1] & H & Hx). inv Hx. eauto.
Qed.
Lemma n_step_kinv o n n' out : nop_ok o n -> dinv n -> tok (rn_raft n) -> (forall cc, o <> NApplyCC cc) -> o <> NHandle ->
  n_step o n = Ok (n', out) -> o_err out <> Some EDropped -> kinv (rn_raft n) -> kstep (rn_raft n) (rn_raft n').
Proof.
  intros Hok D T Hcc Hh H He K. destruct (nop_plain o) as [Hp|Hp].
  - destruct (op_prop o) as [X|[X|[X|X]]].
    1-3: destruct (op_prop_step o n n' out) as (m & Hm & Hs); [tauto|exact H|]; split;
      [intros Hl; destruct (prop_kinv _ _ _ _ (di_ninv _ D) T Hm Hs He Hl) as [P1 P2]; destruct (K P1) as [B KB]; eauto|
       intros Ha; destruct (n_step_gfix (r_term (rn_raft n)) _ _ _ _ Hok H D) as [(_ & _ & G1 & G2 & _)|G]; [left; auto| |right; exact G]; left;
       split; [exact G1|]; split; [exact G2|]; apply (prop_kinv _ _ _ _ (di_ninv _ D) T Hm Hs He G1)].
    destruct (n_step_qprs _ _ _ _ Hp (proj1 Hok) H) as (r0 & S & Q).
    assert (I0 : ninv r0 /\ kstep (rn_raft n) r0).
    { destruct S as [->|(cc & cp & bb & op & S & _)]; [split; [apply D|apply kstep_refl; auto]|]. exfalso. eapply Hcc; eauto. }
    assert (G : ninv (rn_raft n') /\ kstep (rn_raft n) (rn_raft n')); [|apply G].
    revert I0. apply (qprs_ind_inv (call_msg (r_id (rn_raft n)) o) (fun r => ninv r /\ kstep (rn_raft n) r)); auto.
    intros im a b Hc [I1 I2] Hpr. pose proof (call_msg_log _ _ _ _ Hp Hok Hc) as Hl. split; [eapply prim_log; eauto|].
    eapply kstep_prim; eauto.
  - assert (Ho : match o with NCompact _ | NCreateSnapshot _ _ _ => True | _ => False end).
    { destruct Hok as [_ Hok]. destruct o; cbn in Hp, Hok; try tauto; congruence. }
    destruct (storage_abs o n n' out Hok D H Ho) as (A1 & A2 & A3 & A4). cbv zeta in *.
    assert (R : forall B, kinv0 B (rn_raft n) -> kinv0 B (rn_raft n')).
    { intros B [K1 K2 K3 K4 K5]. destruct A4 as [A4|(i & t & A4 & A5)]; [rewrite A1; apply (kinv0_eq B (rn_raft n)); auto; constructor; auto|].
      pose proof (lwf_com _ (li_wf _ (ni_log _ (di_ninv _ D)))) as Wc. pose proof (lwf_app _ (li_wf _ (ni_log _ (di_ninv _ D)))) as Wa.
      assert (HL : a_last (log_abs (r_log (rn_raft n'))) = a_last (log_abs (r_log (rn_raft n)))).
      { rewrite A5. unfold a_last in *. cbn [a_base a_ents]. rewrite nlen_ndrop. lia. }
      assert (HE : forall j e, a_entry (log_abs (r_log (rn_raft n'))) j = Some e -> a_entry (log_abs (r_log (rn_raft n))) j = Some e).
      { intros j e Hj. rewrite A5 in Hj. eapply a_entry_compact; [|exact Hj]. lia. }
      assert (F : r_pending_conf (rn_raft n') = r_pending_conf (rn_raft n) /\ r_trk (rn_raft n') = r_trk (rn_raft n) /\ r_term (rn_raft n') = r_term (rn_raft n)) by (rewrite A1; auto).
      destruct F as (F1 & F2 & F3). constructor; rewrite ?F1, ?F2, ?F3, ?HL, ?A2; auto.
      - intros j e Hj Hc. eauto.
      - intros HB j e Hj Hc Hi. eapply K4; eauto.
      - intros Hau. destruct (K5 Hau) as [K6 K7]. split; [auto|]. destruct K7 as [K7|(K7 & e & K8 & K9)]; [left; auto|right; split; [auto|]].
        exists e. split; [|exact K9]. rewrite A5. unfold a_entry in *. cbn [a_base a_ents]. destruct (N.ltb_spec i (r_pending_conf (rn_raft n))); [|lia].
        destruct (N.ltb_spec (a_base (log_abs (r_log (rn_raft n)))) (r_pending_conf (rn_raft n))); [|lia]. rewrite nnth_ndrop. rewrite <- K8. f_equal. lia. }
    assert (F : r_state (rn_raft n') = r_state (rn_raft n) /\ r_term (rn_raft n') = r_term (rn_raft n)) by (rewrite A1; auto). destruct F as [F1 F2].
    split; [intros Hl; rewrite F1 in Hl; destruct (K Hl) as [B KB]; eauto|]. intros Hl. left. split; [congruence|]. auto.
Qed.

(** The loop. *)
Lemma loop_delivery n n' rd : dinv n -> lspec n n' rd ->
  let a := node_applied n in let b := resume a rd in
  (sn_index (rd_snap rd) = 0 \/ a < sn_index (rd_snap rd)) /\
  contig (b + 1) (rd_committed rd) /\
  node_applied n' = b + nlen (rd_committed rd) /\
  rd_committed rd = limit_size (a_slice (log_abs (r_log (rn_raft n))) (b + 1) (node_commit n + 1)) (l_maxnext (r_log (rn_raft n))) /\
  b <= node_commit n /\ a_base (log_abs (r_log (rn_raft n))) <= b.
Proof.
  intros D H. cbv zeta. pose proof (ls_ready _ _ _ H) as R.
  destruct D as [[N1 N2 N3] D2 D3 D4 D5 D6 D7 D8 D9].
  pose proof (li_wf _ N1) as Hw. pose proof (lwf_com _ Hw) as Hc. pose proof (lwf_app _ Hw) as Ha.
  set (l := r_log (rn_raft n)) in *.
  change (node_applied n) with (l_applied l). change (node_commit n) with (l_committed l).
  assert (Hb : (sn_index (rd_snap rd) = 0 \/ l_applied l < sn_index (rd_snap rd)) /\
     resume (l_applied l) rd + 1 = N.max (l_applied l + 1) (a_first (log_abs l)) /\
     resume (l_applied l) rd <= l_committed l /\ a_base (log_abs l) <= resume (l_applied l) rd).
  { pose proof (ro_snap _ _ R) as Hrs. fold l in Hrs. pose proof (lp_pend _ N2) as Hp. unfold resume, a_first in *. unfold log_abs in *. fold l in D9.
    destruct (u_snap (l_us l)) as [s|] eqn:Hu.
    - cbn [a_base] in *. specialize (Hp s eq_refl). rewrite Hrs. destruct (N.eqb_spec (sn_index s) 0); [lia|].
      split; [auto|]. split; [lia|]. lia.
    - specialize (D9 eq_refl). rewrite Hrs. change (sn_index empty_snapshot =? 0) with true. cbv iota. cbn [a_base] in *. split; [auto|]. lia. }
  destruct Hb as (B1 & B2 & B3 & B4). split; [auto|].
  set (b := resume (l_applied l) rd) in *. clearbody b.
  assert (Hn : rd_committed rd = limit_size (a_slice (log_abs l) (b + 1) (l_committed l + 1)) (l_maxnext l)).
  { rewrite (ls_next _ _ _ H). fold l. unfold next_of. cbv zeta. rewrite <- B2.
    destruct (N.ltb_spec (b + 1) (l_committed l + 1)); auto.
    replace (l_committed l) with b by lia. rewrite slice_nil, limit_size_nil. auto. }
  assert (Hcg : contig (b + 1) (rd_committed rd)).
  { intros k e Hk. rewrite Hn in Hk.
    destruct (limit_size_prefix (a_slice (log_abs l) (b + 1) (l_committed l + 1)) (l_maxnext l)) as [rest Hp].
    assert (Hk2 : nnth (a_slice (log_abs l) (b + 1) (l_committed l + 1)) k = Some e).
    { rewrite Hp. rewrite nnth_app1 by (eapply nnth_Some_lt; eauto). auto. }
    rewrite nnth_slice in Hk2. destruct (_ <? _); [|discriminate]. pose proof (log_abs_wf _ (lwf_0 _ Hw)) as Hwf.
    rewrite (Hwf _ _ Hk2). lia. }
  split; [auto|]. split; [|auto].
  unfold node_applied, rn_status; cbn [ns_applied]. rewrite (ls_applied _ _ _ H). fold l. unfold applied_after, applied_cursor.
  destruct (rev (rd_committed rd)) as [|e es] eqn:Hrev.
  - assert (Hnil : rd_committed rd = []) by (rewrite <- (rev_involutive (rd_committed rd)), Hrev; auto).
    rewrite Hnil. nl. cbn [nlen]. rewrite (ro_snap _ _ R) in *. fold l in B1 |- *.
    pose proof (lp_pend _ N2) as Hp. fold l in D9. unfold a_first, log_abs in B2, B4, D9.
    destruct (u_snap (l_us l)) as [s|].
    + cbn [a_base] in *. specialize (Hp s eq_refl). destruct (N.ltb_spec 0 (sn_index s)); nl.
    + cbn [sn_index empty_snapshot] in *. cbn [a_base] in *. specialize (D9 eq_refl). change (0 <? 0) with false. cbv iota. nl.
  - pose proof (rev_contig _ _ _ _ Hcg Hrev) as He. pose proof (rev_last _ _ _ Hrev) as Hl.
    assert (0 < nlen (rd_committed rd)) by (rewrite Hl, nlen_app, nlen_cons; lia).
    destruct (N.ltb_spec 0 (e_index e)); lia.
Qed.
Lemma delivered_in n n' rd e : dinv n -> lspec n n' rd -> In e (rd_committed rd) ->
  exists i, l_applied (r_log (rn_raft n)) < i <= applied_cursor rd /\ a_entry (log_abs (r_log (rn_raft n))) i = Some e.
Proof.
  intros D L He. pose proof (loop_delivery _ _ _ D L) as (H1 & H2 & H3 & H4 & H5 & H6).
  change (node_applied n) with (l_applied (r_log (rn_raft n))) in *. change (node_commit n) with (l_committed (r_log (rn_raft n))) in *.
  set (b := resume (l_applied (r_log (rn_raft n))) rd) in *. assert (Hb : l_applied (r_log (rn_raft n)) <= b) by (unfold b, resume; destruct (N.eqb_spec (sn_index (rd_snap rd)) 0); lia).
  apply In_nnth in He. destruct He as [k Hk]. pose proof (nnth_Some_lt _ _ _ Hk) as Hkl. exists (b + 1 + k).
  assert (Hcur : applied_cursor rd = b + nlen (rd_committed rd)).
  { unfold applied_cursor. destruct (rev (rd_committed rd)) as [|x xs] eqn:Hrev.
    - assert (Hnil : rd_committed rd = []) by (rewrite <- (rev_involutive (rd_committed rd)), Hrev; auto). rewrite Hnil in Hkl. rewrite nlen_nil in Hkl. lia.
    - pose proof (rev_contig _ _ _ _ H2 Hrev). lia. }
  split; [lia|]. rewrite H4 in Hk.
  match type of Hk with context[limit_size ?x ?y] => destruct (limit_size_prefix x y) as [rest Hp] end.
  assert (Hk2 : nnth (a_slice (log_abs (r_log (rn_raft n))) (b + 1) (l_committed (r_log (rn_raft n)) + 1)) k = Some e).
  { rewrite Hp. rewrite nnth_app1 by (eapply nnth_Some_lt; eauto). auto. }
  rewrite nnth_slice in Hk2. destruct (_ <? _); [|discriminate]. unfold a_entry. destruct (N.ltb_spec (a_base (log_abs (r_log (rn_raft n)))) (b + 1 + k)); [|lia].
  rewrite <- Hk2. f_equal. unfold a_first. lia.
Qed.
Lemma loop_kinv n n' rd : dinv n -> n_loop n = Ok (n', rd) -> kinv (rn_raft n) -> kstep (rn_raft n) (rn_raft n').
Proof.
  intros D H K. destruct (loop_dinv _ _ _ D H) as [D' L]. 
  pose proof (lwf_com _ (li_wf _ (ni_log _ (di_ninv _ D)))) as Wc. pose proof (lwf_app _ (li_wf _ (ni_log _ (di_ninv _ D)))) as Wa.
  assert (R : r_state (rn_raft n) = RLeader -> forall B, kinv0 B (rn_raft n) -> kinv0 B (rn_raft n')).
  { intros Hl B [K1 K2 K3 K4 K5]. pose proof (ls_applied _ _ _ L) as La. pose proof (ls_app_le _ _ _ L) as Lle. pose proof (ls_term _ _ _ L) as Lt.
    assert (Hdec : due n n' rd \/ ~ due n n' rd).
    { unfold due. destruct (tc_auto_leave (t_config (r_trk (rn_raft n')))); [|right; intuition discriminate].
      destruct (N.ltb_spec 0 (applied_cursor rd)); [|right; lia].
      destruct (N.leb_spec (l_applied (r_log (rn_raft n))) (r_pending_conf (rn_raft n))); [|right; lia].
      destruct (N.leb_spec (r_pending_conf (rn_raft n)) (applied_cursor rd)); [|right; lia]. left. auto. }
    destruct Hdec as [Hd|Hd].
    - destruct (ls_leave _ _ _ L Hd) as [L1 L2].
      assert (Hl1 : a_last (a_app (log_abs (r_log (rn_raft n))) (stamp (r_term (rn_raft n)) (a_last (log_abs (r_log (rn_raft n))) + 1) [auto_leave_entry])) = a_last (log_abs (r_log (rn_raft n))) + 1)
        by (rewrite a_last_app, stamp_len; reflexivity).
      destruct Hd as (Hd1 & _ & Hd2 & Hd3).
      assert (Hcur : l_applied (r_log (rn_raft n')) = applied_cursor rd) by (rewrite La; unfold applied_after; destruct (N.ltb_spec 0 (applied_cursor rd)); lia).
      constructor; rewrite ?L1, ?L2, ?Hl1; try lia.
      + intros i e He _. apply a_entry_le in He. lia.
      + intros HB i e He Hc Hi. pose proof (a_entry_le _ _ _ He) as Hle. rewrite Hl1 in Hle.
        destruct (N.le_gt_cases i (a_last (log_abs (r_log (rn_raft n))))) as [Hx|Hx]; [|lia]. rewrite a_entry_app in He by auto.
        pose proof (K1 _ _ He Hc). lia.
      + intros _. split; [lia|]. right. split; [lia|]. exists (mkEntry (r_term (rn_raft n)) (a_last (log_abs (r_log (rn_raft n))) + 1) EntryConfChangeV2 EmptyString).
        split; [|split; [split; [reflexivity|left; reflexivity]|symmetry; exact Lt]].
        unfold a_entry, a_app; cbn [a_base a_ents]. unfold a_last in *. destruct (N.ltb_spec (a_base (log_abs (r_log (rn_raft n)))) (a_base (log_abs (r_log (rn_raft n))) + nlen (a_ents (log_abs (r_log (rn_raft n)))) + 1)); [|lia].
        rewrite nnth_app2 by lia. rewrite stamp_nnth. replace (_ - _ - 1 - _) with 0 by lia. cbn. rewrite N.add_0_r. reflexivity.
    - destruct (ls_stay _ _ _ L Hd) as [L1 L2]. constructor; rewrite ?L1, ?L2; auto.
      + intros HB i e He Hc Hi. eapply K4; eauto. lia.
      + intros Hau.
        assert (Hsm : Forall (fun e => conf_of e = None) (rd_committed rd) \/ exists i, l_applied (r_log (rn_raft n)) < i <= applied_cursor rd /\ exists e, a_entry (log_abs (r_log (rn_raft n))) i = Some e /\ conf_change e).
        { destruct (Forall_Exists_dec (fun e => conf_of e = None)) with (l := rd_committed rd) as [X|X]; [intros x; destruct (conf_of x); [right; discriminate|left; auto]|left; exact X|].
          right. apply Exists_exists in X. destruct X as (e & X1 & X2). destruct (delivered_in n n' rd e D L X1) as (i & X3 & X4).
          exists i. split; [auto|]. exists e. split; [auto|]. intros X5. apply X2. unfold conf_of. rewrite X5. reflexivity. }
        assert (Hcur : 0 < applied_cursor rd -> l_applied (r_log (rn_raft n')) = applied_cursor rd) by (intros; rewrite La; unfold applied_after; destruct (N.ltb_spec 0 (applied_cursor rd)); lia).
        assert (Hz : applied_cursor rd = 0 -> l_applied (r_log (rn_raft n')) = l_applied (r_log (rn_raft n))) by (intros Z; rewrite La; unfold applied_after; rewrite Z; reflexivity).
        unfold due in Hd.
        assert (Hnd : ~ (0 < applied_cursor rd /\ l_applied (r_log (rn_raft n)) <= r_pending_conf (rn_raft n) <= applied_cursor rd)) by tauto. clear Hd.
        rewrite Lt. destruct Hsm as [Hsm|(i & Hi & e & He & Hc)].
        * rewrite (ls_conf _ _ _ L Hsm) in Hau. destruct (K5 Hau) as [K6 K7].
          destruct (N.eq_dec (applied_cursor rd) 0) as [Z|Z]; [rewrite (Hz Z); auto|]. rewrite (Hcur ltac:(lia)). split; [lia|].
          destruct K7 as [K7|(K7 & K8)]; [left; auto|right; split; [lia|auto]].
        * pose proof (K1 _ _ He Hc) as Hip. rewrite (Hcur ltac:(lia)). split; [lia|].
          destruct (N.le_gt_cases (r_pending_conf (rn_raft n)) B) as [HB|HB]; [left; auto|]. exfalso.
          pose proof (K4 HB _ _ He Hc ltac:(lia)). lia. }
  pose proof (ls_state _ _ _ L) as F1. split; [intros Hl; rewrite F1 in Hl; destruct (K Hl) as [B KB]; eauto|].
  intros Hl. left. split; [congruence|]. split; [apply L|auto].
Qed.
End Leave.
