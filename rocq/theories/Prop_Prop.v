(** Proposals (C35, C36, C37). *)
From Verif Require Import Prelude Types M_Util M_Quorum M_Inflights M_Progress M_Tracker.
From Verif Require Import M_Storage M_Unstable M_Log M_ReadOnly M_ConfPb M_ConfChange M_Raft M_RawNode.
From Verif Require Import P_Inflights Spec_Log P_Lists P_Storage P_Log Spec_Storage Sys_Storage P_StorageSeq Spec_RaftLog Sys_RaftLog P_RaftLogSeq.
From Verif Require Import Spec_Quorum P_Quorum.
From Verif Require Import P_Frame P_Prim Sys_Node Sys_ConfChange P_Node P_Fields P_Vote Spec_Node P_Persist P_New P_Time P_NodeLog P_Handle P_NodeRun P_Emit P_Ack P_Lead.
From Verif Require Import Prop_Vote Prop_Deliver Prop_Msg Spec_Prop Ex_Env Ex_Node Ex_Check Ex_Case.

Section Props.
Context {E : Env}.

Lemma stamp_nnth t : forall es i k, nnth (stamp t i es) k = option_map (fun e => set_e_index (i + k) (set_e_term t e)) (nnth es k).
Proof.
  induction es as [|e es IH]; intros i k; cbn [stamp]; [unfold nnth; destruct (N.to_nat k); reflexivity|].
  destruct (N.eq_dec k 0) as [->|Hk]; [rewrite !nnth_cons0; cbn; do 2 f_equal; lia|].
  rewrite !nnth_consS by lia. rewrite IH. destruct (nnth es (k - 1)); cbn; auto. do 2 f_equal. lia.
Qed.
Lemma payloads_eq es : payloads_size es = payload es.
Proof.
  unfold payloads_size. assert (H : forall a, fold_left (fun acc e => acc + payload_size e) es a = a + payload es).
  { induction es as [|e es IH]; intros a; cbn [fold_left payload]; [lia|]. rewrite IH. unfold payload_size. lia. }
  rewrite H. lia.
Qed.
Lemma payload_stamp t : forall es i, payload (stamp t i es) = payload es.
Proof. induction es as [|e es IH]; intros i; cbn [stamp payload]; [auto|]. rewrite IH. reflexivity. Qed.

(** What the filter in front of AppendEntry does. *)
Definition filtered (joint : bool) (x y : entry) : Prop :=
  (y = x /\ forall cc, entry_cc x = Ok (Some cc) -> is_nil (c2_changes cc) = joint) \/ (conf_change x /\ y = empty_entry).
Lemma entry_cc_conf e o : entry_cc e = Ok o -> (match o with None => e_type e = EntryNormal | Some _ => conf_change e end).
Proof.
  unfold entry_cc, conf_change. destruct (e_type e); intros H; mon; auto; try (inv H; auto; fail);
  repeat match goal with H : context[match ?x with _ => _ end] |- _ => destruct x end; mon; try discriminate; inv H; try discriminate.
Qed.
Lemma filter_prop_spec : forall es i r es' r', filter_prop i es r = Ok (es', r') -> l_applied (r_log r) <= r_last r + i ->
  Forall2 (filtered (tc_joint (t_config (r_trk r)))) es es' /\
  ((r_pending_conf r' = r_pending_conf r /\ Forall (fun e => e_type e = EntryNormal) es') \/
   (r_pending_conf r <= l_applied (r_log r) /\ exists k, k < nlen es' /\ r_pending_conf r' = r_last r + i + k + 1 /\
      forall j e, nnth es' j = Some e -> conf_change e -> j = k)).
Proof.
  induction es as [|e es IH]; intros i r es' r' H Ha; cbn [filter_prop] in H.
  - inv H. split; [constructor|]. left; auto.
  - apply bind_ok in H. destruct H as (o & Ho & H). pose proof Ho as Hcc. apply entry_cc_conf in Ho.
    assert (Keep : forall e', e_type e' = EntryNormal -> filtered (tc_joint (t_config (r_trk r))) e e' ->
       ('(t', r'') <- filter_prop (i + 1) es r;; Ok (e' :: t', r'')) = Ok (es', r') ->
       Forall2 (filtered (tc_joint (t_config (r_trk r)))) (e :: es) es' /\
       ((r_pending_conf r' = r_pending_conf r /\ Forall (fun e => e_type e = EntryNormal) es') \/
        (r_pending_conf r <= l_applied (r_log r) /\ exists k, k < nlen es' /\ r_pending_conf r' = r_last r + i + k + 1 /\
      forall j e, nnth es' j = Some e -> conf_change e -> j = k))).
    { intros e' Hn Hfe Hx. apply bind_ok in Hx. destruct Hx as ([t' r''] & Ht & Hx). inv Hx.
      apply IH in Ht; [|lia]. destruct Ht as [F [[P1 P2]|(P1 & k & P2 & P3 & P4)]].
      - split; [constructor; auto|]. left. split; auto.
      - split; [constructor; auto|]. right. split; auto. exists (k + 1). split; [rewrite nlen_cons; lia|]. split; [lia|].
        intros j x Hj Hc. destruct (N.eq_dec j 0) as [->|Hj0]; [rewrite nnth_cons0 in Hj; inv Hj; congruence|].
        rewrite nnth_consS in Hj by lia. specialize (P4 _ _ Hj Hc). lia. }
    destruct o as [cc|]; [destruct (cc_refused cc (r_pending_conf r) r) eqn:Hr|]; cbv iota beta in H.
    + apply (Keep empty_entry); auto. right; auto.
    + apply bind_ok in H. destruct H as ([t' r''] & Ht & H). inv H.
      assert (Hle : r_pending_conf r <= l_applied (r_log r)).
      { unfold cc_refused in Hr. cbv zeta in Hr. destruct (N.ltb_spec (l_applied (r_log r)) (r_pending_conf r)); [discriminate|auto]. }
      apply IH in Ht; [|change (l_applied (r_log r) <= r_last r + (i + 1)); lia]. destruct Ht as [F [[P1 P2]|(P1 & k & P2 & P3 & P4)]].
      * split; [constructor; auto; left; split; auto|]. { intros cc' Hc'. rewrite Hcc in Hc'. inv Hc'. unfold cc_refused in Hr. cbv zeta in Hr. destruct (is_nil (c2_changes cc')), (tc_joint (t_config (r_trk r))); auto; cbn in Hr; rewrite ?orb_true_r in Hr; discriminate. } right. split; auto. exists 0. split; [rewrite nlen_cons; lia|]. split; [rewrite P1; change (r_last r + i + 1 = r_last r + i + 0 + 1); lia|].
        intros j x Hj Hc. destruct (N.eq_dec j 0) as [->|Hj0]; auto. rewrite nnth_consS in Hj by lia. apply nnth_In in Hj.
        rewrite Forall_forall in P2. apply P2 in Hj. contradiction.
      * exfalso. change (r_last r + i + 1 <= l_applied (r_log r)) in P1. lia.
    + apply (Keep e); auto. left; split; auto. congruence.
Qed.
Lemma filter_prop_normal es : forall i r es' r', filter_prop i es r = Ok (es', r') -> Forall (fun e => e_type e = EntryNormal) es -> r' = r.
Proof.
  induction es as [|e es IH]; intros i r es' r' H Hn; cbn [filter_prop] in H; [inv H; auto|].
  apply bind_ok in H. destruct H as (o & Ho & H). apply entry_cc_conf in Ho. inversion Hn; subst.
  destruct o; [contradiction|]. apply bind_ok in H. destruct H as ([t' r''] & Ht & H). inv H. eauto.
Qed.
Lemma filtered_payload j es es' : Forall2 (filtered j) es es' -> payload es' <= payload es.
Proof. induction 1 as [|x y l l' H1 H2 IH]; cbn [payload]; [lia|]. destruct H1 as [[-> _]|[_ ->]]; cbn [e_data empty_entry String.length]; lia. Qed.

Lemma filtered_fits n x : (forall cc, entry_cc x = Ok (Some cc) -> is_nil (c2_changes cc) = tc_joint (t_config (r_trk (rn_raft n)))) ->
  (exists o, entry_cc x = Ok o) -> fits n x.
Proof.
  intros H [o Ho]. unfold fits. unfold entry_cc in *. unfold node_outgoing; cbn [rn_status ns_config]. unfold tc_joint in H.
  destruct (e_type x); auto.
  - destruct (dec_cc (e_data x)) as [c|]; [|discriminate]. cbn in H. specialize (H _ eq_refl). destruct (tc_outgoing _); auto; discriminate.
  - intros v Hv. rewrite Hv in H. specialize (H _ eq_refl). destruct (c2_changes v), (tc_outgoing _); cbn in H; split; intros; try congruence; discriminate.
Qed.
Lemma filter_prop_total es : forall i r es' r' x, filter_prop i es r = Ok (es', r') -> In x es -> exists o, entry_cc x = Ok o.
Proof.
  induction es as [|e es IH]; intros i r es' r' x H Hin; [destruct Hin|]. cbn [filter_prop] in H. apply bind_ok in H. destruct H as (o & Ho & H).
  destruct Hin as [<-|Hin]; [eauto|]. destruct o as [cc|]; [destruct (cc_refused _ _ _)|]; cbv iota beta in H;
    apply bind_ok in H; destruct H as ([t' r''] & Ht & H); eauto.
Qed.
(** The common core: a MsgProp of term 0 with these entries reaches the node. *)
Definition prop_result (n n' : rawnode) (e : option err) (es : list entry) : Prop :=
  match e with
  | None => appended n n' es \/ passed_on n n' es
  | Some x => x = EDropped /\ (exists k, n' = set_rn_raft (set_r_pending_conf k (rn_raft n)) n) /\
      (Forall (fun e => e_type e = EntryNormal) es -> n' = n)
  end.
Lemma set_pending_id r : set_r_pending_conf (r_pending_conf r) r = r. Proof. destruct r; auto. Qed.
Lemma dropped_same n es : prop_result n n (Some EDropped) es.
Proof. split; auto. split; auto. exists (r_pending_conf (rn_raft n)). rewrite set_pending_id. destruct n; auto. Qed.

Lemma step_prop_result m n n' e : dinv n -> m_type m = MsgProp -> m_term m = 0 ->
  rn_raft_step m n = Ok (n', e) -> dinv n' -> prop_result n n' e (m_entries m).
Proof.
  intros D Ht Htm H D'. unfold rn_raft_step in H. apply bind_ok in H. destruct H as ([r' e'] & H & Hx). inv Hx.
  unfold step in H. rewrite Htm in H. cbn [N.eqb] in H. unfold step_dispatch in H. rewrite Ht in H.
  destruct (r_state (rn_raft n)) eqn:Hs.
  - unfold step_follower in H. rewrite Ht in H. destruct (N.eqb_spec (r_lead (rn_raft n)) 0).
    { inv H. replace (set_rn_raft (rn_raft n) n) with n by (destruct n; auto). apply dropped_same. }
    destruct (k_disable_fwd _); [inv H; replace (set_rn_raft (rn_raft n) n) with n by (destruct n; auto); apply dropped_same|].
    unfold okr in H. apply bind_ok in H. destruct H as (r1 & H & Hx). inv Hx. apply send_ok in H. destruct H as [-> _].
    right. split; [exact Hs|]. split; [exact n0|]. exists (outm (rn_raft n) (set_m_to (r_lead (rn_raft n)) m)).
    unfold outm, emit. cbn [m_from set_m_to]. destruct (m_from m =? 0); cbn; rewrite Ht; cbn; auto.
  - unfold step_candidate in H. rewrite Ht in H. inv H. replace (set_rn_raft (rn_raft n) n) with n by (destruct n; auto). apply dropped_same.
  - unfold step_leader in H. rewrite Ht in H. unfold leader_prop in H. destruct (is_nil (m_entries m)) eqn:Hne; [discriminate|].
    assert (Same : Ok (rn_raft n, Some EDropped) = Ok (r', e) -> prop_result n (set_rn_raft r' n) e (m_entries m)).
    { intros X. inv X. replace (set_rn_raft (rn_raft n) n) with n by (destruct n; auto). apply dropped_same. }
    destruct (trk_get _ _); [|exact (Same H)]. destruct (negb _); [exact (Same H)|]. clear Same.
    apply bind_ok in H. destruct H as ([es r1] & Hf & H). apply bind_ok in H. destruct H as ([r2|] & Ha & H).
    + unfold okr in H. apply bind_ok in H. destruct H as (r3 & H & Hx). inv Hx. apply bcast_append_sends in H.
      pose proof (di_ninv _ D) as N1. pose proof (li_wf _ (ni_log _ N1)) as W.
      destruct (filter_prop_spec _ _ _ _ _ Hf) as [F _].
      { unfold r_last. rewrite log_last_abs by (apply lwf_0; auto). destruct W. lia. }
      destruct (filter_prop_fields _ _ _ _ _ Hf) as [k E1].
      assert (L1 : r_log r1 = r_log (rn_raft n)) by (rewrite E1; auto).
      assert (T1 : r_term r1 = r_term (rn_raft n)) by (rewrite E1; auto).
      destruct (append_log es r1 r2) as (_ & A2 & _); [rewrite L1; apply N1|rewrite T1; apply (ni_term _ N1); auto|exact Ha|]. cbv zeta in A2.
      rewrite L1, T1 in A2. destruct (append_entry_fields _ _ _ Ha) as (lx & px & ux & E2).
      pose proof (lwf_0 _ (li_wf _ (ni_log _ (di_ninv _ D')))) as W'. destruct H as [[] _ _ _].
      assert (A3 : log_abs (r_log r') = a_app (log_abs (r_log (rn_raft n))) (stamp (r_term (rn_raft n)) (a_last (log_abs (r_log (rn_raft n))) + 1) es)) by (rewrite sm_log; exact A2).
      assert (Hlen : nlen es = nlen (m_entries m)) by (clear -F; induction F; [auto|rewrite !nlen_cons; lia]).
      assert (Hl' : node_last (set_rn_raft r' n) = node_last n + nlen (m_entries m)).
      { unfold node_last. cbn [rn_raft set_rn_raft]. cbn [rn_raft set_rn_raft] in W'. rewrite (log_last_abs _ W'), (log_last_abs _ (lwf_0 _ W)). rewrite A3, a_last_app, stamp_len. lia. }
      assert (Hl : node_last n = a_last (log_abs (r_log (rn_raft n)))) by (unfold node_last; apply log_last_abs, lwf_0; auto).
      left. split; [exact Hs|]. split; [unfold node_role; cbn; rewrite sm_state, E2; cbn; rewrite E1; exact Hs|].
      split; [unfold node_term, node_hard; cbn; rewrite sm_term, E2; cbn; rewrite E1; reflexivity|]. split; [exact Hl'|]. split.
      * intros i x Hi. rewrite !holds_abs by auto. cbn [rn_raft set_rn_raft]. rewrite A3. rewrite a_entry_app by lia. tauto.
      * intros k0 x Hk. pose proof (nnth_Some_lt _ _ _ Hk) as Hk'. destruct (nnth_lt_Some es k0) as [y Hy]; [lia|].
        assert (Hxy : filtered (tc_joint (t_config (r_trk (rn_raft n)))) x y).
        { clear -F Hk Hy. unfold nnth in *. revert Hk Hy. generalize (N.to_nat k0). induction F as [|a b l l' H1 H2 IH]; intros [|j]; cbn; try discriminate; eauto.
          intros X Y. inv X. inv Y. auto. }
        exists (set_e_index (node_last n + 1 + k0) (set_e_term (r_term (rn_raft n)) y)). split; [|split; [reflexivity|split; [reflexivity|]]].
        -- rewrite holds_abs by auto. cbn [rn_raft set_rn_raft]. rewrite A3. unfold a_entry, a_app; cbn [a_base a_ents].
           rewrite Hl in *. unfold a_last in *. destruct (N.ltb_spec (a_base (log_abs (r_log (rn_raft n)))) (a_base (log_abs (r_log (rn_raft n))) + nlen (a_ents (log_abs (r_log (rn_raft n)))) + 1 + k0)); [|lia].
           rewrite nnth_app2 by lia. rewrite stamp_nnth.
           replace (_ - _ - 1 - _) with k0 by lia. rewrite Hy. cbn. reflexivity.
        -- destruct Hxy as [[-> Hfit]|[Hc ->]]; [left; split; [reflexivity|]; split; [reflexivity|apply filtered_fits; auto; eapply filter_prop_total; [exact Hf|eapply nnth_In; exact Hk]]|right; split; auto; split; reflexivity].
    + inv H. split; auto. split.
      * destruct (filter_prop_fields _ _ _ _ _ Hf) as [k ->]. eauto.
      * intros Hn. rewrite (filter_prop_normal _ _ _ _ _ Hf Hn). destruct n; auto.
  - unfold step_candidate in H. rewrite Ht in H. inv H. replace (set_rn_raft (rn_raft n) n) with n by (destruct n; auto). apply dropped_same.
Qed.

Lemma call_carries id o im : call_msg id o im -> m_type im = MsgProp -> carries o (m_entries im).
Proof.
  destruct o; cbn; try tauto; try (intros ->; discriminate).
  - intros [_ [H|[H|H]]]; rewrite H; discriminate.
  - intros -> _. reflexivity.
  - intros (t & d & H & ->) _. eauto.
  - intros -> H. auto.
Qed.

(* ---- C36 ---- *)
Lemma append_unc es r r' : append_entry es r = Ok (Some r') -> r_uncommitted r' = r_uncommitted r + payload es /\
  (r_uncommitted r = 0 \/ payload es = 0 \/ r_uncommitted r + payload es <= k_max_uncommitted (r_cfg r)) /\ r_cfg r' = r_cfg r /\
  r_state r' = r_state r /\ r_pending_conf r' = r_pending_conf r.
Proof.
  intros H. apply append_entry_inv in H. cbv zeta in H. destruct H as (Ho & l0 & li & pr & pr' & u & b & H1 & H2 & H3 & H4).
  rewrite payloads_eq, payload_stamp in *. apply raft_maybe_commit_state in H4. destruct H4 as [l ->]. cbn [r_uncommitted set_r_log put_progress set_r_trk set_r_uncommitted r_cfg r_state r_pending_conf].
  split; [reflexivity|]. split; [|auto].
  destruct (N.ltb_spec 0 (r_uncommitted r)); [|left; lia]. destruct (N.ltb_spec 0 (payload es)); [|right; left; lia].
  destruct (N.ltb_spec (k_max_uncommitted (r_cfg r)) (r_uncommitted r + payload es)); [discriminate|]. right; right; auto.
Qed.
Lemma become_leader_side r r' : become_leader r = Ok r' -> r_uncommitted r' = 0 /\ r_pending_conf r' = r_last r.
Proof.
  unfold become_leader. destruct (role_eqb _ _); [discriminate|]. hide (reset (r_term r) r) r0 Er0.
  destruct (reset_more _ _ _ Er0) as (_ & _ & _ & _ & _ & A6 & _). destruct (reset_fields _ _ _ Er0) as (_ & _ & _ & A4 & _). clear Er0.
  unfold become_leader_reset. destruct (trk_get _ _) as [pr|]; [|discriminate]. intros H.
  apply bind_ok in H. destruct H as ([r1|] & H1 & H); [|discriminate]. apply append_unc in H1. destruct H1 as (H1 & _ & _ & _ & H5).
  apply Ok_inj in H. subst r'. assert (Z : r_uncommitted r1 = 0) by (rewrite H1; change (r_uncommitted r0 + 0 = 0); lia).
  unfold reduce_uncommitted. rewrite Z. cbv iota beta. change (0 =? 0) with true. cbv iota. split; [exact Z|].
  rewrite H5. change (r_last r0 = r_last r). unfold r_last. rewrite A4. reflexivity.
Qed.

Definition unapp (l : rlog) : list entry := ndrop (l_applied l - a_base (log_abs l)) (a_ents (log_abs l)).
Lemma payload_app a b : payload (a ++ b) = payload a + payload b.
Proof. induction a as [|e a IH]; cbn [app payload]; [lia|]. rewrite IH. lia. Qed.

Record prinv (X : list entry -> Prop) (r : raft) : Prop := {
  pi_conf : r_state r = RLeader -> forall i e, a_entry (log_abs (r_log r)) i = Some e -> conf_change e -> i <= r_pending_conf r;
  pi_zero : r_state r <> RLeader -> r_uncommitted r = 0;
  pi_size : r_uncommitted r <= payload (unapp (r_log r));
  pi_lim : r_uncommitted r <= k_max_uncommitted (r_cfg r) \/ exists es, X es /\ r_uncommitted r <= payload es
}.
Lemma prinv_eq X r r' : log_abs (r_log r') = log_abs (r_log r) -> l_applied (r_log r') = l_applied (r_log r) -> r_state r' = r_state r -> r_uncommitted r' = r_uncommitted r ->
  r_pending_conf r' = r_pending_conf r -> r_cfg r' = r_cfg r -> prinv X r -> prinv X r'.
Proof. intros H1 H1' H2 H3 H4 H5 []. constructor; unfold unapp in *; rewrite ?H1, ?H1', ?H2, ?H3, ?H4, ?H5; auto. Qed.
Lemma prinv_follower X r : r_state r <> RLeader -> r_uncommitted r = 0 -> prinv X r.
Proof. intros H1 H2. constructor; auto; try contradiction; rewrite H2; [|left]; lia. Qed.
Lemma a_entry_app_new a es i e : a_entry (a_app a es) i = Some e -> a_last a < i -> nnth es (i - a_last a - 1) = Some e.
Proof.
  intros H1 H2. unfold a_entry, a_app in H1. cbn in H1. destruct (_ <? _); [|discriminate].
  unfold a_last in H2. rewrite nnth_app2 in H1 by lia. rewrite <- H1. f_equal. unfold a_last. lia.
Qed.
Lemma unapp_app l l' es : l_applied l <= a_last (log_abs l) -> log_abs l' = a_app (log_abs l) es -> l_applied l' = l_applied l -> unapp l' = unapp l ++ es.
Proof.
  intros Ha H1 H2. unfold unapp. rewrite H1, H2. unfold a_app; cbn [a_base a_ents]. rewrite ndrop_app. f_equal.
  unfold a_last in Ha. replace (_ - _ - _) with 0 by lia. reflexivity.
Qed.
Lemma prim_prinv (X : list entry -> Prop) im r r' : log_msg_wf im -> ninv r -> (m_type im = MsgProp -> X (m_entries im)) -> prim im r r' -> prinv X r -> prinv X r'.
Proof.
  intros Hwf Hn HX Hp HP. pose proof (li_wf _ (ni_log _ Hn)) as W. pose proof (lwf_app _ W) as Wa. pose proof (lwf_com _ W) as Wc.
  assert (Hlast : r_last r = a_last (log_abs (r_log r))) by (unfold r_last; apply log_last_abs, lwf_0; auto).
  revert HX. destruct Hp as [r' HK|r' Hs HS|m Hm|t0 l Ht Hl|r' Hc|r' Hc|Hs|Hs|to lt ctx Hs Hlt Hz|Ht Hmt Hz Hv Hu|r' Hs Hw Hb|es r1 r' Hs Ht Hne Hf Ha|p p' Hs Ht Hr Hmt Hg H1 H2 H3 H4 H5|r' b Hs Hc|Ht Hmt Hs|l last Ht Hmt Hs Hc Ha|l Ht Hmt Hs Hc|l Ht Hmt Hs Hc Hm Hl|r1 Ht Hmt Hs Hr]; intros HX;
    try (apply (prinv_eq X r); auto; fail).
  - destruct HK. apply (prinv_eq X r); congruence.
  - destruct HS as [[] _ _ _]. apply (prinv_eq X r); congruence.
  - apply prinv_follower; [cbn; discriminate|]. unfold become_follower. hide (reset t0 r) r0 Er0. destruct (reset_more _ _ _ Er0) as (_ & _ & _ & _ & _ & A6 & _). exact A6.
  - assert (A : r_state r' = RCandidate) by apply (become_candidate_all _ _ Hc). apply prinv_follower; [congruence|].
    unfold become_candidate in Hc. destruct (is_leader r); [discriminate|]. apply Ok_inj in Hc. subst r'. hide (reset (r_term r + 1) r) r0 Er0. destruct (reset_more _ _ _ Er0) as (_ & _ & _ & _ & _ & A6 & _). exact A6.
  - pose proof (become_pre_all _ _ Hc) as (A0&A1&A2&A3&A4&A5&_). apply prinv_follower; [congruence|].
    unfold become_pre_candidate in Hc. destruct (is_leader r); [discriminate|]. apply Ok_inj in Hc. subst r'. cbn. apply (pi_zero _ _ HP). auto.
  - destruct (become_leader_side _ _ Hb) as [B1 B2]. pose proof (become_leader_all _ _ Hb) as (_ & C1 & C2 & _ & C3 & _).
    destruct (prim_log im r r') as [_ LE]; auto; [apply PLead; auto|].
    destruct LE as [H|es mci pr pr' u t0 H1 H2 H3 H4 H5 H6 H7 H8 H9 H10 H11 H12|mci H1 H2 H3 H4 H5 H6|l H1 H2 H3 H4 H5 H6|c H1 H2 H3 H4 H5|r1 H1 H2 H3 H4 H5 H6 H7 H8 H9]; try congruence.
    + constructor; [|congruence|rewrite B1; lia|rewrite B1; left; lia]. intros _ i e He _. rewrite H in He. rewrite B2, Hlast.
      unfold a_entry in He. destruct (_ <? _); [|discriminate]. apply nnth_Some_lt in He. unfold a_last. lia.
    + constructor; [|congruence|rewrite B1; lia|rewrite B1; left; lia]. intros _ i e He Hcf. rewrite H6 in He. rewrite B2, Hlast.
      destruct (N.le_gt_cases i (a_last (log_abs (r_log r)))) as [Hi|Hi]; auto. exfalso.
      destruct H4 as [[H4 _]|(_ & H4 & _)]; [congruence|]. subst es. apply a_entry_app_new in He; auto. rewrite stamp_nnth in He.
      destruct (nnth [empty_entry] _) as [x|] eqn:Hx; [|discriminate]. apply nnth_In in Hx. destruct Hx as [<-|[]]. inv He. apply Hcf. reflexivity.
  - destruct (filter_prop_spec _ _ _ _ _ Hf) as [F FC]; [lia|].
    destruct (filter_prop_fields _ _ _ _ _ Hf) as [k E1].
    assert (L1 : r_log r1 = r_log r /\ r_term r1 = r_term r /\ r_uncommitted r1 = r_uncommitted r /\ r_cfg r1 = r_cfg r /\ r_state r1 = r_state r) by (rewrite E1; auto 10).
    destruct L1 as (L1 & L2 & L3 & L4 & L5).
    assert (Hpend : r_pending_conf r <= r_pending_conf r1 \/ exists k0, nlen es <> 0 /\ r_pending_conf r1 = r_last r + k0 + 1).
    { destruct FC as [[FC _]|(_ & k0 & FC1 & FC2 & _)]; [left; lia|]. right. exists k0. lia. }
    assert (Hle : forall i e, a_entry (log_abs (r_log r)) i = Some e -> conf_change e -> i <= r_pending_conf r1).
    { intros i e He Hc. pose proof (pi_conf _ _ HP Hs i e He Hc) as Hi. destruct Hpend as [Hp|(k0 & _ & Hp)]; [lia|]. rewrite Hp, Hlast.
      unfold a_entry in He. destruct (_ <? _); [|discriminate]. apply nnth_Some_lt in He. unfold a_last. lia. }
    destruct HP as [HP1 HP2 HP3 HP4]. destruct Ha as [Ha|[_ ->]].
    + destruct (append_unc _ _ _ Ha) as (U1 & U2 & U3 & U4 & U5).
      destruct (append_log es r1 r') as (_ & A2 & _ & A4 & _); [rewrite L1; apply Hn|rewrite L2; apply (ni_term _ Hn); auto|exact Ha|]. cbv zeta in A2, A4.
      rewrite L1, L2 in A2. rewrite L1 in A4.
      constructor.
      * intros _ i e He Hc. rewrite U5. rewrite A2 in He.
        destruct (N.le_gt_cases i (a_last (log_abs (r_log r)))) as [Hi|Hi]; [apply (Hle i e); auto; rewrite a_entry_app in He; auto|].
        apply a_entry_app_new in He; auto. rewrite stamp_nnth in He.
        destruct (nnth es (i - a_last (log_abs (r_log r)) - 1)) as [x|] eqn:Hx; [|discriminate]. cbn in He. inv He.
        assert (Hcx : conf_change x) by exact Hc.
        destruct FC as [[_ FC]|(_ & k0 & FC1 & FC2 & FC3)].
        { rewrite Forall_forall in FC. apply nnth_In in Hx. apply FC in Hx. contradiction. }
        specialize (FC3 _ _ Hx Hcx). lia.
      * rewrite U4, L5. contradiction.
      * rewrite U1, L3. rewrite (unapp_app (r_log r) (r_log r') _ ltac:(lia) A2 A4), payload_app, payload_stamp. lia.
      * rewrite U1, U3, L3, L4 in *. specialize (HX Ht). pose proof (filtered_payload _ _ _ F) as FP.
        destruct U2 as [U2|[U2|U2]]; [right; exists (m_entries im); split; auto; lia| |left; auto].
        rewrite U2, N.add_0_r. auto.
    + constructor; rewrite ?L1, ?L3, ?L4, ?L5; auto.
  - destruct (commit_log _ _ _ (ni_log _ Hn) (ni_term _ Hn (or_introl Hs)) Hc) as (mci & _ & _ & -> & _). destruct b; auto. apply (prinv_eq X r); auto.
  - apply prinv_follower; cbn; [congruence|]. apply (pi_zero _ _ HP); congruence.
  - apply prinv_follower; cbn; [congruence|]. apply (pi_zero _ _ HP); congruence.
  - apply prinv_follower; cbn; [congruence|]. apply (pi_zero _ _ HP); congruence.
  - apply restore_inv in Hr; auto. destruct Hr as (_ & _ & _ & cp & pr & pr' & b & _ & _ & _ & _ & ->). apply prinv_follower; cbn; [congruence|]. apply (pi_zero _ _ HP); congruence.
Qed.

(* ---- storage calls ---- *)
Lemma storage_abs o n n' out : nop_ok o n -> dinv n -> n_step o n = Ok (n', out) ->
  match o with NCompact _ | NCreateSnapshot _ _ _ => True | _ => False end ->
  let l := r_log (rn_raft n) in let l' := r_log (rn_raft n') in
  rn_raft n' = set_r_log l' (rn_raft n) /\ l_applied l' = l_applied l /\ l_committed l' = l_committed l /\
  (log_abs l' = log_abs l \/ exists i t, a_base (log_abs l) < i <= l_applied l /\ log_abs l' = mkALog i t (ndrop (i - a_base (log_abs l)) (a_ents (log_abs l)))).
Proof.
  intros Hok D H Ho. cbv zeta. destruct o; try contradiction; destruct Hok as [_ Hok]; cbn [n_step] in H;
    apply bind_ok in H; destruct H as ([s e] & H1 & H2); inv H2; (split; [reflexivity|]; split; [reflexivity|]; split; [reflexivity|]).
  - destruct D as [[N1 N2 N3] D2 D3 D4 D5 D6 D7 D8 D9].
    pose proof (proj1 (storage_ok_abs _) D2) as (S1 & _). pose proof (ms_compact_abs (node_storage n) i S1) as HC.
    destruct (N.leb_spec i (a_base (ms_abs (node_storage n)))).
    { left. rewrite HC in H1. inv H1. rewrite set_storage_same. auto. }
    unfold set_storage, set_rn_raft. cbn [rn_raft r_log set_r_log].
    destruct (u_snap (l_us (r_log (rn_raft n)))) as [sn|] eqn:Hu; [left; unfold log_abs; cbn; rewrite ?Hu; auto|].
    destruct (log_compact_ok i (r_log (rn_raft n)) N1 Hu Hok) as [_ K2].
    assert (Hb : a_base (log_abs (r_log (rn_raft n))) = a_base (ms_abs (node_storage n))) by (unfold log_abs; rewrite Hu; auto).
    destruct K2 as (st' & t1 & K2 & K3 & K4 & K5 & K6 & K7); [lia|]. unfold node_storage in H1. rewrite H1 in K2. inv K2.
    right. exists i, t1. split; [lia|exact K7].
  - left. assert (Hs : ms_abs s = ms_abs (node_storage n)).
    { unfold ms_create_snapshot in H1. destruct (_ <=? _); [inv H1; auto|]. destruct (_ <? i); [discriminate|].
      destruct (_ <? _); [discriminate|]. destruct (nnth _ _); inv H1; auto. }
    unfold log_abs. cbn [set_storage set_rn_raft rn_raft r_log set_r_log l_us set_l_st l_st]. rewrite Hs. reflexivity.
Qed.
Lemma a_entry_compact a i t k e : a_base a < i -> a_entry (mkALog i t (ndrop (i - a_base a) (a_ents a))) k = Some e -> a_entry a k = Some e.
Proof.
  intros Hi H. unfold a_entry in *. cbn [a_base a_ents] in H. destruct (N.ltb_spec i k); [|discriminate]. destruct (N.ltb_spec (a_base a) k); [|lia].
  rewrite nnth_ndrop in H. rewrite <- H. f_equal. lia.
Qed.

(** The applied mark moves over exactly the entries handed out. *)
Lemma handle_unapp n n' rd : dinv n -> hspec n n' rd ->
  unapp (r_log (rn_raft n)) = rd_committed rd ++ ndrop (l_applied (r_log (rn_raft n')) - a_base (log_abs (r_log (rn_raft n)))) (a_ents (log_abs (r_log (rn_raft n)))).
Proof.
  intros D H. pose proof (handle_delivery _ _ _ D H) as (H1 & H2 & H3 & H4 & H5 & H6). 
  pose proof (lwf_com _ (li_wf _ (ni_log _ (di_ninv _ D)))) as Hc. pose proof (lwf_app _ (li_wf _ (ni_log _ (di_ninv _ D)))) as Ha.
  change (node_applied n') with (l_applied (r_log (rn_raft n'))) in H3. rewrite H3. unfold node_commit, node_hard in *. cbn [rn_status ns_hard hard_state hs_commit] in *.
  pose proof (di_base _ D) as Hbase.
  set (l := r_log (rn_raft n)) in *. set (a := log_abs l) in *. change (node_applied n) with (l_applied l) in *.
  set (b := resume (l_applied l) rd) in *.
  assert (Hu : unapp l = ndrop (b - a_base a) (a_ents a)).
  { unfold unapp. fold a. unfold b, resume in *. destruct (N.eqb_spec (sn_index (rd_snap rd)) 0); [reflexivity|].
    pose proof (ro_snap _ _ (hs_ready _ _ _ H)) as Hrs. fold l in Hrs. destruct (u_snap (l_us l)) as [s|] eqn:Hus; [|rewrite Hrs in n0; cbn in n0; lia].
    assert (Hab : a_base a = sn_index s) by (unfold a, log_abs; rewrite Hus; auto). rewrite Hrs in *. rewrite <- Hab in *.
    f_equal. lia. }
  rewrite Hu, H4.
  match goal with |- context[limit_size ?x ?y] => destruct (limit_size_prefix x y) as [rest Hx]; set (c := limit_size x y) in * end.
  assert (Hsl : a_slice a (b + 1) (l_committed l + 1) = ntake (l_committed l - b) (ndrop (b - a_base a) (a_ents a))).
  { unfold a_slice. f_equal; [lia|]. f_equal. lia. }
  rewrite Hsl in Hx.
  replace (b + nlen c - a_base a) with ((b - a_base a) + nlen c) by lia. rewrite <- ndrop_ndrop.
  pose proof (ntake_ndrop (l_committed l - b) (ndrop (b - a_base a) (a_ents a))) as HX. rewrite Hx, <- app_assoc in HX.
  rewrite <- HX at 2. rewrite ndrop_app, N.sub_diag. rewrite (ndrop_all (nlen c) c) by lia. cbn [app]. rewrite ndrop_0. symmetry. exact HX.
Qed.
Lemma reduce_unc es r : r_uncommitted (reduce_uncommitted es r) = r_uncommitted r - payload es.
Proof.
  unfold reduce_uncommitted. rewrite payloads_eq. destruct (N.eqb_spec (r_uncommitted r) 0); [lia|].
  destruct (N.ltb_spec (r_uncommitted r) (payload es)); cbn [r_uncommitted set_r_uncommitted]; lia.
Qed.

Lemma prinv_mono (X Y : list entry -> Prop) r : (forall es, X es -> Y es) -> prinv X r -> prinv Y r.
Proof. intros H []. constructor; auto. destruct pi_lim0 as [|(es & H1 & H2)]; eauto. Qed.
Lemma n_step_prinv (X : list entry -> Prop) o n n' out : nop_ok o n -> dinv n -> n_step o n = Ok (n', out) -> (forall es, carries o es -> X es) ->
  prinv X (rn_raft n) -> prinv X (rn_raft n').
Proof.
  intros Hok D H HX HP. pose proof (n_step_dinv o n n' out Hok H D) as [D' Hd].
  destruct (nop_plain o) as [Hp|Hp].
  - destruct (n_step_qprs _ _ _ _ Hp (proj1 Hok) H) as (r0 & S & Q).
    assert (I0 : ninv r0 /\ prinv X r0).
    { destruct S as [->|(cc & cp & bb & op & _ & _ & ->)]; [split; [apply D|auto]|]. split; [|apply (prinv_eq X (rn_raft n)); auto].
      destruct (di_ninv _ D). constructor; auto. }
    assert (G : ninv (rn_raft n') /\ prinv X (rn_raft n')); [|apply G].
    revert I0. apply (qprs_ind_inv (call_msg (r_id (rn_raft n)) o) (fun r => ninv r /\ prinv X r)); auto.
    intros im a b Hc [I1 I2] Hpr. pose proof (call_msg_log _ _ _ _ Hp Hok Hc) as Hl. split; [eapply prim_log; eauto|].
    eapply prim_prinv; eauto. intros Ht. eapply HX, call_carries; eauto.
  - assert (St : match o with NCompact _ | NCreateSnapshot _ _ _ => True | _ => False end -> prinv X (rn_raft n')).
    { intros Ho. destruct (storage_abs o n n' out Hok D H Ho) as (A1 & A2 & A3 & A4). cbv zeta in *.
      destruct A4 as [A4|(i & t & A4 & A5)]; [rewrite A1; apply (prinv_eq X (rn_raft n)); auto|].
      destruct HP as [P1 P2 P3 P4]. rewrite A1. constructor; cbn [r_state set_r_log r_log r_pending_conf r_uncommitted r_cfg]; auto.
      - intros Hl j e Hj Hc. rewrite A5 in Hj. apply a_entry_compact in Hj; [|lia]. eauto.
      - unfold unapp in *. rewrite A5, A2; cbn [a_base a_ents]. rewrite ndrop_ndrop. 
        replace (i - a_base (log_abs (r_log (rn_raft n))) + (l_applied (r_log (rn_raft n)) - i)) with (l_applied (r_log (rn_raft n)) - a_base (log_abs (r_log (rn_raft n)))) by lia. auto. }
    destruct o; cbn in Hp; try tauto; destruct Hok as [Hw Hok]; try tauto. clear St.
    destruct Hd as (rd & _ & HS). pose proof (handle_unapp _ _ _ D HS) as HU. pose proof (hs_case _ _ _ HS) as HC.
    destruct HP as [P1 P2 P3 P4]. rewrite HU, payload_app in P3.
    destruct HC as [(u & E1 & E2 & E3 & E4 & E5)|(Hl & rb & r0 & (u & l & E1 & E2 & E3 & E4 & E5) & Ha & E6 & E7 & E8 & E9)]; rewrite reduce_unc in E5.
    + assert (F : r_state (rn_raft n') = r_state (rn_raft n) /\ r_pending_conf (rn_raft n') = r_pending_conf (rn_raft n) /\ r_cfg (rn_raft n') = r_cfg (rn_raft n) /\ r_uncommitted (rn_raft n') = u) by (rewrite E1; auto).
      destruct F as (F1 & F2 & F3 & F4). constructor; rewrite ?F1, ?F2, ?F3, ?F4, ?E2; auto.
      * intros Hl. rewrite E5, P2 by auto. lia.
      * unfold unapp. rewrite E2. lia.
      * destruct P4 as [P4|(es & P4 & P5)]; [left; lia|right; exists es; split; auto; lia].
    + assert (Hwb : lwf (r_log rb)) by (rewrite E1; auto).
      assert (Ht : 0 < r_term rb) by (rewrite E1; apply (ni_term _ (di_ninv _ D)); auto).
      destruct (append_log_w _ _ _ Hwb Ht Ha) as (_ & A2 & A3 & _). cbv zeta in A2, A3.
      destruct (append_unc _ _ _ Ha) as (U1 & U2 & U3 & U4 & U5).
      assert (Lb : log_abs (r_log rb) = log_abs (r_log (rn_raft n))) by (rewrite E1; auto).
      assert (Ub : r_uncommitted rb = u /\ r_cfg rb = r_cfg (rn_raft n) /\ r_state rb = r_state (rn_raft n)) by (rewrite E1; auto). destruct Ub as (Ub1 & Ub2 & Ub3).
      rewrite Lb in *. cbn [payload auto_leave_entry e_data String.length] in U1. change (N.of_nat 0 + 0) with 0 in U1.
      assert (Hr0 : r_last r0 = a_last (log_abs (r_log (rn_raft n))) + 1).
      { unfold r_last. rewrite log_last_abs; [rewrite A2, a_last_app, stamp_len; reflexivity|]. apply lwf_0. eapply append_log_w; eauto. }
      assert (F : r_state (rn_raft n') = r_state r0 /\ r_pending_conf (rn_raft n') = r_last r0 /\ r_cfg (rn_raft n') = r_cfg r0 /\ r_uncommitted (rn_raft n') = r_uncommitted r0) by (rewrite E6; auto).
      destruct F as (F1 & F2 & F3 & F4). constructor; rewrite ?F1, ?F2, ?F3, ?F4, ?U1, ?U3, ?U4, ?Ub1, ?Ub2, ?Ub3; try tauto.
      * intros _ i e He _. rewrite Hr0. rewrite E7, A2 in He. unfold a_entry in He. destruct (_ <? _); [|discriminate]. apply nnth_Some_lt in He.
        unfold a_app in He; cbn [a_base a_ents] in He. rewrite nlen_app, stamp_len in He. unfold a_last. change (nlen [auto_leave_entry]) with 1 in He. lia.
      * unfold unapp. rewrite E7, A2. unfold a_app; cbn [a_base a_ents]. rewrite ndrop_app, payload_app. lia.
      * destruct P4 as [P4|(es & P4 & P5)]; [left; lia|right; exists es; split; auto; lia].
Qed.
Lemma n_run_prinv os : forall (X : list entry -> Prop) n n' outs, n_run_ok os n -> dinv n -> n_run os n = Ok (n', outs) ->
  (forall o es, In o os -> carries o es -> X es) -> prinv X (rn_raft n) -> prinv X (rn_raft n').
Proof.
  induction os as [|o os IH]; intros X n n' outs Hok D H HX HP; cbn [n_run] in H; [inv H; auto|].
  apply bind_ok in H. destruct H as ([n1 out] & H1 & H). apply bind_ok in H. destruct H as ([n2 outs'] & H2 & H). inv H.
  cbn [n_run_ok] in Hok. destruct Hok as [Ho Hos]. rewrite H1 in Hos. pose proof (proj1 (n_step_dinv _ _ _ _ Ho H1 D)) as D1.
  eapply IH; eauto; [intros; eapply HX; eauto; right; auto|]. eapply n_step_prinv; eauto. intros; eapply HX; eauto. left; auto.
Qed.

(* ---- C35 ---- *)
Definition lone (L : N) (l : rlog) : Prop := forall i j ei ej,
  a_entry (log_abs l) i = Some ei -> a_entry (log_abs l) j = Some ej -> conf_change ei -> conf_change ej ->
  i < j -> L < j -> i <= l_applied l.
Definition jinv (t L : N) (r : raft) : Prop := (r_state r = RLeader /\ r_term r = t /\ lone L (r_log r)) \/ lost t r.
Lemma lone_eq L l l' : log_abs l' = log_abs l -> l_applied l <= l_applied l' -> lone L l -> lone L l'.
Proof. unfold lone. intros -> H HL i j ei ej H1 H2 H3 H4 H5 H6. specialize (HL i j ei ej H1 H2 H3 H4 H5 H6). lia. Qed.
Lemma prim_jinv (X : list entry -> Prop) t L im r r' : log_msg_wf im -> ninv r -> prinv X r -> prim im r r' -> jinv t L r -> jinv t L r'.
Proof.
  intros Hwf Hn HP Hp HJ. destruct HJ as [(J1 & J2 & J3)|J]; [|right; eapply prim_lost; eauto].
  destruct (prim_lead _ _ _ J1 Hp) as [(S1 & S2 & _)|S]; [|right; rewrite <- J2; exact S].
  left. split; [exact S1|]. split; [congruence|]. clear S2.
  assert (Q : forall l, log_abs l = log_abs (r_log r) -> l_applied l = l_applied (r_log r) -> lone L l).
  { intros l H1 H2. eapply lone_eq; [exact H1|lia|exact J3]. }
  revert S1. destruct Hp as [r' HK|r' Hs HS|m Hm|t0 l Ht Hl|r' Hc|r' Hc|Hs|Hs|to lt ctx Hs Hlt Hz|Ht Hmt Hz Hv Hu|r' Hs Hw Hb|es r1 r' Hs Ht Hne Hf Ha|p p' Hs Ht Hr Hmt Hg H1 H2 H3 H4 H5|r' b Hs Hc|Ht Hmt Hs|l last Ht Hmt Hs Hc Ha|l Ht Hmt Hs Hc|l Ht Hmt Hs Hc Hm Hl|r1 Ht Hmt Hs Hr]; intros S1;
    try (apply Q; reflexivity); try congruence.
  - apply Q; f_equal; apply HK.
  - destruct HS as [[] _ _ _]. apply Q; f_equal; auto.
  - discriminate S1.
  - unfold become_candidate, is_leader in Hc. rewrite J1 in Hc. discriminate.
  - pose proof (become_pre_all _ _ Hc) as (A0 & _). congruence.
  - pose proof (li_wf _ (ni_log _ Hn)) as W. pose proof (lwf_app _ W) as Wa. pose proof (lwf_com _ W) as Wc.
    assert (Hlast : r_last r = a_last (log_abs (r_log r))) by (unfold r_last; apply log_last_abs, lwf_0; auto).
    destruct (filter_prop_spec _ _ _ _ _ Hf) as [F FC]; [lia|].
    destruct (filter_prop_fields _ _ _ _ _ Hf) as [k E1].
    assert (L1 : r_log r1 = r_log r /\ r_term r1 = r_term r) by (rewrite E1; auto). destruct L1 as (L1 & L2).
    destruct Ha as [Ha|[_ ->]]; [|apply Q; f_equal; auto].
    destruct (append_log es r1 r') as (_ & A2 & _ & A4 & _); [rewrite L1; apply Hn|rewrite L2; apply (ni_term _ Hn); auto|exact Ha|]. cbv zeta in A2, A4.
    rewrite L1, L2 in A2. rewrite L1 in A4. intros i j ei ej Hi Hj Ci Cj Hij HLj. rewrite A2 in Hi, Hj. rewrite A4.
    assert (New : forall i e, a_entry (a_app (log_abs (r_log r)) (stamp (r_term r) (a_last (log_abs (r_log r)) + 1) es)) i = Some e ->
        a_last (log_abs (r_log r)) < i -> conf_change e -> exists x, nnth es (i - a_last (log_abs (r_log r)) - 1) = Some x /\ conf_change x).
    { intros i0 e0 He Hl0 Hc0. apply a_entry_app_new in He; auto. rewrite stamp_nnth in He.
      destruct (nnth es (i0 - a_last (log_abs (r_log r)) - 1)) as [x|] eqn:Hx; [|discriminate]. inv He. eauto. }
    destruct (N.le_gt_cases j (a_last (log_abs (r_log r)))) as [Bj|Bj].
    { rewrite a_entry_app in Hi, Hj by lia. eapply (J3 i j); eauto. }
    destruct (New j ej Hj Bj Cj) as (xj & Xj & Cxj).
    destruct FC as [[_ FC]|(FP & k0 & FC1 & FC2 & FC3)].
    { exfalso. rewrite Forall_forall in FC. apply nnth_In in Xj. apply FC in Xj. contradiction. }
    pose proof (FC3 _ _ Xj Cxj) as Kj.
    destruct (N.le_gt_cases i (a_last (log_abs (r_log r)))) as [Bi|Bi].
    + rewrite a_entry_app in Hi by lia. pose proof (pi_conf _ _ HP J1 _ _ Hi Ci). lia.
    + destruct (New i ei Hi Bi Ci) as (xi & Xi & Cxi). pose proof (FC3 _ _ Xi Cxi). lia.
  - destruct (commit_log _ _ _ (ni_log _ Hn) (ni_term _ Hn (or_introl Hs)) Hc) as (mci & _ & _ & -> & _). destruct b; apply Q; auto.
Qed.
Lemma n_step_jinv (X : list entry -> Prop) t L o n n' out : nop_ok o n -> dinv n -> n_step o n = Ok (n', out) -> (forall es, carries o es -> X es) ->
  prinv X (rn_raft n) -> jinv t L (rn_raft n) -> jinv t L (rn_raft n').
Proof.
  intros Hok D H HX HP HJ. pose proof (n_step_dinv o n n' out Hok H D) as [D' Hd].
  destruct (nop_plain o) as [Hp|Hp].
  - destruct (n_step_qprs _ _ _ _ Hp (proj1 Hok) H) as (r0 & S & Q).
    assert (I0 : ninv r0 /\ prinv X r0 /\ jinv t L r0).
    { destruct S as [->|(cc & cp & bb & op & _ & _ & ->)]; [split; [apply D|auto]|]. split; [|split; [apply (prinv_eq X (rn_raft n)); auto|exact HJ]].
      destruct (di_ninv _ D). constructor; auto. }
    assert (G : ninv (rn_raft n') /\ prinv X (rn_raft n') /\ jinv t L (rn_raft n')); [|apply G].
    revert I0. apply (qprs_ind_inv (call_msg (r_id (rn_raft n)) o) (fun r => ninv r /\ prinv X r /\ jinv t L r)); auto.
    intros im a b Hc (I1 & I2 & I3) Hpr. pose proof (call_msg_log _ _ _ _ Hp Hok Hc) as Hl. split; [eapply prim_log; eauto|].
    split; [|eapply prim_jinv; eauto].
    eapply prim_prinv; eauto. intros Ht. eapply HX, call_carries; eauto.
  - assert (St : match o with NCompact _ | NCreateSnapshot _ _ _ => True | _ => False end -> jinv t L (rn_raft n')).
    { intros Ho. destruct (storage_abs o n n' out Hok D H Ho) as (A1 & A2 & A3 & A4). cbv zeta in *.
      destruct HJ as [(J1 & J2 & J3)|J]; [left; split; [rewrite A1; auto|]; split; [rewrite A1; auto|]|right; eapply lost_eq; [| |exact J]; rewrite A1; auto].
      destruct A4 as [A4|(i & t' & A4 & A5)]; [eapply lone_eq; [exact A4|lia|exact J3]|].
      intros a b ea eb Ha Hb. rewrite A5 in Ha, Hb. rewrite A2. apply a_entry_compact in Ha; [|lia]. apply a_entry_compact in Hb; [|lia]. eapply J3; eauto. }
    destruct o; cbn in Hp; try tauto; destruct Hok as [Hw Hok]; try tauto. clear St.
    destruct Hd as (rd & _ & HS). pose proof (hs_case _ _ _ HS) as HC. pose proof (hs_app_le _ _ _ HS) as Hle. rewrite <- (hs_applied _ _ _ HS) in Hle.
    destruct HC as [(u & E1 & E2 & E3 & E4 & E5)|(Hl & rb & r0 & (u & l & E1 & E2 & E3 & E4 & E5) & Ha & E6 & E7 & E8 & E9)].
    + assert (F : r_state (rn_raft n') = r_state (rn_raft n) /\ r_term (rn_raft n') = r_term (rn_raft n)) by (rewrite E1; auto).
      destruct F as (F1 & F2). destruct HJ as [(J1 & J2 & J3)|J]; [left|right; eapply lost_eq; [| |exact J]; auto].
      split; [congruence|]. split; [congruence|]. eapply lone_eq; [exact E2|lia|exact J3].
    + assert (Hwb : lwf (r_log rb)) by (rewrite E1; auto).
      assert (Ht : 0 < r_term rb) by (rewrite E1; apply (ni_term _ (di_ninv _ D)); auto).
      destruct (append_log_w _ _ _ Hwb Ht Ha) as (_ & A2 & A3 & _). cbv zeta in A2, A3.
      destruct (append_entry_fields _ _ _ Ha) as (lx & px & ux & Ef).
      assert (Lb : log_abs (r_log rb) = log_abs (r_log (rn_raft n))) by (rewrite E1; auto). rewrite Lb in *.
      assert (F : r_state (rn_raft n') = r_state (rn_raft n) /\ r_term (rn_raft n') = r_term (rn_raft n)).
      { rewrite E6. cbn. rewrite Ef. cbn. rewrite E1. auto. }
      destruct F as (F1 & F2). destruct HJ as [(J1 & J2 & J3)|J]; [left|right; eapply lost_eq; [| |exact J]; auto].
      split; [congruence|]. split; [congruence|]. intros i j ei ej Hi Hj Ci Cj Hij HLj. rewrite E7, A2 in Hi, Hj.
      assert (Hjl : j <= a_last (log_abs (r_log (rn_raft n))) + 1).
      { unfold a_entry in Hj. destruct (_ <? _); [|discriminate]. apply nnth_Some_lt in Hj.
        unfold a_app in Hj; cbn [a_base a_ents] in Hj. rewrite nlen_app, stamp_len in Hj. unfold a_last. change (nlen [auto_leave_entry]) with 1 in Hj. lia. }
      rewrite a_entry_app in Hi by lia. destruct (N.le_gt_cases j (a_last (log_abs (r_log (rn_raft n))))) as [Bj|Bj].
      * rewrite a_entry_app in Hj by lia. specialize (J3 i j ei ej Hi Hj Ci Cj Hij HLj). lia.
      * pose proof (pi_conf _ _ HP Hl _ _ Hi Ci). lia.
Qed.
Lemma n_run_jinv (X : list entry -> Prop) t L os : forall n n' outs, n_run_ok os n -> dinv n -> n_run os n = Ok (n', outs) ->
  (forall o es, In o os -> carries o es -> X es) -> prinv X (rn_raft n) -> jinv t L (rn_raft n) -> jinv t L (rn_raft n').
Proof.
  induction os as [|o os IH]; intros n n' outs Hok D H HX HP HJ; cbn [n_run] in H; [inv H; auto|].
  apply bind_ok in H. destruct H as ([n1 out] & H1 & H). apply bind_ok in H. destruct H as ([n2 outs'] & H2 & H). inv H.
  cbn [n_run_ok] in Hok. destruct Hok as [Ho Hos]. rewrite H1 in Hos. pose proof (proj1 (n_step_dinv _ _ _ _ Ho H1 D)) as D1.
  assert (HX1 : forall es, carries o es -> X es) by (intros; eapply HX; eauto; left; auto).
  eapply IH; eauto; [intros; eapply HX; eauto; right; auto|eapply n_step_prinv; eauto|eapply n_step_jinv; eauto].
Qed.
Lemma created_fresh c tape n : rn_new c tape = Ok n -> exists s cp, c_storage c = Some s /\ fresh_raft c s cp (rn_raft n).
Proof.
  intros H. apply rn_new_spec in H. destruct H as (r & H & ->). apply raft_new_spec in H.
  destruct H as (s & cp & _ & Hs & _ & _ & _ & _ & F). exists s, cp. auto.
Qed.
Lemma created_prinv c tape (s : mstorage) n (X : list entry -> Prop) : c_storage c = Some s -> rn_new c tape = Ok n -> prinv X (rn_raft n).
Proof.
  intros Hs H. destruct (created_fresh _ _ _ H) as (s' & cp & H1 & H2). apply prinv_follower; [rewrite (fr_state _ _ _ _ H2); discriminate|apply H2].
Qed.
Lemma node_at_prinv n : node_at n -> prinv (fun _ => True) (rn_raft n).
Proof.
  intros (c & tape & s & n0 & os & outs & H1 & H2 & H3 & H4 & H5). eapply n_run_prinv; eauto; [|eapply created_prinv; eauto].
  eapply node_at_dinv. exists c, tape, s, n0, [], []. cbn. auto 10.
Qed.

(** C35: at any moment of a reign, of two membership changes in the leader's log the later of which
    was proposed in that reign (after the moment [n]), the earlier one has been applied by it.  So
    at most one membership change is in flight, whatever the earlier terms left in the log. *)
Theorem C35_one_change_in_flight n os n' outs i j ei ej :
  node_at n -> n_run_ok os n -> n_run os n = Ok (n', outs) ->
  node_role n = RLeader -> node_role n' = RLeader -> node_term n' = node_term n ->
  holds_entry n' i ei -> holds_entry n' j ej -> conf_change ei -> conf_change ej ->
  i < j -> node_last n < j -> i <= node_applied n'.
Proof.
  intros Ha Hok H R1 R2 Ht Hi Hj Ci Cj Hij HL. pose proof (node_at_dinv _ Ha) as D. pose proof (n_run_dinv _ _ _ _ Hok H D) as D'.
  rewrite holds_abs in Hi, Hj by auto.
  assert (J : jinv (r_term (rn_raft n)) (node_last n) (rn_raft n)).
  { left. split; [exact R1|]. split; [reflexivity|]. intros a b ea eb _ Hb _ _ _ Hlb. exfalso.
    unfold node_last in Hlb. rewrite log_last_abs in Hlb by (apply lwf_0, D).
    unfold a_entry in Hb. destruct (_ <? _); [|discriminate]. apply nnth_Some_lt in Hb. unfold a_last in Hlb. lia. }
  apply (n_run_jinv (fun _ => True) _ _ os n n' outs Hok D H) in J; auto; [|apply node_at_prinv; auto].
  destruct J as [(_ & _ & J)|J]; [|exfalso; exact (lost_leader _ _ R2 Ht J)]. eapply (J i j); eauto.
Qed.
(** A leader that accepts the proposal of a membership change appends it or blanks it.  It appends it
    only if it fits the joint state and every membership change in the log has been applied. *)
Theorem C35_accepted n cc n' out t d :
  node_at n -> n_step (NProposeCC cc) n = Ok (n', out) -> o_err out = None -> node_role n = RLeader ->
  cci_marshal cc = Ok (t, d) -> t <> EntryNormal ->
  exists y, holds_entry n' (node_last n + 1) y /\
    (blank y \/
     (e_type y = t /\ e_data y = d /\
      fits n (mkEntry 0 0 t d) /\
      (forall i e, holds_entry n i e -> conf_change e -> i <= node_applied n))).
Proof.
  intros Ha H He Hl Hm Ht. pose proof (node_at_dinv _ Ha) as D.
  assert (Hok : nop_ok (NProposeCC cc) n) by (split; exact I).
  pose proof (proj1 (n_step_dinv _ _ _ _ Hok H D)) as D'. pose proof (node_at_prinv _ Ha) as HP.
  cbn [n_step] in H. apply bind_ok in H. destruct H as ([n1 e1] & H & Hx). inv Hx. cbn in He. subst e1.
  unfold rn_propose_conf_change in H. rewrite Hm in H. cbn [bind] in H.
  assert (PR : prop_result n n' None [mkEntry 0 0 t d]).
  { refine (step_prop_result (set_m_entries [mkEntry 0 0 t d] (new_msg MsgProp)) _ _ _ D eq_refl eq_refl H D'). }
  cbn [prop_result] in PR.
  destruct PR as [(_ & R2 & R3 & R4 & R5 & R6)|(R & _)]; [|congruence].
  destruct (R6 0 _ (nnth_cons0 _ _)) as (y & Y1 & Y2 & Y3 & Y4). exists y. rewrite N.add_0_r in Y1. split; [exact Y1|].
  destruct Y4 as [(Y4 & Y5 & Y6)|[_ Y4]]; [|left; exact Y4]. cbn [e_type e_data] in Y4, Y5. right. split; [exact Y4|]. split; [exact Y5|]. split; [exact Y6|].
  intros i e Hi Hc.
  rewrite holds_abs in Hi by auto.
  destruct (N.le_gt_cases i (node_last n)) as [Bi|Bi]; [|exfalso; unfold node_last in Bi; rewrite log_last_abs in Bi by (apply lwf_0, D);
    unfold a_entry in Hi; destruct (_ <? _); [|discriminate]; apply nnth_Some_lt in Hi; unfold a_last in Bi; lia].
  assert (J : jinv (r_term (rn_raft n)) (node_last n) (rn_raft n)).
  { left. split; [exact Hl|]. split; [reflexivity|]. intros a b ea eb _ Hb _ _ _ Hlb. exfalso.
    unfold node_last in Hlb. rewrite log_last_abs in Hlb by (apply lwf_0, D).
    unfold a_entry in Hb. destruct (_ <? _); [|discriminate]. apply nnth_Some_lt in Hb. unfold a_last in Hlb. lia. }
  assert (H' : n_step (NProposeCC cc) n = Ok (n', mkOut None None)).
  { cbn [n_step]. unfold rn_propose_conf_change. rewrite Hm. cbn [bind]. rewrite H. reflexivity. }
  apply (n_step_jinv (fun _ => True) _ _ (NProposeCC cc) n n' _ Hok D H') in J; auto.
  destruct J as [(_ & _ & J)|J]; [|exfalso; exact (lost_leader _ _ R2 R3 J)].
  assert (Hap : l_applied (r_log (rn_raft n')) = l_applied (r_log (rn_raft n))).
  { destruct (n_step_nprs (NProposeCC cc) n n' _ I Hok H') as (A1 & _). destruct (nprs_ninv _ _ A1 (di_ninv _ D)) as [_ [K1 K2 K3 K4 K5 K6 _ _]]. auto. }
  change (node_applied n) with (l_applied (r_log (rn_raft n))). rewrite <- Hap.
  apply (J i (node_last n + 1) e y); try lia; auto.
  - specialize (R5 i e Bi). rewrite !holds_abs in R5 by auto. apply R5. exact Hi.
  - rewrite holds_abs in Y1 by auto. exact Y1.
  - unfold conf_change. congruence.
Qed.

Lemma unapp_entries n : dinv n -> unapplied_entries n (unapp (r_log (rn_raft n))).
Proof.
  intros D. unfold unapplied_entries, node_applied, node_first, node_last. cbn [rn_status ns_applied].
  pose proof (li_wf _ (ni_log _ (di_ninv _ D))) as W. rewrite (log_last_abs _ (lwf_0 _ W)), log_first_abs.
  pose proof (lwf_com _ W) as Hc. pose proof (lwf_app _ W) as Hap. unfold unapp, a_first, a_last in *. rewrite nlen_ndrop. split; [lia|].
  intros k x Hk. rewrite holds_abs by auto. rewrite nnth_ndrop in Hk. unfold a_entry.
  destruct (N.ltb_spec (a_base (log_abs (r_log (rn_raft n)))) (N.max (l_applied (r_log (rn_raft n)) + 1) (a_base (log_abs (r_log (rn_raft n))) + 1) + k)); [|lia].
  rewrite <- Hk. f_equal. lia.
Qed.
(** C36: the tracked size stays within the limit, except for the excess of one single proposal that
    was let in while nothing was tracked; and it never exceeds the payload that really is unapplied. *)
Theorem C36_tracked_size c tape s n0 os n outs :
  c_storage c = Some s -> storage_ok s -> rn_new c tape = Ok n0 -> n_run_ok os n0 -> n_run os n0 = Ok (n, outs) ->
  (tracked n <= size_limit c \/ exists o es, In o os /\ carries o es /\ tracked n <= payload es) /\
  (exists us, unapplied_entries n us /\ tracked n <= payload us).
Proof.
  intros H1 H2 H3 H4 H5. assert (D0 : dinv n0) by (eapply node_at_dinv; exists c, tape, s, n0, [], []; cbn; auto 10).
  pose proof (n_run_dinv _ _ _ _ H4 H5 D0) as D.
  pose proof (n_run_prinv os (fun es => exists o, In o os /\ carries o es) n0 n outs H4 D0 H5 (fun o es Hi Hc => ex_intro _ o (conj Hi Hc)) (created_prinv _ _ _ _ _ H1 H3)) as [_ _ P3 P4].
  destruct (created_fresh _ _ _ H3) as (s' & cp & _ & F).
  assert (Hcfg : r_cfg (rn_raft n) = cfg_of c) by (rewrite <- (fr_cfg _ _ _ _ F); exact (proj1 (aprs_tv _ _ (n_run_aprs _ _ _ _ [] (nop_ok_wf _ _ H4 _ _ H5) H5)))).
  rewrite Hcfg in P4. split.
  - destruct P4 as [P4|(es & (o & Ho1 & Ho2) & P4)]; [left; exact P4|right; eauto].
  - exists (unapp (r_log (rn_raft n))). split; [apply unapp_entries; auto|exact P3].
Qed.

Lemma proposes_result o n n' out es : node_at n -> nop_ok o n -> n_step o n = Ok (n', out) -> proposes o es ->
  prop_result n n' (o_err out) es.
Proof.
  intros Ha Hok H [Hc Ht]. pose proof (node_at_dinv _ Ha) as D. pose proof (proj1 (n_step_dinv _ _ _ _ Hok H D)) as D'.
  destruct o; cbn in Hc; try contradiction; cbn [n_step] in H; apply bind_ok in H; destruct H as ([n1 e1] & H & Hx); inv Hx; cbn [o_err].
  - refine (step_prop_result (propose_msg (r_id (rn_raft n)) data) _ _ _ D eq_refl eq_refl H D').
  - destruct Hc as (t & d & Hm & ->). unfold rn_propose_conf_change in H. rewrite Hm in H. cbn [bind] in H.
    refine (step_prop_result (set_m_entries [mkEntry 0 0 t d] (new_msg MsgProp)) _ _ _ D eq_refl eq_refl H D').
  - destruct Hc as [Hc ->]. unfold rn_step in H. rewrite Hc in H. cbn [is_local_msg is_response_msg negb] in H. rewrite orb_true_r in H.
    apply step_prop_result; auto.
Qed.
(** C37, the part that holds: a proposal is accepted only by a leader that appended it or by a
    follower that passed it on; a refused one is reported as dropped, and of the node's state only
    the mark of the last proposed membership change may have moved - nothing at all if the proposal
    holds no membership change.  (Missing: "changes nothing" for membership changes, refuted below.) *)
Theorem C37_proposals_partial o n n' out es :
  node_at n -> nop_ok o n -> n_step o n = Ok (n', out) -> proposes o es ->
  match o_err out with
  | None => appended n n' es \/ passed_on n n' es
  | Some x => x = EDropped /\
      (exists k, n' = set_rn_raft (set_r_pending_conf k (rn_raft n)) n) /\
      (Forall (fun e => e_type e = EntryNormal) es -> n' = n)
  end.
Proof. intros. eapply proposes_result; eauto. Qed.

Lemma prop_step m n n' e : m_type m = MsgProp -> m_term m = 0 -> r_state (rn_raft n) = RLeader -> rn_raft_step m n = Ok (n', e) ->
  exists r1, leader_prop m (rn_raft n) = Ok (r1, e).
Proof.
  intros Hc Ht Hl H. unfold rn_raft_step in H. apply bind_ok in H. destruct H as ([r1 e1] & H & Hy). exists r1.
  assert (e1 = e) by (injection Hy; auto). subst e1. clear Hy. unfold step in H. rewrite Ht in H. cbn [N.eqb] in H.
  unfold step_dispatch in H. rewrite Hc, Hl in H. unfold step_leader in H. rewrite Hc in H. exact H.
Qed.
Lemma proposes_step o n n' out es : proposes o es -> r_state (rn_raft n) = RLeader -> n_step o n = Ok (n', out) ->
  exists m r1, m_type m = MsgProp /\ m_entries m = es /\ leader_prop m (rn_raft n) = Ok (r1, o_err out).
Proof.
  intros [Hc Ht] Hl H. destruct o; cbn in Hc; try contradiction; cbn [n_step] in H; apply bind_ok in H; destruct H as ([n1 e1] & H & Hy);
    (assert (Ho : o_err out = e1) by (apply Ok_inj in Hy; apply pair_equal_spec in Hy; destruct Hy as [_ <-]; reflexivity)); rewrite Ho; clear Hy Ho.
  - destruct (prop_step (propose_msg (r_id (rn_raft n)) data) n n1 e1 eq_refl eq_refl Hl H) as [r1 G].
    exists (propose_msg (r_id (rn_raft n)) data), r1. split; [reflexivity|]. split; [|exact G]. cbn in Hc. symmetry. exact Hc.
  - destruct Hc as (t & d & Hm & ->). unfold rn_propose_conf_change in H. rewrite Hm in H. cbn [bind] in H.
    destruct (prop_step (set_m_entries [mkEntry 0 0 t d] (new_msg MsgProp)) n n1 e1 eq_refl eq_refl Hl H) as [r1 G].
    exists (set_m_entries [mkEntry 0 0 t d] (new_msg MsgProp)), r1. split; [reflexivity|]. split; [reflexivity|exact G].
  - destruct Hc as [Hc ->]. unfold rn_step in H. rewrite Hc in H. cbn [is_local_msg is_response_msg negb] in H. rewrite orb_true_r in H.
    destruct (prop_step m n n1 e1 Hc (Ht m eq_refl) Hl H) as [r1 G]. exists m, r1. auto.
Qed.
(** C36: the leader refuses a proposal only while a transfer is pending, when it is no longer part
    of the configuration, or because the limit would be exceeded, something is already tracked
    (hence unapplied), and the proposal is not empty; and then its log is what it was. *)
Theorem C36_refusal o n n' out es :
  node_at n -> nop_ok o n -> n_step o n = Ok (n', out) -> proposes o es ->
  node_role n = RLeader -> o_err out <> None ->
  (r_transferee (rn_raft n) <> 0 \/ mget (node_id n) (ns_progress (rn_status n)) = None \/
   (0 < payload es /\ exists us, unapplied_entries n us /\ 0 < payload us /\
      k_max_uncommitted (r_cfg (rn_raft n)) < payload us + payload es)) /\
  node_last n' = node_last n /\ node_commit n' = node_commit n /\ forall i e, holds_entry n' i e <-> holds_entry n i e.
Proof.
  intros Ha Hok H Hpr Hl He. pose proof (proposes_result _ _ _ _ _ Ha Hok H Hpr) as PR.
  destruct (o_err out) as [x|] eqn:Hx; [|congruence]. destruct PR as (_ & (k & Ek) & _).
  split; [|rewrite Ek; split; [reflexivity|split; [reflexivity|intros; reflexivity]]].
  pose proof (node_at_dinv _ Ha) as D. pose proof (node_at_prinv _ Ha) as [_ _ P3 _].
  destruct (proposes_step _ _ _ _ _ Hpr Hl H) as (m & r1 & Gt & Ge & G). rewrite Hx in G.
  unfold leader_prop in G. destruct (is_nil (m_entries m)); [discriminate|].
  unfold node_id. cbn [rn_status ns_id ns_progress]. replace (is_leader (rn_raft n)) with true by (unfold is_leader; unfold node_role in Hl; cbn in Hl; rewrite Hl; auto). destruct (trk_get (r_id (rn_raft n)) (r_trk (rn_raft n))) eqn:Hg; [|right; left; exact Hg].
  destruct (N.eqb_spec (r_transferee (rn_raft n)) 0) as [Hz|Hz]; cbn [negb] in G; [|left; exact Hz].
  right; right. apply bind_ok in G. destruct G as ([es' r2] & Hf & G). apply bind_ok in G. destruct G as ([r3|] & Ha' & G).
  { unfold okr in G. apply bind_ok in G. destruct G as (? & _ & G). discriminate. }
  apply append_entry_inv in Ha'. cbv zeta in Ha'. rewrite payloads_eq, payload_stamp in Ha'.
  pose proof (li_wf _ (ni_log _ (di_ninv _ D))) as W. pose proof (lwf_com _ W) as Hc. pose proof (lwf_app _ W) as Hap.
  destruct (filter_prop_spec _ _ _ _ _ Hf) as [F _].
  { unfold r_last. rewrite log_last_abs by (apply lwf_0; auto). lia. }
  apply filtered_payload in F. rewrite Ge in F. destruct (filter_prop_fields _ _ _ _ _ Hf) as [k' ->]. cbn [r_uncommitted set_r_pending_conf r_cfg] in Ha'.
  split; [lia|]. exists (unapp (r_log (rn_raft n))). split; [apply unapp_entries; auto|]. lia.
Qed.
(** Without membership changes that is also when it refuses: exactly when the tracked size is
    positive and the limit would be exceeded. *)
Theorem C36_exact n d n' out :
  node_at n -> n_step (NPropose d) n = Ok (n', out) -> node_role n = RLeader ->
  r_transferee (rn_raft n) = 0 -> mget (node_id n) (ns_progress (rn_status n)) <> None ->
  (o_err out = Some EDropped <->
   0 < tracked n /\ 0 < N.of_nat (String.length d) /\
   k_max_uncommitted (r_cfg (rn_raft n)) < tracked n + N.of_nat (String.length d)).
Proof.
  intros Ha H Hl Ht Hg. destruct (proposes_step (NPropose d) n n' out [mkEntry 0 0 EntryNormal d]) as (m & r1 & Gt & Ge & G); auto.
  { split; [reflexivity|discriminate]. }
  generalize dependent (o_err out). intros e1 G. clear H. unfold leader_prop in G. rewrite Ge in G. cbn [is_nil] in G.
  unfold node_id in Hg. cbn [rn_status ns_id ns_progress] in Hg. replace (is_leader (rn_raft n)) with true in Hg by (unfold is_leader; unfold node_role in Hl; cbn in Hl; rewrite Hl; auto). unfold trk_get in G. destruct (mget (r_id (rn_raft n)) (t_progress (r_trk (rn_raft n)))); [|congruence].
  rename G into H. rewrite Ht in H. cbn [N.eqb negb filter_prop entry_cc e_type bind] in H.
  apply bind_ok in H. destruct H as ([r2|] & H1 & H); apply append_entry_inv in H1; cbv zeta in H1; rewrite payloads_eq, payload_stamp in H1; cbn [payload e_data] in H1; unfold tracked.
  - destruct H1 as (H1 & _). unfold okr in H. apply bind_ok in H. destruct H as (? & _ & H). assert (e1 = None) by (injection H; auto). subst e1. split; [discriminate|]. intros. exfalso. rewrite N.add_0_r in H1. lia.
  - assert (e1 = Some EDropped) by (injection H; auto). subst e1. split; auto. intros _. rewrite N.add_0_r in H1. lia.
Qed.
End Props.

(** Concrete cases.  A leader whose uncommitted payload is limited to 3 bytes. *)
Definition ex_cfg_lim : config := mkConfig 1 10 1 (Some ex_storage) 0 1000 1000 3 4 false false RoSafe false.
Definition ex_add : cci := CCv1 (mkConfChange CcAddNode 4 EmptyString 0).
Definition ex_full : list nop := ex_elect ++ [NStep (ex_app_resp 2 3 8); NHandle; NPropose "xyz"; NHandle].
(** What the application does next: the proposal is acknowledged and applied, the change retried. *)
Definition ex_retry : list nop := [NStep (ex_app_resp 2 3 9); NHandle; NProposeCC ex_add].

Definition type_at {E : Env} (i : N) (x : res (rawnode * list nout)) : option etype :=
  match x with
  | Ok (n, _) => match log_slice i (i + 1) UINT64_MAX (r_log (rn_raft n)) with Ok (SOk [e]) => Some (e_type e) | _ => None end
  | _ => None
  end.
Definition differ_b {E : Env} (i : N) (os : list nop) (n n' : rawnode) (out : nout) : bool :=
  match o_err out, type_at i (n_run os n), type_at i (n_run os n') with
  | Some EDropped, Some EntryConfChange, Some EntryNormal => true
  | _, _, _ => false
  end.
Lemma differ_spec {E : Env} i os n n' out : differ_b i os n n' out = true ->
  o_err out <> None /\ exists a oa b ob e e', n_run os n = Ok (a, oa) /\ n_run os n' = Ok (b, ob) /\
    holds_entry a i e /\ holds_entry b i e' /\ e_type e <> e_type e'.
Proof.
  unfold differ_b, type_at. destruct (o_err out) as [[]|]; try discriminate.
  destruct (n_run os n) as [[a oa]| | |]; try discriminate.
  destruct (log_slice i (i + 1) UINT64_MAX (r_log (rn_raft a))) as [[[|e [|]]|]| | |] eqn:Ha; try discriminate.
  destruct (e_type e) eqn:Te; try discriminate. destruct (n_run os n') as [[b ob]| | |]; try discriminate.
  destruct (log_slice i (i + 1) UINT64_MAX (r_log (rn_raft b))) as [[[|e' [|]]|]| | |] eqn:Hb; try discriminate.
  destruct (e_type e') eqn:Te'; try discriminate. intros _. split; [discriminate|]. exists a, oa, b, ob, e, e'.
  repeat split; auto; congruence.
Qed.
(** C37, the part that fails: a dropped proposal can change what happens later.  A membership change
    refused because of the size limit leaves its mark, and a retry is then silently blanked. *)
Theorem C37_dropped_changes_nothing_refuted :
  ~ (forall (E : Env) o n n' out es, node_at n -> nop_ok o n -> n_step o n = Ok (n', out) -> proposes o es -> o_err out <> None ->
     forall os a oa b ob, n_run os n = Ok (a, oa) -> n_run os n' = Ok (b, ob) ->
     forall i e, holds_entry a i e <-> holds_entry b i e).
Proof.
  intros H.
  assert (C : exists n n' out, @node_at ex_env_cc n /\ nop_ok (NProposeCC ex_add) n /\ @n_step ex_env_cc (NProposeCC ex_add) n = Ok (n', out) /\
    @differ_b ex_env_cc 10 ex_retry n n' out = true).
  { apply (case_ok ex_cfg_lim ex_tape ex_full _ _). vm_compute. reflexivity. }
  destruct C as (n & n' & out & C1 & C2 & C3 & C4). apply differ_spec in C4.
  destruct C4 as (D1 & a & oa & b & ob & e & e' & D2 & D3 & D4 & D5 & D6).
  assert (P : @proposes ex_env_cc (NProposeCC ex_add) [mkEntry 0 0 EntryConfChange "1"]).
  { split; [|discriminate]. exists EntryConfChange, "1"%string. split; reflexivity. }
  pose proof (proj1 (H ex_env_cc _ _ _ _ _ C1 C2 C3 P D1 ex_retry a oa b ob D2 D3 10 e) D4) as X.
  unfold holds_entry in X, D5. rewrite X in D5. injection D5 as ->. apply D6. reflexivity.
Qed.

(** C35: with everything applied a leader accepts a membership change and keeps it, and the next one
    is blanked. *)
Definition acked_all : list nop := ex_elect ++ [NStep (ex_app_resp 2 3 8); NHandle].
Example C35_example_kept : exists n n' out, @node_at ex_env_cc n /\ nop_ok (NProposeCC ex_add) n /\ @n_step ex_env_cc (NProposeCC ex_add) n = Ok (n', out) /\
  (match o_err out, @type_at ex_env_cc 9 (Ok (n', [])) with None, Some EntryConfChange => true | _, _ => false end) = true.
Proof. apply (case_ok (ex_cfg 1) ex_tape acked_all _ _). vm_compute. reflexivity. Qed.
Example C35_example_blanked : exists n n' out, @node_at ex_env_cc n /\ nop_ok (NProposeCC ex_add) n /\ @n_step ex_env_cc (NProposeCC ex_add) n = Ok (n', out) /\
  (match o_err out, @type_at ex_env_cc 9 (Ok (n', [])), @type_at ex_env_cc 10 (Ok (n', [])) with
   | None, Some EntryConfChange, Some EntryNormal => true | _, _, _ => false end) = true.
Proof. apply (case_ok (ex_cfg 1) ex_tape (acked_all ++ [NProposeCC ex_add]) _ _). vm_compute. reflexivity. Qed.
(** C36: the fourth byte is refused, and an empty proposal is not; the first proposal may be larger than the limit. *)
Example C36_example : exists n n' out, @node_at ex_env n /\ nop_ok (NPropose "w") n /\ @n_step ex_env (NPropose "w") n = Ok (n', out) /\
  ((tracked n =? 3) && match o_err out with Some EDropped => true | _ => false end) = true.
Proof. apply (case_ok ex_cfg_lim ex_tape ex_full _ _). vm_compute. reflexivity. Qed.
Example C36_example_large : exists n n' out, @node_at ex_env n /\ nop_ok (NPropose "vwxyz") n /\ @n_step ex_env (NPropose "vwxyz") n = Ok (n', out) /\
  ((tracked n' =? 5) && match o_err out with None => true | _ => false end) = true.
Proof. apply (case_ok ex_cfg_lim ex_tape ex_elect _ _). vm_compute. reflexivity. Qed.
(** C37: a follower that knows its leader passes a proposal on; without leader it is dropped. *)
Example C37_example_passed : exists n n' out, @node_at ex_env n /\ nop_ok (NPropose "w") n /\ @n_step ex_env (NPropose "w") n = Ok (n', out) /\
  (match node_role n, o_err out, pending n' with
   | RFollower, None, [m] => mtype_eqb (m_type m) MsgProp && (m_to m =? 2) | _, _, _ => false end) = true.
Proof. apply (case_ok (ex_cfg 1) ex_tape [NStep (ex_beat); NHandle] _ _). vm_compute. reflexivity. Qed.
Example C37_example_dropped : exists n n' out, @node_at ex_env n /\ nop_ok (NPropose "w") n /\ @n_step ex_env (NPropose "w") n = Ok (n', out) /\
  (match o_err out with Some EDropped => true | _ => false end) = true.
Proof. apply (case_ok (ex_cfg 1) ex_tape [] _ _). vm_compute. reflexivity. Qed.
