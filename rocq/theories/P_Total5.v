(** What keeps every call returning is preserved: flow control, the stored configurations and the
    shape of the messages. *)
From Verif Require Import Prelude Types M_Util M_Quorum M_Inflights M_Progress M_Tracker.
From Verif Require Import M_Storage M_Unstable M_Log M_ReadOnly M_ConfPb M_ConfChange M_Raft M_RawNode.
From Verif Require Import Spec_Inflights P_Inflights Spec_ReadOnly P_ReadOnly Spec_Log P_Lists P_Storage P_Log P_Quorum P_Frame P_Prim.
From Verif Require Import Spec_ConfChange P_ConfChange P_Conf P_Fields P_Vote P_RaftLogSeq P_New P_NodeLog P_Handle P_NodeRun P_Emit P_FlowRun P_Read P_ReadQ Sys_Node Prop_Api R_Elig P_Total P_Total2 Spec_Total P_Total3 P_Total4.

Section Total5.
Context {E : Env}.

(** What a message must look like whatever the receiver's state. *)
Definition mstat (m : msg) : Prop :=
  match m_type m with
  | MsgProp => m_term m = 0 /\ m_entries m <> [] /\ Forall decodable (m_entries m)
  | MsgReadIndex => m_term m = 0 /\ m_entries m <> []
  | MsgSnap => conf_ok (sn_conf (m_snap m))
  | _ => True
  end.
Record jok (r : raft) : Prop := {
  jk_prs : prok r;
  jk_max : 0 < t_max_inflight (r_trk r);
  jk_cov : cov (l_st (r_log r));
  jk_conf : conf_ok (sn_conf (ms_snap (l_st (r_log r))));
  jk_pend : forall s, u_snap (l_us (r_log r)) = Some s -> conf_ok (sn_conf s);
  jk_msgs : Forall mstat (r_msgs r)
}.

Lemma pok_keep p p' : pr_keep p p' -> pok p -> pok p'.
Proof.
  intros (K1 & K2 & K3 & K4 & K5) (P1 & P2 & P3). split; [auto|]. split; [congruence|].
  destruct (K5 (N.max (p_match p) (N.max (p_next p) (p_pending p)))) as (_ & X & _); [|lia].
  unfold nx. lia.
Qed.
Lemma prok_keep r r' : prs_keep r r' -> prok r -> prok r'.
Proof.
  intros [_ H] P id p Hg. specialize (H id). unfold trk_get in Hg. rewrite Hg in H.
  destruct (mget id (t_progress (r_trk r))) as [q|] eqn:Hq; [|contradiction]. eapply pok_keep; [exact H|]. apply (P id). exact Hq.
Qed.
Lemma prok_append es r r' : append_entry es r = Ok (Some r') -> prok r -> prok r'.
Proof.
  intros H P. pose proof H as H0. apply append_entry_inv in H. destruct H as (_ & l0 & li & pr & pr' & u & b & H1 & H2 & H3 & H4).
  apply raft_maybe_commit_state in H4. destruct H4 as [l ->].
  intros id p Hg.
  match type of Hg with trk_get _ (r_trk (set_r_log _ ?x)) = _ => change (trk_get id (r_trk x) = Some p) in Hg end.
  unfold trk_get, put_progress, trk_put in Hg. cbn in Hg. rewrite mget_mset in Hg. destruct (_ =? _).
  - injection Hg as <-. eapply pok_update; [exact H3|]. eapply P. exact H2.
  - eapply P. exact Hg.
Qed.
Lemma prok_trk r r' : r_trk r' = r_trk r -> prok r -> prok r'.
Proof. intros H P id p. rewrite H. apply P. Qed.
Lemma prok_prim im r r' : (m_type im = MsgSnap -> conf_ok (sn_conf (m_snap im))) -> 0 < t_max_inflight (r_trk r) -> prim im r r' -> prok r -> prok r'.
Proof.
  intros Hc0 Hmx H K.
  destruct H as [r' Kp|r' Hl S|m Hm|t l Ht _|r' Hcd|r' Hcd|Hs|Hs|to lt ctx Hs Hlt Hz|Ht Hm Hz Hv Hu|r' Hs Hv Hb|
                 es r1 r' Hs Ht He Hf Ha|p p' Hs Ht Hr Hm Hg Hx Hy Hlr|r' b Hs Hcd|Hg Hm Hs|l last Ht Hm Hs Hcd Ha|
                 l Ht Hm Hs Hcd|l Ht Hm Hs Hcd Hmt Hct|r1 Ht Hm Hs Hr].
  all: try (revert K; apply prok_trk; reflexivity).
  - destruct Kp. eapply prok_keep; eauto.
  - eapply sends_prok; eauto.
  - unfold become_follower. hide (reset t r) r0 E0. pose proof (prok_reset _ _ _ E0 Hmx) as K0. clear E0. revert K0. apply prok_trk; reflexivity.
  - unfold become_candidate in Hcd. destruct (is_leader r); [discriminate|]. apply Ok_inj in Hcd.
    hide (reset (r_term r + 1) r) r0 E0. pose proof (prok_reset _ _ _ E0 Hmx) as K0. clear E0. subst r'.
    revert K0. apply prok_trk; reflexivity.
  - unfold become_pre_candidate in Hcd. destruct (is_leader r); [discriminate|]. apply Ok_inj in Hcd. subst r'. exact K.
  - unfold poll, trk_record_vote. cbn [fst]. destruct (mget _ _); exact K.
  - unfold poll, trk_record_vote. cbn [fst]. destruct (mget _ _); exact K.
  - apply become_leader_inv in Hb. destruct Hb as (pr & r1 & u & _ & Hg & Ha & ->).
    pose proof (reset_id (r_term r) r) as Hid.
    hide (reset (r_term r) r) r0 E0. pose proof (prok_reset _ _ _ E0 Hmx) as K0. clear E0.
    apply (prok_trk r1); [reflexivity|]. eapply prok_append; [exact Ha|]. unfold lead_base.
    match goal with |- prok (set_r_pending_conf _ ?x) => apply (prok_trk x); [reflexivity|] | _ => idtac end. apply prok_put; [exact K0|].
    lazymatch goal with |- pok (pr_become_replicate _) => apply pok_replicate | |- _ => idtac end.
    apply (K0 (r_id r)); auto.
  - apply filter_prop_fields in Hf. destruct Hf as [k ->].
    destruct Ha as [Ha|[_ ->]]; [eapply prok_append; [exact Ha|]|]; exact K.
  - apply prok_put; auto. pose proof (K _ _ Hg) as (P1 & P2 & P3). split; [auto|]. split; [congruence|].
    match goal with X : forall B, _ -> nx B p -> nx B p' |- _ =>
      destruct (X (N.max (m_index im) (N.max (p_match p) (N.max (p_next p) (p_pending p))))) as (_ & Q & _); [lia|unfold nx; lia|lia] end.
  - apply raft_maybe_commit_state in Hcd. destruct Hcd as [l ->]. exact K.
  - apply restore_inv in Hr; auto. destruct Hr as (R1 & _ & _ & cp & pr & pr' & b & Hc & _ & Hg & Hu & ->).
    destruct (restore_ok (t_max_inflight (r_trk r)) (log_last (log_restore (m_snap im) (r_log r))) (sn_conf (m_snap im)) (co_valid _ (Hc0 Ht))) as (c & prs & Hc' & _ & _ & _ & F).
    rewrite Hc in Hc'. injection Hc' as ->. cbn [fst snd] in *.
    assert (Hl : 1 <= log_last (log_restore (m_snap im) (r_log r))) by (unfold log_last, log_restore, us_maybe_last; cbn; lia).
    assert (A : forall id p, mget id prs = Some p -> pok p).
    { intros id p Hp. destruct (F _ _ Hp) as [b0 ->]. apply pok_new; auto. }
    eapply prok_trk; [reflexivity|]. apply prok_put; [exact A|]. eapply pok_update; eauto.
Qed.

Lemma mstat_smsg r m : jok r -> ninv r -> smsg r m -> mstat m.
Proof.
  intros J N H. destruct H as [|to sn H1 H2 H3| | |]; try exact Logic.I. unfold mstat. cbn [m_type m_snap].
  unfold log_snapshot in H2. destruct (u_snap (l_us (r_log r))) as [s|] eqn:Hu.
  - injection H2 as <-. apply (jk_pend _ J); auto.
  - unfold ms_snapshot in H2. injection H2 as <-. apply (jk_conf _ J); auto.
Qed.
Lemma mstat_outm r im : mstat im -> m_term im = 0 -> m_type im = MsgProp \/ m_type im = MsgReadIndex \/ m_type im = MsgTransferLeader -> mstat (outm r (set_m_to (r_lead r) im)).
Proof.
  intros H Hz Ht. unfold outm, mstat in *. cbn [m_from set_m_to]. destruct (m_from im =? 0); cbn [m_type set_m_from set_m_to]; destruct Ht as [Ht|[Ht|Ht]]; rewrite Ht in *; cbn [is_vote_family];
    cbn [m_type set_m_from set_m_to m_term m_entries set_m_term]; rewrite ?Ht; auto.
Qed.
Lemma mstat_pmsg im r r' m : jok r -> ninv r -> mstat im -> pmsg im r r' m -> mstat m.
Proof.
  intros J N Hi H. destruct H as [m Hl S|m Hm|to lt ctx| |i]; try exact Logic.I.
  - eapply mstat_smsg; eauto.
  - destruct Hm as [| | | | | | |? ? ? Ht]; try exact Logic.I. apply mstat_outm; auto.
Qed.
Lemma leff_st im r r' : leff im r r' -> l_st (r_log r') = l_st (r_log r) /\
  (u_snap (l_us (r_log r')) = u_snap (l_us (r_log r)) \/ m_type im = MsgSnap /\ u_snap (l_us (r_log r')) = Some (m_snap im)).
Proof.
  intros [H|es mci pr pr' u t0 _ _ _ _ H|mci _ _ _ _ _ ->|l _ _ _ _ _ H|c _ _ _ _ H|r1 H1 H2 H3 _ _ H4 H5 _ ->].
  - rewrite H. auto.
  - rewrite H. unfold tail_log. cbn. auto.
  - cbn. auto.
  - cbv zeta in H. decompose [and] H. subst r'. cbn [r_log emit set_r_msgs set_r_log]. split; [congruence|left; congruence].
  - rewrite H. cbn. auto.
  - cbn [r_log emit set_r_msgs]. rewrite H5. unfold log_restore. cbn. auto.
Qed.
Lemma prim_jok im r r' : log_msg_wf im -> ninv r -> mstat im -> prim im r r' -> jok r -> jok r'.
Proof.
  intros Hw N Hi H J. pose proof (prim_log _ _ _ Hw N H) as [_ Le]. destruct (leff_st _ _ _ Le) as [S U].
  destruct (prim_spec _ _ _ H) as (_ & _ & new & Hn & Hf). constructor; rewrite ?S.
  - eapply prok_prim; eauto; [|apply J|apply J]. intros X. unfold mstat in Hi. rewrite X in Hi. exact Hi.
  - apply maxinf_prim in H. unfold maxinf in H. rewrite H. apply J.
  - apply J.
  - apply J.
  - intros s Hs. destruct U as [U|[Ht U]]; [apply (jk_pend _ J); congruence|].
    unfold mstat in Hi. rewrite Ht in Hi. congruence.
  - rewrite Hn. apply Forall_app. split; [apply J|]. eapply Forall_impl; [|exact Hf]. intros a. apply mstat_pmsg; auto.
Qed.
Lemma qprs_jok (Q : msg -> Prop) r r' : (forall m, Q m -> log_msg_wf m /\ mstat m) -> qprs Q r r' -> ninv r -> jok r -> jok r'.
Proof.
  intros HQ H. induction H as [|im a b c Hq Hp Hs IH]; auto. intros N J. destruct (HQ _ Hq) as [H1 H2]. apply IH.
  - eapply prim_log; eauto.
  - eapply prim_jok; eauto.
Qed.
End Total5.
