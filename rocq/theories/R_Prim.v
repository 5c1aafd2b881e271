(** Simulation of the primitive transitions, one by one. *)
From Coq Require Import Permutation.
From Verif Require Import Prelude Types M_Util M_Quorum M_Inflights M_Progress M_Tracker.
From Verif Require Import M_Storage M_Unstable M_Log M_ReadOnly M_ConfPb M_ConfChange M_Raft M_RawNode.
From Verif Require Import Spec_Quorum P_Quorum P_Inflights Spec_Log P_Lists P_Storage P_Log P_RaftLogSeq P_Frame P_Prim Sys_Node P_Node P_Fields P_New P_NodeLog P_Ack P_Lead A_Proto Sys_Cluster R_Log R_Sim.

Lemma outm_fields {E : Env} r m :
  m_type (outm r m) = m_type m /\ m_from (outm r m) = (if m_from m =? 0 then r_id r else m_from m) /\ m_to (outm r m) = m_to m.
Proof.
  unfold outm. assert (H : exists m1, m1 = (if m_from m =? 0 then set_m_from (r_id r) m else m) /\ m_type m1 = m_type m /\ m_to m1 = m_to m /\
    m_from m1 = if m_from m =? 0 then r_id r else m_from m) by (eexists; split; [reflexivity|]; destruct (m_from m =? 0); auto).
  destruct H as (m1 & <- & H1 & H2 & H3). cbv zeta. rewrite <- H1, <- H2, <- H3. destruct (is_vote_family (m_type m1)); auto.
  destruct (m_type m1) eqn:X; cbn; rewrite ?X; auto.
Qed.
Lemma outm_type {E : Env} r m : m_type (outm r m) = m_type m. Proof. apply outm_fields. Qed.
Lemma outm_from_nz {E : Env} r m : r_id r <> 0 -> m_from (outm r m) <> 0.
Proof. intros Hr. destruct (outm_fields r m) as (_ & -> & _). destruct (N.eqb_spec (m_from m) 0); auto. Qed.
Section RPrim.
Context {E : Env}.
Variable cs : confstate.
Variable t0 : N.
Variables (g : N -> anode) (F : list fact) (id : N).
Hypothesis G : ginv (vquorum cs) t0 g F.
Hypothesis Hid : id <> 0.
Variables (im : msg) (r : raft).
Hypothesis V : vrel cs id F (g id) r.
Hypothesis Hn : ninv r.
Hypothesis M : in_msg cs F id im.
Hypothesis MS : Forall (msg_ok cs F) (r_msgs r).

Notation sim := (simulated cs id F (g id)).

Lemma im_wf : in_ok im.
Proof. destruct M as [[[H _ _] _]|H]; [left; auto|right; auto]. Qed.
Lemma im_peer : local_type (m_type im) = false -> msg_ok cs F im /\ m_to im = id.
Proof. intros H. destruct M as [H1|[_ H1]]; [auto|congruence]. Qed.
Lemma im_nz : local_type (m_type im) = false -> m_term im <> 0.
Proof.
  intros H Hz. destruct (im_peer H) as [[[_ W] _ _] _]. destruct (W Hz) as [X|[X|X]]; rewrite X in H; discriminate.
Qed.

Lemma msgs_snoc G0 ms m : Forall (msg_ok cs G0) ms -> msg_ok cs G0 m -> Forall (msg_ok cs G0) (ms ++ [m]).
Proof. intros. apply Forall_app. auto. Qed.
Lemma ok_plain G0 m : m_from m <> 0 -> m_term m <> 0 -> m_type m <> MsgApp -> m_type m <> MsgSnap -> msg_fact cs G0 m -> msg_ok cs G0 m.
Proof. intros H1 H2 H3 H4 H5. constructor; auto; [split; auto; tauto|split; intros; congruence]. Qed.

Lemma pr_keep_get r' v p : prs_keep r r' -> mget v (t_progress (r_trk r')) = Some p ->
  exists p0, mget v (t_progress (r_trk r)) = Some p0 /\ pr_keep p0 p.
Proof. intros [_ H] Hp. specialize (H v). rewrite Hp in H. destruct (mget v (t_progress (r_trk r))); [eauto|tauto]. Qed.
Lemma pr_same_get r' v p : prs_same r r' -> mget v (t_progress (r_trk r')) = Some p ->
  exists p0, mget v (t_progress (r_trk r)) = Some p0 /\ pr_same p0 p.
Proof. intros [_ H] Hp. specialize (H v). rewrite Hp in H. destruct (mget v (t_progress (r_trk r))); [eauto|tauto]. Qed.

Lemma keep_sim r' : keep r r' -> sim r'.
Proof.
  intros K. pose proof K as []. apply sim_none; [|congruence]. apply (vrel_same cs id F (g id) r); auto.
  - intros v p Hp. destruct (pr_keep_get _ _ _ kp_prs Hp) as (p0 & H0 & (H1 & _)). eauto.
  - intros Hl Hx v p Hp. destruct (pr_keep_get _ _ _ kp_prs Hp) as (p0 & H0 & K0).
    unfold r_last. rewrite kp_log. apply K0. apply (Hx v). exact H0.
Qed.

Lemma rid_nz : r_id r <> 0. Proof. rewrite (v_id _ _ _ _ _ V). exact Hid. Qed.

Lemma misc_sim m : misc im r m -> sim (emit m r).
Proof.
  intros H. apply sim_none; [apply vrel_emit; auto|]. apply msgs_snoc; auto. pose proof rid_nz as Hr.
  destruct H as [to Hz|to Hz|H1 H2 H3|to lt H1 H2|to ctx H1 H2|to lt i h H1 H2|to Hz|H1 H2 H3 H4].
  - apply ok_plain; cbn; auto; try discriminate.
  - apply ok_plain; cbn; auto; try discriminate.
  - apply ok_plain; cbn; auto; try discriminate.
  - apply ok_plain; cbn; auto; try discriminate. lia.
  - apply ok_plain; cbn; auto; try discriminate. rewrite <- H2. apply im_nz. rewrite H1. auto.
  - apply ok_plain; cbn; auto; try discriminate. rewrite <- H2. apply im_nz. rewrite H1. auto.
  - apply ok_plain; cbn; auto; try discriminate.
  - assert (T : m_type (outm r (set_m_to (r_lead r) im)) = m_type im) by (rewrite outm_type; auto).
    assert (Fm : m_from (outm r (set_m_to (r_lead r) im)) <> 0) by (apply outm_from_nz; auto).
    constructor.
    + split; auto. intros _. rewrite T. auto.
    + split; intros X; rewrite T in X; destruct H4 as [H4|[H4|H4]]; congruence.
    + unfold msg_fact. rewrite T. destruct H4 as [->|[->| ->]]; auto.
Qed.

Lemma follow_sim t l : (t = r_term r \/ (r_term r < t /\ t = m_term im)) -> sim (become_follower t l r).
Proof.
  intros Ht. hide (become_follower t l r) rx Ex.
  destruct (become_follower_fields t l r _ Ex) as (A1&A2&A3&A4&A5&A6&A7&A8&A9&A10&A11). clear Ex.
  assert (HV : forall s', an_term s' = t -> an_vote s' = r_vote rx -> an_log s' = an_log (g id) -> an_com s' = an_com (g id) ->
     an_role s' = AFollow -> vrel cs id F s' rx).
  { intros s' S1 S2 S3 S4 S5. destruct V. constructor; rewrite ?A2, ?A4, ?A5, ?A9, ?S3, ?S4; auto; try congruence.
    - unfold r_id in *. congruence.
    - rewrite A3. destruct (N.eqb_spec (r_term r) t) as [<-|]; [auto|congruence]. }
  apply (sim_one cs id F (g id)
    (if r_term r =? t then mkA (an_term (g id)) (an_vote (g id)) (an_log (g id)) (an_com (g id)) AFollow
     else mkA t 0 (an_log (g id)) (an_com (g id)) AFollow) []).
  - cbn [app]. destruct (N.eqb_spec (r_term r) t); [apply LDown|apply LTerm]. rewrite (v_term _ _ _ _ _ V). lia.
  - cbn [app]. pose proof (v_term _ _ _ _ _ V) as Vt. pose proof (v_vote _ _ _ _ _ V) as Vv.
    rewrite A3 in HV. destruct (N.eqb_spec (r_term r) t); apply HV; cbn; congruence.
  - rewrite A7. auto.
Qed.

Lemma cand_sim r' : vmember cs id -> become_candidate r = Ok r' -> sim r'.
Proof.
  intros Hvm H. apply become_candidate_all in H. destruct H as (A0&A1&A2&A3&A4&A5&A6&A7&A8&A9&A10&A11).
  apply (sim_one cs id F (g id) (mkA (an_term (g id) + 1) id (an_log (g id)) (an_com (g id)) ACand)
    [FVote (an_term (g id) + 1) id id (an_log (g id)); FReq (an_term (g id) + 1) id (an_log (g id))]).
  - apply LCamp; auto.
  - destruct V. assert (I : r_vote r' = id) by (rewrite A3; auto). constructor; cbn [an_term an_vote an_log an_com an_role app];
      rewrite ?A2, ?A4, ?A5, ?A9, ?A10, ?I; auto; try congruence.
    + unfold r_id in *. congruence.
    + intros _. eexists. left. rewrite v_term. reflexivity.
    + intros _ v Hv. discriminate.
  - rewrite A7. eapply msgs_ok_mono; [|exact MS]. apply incl_appr0.
Qed.
Lemma pre_sim r' : become_pre_candidate r = Ok r' -> sim r'.
Proof.
  intros H. apply become_pre_all in H. destruct H as (A0&A1&A2&A3&A4&A5&A6&A7&A8&A9&A10&A11&A12).
  apply (sim_one cs id F (g id) (mkA (an_term (g id)) (an_vote (g id)) (an_log (g id)) (an_com (g id)) AFollow) []).
  - apply LDown.
  - destruct V. constructor; cbn [an_term an_vote an_log an_com an_role app]; rewrite ?A2, ?A3, ?A4, ?A5, ?A9; auto; try congruence.
    + unfold r_id in *. congruence.
  - rewrite A7. auto.
Qed.

Lemma poll_sim v b : (r_state r = RCandidate -> b = true -> exists L, In (FVote (r_term r) v id L) F) ->
  sim (fst (poll v b r)).
Proof.
  intros H. apply sim_none; [|exact MS]. unfold poll. cbn [fst].
  destruct V. constructor; cbn; auto.
  - unfold trk_record_vote. destruct (mget v (t_votes (r_trk r))); auto.
  - intros Hc w Hw. unfold trk_record_vote in Hw. destruct (mget v (t_votes (r_trk r))) eqn:Hv; [eauto|].
    cbn in Hw. rewrite mget_mset in Hw. destruct (N.eqb_spec w v) as [->|]; [|eauto]. inv Hw. auto.
  - intros Hc w p. replace (t_progress (trk_record_vote v b (r_trk r))) with (t_progress (r_trk r)); [eauto|].
    unfold trk_record_vote. destruct (mget v (t_votes (r_trk r))); auto.
  - intros Hl w p Hp. apply (v_next Hl w). unfold trk_get in *. cbn in *. unfold trk_record_vote in Hp. destruct (mget v (t_votes (r_trk r))); auto.
Qed.
Lemma poll_self_sim : (r_state r = RPreCandidate \/ (r_state r = RCandidate /\ r_vote r = r_id r)) -> sim (fst (poll (r_id r) true r)).
Proof.
  intros H. apply poll_sim. intros Hc _. destruct H as [H|[_ H]]; [congruence|].
  pose proof (v_id _ _ _ _ _ V) as I. pose proof (v_fvote _ _ _ _ _ V) as W. rewrite H, I in W. rewrite I. auto.
Qed.
Lemma poll_msg_sim : (r_state r = RPreCandidate /\ m_type im = MsgPreVoteResp \/
   r_state r = RCandidate /\ m_type im = MsgVoteResp /\ m_term im = r_term r) ->
   sim (fst (poll (m_from im) (negb (m_reject im)) r)).
Proof.
  intros H. apply poll_sim. intros Hc Hb. destruct H as [[H _]|(_ & H & Ht)]; [congruence|].
  destruct im_peer as [[_ _ X] Y]; [rewrite H; auto|]. unfold msg_fact in X. rewrite H in X. rewrite Ht, Y in X.
  apply X. apply negb_true_iff; auto.
Qed.

Lemma last_term : forall lt, log_last_term (r_log r) = Ok lt -> lt = lastterm (an_log (g id)) /\ r_last r = nlen (an_log (g id)).
Proof.
  intros lt H. pose proof (lwf_0 _ (li_wf _ (ni_log _ Hn))) as W. destruct (log_last_term_abs _ W) as (t & H1 & H2).
  pose proof (lr_last _ _ (v_log _ _ _ _ _ V)) as HL. split.
  - assert (lt = t) by congruence. subst t. destruct (lr_term _ _ _ _ (v_log _ _ _ _ _ V) H1) as [_ ->].
    rewrite HL, ntake_all by lia. auto.
  - unfold r_last. rewrite log_last_abs by auto. auto.
Qed.
Lemma vote_req_sim to lt ctx : r_state r = RCandidate -> log_last_term (r_log r) = Ok lt -> r_term r <> 0 ->
  sim (emit (mkMsg MsgVote to (r_id r) (r_term r) lt (r_last r) [] 0 empty_snapshot false 0 ctx) r).
Proof.
  intros H1 H2 H3. apply sim_none; [apply vrel_emit; auto|]. apply msgs_snoc; auto.
  apply ok_plain; cbn; auto using rid_nz; try discriminate.
  destruct (last_term _ H2) as [-> ->]. exists (an_log (g id)). split; auto.
  destruct (gi_cand _ _ _ _ G id) as [X _]; [rewrite (v_role _ _ _ _ _ V), H1; auto|].
  rewrite (v_id _ _ _ _ _ V). rewrite (v_term _ _ _ _ _ V) in X. exact X.
Qed.

Lemma grant_sim : m_type im = MsgVote -> m_term im = r_term r -> r_term r <> 0 ->
  (r_vote r = m_from im \/ r_vote r = 0 /\ r_lead r = 0) ->
  log_is_up_to_date (m_index im) (m_logterm im) (r_log r) = Ok true ->
  sim (set_r_vote (m_from im) (set_r_el_elapsed 0
      (emit (mk_resp MsgVoteResp (m_from im) (r_id r) (m_term im) 0 0 false 0 EmptyString) r))).
Proof.
  intros H1 H2 H3 H4 H5. destruct im_peer as [[[W _] _ X] Y]; [rewrite H1; auto|].
  unfold msg_fact in X. rewrite H1 in X. destruct X as (Lc & X1 & X2 & X3). rewrite H2 in X1.
  assert (Hmsg : forall G0, (exists L, In (FVote (r_term r) id (m_from im) L) G0) ->
     msg_ok cs G0 (mk_resp MsgVoteResp (m_from im) (r_id r) (m_term im) 0 0 false 0 EmptyString)).
  { intros G0 HL. apply ok_plain; cbn; auto using rid_nz; try discriminate; [congruence|]. intros _. rewrite H2, (v_id _ _ _ _ _ V). auto. }
  destruct (N.eq_dec (r_vote r) (m_from im)) as [Ev|Nv].
  - apply sim_none.
    + apply (vrel_same cs id F (g id) r); auto; eauto.
    + cbn. apply msgs_snoc; auto. apply Hmsg. rewrite <- Ev. apply (v_fvote _ _ _ _ _ V). congruence.
  - destruct H4 as [?|[H4 _]]; [congruence|].
    apply (sim_one cs id F (g id) (mkA (an_term (g id)) (m_from im) (an_log (g id)) (an_com (g id)) (an_role (g id)))
      [FVote (an_term (g id)) id (m_from im) (an_log (g id))]).
    + eapply (LGrant (vquorum cs) (vmember cs) id (g id) F (m_from im) Lc); auto.
      * rewrite (v_term _ _ _ _ _ V). auto.
      * rewrite (v_vote _ _ _ _ _ V). auto.
      * pose proof (lwf_0 _ (li_wf _ (ni_log _ Hn))) as Wl.
        destruct (log_is_up_to_date_abs (m_index im) (m_logterm im) (r_log r) Wl) as (lt & U1 & U2).
        rewrite U2 in H5. apply Ok_inj in H5. destruct (lr_term _ _ _ _ (v_log _ _ _ _ _ V) U1) as [_ U3].
        rewrite (lr_last _ _ (v_log _ _ _ _ _ V)) in *. rewrite ntake_all in U3 by lia. unfold utd. rewrite <- X2, <- X3, <- U3. lia.
    + destruct V. constructor; cbn; auto.
      * intros _. rewrite <- v_term. eauto.
      * intros Hc v Hv. destruct (v_votes Hc v Hv) as [L HL]. eauto.
      * intros Hc v p Hv. destruct (v_match Hc v p Hv) as [|(L & HL & HL2)]; eauto.
    + cbn. apply msgs_snoc; [apply (msgs_ok_mono cs F); [intros x Hx; right; exact Hx|exact MS]|].
      apply Hmsg. rewrite <- (v_term _ _ _ _ _ V). eexists. left. reflexivity.
Qed.
End RPrim.
