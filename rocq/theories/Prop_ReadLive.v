(** Progress of read-index requests (C65). *)
From Verif Require Import Prelude Types M_Util M_Quorum M_Inflights M_Progress M_Tracker.
From Verif Require Import M_Storage M_Unstable M_Log M_ReadOnly M_ConfPb M_ConfChange M_Raft M_RawNode.
From Verif Require Import Spec_ReadOnly P_ReadOnly P_Inflights Spec_Log P_Lists P_Storage P_Log Spec_Storage Sys_Storage P_StorageSeq Spec_RaftLog Sys_RaftLog P_RaftLogSeq Spec_Quorum P_Quorum.
From Verif Require Import Spec_Progress Spec_ConfChange P_ConfChange Sys_ConfChange P_Persist P_Time P_Conf P_Handle P_Ack R_Elig Prop_Deliver P_Elect.
From Verif Require Import P_Frame P_Prim Sys_Node P_Node P_Fields P_Vote Spec_Node P_New P_NodeLog P_NodeRun P_Emit P_Read P_ReadQ P_ReadRun P_Lead P_Beat P_Commit P_Feed P_Bcast P_ReadLive.
From Verif Require Import Spec_Flow Spec_Beat Spec_Commit Spec_Read Spec_ReadLive Prop_Vote Prop_Msg Prop_Leader Prop_Flow Prop_Elect Prop_Beat Prop_Commit Prop_Feed Prop_Read Ex_Env Ex_Node Ex_Check Ex_Case.

Section Props.
Context {E : Env}.

Lemma alone_iff n : alone n <-> trk_is_singleton (r_trk (rn_raft n)) = true.
Proof.
  unfold alone, trk_is_singleton, node_incoming, node_outgoing, rn_status. cbn. rewrite andb_true_iff, !N.eqb_eq. split.
  - intros [(v & ->) ->]. auto.
  - intros [H1 H2]. split.
    + destruct (tc_incoming (t_config (r_trk (rn_raft n)))) as [|v [|w l]]; [discriminate|eauto|rewrite !nlen_cons in H1; lia].
    + destruct (tc_outgoing (t_config (r_trk (rn_raft n)))); [auto|rewrite nlen_cons in H2; lia].
Qed.
Lemma com_iff n : dinv n -> committed_entry_in_current_term (rn_raft n) = Ok (node_term_at n (node_commit n) =? node_term n).
Proof.
  intros D. pose proof (li_wf _ (ni_log _ (di_ninv _ D))) as W. unfold node_term_at, node_commit, node_hard, node_term, committed_entry_in_current_term. cbn.
  rewrite log_term_abs by (apply lwf_0; auto). reflexivity.
Qed.
Lemma com_true n : dinv n -> leads_committed n -> committed_entry_in_current_term (rn_raft n) = Ok true.
Proof. intros D [_ H]. rewrite com_iff, H, N.eqb_refl by auto. auto. Qed.
Lemma com_false n : dinv n -> leads_uncommitted n -> committed_entry_in_current_term (rn_raft n) = Ok false.
Proof. intros D [_ H]. rewrite com_iff by auto. apply N.eqb_neq in H. rewrite H. auto. Qed.

(** The question as a step of the leader. *)
Lemma nstep_read o n n' out asker ctx : nop_wf o -> node_role n = RLeader -> puts (node_id n) (node_term n) o asker ctx -> n_step o n = Ok (n', out) ->
  exists m r' e es, presents o m /\ m_entries m = e :: es /\ e_data e = ctx /\ asker_of (node_id n) m = asker /\ leader_read_index m (rn_raft n) = Ok r' /\ n' = set_rn_raft r' n.
Proof.
  intros Hw L [P Pt] H.
  assert (G : forall m n1 e1, m_type m = MsgReadIndex -> m_term m = 0 \/ m_term m = node_term n -> rn_raft_step m n = Ok (n1, e1) -> exists r', leader_read_index m (rn_raft n) = Ok r' /\ n1 = set_rn_raft r' n).
  { intros m n1 e1 Ht Hm X. unfold rn_raft_step in X. apply bind_ok in X. destruct X as ([r1 e2] & X & Hx). apply Ok_inj, pair_equal_spec in Hx. destruct Hx as [<- _].
    assert (Y : step_dispatch m (rn_raft n) = Ok (r1, e2)).
    { unfold step in X. destruct (N.eqb_spec (m_term m) 0); [exact X|]. destruct Hm as [Hm|Hm]; [contradiction|]. change (m_term m = r_term (rn_raft n)) in Hm.
      destruct (N.ltb_spec (r_term (rn_raft n)) (m_term m)); [lia|]. destruct (N.ltb_spec (m_term m) (r_term (rn_raft n))); [lia|]. exact X. }
    change (r_state (rn_raft n) = RLeader) in L. unfold step_dispatch in Y. rewrite Ht, L in Y. unfold step_leader in Y. rewrite Ht in Y.
    unfold okr in Y. apply bind_ok in Y. destruct Y as (r2 & Y & Hx). apply Ok_inj, pair_equal_spec in Hx. destruct Hx as [<- _]. eauto. }
  destruct o; cbn [asks] in P; try contradiction; cbn [n_step] in H.
  - destruct P as (P1 & P2 & e & es & P3 & P4). apply bind_ok in H. destruct H as ([n1 e1] & H & Hx). apply Ok_inj, pair_equal_spec in Hx. destruct Hx as [<- _].
    unfold rn_step in H. rewrite P1 in H. cbn [is_local_msg is_response_msg negb orb] in H.
    assert (X : rn_raft_step m n = Ok (n1, e1)) by (destruct (trk_get (m_from m) (r_trk (rn_raft n))); exact H). clear H.
    destruct (G _ _ _ P1 Pt X) as (r' & G1 & G2). exists m, r', e, es. split; [split; [exact P1|reflexivity]|]. split; auto. split; auto. split; auto.
    unfold asker_of. destruct Hw as [Hw _]. destruct (N.eqb_spec (m_from m) 0); [contradiction|]. cbn. auto.
  - destruct P as (P1 & P2). apply bind_ok in H. destruct H as (n1 & H & Hx). apply Ok_inj, pair_equal_spec in Hx. destruct Hx as [<- _].
    unfold rn_read_index in H. apply bind_ok in H. destruct H as ([n2 e2] & H & Hx). apply Ok_inj in Hx. subst n2.
    destruct (G (read_index_msg ctx0) _ _ eq_refl (or_introl eq_refl) H) as (r' & G1 & G2). exists (read_index_msg ctx0), r', (mkEntry 0 0 EntryNormal ctx0), []. split; [split; reflexivity|]. split; [reflexivity|]. split; [auto|]. split; [|auto].
    subst. reflexivity.
Qed.
(** What the steps give is what the API shows. *)
Lemma gives_answers o n n' out p e es : n_step o n = Ok (n', out) -> node_role n' = RLeader -> m_entries (fst p) = e :: es ->
  gives (rn_raft n) (rn_raft n') p -> answers o n n' (asker_of (node_id n) (fst p)) (e_data e) (snd p).
Proof.
  intros H L He (ms & rs & G1 & G2 & G3). split; [eauto|]. unfold is_local_req in G3. unfold asker_of. change (node_id n) with (r_id (rn_raft n)).
  destruct ((m_from (fst p) =? 0) || (m_from (fst p) =? r_id (rn_raft n))) eqn:Hb.
  - left. split; auto. split; auto. destruct G3 as (d & D1 & D2). unfold entry0_data in D1. rewrite He in D1. apply Ok_inj in D1. subst d. exists rs. auto.
  - right. apply orb_false_elim in Hb. destruct Hb as [Hb _]. apply N.eqb_neq in Hb. split; auto. destruct G3 as (x & X1 & X2 & X3 & X4 & X5 & _). exists ms, x, e, es.
    split; [exact G1|]. split; auto. split; auto. split; auto. split; auto. split; [congruence|auto].
Qed.
(** Requests still in the books were asked before. *)
Lemma booked c s tape n0 os n : c_storage c = Some s -> c_ro c = RoSafe -> rn_new c tape = Ok n0 -> Forall nop_wf os -> reached n0 os n ->
  ro_option (r_ro (rn_raft n)) = RoSafe /\ exists q, ro_rel (r_ro (rn_raft n)) q /\
    (forall x, In x q -> exists o a, In o os /\ asks (node_id n0) o a (rq_ctx x)) /\
    (forall m e es, In m (r_pend_reads (rn_raft n)) -> m_entries m = e :: es -> exists o a, In o os /\ asks (node_id n0) o a (e_data e)).
Proof.
  intros Hs Ho Hn Hw Hr. apply rn_new_spec in Hn. destruct Hn as (r0 & Hn & En). apply raft_new_spec in Hn. destruct Hn as (s' & cp & _ & _ & _ & _ & _ & _ & F).
  assert (I : rinv n0 (r_id (rn_raft n)) os (rn_raft n)).
  { apply rinv_run; auto; subst n0; cbn; rewrite ?(fr_ro _ _ _ _ F); auto; [apply ro_rel_new|apply F]. }
  clear F. destruct I as [_ I2 I3 (q & Q1 & _ & Q3)]. split; auto. exists q. split; auto.
  assert (PP : forall os m e es, ppost n0 os m -> m_entries m = e :: es -> exists o a, In o os /\ asks (node_id n0) o a (e_data e)).
  { intros os0 m e es (a & b & d & n1 & -> & X1 & X2 & X3 & X4) He. exists b. eexists. split; [apply in_or_app; right; left; auto|]. eapply presents_asks; eauto. }
  split; [|intros m e es Hm He; eapply PP; eauto].
  intros x Hx. destruct (rr_ctx _ _ Q1 x Hx) as (e & es & C1 & C2). rewrite <- C2.
  assert (T : exists os2, taken_up n0 os (r_term (rn_raft n)) x os2).
  { clear - Q3 Hx. induction q as [|y b IH]; [destruct Hx|]. cbn in Q3. destruct Q3 as [(os2 & T & _) Q3]. destruct Hx as [->|Hx]; eauto. }
  destruct T as (os2 & a & o & n1 & -> & _ & _ & _ & _ & T5 & T6). destruct T6 as [T6|[_ T6]].
  - exists o. eexists. split; [apply in_or_app; right; left; auto|]. eapply presents_asks; eauto.
  - destruct (PP _ _ _ _ T6 C1) as (o' & a' & X1 & X2). exists o', a'. split; auto. apply in_app_or in X1. apply in_or_app. destruct X1 as [X1|[<-|[]]]; auto. right. left. auto.
Qed.
(** A call that keeps the reign keeps the request, or answers it. *)
Lemma step_waiting c A p o n n' out : made c n -> nop_ok o n -> n_step o n = Ok (n', out) -> still_leads n n' -> (forall cc, o <> NApplyCC cc) ->
  waiting A p (rn_raft n) -> gives (rn_raft n) (rn_raft n') p \/ waiting A p (rn_raft n').
Proof.
  intros M Hk H (L & L' & T) Dc W. pose proof (mi_dinv _ _ (made_inv _ _ M)) as D. pose proof (proj1 Hk) as Hw.
  assert (Cf : t_config (r_trk (rn_raft n')) = t_config (r_trk (rn_raft n)) /\ r_cfg (rn_raft n') = r_cfg (rn_raft n)).
  { destruct (n_step_cm _ _ _ _ Hk D H L' Dc) as [(_ & _ & C)|(A0 & _)]; [split; apply C|exfalso; apply A0; split; [exact L|exact T]]. }
  destruct Cf as [Cf Cc]. destruct (plain_dec o) as [Hp|Hp].
  - destruct (n_step_rcall _ _ _ _ Hp Hw H) as (im & l & _ & _ & r1 & h & A1 & _ & B). pose proof (rbs_same _ _ _ _ _ _ B) as S.
    change (r_state (rn_raft n') = RLeader) in L'. change (r_state (rn_raft n) = RLeader) in L. change (r_term (rn_raft n') = r_term (rn_raft n)) in T.
    assert (Ro : r_ro r1 = r_ro (rn_raft n)).
    { destruct (qa_ro _ _ A1) as [(X & _)|[_ X]]; auto. exfalso. specialize (X L). unfold rk in X. rewrite <- (sm_state _ _ S), <- (sm_term _ _ S), L, L', T in X. lia. }
    assert (W1 : waiting A p r1).
    { eapply waiting_move; [exact W|exact Ro|unfold r_id; rewrite (qa_cfg _ _ A1); auto|]. rewrite <- (sm_tconf _ _ S). exact Cf. }
    destruct (rbs_waiting _ _ _ _ _ _ _ _ B W1) as [W2|W2]; [left|right; exact W2].
    eapply gives_pre; [apply (qa_cfg _ _ A1)| |apply qa_grown; exact A1|eapply rbs_gives; eauto]. rewrite <- (sm_term _ _ S). exact T.
  - right. destruct (not_plain_qn _ _ _ _ Hp H) as [Q1 Q2 Q3 Q4 Q5 Q6 Q7 Q8]. eapply waiting_move; [exact W|exact Q1|unfold r_id; rewrite Q5; auto|exact Cf].
Qed.

(** Over a reign the request stays, with every acknowledgement that came, or is answered. *)
Lemma reign_waiting c t p ctx e es os : m_entries (fst p) = e :: es -> e_data e = ctx -> ctx <> EmptyString -> c_ro c = RoSafe ->
  forall A n n' outs, made c n -> n_run_ok os n -> n_run os n = Ok (n', outs) -> throughout (leads_in t) os n -> fixed_config os ->
  ro_option (r_ro (rn_raft n)) = RoSafe -> waiting A p (rn_raft n) ->
  answered n os (asker_of (node_id n) (fst p)) ctx (snd p) \/
  waiting (fun v => A v \/ (trk_get v (r_trk (rn_raft n)) <> None /\ beat_acked os t v ctx)) p (rn_raft n').
Proof.
  intros He Hctx Hne Hro. induction os as [|o os IH]; intros A n n' outs M Hk H T F Ho W; cbn [n_run n_run_ok] in *.
  - apply Ok_inj, pair_equal_spec in H. destruct H as [-> _]. right. eapply waiting_mono; [exact W|]. intros v [Hv|(_ & m & [] & _)]. exact Hv.
  - destruct Hk as [Hk1 Hk2]. apply bind_ok in H. destruct H as ([n1 o1] & H & H7). rewrite H in *. apply bind_ok in H7. destruct H7 as ([n2 o2] & H7 & Hx).
    apply Ok_inj, pair_equal_spec in Hx. destruct Hx as [-> <-]. cbn [throughout] in T. destruct T as [(T1 & T2) T3]. specialize (T3 _ _ H).
    pose proof (throughout_hd _ _ _ T3) as (T4 & T5). pose proof (made_step _ _ _ _ _ M Hk1 H) as M1. pose proof (mi_dinv _ _ (made_inv _ _ M)) as D.
    assert (Dc : forall cc, o <> NApplyCC cc) by (intros cc ->; apply (F cc); left; auto).
    assert (F' : fixed_config os) by (intros cc X; apply (F cc); right; auto).
    assert (St : still_leads n n1) by (repeat split; auto; congruence).
    pose proof (proj1 Hk1) as Hw.
    assert (Cf : ncm o (rn_raft n) (rn_raft n1)).
    { destruct (n_step_cm _ _ _ _ Hk1 D H T4 Dc) as [(_ & _ & C)|(A0 & _)]; [exact C|exfalso; apply A0; split; [exact T1|exact (eq_trans T5 (eq_sym T2))]]. }
    assert (Id : node_id n1 = node_id n) by (change (r_id (rn_raft n1) = r_id (rn_raft n)); unfold r_id; rewrite (nc_cfg _ _ _ Cf); auto).
    set (A1 := fun v => A v \/ exists m, o = NStep m /\ m_type m = MsgHeartbeatResp /\ m_from m = v /\ m_term m = t /\ m_ctx m = ctx /\ trk_get v (r_trk (rn_raft n)) <> None).
    assert (S : gives (rn_raft n) (rn_raft n1) p \/ waiting A1 p (rn_raft n1)).
    { assert (Dec : (exists m pr, o = NStep m /\ m_type m = MsgHeartbeatResp /\ m_term m = t /\ m_ctx m = ctx /\ trk_get (m_from m) (r_trk (rn_raft n)) = Some pr) \/
        ~ exists m, o = NStep m /\ m_type m = MsgHeartbeatResp /\ m_term m = t /\ m_ctx m = ctx /\ trk_get (m_from m) (r_trk (rn_raft n)) <> None).
      { destruct o; try (right; intros (m0 & X & _); discriminate).
        destruct (mtype_eqb (m_type m) MsgHeartbeatResp) eqn:E1; [apply mtype_eqb_eq in E1|right; intros (m0 & X & Y & _); injection X as <-; rewrite Y in E1; discriminate].
        destruct (N.eq_dec (m_term m) t) as [E2|E2]; [|right; intros (m0 & X & _ & Y & _); injection X as <-; contradiction].
        destruct (string_dec (m_ctx m) ctx) as [E3|E3]; [|right; intros (m0 & X & _ & _ & Y & _); injection X as <-; contradiction].
        destruct (trk_get (m_from m) (r_trk (rn_raft n))) as [pr|] eqn:E4; [left; exists m, pr; auto|right; intros (m0 & X & _ & _ & _ & Y); injection X as <-; contradiction]. }
      destruct Dec as [(m & pr & -> & E1 & E2 & E3 & E4)|Dec].
      - destruct (nstep_resp m n n1 o1 pr (or_intror E1) Hw T1 ltac:(congruence) E4 H) as (r' & R1 & R2). rewrite E1 in R1.
        assert (En : rn_raft n1 = r') by (rewrite R2; reflexivity).
        destruct (hb_waiting A p ctx m pr (rn_raft n) r' R1 Ho E3 Hne) as [G|G]; [unfold entry0_data; rewrite He; congruence|exact W|left; rewrite En; exact G|].
        right. rewrite En. eapply waiting_mono; [exact G|]. intros v [Hv|(m0 & X1 & X2 & X3 & _)]; [auto|]. injection X1 as <-. auto.
      - destruct (step_waiting c A p o n n1 o1 M Hk1 H St Dc W) as [G|G]; [left; exact G|right]. eapply waiting_mono; [exact G|].
        intros v [Hv|(m0 & X1 & X2 & X3 & X4 & X5 & X6)]; [auto|]. exfalso. apply Dec. exists m0. subst v. auto. }
    destruct S as [S|S].
    + left. exists [], o, os, n, n1. split; [reflexivity|]. split; [exists []; reflexivity|]. rewrite <- Hctx. eapply gives_answers; eauto.
    + assert (Ho1 : ro_option (r_ro (rn_raft n1)) = RoSafe).
      { destruct (plain_dec o) as [Hp|Hp].
        - destruct (n_step_rcall _ _ _ _ Hp Hw H) as (im & l & _ & _ & r1 & h & B1 & _ & B). rewrite (sm_roopt _ _ (rbs_same _ _ _ _ _ _ B)), (qa_opt _ _ B1). exact Ho.
        - destruct (not_plain_qn _ _ _ _ Hp H) as [Q1 _ _ _ _ _ _ _]. rewrite Q1. exact Ho. }
      destruct (IH A1 n1 n' o2 M1 Hk2 H7 T3 F' Ho1 S) as [(a & b & d & k1 & k2 & X1 & (xo & X2) & X3)|X].
      * left. exists (o :: a), b, d, k1, k2. subst os. split; [reflexivity|]. split; [|rewrite <- Id; exact X3]. exists (o1 :: xo). cbn [n_run]. rewrite H. cbn. rewrite X2. reflexivity.
      * right. eapply waiting_mono; [exact X|]. intros v [Hv|(V1 & m & [V2|V2] & V3)].
        -- left. left. exact Hv.
        -- left. right. exists m. destruct V3 as (V3 & V4 & V5 & V6). auto 10.
        -- right. split; [|exists m; auto]. destruct (trk_get v (r_trk (rn_raft n))) as [pv|] eqn:Hg; [|contradiction].
           destruct (nc_ge _ _ _ Cf _ _ Hg) as (p' & G & _). congruence.
Qed.
(** Enough acknowledgements end the wait. *)
Lemma confirmed_ends c t p ctx n n' outs os : made c n -> n_run_ok os n -> n_run os n = Ok (n', outs) -> throughout (leads_in t) os n -> fixed_config os ->
  confirmed os ctx n -> ~ waiting (fun v => False \/ (trk_get v (r_trk (rn_raft n)) <> None /\ beat_acked os t v ctx)) p (rn_raft n').
Proof.
  intros M Hk H T F (S & S1 & S2 & (v0 & V1 & V2 & V3) & S3) (q & x & [W1 W2 W3 W4 W5 W6 W7]).
  pose proof (node_at_tok _ (made_at _ _ M)) as Tk. destruct (throughout_hd _ _ _ T) as [_ Tt].
  assert (C : t_config (r_trk (rn_raft n')) = t_config (r_trk (rn_raft n)) /\ r_cfg (rn_raft n') = r_cfg (rn_raft n)).
  { clear - M Hk H T F. revert n n' outs M Hk H T. induction os as [|o os IH]; intros n n' outs M Hk H T; cbn [n_run n_run_ok] in *.
    - apply Ok_inj, pair_equal_spec in H. destruct H as [-> _]. auto.
    - destruct Hk as [Hk1 Hk2]. apply bind_ok in H. destruct H as ([n1 o1] & H & H7). rewrite H in *. apply bind_ok in H7. destruct H7 as ([n2 o2] & H7 & Hx).
      apply Ok_inj, pair_equal_spec in Hx. destruct Hx as [-> <-]. cbn [throughout] in T. destruct T as [(T1 & T2) T3]. specialize (T3 _ _ H). destruct (throughout_hd _ _ _ T3) as (T4 & T5).
      pose proof (mi_dinv _ _ (made_inv _ _ M)) as D.
      assert (Dc : forall cc, o <> NApplyCC cc) by (intros cc ->; apply (F cc); left; auto).
      assert (F' : fixed_config os) by (intros cc X; apply (F cc); right; auto).
      destruct (n_step_cm _ _ _ _ Hk1 D H T4 Dc) as [(_ & _ & C)|(A0 & _)]; [|exfalso; apply A0; split; [exact T1|exact (eq_trans T5 (eq_sym T2))]].
      destruct (IH F' n1 n' o2 (made_step _ _ _ _ _ M Hk1 H) Hk2 H7 T3) as [I1 I2]. rewrite I1, I2. split; apply C. }
  destruct C as [C1 C2]. assert (Ei : r_id (rn_raft n') = node_id n) by (unfold r_id; rewrite C2; reflexivity).
  assert (K : forall v, S v = true -> In v (node_incoming n) \/ In v (node_outgoing n) -> mget v (rq_acks x) = Some true).
  { intros v Hv Hin. destruct (S3 v Hv) as [->|Hb]; [rewrite <- Ei; exact W5|]. apply W6. right. destruct (voter_tracked n v Tk Hin) as [pv Hp]. split; [congruence|]. rewrite <- Tt. exact Hb. }
  apply W7.
  - exists v0. split; [rewrite Ei; exact V2|]. apply K; auto.
  - unfold won, tc_vote_result. rewrite C1. apply joint_won. unfold voted_yes, vget. split; [eapply majority_mono; [|exact S1]|eapply majority_mono; [|exact S2]]; intros v Hin Hv; cbv beta in *.
    + rewrite (K v Hv); auto.
    + rewrite (K v Hv); auto.
Qed.
(** Histories. *)
Lemma ok_app b os : forall n0 n, n_run_ok (os ++ b) n0 -> reached n0 os n -> n_run_ok os n0 /\ n_run_ok b n.
Proof.
  induction os as [|o os IH]; intros n0 n Hk (outs & H); cbn [n_run n_run_ok app] in *.
  - apply Ok_inj, pair_equal_spec in H. destruct H as [<- _]. auto.
  - destruct Hk as [Hk1 Hk2]. apply bind_ok in H. destruct H as ([n1 o1] & H & H7). rewrite H in *. apply bind_ok in H7. destruct H7 as ([n2 o2] & H7 & Hx).
    apply Ok_inj, pair_equal_spec in Hx. destruct Hx as [-> _]. destruct (IH n1 n Hk2 (ex_intro _ _ H7)). auto.
Qed.
Lemma created_made c n0 os n : created c n0 -> n_run_ok os n0 -> reached n0 os n -> made c n.
Proof. intros (tape & s & H1 & H2 & H3) Hk (outs & H). exists tape, s, n0, os, outs. auto. Qed.
Lemma reached_app n0 a n b n' : reached n0 a n -> reached n b n' -> reached n0 (a ++ b) n'.
Proof.
  intros (x & H1) (y & H2). exists (x ++ y). revert n0 x H1. induction a as [|o a IH]; intros n0 x H1; cbn [n_run app] in *.
  - apply Ok_inj, pair_equal_spec in H1. destruct H1 as [-> <-]. exact H2.
  - apply bind_ok in H1. destruct H1 as ([n1 o1] & -> & H1). cbn. apply bind_ok in H1. destruct H1 as ([n2 o2] & H1 & Hx). apply Ok_inj, pair_equal_spec in Hx. destruct Hx as [-> <-].
    rewrite (IH _ _ H1). reflexivity.
Qed.
Lemma reached_one o n n' out : n_step o n = Ok (n', out) -> reached n [o] n'.
Proof. intros H. exists [out]. cbn. rewrite H. reflexivity. Qed.

Lemma hb_spreads o n n' out ctx : n_step o n = Ok (n', out) -> node_role n = RLeader -> (exists ms, r_msgs (rn_raft n') = r_msgs (rn_raft n) ++ ms /\
  forall id, id <> r_id (rn_raft n) -> trk_get id (r_trk (rn_raft n)) <> None -> exists x, In x ms /\ beat_to (rn_raft n) ctx id x) -> spreads o n n' ctx.
Proof.
  intros H L (ms & M & B) to Hto Hp. rewrite peer_get in Hp by exact L. destruct (B to Hto Hp) as (x & X1 & X2 & X3 & X4 & X5 & X6). exists x. split; [exists out, ms; auto|]. auto 10.
Qed.
Lemma safe_mode c s tape n0 os n : c_storage c = Some s -> c_ro c = RoSafe -> rn_new c tape = Ok n0 -> n_run_ok os n0 -> reached n0 os n ->
  ro_option (r_ro (rn_raft n)) = RoSafe /\ exists q, ro_rel (r_ro (rn_raft n)) q.
Proof.
  intros H1 H2 H3 Hk (outs & Hr). destruct (booked c s tape n0 os n H1 H2 H3 (nop_ok_wf _ _ Hk _ _ Hr) (ex_intro _ _ Hr)) as (A & q & B & _). eauto.
Qed.

(** C65: a leader that has committed an entry of its term, and is not the only voter, takes up every
    question: it sends a heartbeat carrying the question's context to every other member. *)
Theorem C65_taken_up c n o n' out asker ctx : made c n -> c_ro c = RoSafe -> nop_wf o -> leads_committed n -> ~ alone n ->
  puts (node_id n) (node_term n) o asker ctx -> n_step o n = Ok (n', out) -> spreads o n n' ctx.
Proof.
  intros M Ho Hw L A P H. pose proof (mi_dinv _ _ (made_inv _ _ M)) as D. destruct M as (tape & s & n0 & os & outs & M1 & M2 & M3 & M4 & M5).
  destruct (safe_mode c s tape n0 os n M1 Ho M3 M4 (ex_intro _ _ M5)) as (Hs & q & R).
  destruct (nstep_read o n n' out asker ctx Hw (proj1 L) P H) as (m & r' & e & es & X1 & X2 & X3 & X4 & X5 & X6). unfold leader_read_index in X5.
  assert (Sg : trk_is_singleton (r_trk (rn_raft n)) = false) by (apply not_true_is_false; intros X; apply A, alone_iff; auto). rewrite Sg, com_true in X5 by auto. cbn [bind] in X5.
  destruct (srir_spec _ _ _ _ _ _ X5 Hs R X2) as (ro2 & Y & _). eapply hb_spreads; [exact H|apply L|]. rewrite X6. cbn [rn_raft set_rn_raft]. rewrite Y. cbn [r_msgs set_r_msgs set_r_ro].
  eexists. split; [reflexivity|]. intros id I1 I2. exists (hbmsg (rn_raft n) (e_data e) id). split; [apply in_map, in_peer_ids_iff; auto|]. rewrite <- X3. apply hbmsg_beat.
Qed.

(** C65: ... and once a quorum has acknowledged heartbeats with that context, while the node still
    leads the same term, the asker has been given the commit index of the moment of the question. *)
Theorem C65_answered c n0 os n o n' out asker ctx os2 n2 :
  created c n0 -> c_ro c = RoSafe -> n_run_ok (os ++ o :: os2) n0 -> reached n0 os n -> new_ctx (node_id n0) os ctx -> ctx <> EmptyString ->
  leads_committed n -> ~ alone n -> puts (node_id n) (node_term n) o asker ctx -> n_step o n = Ok (n', out) ->
  reached n' os2 n2 -> throughout (leads_in (node_term n)) os2 n' -> fixed_config os2 -> confirmed os2 ctx n' ->
  answered n' os2 asker ctx (node_commit n).
Proof.
  intros C Ho Hk Hr Hn Hne L A P H Hr2 T F Cf. destruct (ok_app _ _ _ _ Hk Hr) as [Hk1 [Hk2 Hk3]]. rewrite H in Hk3. pose proof (created_made _ _ _ _ C Hk1 Hr) as M.
  pose proof (made_step _ _ _ _ _ M Hk2 H) as M'. pose proof (mi_dinv _ _ (made_inv _ _ M)) as D. pose proof (proj1 Hk2) as Hw.
  destruct C as (tape & s & C1 & C2 & C3). destruct Hr as (outs & Hr).
  destruct (booked c s tape n0 os n C1 Ho C3 (nop_ok_wf _ _ Hk1 _ _ Hr) (ex_intro _ _ Hr)) as (Hs & q & R & B1 & _).
  destruct (nstep_read o n n' out asker ctx Hw (proj1 L) P H) as (m & r' & e & es & X1 & X2 & X3 & X4 & X5 & X6). unfold leader_read_index in X5.
  assert (Sg : trk_is_singleton (r_trk (rn_raft n)) = false) by (apply not_true_is_false; intros X; apply A, alone_iff; auto). rewrite Sg, com_true in X5 by auto. cbn [bind] in X5.
  assert (Nq : ~ In (e_data e) (List.map rq_ctx q)).
  { intros Hin. apply in_map_iff in Hin. destruct Hin as (x & Y1 & Y2). destruct (B1 x Y2) as (o' & a' & Z1 & Z2). apply (Hn o' a' Z1). rewrite <- X3, <- Y1. exact Z2. }
  destruct (srir_spec _ _ _ _ _ _ X5 Hs R X2) as (ro2 & Y & Ys & _).
  pose proof (srir_waiting _ _ _ _ _ _ X5 Hs R X2 Nq) as W.
  assert (Er : rn_raft n' = r') by (rewrite X6; reflexivity).
  assert (Hs' : ro_option (r_ro (rn_raft n')) = RoSafe) by (rewrite Er, Y; exact Ys). rewrite <- Er in W.
  assert (Ei : node_id n' = node_id n) by (change (r_id (rn_raft n') = r_id (rn_raft n)); rewrite Er, Y; reflexivity).
  destruct Hr2 as (outs2 & Hr2).
  destruct (reign_waiting c (node_term n) (m, l_committed (r_log (rn_raft n))) ctx e es os2 X2 X3 Hne Ho (fun _ => False) n' n2 outs2 M' Hk3 Hr2 T F Hs' W) as [G|G].
  - cbn [fst snd] in G. rewrite Ei, X4 in G. exact G.
  - exfalso. revert G. eapply (confirmed_ends c); eauto.
Qed.

(** One call of a leader that has not committed anything of its term, before and after. *)
Lemma step_postponed c o n n' out q : made c n -> made c n' -> nop_wf o -> n_step o n = Ok (n', out) -> still_leads n n' -> leads_uncommitted n' -> ro_rel (r_ro (rn_raft n)) q ->
  exists q' x, ro_rel (r_ro (rn_raft n')) q' /\ incl (List.map rq_ctx q') (List.map rq_ctx q) /\ r_pend_reads (rn_raft n') = r_pend_reads (rn_raft n) ++ x.
Proof.
  intros M M' Hw H (L & L' & T) U R. pose proof (mi_dinv _ _ (made_inv _ _ M')) as D'. destruct (plain_dec o) as [Hp|Hp].
  - destruct (n_step_rcall _ _ _ _ Hp Hw H) as (im & l & _ & _ & r1 & h & A1 & _ & B). pose proof (rbs_same _ _ _ _ _ _ B) as S.
    change (r_state (rn_raft n') = RLeader) in L'. change (r_state (rn_raft n) = RLeader) in L. change (r_term (rn_raft n') = r_term (rn_raft n)) in T.
    assert (Ro : r_ro r1 = r_ro (rn_raft n)).
    { destruct (qa_ro _ _ A1) as [(X & _)|[_ X]]; auto. exfalso. specialize (X L). unfold rk in X. rewrite <- (sm_state _ _ S), <- (sm_term _ _ S), L, L', T in X. lia. }
    rewrite <- (qa_pend _ _ A1). eapply rbs_postponed; [exact B| |rewrite Ro; exact R]. rewrite <- (com_same _ _ S), com_false by auto. discriminate.
  - destruct (not_plain_qn _ _ _ _ Hp H) as [Q1 Q2 Q3 Q4 Q5 Q6 Q7 Q8]. exists q, []. rewrite Q1, Q2, app_nil_r. split; auto. split; auto. apply incl_refl.
Qed.
Lemma run_postponed c t os : forall n n' outs q, made c n -> n_run_ok os n -> n_run os n = Ok (n', outs) ->
  throughout (fun k => leads_uncommitted k /\ node_term k = t) os n -> ro_rel (r_ro (rn_raft n)) q ->
  exists q' x, ro_rel (r_ro (rn_raft n')) q' /\ incl (List.map rq_ctx q') (List.map rq_ctx q) /\ r_pend_reads (rn_raft n') = r_pend_reads (rn_raft n) ++ x /\
    (leads_uncommitted n' /\ node_term n' = t).
Proof.
  induction os as [|o os IH]; intros n n' outs q M Hk H T R; cbn [n_run n_run_ok] in *.
  - apply Ok_inj, pair_equal_spec in H. destruct H as [<- _]. exists q, []. rewrite app_nil_r. split; auto. split; [apply incl_refl|]. split; auto. apply T.
  - destruct Hk as [Hk1 Hk2]. apply bind_ok in H. destruct H as ([n1 o1] & H & H7). rewrite H in *. apply bind_ok in H7. destruct H7 as ([n2 o2] & H7 & Hx).
    apply Ok_inj, pair_equal_spec in Hx. destruct Hx as [-> <-]. cbn [throughout] in T. destruct T as [(T1 & T2) T3]. specialize (T3 _ _ H).
    pose proof (throughout_hd _ _ _ T3) as (T4 & T5). pose proof (made_step _ _ _ _ _ M Hk1 H) as M1.
    destruct (step_postponed c o n n1 o1 q M M1 (proj1 Hk1) H) as (q1 & x1 & Q1 & Q2 & Q3); [split; [apply T1|split; [apply T4|congruence]]|exact T4|exact R|].
    destruct (IH n1 n' o2 q1 M1 Hk2 H7 T3 Q1) as (q2 & x2 & R1 & R2 & R3 & R4). exists q2, (x1 ++ x2). rewrite R3, Q3, app_assoc. split; auto. split; [eapply incl_tran; eauto|auto].
Qed.

(** C65: a question put while the leader has committed nothing of its term waits; the acknowledgement
    by which the leader commits such an entry spreads its context and, from then on, a quorum of
    heartbeat acknowledgements answers it, with the commit index of that moment. *)
Theorem C65_postponed c n0 os n o n' out asker ctx osA nA m nB outB :
  created c n0 -> c_ro c = RoSafe -> n_run_ok (os ++ o :: osA ++ [NStep m]) n0 -> reached n0 os n -> new_ctx (node_id n0) os ctx ->
  leads_uncommitted n -> ~ alone n -> puts (node_id n) (node_term n) o asker ctx -> n_step o n = Ok (n', out) ->
  reached n' osA nA -> throughout (fun k => leads_uncommitted k /\ node_term k = node_term n) osA n' ->
  m_type m = MsgAppResp -> m_term m = node_term n -> n_step (NStep m) nA = Ok (nB, outB) -> leads_committed nB -> node_term nB = node_term n ->
  spreads (NStep m) nA nB ctx /\
  forall os3 n3, ctx <> EmptyString -> n_run_ok os3 nB -> reached nB os3 n3 -> throughout (leads_in (node_term n)) os3 nB -> fixed_config os3 -> confirmed os3 ctx nB ->
    answered nB os3 asker ctx (node_commit nB).
Proof.
  intros C Ho Hk Hr Hn L A P H HrA TA Hm Hmt HB LB TB. destruct (ok_app _ _ _ _ Hk Hr) as [Hk1 [Hk2 Hk3]]. rewrite H in Hk3.
  destruct (ok_app _ _ _ _ Hk3 HrA) as [Hk4 [Hk5 _]]. pose proof (created_made _ _ _ _ C Hk1 Hr) as M.
  pose proof (made_step _ _ _ _ _ M Hk2 H) as M'. pose proof (mi_dinv _ _ (made_inv _ _ M)) as D. pose proof (proj1 Hk2) as Hw.
  destruct HrA as (outsA & HrA). pose proof (made_run _ _ _ _ _ M' Hk4 HrA) as MA. pose proof (made_step _ _ _ _ _ MA Hk5 HB) as MB.
  pose proof (mi_dinv _ _ (made_inv _ _ MA)) as DA. pose proof (mi_dinv _ _ (made_inv _ _ MB)) as DB.
  assert (Hall : n_run_ok (os ++ o :: osA) n0).
  { destruct Hr as (x & Hr). clear - Hk1 Hr H Hk2 Hk4. revert n0 x Hk1 Hr. induction os as [|a os IH]; intros n0 x Hk1 Hr; cbn [n_run n_run_ok app] in *.
    - apply Ok_inj, pair_equal_spec in Hr. destruct Hr as [-> _]. rewrite H. auto.
    - destruct Hk1 as [Y1 Y2]. apply bind_ok in Hr. destruct Hr as ([n1 o1] & Hx & Hr). rewrite Hx in *. apply bind_ok in Hr. destruct Hr as ([n2 o2] & Hr & Hz).
      apply Ok_inj, pair_equal_spec in Hz. destruct Hz as [-> _]. split; eauto. }
  destruct C as (tape & s & C1 & C2 & C3). destruct Hr as (outs & Hr).
  destruct (booked c s tape n0 os n C1 Ho C3 (nop_ok_wf _ _ Hk1 _ _ Hr) (ex_intro _ _ Hr)) as (Hs & q & R & B1 & B2).
  destruct (safe_mode c s tape n0 (os ++ o :: osA) nA C1 Ho C3 Hall) as [HsA _].
  { eapply reached_app; [exists outs; exact Hr|]. apply (reached_app _ [o] n'); [eapply reached_one; eauto|exists outsA; exact HrA]. }
  destruct (nstep_read o n n' out asker ctx Hw (proj1 L) P H) as (m0 & r' & e & es & X1 & X2 & X3 & X4 & X5 & X6). unfold leader_read_index in X5.
  assert (Sg : trk_is_singleton (r_trk (rn_raft n)) = false) by (apply not_true_is_false; intros X; apply A, alone_iff; auto). rewrite Sg, com_false in X5 by auto. cbn [bind] in X5.
  apply Ok_inj in X5. assert (Er : rn_raft n' = r') by (rewrite X6; reflexivity).
  assert (Nq : ~ In ctx (List.map rq_ctx q)).
  { intros Hin. apply in_map_iff in Hin. destruct Hin as (x & Y1 & Y2). destruct (B1 x Y2) as (o' & a' & Z1 & Z2). apply (Hn o' a' Z1). rewrite <- Y1. exact Z2. }
  assert (Rn : ro_rel (r_ro (rn_raft n')) q) by (rewrite Er, <- X5; exact R).
  destruct (run_postponed c (node_term n) osA n' nA outsA q M' Hk4 HrA TA Rn) as (qA & x & Q1 & Q2 & Q3 & (UA & TAa)).
  assert (Pd : r_pend_reads (rn_raft nA) = r_pend_reads (rn_raft n) ++ m0 :: x) by (rewrite Q3, Er, <- X5; cbn; rewrite <- app_assoc; reflexivity).
  assert (Ei : node_id nA = node_id n).
  { rewrite (run_id (o :: osA) n nA); auto; [|eapply (reached_app _ [o] n'); [eapply reached_one; eauto|exists outsA; exact HrA]].
    constructor; [exact Hw|]. eapply nop_ok_wf; eauto. }
  destruct (trk_get (m_from m) (r_trk (rn_raft nA))) as [pr|] eqn:Hpr.
  2:{ exfalso. cbn [n_step] in HB. apply bind_ok in HB. destruct HB as ([n1 e1] & HB & Hx). apply Ok_inj, pair_equal_spec in Hx. destruct Hx as [<- _].
      unfold rn_step in HB. rewrite Hpr, Hm in HB. cbn in HB. apply Ok_inj, pair_equal_spec in HB. destruct HB as [<- _]. apply (proj2 UA). rewrite (proj2 LB). reflexivity. }
  destruct (nstep_resp m nA nB outB pr (or_introl Hm) (proj1 Hk5) (proj1 UA) (eq_trans Hmt (eq_sym TAa)) Hpr HB) as (rB & G1 & G2). rewrite Hm in G1.
  assert (ErB : rn_raft nB = rB) by (rewrite G2; reflexivity).
  assert (LA' : r_state (rn_raft nA) = RLeader) by apply UA.
  assert (CA : committed_entry_in_current_term (rn_raft nA) <> Ok true) by (rewrite com_false by auto; discriminate).
  assert (CB : committed_entry_in_current_term rB = Ok true) by (rewrite <- ErB; apply com_true; auto).
  destruct (ack_releases m pr (rn_raft nA) rB qA G1 HsA Q1 LA' Hpr CA CB) as [(ms & M1 & M2) Wt].
  split.
  - eapply hb_spreads; [exact HB|apply UA|]. exists ms. rewrite ErB. split; [exact M1|]. intros id I1 I2. rewrite <- X3. eapply M2; eauto. rewrite Pd. apply in_or_app. right. left. auto.
  - intros os3 n3 Hne Hk6 (outs3 & Hr3) T3 F Cf.
    assert (W : waiting (fun _ => False) (m0, node_commit nB) (rn_raft nB)).
    { rewrite ErB. change (node_commit nB) with (l_committed (r_log (rn_raft nB))). rewrite ErB. eapply (Wt (r_pend_reads (rn_raft n)) m0 x e es); auto.
      - intros Hin. apply Nq. rewrite <- X3. auto.
      - intros y e' es' Y1 Y2 Y3. destruct (B2 y e' es' Y1 Y2) as (o' & a' & Z1 & Z2). apply (Hn o' a' Z1). rewrite <- X3, <- Y3. exact Z2. }
    assert (HsB : ro_option (r_ro (rn_raft nB)) = RoSafe).
    { destruct (safe_mode c s tape n0 ((os ++ o :: osA) ++ [NStep m]) nB C1 Ho C3) as [X _]; auto; [rewrite <- app_assoc; exact Hk|].
      eapply reached_app; [|eapply reached_one; eauto]. eapply reached_app; [exists outs; exact Hr|]. apply (reached_app _ [o] n'); [eapply reached_one; eauto|exists outsA; exact HrA]. }
    assert (EiB : node_id nB = node_id n).
    { rewrite (run_id [NStep m] nA nB); auto; [|eapply reached_one; eauto]. constructor; [apply Hk5|constructor]. }
    destruct (reign_waiting c (node_term n) (m0, node_commit nB) ctx e es os3 X2 X3 Hne Ho (fun _ => False) nB n3 outs3 MB Hk6 Hr3 T3 F HsB W) as [G|G].
    + cbn [fst snd] in G. rewrite EiB, X4 in G. exact G.
    + exfalso. revert G. eapply (confirmed_ends c); eauto.
Qed.

(** C65: the only voter of the configuration answers at once. *)
Theorem C65_alone n o n' out asker ctx : nop_wf o -> node_role n = RLeader -> alone n ->
  puts (node_id n) (node_term n) o asker ctx -> n_step o n = Ok (n', out) -> answers o n n' asker ctx (node_commit n).
Proof.
  intros Hw L A P H. destruct (nstep_read o n n' out asker ctx Hw L P H) as (m & r' & e & es & X1 & X2 & X3 & X4 & X5 & X6). unfold leader_read_index in X5.
  apply alone_iff in A. rewrite A in X5. pose proof (response_gives _ _ _ _ X5) as G. destruct (response_same _ _ _ _ X5) as (S & _ & _).
  assert (Er : rn_raft n' = r') by (rewrite X6; reflexivity). rewrite <- Er in G.
  assert (L' : node_role n' = RLeader) by (change (r_state (rn_raft n') = RLeader); rewrite Er, (sm_state _ _ S); exact L).
  pose proof (gives_answers o n n' out (m, l_committed (r_log (rn_raft n))) e es H L' X2 G) as R. cbn [fst snd] in R. rewrite X4, X3 in R. exact R.
Qed.

(** C65: a follower that knows a leader sends its application's question there, as a question every
    node [id] (in whatever term) takes for this follower's. *)
Theorem C65_forwarded n ctx n' out : node_role n = RFollower -> node_lead n <> 0 -> node_id n <> 0 -> n_step (NReadIndex ctx) n = Ok (n', out) ->
  exists x, emits (NReadIndex ctx) n n' x /\ m_type x = MsgReadIndex /\ m_to x = node_lead n /\ m_from x = node_id n /\
    forall id t, id <> node_id n -> puts id t (NStep x) (node_id n) ctx.
Proof.
  intros F L Id H. pose proof H as H0. change (r_state (rn_raft n) = RFollower) in F. change (r_lead (rn_raft n) <> 0) in L. cbn [n_step] in H.
  apply bind_ok in H. destruct H as (n1 & H & Hx). apply Ok_inj, pair_equal_spec in Hx. destruct Hx as [<- _].
  unfold rn_read_index in H. apply bind_ok in H. destruct H as ([n2 e2] & H & Hx). apply Ok_inj in Hx. subst n2.
  unfold rn_raft_step in H. apply bind_ok in H. destruct H as ([r1 e1] & H & Hx). apply Ok_inj, pair_equal_spec in Hx. destruct Hx as [<- _].
  change (step_dispatch (read_index_msg ctx) (rn_raft n) = Ok (r1, e1)) in H. unfold step_dispatch in H. cbn [m_type read_index_msg] in H. rewrite F in H.
  unfold step_follower in H. cbn [m_type read_index_msg] in H. apply N.eqb_neq in L. rewrite L in H. unfold okr in H. apply bind_ok in H. destruct H as (r2 & H & Hx).
  apply Ok_inj, pair_equal_spec in Hx. destruct Hx as [<- _]. apply send_ok in H. destruct H as [Hr _].
  exists (outm (rn_raft n) (set_m_to (r_lead (rn_raft n)) (read_index_msg ctx))). split; [exists out; eexists; split; [exact H0|]; split; [unfold pending; cbn; rewrite Hr; reflexivity|left; reflexivity]|].
  split; [reflexivity|]. split; [reflexivity|]. split; [reflexivity|]. intros id t Hid. split; [|left; reflexivity]. cbn [asks]. split; [reflexivity|]. split.
  - change (node_id n = (if node_id n =? id then 0 else node_id n)). destruct (N.eqb_spec (node_id n) id); [congruence|auto].
  - eexists. eexists. split; reflexivity.
Qed.
(** C65: a follower hands the answer its leader sends to the application. *)
Theorem C65_delivered n m e n' out : node_role n = RFollower -> m_type m = MsgReadIndexResp -> m_term m = node_term n -> m_entries m = [e] ->
  n_step (NStep m) n = Ok (n', out) -> node_reads n' = node_reads n ++ [mkReadState (m_index m) (e_data e)].
Proof.
  intros F Ht T He H. change (r_state (rn_raft n) = RFollower) in F. change (m_term m = r_term (rn_raft n)) in T. cbn [n_step] in H. apply bind_ok in H. destruct H as ([n1 e1] & H & Hx).
  apply Ok_inj, pair_equal_spec in Hx. destruct Hx as [<- _]. unfold rn_step in H. rewrite Ht in H. cbn [is_local_msg is_response_msg negb] in H. rewrite orb_true_r in H.
  unfold rn_raft_step in H. apply bind_ok in H. destruct H as ([r1 e2] & H & Hx). apply Ok_inj, pair_equal_spec in Hx. destruct Hx as [<- _].
  assert (Y : step_dispatch m (rn_raft n) = Ok (r1, e2)).
  { unfold step in H. destruct (m_term m =? 0); [exact H|]. destruct (N.ltb_spec (r_term (rn_raft n)) (m_term m)); [lia|]. destruct (N.ltb_spec (m_term m) (r_term (rn_raft n))); [lia|]. exact H. }
  unfold step_dispatch in Y. rewrite Ht, F in Y. unfold step_follower in Y. rewrite Ht, He in Y. apply Ok_inj, pair_equal_spec in Y. destruct Y as [<- _]. reflexivity.
Qed.
End Props.

(* ---- concrete cases ---- *)
Section RCase.
#[local] Existing Instance ex_env.
(** [pre], the question [o], then [os2]. *)
Definition live_case (pre : list nop) (o : nop) (os2 : list nop) (chk : rawnode -> rawnode -> bool) : bool :=
  match rn_new (ex_cfg 1) ex_tape with
  | Ok n0 => storage_okb (ex_storage) && n_run_okb (pre ++ o :: os2) n0 &&
      match n_run pre n0 with
      | Ok (n, _) => match n_step o n with Ok (n', _) => match n_run os2 n' with Ok _ => chk n n' | _ => false end | _ => false end
      | _ => false
      end
  | _ => false
  end.
Lemma live_case_ok pre o os2 chk : live_case pre o os2 chk = true ->
  exists n0 n n' out n2, created (ex_cfg 1) n0 /\ n_run_ok (pre ++ o :: os2) n0 /\ reached n0 pre n /\ n_step o n = Ok (n', out) /\ reached n' os2 n2 /\ chk n n' = true.
Proof.
  unfold live_case. destruct (rn_new (ex_cfg 1) ex_tape) as [n0| | |] eqn:H0; try discriminate. intros H. apply andb_prop in H. destruct H as [H1 H]. apply andb_prop in H1. destruct H1 as [H1 H2].
  destruct (n_run pre n0) as [[n outs]| | |] eqn:Hr; try discriminate. destruct (n_step o n) as [[n' out]| | |] eqn:Ho; try discriminate.
  destruct (n_run os2 n') as [[n2 outs2]| | |] eqn:Hr2; try discriminate. exists n0, n, n', out, n2. split; [exists ex_tape, ex_storage; split; [reflexivity|split; [apply storage_okb_ok; exact H1|exact H0]]|].
  split; [apply n_run_okb_ok; exact H2|]. split; [exists outs; exact Hr|]. split; [exact Ho|]. split; [exists outs2; exact Hr2|exact H].
Qed.
Definition leads_inb (t : N) (k : rawnode) : bool := role_eqb (node_role k) RLeader && (node_term k =? t).
Lemma leads_inb_ok t k : leads_inb t k = true -> leads_in t k.
Proof. unfold leads_inb. intros H. apply andb_prop in H. destruct H as [H1 H2]. split; [destruct (node_role k); auto; discriminate|apply N.eqb_eq; auto]. Qed.
Definition leads_comb (b : bool) (k : rawnode) : bool := role_eqb (node_role k) RLeader && Bool.eqb (node_term_at k (node_commit k) =? node_term k) b.
Lemma leads_comb_true k : leads_comb true k = true -> leads_committed k.
Proof. unfold leads_comb. intros H. apply andb_prop in H. destruct H as [H1 H2]. split; [destruct (node_role k); auto; discriminate|apply N.eqb_eq, eqb_prop; auto]. Qed.
Lemma leads_comb_false k : leads_comb false k = true -> leads_uncommitted k.
Proof. unfold leads_comb. intros H. apply andb_prop in H. destruct H as [H1 H2]. split; [destruct (node_role k); auto; discriminate|apply N.eqb_neq, eqb_prop; auto]. Qed.
Definition three (n : rawnode) : bool := match node_incoming n, node_outgoing n with [a; b; d], [] => (a =? 1) && (b =? 2) && (d =? 3) | _, _ => false end.
Lemma three_ok n : three n = true -> node_incoming n = [1; 2; 3] /\ node_outgoing n = [].
Proof.
  unfold three. destruct (node_incoming n) as [|a [|b [|d [|? ?]]]]; try discriminate. destruct (node_outgoing n); [|discriminate]. intros H.
  apply andb_prop in H. destruct H as [H H3]. apply andb_prop in H. destruct H as [H1 H2]. apply N.eqb_eq in H1, H2, H3. subst. auto.
Qed.
Lemma three_confirmed os n ctx : three n = true -> node_id n = 1 -> node_term n = 3 -> In (NStep (ex_hbresp 2 3 ctx)) os -> confirmed os ctx n /\ ~ alone n.
Proof.
  intros H Hi Ht Ho. apply three_ok in H. destruct H as [H1 H2]. split.
  - exists (fun v => (v =? 1) || (v =? 2)). rewrite H1, H2, Hi, Ht. split; [right; vm_compute; reflexivity|]. split; [left; reflexivity|]. split; [exists 2; split; [reflexivity|split; [discriminate|left; right; left; reflexivity]]|].
    intros v Hv. apply orb_prop in Hv. destruct Hv as [Hv|Hv]; apply N.eqb_eq in Hv; [auto|right]. subst v. exists (ex_hbresp 2 3 ctx). split; [exact Ho|]. repeat split.
  - intros [(v & X) _]. rewrite H1 in X. discriminate.
Qed.
(** Leader 1 of term 3 has committed entry 8; peer 3 asks "b", voter 2 confirms. *)
Definition exl_pre : list nop := ex_elect ++ [NReadIndex "a"; ex_ack; NHandle; NPropose "x"; NHandle].
Definition exl_os2 : list nop := [NHandle; NStep (ex_app_resp 2 3 9); NStep (ex_hbresp 2 3 "b"); NHandle].
Example C65_example_answered : exists n0 n n' out n2, let o := NStep (ex_remote 3 "b") in
  created (ex_cfg 1) n0 /\ c_ro (ex_cfg 1) = RoSafe /\ n_run_ok (exl_pre ++ o :: exl_os2) n0 /\ reached n0 exl_pre n /\ new_ctx (node_id n0) exl_pre "b" /\
  leads_committed n /\ ~ alone n /\ puts (node_id n) (node_term n) o 3 "b" /\ n_step o n = Ok (n', out) /\ reached n' exl_os2 n2 /\
  throughout (leads_in (node_term n)) exl_os2 n' /\ fixed_config exl_os2 /\ confirmed exl_os2 "b" n'.
Proof.
  destruct (live_case_ok exl_pre (NStep (ex_remote 3 "b")) exl_os2 (fun n n' => leads_comb true n && three n && (node_id n =? 1) && (node_term n =? 3) && three n' && (node_id n' =? 1) && (node_term n' =? 3) && throughoutb (leads_inb 3) exl_os2 n'))
    as (n0 & n & n' & out & n2 & H1 & H2 & H3 & H4 & H5 & H); [vm_compute; reflexivity|]. repeat (apply andb_prop in H; destruct H as [H ?]).
  repeat match goal with K : (_ =? _) = true |- _ => apply N.eqb_eq in K end.
  assert (I2 : In (NStep (ex_hbresp 2 3 "b")) exl_os2) by (right; right; left; reflexivity).
  destruct (three_confirmed exl_os2 n "b") as [_ A]; auto. destruct (three_confirmed exl_os2 n' "b") as [C _]; auto.
  exists n0, n, n', out, n2. cbv zeta. split; [exact H1|]. split; [reflexivity|]. split; [exact H2|]. split; [exact H3|].
  split; [intros o a Ho Ha; cbn in Ho; repeat (destruct Ho as [<-|Ho]; [cbn in Ha; try contradiction; try (destruct Ha as [Ha1 Ha2]; discriminate)|]); contradiction|].
  split; [apply leads_comb_true, andb_true_intro; split; auto|]. split; [exact A|].
  split; [split; [cbn [asks]; split; [reflexivity|split; [match goal with K : node_id n = 1 |- _ => rewrite K end; reflexivity|eexists; eexists; split; reflexivity]]|left; reflexivity]|].
  split; [exact H4|]. split; [exact H5|]. match goal with K : node_term n = 3 |- _ => rewrite K end. split; [eapply throughoutb_ok; [apply leads_inb_ok|auto]|].
  split; [intros cc Hc; cbn in Hc; repeat (destruct Hc as [Hc|Hc]; [discriminate|]); contradiction|exact C].
Qed.
(** The same leader before it has committed anything of its term; the acknowledgement of entry 8 releases the question. *)
Definition exl_os3 : list nop := [NHandle; NStep (ex_hbresp 2 3 "b")].
Example C65_example_postponed : exists n0 n n' out nA nB outB n3, let o := NReadIndex "b" in let m := ex_app_resp 2 3 8 in
  created (ex_cfg 1) n0 /\ n_run_ok (ex_elect ++ o :: [NHandle] ++ [NStep m]) n0 /\ reached n0 ex_elect n /\ new_ctx (node_id n0) ex_elect "b" /\
  leads_uncommitted n /\ ~ alone n /\ puts (node_id n) (node_term n) o 0 "b" /\ n_step o n = Ok (n', out) /\
  reached n' [NHandle] nA /\ throughout (fun k => leads_uncommitted k /\ node_term k = node_term n) [NHandle] n' /\
  m_type m = MsgAppResp /\ m_term m = node_term n /\ n_step (NStep m) nA = Ok (nB, outB) /\ leads_committed nB /\ node_term nB = node_term n /\
  n_run_ok exl_os3 nB /\ reached nB exl_os3 n3 /\ throughout (leads_in (node_term n)) exl_os3 nB /\ fixed_config exl_os3 /\ confirmed exl_os3 "b" nB.
Proof.
  destruct (live_case_ok ex_elect (NReadIndex "b") ([NHandle] ++ [NStep (ex_app_resp 2 3 8)]) (fun n n' => leads_comb false n && three n && (node_id n =? 1) && (node_term n =? 3) &&
    throughoutb (fun k => leads_comb false k && (node_term k =? 3)) [NHandle] n' &&
    match n_run [NHandle] n' with
    | Ok (nA, _) => match n_step (NStep (ex_app_resp 2 3 8)) nA with
      | Ok (nB, _) => leads_comb true nB && (node_term nB =? 3) && (node_id nB =? 1) && three nB && n_run_okb exl_os3 nB && throughoutb (leads_inb 3) exl_os3 nB && match n_run exl_os3 nB with Ok _ => true | _ => false end
      | _ => false end
    | _ => false end)) as (n0 & n & n' & out & n2 & H1 & H2 & H3 & H4 & H5 & H); [vm_compute; reflexivity|].
  apply andb_prop in H. destruct H as [H G]. destruct (n_run [NHandle] n') as [[nA oA]| | |] eqn:HA; try discriminate. destruct (n_step _ nA) as [[nB oB]| | |] eqn:HB; try discriminate.
  apply andb_prop in G. destruct G as [G G1]. destruct (n_run exl_os3 nB) as [[n3 o3]| | |] eqn:H6; try discriminate.
  repeat (apply andb_prop in H; destruct H as [H ?]). repeat (apply andb_prop in G; destruct G as [G ?]).
  repeat match goal with K : (_ =? _) = true |- _ => apply N.eqb_eq in K end.
  assert (I2 : In (NStep (ex_hbresp 2 3 "b")) exl_os3) by (right; left; reflexivity).
  destruct (three_confirmed exl_os3 n "b") as [_ A]; auto. destruct (three_confirmed exl_os3 nB "b") as [C _]; auto.
  assert (Tn : node_term n = 3) by auto.
  exists n0, n, n', out, nA, nB, oB, n3. cbv zeta. rewrite Tn. split; [exact H1|]. split; [exact H2|]. split; [exact H3|].
  split; [intros o a Ho Ha; cbn in Ho; repeat (destruct Ho as [<-|Ho]; [cbn in Ha; try contradiction; try (destruct Ha as [Ha1 Ha2]; discriminate)|]); contradiction|].
  split; [apply leads_comb_false, andb_true_intro; split; auto|]. split; [exact A|]. split; [split; [cbn [asks]; split; reflexivity|exact Logic.I]|]. split; [exact H4|]. split; [exists oA; exact HA|].
  split; [eapply throughoutb_ok; [|eassumption]; intros k Hk; apply andb_prop in Hk; destruct Hk as [K1 K2]; split; [apply leads_comb_false; auto|apply N.eqb_eq; auto]|].
  split; [reflexivity|]. split; [reflexivity|]. split; [exact HB|]. split; [apply leads_comb_true, andb_true_intro; split; auto|]. split; [auto|]. split; [apply n_run_okb_ok; auto|].
  split; [exists o3; exact H6|]. split; [eapply throughoutb_ok; [apply leads_inb_ok|auto]|].
  split; [intros cc Hc; cbn in Hc; repeat (destruct Hc as [Hc|Hc]; [discriminate|]); contradiction|exact C].
Qed.
(** A follower of leader 2 asks, and is answered. *)
Definition exl_beat : nop := NStep (mkMsg MsgHeartbeat 1 2 3 0 0 [] 6 empty_snapshot false 0 EmptyString).
Definition exl_resp : msg := mkMsg MsgReadIndexResp 1 2 3 0 7 [mkEntry 0 0 EntryNormal "b"] 0 empty_snapshot false 0 EmptyString.
Example C65_example_follower : run_ok (ex_run (ex_cfg 1) [exl_beat; NHandle]) (fun x => node_role (fst x) = RFollower /\ node_lead (fst x) = 2 /\ node_id (fst x) = 1 /\
  run_ok (n_step (NReadIndex "b") (fst x)) (fun y => existsb (fun z => mtype_eqb (m_type z) MsgReadIndex && (m_to z =? 2)) (pending (fst y)) = true) /\
  run_ok (n_step (NStep exl_resp) (fst x)) (fun y => node_reads (fst y) = [mkReadState 7 "b"])).
Proof. vm_compute. repeat split; reflexivity. Qed.
End RCase.
