(** The read-only steps of a call, on the queue of Spec_ReadOnly, and the answers they give. *)
From Verif Require Import Prelude Types M_Util M_Quorum M_Inflights M_Progress M_Tracker.
From Verif Require Import M_Storage M_Unstable M_Log M_ReadOnly M_ConfPb M_ConfChange M_Raft M_RawNode.
From Verif Require Import Spec_ReadOnly Sys_ReadOnly P_ReadOnly P_Inflights Spec_Log P_Lists P_Log P_Frame P_Prim Sys_Node P_Node P_Fields P_NodeRun P_Read.

Definition acked_q (from : N) (c : string) (q : list rreq) : list rreq :=
  List.map (fun r => if String.eqb (rq_ctx r) c then add_ack from r else r) q.
Lemma acked_q_ctx from c q : List.map rq_ctx (acked_q from c q) = List.map rq_ctx q.
Proof. unfold acked_q. rewrite map_map. apply map_ext. intros r. destruct (String.eqb _ _); auto. Qed.
Definition ctx0 (m : msg) : string := match m_entries m with e :: _ => e_data e | [] => EmptyString end.
Definition reqs (q : list rreq) : list (msg * N) := List.map (fun x => (rq_msg x, rq_index x)) q.

Section RQ.
Context {E : Env}.

(** How a read-only step changes the queue, with the requests [h] in hand. *)
Inductive qst (im : msg) (h : list msg) (r : raft) (q : list rreq) : list rreq -> list (msg * N) -> Prop :=
| QKeep : qst im h r q q []
| QNow m : In m h -> r_state r = RLeader -> trk_is_singleton (r_trk r) = true \/ (ro_option (r_ro r) = RoLeaseBased /\ committed_entry_in_current_term r = Ok true) ->
    qst im h r q q [(m, l_committed (r_log r))]
| QDup d m : In m h -> r_state r = RLeader -> In d (List.map rq_ctx q) -> qst im h r q (acked_q (r_id r) d q) []
| QReg m e es : In m h -> r_state r = RLeader -> committed_entry_in_current_term r = Ok true -> m_entries m = e :: es -> ~ In (e_data e) (List.map rq_ctx q) ->
    qst im h r q (q ++ [mkRReq (e_data e) m (l_committed (r_log r)) [(r_id r, true)]]) []
| QAck : r_state r = RLeader -> m_type im = MsgHeartbeatResp -> (wf_in im -> m_term im = r_term r) -> m_ctx im <> EmptyString ->
    (In (m_ctx im) (List.map rq_ctx q) -> tc_vote_result (t_config (r_trk r)) (ack_of (m_ctx im) (acked_q (m_from im) (m_ctx im) q)) <> VoteWon) ->
    qst im h r q (acked_q (m_from im) (m_ctx im) q) []
| QRel : r_state r = RLeader -> m_type im = MsgHeartbeatResp -> (wf_in im -> m_term im = r_term r) -> m_ctx im <> EmptyString ->
    In (m_ctx im) (List.map rq_ctx q) ->
    tc_vote_result (t_config (r_trk r)) (ack_of (m_ctx im) (acked_q (m_from im) (m_ctx im) q)) = VoteWon ->
    qst im h r q (after (m_ctx im) (acked_q (m_from im) (m_ctx im) q)) (reqs (upto (m_ctx im) (acked_q (m_from im) (m_ctx im) q))).

Lemma recv_ack_q from c ro q ro' a : ro_rel ro q -> ro_recv_ack from c ro = (ro', a) ->
  ro_rel ro' (acked_q from c q) /\ a = ack_of c (acked_q from c q) /\ ro_option ro' = ro_option ro.
Proof.
  intros R H. destruct (ro_step_ok (RoAck from c) ro q _ _ R I eq_refl) as (ro1 & H1 & H2 & H3). cbn in H1. rewrite H in H1. injection H1 as -> ->. auto.
Qed.
Lemma advance_q c ro q ro' rss : ro_rel ro q -> ro_advance c ro = Ok (ro', rss) ->
  (In c (List.map rq_ctx q) /\ ro_rel ro' (after c q) /\ rss = List.map released (upto c q)) \/ (~ In c (List.map rq_ctx q) /\ ro_rel ro' q /\ rss = []).
Proof.
  intros R H. destruct (has_ctx c q) eqn:Hc.
  - destruct (ro_step_ok (RoAdvance c) ro q (after c q) (RrReleased (List.map released (upto c q))) R I) as (ro1 & H1 & H2 & H3); [cbn; rewrite Hc; auto|].
    cbn in H1. rewrite H in H1. cbn in H1. injection H1 as -> ->. left. rewrite <- has_ctx_In. auto.
  - destruct (ro_step_ok (RoAdvance c) ro q q (RrReleased []) R I) as (ro1 & H1 & H2 & H3); [cbn; rewrite Hc; auto|].
    cbn in H1. rewrite H in H1. cbn in H1. injection H1 as -> ->. right. rewrite <- has_ctx_In. split; [congruence|auto].
Qed.
Lemma mset_single id (b : bool) : mset id b [] = [(id, b)]. Proof. reflexivity. Qed.
Lemma acked_none from c q : ~ In c (List.map rq_ctx q) -> acked_q from c q = q.
Proof.
  intros H. unfold acked_q. rewrite <- (map_id q) at 2. apply map_ext_in. intros r Hr. destruct (String.eqb_spec (rq_ctx r) c) as [X|]; auto.
  exfalso. apply H. apply in_map_iff. eauto.
Qed.

Lemma rb_q im h r h' r' l q : ro_rel (r_ro r) q -> rb im h r h' r' l -> exists q', ro_rel (r_ro r') q' /\ qst im h r q q' l.
Proof.
  intros R H. destruct H; try (exists q; split; [auto|constructor]; fail).
  - exists q. split; [rewrite (qs_ro _ _ H); auto|constructor].
  - exists q. split; [rewrite H1; auto|constructor].
  - (* Add *) unfold entry0_data in H2. destruct (m_entries m) as [|e es] eqn:Em; [discriminate|]. inv H2.
    destruct (ro_step_ok (RoAdd (l_committed (r_log r)) m) (r_ro r) q _ _ R ltac:(cbn; rewrite Em; discriminate) eq_refl) as (rx & X1 & X2 & X3).
    cbn in X1. rewrite H3 in X1. cbn in X1. injection X1 as <-. cbn in X2. rewrite Em in X2.
    destruct (has_ctx (e_data e) q) eqn:Hh; cbn [fst] in X2; destruct (recv_ack_q _ _ _ _ _ _ X2 H4) as (Y1 & _ & _).
    + apply has_ctx_In in Hh. exists (acked_q (r_id r) (e_data e) q). split; [exact Y1|eapply QDup; eauto; left; auto].
    + assert (Hn : ~ In (e_data e) (List.map rq_ctx q)) by (rewrite <- has_ctx_In; congruence).
      eexists. split; [|eapply QReg; eauto; left; auto]. cbn.
      unfold acked_q in Y1. rewrite map_app in Y1. fold (acked_q (r_id r) (e_data e) q) in Y1. rewrite acked_none in Y1 by auto.
      cbn in Y1. rewrite String.eqb_refl in Y1. exact Y1.
  - (* Now *) exists q. split; [|apply QNow; auto; left; auto]. destruct (response_same _ _ _ _ H1) as (_ & -> & _). auto.
  - (* Ack *) destruct (recv_ack_q _ _ _ _ _ _ R H4) as (Y1 & Y2 & _). eexists. split; [exact Y1|apply QAck; auto]. intros _. rewrite <- Y2. auto.
  - (* Confirm *) destruct (recv_ack_q _ _ _ _ _ _ R H4) as (Y1 & Y2 & _). subst a.
    assert (K : r_ro r' = ro').
    { apply (mfold_inv _ (fun r r' => r_ro r' = r_ro r)) in H7; auto; [intros; congruence|]. intros x s s' _ Hs. eapply response_same; eauto. }
    rewrite K. destruct (advance_q _ _ _ _ _ Y1 H6) as [(Z1 & Z2 & Z3)|(Z1 & Z2 & Z3)].
    + eexists. split; [exact Z2|]. subst rss. rewrite map_map. rewrite acked_q_ctx in Z1. apply QRel; auto.
    + subst rss. eexists. split; [exact Z2|]. rewrite acked_q_ctx in Z1. apply QAck; auto.
Qed.

(** What the requester gets to see. *)
Definition is_local_req (r : raft) (m : msg) : bool := (m_from m =? 0) || (m_from m =? r_id r).
Definition ans_msg (r : raft) (p : msg * N) (x : msg) : Prop :=
  m_type x = MsgReadIndexResp /\ m_index x = snd p /\ m_entries x = m_entries (fst p) /\ m_to x = m_from (fst p) /\ m_from x = r_id r /\ m_term x = r_term r /\ is_local_req r (fst p) = false.
Definition ans_read (r : raft) (p : msg * N) (x : readstate) : Prop :=
  is_local_req r (fst p) = true /\ rs_index x = snd p /\ exists e es, m_entries (fst p) = e :: es /\ e_data e = rs_ctx x.

Lemma response_out m i r r' : response_to_read_index m i r = Ok r' ->
  exists ms rs, r_msgs r' = r_msgs r ++ ms /\ r_read_states r' = r_read_states r ++ rs /\
    (forall x, In x ms -> ans_msg r (m, i) x) /\ (forall x, In x rs -> ans_read r (m, i) x).
Proof.
  unfold response_to_read_index. destruct (_ || _) eqn:Hb; intros H.
  - apply bind_ok in H. destruct H as (d & Hd & H). apply Ok_inj in H. subst r'. exists [], [mkReadState i d]. rewrite app_nil_r. split; [auto|]. split; [auto|]. split; [intros x []|].
    intros x [<-|[]]. split; [exact Hb|]. split; auto. unfold entry0_data in Hd. destruct (m_entries m) as [|e es] eqn:Em; inv Hd. cbn. rewrite Em. eauto.
  - apply send_ok in H. destruct H as [-> _]. eexists [_], []. rewrite app_nil_r. split; [reflexivity|]. split; [reflexivity|]. split; [|intros x []].
    intros x [<-|[]]. repeat split; try reflexivity. exact Hb.
Qed.
(** Messages and read states a step adds. *)
Lemma rb_out im h r h' r' l : rb im h r h' r' l ->
  exists ms rs, r_msgs r' = r_msgs r ++ ms /\ r_read_states r' = r_read_states r ++ rs /\
    (forall x, In x ms -> plainm x \/ (r_state r = RLeader /\ exists ctx, beat ctx r x /\ (ctx = EmptyString \/ In ctx (ro_queue (r_ro r)) \/ sget ctx (ro_pending (r_ro r)) <> None)) \/
       (m_type im = MsgHeartbeat /\ (wf_in im -> m_term im = r_term r) /\ x = mk_resp MsgHeartbeatResp (m_from im) (r_id r) (r_term r) 0 0 false 0 (m_ctx im)) \/
       (m_type im = MsgReadIndex /\ r_state r = RFollower /\ m_term im = 0 /\ x = outm r (set_m_to (r_lead r) im)) \/
       (r_state r = RLeader /\ exists p, In p l /\ ans_msg r p x)) /\
    (forall x, In x rs -> (r_state r = RLeader /\ exists p, In p l /\ ans_read r p x) \/
       (r_state r = RFollower /\ m_type im = MsgReadIndexResp /\ exists e, m_entries im = [e] /\ x = mkReadState (m_index im) (e_data e))).
Proof.
  intros H. assert (N0 : forall (a b : raft), r_msgs b = r_msgs a -> r_read_states b = r_read_states a -> forall (P : msg -> Prop) (Q : readstate -> Prop), exists ms rs, r_msgs b = r_msgs a ++ ms /\ r_read_states b = r_read_states a ++ rs /\ (forall x, In x ms -> P x) /\ (forall x, In x rs -> Q x)).
  { intros a b H1 H2 P Q. exists [], []. rewrite !app_nil_r. repeat split; auto; intros x []. }
  destruct H; try (apply N0; reflexivity).
  - destruct (qa_msgs _ _ (qs_qa _ _ H)) as (ms & M1 & M2). exists ms, []. rewrite app_nil_r, (qa_reads _ _ (qs_qa _ _ H)). rewrite Forall_forall in M2. repeat split; auto. intros x [].
  - exists ms, []. rewrite app_nil_r. rewrite Forall_forall in H6. split; auto. split; auto. split; [|intros x []]. intros x Hx. right. left. split; auto. exists ctx. auto.
  - eexists [_], []. rewrite app_nil_r. split; [reflexivity|]. split; [reflexivity|]. split; [|intros x []]. intros x [<-|[]]. right. right. left. auto.
  - eexists [_], []. rewrite app_nil_r. split; [reflexivity|]. split; [reflexivity|]. split; [|intros x []]. intros x [<-|[]]. right. right. right. left. auto.
  - eexists [], [_]. rewrite app_nil_r. split; [reflexivity|]. split; [reflexivity|]. split; [intros x []|]. intros x [<-|[]]. right. eauto.
  - destruct (response_out _ _ _ _ H1) as (ms & rs & A1 & A2 & A3 & A4). exists ms, rs. split; auto. split; auto. split.
    + intros x Hx. right. right. right. right. split; auto. eexists. split; [left; reflexivity|auto].
    + intros x Hx. left. split; auto. eexists. split; [left; reflexivity|auto].
  - set (R := fun rs => (ris_req rs, ris_index rs)). clear H3 H4 H5 H6. rename H7 into K.
    assert (G : forall lst s, r_state s = RLeader -> r_cfg s = r_cfg r -> r_term s = r_term r -> mfold (fun rs r => response_to_read_index (ris_req rs) (ris_index rs) r) lst s = Ok r' ->
       exists ms rs, r_msgs r' = r_msgs s ++ ms /\ r_read_states r' = r_read_states s ++ rs /\
         (forall x, In x ms -> exists p, In p (List.map R lst) /\ ans_msg r p x) /\ (forall x, In x rs -> exists p, In p (List.map R lst) /\ ans_read r p x)).
    { clear K. induction lst as [|y lst IH]; intros s S1 S2 S3 K; cbn in K.
      - inv K. exists [], []. rewrite !app_nil_r. repeat split; auto; intros x [].
      - apply bind_ok in K. destruct K as (s1 & K1 & K). destruct (response_same _ _ _ _ K1) as (Sm & _ & _).
        destruct (response_out _ _ _ _ K1) as (m1 & t1 & A1 & A2 & A3 & A4).
        destruct (IH s1) as (m2 & t2 & B1 & B2 & B3 & B4); [rewrite (sm_state _ _ Sm); auto|rewrite (sm_cfg _ _ Sm); auto|rewrite (sm_term _ _ Sm); auto|auto|].
        exists (m1 ++ m2), (t1 ++ t2). rewrite B1, A1, B2, A2, !app_assoc. split; auto. split; auto. split; intros x Hx; apply in_app_or in Hx; destruct Hx as [Hx|Hx].
        + exists (R y). split; [left; auto|]. specialize (A3 _ Hx). unfold ans_msg, is_local_req, r_id in *. rewrite S2, S3 in A3. exact A3.
        + destruct (B3 _ Hx) as (p & P1 & P2). exists p. split; auto. right; auto.
        + exists (R y). split; [left; auto|]. specialize (A4 _ Hx). unfold ans_read, is_local_req, r_id in *. rewrite S2 in A4. exact A4.
        + destruct (B4 _ Hx) as (p & P1 & P2). exists p. split; auto. right; auto. }
    destruct (G rss (set_r_ro ro' r) H eq_refl eq_refl K) as (ms & rs & B1 & B2 & B3 & B4). exists ms, rs. split; auto. split; auto. split; intros x Hx.
    + right. right. right. right. split; [exact H|exact (B3 _ Hx)].
    + left. split; [exact H|exact (B4 _ Hx)].
Qed.

(** Where the requests in hand and the postponed ones come from. *)
Lemma rb_hand im h r h' r' l : rb im h r h' r' l ->
  (forall m, In m h' -> In m h \/
     (In m (r_pend_reads r) /\ m_type im = MsgAppResp /\ r_state r = RLeader)) /\
  (forall m, In m (r_pend_reads r') -> In m (r_pend_reads r) \/
     (m = im /\ In m h /\ r_state r = RLeader /\ committed_entry_in_current_term r = Ok false)).
Proof.
  intros H. destruct H; try (split; [auto; fail|auto; fail]).
  - split; auto. rewrite (qa_pend _ _ (qs_qa _ _ H)). auto.
  - split; auto. rewrite H2. auto.
  - split; [intros m []|]. cbn. intros m Hm. apply in_app_or in Hm. destruct Hm as [Hm|[<-|[]]]; [auto|]. right. split; [auto|]. split; [left; auto|auto].
  - split; auto. cbn. intros m [].
  - split; [intros m' Hm; left; right; auto|auto].
  - split; [intros m' Hm; left; right; auto|]. destruct (response_same _ _ _ _ H1) as (_ & _ & ->). auto.
  - split; auto. assert (K : r_pend_reads r' = r_pend_reads r).
    { apply (mfold_inv _ (fun r r' => r_pend_reads r' = r_pend_reads r)) in H7; auto; [intros; congruence|]. intros x s s' _ Hs. eapply response_same; eauto. }
    rewrite K. auto.
Qed.

(** Calls other than the plain ones. *)
Record qn (r r' : raft) : Prop := {
  qn_ro : r_ro r' = r_ro r; qn_pend : r_pend_reads r' = r_pend_reads r; qn_state : r_state r' = r_state r;
  qn_term : r_term r' = r_term r; qn_cfg : r_cfg r' = r_cfg r; qn_conf : t_config (r_trk r') = t_config (r_trk r);
  qn_reads : r_read_states r' = r_read_states r \/ r_read_states r' = [];
  qn_msgs : r_msgs r' = r_msgs r \/ r_msgs r' = []
}.
Lemma qn_refl r : qn r r. Proof. constructor; auto. Qed.
Lemma qn_trans a b c : qn a b -> qn b c -> qn a c.
Proof. intros [A1 A2 A3 A4 A5 A6 A7 A8] [B1 B2 B3 B4 B5 B6 B7 B8]. constructor; try congruence; [destruct B7; [rewrite H|]; auto|destruct B8; [rewrite H|]; auto]. Qed.
Lemma qn_log l r : qn r (set_r_log l r). Proof. constructor; cbn; auto. Qed.
Lemma raft_advance_qn rd r r' : raft_advance rd r = Ok r' -> qn r r'.
Proof.
  unfold raft_advance. cbv zeta. destruct (reduce_uncommitted_fields (rd_committed rd) r) as [u Hu]. rewrite Hu. intros H.
  apply bind_ok in H. destruct H as (r1 & H1 & H). apply bind_ok in H. destruct H as (r2 & H2 & H).
  assert (A1 : qn r r1).
  { destruct (0 <? applied_cursor rd); [|inv H1; constructor; cbn; auto].
    apply bind_ok in H1. destruct H1 as (l & _ & H1). unfold maybe_auto_leave in H1.
    match type of H1 with (if ?b then _ else _) = _ => destruct b end; [|inv H1; constructor; cbn; auto].
    apply bind_ok in H1. destruct H1 as (o & Ho & H1). destruct o as [r3|]; [|discriminate]. inv H1.
    apply append_entry_fields in Ho. destruct Ho as (l1 & p1 & u1 & ->). constructor; cbn; auto. }
  assert (A2 : qn r1 r2).
  { destruct (rev (rd_ents rd)); [inv H2; apply qn_refl|]. apply bind_ok in H2. destruct H2 as (l2 & _ & H2). inv H2. apply qn_log. }
  eapply qn_trans; [exact A1|]. eapply qn_trans; [exact A2|]. destruct (_ =? 0); inv H; [apply qn_refl|apply qn_log].
Qed.
Lemma get_ready_qn n n' rd : rn_get_ready n = Ok (n', rd) -> qn (rn_raft n) (rn_raft n') /\ r_read_states (rn_raft n') = [] /\ r_msgs (rn_raft n') = [] /\
  rd_reads rd = r_read_states (rn_raft n) /\ rd_msgs rd = r_msgs (rn_raft n).
Proof.
  unfold rn_get_ready. intros H. apply bind_ok in H. destruct H as (rd0 & H1 & H). injection H as <- <-. cbn.
  assert (K : rd_reads rd0 = r_read_states (rn_raft n) /\ rd_msgs rd0 = r_msgs (rn_raft n)).
  { unfold new_ready in H1. apply bind_ok in H1. destruct H1 as (x & _ & H1). inv H1. split; reflexivity. }
  destruct K as [K1 K2]. rewrite K1, K2. destruct (r_read_states (rn_raft n)) eqn:X; cbn; (split; [constructor; cbn; auto|]); auto.
Qed.
Lemma not_plain_qn o n n' out : ~ plain o -> n_step o n = Ok (n', out) -> qn (rn_raft n) (rn_raft n').
Proof.
  intros Hp H. destruct o; try (exfalso; apply Hp; exact I); cbn [n_step] in H.
  - apply bind_ok in H. destruct H as ([n1 rd] & H & Hx). inv Hx. apply get_ready_qn in H. apply H.
  - apply bind_ok in H. destruct H as (n1 & H & Hx). inv Hx. unfold rn_advance in H. destruct (rn_ready n); [|discriminate].
    apply bind_ok in H. destruct H as (r1 & H & Hx). inv Hx. cbn. eapply raft_advance_qn; eauto.
  - inv H. cbn. apply qn_log.
  - apply bind_ok in H. destruct H as ([n1 rd] & H & Hx). inv Hx. unfold n_handle in H.
    apply bind_ok in H. destruct H as ([n2 rd2] & H1 & H). apply bind_ok in H. destruct H as (s & H2 & H). apply bind_ok in H. destruct H as (n3 & H3 & H). inv H.
    apply get_ready_qn in H1. eapply qn_trans; [apply H1|]. unfold rn_advance in H3. cbn [rn_ready set_storage set_rn_raft] in H3. destruct (rn_ready n2); [|discriminate].
    apply bind_ok in H3. destruct H3 as (r1 & H3 & Hx). inv Hx. cbn [rn_raft]. eapply qn_trans; [|eapply raft_advance_qn; eauto]. apply qn_log.
  - apply bind_ok in H. destruct H as ([s e] & _ & H). inv H. cbn. apply qn_log.
  - apply bind_ok in H. destruct H as ([s e] & _ & H). inv H. cbn. apply qn_log.
Qed.
End RQ.
