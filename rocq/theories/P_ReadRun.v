(** Requests over a run of one node in safe mode. *)
From Verif Require Import Prelude Types M_Util M_Quorum M_Inflights M_Progress M_Tracker.
From Verif Require Import M_Storage M_Unstable M_Log M_ReadOnly M_ConfPb M_ConfChange M_Raft M_RawNode.
From Verif Require Import Spec_ReadOnly Sys_ReadOnly P_ReadOnly P_Inflights Spec_Log P_Lists P_Log P_Frame P_Prim Sys_Node P_Node P_Fields P_NodeRun P_Emit P_Read P_ReadQ Spec_Node Spec_Read.
From Verif Require Import Spec_Quorum P_Quorum P_New.

Section RR.
Context {E : Env}.

Lemma own_true r : committed_entry_in_current_term r = Ok true ->
  match log_term (l_committed (r_log r)) (r_log r) with Ok (SOk t) => t | _ => 0 end = r_term r.
Proof.
  unfold committed_entry_in_current_term. intros H. apply bind_ok in H. destruct H as (t & -> & H). apply bind_ok in H. destruct H as (z & Hz & H).
  injection H as H. apply N.eqb_eq in H. destruct t as [t|e]; cbn in Hz; [congruence|]. destruct e; inv Hz; auto.
Qed.
Lemma own_false r : committed_entry_in_current_term r = Ok false ->
  match log_term (l_committed (r_log r)) (r_log r) with Ok (SOk t) => t | _ => 0 end <> r_term r.
Proof.
  unfold committed_entry_in_current_term. intros H. apply bind_ok in H. destruct H as (t & -> & H). apply bind_ok in H. destruct H as (z & Hz & H).
  injection H as H. apply N.eqb_neq in H. destruct t as [t|e]; cbn in Hz; [congruence|]. destruct e; inv Hz; auto.
Qed.
Lemma n_run_snoc os o n0 n outs n' out : n_run os n0 = Ok (n, outs) -> n_step o n = Ok (n', out) -> n_run (os ++ [o]) n0 = Ok (n', outs ++ [out]).
Proof.
  revert n0 outs. induction os as [|a os IH]; cbn; intros n0 outs H1 H2.
  - inv H1. rewrite H2. reflexivity.
  - apply bind_ok in H1. destruct H1 as ([n1 o1] & -> & H1). cbn. apply bind_ok in H1. destruct H1 as ([n2 o2] & H1 & H3). inv H3.
    rewrite (IH _ _ H1 H2). reflexivity.
Qed.

Variable n0 : rawnode.

Definition presents (o : nop) (m : msg) : Prop := m_type m = MsgReadIndex /\ opmsg o m.
Definition ppost (os : list nop) (m : msg) : Prop :=
  exists os1 o os2 n, os = os1 ++ o :: os2 /\ reached n0 (os1 ++ [o]) n /\ presents o m /\ nop_wf o /\ leads_uncommitted n.
(** The request [x] was taken up by a call, and [os2] came after it. *)
Definition taken_up (os : list nop) (t : N) (x : rreq) (os2 : list nop) : Prop :=
  exists os1 o n, os = os1 ++ o :: os2 /\ reached n0 (os1 ++ [o]) n /\ leads_committed n /\ node_term n = t /\ node_commit n = rq_index x /\ nop_wf o /\
    (presents o (rq_msg x) \/ ((exists m, o = NStep m /\ m_type m = MsgAppResp) /\ ppost (os1 ++ [o]) (rq_msg x))).
Definition ackd (id t : N) (os2 : list nop) (y : rreq) : Prop :=
  forall v b, mget v (rq_acks y) = Some b -> v = id \/ beat_acked os2 t v (rq_ctx y).
Fixpoint qok (id : N) (os : list nop) (t : N) (q : list rreq) : Prop :=
  match q with
  | [] => True
  | x :: b => (exists os2, taken_up os t x os2 /\ forall y, In y (x :: b) -> ackd id t os2 y) /\ qok id os t b
  end.

Lemma beat_acked_mono os o t v c : beat_acked os t v c -> beat_acked (os ++ [o]) t v c.
Proof. intros (m & H & K). exists m. split; auto. apply in_or_app. auto. Qed.
Lemma ppost_snoc os o m : ppost os m -> ppost (os ++ [o]) m.
Proof. intros (a & b & c & n & -> & H). exists a, b, (c ++ [o]), n. rewrite <- app_assoc. auto. Qed.
Lemma taken_snoc os o t x os2 : taken_up os t x os2 -> taken_up (os ++ [o]) t x (os2 ++ [o]).
Proof. intros (a & b & n & -> & H). exists a, b, n. rewrite <- app_assoc. auto. Qed.
Lemma ackd_snoc id t os o y : ackd id t os y -> ackd id t (os ++ [o]) y.
Proof. intros H v b Hv. destruct (H v b Hv); auto. right. apply beat_acked_mono; auto. Qed.
Lemma qok_snoc id os t q o : qok id os t q -> qok id (os ++ [o]) t q.
Proof.
  induction q as [|x b IH]; cbn; auto. intros [(os2 & H1 & H2) H]. split; auto. exists (os2 ++ [o]). split; [apply taken_snoc; auto|].
  intros y Hy. apply ackd_snoc. auto.
Qed.
Lemma qok_after id os t c q : qok id os t q -> qok id os t (after c q).
Proof. induction q as [|x b IH]; cbn; auto. intros [_ H]. destruct (String.eqb _ _); auto. Qed.
(** A last call that acknowledges. *)
Definition acks_by (id : N) (o : nop) (t v : N) (c : string) : Prop :=
  v = id \/ exists m, o = NStep m /\ m_type m = MsgHeartbeatResp /\ m_from m = v /\ m_term m = t /\ m_ctx m = c.
Lemma taken_last os o t x os2 : taken_up (os ++ [o]) t x os2 -> (exists n, reached n0 (os ++ [o]) n) -> os2 = [] \/ In o os2.
Proof.
  intros (a & b & n & H & _) _. destruct os2 as [|z l] using rev_ind; auto. right. rewrite app_comm_cons, app_assoc in H. apply app_inj_tail in H. destruct H as [_ ->].
  apply in_or_app. right. left. auto.
Qed.
(** Every request in [q] was taken up before the last call [o]. *)
Fixpoint before_last (os : list nop) (o : nop) (t : N) (id : N) (q : list rreq) : Prop :=
  match q with
  | [] => True
  | x :: b => (exists os2, In o os2 /\ taken_up (os ++ [o]) t x os2 /\ forall y, In y (x :: b) -> ackd id t os2 y) /\ before_last os o t id b
  end.
Lemma before_qok id os o t q : before_last os o t id q -> qok id (os ++ [o]) t q.
Proof. induction q as [|x b IH]; cbn; auto. intros [(os2 & _ & H) K]. split; eauto. Qed.
Lemma before_snoc id os t q o : qok id os t q -> before_last os o t id q.
Proof.
  induction q as [|x b IH]; cbn; auto. intros [(os2 & H1 & H2) H]. split; auto. exists (os2 ++ [o]). split; [apply in_or_app; right; left; auto|]. split; [apply taken_snoc; auto|].
  intros y Hy. apply ackd_snoc. auto.
Qed.
Lemma ackd_add id t os2 o v c y : In o os2 -> acks_by id o t v c -> rq_ctx y = c -> ackd id t os2 y -> ackd id t os2 (add_ack v y).
Proof.
  intros Hi Ha Hc H w b Hw. cbn in Hw. rewrite mget_mset in Hw. destruct (N.eqb_spec w v) as [->|]; [|apply (H w b); auto].
  destruct Ha as [->|(m & -> & A1 & A2 & A3 & A4)]; [auto|]. right. exists m. cbn. rewrite Hc. auto.
Qed.
Lemma before_ack id os o t v c q : acks_by id o t v c -> before_last os o t id q -> before_last os o t id (acked_q v c q).
Proof.
  intros Ha. induction q as [|x b IH]; [auto|]. cbn [before_last acked_q List.map]. intros [(os2 & H1 & H2 & H3) H]. split; [|apply IH; auto].
  exists os2. split; auto. split.
  - destruct H2 as (p1 & p2 & p3 & p4). exists p1, p2, p3. destruct (String.eqb _ _); auto.
  - intros y Hy. assert (G : exists z, In z (x :: b) /\ y = if String.eqb (rq_ctx z) c then add_ack v z else z).
    { destruct Hy as [<-|Hy]; [exists x; split; [left|]; auto|]. apply in_map_iff in Hy. destruct Hy as (z & <- & Hz). exists z. split; [right|]; auto. }
    destruct G as (z & Hz & ->). destruct (String.eqb_spec (rq_ctx z) c); [|auto]. eapply ackd_add; eauto.
Qed.
Lemma qok_self id os t c q : qok id os t q -> qok id os t (acked_q id c q).
Proof.
  induction q as [|x b IH]; [auto|]. cbn [qok acked_q List.map]. intros [(os2 & H1 & H2) H]. split; [|apply IH; auto].
  exists os2. split.
  - destruct H1 as (p1 & p2 & p3 & p4). exists p1, p2, p3. destruct (String.eqb _ _); auto.
  - intros y Hy. assert (G : exists z, In z (x :: b) /\ y = if String.eqb (rq_ctx z) c then add_ack id z else z).
    { destruct Hy as [<-|Hy]; [exists x; split; [left|]; auto|]. apply in_map_iff in Hy. destruct Hy as (z & <- & Hz). exists z. split; [right|]; auto. }
    destruct G as (z & Hz & ->). destruct (String.eqb (rq_ctx z) c); [|auto].
    intros w bb Hw. cbn in Hw. rewrite mget_mset in Hw. destruct (N.eqb_spec w id) as [->|]; [auto|]. apply (H2 z Hz w bb); auto.
Qed.
Lemma qok_reg id os t q x : qok id os t q -> taken_up os t x [] -> rq_acks x = [(id, true)] -> qok id os t (q ++ [x]).
Proof.
  intros H Ht Ha. assert (A : forall os2, ackd id t os2 x).
  { intros os2 v b Hv. rewrite Ha in Hv. cbn in Hv. destruct (N.eqb_spec v id); [auto|discriminate]. }
  induction q as [|z b IH]; cbn in *.
  - split; auto. exists []. split; auto. intros y [<-|[]]. auto.
  - destruct H as [(os2 & H1 & H2) H]. split; [|auto]. exists os2. split; auto. intros y [<-|Hy]; [apply H2; auto|].
    apply in_app_or in Hy. destruct Hy as [Hy|[<-|[]]]; auto.
Qed.

(** The answers. *)
Definition good_now (os : list nop) (o : nop) (r : raft) (p : msg * N) : Prop :=
  trk_is_singleton (r_trk r) = true /\ snd p = l_committed (r_log r) /\ (presents o (fst p) \/ ppost (os ++ [o]) (fst p)).
Definition good_conf (os : list nop) (o : nop) (r : raft) (p : msg * N) : Prop :=
  exists x os2 c S, rq_msg x = fst p /\ rq_index x = snd p /\ taken_up (os ++ [o]) (r_term r) x os2 /\
    majority (tc_incoming (t_config (r_trk r))) S /\ majority (tc_outgoing (t_config (r_trk r))) S /\
    (forall v, S v = true -> v = r_id r \/ beat_acked os2 (r_term r) v c).
Lemma good_upto id os o r q c : before_last os o (r_term r) id q -> id = r_id r ->
  tc_vote_result (t_config (r_trk r)) (ack_of c q) = VoteWon -> In c (List.map rq_ctx q) ->
  forall p, In p (reqs (upto c q)) -> good_conf os o r p.
Proof.
  intros H Hid Hv Hc p Hp. unfold tc_vote_result in Hv. apply joint_won in Hv. destruct Hv as [V1 V2].
  induction q as [|x b IH]; [destruct Hc|]. cbn [before_last] in H. destruct H as [(os2 & H1 & H2 & H3) H].
  assert (G : p = (rq_msg x, rq_index x) -> good_conf os o r p).
  { intros ->. exists x, os2, c, (voted_yes (vget (ack_of c (x :: b)))). cbn [fst snd]. split; [auto|]. split; [auto|]. split; [auto|]. split; [exact V1|]. split; [exact V2|].
    intros v Hv. unfold voted_yes, vget in Hv. destruct (mget v (ack_of c (x :: b))) as [bb|] eqn:X; [|discriminate].
    unfold ack_of in X. destruct (find (fun r0 => String.eqb (rq_ctx r0) c) (x :: b)) as [y|] eqn:Y; [|discriminate].
    apply find_some in Y. destruct Y as [Y1 Y2]. apply String.eqb_eq in Y2. destruct (H3 y Y1 v bb X) as [->|Z]; auto. rewrite Y2 in Z. auto. }
  cbn in Hp. destruct (String.eqb (rq_ctx x) c) eqn:Ex.
  - destruct Hp as [<-|[]]. auto.
  - destruct Hp as [<-|Hp]; [auto|]. apply IH; auto.
    + unfold ack_of in V1. cbn [find] in V1. rewrite Ex in V1. exact V1.
    + unfold ack_of in V2. cbn [find] in V2. rewrite Ex in V2. exact V2.
    + destruct Hc as [Hc|Hc]; [exfalso|exact Hc]. rewrite Hc, String.eqb_refl in Ex. discriminate.
Qed.

(** The run invariant. *)
Record rinv (id : N) (os : list nop) (r : raft) : Prop := {
  ri_id : r_id r = id;
  ri_opt : ro_option (r_ro r) = RoSafe;
  ri_pend : forall m, In m (r_pend_reads r) -> ppost os m;
  ri_q : exists q, ro_rel (r_ro r) q /\ (r_state r <> RLeader -> q = []) /\ qok id os (r_term r) q
}.
Lemma qa_opt_q r r' q : qa r r' -> ro_rel (r_ro r) q -> (r_state r <> RLeader -> q = []) ->
  exists q', ro_rel (r_ro r') q' /\ (r_state r' <> RLeader -> q' = []) /\ (q' = [] \/ (q' = q /\ r_term r' = r_term r)).
Proof.
  intros H R L. destruct (qa_ro _ _ H) as [(A1 & A2 & A3)|[A1 _]].
  - exists q. rewrite A1. split; auto. split; [intros X; apply L; tauto|]. destruct (r_state r) eqn:S; try (left; apply L; discriminate). right. auto.
  - exists []. rewrite A1. split; [apply ro_rel_new|]. auto.
Qed.
Lemma rinv_qa id os r r' o : rinv id os r -> qa r r' -> rinv id (os ++ [o]) r' /\ exists q, ro_rel (r_ro r') q /\ (r_state r' <> RLeader -> q = []) /\ before_last os o (r_term r') id q.
Proof.
  intros [I1 I2 I3 (q & Q1 & Q2 & Q3)] H. destruct (qa_opt_q _ _ _ H Q1 Q2) as (q' & R1 & R2 & R3).
  assert (B : before_last os o (r_term r') id q') by (destruct R3 as [->|[-> ->]]; [exact I|apply before_snoc; auto]).
  split; [|eauto]. constructor.
  - unfold r_id in *. rewrite (qa_cfg _ _ H). auto.
  - rewrite (qa_opt _ _ H). auto.
  - rewrite (qa_pend _ _ H). intros m Hm. apply ppost_snoc. auto.
  - exists q'. split; auto. split; auto. apply before_qok; auto.
Qed.

(** One read-only step inside a call. *)
Section Call.
Variables (os : list nop) (o : nop) (im : msg) (rf : raft).
Hypothesis Hop : opmsg o im.
Hypothesis Hwf : wf_in im.
Hypothesis Hwo : nop_wf o.
Hypothesis Hrun : exists n, reached n0 (os ++ [o]) n /\ rn_raft n = rf.

Lemma opmsg_step t : m_type im = t -> t = MsgAppResp \/ t = MsgHeartbeatResp -> m_type im <> MsgReadIndex.
Proof. intros -> [->| ->]; discriminate. Qed.

(** While nothing was taken up in this call ([fst]), the queue is [before_last]; a call that takes
    requests up is not an acknowledgement. *)
Definition cinvar (r : raft) (h : list msg) : Prop :=
  rinv (r_id rf) (os ++ [o]) r /\ (forall m, In m h -> presents o m \/ (m_type im = MsgAppResp /\ ppost (os ++ [o]) m)) /\
  (m_type im = MsgHeartbeatResp -> exists q, ro_rel (r_ro r) q /\ (r_state r <> RLeader -> q = []) /\ before_last os o (r_term r) (r_id rf) q).

Lemma ro_rel_unique ro q q' : ro_rel ro q -> ro_rel ro q' -> q = q'.
Proof.
  intros [A1 A2 _ _] [B1 B2 _ _]. rewrite A1 in B1. clear - B1. revert q' B1. induction q as [|x q IH]; destruct q' as [|y q']; cbn; intros H; try discriminate; auto.
  destruct x as [x1 x2 x3 x4], y as [y1 y2 y3 y4]. cbn in H. injection H as -> -> -> -> H. f_equal. auto.
Qed.
Lemma log_same_own a : same a rf -> committed_entry_in_current_term a = Ok true -> r_state a = RLeader ->
  forall n, rn_raft n = rf -> leads_committed n /\ node_term n = r_term a /\ node_commit n = l_committed (r_log a).
Proof.
  intros S H L n Hn. rewrite <- (com_same _ _ S) in H. apply own_true in H.
  unfold leads_committed, node_role, node_term_at, node_commit, node_term, node_hard. cbn. rewrite Hn.
  rewrite (sm_state _ _ S), (sm_term _ _ S), (sm_log _ _ S) in *. auto.
Qed.

Lemma rb_step h r h' r' l : same r rf -> cinvar r h -> rb im h r h' r' l ->
  cinvar r' h' /\ (forall p, In p l -> good_now os o rf p \/ good_conf os o rf p).
Proof.
  intros Sf ([I1 I2 I3 (q & Q1 & Q2 & Q3)] & C2 & C3) H. pose proof (rb_same _ _ _ _ _ _ H) as S. destruct (rb_hand _ _ _ _ _ _ H) as [P1 P2].
  destruct (rb_q _ _ _ _ _ _ _ Q1 H) as (q' & R1 & R2).
  assert (Hdn : m_type im = MsgHeartbeatResp -> forall m, In m h -> False).
  { intros X m Hm. destruct (C2 m Hm) as [[Y1 Y2]|[Y1 Y2]]; [|congruence]. unfold opmsg in *. destruct o; try (subst; congruence).
    all: destruct Y2 as (Y2 & _); congruence. }
  assert (AB : m_type im = MsgHeartbeatResp -> (wf_in im -> m_term im = r_term r) -> acks_by (r_id rf) o (r_term r) (m_from im) (m_ctx im)).
  { intros X Y. specialize (Y Hwf). right. unfold opmsg in Hop. destruct o; try (destruct Hop as (Z1 & Z2 & Z3 & Z4 & Z5); congruence).
    - subst. exists m. auto.
    - subst. discriminate. }
  destruct Hrun as (nf & Hr & Hnf).
  assert (HAND : forall m, In m h' -> presents o m \/ (m_type im = MsgAppResp /\ ppost (os ++ [o]) m)).
  { intros m Hm. destruct (P1 m Hm) as [X|(X & Y & Z)]; auto. }
  assert (PEND : forall m, In m (r_pend_reads r') -> ppost (os ++ [o]) m).
  { intros m Hm. destruct (P2 m Hm) as [X|(-> & X & Y & Z)]; auto. destruct (C2 _ X) as [K|[_ K]]; auto.
    exists os, o, [], nf. split; auto. split; auto. split; auto. split; auto. rewrite <- (com_same _ _ Sf) in Z. apply own_false in Z.
    unfold leads_uncommitted, node_role, node_term_at, node_commit, node_term, node_hard. cbn. rewrite Hnf. rewrite (sm_state _ _ Sf). auto. }
  assert (NL : r_state r' <> RLeader -> q' = []).
  { rewrite (sm_state _ _ S). intros X. destruct R2; auto; contradiction. }
  assert (G : qok (r_id rf) (os ++ [o]) (r_term r') q' /\ (m_type im = MsgHeartbeatResp -> before_last os o (r_term r') (r_id rf) q') /\
     (forall p, In p l -> good_now os o rf p \/ good_conf os o rf p)).
  { rewrite (sm_term _ _ S).
    assert (B3 : m_type im = MsgHeartbeatResp -> before_last os o (r_term r) (r_id rf) q).
    { intros X. destruct (C3 X) as (q2 & X1 & X2 & X3). rewrite (ro_rel_unique _ _ _ Q1 X1). auto. }
    destruct R2 as [|m X1 X2 X3|d m X1 X2 X3|m e es X1 X2 X3 X4 X5|X1 X2 X3 X4|X1 X2 X3 X4 X5 X6].
    - split; auto. split; auto. intros p [].
    - split; auto. split; auto. intros p [<-|[]]. left. destruct X3 as [X3|[X3 _]]; [|congruence]. unfold good_now. cbn [fst snd].
      unfold trk_is_singleton in *. rewrite (sm_log _ _ Sf). split; [destruct Sf; congruence|]. split; auto. destruct (C2 _ X1) as [K|[_ K]]; auto.
    - rewrite I1. split; [apply qok_self; auto|]. split; [|intros p []]. intros X. exfalso. eauto.
    - split; [|split; [|intros p []]; intros X; exfalso; eauto]. destruct (log_same_own _ Sf X3 X2 nf Hnf) as (Y1 & Y2 & Y3).
      apply qok_reg; auto; [|cbn; congruence]. exists os, o, nf. split; auto. split; auto. split; auto. split; auto. split; auto. split; auto.
      destruct (C2 _ X1) as [K|[K1 K2]]; [left; auto|]. right. split; auto. exists im. split; auto.
      unfold opmsg in Hop. destruct o; try (destruct Hop as (Z1 & Z2 & Z3 & Z4 & Z5); congruence); [congruence|]. subst. discriminate.
    - specialize (AB X2 X3). assert (B : before_last os o (r_term r) (r_id rf) (acked_q (m_from im) (m_ctx im) q)) by (apply before_ack; auto).
      split; [apply before_qok; auto|]. split; auto. intros p [].
    - specialize (AB X2 X3). assert (B : before_last os o (r_term r) (r_id rf) (acked_q (m_from im) (m_ctx im) q)) by (apply before_ack; auto).
      pose proof (before_qok _ _ _ _ _ B) as B'.
      split; [apply qok_after; auto|]. split.
      + intros _. clear - B. revert B. generalize (acked_q (m_from im) (m_ctx im) q) as w. induction w as [|x w IH]; cbn; auto. intros [_ K]. destruct (String.eqb _ _); auto.
      + intros p Hp. right. assert (T : t_config (r_trk rf) = t_config (r_trk r)) by apply Sf.
        rewrite <- (sm_term _ _ Sf) in B. rewrite <- T in X6.
        eapply good_upto; [exact B|reflexivity|exact X6|rewrite acked_q_ctx; auto|auto]. }
  destruct G as (G1 & G2 & G3). split; auto. split; [|split; auto; intros X; exists q'; auto].
  constructor; auto.
  - unfold r_id in *. rewrite (sm_cfg _ _ S). auto.
  - rewrite <- I2. apply S.
  - eauto.
Qed.
Lemma rbs_step h r h' r' l : rbs im h r h' r' l -> same r' rf -> cinvar r h ->
  cinvar r' h' /\ (forall p, In p l -> good_now os o rf p \/ good_conf os o rf p).
Proof.
  induction 1 as [|h r h1 r1 l h2 r2 l' H1 H2 IH]; intros Sf C; [split; auto; intros p []|].
  destruct (rb_step _ _ _ _ _ (same_trans _ _ _ (rb_same _ _ _ _ _ _ H1) (same_trans _ _ _ (rbs_same _ _ _ _ _ _ H2) Sf)) C H1) as [A1 A2]. destruct (IH Sf A1) as [B1 B2].
  split; auto. intros p Hp. apply in_app_or in Hp. destruct Hp; auto.
Qed.
End Call.

Lemma rinv_step os o n n' out : rinv (r_id (rn_raft n)) os (rn_raft n) -> reached n0 os n -> nop_wf o -> n_step o n = Ok (n', out) ->
  rinv (r_id (rn_raft n')) (os ++ [o]) (rn_raft n') /\
  (plain o -> exists im r1 h l, opmsg o im /\ wf_in im /\ qa (rn_raft n) r1 /\ rbs im h r1 [] (rn_raft n') l /\
     forall p, In p l -> good_now os o (rn_raft n') p \/ good_conf os o (rn_raft n') p).
Proof.
  intros I (outs & Hr) Hw H. destruct (plain_dec o) as [Hp|Hp].
  - destruct (n_step_rcall _ _ _ _ Hp Hw H) as (im & l & H1 & H2 & r1 & h0 & H3 & Ht & H4).
    pose proof (rbs_same _ _ _ _ _ _ H4) as S. assert (Eid : r_id (rn_raft n') = r_id (rn_raft n)) by (unfold r_id; rewrite (sm_cfg _ _ S), (qa_cfg _ _ H3); auto).
    destruct (rinv_qa _ _ _ _ o I H3) as [J1 J2].
    destruct (rbs_step os o im (rn_raft n') H1 H2 Hw) with (h := h0) (r := r1) (h' := @nil msg) (r' := rn_raft n') (l := l) as [K1 K2]; auto.
    + exists n'. split; auto. exists (outs ++ [out]). eapply n_run_snoc; eauto.
    + apply same_refl.
    + rewrite <- Eid in J1, J2. split; [exact J1|]. split; [|intros _; exact J2]. intros m Hm. destruct Ht as [->|(-> & Ht & _)]; [destruct Hm|]. destruct Hm as [<-|[]]. left. split; auto.
    + destruct K1 as [K1 _]. split; auto. intros _. exists im, r1, h0, l. auto.
  - split; [|contradiction]. destruct (not_plain_qn _ _ _ _ Hp H) as [Q1 Q2 Q3 Q4 Q5 Q6 Q7 Q8]. destruct I as [I1 I2 I3 (q & I4 & I5 & I6)].
    constructor; auto.
    + congruence.
    + rewrite Q2. intros m Hm. apply ppost_snoc; auto.
    + exists q. rewrite Q1, Q3, Q4. split; auto. split; auto. unfold r_id in *. rewrite Q5. apply qok_snoc; auto.
Qed.
Lemma rinv_run os : ro_option (r_ro (rn_raft n0)) = RoSafe -> ro_rel (r_ro (rn_raft n0)) [] -> r_pend_reads (rn_raft n0) = [] -> Forall nop_wf os ->
  forall n, reached n0 os n -> rinv (r_id (rn_raft n)) os (rn_raft n).
Proof.
  intros H1 H2 H3. induction os as [|o os IH] using rev_ind; intros Hw n (outs & Hr).
  - cbn in Hr. inv Hr. constructor; auto; [rewrite H3; intros m []|]. exists []. cbn. auto.
  - apply Forall_app in Hw. destruct Hw as [Hw Ho]. apply Forall_inv in Ho.
    assert (G : exists n1 outs1 out, n_run os n0 = Ok (n1, outs1) /\ n_step o n1 = Ok (n, out)).
    { clear - Hr. revert Hr. generalize n0 as m0. revert outs. induction os as [|a os IH]; cbn; intros outs m0 Hr.
      - apply bind_ok in Hr. destruct Hr as ([n1 o1] & Hr & Hx). inv Hx. eauto.
      - apply bind_ok in Hr. destruct Hr as ([n1 o1] & -> & Hr). cbn. apply bind_ok in Hr. destruct Hr as ([n2 o2] & Hr & Hx). inv Hx.
        destruct (IH _ _ Hr) as (n3 & x & y & -> & Z). cbn. eauto. }
    destruct G as (n1 & outs1 & out & G1 & G2). eapply rinv_step; eauto; [|exists outs1; auto]. apply IH; auto. exists outs1; auto.
Qed.

(** What the steps of a call hand out. *)
Lemma ans_msg_same r r1 p x : r_cfg r1 = r_cfg r -> r_term r1 = r_term r -> ans_msg r1 p x -> ans_msg r p x.
Proof. unfold ans_msg, is_local_req, r_id. intros -> ->. auto. Qed.
Lemma rbs_out im h r h' r' l : rbs im h r h' r' l ->
  exists ms rs, r_msgs r' = r_msgs r ++ ms /\ r_read_states r' = r_read_states r ++ rs /\
    (forall x, In x ms -> m_type x = MsgReadIndexResp -> r_state r = RLeader /\ exists p, In p l /\ ans_msg r p x) /\
    (forall x, In x rs -> r_state r = RLeader -> exists p, In p l /\ ans_read r p x).
Proof.
  induction 1 as [|h r h1 r1 l h2 r2 l' H1 H2 IH].
  - exists [], []. rewrite !app_nil_r. split; [auto|]. split; [auto|]. split; intros x [].
  - pose proof (rb_same _ _ _ _ _ _ H1) as S. destruct (rb_out _ _ _ _ _ _ H1) as (m1 & s1 & A1 & A2 & A3 & A4). destruct IH as (m2 & s2 & B1 & B2 & B3 & B4).
    exists (m1 ++ m2), (s1 ++ s2). rewrite B1, A1, B2, A2, !app_assoc. split; auto. split; auto. split.
    + intros x Hx Hty. apply in_app_or in Hx. destruct Hx as [Hx|Hx].
      * destruct (A3 x Hx) as [X|[(X1 & c & X2 & _)|[(X1 & _ & ->)|[(X1 & X2 & X3 & ->)|(X1 & p & X2 & X3)]]]].
        -- unfold plainm in X. rewrite Hty in X. destruct X.
        -- destruct X2 as [X2 _]. congruence.
        -- discriminate.
        -- exfalso. clear - X1 Hty. destruct im as [ty a b c d e f g hh i j k]. unfold outm in Hty. cbn in *. subst ty. destruct (b =? 0); discriminate.
        -- split; auto. exists p. split; auto. apply in_or_app; auto.
      * destruct (B3 x Hx) as (C1 & p & C2 & C3); auto. rewrite (sm_state _ _ S) in C1. split; auto. exists p. split; [apply in_or_app; auto|].
        eapply ans_msg_same; [..|exact C3]; apply S.
    + intros x Hx Hl. apply in_app_or in Hx. destruct Hx as [Hx|Hx].
      * destruct (A4 x Hx) as [(_ & p & X1 & X2)|(X1 & _)]; [|congruence]. exists p. split; auto. apply in_or_app; auto.
      * destruct (B4 x Hx) as (p & X1 & X2); [rewrite (sm_state _ _ S); auto|]. exists p. split; [apply in_or_app; auto|]. unfold ans_read, is_local_req, r_id in *. rewrite (sm_cfg _ _ S) in X2. auto.
Qed.
End RR.
