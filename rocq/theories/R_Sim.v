(** Simulation: every primitive transition of a node is a sequence of protocol steps. *)
From Coq Require Import Permutation.
From Verif Require Import Prelude Types M_Util M_Quorum M_Inflights M_Progress M_Tracker.
From Verif Require Import M_Storage M_Unstable M_Log M_ReadOnly M_ConfPb M_ConfChange M_Raft M_RawNode.
From Verif Require Import Spec_Quorum P_Quorum P_Inflights Spec_Log P_Lists P_Storage P_Log P_RaftLogSeq P_Frame P_Prim Sys_Node P_Node P_Fields P_NodeLog P_Lead A_Proto Sys_Cluster R_Log.
From Verif Require Import Prop_ConfPb.

Section Sim.
Context {E : Env}.
Variable cs : confstate.
Hypothesis cs_ne : cs_voters cs <> [].
Variable t0 : N.

(** The voters. *)
Definition vmember (v : N) : Prop := In v (cs_voters cs) \/ In v (cs_outgoing cs).
Definition vin (S : list N) (v : N) : bool := existsb (N.eqb v) S.
Definition vquorum (S : list N) : Prop := majority (cs_voters cs) (vin S) /\ majority (cs_outgoing cs) (vin S).
Lemma vin_In S v : vin S v = true <-> In v S.
Proof. unfold vin. rewrite existsb_exists. split; [intros (x & H & Hx); apply N.eqb_eq in Hx; subst; auto|intros H; exists v; split; auto; apply N.eqb_refl]. Qed.
Lemma vquorum_meet a b : vquorum a -> vquorum b -> exists v, In v a /\ In v b.
Proof.
  intros [H1 _] [H2 _]. destruct (majority_intersect _ _ _ cs_ne H1 H2) as (v & _ & A & B).
  exists v. rewrite <- !vin_In. auto.
Qed.
Lemma count_perm p a b : Permutation a b -> count p a = count p b.
Proof.
  unfold count, nlen. intros H. f_equal. induction H; cbn; auto; try congruence.
  - destruct (p x); cbn; congruence.
  - destruct (p x), (p y); auto.
Qed.
Lemma majority_perm p a b : Permutation a b -> majority a p -> majority b p.
Proof.
  intros H [->|Hm]; [left; apply Permutation_nil; auto|right]. rewrite <- (count_perm _ _ _ H).
  unfold nlen in *. rewrite <- (Permutation_length H). auto.
Qed.
Lemma count_filter p c c0 : (forall x, In x c -> In x c0) -> count p c = count (vin (List.filter p c0)) c.
Proof.
  unfold count. intros H. f_equal. induction c as [|x c IH]; auto. cbn.
  assert (Hx : vin (filter p c0) x = p x).
  { destruct (p x) eqn:Hp.
    - apply vin_In, filter_In. split; auto. apply H. left; auto.
    - destruct (vin _ x) eqn:Hv; auto. apply vin_In, filter_In in Hv. destruct Hv. congruence. }
  rewrite Hx. destruct (p x); rewrite IH; auto; intros y Hy; apply H; right; auto.
Qed.
(** The members satisfying [p] are a quorum when they are a majority on both sides. *)
Lemma quorum_of p ci co : Permutation (cs_voters cs) ci -> Permutation (cs_outgoing cs) co ->
  majority ci p -> majority co p -> exists S, vquorum S /\ forall v, In v S -> p v = true.
Proof.
  intros P1 P2 M1 M2. exists (filter p (cs_voters cs ++ cs_outgoing cs)). split; [|intros v Hv; apply filter_In in Hv; tauto].
  apply (majority_perm p _ _ (Permutation_sym P1)) in M1. apply (majority_perm p _ _ (Permutation_sym P2)) in M2.
  split; [destruct M1 as [M|M]|destruct M2 as [M|M]]; [left; auto|right|left; auto|right];
    rewrite <- count_filter; auto; intros x Hx; apply in_or_app; auto.
Qed.

Definition mrole (s : role) : arole := match s with RFollower | RPreCandidate => AFollow | RCandidate => ACand | RLeader => ALead end.

(** What the facts say about a message. *)
Definition msg_fact (F : list fact) (m : msg) : Prop :=
  match m_type m with
  | MsgVote => exists L, In (FReq (m_term m) (m_from m) L) F /\ m_index m = nlen L /\ m_logterm m = lastterm L
  | MsgVoteResp => m_reject m = false -> exists L, In (FVote (m_term m) (m_from m) (m_to m) L) F
  | MsgApp => exists L t C, In (FLead (m_term m) (m_from m) L) F /\ m_index m + nlen (m_entries m) <= nlen L /\
      m_entries m = ntake (nlen (m_entries m)) (ndrop (m_index m) L) /\ m_logterm m = lastterm (ntake (m_index m) L) /\
      In (FCom t C) F /\ t <= m_term m /\ pre (ntake (m_commit m) L) C /\ m_commit m <= nlen L
  | MsgAppResp => m_reject m = false -> m_index m = 0 \/ exists L, In (FAck (m_term m) (m_from m) L) F /\ m_index m <= nlen L
  | MsgHeartbeat => (exists L, In (FLead (m_term m) (m_from m) L) F) /\
      (m_commit m = 0 \/ exists L t C, In (FAck (m_term m) (m_to m) L) F /\ m_commit m <= nlen L /\
      In (FCom t C) F /\ t <= m_term m /\ pre (ntake (m_commit m) L) C)
  | MsgSnap => exists L t C, In (FLead (m_term m) (m_from m) L) F /\ sn_index (m_snap m) <= nlen L /\
      sn_term (m_snap m) = lastterm (ntake (sn_index (m_snap m)) L) /\
      In (FCom t C) F /\ t <= m_term m /\ pre (ntake (sn_index (m_snap m)) L) C /\ same_voters cs (sn_conf (m_snap m))
  | _ => True
  end.
Record msg_ok (F : list fact) (m : msg) : Prop := {
  mo_wf : peer_msg_wf m;
  mo_log : log_msg_wf m;
  mo_fact : msg_fact F m
}.
(** A message that arrives at node [id]: sent by a peer to [id], or made by the node itself. *)
Definition in_msg (F : list fact) (id : N) (m : msg) : Prop :=
  (msg_ok F m /\ m_to m = id) \/ (m_term m = 0 /\ local_type (m_type m) = true).

Definition snap_ok (L : list entry) (k : N) (sn : snapshot) : Prop :=
  sn_index sn <= k /\ sn_term sn = lastterm (ntake (sn_index sn) L) /\ same_voters cs (sn_conf sn).

Record vrel (id : N) (F : list fact) (s : anode) (r : raft) : Prop := {
  v_id : r_id r = id;
  v_term : an_term s = r_term r;
  v_vote : an_vote s = r_vote r;
  v_role : an_role s = mrole (r_state r);
  v_log : logrel (log_abs (r_log r)) (an_log s);
  v_com : an_com s = l_committed (r_log r);
  v_conf : Permutation (cs_voters cs) (tc_incoming (t_config (r_trk r))) /\
           Permutation (cs_outgoing cs) (tc_outgoing (t_config (r_trk r)));
  v_fvote : r_vote r <> 0 -> exists L, In (FVote (r_term r) id (r_vote r) L) F;
  v_votes : r_state r = RCandidate -> forall v, mget v (t_votes (r_trk r)) = Some true -> exists L, In (FVote (r_term r) v id L) F;
  v_match : r_state r = RLeader -> forall v p, mget v (t_progress (r_trk r)) = Some p ->
              p_match p = 0 \/ exists L, In (FAck (r_term r) v L) F /\ p_match p <= nlen L;
  v_next : r_state r = RLeader -> nexts r;
  v_usnap : forall sn, u_snap (l_us (r_log r)) = Some sn -> same_voters cs (sn_conf sn);
  v_ssnap : snap_ok (an_log s) (an_com s) (ms_snap (l_st (r_log r)))
}.

(** More facts do no harm. *)
Lemma msg_fact_mono F G m : incl F G -> msg_fact F m -> msg_fact G m.
Proof.
  intros Hi. unfold msg_fact. destruct (m_type m); auto.
  - intros (L & t & C & H1 & H2 & H3 & H4 & H5 & H6). exists L, t, C. auto 10.
  - intros H Hr. destruct (H Hr) as [?|(L & H1 & H2)]; auto. right. eauto.
  - intros (L & H1 & H2). eauto.
  - intros H Hr. destruct (H Hr) as (L & H1). eauto.
  - intros (L & t & C & H1 & H2 & H3 & H4 & H5 & H6). exists L, t, C. auto 10.
  - intros [(L0 & H0) [?|(L & t & C & H1 & H2 & H3 & H4)]]; (split; [eauto|]); auto. right. exists L, t, C. auto.
Qed.
Lemma msg_ok_mono F G m : incl F G -> msg_ok F m -> msg_ok G m.
Proof. intros Hi []. constructor; auto. eapply msg_fact_mono; eauto. Qed.
Lemma in_msg_mono F G id m : incl F G -> in_msg F id m -> in_msg G id m.
Proof. intros Hi [[H1 H2]|H]; [left; split; auto; eapply msg_ok_mono; eauto|right; auto]. Qed.
Lemma msgs_ok_mono F G ms : incl F G -> Forall (msg_ok F) ms -> Forall (msg_ok G) ms.
Proof. intros Hi. apply Forall_impl. intros. eapply msg_ok_mono; eauto. Qed.
Lemma vrel_mono id F G s r : incl F G -> vrel id F s r -> vrel id G s r.
Proof.
  intros Hi []. constructor; auto.
  - intros H. destruct (v_fvote0 H) as [L HL]. eauto.
  - intros H v Hv. destruct (v_votes0 H v Hv) as [L HL]. eauto.
  - intros H v p Hp. destruct (v_match0 H v p Hp) as [?|(L & H1 & H2)]; auto. right. eauto.
Qed.

(** Changes that none of this depends on. *)
Lemma vrel_same id F s r r' : vrel id F s r ->
  r_cfg r' = r_cfg r -> r_term r' = r_term r -> r_vote r' = r_vote r -> r_state r' = r_state r -> r_log r' = r_log r ->
  t_config (r_trk r') = t_config (r_trk r) -> t_votes (r_trk r') = t_votes (r_trk r) ->
  (forall v p, mget v (t_progress (r_trk r')) = Some p -> exists p0, mget v (t_progress (r_trk r)) = Some p0 /\ p_match p0 = p_match p) ->
  (r_state r = RLeader -> nexts r -> nexts r') -> vrel id F s r'.
Proof.
  intros [] H1 H2 H3 H4 H5 H6 H7 H8 H9. constructor; try congruence; rewrite ?H1, ?H2, ?H3, ?H4, ?H5, ?H6, ?H7; auto.
  - unfold r_id in *. congruence.
  - intros Hl v p Hp. destruct (H8 v p Hp) as (p0 & Q1 & <-). eauto.
Qed.
Lemma vrel_emit id F s r m : vrel id F s r -> vrel id F s (emit m r).
Proof. intros H. apply (vrel_same id F s r); auto; eauto. Qed.

Notation linvs g F := (ginv vquorum t0 g F).
Notation steps n := (lsteps vquorum vmember n).

(** One simulated transition. *)
Definition simulated (id : N) (F : list fact) (s : anode) (r' : raft) : Prop :=
  exists s' O, steps id (s, F) (s', O ++ F) /\ vrel id (O ++ F) s' r' /\ Forall (msg_ok (O ++ F)) (r_msgs r').

Lemma sim_none id F s r' : vrel id F s r' -> Forall (msg_ok F) (r_msgs r') -> simulated id F s r'.
Proof. intros. exists s, []. split; [constructor|auto]. Qed.
Lemma sim_one id F s s' O r' : lstep vquorum vmember id (s, F) (s', O ++ F) -> vrel id (O ++ F) s' r' ->
  Forall (msg_ok (O ++ F)) (r_msgs r') -> simulated id F s r'.
Proof. intros. exists s', O. split; [apply lsteps_one; auto|auto]. Qed.
Lemma sim_step id F s s1 O r' : lstep vquorum vmember id (s, F) (s1, O ++ F) -> simulated id (O ++ F) s1 r' -> simulated id F s r'.
Proof.
  intros H (s' & O' & H1 & H2 & H3). exists s', (O' ++ O). rewrite <- app_assoc. split; auto. econstructor; eauto.
Qed.
Lemma incl_appr0 {A} (O F : list A) : incl F (O ++ F). Proof. intros x Hx. apply in_or_app; auto. Qed.
End Sim.
