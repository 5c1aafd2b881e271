(** Requests are not lost: a queued request stays queued until it is answered, a postponed one stays
    postponed until the leader commits; acknowledgements are recorded. *)
From Verif Require Import Prelude Types M_Util M_Quorum M_Inflights M_Progress M_Tracker.
From Verif Require Import M_Storage M_Unstable M_Log M_ReadOnly M_ConfPb M_ConfChange M_Raft M_RawNode.
From Verif Require Import Spec_ReadOnly Sys_ReadOnly P_ReadOnly P_Inflights Spec_Log P_Lists P_Log P_Frame P_Prim Sys_Node P_Node P_Fields P_NodeRun P_Emit P_Read P_ReadQ P_ReadRun Spec_Node Spec_Read.
From Verif Require Import Spec_Quorum P_Quorum P_New P_Beat P_Feed P_Bcast.

Section RL.
Context {E : Env}.

(** The step hands out the answer [p]. *)
Definition gives (r r' : raft) (p : msg * N) : Prop :=
  exists ms rs, r_msgs r' = r_msgs r ++ ms /\ r_read_states r' = r_read_states r ++ rs /\
    if is_local_req r (fst p) then exists d, entry0_data (fst p) = Ok d /\ In (mkReadState (snd p) d) rs
    else exists x, In x ms /\ ans_msg r p x.
Definition grown (r r' : raft) : Prop := (exists ms, r_msgs r' = r_msgs r ++ ms) /\ (exists rs, r_read_states r' = r_read_states r ++ rs).
Lemma grown_refl r : grown r r. Proof. split; exists []; rewrite app_nil_r; auto. Qed.
Lemma grown_trans a b c : grown a b -> grown b c -> grown a c.
Proof. intros [(x & X) (y & Y)] [(x' & X') (y' & Y')]. split; [exists (x ++ x')|exists (y ++ y')]; rewrite ?X', ?Y', ?X, ?Y, app_assoc; auto. Qed.
Lemma gives_pre a b c p : r_cfg b = r_cfg a -> r_term b = r_term a -> grown a b -> gives b c p -> gives a c p.
Proof.
  intros H1 H2 [(x & X) (y & Y)] (ms & rs & A1 & A2 & A3). exists (x ++ ms), (y ++ rs). rewrite A1, A2, X, Y, !app_assoc. split; auto. split; auto.
  unfold ans_msg, is_local_req, r_id in *. rewrite H1, H2 in A3. destruct (_ || _).
  - destruct A3 as (d & D1 & D2). exists d. split; auto. apply in_or_app; auto.
  - destruct A3 as (d & D1 & D2). exists d. split; auto. apply in_or_app; auto.
Qed.
Lemma gives_post a b c p : grown b c -> gives a b p -> gives a c p.
Proof.
  intros [(x & X) (y & Y)] (ms & rs & A1 & A2 & A3). exists (ms ++ x), (rs ++ y). rewrite X, Y, A1, A2, !app_assoc. split; auto. split; auto.
  destruct (is_local_req a (fst p)).
  - destruct A3 as (d & D1 & D2). exists d. split; auto. apply in_or_app; auto.
  - destruct A3 as (d & D1 & D2). exists d. split; auto. apply in_or_app; auto.
Qed.
Lemma rb_grown im h r h' r' l : rb im h r h' r' l -> grown r r'.
Proof. intros H. destruct (rb_out _ _ _ _ _ _ H) as (ms & rs & A1 & A2 & _). split; eauto. Qed.
Lemma rbs_grown im h r h' r' l : rbs im h r h' r' l -> grown r r'.
Proof. induction 1; [apply grown_refl|]. eapply grown_trans; [eapply rb_grown; eauto|auto]. Qed.
Lemma qa_grown r r' : qa r r' -> grown r r'.
Proof. intros H. destruct (qa_msgs _ _ H) as (ms & M & _). split; [eauto|]. exists []. rewrite app_nil_r. apply H. Qed.
Lemma response_gives m i r r' : response_to_read_index m i r = Ok r' -> gives r r' (m, i).
Proof.
  unfold response_to_read_index, gives, is_local_req. cbn [fst snd]. destruct (_ || _) eqn:Hb; intros H.
  - apply bind_ok in H. destruct H as (d & Hd & H). apply Ok_inj in H. subst r'. exists [], [mkReadState i d]. rewrite app_nil_r. split; [auto|]. split; [auto|].
    exists d. split; auto. left; auto.
  - pose proof H as H'. apply send_ok in H. destruct H as [-> _]. eexists [_], []. rewrite app_nil_r. split; [reflexivity|]. split; [reflexivity|].
    eexists. split; [left; reflexivity|]. repeat split; try reflexivity. exact Hb.
Qed.
Lemma mfold_gives rss : forall r r', mfold (fun rs r => response_to_read_index (ris_req rs) (ris_index rs) r) rss r = Ok r' ->
  grown r r' /\ forall x, In x rss -> gives r r' (ris_req x, ris_index x).
Proof.
  induction rss as [|y rss IH]; intros r r' H; cbn in H.
  - inv H. split; [apply grown_refl|]. intros x [].
  - apply bind_ok in H. destruct H as (r1 & H1 & H). destruct (IH _ _ H) as [G1 G2]. destruct (response_same _ _ _ _ H1) as (S & _ & _).
    destruct (response_out _ _ _ _ H1) as (m1 & t1 & A1 & A2 & _). assert (G0 : grown r r1) by (split; eauto).
    split; [eapply grown_trans; eauto|]. intros x [<-|Hx]; [eapply gives_post; [exact G1|apply response_gives; auto]|].
    eapply gives_pre; [apply S|apply S|exact G0|auto].
Qed.
Lemma rb_gives im h r h' r' l p : rb im h r h' r' l -> In p l -> gives r r' p.
Proof.
  intros H Hp. destruct H; try (destruct Hp; fail).
  - destruct Hp as [<-|[]]. apply response_gives; auto.
  - apply in_map_iff in Hp. destruct Hp as (x & <- & Hx). apply mfold_gives in H7. destruct H7 as [_ H7]. apply (H7 x Hx).
Qed.
Lemma rbs_gives im h r h' r' l p : rbs im h r h' r' l -> In p l -> gives r r' p.
Proof.
  induction 1 as [|h r h1 r1 l h2 r2 l' H1 H2 IH]; [intros []|]. intros Hp. apply in_app_or in Hp. destruct Hp as [Hp|Hp].
  - eapply gives_post; [eapply rbs_grown; eauto|eapply rb_gives; eauto].
  - pose proof (rb_same _ _ _ _ _ _ H1) as S. eapply gives_pre; [apply S|apply S|eapply rb_grown; eauto|auto].
Qed.

(** The request [p] is queued; everybody in [A] has acknowledged it, and if anybody has beside the
    leader itself, this is not a quorum yet. *)
Definition won (t : tconfig) (a : nmap bool) : Prop := tc_vote_result t a = VoteWon.
Record waits (A : N -> Prop) (p : msg * N) (r : raft) (q : list rreq) (x : rreq) : Prop := {
  wt_rel : ro_rel (r_ro r) q;
  wt_in : In x q;
  wt_msg : rq_msg x = fst p;
  wt_idx : rq_index x = snd p;
  wt_self : mget (r_id r) (rq_acks x) = Some true;
  wt_acks : forall v, A v -> mget v (rq_acks x) = Some true;
  wt_open : (exists v, v <> r_id r /\ mget v (rq_acks x) = Some true) -> ~ won (t_config (r_trk r)) (rq_acks x)
}.
Definition waiting (A : N -> Prop) (p : msg * N) (r : raft) : Prop := exists q x, waits A p r q x.
Lemma won_ext t a b : (forall v, mget v a = mget v b) -> won t a -> won t b.
Proof. intros H. unfold won, tc_vote_result. rewrite !joint_won. unfold voted_yes, vget. intros [H1 H2]. split; [eapply majority_mono; [|exact H1]|eapply majority_mono; [|exact H2]]; intros v _; cbv beta; rewrite H; auto. Qed.
Lemma ack_of_in c q x : NoDup (List.map rq_ctx q) -> In x q -> rq_ctx x = c -> ack_of c q = rq_acks x.
Proof.
  intros Hn Hx <-. unfold ack_of. induction q as [|y q IH]; [destruct Hx|]. cbn in *. inversion Hn as [|? ? N1 N2]; subst. destruct (String.eqb_spec (rq_ctx y) (rq_ctx x)) as [Ey|Ey].
  - destruct Hx as [<-|Hx]; auto. exfalso. apply N1. rewrite Ey. apply in_map; auto.
  - destruct Hx as [<-|Hx]; [congruence|auto].
Qed.
Lemma upto_after_in c q x : In c (List.map rq_ctx q) -> In x q -> In x (upto c q) \/ In x (after c q).
Proof. intros H1 H2. apply has_ctx_In in H1. rewrite (upto_after _ _ H1) in H2. apply in_app_or; auto. Qed.
Lemma upto_self c q x : NoDup (List.map rq_ctx q) -> In x q -> rq_ctx x = c -> In x (upto c q).
Proof.
  intros Hn Hx <-. induction q as [|y q IH]; [destruct Hx|]. cbn in *. inversion Hn as [|? ? N1 N2]; subst. destruct (String.eqb_spec (rq_ctx y) (rq_ctx x)) as [Ey|Ey].
  - destruct Hx as [<-|Hx]; [left; auto|]. exfalso. apply N1. rewrite Ey. apply in_map; auto.
  - destruct Hx as [<-|Hx]; [congruence|right; auto].
Qed.
Lemma acked_in from c q x : In x q -> In (if String.eqb (rq_ctx x) c then add_ack from x else x) (acked_q from c q).
Proof. intros H. unfold acked_q. apply in_map_iff. eauto. Qed.
Lemma rb_waiting A p im h r h' r' l : rb im h r h' r' l -> waiting A p r -> In p l \/ waiting A p r'.
Proof.
  intros H (q & x & [W1 W2 W3 W4 W5 W6 W7]). pose proof (rb_same _ _ _ _ _ _ H) as S. assert (Ei : r_id r' = r_id r) by (unfold r_id; rewrite (sm_cfg _ _ S); auto).
  destruct (rb_q _ _ _ _ _ _ _ W1 H) as (q' & Q1 & Q). pose proof (rr_nodup _ _ Q1) as Nd. pose proof (rr_nodup _ _ W1) as Nd0.
  assert (K : forall x', In x' q' -> rq_msg x' = rq_msg x -> rq_index x' = rq_index x -> (forall v, mget v (rq_acks x') = mget v (rq_acks x)) -> waiting A p r').
  { intros x' X1 X2 X3 X4. exists q', x'. constructor; [exact Q1|exact X1|congruence|congruence|rewrite Ei, X4; auto|intros v Hv; rewrite X4; auto|].
    rewrite Ei, (sm_tconf _ _ S). intros (v & V1 & V2). rewrite X4 in V2. intros Hw. apply W7; [eauto|]. eapply won_ext; [|exact Hw]. auto. }
  inversion Q; subst.
  - right. apply (K x); auto.
  - right. apply (K x); auto.
  - right. apply (K _ (acked_in (r_id r) d q x W2)); destruct (String.eqb _ _); auto. intros v. cbn. rewrite mget_mset. destruct (N.eqb_spec v (r_id r)) as [->|]; auto.
  - right. apply (K x); auto. apply in_or_app; auto.
  - right. pose proof (acked_in (m_from im) (m_ctx im) q x W2) as Hin. destruct (String.eqb_spec (rq_ctx x) (m_ctx im)) as [Ec|Ec]; [|apply (K _ Hin); auto].
    exists (acked_q (m_from im) (m_ctx im) q), (add_ack (m_from im) x). constructor; [exact Q1| | | | | |]; rewrite ?Ei, ?(sm_tconf _ _ S); cbn [add_ack rq_msg rq_index rq_acks].
    + exact Hin.
    + exact W3.
    + exact W4.
    + rewrite mget_mset. destruct (_ =? _); auto.
    + intros v Hv. rewrite mget_mset. destruct (_ =? _); auto.
    + intros _ Hw. apply H4; [rewrite <- Ec; apply in_map; auto|]. rewrite (ack_of_in _ _ (add_ack (m_from im) x)); auto.
  - pose proof (acked_in (m_from im) (m_ctx im) q x W2) as Hin. set (x' := if String.eqb (rq_ctx x) (m_ctx im) then add_ack (m_from im) x else x) in *.
    assert (Ex : rq_msg x' = rq_msg x /\ rq_index x' = rq_index x) by (unfold x'; destruct (String.eqb _ _); auto).
    destruct (upto_after_in (m_ctx im) (acked_q (m_from im) (m_ctx im) q) x') as [Hu|Hu]; [rewrite acked_q_ctx; auto|exact Hin| |].
    + left. unfold reqs. apply in_map_iff. exists x'. split; auto. destruct Ex as [-> ->]. rewrite W3, W4. destruct p; auto.
    + destruct (String.eqb_spec (rq_ctx x) (m_ctx im)) as [Ec|Ec].
      * exfalso. assert (Nq : NoDup (List.map rq_ctx (acked_q (m_from im) (m_ctx im) q))) by (rewrite acked_q_ctx; auto).
        assert (Hh : has_ctx (m_ctx im) (acked_q (m_from im) (m_ctx im) q) = true) by (apply has_ctx_In; rewrite acked_q_ctx; auto).
        pose proof (upto_self (m_ctx im) _ x' Nq Hin Ec) as U1. rewrite (upto_after _ _ Hh), map_app in Nq.
        apply (in_map rq_ctx) in U1. apply (in_map rq_ctx) in Hu. clear - Nq U1 Hu. revert Nq U1 Hu. generalize (List.map rq_ctx (after (m_ctx im) (acked_q (m_from im) (m_ctx im) q))) as b.
        induction (List.map rq_ctx (upto (m_ctx im) (acked_q (m_from im) (m_ctx im) q))) as [|z a IH]; intros b Nq U1 Hu; [destruct U1|].
        cbn in Nq. inversion Nq; subst. destruct U1 as [->|U1]; [apply H1; apply in_or_app; auto|eapply IH; eauto].
      * right. apply (K x'); auto; apply Ex.
Qed.
Lemma rbs_waiting A p im h r h' r' l : rbs im h r h' r' l -> waiting A p r -> In p l \/ waiting A p r'.
Proof.
  induction 1 as [|h r h1 r1 l h2 r2 l' H1 H2 IH]; auto. intros W. destruct (rb_waiting _ _ _ _ _ _ _ _ H1 W) as [W'|W']; [left; apply in_or_app; auto|].
  destruct (IH W'); [left; apply in_or_app; auto|auto].
Qed.
Lemma waiting_move A p r r' : waiting A p r -> r_ro r' = r_ro r -> r_id r' = r_id r -> t_config (r_trk r') = t_config (r_trk r) -> waiting A p r'.
Proof. intros (q & x & [W1 W2 W3 W4 W5 W6 W7]) H1 H2 H3. exists q, x. constructor; rewrite ?H1, ?H2, ?H3; auto. Qed.
Lemma waiting_mono (A B : N -> Prop) p r : waiting A p r -> (forall v, B v -> A v) -> waiting B p r.
Proof. intros (q & x & [W1 W2 W3 W4 W5 W6 W7]) H. exists q, x. constructor; auto. Qed.

(** A heartbeat response with the context of the request. *)
Lemma hb_waiting A p ctx m pr r r' : leader_heartbeat_resp m pr r = Ok r' -> ro_option (r_ro r) = RoSafe -> m_ctx m = ctx -> ctx <> EmptyString -> entry0_data (fst p) = Ok ctx ->
  waiting A p r -> gives r r' p \/ waiting (fun v => A v \/ v = m_from m) p r'.
Proof.
  intros H Ho Hc Hne Hd (q & x & [W1 W2 W3 W4 W5 W6 W7]). unfold leader_heartbeat_resp in H. apply bind_ok in H. destruct H as (pr1 & _ & H). apply bind_ok in H. destruct H as (r2 & H2 & H).
  set (r0 := put_progress (m_from m) pr1 r) in *. assert (S2 : qs r0 r2) by (destruct (_ <? _) in H2; [apply send_append_qs in H2; auto|inv H2; apply qs_refl]).
  pose proof (qs_ro _ _ S2) as R2. change (r_ro r0) with (r_ro r) in R2. pose proof (qs_same _ _ S2) as Sm.
  assert (Hb : negb (roption_eqb (ro_option (r_ro r2)) RoSafe) || String.eqb (m_ctx m) EmptyString = false).
  { rewrite R2, Ho, Hc. cbn. apply String.eqb_neq. auto. }
  rewrite Hb in H. clear Hb. destruct (ro_recv_ack (m_from m) (m_ctx m) (r_ro r2)) as [ro acks] eqn:Hr. cbv zeta in H.
  rewrite R2 in Hr. destruct (recv_ack_q _ _ _ _ _ _ W1 Hr) as (Y1 & Y2 & _).
  destruct (rr_ctx _ _ W1 x W2) as (e & es & C1 & C2).
  assert (Cx : rq_ctx x = m_ctx m) by (rewrite <- C2, Hc; rewrite W3 in C1; unfold entry0_data in Hd; rewrite C1 in Hd; congruence).
  pose proof (acked_in (m_from m) (m_ctx m) q x W2) as Hin. rewrite Cx, String.eqb_refl in Hin. pose proof (rr_nodup _ _ Y1) as Nd.
  assert (Ea : acks = rq_acks (add_ack (m_from m) x)) by (rewrite Y2; apply ack_of_in; auto).
  change (t_config (r_trk (set_r_ro ro r2))) with (t_config (r_trk r2)) in H.
  assert (G : r' = set_r_ro ro r2 -> ~ won (t_config (r_trk r2)) acks -> waiting (fun v => A v \/ v = m_from m) p r').
  { intros -> Hw. exists (acked_q (m_from m) (m_ctx m) q), (add_ack (m_from m) x). rewrite Ea in Hw. constructor; [exact Y1|exact Hin|exact W3|exact W4| | |intros _; exact Hw].
    - cbn [rq_acks add_ack]. rewrite mget_mset. destruct (_ =? _); auto. change (r_id (set_r_ro ro r2)) with (r_id r2). unfold r_id. rewrite (sm_cfg _ _ Sm). exact W5.
    - intros v Hv. cbn [rq_acks add_ack]. rewrite mget_mset. destruct (N.eqb_spec v (m_from m)); auto. destruct Hv; [auto|contradiction]. }
  destruct (tc_vote_result (t_config (r_trk r2)) acks) eqn:Hv.
  1,2: apply Ok_inj in H; subst r'; right; apply G; auto; unfold won; congruence.
  left. apply bind_ok in H. destruct H as ([ro' rss] & Hadv & H). cbn [r_ro set_r_ro] in Hadv.
  destruct (advance_q _ _ _ _ _ Y1 Hadv) as [(Z1 & Z2 & Z3)|(Z1 & _)].
  2:{ exfalso. apply Z1. rewrite acked_q_ctx, <- Cx. apply in_map; auto. }
  apply mfold_gives in H. destruct H as [_ H].
  assert (Hu : In (released (add_ack (m_from m) x)) rss) by (rewrite Z3; apply in_map, upto_self; auto).
  specialize (H _ Hu). cbn in H. rewrite W3, W4 in H. destruct p as [pm pi]. cbn in H.
  change (gives r2 r' (pm, pi)) in H. eapply (gives_pre r r2); [exact (sm_cfg _ _ Sm)|exact (sm_term _ _ Sm)| |exact H].
  destruct (qa_grown _ _ (qs_qa _ _ S2)) as [G1 G2]. split; [exact G1|exact G2].
Qed.

(** Taking a request up. *)
Lemma srir_spec m e es r r' q : send_read_index_response m r = Ok r' -> ro_option (r_ro r) = RoSafe -> ro_rel (r_ro r) q -> m_entries m = e :: es ->
  exists ro2, r' = set_r_msgs (r_msgs r ++ map (hbmsg r (e_data e)) (peer_ids r)) (set_r_ro ro2 r) /\ ro_option ro2 = RoSafe /\
    ro_rel ro2 (if has_ctx (e_data e) q then acked_q (r_id r) (e_data e) q else q ++ [mkRReq (e_data e) m (l_committed (r_log r)) [(r_id r, true)]]).
Proof.
  intros H Ho R He. unfold send_read_index_response in H. rewrite Ho in H. apply bind_ok in H. destruct H as (ro1 & H1 & H). apply bind_ok in H. destruct H as (d & Hd & H).
  unfold entry0_data in Hd. rewrite He in Hd. apply Ok_inj in Hd. subst d.
  destruct (ro_recv_ack (r_id r) (e_data e) ro1) as [ro2 a] eqn:Hr. unfold bcast_heartbeat_ctx in H. apply bcast_hb in H. exists ro2.
  split; [exact H|]. destruct (ro_step_ok (RoAdd (l_committed (r_log r)) m) (r_ro r) q _ _ R ltac:(cbn; rewrite He; discriminate) eq_refl) as (rx & X1 & X2 & X3).
  cbn in X1. rewrite H1 in X1. cbn in X1. injection X1 as <-. cbn in X2. rewrite He in X2.
  destruct (has_ctx (e_data e) q) eqn:Hh; cbn [fst] in X2; destruct (recv_ack_q _ _ _ _ _ _ X2 Hr) as (Y1 & _ & Y3); (split; [congruence|]); [exact Y1|].
  unfold acked_q in Y1. rewrite map_app in Y1. fold (acked_q (r_id r) (e_data e) q) in Y1.
  rewrite acked_none in Y1 by (rewrite <- has_ctx_In; congruence). cbn in Y1. rewrite String.eqb_refl in Y1. exact Y1.
Qed.
Lemma hbmsg_eq r r' ctx id : r_cfg r' = r_cfg r -> r_term r' = r_term r -> r_trk r' = r_trk r -> r_log r' = r_log r -> hbmsg r' ctx id = hbmsg r ctx id.
Proof. intros H1 H2 H3 H4. unfold hbmsg, r_id. rewrite H1, H2, H3, H4. reflexivity. Qed.
Lemma srir_waiting m e es r r' q : send_read_index_response m r = Ok r' -> ro_option (r_ro r) = RoSafe -> ro_rel (r_ro r) q -> m_entries m = e :: es ->
  ~ In (e_data e) (List.map rq_ctx q) -> waiting (fun _ => False) (m, l_committed (r_log r)) r'.
Proof.
  intros H Ho R He Hn. destruct (srir_spec _ _ _ _ _ _ H Ho R He) as (ro2 & -> & _ & R2).
  destruct (has_ctx (e_data e) q) eqn:Hh; [exfalso; apply Hn, has_ctx_In; auto|]. eexists _, _. constructor; [exact R2|apply in_or_app; right; left; reflexivity|reflexivity|reflexivity|cbn; rewrite N.eqb_refl; auto|tauto|].
  intros (v & V1 & V2) _. cbn in V2. destruct (N.eqb_spec v (r_id r)); [contradiction|discriminate].
Qed.
Lemma srir_keeps A p m r r' : send_read_index_response m r = Ok r' -> ro_option (r_ro r) = RoSafe -> waiting A p r -> waiting A p r' /\ ro_option (r_ro r') = RoSafe.
Proof.
  intros H Ho (q & x & [W1 W2 W3 W4 W5 W6 W7]).
  assert (He : exists e es, m_entries m = e :: es).
  { unfold send_read_index_response in H. rewrite Ho in H. apply bind_ok in H. destruct H as (ro1 & X & _). unfold ro_add_request in X. apply bind_ok in X. destruct X as (s & X & _).
    unfold entry0_data in X. destruct (m_entries m) as [|e es]; [discriminate|eauto]. }
  destruct He as (e & es & He). destruct (srir_spec _ _ _ _ _ _ H Ho W1 He) as (ro2 & -> & Ho2 & R2). split; [|exact Ho2].
  destruct (has_ctx (e_data e) q).
  - exists (acked_q (r_id r) (e_data e) q). pose proof (acked_in (r_id r) (e_data e) q x W2) as Hin. destruct (String.eqb (rq_ctx x) (e_data e)).
    + exists (add_ack (r_id r) x).
      assert (Ea : forall v, mget v (rq_acks (add_ack (r_id r) x)) = mget v (rq_acks x)) by (intros v; cbn [rq_acks add_ack]; rewrite mget_mset; destruct (N.eqb_spec v (r_id r)) as [->|]; auto).
      constructor; [exact R2|exact Hin|exact W3|exact W4|rewrite Ea; exact W5|intros v Hv; rewrite Ea; auto|].
      intros (v & V1 & V2) Hw. rewrite Ea in V2. apply W7; [exists v; split; [exact V1|exact V2]|]. eapply won_ext; [|exact Hw]. auto.
    + exists x. constructor; auto.
  - eexists _, x. constructor; [exact R2|apply in_or_app; auto|exact W3|exact W4|exact W5|exact W6|exact W7].
Qed.
(** All the postponed requests are taken up. *)
Lemma release_all pend : forall r r' q, mfold send_read_index_response pend r = Ok r' -> ro_option (r_ro r) = RoSafe -> ro_rel (r_ro r) q ->
  r_state r = RLeader -> committed_entry_in_current_term r = Ok true ->
  (exists ms, r_msgs r' = r_msgs r ++ ms /\ forall m e es id, In m pend -> m_entries m = e :: es -> In id (peer_ids r) -> In (hbmsg r (e_data e) id) ms) /\
  r_log r' = r_log r /\ r_term r' = r_term r /\ r_cfg r' = r_cfg r /\ r_trk r' = r_trk r /\
  forall a m b e es, pend = a ++ m :: b -> m_entries m = e :: es -> ~ In (e_data e) (List.map rq_ctx q) ->
    (forall x e' es', In x a -> m_entries x = e' :: es' -> e_data e' <> e_data e) -> waiting (fun _ => False) (m, l_committed (r_log r)) r'.
Proof.
  induction pend as [|m pend IH]; intros r r' q H Ho R Hl Hc; cbn [mfold] in H.
  - apply Ok_inj in H. subst r'. split; [exists []; rewrite app_nil_r; split; auto; intros ? ? ? ? []|]. repeat (split; [reflexivity|]). intros a m b e es X. destruct a; discriminate.
  - apply bind_ok in H. destruct H as (r1 & H1 & H).
    assert (He : exists e es, m_entries m = e :: es).
    { unfold send_read_index_response in H1. rewrite Ho in H1. apply bind_ok in H1. destruct H1 as (ro1 & X & _). unfold ro_add_request in X. apply bind_ok in X. destruct X as (s & X & _).
      unfold entry0_data in X. destruct (m_entries m) as [|e es]; [discriminate|eauto]. }
    destruct He as (e & es & He). destruct (srir_spec _ _ _ _ _ _ H1 Ho R He) as (ro2 & E1 & Ho2 & R2).
    assert (F : r_log r1 = r_log r /\ r_term r1 = r_term r /\ r_cfg r1 = r_cfg r /\ r_trk r1 = r_trk r /\ r_state r1 = r_state r /\ r_ro r1 = ro2 /\
      r_msgs r1 = r_msgs r ++ map (hbmsg r (e_data e)) (peer_ids r)) by (rewrite E1; cbn; auto 10).
    clear E1. destruct F as (F1 & F2 & F3 & F4 & F5 & F6 & F7). rewrite <- F6 in Ho2, R2.
    assert (Hc1 : committed_entry_in_current_term r1 = Ok true) by (unfold committed_entry_in_current_term in *; rewrite F1, F2; exact Hc).
    assert (Pe : peer_ids r1 = peer_ids r) by (unfold peer_ids, r_id; rewrite F3, F4; auto).
    destruct (IH r1 r' _ H Ho2 R2 (eq_trans F5 Hl) Hc1) as ((ms & M1 & M2) & G1 & G2 & G3 & G4 & G5).
    split; [|rewrite G1, G2, G3, G4; repeat (split; [auto|])].
    + exists (map (hbmsg r (e_data e)) (peer_ids r) ++ ms). rewrite M1, F7, app_assoc. split; auto. intros m0 e0 es0 id [<-|Hm] He0 Hid; apply in_or_app.
      * left. rewrite He in He0. injection He0 as <- <-. apply in_map; auto.
      * right. rewrite <- (hbmsg_eq r r1) by auto. eapply M2; eauto. rewrite Pe. auto.
    + intros a m0 b e0 es0 Ha He0 Hn Hd. destruct a as [|z a]; injection Ha as <- ->.
      * rewrite He in He0. injection He0 as <- <-. pose proof (srir_waiting _ _ _ _ _ _ H1 Ho R He Hn) as W.
        clear - W H Ho2. revert r1 H Ho2 W. induction b as [|y b IHb]; intros r1 H Ho2 W; cbn [mfold] in H; [apply Ok_inj in H; subst; auto|].
        apply bind_ok in H. destruct H as (r2 & H2 & H). destruct (srir_keeps _ _ _ _ _ H2 Ho2 W) as [W' Ho']. eauto.
      * rewrite <- F1. eapply (G5 a m0 b); eauto. 
        -- intros Hin. destruct (has_ctx (e_data e) q); [rewrite acked_q_ctx in Hin; auto|]. rewrite map_app in Hin. apply in_app_or in Hin. destruct Hin as [Hin|[Hin|[]]]; [auto|].
           cbn in Hin. apply (Hd m e es); auto. left; auto.
        -- intros x e' es' Hx. apply Hd. right; auto.
Qed.
Lemma in_peer_ids_iff r id : In id (peer_ids r) <-> id <> r_id r /\ trk_get id (r_trk r) <> None.
Proof. unfold peer_ids, trk_get. rewrite filter_In, negb_true_iff, N.eqb_neq, mget_key. tauto. Qed.
Definition beat_to (r : raft) (ctx : string) (id : N) (x : msg) : Prop :=
  m_type x = MsgHeartbeat /\ m_to x = id /\ m_from x = r_id r /\ m_term x = r_term r /\ m_ctx x = ctx.
Lemma hbmsg_beat r ctx id : beat_to r ctx id (hbmsg r ctx id). Proof. repeat split. Qed.
(** The acknowledgement by which the leader first commits something of its term. *)
Lemma ack_releases m pr r r' q : leader_app_resp m pr r = Ok r' -> ro_option (r_ro r) = RoSafe -> ro_rel (r_ro r) q -> r_state r = RLeader ->
  trk_get (m_from m) (r_trk r) = Some pr ->
  committed_entry_in_current_term r <> Ok true -> committed_entry_in_current_term r' = Ok true ->
  (exists ms, r_msgs r' = r_msgs r ++ ms /\ forall m e es id, In m (r_pend_reads r) -> m_entries m = e :: es -> id <> r_id r -> trk_get id (r_trk r) <> None ->
     exists x, In x ms /\ beat_to r (e_data e) id x) /\
  forall a m b e es, r_pend_reads r = a ++ m :: b -> m_entries m = e :: es -> ~ In (e_data e) (List.map rq_ctx q) ->
    (forall x e' es', In x a -> m_entries x = e' :: es' -> e_data e' <> e_data e) -> waiting (fun _ => False) (m, l_committed (r_log r')) r'.
Proof.
  intros H Ho R Hl Hpr Hn Hy.
  assert (No : forall s, r_log s = r_log r -> r_term s = r_term r -> committed_entry_in_current_term s <> Ok true).
  { intros s E1 E2. unfold committed_entry_in_current_term in *. rewrite E1, E2. exact Hn. }
  assert (Noq : forall s, qs s r' -> r_log s = r_log r -> r_term s = r_term r -> False).
  { intros s S E1 E2. apply (No r'); auto; [rewrite (sm_log _ _ (qs_same _ _ S)); auto|rewrite (sm_term _ _ (qs_same _ _ S)); auto]. }
  unfold leader_app_resp in H. destruct (m_reject m).
  { exfalso. unfold leader_app_resp_reject in H. apply bind_ok in H. destruct H as (probe & _ & H).
    destruct (pr_maybe_decr_to _ _ _) as [pr1 ok]. destruct ok.
    - apply send_append_qs in H. eapply Noq; [exact H|reflexivity|reflexivity].
    - apply Ok_inj in H. subst r'. revert Hy. apply No; reflexivity. }
  unfold leader_app_resp_accept in H. destruct (pr_maybe_update _ _) as [pr1 upd] eqn:Hu. destruct upd.
  2:{ exfalso. apply Ok_inj in H. subst r'. revert Hy. apply No; reflexivity. }
  apply bind_ok in H. destruct H as (pr2 & Hp2 & H). apply bind_ok in H. destruct H as ([r2 com] & Hc & H).
  pose proof Hc as Hc0. apply raft_maybe_commit_state in Hc. destruct Hc as [l E2].
  apply bind_ok in H. destruct H as (r3 & H3 & H). apply bind_ok in H. destruct H as (r4 & H4 & H).
  apply send_all_qs in H4. assert (S34 : qs r3 r').
  { destruct (_ && _) in H; [|apply Ok_inj in H; subst; auto]. eapply qs_trans; [exact H4|]. unfold send_timeout_now in H. apply send_plain_qs in H; auto. exact I. }
  clear H4 H.
  assert (F : r_ro r2 = r_ro r /\ r_pend_reads r2 = r_pend_reads r /\ r_msgs r2 = r_msgs r /\ r_state r2 = r_state r /\ r_term r2 = r_term r /\ r_cfg r2 = r_cfg r /\
    (forall id, trk_get id (r_trk r) <> None -> trk_get id (r_trk r2) <> None) /\ t_config (r_trk r2) = t_config (r_trk r)).
  { rewrite E2. repeat (split; [reflexivity|]). split; [|reflexivity]. intros id Hid. unfold trk_get. cbn. rewrite mget_mset. destruct (_ =? _); [discriminate|exact Hid]. }
  destruct F as (F1 & F2 & F3 & F4 & F5 & F6 & F7 & F8).
  destruct com.
  2:{ exfalso. assert (L2 : r_log r2 = r_log r) by (apply maybe_commit_same in Hc0; exact Hc0). clear E2.
      destruct (pr_is_paused _) in H3; [apply send_append_qs in H3; eapply (Noq r2); eauto; eapply qs_trans; eauto|apply Ok_inj in H3; subst r3; eapply (Noq r2); eauto]. }
  clear E2 Hc0. apply bind_ok in H3. destruct H3 as (r5 & H5 & H3). apply bcast_append_qs in H3. pose proof (qs_trans _ _ _ H3 S34) as S5. clear H3 S34.
  unfold release_pending_reads in H5. apply bind_ok in H5. destruct H5 as (ok & Hok & H5). destruct ok.
  2:{ exfalso. apply Ok_inj in H5. subst r5. pose proof (com_same _ _ (qs_same _ _ S5)) as X. congruence. }
  destruct (release_all _ _ _ q H5) as ((ms & M1 & M2) & G1 & G2 & G3 & G4 & G5).
  { cbn. congruence. } { cbn. rewrite F1. exact R. } { cbn. congruence. } { exact Hok. }
  destruct (qa_msgs _ _ (qs_qa _ _ S5)) as (ms2 & M3 & _). cbn [r_msgs r_log r_cfg r_term r_trk set_r_pend_reads] in *. split.
  - exists (ms ++ ms2). rewrite M3, M1, F3, app_assoc. split; auto. intros m0 e es id Hm He Hi Hg. rewrite <- F2 in Hm.
    assert (Hid : In id (peer_ids (set_r_pend_reads [] r2))) by (apply in_peer_ids_iff; split; [unfold r_id in *; cbn; rewrite F6; auto|apply F7; auto]).
    eexists. split; [apply in_or_app; left; eapply M2; eauto|]. repeat split; cbn; auto. unfold r_id. cbn. rewrite F6. auto.
  - intros a m0 b e es Hp He Hq Hd. rewrite <- F2 in Hp. pose proof (G5 a m0 b e es Hp He Hq Hd) as W. pose proof (qs_same _ _ S5) as Sm.
    rewrite (sm_log _ _ Sm), G1. eapply waiting_move; [exact W|exact (qs_ro _ _ S5)|unfold r_id; rewrite (sm_cfg _ _ Sm); auto|exact (sm_tconf _ _ Sm)].
Qed.
(** Calls by which the leader commits nothing of its term leave the postponed requests alone. *)
Lemma rbs_postponed im h r h' r' l : rbs im h r h' r' l -> forall q, committed_entry_in_current_term r <> Ok true -> ro_rel (r_ro r) q ->
  exists q' x, ro_rel (r_ro r') q' /\ incl (List.map rq_ctx q') (List.map rq_ctx q) /\ r_pend_reads r' = r_pend_reads r ++ x.
Proof.
  induction 1 as [|h r h1 r1 l h2 r2 l' H1 H2 IH]; intros q Hn R.
  - exists q, []. rewrite app_nil_r. split; auto. split; auto. apply incl_refl.
  - pose proof (rb_same _ _ _ _ _ _ H1) as S. destruct (rb_q _ _ _ _ _ _ _ R H1) as (q1 & R1 & Q).
    destruct (IH q1) as (q2 & x2 & I1 & I2 & I3); [rewrite (com_same _ _ S); auto|auto|].
    assert (Q1 : incl (List.map rq_ctx q1) (List.map rq_ctx q)).
    { inversion Q; subst; try apply incl_refl; rewrite ?acked_q_ctx; try apply incl_refl; [congruence|].
      intros c Hc. apply in_map_iff in Hc. destruct Hc as (y & <- & Hy). apply after_incl in Hy. apply (in_map rq_ctx) in Hy. rewrite acked_q_ctx in Hy. auto. }
    assert (P1 : exists x1, r_pend_reads r1 = r_pend_reads r ++ x1).
    { destruct H1; try congruence; try (exists []; rewrite app_nil_r; reflexivity).
      - exists []. rewrite app_nil_r. apply H.
      - exists []. rewrite app_nil_r. auto.
      - eexists. reflexivity.
      - exists []. rewrite app_nil_r. eapply response_same; eauto.
      - exists []. rewrite app_nil_r. apply (mfold_inv _ (fun r r' => r_pend_reads r' = r_pend_reads r)) in H8; auto; [intros; congruence|]. intros x s s' _ Hs. eapply response_same; eauto. }
    destruct P1 as (x1 & P1). exists q2, (x1 ++ x2). rewrite I3, P1, app_assoc. split; auto. split; auto. eapply incl_tran; eauto.
Qed.
End RL.
