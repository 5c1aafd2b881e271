(** Frame lemmas: what the sending half of the Raft code may change and emit. *)
From Verif Require Import Prelude Types M_Util M_Quorum M_Inflights M_Progress M_Tracker.
From Verif Require Import M_Storage M_Unstable M_Log M_ReadOnly M_ConfPb M_ConfChange M_Raft.
From Verif Require Import Spec_Inflights P_Inflights.

Section Frame.
Context {E : Env}.

(** Everything but messages, follower flow-control state and read-index bookkeeping is equal. *)
Record same (r r' : raft) : Prop := {
  sm_cfg : r_cfg r' = r_cfg r;
  sm_term : r_term r' = r_term r;
  sm_vote : r_vote r' = r_vote r;
  sm_log : r_log r' = r_log r;
  sm_state : r_state r' = r_state r;
  sm_learner : r_learner r' = r_learner r;
  sm_lead : r_lead r' = r_lead r;
  sm_transferee : r_transferee r' = r_transferee r;
  sm_pending : r_pending_conf r' = r_pending_conf r;
  sm_unc : r_uncommitted r' = r_uncommitted r;
  sm_el : r_el_elapsed r' = r_el_elapsed r;
  sm_hb : r_hb_elapsed r' = r_hb_elapsed r;
  sm_rand : r_rand_timeout r' = r_rand_timeout r;
  sm_tape : r_tape r' = r_tape r;
  sm_tconf : t_config (r_trk r') = t_config (r_trk r);
  sm_votes : t_votes (r_trk r') = t_votes (r_trk r);
  sm_maxinf : t_max_inflight (r_trk r') = t_max_inflight (r_trk r);
  sm_roopt : ro_option (r_ro r') = ro_option (r_ro r)
}.
(** Progress maps that agree on what acknowledgements established. *)
Definition infl_ok (p : progress) : Prop := iwf (p_infl p) /\ exists q, holds (p_infl p) q.
Definition pr_same (p p' : progress) : Prop :=
  p_match p' = p_match p /\ p_learner p' = p_learner p /\ p_active p' = p_active p /\
  i_size (p_infl p') = i_size (p_infl p) /\ (infl_ok p -> infl_ok p').
Definition prs_same (r r' : raft) : Prop :=
  (msorted (t_progress (r_trk r)) -> msorted (t_progress (r_trk r'))) /\
  forall id, match mget id (t_progress (r_trk r)), mget id (t_progress (r_trk r')) with
             | None, None => True
             | Some p, Some p' => pr_same p p'
             | _, _ => False
             end.

(** Flow-control state that stays within a log whose last index is [B]. *)
Definition nx (B : N) (p : progress) : Prop :=
  p_match p <= B /\ 1 <= p_next p <= B + 1 /\ p_pending p <= B.
Definition nexts (r : raft) : Prop := forall id p, trk_get id (r_trk r) = Some p -> nx (r_last r) p.
(** What the log returns lies within it. *)
Definition lgood (l : rlog) : Prop :=
  (forall i mx es e es', log_entries i mx l = Ok (SOk es) -> rev es = e :: es' -> e_index e <= log_last l) /\
  (forall sn, log_snapshot l = SOk sn -> sn_index sn <= log_last l).

Lemma same_refl r : same r r. Proof. constructor; auto. Qed.
Lemma same_trans a b c : same a b -> same b c -> same a c.
Proof. intros [] []; constructor; congruence. Qed.
Lemma pr_same_refl p : pr_same p p. Proof. unfold pr_same; auto. Qed.
Lemma pr_same_trans a b c : pr_same a b -> pr_same b c -> pr_same a c.
Proof. unfold pr_same. intros (?&?&?&?&?) (?&?&?&?&?). intuition congruence. Qed.
Lemma prs_same_refl r : prs_same r r.
Proof. split; auto. intros id; destruct (mget id _); auto using pr_same_refl. Qed.
Lemma prs_same_trans a b c : prs_same a b -> prs_same b c -> prs_same a c.
Proof.
  intros [S1 H1] [S2 H2]; split; auto. intros id. specialize (H1 id). specialize (H2 id).
  destruct (mget id (t_progress (r_trk a))), (mget id (t_progress (r_trk b))),
    (mget id (t_progress (r_trk c))); try tauto; eauto using pr_same_trans.
Qed.
Lemma prs_same_get a b id p : prs_same a b -> trk_get id (r_trk a) = Some p ->
  exists p', trk_get id (r_trk b) = Some p' /\ pr_same p p'.
Proof.
  intros [_ H]. specialize (H id). unfold trk_get. intros E0. rewrite E0 in H.
  destruct (mget id (t_progress (r_trk b))); [eauto|tauto].
Qed.
Lemma prs_same_get' a b id p : prs_same a b -> trk_get id (r_trk b) = Some p ->
  exists p', trk_get id (r_trk a) = Some p' /\ pr_same p' p.
Proof.
  intros [_ H]. specialize (H id). unfold trk_get. intros E0. rewrite E0 in H.
  destruct (mget id (t_progress (r_trk a))); [eauto|tauto].
Qed.
Lemma prs_same_none a b id : prs_same a b -> trk_get id (r_trk a) = None <-> trk_get id (r_trk b) = None.
Proof.
  intros [_ H]. specialize (H id). unfold trk_get.
  destruct (mget id (t_progress (r_trk a))), (mget id (t_progress (r_trk b))); split; intros; try congruence; tauto.
Qed.
Lemma put_prs_same r id p p' : trk_get id (r_trk r) = Some p -> pr_same p p' ->
  prs_same r (put_progress id p' r).
Proof.
  intros Hg Hp. split; [cbn; apply msorted_mset|]. intros j. cbn. rewrite mget_mset.
  destruct (N.eqb_spec j id) as [->|]; [unfold trk_get in Hg; rewrite Hg; auto|].
  destruct (mget j _); auto using pr_same_refl.
Qed.
Lemma put_same r id p : same r (put_progress id p r).
Proof. constructor; reflexivity. Qed.

Lemma infl_reset x : (iwf x /\ exists q, holds x q) -> iwf (inf_reset x) /\ exists q, holds (inf_reset x) q.
Proof.
  intros [H1 [q H2]]. destruct (step_ok IReset x q H1 H2 I) as (x' & E1 & E2 & E3 & _).
  cbn in E1. inv E1. eauto.
Qed.
Lemma pr_same_infl p p' : p_match p' = p_match p -> p_learner p' = p_learner p -> p_active p' = p_active p ->
  i_size (p_infl p') = i_size (p_infl p) -> (infl_ok p -> infl_ok p') -> pr_same p p'.
Proof. unfold pr_same; auto. Qed.
Lemma infl_add v x y : inf_add v x = Ok y -> (i_size y = i_size x) /\
  ((iwf x /\ exists q, holds x q) -> iwf y /\ exists q, holds y q).
Proof.
  intros H. split.
  - unfold inf_add in H. destruct (inf_full x); [discriminate|].
    destruct (vset _ _ _); [inv H; auto|discriminate].
  - intros [H1 [q H2]]. assert (nlen q <> i_size x).
    { intros Hq. unfold inf_add, inf_full in H. destruct H2 as [H2 _]. rewrite H2, Hq, N.eqb_refl in H. discriminate. }
    destruct (add_ok v x q H1 H2) as (x' & E1 & E2 & E3 & _); auto. rewrite E1 in H. inv H. eauto.
Qed.

(** The messages emitted by the sending half of the code in state [r]. *)
Inductive smsg (r : raft) : msg -> Prop :=
| SmApp to next t es pr :
    trk_get to (r_trk r) <> None -> next = p_next pr ->
    log_term (wsub next 1) (r_log r) = Ok (SOk t) ->
    log_entries next (k_max_msg_size (r_cfg r)) (r_log r) = Ok (SOk es) ->
    (lgood (r_log r) -> nexts r -> 1 <= next <= r_last r + 1) ->
    smsg r (mkMsg MsgApp to (r_id r) (r_term r) t (wsub next 1) es (l_committed (r_log r))
                  empty_snapshot false 0 EmptyString)
| SmSnap to sn :
    trk_get to (r_trk r) <> None -> log_snapshot (r_log r) = SOk sn -> sn_index sn <> 0 ->
    smsg r (mkMsg MsgSnap to (r_id r) (r_term r) 0 0 [] 0 sn false 0 EmptyString)
| SmBeat to pr ctx :
    trk_get to (r_trk r) = Some pr -> to <> r_id r ->
    smsg r (mkMsg MsgHeartbeat to (r_id r) (r_term r) 0 0 []
              (N.min (p_match pr) (l_committed (r_log r))) empty_snapshot false 0 ctx)
| SmTimeoutNow to pr :
    r_transferee r = to -> trk_get to (r_trk r) = Some pr -> p_match pr = r_last r ->
    smsg r (mkMsg MsgTimeoutNow to (r_id r) (r_term r) 0 0 [] 0 empty_snapshot false 0 EmptyString)
| SmRead to i es :
    smsg r (mkMsg MsgReadIndexResp to (r_id r) (r_term r) 0 i es 0 empty_snapshot false 0 EmptyString).

(** How sending the messages [ms] moves the flow-control state [p] of the follower [to]: nothing is
    sent to a paused follower, append messages start at Next, entries sent to a replicating follower
    enter its window, entries sent to a probed one pause it, and a snapshot stops replication. *)
Definition after_app (m : msg) (p p1 : progress) : Prop :=
  match rev (m_entries m) with
  | [] => p1 = p
  | e :: _ =>
      match p_state p with
      | StReplicate => exists inf, inf_add (e_index e) (p_infl p) = Ok inf /\
                         p1 = set_p_infl inf (pr_optimistic_update (e_index e) p)
      | StProbe => p1 = set_p_probe_sent true p
      | StSnapshot => False
      end
  end.
Inductive pflow (to : N) : progress -> list msg -> progress -> Prop :=
| PfNil p : pflow to p [] p
| PfOther p m ms p' : m_to m <> to \/ (m_type m <> MsgApp /\ m_type m <> MsgSnap) ->
    pflow to p ms p' -> pflow to p (m :: ms) p'
| PfApp p m ms p1 p' : m_to m = to -> m_type m = MsgApp -> pr_is_paused p = false ->
    m_index m = wsub (p_next p) 1 -> after_app m p p1 -> pflow to p1 ms p' -> pflow to p (m :: ms) p'
| PfSnap p m ms p' : m_to m = to -> m_type m = MsgSnap -> pr_is_paused p = false -> p_active p = true ->
    pflow to (pr_become_snapshot (sn_index (m_snap m)) p) ms p' -> pflow to p (m :: ms) p'.
Lemma pflow_app to a ms b ms' c : pflow to a ms b -> pflow to b ms' c -> pflow to a (ms ++ ms') c.
Proof. induction 1; intros; cbn; auto; [apply PfOther|eapply PfApp|apply PfSnap]; eauto. Qed.
Lemma pflow_others to p ms : (forall m, In m ms -> m_to m <> to \/ (m_type m <> MsgApp /\ m_type m <> MsgSnap)) -> pflow to p ms p.
Proof. induction ms as [|x t IH]; intros H; [constructor|]. apply PfOther; [apply H; left; auto|apply IH; intros; apply H; right; auto]. Qed.
Definition flows (r r' : raft) : Prop := forall to p ms, trk_get to (r_trk r) = Some p -> r_msgs r' = r_msgs r ++ ms ->
  exists p', trk_get to (r_trk r') = Some p' /\ pflow to p ms p'.

(** [r'] is [r] after sending. *)
Record sends (r r' : raft) : Prop := {
  sd_same : same r r';
  sd_prs : prs_same r r';
  sd_next : lgood (r_log r) -> nexts r -> nexts r';
  sd_msgs : exists ms, r_msgs r' = r_msgs r ++ ms /\ Forall (smsg r) ms;
  sd_flow : flows r r'
}.
Lemma flows_same r r' : r_trk r' = r_trk r -> r_msgs r' = r_msgs r -> flows r r'.
Proof.
  intros H1 H2 to p ms Hg Hm. rewrite H2 in Hm. rewrite <- (app_nil_r (r_msgs r)) in Hm at 1. apply app_inv_head in Hm. subst ms.
  exists p. rewrite H1. split; auto. constructor.
Qed.
Lemma flows_one r r' m : r_msgs r' = r_msgs r ++ [m] ->
  (forall to p, trk_get to (r_trk r) = Some p -> exists p', trk_get to (r_trk r') = Some p' /\ pflow to p [m] p') -> flows r r'.
Proof. intros H1 H2 to p ms Hg Hm. rewrite H1 in Hm. apply app_inv_head in Hm. subst ms. auto. Qed.
Lemma flows_trans a b c ms1 ms2 : r_msgs b = r_msgs a ++ ms1 -> r_msgs c = r_msgs b ++ ms2 -> flows a b -> flows b c -> flows a c.
Proof.
  intros H1 H2 F1 F2 to p ms Hg Hm. destruct (F1 to p ms1 Hg H1) as (p1 & G1 & P1). destruct (F2 to p1 ms2 G1 H2) as (p2 & G2 & P2).
  exists p2. split; auto. rewrite H2, H1, <- app_assoc in Hm. apply app_inv_head in Hm. subst ms. eapply pflow_app; eauto.
Qed.

Lemma smsg_same r r' m : same r r' -> prs_same r r' -> (lgood (r_log r) -> nexts r -> nexts r') ->
  smsg r' m -> smsg r m.
Proof.
  intros [] Hp Hn H.
  assert (Hid : r_id r' = r_id r) by (unfold r_id; congruence).
  destruct H as [to next t es pr H1 H2 H3 H4 H5|to sn H1 H2 H3|to pr ctx H1|to pr H1 H2 H3|to i es];
    rewrite ?Hid, ?sm_term0 in *; rewrite ?sm_log0, ?sm_cfg0 in *.
  - econstructor; eauto; [rewrite prs_same_none; eauto|]. unfold r_last in *. rewrite sm_log0 in H5. auto.
  - econstructor; eauto. rewrite prs_same_none; eauto.
  - destruct (prs_same_get' _ _ _ _ Hp H1) as (p' & E1 & (E2 & _)). rewrite E2. econstructor; eauto.
  - destruct (prs_same_get' _ _ _ _ Hp H2) as (p' & E1 & (E2 & _)). econstructor; eauto; try congruence.
    unfold r_last in *. congruence.
  - constructor.
Qed.

Lemma sends_refl r : sends r r.
Proof. constructor; [apply same_refl|apply prs_same_refl|auto|exists []; rewrite app_nil_r; auto|apply flows_same; auto]. Qed.
Lemma sends_trans a b c : sends a b -> sends b c -> sends a c.
Proof.
  intros [S1 P1 N1 (m1 & E1 & F1) W1] [S2 P2 N2 (m2 & E2 & F2) W2].
  assert (N2' : lgood (r_log a) -> nexts b -> nexts c) by (rewrite <- (sm_log _ _ S1); auto).
  constructor.
  - eauto using same_trans.
  - eauto using prs_same_trans.
  - auto.
  - exists (m1 ++ m2). rewrite E2, E1, app_assoc. split; auto. apply Forall_app. split; auto.
    eapply Forall_impl; [|exact F2]. intros m. apply smsg_same; auto.
  - eapply flows_trans; eauto.
Qed.

Lemma nexts_put r id p : nexts r -> nx (r_last r) p -> nexts (put_progress id p r).
Proof.
  intros H Hp j q. unfold trk_get. cbn. rewrite mget_mset. change (r_last (put_progress id p r)) with (r_last r).
  destruct (N.eqb_spec j id) as [->|]; intros X; [inv X; auto|apply (H j); exact X].
Qed.
Lemma nexts_get r id p : nexts r -> trk_get id (r_trk r) = Some p -> nx (r_last r) p.
Proof. intros H X. eapply H; eauto. Qed.
Lemma nexts_eq r r' : r_trk r' = r_trk r -> r_log r' = r_log r -> nexts r -> nexts r'.
Proof. unfold nexts, r_last. intros -> ->. auto. Qed.
(** Send of a message without sender and term, of a type that gets the term stamped. *)
Definition stamped (r : raft) (m : msg) : msg := set_m_term (r_term r) (set_m_from (r_id r) m).
Lemma send_stamped m r r' : m_from m = 0 -> m_term m = 0 -> is_vote_family (m_type m) = false ->
  m_type m <> MsgProp -> m_type m <> MsgReadIndex ->
  send m r = Ok r' -> r' = set_r_msgs (r_msgs r ++ [stamped r m]) r.
Proof.
  intros Hf Ht Hv Hp Hri. unfold send, stamped. rewrite Hf. cbn [N.eqb].
  change (0 =? 0) with true. cbv iota.
  replace (m_type (set_m_from (r_id r) m)) with (m_type m) by reflexivity. rewrite Hv.
  replace (m_term (set_m_from (r_id r) m)) with 0 by (cbn; auto). cbn [N.eqb negb].
  change (negb (0 =? 0)) with false. cbv iota. intros H. inv H. f_equal. f_equal. f_equal.
  destruct (m_type m) eqn:Em; try congruence; reflexivity.
Qed.

Definition idle (m : msg) : Prop := m_type m <> MsgApp /\ m_type m <> MsgSnap.
Lemma sends_msg r m : smsg r m -> (forall p, trk_get (m_to m) (r_trk r) = Some p -> pflow (m_to m) p [m] p) ->
  sends r (set_r_msgs (r_msgs r ++ [m]) r).
Proof.
  intros H Hf. constructor; [constructor; reflexivity|split; [auto|]|intros _; apply nexts_eq; auto|exists [m]; cbn; auto|].
  - intros id; cbn; destruct (mget id _); auto using pr_same_refl.
  - eapply flows_one; [reflexivity|]. intros to p Hg. exists p. split; [exact Hg|]. destruct (N.eq_dec (m_to m) to) as [<-|]; auto.
    constructor; [auto|constructor].
Qed.
Lemma sends_put_msg r id p p' m : trk_get id (r_trk r) = Some p -> pr_same p p' ->
  (lgood (r_log r) -> nx (r_last r) p -> nx (r_last r) p') -> m_to m = id -> smsg r m -> pflow id p [m] p' ->
  sends r (set_r_msgs (r_msgs r ++ [m]) (put_progress id p' r)).
Proof.
  intros H1 H2 H3 Hto Hs Hf. constructor; [constructor; reflexivity|exact (put_prs_same _ _ _ _ H1 H2)| |exists [m]; cbn; auto|].
  - intros Hg Hn. apply (nexts_eq (put_progress id p' r)); auto. apply nexts_put; auto. eauto using nexts_get.
  - eapply flows_one; [reflexivity|]. intros to q Hg. unfold trk_get. cbn. rewrite mget_mset.
    destruct (N.eqb_spec to id) as [->|]; [assert (q = p) by congruence; subst; eauto|].
    exists q. split; [exact Hg|]. constructor; [left; congruence|constructor].
Qed.

Lemma send_smsg m r r' : m_from m = 0 -> m_term m = 0 -> is_vote_family (m_type m) = false ->
  m_type m <> MsgProp -> m_type m <> MsgReadIndex -> smsg r (stamped r m) -> idle m ->
  send m r = Ok r' -> sends r r'.
Proof.
  intros Hf Ht Hv Hp Hri Hs Hi H. apply send_stamped in H; auto. subst. apply sends_msg; auto.
  intros p _. constructor; [right; exact Hi|constructor].
Qed.

Lemma maybe_send_append_sends to b r r' x :
  maybe_send_append to b r = Ok (r', x) -> sends r r'.
Proof.
  unfold maybe_send_append. destruct (trk_get to (r_trk r)) as [pr|] eqn:Hg; [|discriminate].
  destruct (pr_is_paused pr) eqn:Hpa; intros H; [inv H; apply sends_refl|]. mon.
  rename x0 into t, x1 into es.
  destruct (is_nil _ && negb b); [inv H; apply sends_refl|].
  assert (Hsnap : send_snap_msg to pr r = Ok (r', x) -> sends r r').
  { unfold send_snap_msg. destruct (p_active pr) eqn:Ha; cbn [negb]; [|intros X; inv X; apply sends_refl].
    destruct (log_snapshot (r_log r)) as [sn|[]] eqn:Hsn; try discriminate; [|intros X; inv X; apply sends_refl].
    destruct (N.eqb_spec (sn_index sn) 0); [discriminate|]. intros X. mon.
    apply send_stamped in Hm1; try reflexivity; try discriminate. subst r'. cbn [put_progress set_r_trk r_msgs].
    match goal with |- sends r (set_r_msgs (_ ++ [?x]) _) => set (sm := x) end.
    apply (sends_put_msg r to pr); auto.
    - apply pr_same_infl; auto; exact (infl_reset (p_infl pr)).
    - intros [_ Hg2] (N1 & (N2 & N4) & N3); unfold nx; cbn; repeat split; auto.
    - assert (Hne : trk_get to (r_trk r) <> None) by (rewrite Hg; discriminate). exact (SmSnap r to sn Hne Hsn n).
    - apply PfSnap; auto. constructor. }
  destruct t as [t|]; [|auto]. destruct es as [es|]; [|auto]. clear Hsnap.
  mon. unfold send_app_msg in Hm1.
  assert (Hsm : smsg r (stamped r (set_m_commit (l_committed (r_log r)) (set_m_entries es (set_m_logterm t
      (set_m_index (wsub (p_next pr) 1) (set_m_to to (new_msg MsgApp)))))))).
  { unfold stamped; cbn. eapply (SmApp r to (p_next pr)); cbn; auto; [congruence|].
    intros _ Hn. apply (nexts_get _ _ _ Hn Hg). }
  assert (Hgen : forall pr1 r1, pr_same pr pr1 -> (lgood (r_log r) -> nx (r_last r) pr -> nx (r_last r) pr1) ->
    (forall m, m_entries m = es -> after_app m pr pr1) ->
    send (set_m_commit (l_committed (r_log r)) (set_m_entries es (set_m_logterm t
      (set_m_index (wsub (p_next pr) 1) (set_m_to to (new_msg MsgApp)))))) (put_progress to pr1 r) = Ok r1 ->
    sends r r1).
  { intros pr1 r1 Hps Hnx Haa X.
    apply send_stamped in X; try reflexivity; try discriminate. subst r1. apply (sends_put_msg r to pr); auto.
    eapply PfApp; [reflexivity|reflexivity|auto|reflexivity|apply Haa; reflexivity|constructor]. }
  destruct (rev es) as [|last es'] eqn:Hr.
  - apply send_stamped in Hm1; try reflexivity; try discriminate. subst r'. apply sends_msg; auto.
    intros p Hp. cbn in Hp. assert (p = pr) by congruence. subst p. eapply PfApp; [reflexivity|reflexivity|auto|reflexivity| |constructor].
    unfold after_app. cbn. rewrite Hr. reflexivity.
  - destruct (p_state pr) eqn:Hps; [| |discriminate].
    + eapply Hgen; [| | |exact Hm1]; [apply pr_same_infl; auto| |].
      * intros _ (N1 & N2 & N3). unfold nx; cbn; auto.
      * intros m Hme. unfold after_app. rewrite Hme, Hr, Hps. reflexivity.
    + mon. rename Hm2 into Hadd. pose proof Hadd as Hadd0. eapply Hgen; [| | |exact Hm1]; apply infl_add in Hadd; destruct Hadd as [A1 A2].
      * apply pr_same_infl; auto.
      * intros [G1 _] (N1 & (N2 & N4) & N3). unfold nx; cbn. repeat split; auto; try lia.
        all: specialize (G1 _ _ _ _ _ Hm0 Hr); unfold r_last; lia.
      * intros m Hme. unfold after_app. rewrite Hme, Hr, Hps. eexists. split; [exact Hadd0|reflexivity].
Qed.

Lemma mfold_inv {A S} (f : A -> S -> res S) (P : S -> S -> Prop) l :
  (forall s, P s s) -> (forall a b c, P a b -> P b c -> P a c) ->
  (forall a s s', In a l -> f a s = Ok s' -> P s s') ->
  forall s s', mfold f l s = Ok s' -> P s s'.
Proof.
  intros Hr Ht. induction l as [|a l IH]; intros Hf s s' H; cbn in H.
  - inv H; auto.
  - mon. eapply Ht; [eapply Hf; [left; reflexivity|eassumption]|].
    eapply IH; eauto. intros; eapply Hf; eauto. right; auto.
Qed.

Lemma send_append_sends to r r' : send_append to r = Ok r' -> sends r r'.
Proof. unfold send_append. intros H. mon. destruct x as [r1 b]. mon. eapply maybe_send_append_sends; eauto. Qed.
Lemma bcast_append_sends r r' : bcast_append r = Ok r' -> sends r r'.
Proof.
  apply (mfold_inv send_append sends); eauto using sends_refl, sends_trans, send_append_sends.
Qed.
Lemma send_heartbeat_sends ctx to r r' : to <> r_id r -> send_heartbeat ctx to r = Ok r' -> sends r r'.
Proof.
  intros Hto.
  unfold send_heartbeat. destruct (trk_get to (r_trk r)) as [pr|] eqn:Hg; [|discriminate].
  intros H. eapply send_smsg; [| | | | | | |exact H]; try reflexivity; try discriminate; [|split; discriminate].
  unfold stamped; cbn. apply SmBeat; auto.
Qed.
Lemma sends_id r r' : sends r r' -> r_id r' = r_id r.
Proof. intros [[] _ _ _ _]. unfold r_id. congruence. Qed.
Lemma bcast_heartbeat_ctx_sends ctx r r' : bcast_heartbeat_ctx ctx r = Ok r' -> sends r r'.
Proof.
  unfold bcast_heartbeat_ctx. assert (Hl : forall x, In x (peer_ids r) -> x <> r_id r).
  { intros x Hx. unfold peer_ids in Hx. apply filter_In in Hx. destruct Hx as [_ Hx]. apply negb_true_iff, N.eqb_neq in Hx. auto. }
  revert Hl. generalize (peer_ids r). intros l. revert r. induction l as [|x l IH]; intros r Hl H; cbn in H.
  - inv H. apply sends_refl.
  - apply bind_ok in H. destruct H as (r1 & H1 & H). apply send_heartbeat_sends in H1; [|apply Hl; left; auto].
    eapply sends_trans; [exact H1|]. apply IH; [|exact H]. intros y Hy. rewrite (sends_id _ _ H1). apply Hl. right; auto.
Qed.
Lemma send_timeout_now_sends to r r' p : r_transferee r = to -> trk_get to (r_trk r) = Some p ->
  p_match p = r_last r -> send_timeout_now to r = Ok r' -> sends r r'.
Proof.
  intros H1 H2 H3 H. eapply send_smsg; [| | | | | | |exact H]; try reflexivity; try discriminate; [|split; discriminate].
  unfold stamped; cbn. eapply SmTimeoutNow; eauto.
Qed.
Lemma send_all_sends f to : forall r r', send_all f to r = Ok r' -> sends r r'.
Proof.
  induction f as [|f IH]; intros r r' H; cbn in H; [discriminate|]. mon. destruct x as [r1 b].
  apply maybe_send_append_sends in Hm. destruct b; [eapply sends_trans; eauto|inv H; auto].
Qed.

Lemma sends_ro ro r : ro_option ro = ro_option (r_ro r) -> sends r (set_r_ro ro r).
Proof.
  intros H. constructor; [constructor; auto|split; [auto|]|intros _; apply nexts_eq; auto|exists []; cbn; rewrite app_nil_r; auto|apply flows_same; auto].
  intros id; cbn; destruct (mget id _); auto using pr_same_refl.
Qed.
Lemma sends_reads l r : sends r (set_r_read_states l r).
Proof.
  constructor; [constructor; auto|split; [auto|]|intros _; apply nexts_eq; auto|exists []; cbn; rewrite app_nil_r; auto|apply flows_same; auto].
  intros id; cbn; destruct (mget id _); auto using pr_same_refl.
Qed.
Lemma sends_pend l r : sends r (set_r_pend_reads l r).
Proof.
  constructor; [constructor; auto|split; [auto|]|intros _; apply nexts_eq; auto|exists []; cbn; rewrite app_nil_r; auto|apply flows_same; auto].
  intros id; cbn; destruct (mget id _); auto using pr_same_refl.
Qed.

Lemma response_to_read_index_sends req i r r' : response_to_read_index req i r = Ok r' -> sends r r'.
Proof.
  unfold response_to_read_index. destruct (_ || _)%bool; intros H.
  - mon. apply sends_reads.
  - eapply send_smsg; [| | | | | | |exact H]; try reflexivity; try discriminate; [|split; discriminate].
    unfold stamped; cbn. apply SmRead.
Qed.

Lemma ro_add_opt i m ro ro' : ro_add_request i m ro = Ok ro' -> ro_option ro' = ro_option ro.
Proof. unfold ro_add_request. intros H. mon. destruct (sget x (ro_pending ro)); inv H; auto. Qed.
Lemma ro_ack_opt id c ro : ro_option (fst (ro_recv_ack id c ro)) = ro_option ro.
Proof. unfold ro_recv_ack. destruct (sget c (ro_pending ro)); auto. Qed.
Lemma ro_advance_opt c ro ro' l : ro_advance c ro = Ok (ro', l) -> ro_option ro' = ro_option ro.
Proof. unfold ro_advance. intros H. mon. destruct x as [[rss rest]|]; mon; auto. Qed.

Lemma send_read_index_response_sends m r r' : send_read_index_response m r = Ok r' -> sends r r'.
Proof.
  unfold send_read_index_response. destruct (ro_option (r_ro r)) eqn:Ho; intros H.
  - mon. pose proof (ro_ack_opt (r_id r) x0 x) as Ha. destruct (ro_recv_ack (r_id r) x0 x) as [ro acks].
    cbn in Ha. apply ro_add_opt in Hm. apply bcast_heartbeat_ctx_sends in H.
    eapply sends_trans; [|exact H]. apply sends_ro. congruence.
  - eapply response_to_read_index_sends; eauto.
Qed.
Lemma release_pending_reads_sends r r' : release_pending_reads r = Ok r' -> sends r r'.
Proof.
  unfold release_pending_reads. intros H. mon. destruct x; [|inv H; apply sends_refl].
  eapply sends_trans; [apply sends_pend|].
  eapply (mfold_inv send_read_index_response sends); eauto using sends_refl, sends_trans, send_read_index_response_sends.
Qed.
End Frame.
