(** Who a node takes for the leader, and that replication messages are never sent to oneself. *)
From Verif Require Import Prelude Types M_Util M_Quorum M_Inflights M_Progress M_Tracker.
From Verif Require Import M_Storage M_Unstable M_Log M_ReadOnly M_ConfPb M_ConfChange M_Raft M_RawNode.
From Verif Require Import P_Inflights Spec_Log P_Lists P_Log P_Frame P_Prim Sys_Node P_Node P_Fields P_Vote Spec_Node P_New P_Time P_Handle P_NodeRun P_Emit P_Lead P_Transfer P_Read.

Section Self.
Context {E : Env}.

Definition lmsg (m : msg) : Prop := match m_type m with MsgApp | MsgSnap | MsgHeartbeat => True | _ => False end.
Definition kmsg (m : msg) : Prop := match m_type m with MsgApp | MsgSnap | MsgHeartbeat | MsgAppResp | MsgHeartbeatResp => True | _ => False end.
(** The messages one call may add. *)
Definition om (im : msg) (r : raft) (m : msg) : Prop :=
  m_type m <> MsgTransferLeader /\ (kmsg m -> m_from m = r_id r /\ (m_to m <> r_id r \/ kmsg im /\ m_to m = m_from im)).
Record sf (im : msg) (r r' : raft) : Prop := {
  sf_cfg : r_cfg r' = r_cfg r;
  sf_lead : r_lead r' = 0 \/ (r_lead r' = r_lead r /\ r_term r' = r_term r /\ (r_state r = RLeader -> r_state r' = RLeader)) \/
            (r_state r' = RLeader /\ r_lead r' = r_id r) \/ (lmsg im /\ m_term im = r_term r' /\ r_lead r' = m_from im);
  sf_msgs : exists ms, r_msgs r' = r_msgs r ++ ms /\ Forall (om im r) ms
}.
Lemma sf_id im r r' : sf im r r' -> r_id r' = r_id r.
Proof. intros H. unfold r_id. rewrite (sf_cfg _ _ _ H). auto. Qed.
Lemma sf_eq im r r' : r_cfg r' = r_cfg r -> r_lead r' = r_lead r -> r_term r' = r_term r -> r_state r' = r_state r -> r_msgs r' = r_msgs r -> sf im r r'.
Proof. intros H1 H2 H3 H4 H5. constructor; auto. - right. left. repeat split; auto. congruence. - exists []. rewrite app_nil_r. auto. Qed.
Lemma sf_refl im r : sf im r r. Proof. apply sf_eq; auto. Qed.
Lemma om_id im r r' m : r_id r' = r_id r -> om im r' m -> om im r m.
Proof. unfold om. intros ->. auto. Qed.
Lemma sf_trans im a b c : sf im a b -> sf im b c -> sf im a c.
Proof.
  intros H K. pose proof (sf_id _ _ _ H) as Hid. constructor.
  - rewrite (sf_cfg _ _ _ K). apply H.
  - destruct (sf_lead _ _ _ K) as [A|[(A1 & A2 & A3)|[[A1 A2]|A]]]; auto.
    + rewrite A1, A2. destruct (sf_lead _ _ _ H) as [B|[(B1 & B2 & B3)|[[B1 B2]|B]]]; auto 7.
    + right. right. left. split; congruence.
  - destruct (sf_msgs _ _ _ H) as (x & X1 & X2), (sf_msgs _ _ _ K) as (y & Y1 & Y2). exists (x ++ y). rewrite Y1, X1, app_assoc. split; auto.
    apply Forall_app; split; auto. eapply Forall_impl; [|exact Y2]. intros m. apply om_id. auto.
Qed.
Ltac se := apply sf_eq; reflexivity.
(** A send. *)
Lemma outm_to r m : m_to (outm r m) = m_to m.
Proof. destruct m as [ty a b c d e f g h i j k]. unfold outm. cbn. destruct (b =? 0), ty; reflexivity. Qed.
Lemma outm_ty r m : m_type (outm r m) = m_type m.
Proof. destruct m as [ty a b c d e f g h i j k]. unfold outm. cbn. destruct (b =? 0), ty; reflexivity. Qed.
Lemma outm_from0 r m : m_from m = 0 -> m_from (outm r m) = r_id r.
Proof. destruct m as [ty a b c d e f g h i j k]. unfold outm. cbn. intros ->. cbn. destruct ty; reflexivity. Qed.
Lemma sf_send im m r r' : m_type m <> MsgTransferLeader -> (kmsg m -> m_from m = 0 /\ (m_to m <> r_id r \/ kmsg im /\ m_to m = m_from im)) ->
  send m r = Ok r' -> sf im r r'.
Proof.
  intros H1 H2 H. apply send_ok in H. destruct H as [-> _]. constructor; [reflexivity|right; left; cbn; auto|].
  exists [outm r m]. split; [reflexivity|]. constructor; auto. unfold om. unfold kmsg in *. rewrite outm_ty, outm_to. split; auto.
  intros X. destruct (H2 X). split; auto. apply outm_from0; auto.
Qed.
Lemma same_sf im r r' ms : same r r' -> r_msgs r' = r_msgs r ++ ms -> Forall (om im r) ms -> sf im r r'.
Proof.
  intros S H1 H2. constructor; [apply S| |eauto]. right. left. rewrite (sm_lead _ _ S), (sm_term _ _ S), (sm_state _ _ S). auto.
Qed.

(* ---- sending to one peer ---- *)
Definition tgt (im : msg) (r : raft) (to : N) : Prop := to <> r_id r \/ kmsg im /\ to = m_from im.
Lemma msa_sf im to b r r' x : tgt im r to -> maybe_send_append to b r = Ok (r', x) -> sf im r r'.
Proof.
  intros Ht H. pose proof (sd_same _ _ (maybe_send_append_sends _ _ _ _ _ H)) as Sm. revert H.
  assert (K : forall m r1, m_type m = MsgApp \/ m_type m = MsgSnap -> m_from m = 0 -> m_to m = to -> r_msgs r1 = r_msgs r -> r_cfg r1 = r_cfg r -> send m r1 = Ok r' -> sf im r r').
  { intros m r1 Hm Hf Hto E1 E2 H. apply send_ok in H. destruct H as [E3 _]. apply (same_sf im r r' [outm r1 m]); auto.
    - rewrite E3. cbn. rewrite E1. auto.
    - constructor; auto. unfold om. rewrite outm_ty, outm_to. split; [destruct Hm as [-> | ->]; discriminate|]. intros _.
      assert (Hi : r_id r1 = r_id r) by (unfold r_id; congruence). rewrite outm_from0, Hi, Hto; auto. }
  unfold maybe_send_append. destruct (trk_get to (r_trk r)) as [pr|]; [|discriminate]. destruct (pr_is_paused pr); [intros H; inv H; apply sf_refl|].
  intros H. apply bind_ok in H. destruct H as (t & _ & H). apply bind_ok in H. destruct H as (es & _ & H). cbv zeta in H.
  match type of H with (if ?c then _ else _) = _ => destruct c end; [inv H; apply sf_refl|].
  assert (K2 : send_snap_msg to pr r = Ok (r', x) -> sf im r r').
  { clear H. unfold send_snap_msg. destruct (negb (p_active pr)); [intros H; inv H; apply sf_refl|].
    destruct (log_snapshot (r_log r)) as [sn|[]]; try discriminate; [|intros H; inv H; apply sf_refl].
    destruct (_ =? 0); [discriminate|]. intros H. apply bind_ok in H. destruct H as (r1 & H & Hx). inv Hx.
    eapply K; [| | | | |exact H]; auto; reflexivity. }
  destruct t as [t|]; [|auto]. destruct es as [es|]; [|auto]. clear K2.
  apply bind_ok in H. destruct H as (r1 & H & Hx). inv Hx. unfold send_app_msg in H. cbv zeta in H.
  destruct (rev es) as [|la tl]; [eapply K; [| | | | |exact H]; auto; reflexivity|].
  destruct (p_state pr); [|apply bind_ok in H; destruct H as (inf & _ & H)|discriminate];
    (eapply K; [| | | | |exact H]; auto; reflexivity).
Qed.
Lemma send_append_sf im to r r' : tgt im r to -> send_append to r = Ok r' -> sf im r r'.
Proof. unfold send_append. intros Ht H. apply bind_ok in H. destruct H as ([r1 b] & H & Hx). inv Hx. eapply msa_sf; eauto. Qed.
Lemma tgt_id im r r' to : r_id r' = r_id r -> tgt im r to -> tgt im r' to.
Proof. unfold tgt. intros ->. auto. Qed.
Lemma bcast_append_sf im r r' : bcast_append r = Ok r' -> sf im r r'.
Proof.
  unfold bcast_append. intros H.
  assert (K : forall l s s', (forall a, In a l -> a <> r_id s) -> mfold send_append l s = Ok s' -> sf im s s').
  { clear. induction l as [|a l IH]; intros s s' Hl H; cbn in H; [inv H; apply sf_refl|]. apply bind_ok in H. destruct H as (s1 & H1 & H).
    apply (send_append_sf im) in H1; [|left; apply Hl; left; auto]. eapply sf_trans; [exact H1|]. apply IH; auto.
    intros b Hb. rewrite (sf_id _ _ _ H1). apply Hl. right; auto. }
  eapply K; [|exact H]. intros a Ha. apply filter_In in Ha. destruct Ha as [_ Ha]. destruct (N.eqb_spec a (r_id r)); [discriminate|auto].
Qed.
Lemma bcast_beat_sf im ctx r r' : bcast_heartbeat_ctx ctx r = Ok r' -> sf im r r'.
Proof.
  unfold bcast_heartbeat_ctx. intros H.
  assert (K : forall l s s', (forall a, In a l -> a <> r_id s) -> mfold (send_heartbeat ctx) l s = Ok s' -> sf im s s').
  { clear. induction l as [|a l IH]; intros s s' Hl H; cbn in H; [inv H; apply sf_refl|]. apply bind_ok in H. destruct H as (s1 & H1 & H).
    assert (A : sf im s s1).
    { unfold send_heartbeat in H1. destruct (trk_get a (r_trk s)); [|discriminate]. cbv zeta in H1. eapply sf_send; [| |exact H1]; [discriminate|].
      intros _. split; [reflexivity|]. left. apply Hl. left; reflexivity. }
    eapply sf_trans; [exact A|]. apply IH; auto. intros b Hb. rewrite (sf_id _ _ _ A). apply Hl. right; auto. }
  eapply K; [|exact H]. intros a Ha. apply filter_In in Ha. destruct Ha as [_ Ha]. destruct (N.eqb_spec a (r_id r)); [discriminate|auto].
Qed.
Lemma send_all_sf im fuel to r r' : tgt im r to -> send_all fuel to r = Ok r' -> sf im r r'.
Proof.
  revert r. induction fuel as [|k IH]; intros r Ht H; cbn in H; [discriminate|]. apply bind_ok in H. destruct H as ([r1 b] & H1 & H).
  apply (msa_sf im) in H1; auto. destruct b; [|inv H; auto]. eapply sf_trans; [exact H1|]. apply IH; auto. eapply tgt_id; [|exact Ht]. eapply sf_id; eauto.
Qed.

(* ---- role changes ---- *)
Lemma nomsgs im r r' : r_cfg r' = r_cfg r -> r_msgs r' = r_msgs r ->
  (r_lead r' = 0 \/ (r_state r' = RLeader /\ r_lead r' = r_id r) \/ (lmsg im /\ m_term im = r_term r' /\ r_lead r' = m_from im)) -> sf im r r'.
Proof. intros H1 H2 H3. constructor; auto; [tauto|]. exists []. rewrite app_nil_r. auto. Qed.
Lemma follow_sf im t l r : (l = 0 \/ lmsg im /\ m_term im = t /\ l = m_from im) -> sf im r (become_follower t l r).
Proof.
  intros Hl. hide (become_follower t l r) r1 E1. destruct (become_follower_fields _ _ _ _ E1) as (A1&A2&_&_&A5&_&A7&A8&_). clear E1.
  apply nomsgs; auto. rewrite A2, A8. tauto.
Qed.
Lemma become_leader_sf im r r' : become_leader r = Ok r' -> sf im r r'.
Proof. intros H. apply become_leader_all in H. destruct H as (_&A1&_&_&A4&_&A6&A7&_). apply nomsgs; auto. Qed.
Lemma become_candidate_sf im r r' : become_candidate r = Ok r' -> sf im r r'.
Proof. intros H. apply become_candidate_all in H. destruct H as (_&A1&_&_&_&_&_&A6&A7&_). apply nomsgs; auto. Qed.
Lemma become_pre_sf im r r' : become_pre_candidate r = Ok r' -> sf im r r'.
Proof. intros H. apply become_pre_all in H. destruct H as (_&A1&_&_&_&_&_&A6&A7&_). apply nomsgs; auto. Qed.
Lemma vote_reqs_sf im t term tr l r r' : (t = MsgVote \/ t = MsgPreVote) -> mfold (send_vote_req t term tr) l r = Ok r' -> sf im r r'.
Proof.
  intros Ht H. apply (mfold_inv (send_vote_req t term tr) (sf im)) in H; auto using sf_refl; [intros; eapply sf_trans; eauto|].
  intros a s s' _ Hs. unfold send_vote_req in Hs. apply bind_ok in Hs. destruct Hs as (lt & _ & Hs).
  eapply sf_send in Hs; [apply Hs| |]; destruct tr, Ht as [-> | ->]; cbn; try discriminate; intros [].
Qed.
Lemma campaign_real_sf im tr r r' : campaign_real tr r = Ok r' -> sf im r r'.
Proof.
  unfold campaign_real. intros H. apply bind_ok in H. destruct H as (r1 & H1 & H).
  apply (become_candidate_sf im) in H1.
  destruct (poll (r_id r1) true r1) as [r2 v] eqn:Hp. unfold poll in Hp. inv Hp.
  assert (A : sf im r (set_r_trk (trk_record_vote (r_id r1) true (r_trk r1)) r1)) by (eapply sf_trans; [exact H1|se]).
  eapply sf_trans; [exact A|]. match type of H with context [match ?v with VotePending => _ | VoteLost => _ | VoteWon => _ end] => destruct v end.
  - eapply vote_reqs_sf; [|exact H]; auto.
  - eapply vote_reqs_sf; [|exact H]; auto.
  - apply (become_leader_sf im) in H. apply H.
Qed.
Lemma campaign_sf im t r r' : campaign t r = Ok r' -> sf im r r'.
Proof.
  destruct t; cbn [campaign]; try apply campaign_real_sf. intros H. apply bind_ok in H. destruct H as (r1 & H1 & H).
  apply (become_pre_sf im) in H1.
  destruct (poll (r_id r1) true r1) as [r2 v] eqn:Hp. unfold poll in Hp. inv Hp.
  assert (A : sf im r (set_r_trk (trk_record_vote (r_id r1) true (r_trk r1)) r1)) by (eapply sf_trans; [exact H1|se]).
  eapply sf_trans; [exact A|]. match type of H with context [match ?v with VotePending => _ | VoteLost => _ | VoteWon => _ end] => destruct v end.
  - eapply vote_reqs_sf; [|exact H]; auto.
  - eapply vote_reqs_sf; [|exact H]; auto.
  - eapply campaign_real_sf; exact H.
Qed.
Lemma hup_sf im t r r' : hup t r = Ok r' -> sf im r r'.
Proof.
  unfold hup. destruct (is_leader r); [intros H; inv H; apply sf_refl|].
  destruct (negb (promotable r)); [intros H; inv H; apply sf_refl|].
  intros H; apply bind_ok in H; destruct H as ([ents|] & _ & H); [|discriminate].
  destruct (_ && _); [inv H; apply sf_refl|]. eapply campaign_sf; eauto.
Qed.

(* ---- handlers ---- *)
Ltac reply := intros _; split; [reflexivity|]; right; split; [assumption|reflexivity].
Lemma handle_app_sf m r r' : kmsg m -> handle_append_entries m r = Ok r' -> sf m r r'.
Proof.
  intros Hk. unfold handle_append_entries. cbv zeta. destruct (_ <? _); [intros H; eapply sf_send; [| |exact H]; [discriminate|reply]|].
  intros H. apply bind_ok in H. destruct H as ([l o] & _ & H). destruct o.
  - apply (sf_send m) in H; [|discriminate|reply]. eapply sf_trans; [|exact H]. se.
  - apply bind_ok in H. destruct H as (h & _ & H). apply bind_ok in H. destruct H as ([ht|] & _ & H); [|discriminate].
    apply (sf_send m) in H; [|discriminate|reply]. eapply sf_trans; [|exact H]. se.
Qed.
Lemma handle_beat_sf m r r' : kmsg m -> handle_heartbeat m r = Ok r' -> sf m r r'.
Proof.
  intros Hk. unfold handle_heartbeat. intros H. apply bind_ok in H. destruct H as (l & _ & H).
  apply (sf_send m) in H; [|discriminate|reply]. eapply sf_trans; [|exact H]. se.
Qed.
Lemma handle_snap_sf m r r' : kmsg m -> r_state r = RFollower -> handle_snapshot m r = Ok r' -> sf m r r'.
Proof.
  intros Hk Hf. unfold handle_snapshot. intros H. apply bind_ok in H. destruct H as ([r1 b] & H1 & H).
  apply (sf_send m) in H; [|discriminate|reply].
  eapply sf_trans; [|exact H]. clear H. unfold raft_restore in H1. destruct (_ <=? _); [inv H1; apply sf_refl|].
  rewrite Hf in H1. cbn [role_eqb negb] in H1. cbv zeta in H1. destruct (negb _) in H1; [inv H1; apply sf_refl|].
  apply bind_ok in H1. destruct H1 as (mt & _ & H1). destruct mt; [apply bind_ok in H1; destruct H1 as (l & _ & H1); inv H1; se|].
  match type of H1 with context [cc_restore ?x ?y] => destruct (cc_restore x y) as [cp|] end; [|discriminate].
  apply bind_ok in H1. destruct H1 as ([r2 cs2] & Hs & H1).
  assert (A : sf m r r2).
  { unfold switch_to_config in Hs. cbv zeta in Hs. unfold is_leader in Hs. cbn [r_state set_r_learner set_r_trk set_r_log] in Hs. rewrite Hf in Hs. cbn [role_eqb negb orb] in Hs.
    rewrite andb_false_r in Hs. apply Ok_inj, pair_equal_spec in Hs. destruct Hs as [<- _]. se. }
  destruct (negb _) in H1; [discriminate|]. destruct (trk_get _ _) in H1; [|discriminate]. destruct (pr_maybe_update _ _) in H1. inv H1.
  eapply sf_trans; [exact A|se].
Qed.
Lemma response_sf im m i r r' : response_to_read_index m i r = Ok r' -> sf im r r'.
Proof.
  unfold response_to_read_index. destruct (_ || _); intros H.
  - apply bind_ok in H. destruct H as (d & _ & H). inv H. se.
  - eapply sf_send; [| |exact H]; [discriminate|intros []].
Qed.
Lemma srir_sf im m r r' : send_read_index_response m r = Ok r' -> sf im r r'.
Proof.
  unfold send_read_index_response. destruct (ro_option (r_ro r)); [|apply response_sf].
  intros H. apply bind_ok in H. destruct H as (ro & _ & H). apply bind_ok in H. destruct H as (d & _ & H).
  destruct (ro_recv_ack (r_id r) d ro) as [ro2 a]. apply (bcast_beat_sf im) in H. eapply sf_trans; [|exact H]. se.
Qed.
Lemma release_sf im r r' : release_pending_reads r = Ok r' -> sf im r r'.
Proof.
  unfold release_pending_reads. intros H. apply bind_ok in H. destruct H as (ok & _ & H). destruct ok; [|inv H; apply sf_refl].
  apply (mfold_inv send_read_index_response (sf im)) in H; auto using sf_refl; [|intros; eapply sf_trans; eauto|intros a s s' _; apply srir_sf].
  eapply sf_trans; [|exact H]. se.
Qed.
Lemma check_quorum_sf im r : sf im r (leader_check_quorum r).
Proof.
  unfold leader_check_quorum. cbv zeta.
  set (r4 := match trk_get (r_id r) (r_trk r) with Some _ => _ | None => _ end).
  assert (F : sf im r r4) by (unfold r4; destruct (trk_get _ _); [se|apply sf_refl]). clearbody r4. eapply sf_trans; [exact F|].
  destruct (trk_quorum_active (r_trk r4)); [se|].
  eapply sf_trans; [apply (follow_sf im (r_term r4) 0 r4); auto|]. hide (become_follower (r_term r4) 0 r4) r5 E2. clear E2. se.
Qed.

Lemma leader_sf m r r' e : step_leader m r = Ok (r', e) -> sf m r r'.
Proof.
  intros H. unfold step_leader in H.
  destruct (m_type m) eqn:Ht;
    try (destruct (trk_get (m_from m) (r_trk r)) as [pr|] eqn:Hg; [|inv H; apply sf_refl]);
    try (inv H; apply sf_refl; fail);
    try (unfold okr in H; apply bind_ok in H; destruct H as (r1 & H & Hx); apply Ok_inj, pair_equal_spec in Hx; destruct Hx as [-> _]).
  - eapply bcast_beat_sf; exact H.
  - unfold leader_prop in H. destruct (is_nil (m_entries m)); [discriminate|].
    destruct (trk_get (r_id r) (r_trk r)) as [ps|]; [|inv H; apply sf_refl].
    destruct (negb (r_transferee r =? 0)); [inv H; apply sf_refl|].
    apply bind_ok in H. destruct H as ([es r1] & Hf & H). apply filter_prop_fields in Hf. destruct Hf as [k ->].
    apply bind_ok in H. destruct H as ([r2|] & Ha & H).
    + apply append_entry_fields in Ha. destruct Ha as (l & p0 & u & ->). unfold okr in H. apply bind_ok in H. destruct H as (r3 & H & Hx). inv Hx.
      apply (bcast_append_sf m) in H. eapply sf_trans; [|apply H]. se.
    + inv H. se.
  - assert (Hk : kmsg m) by (unfold kmsg; rewrite Ht; exact I).
    assert (Hg' : forall x, tgt m x (m_from m)) by (intros x; right; auto).
    unfold leader_app_resp in H. destruct (m_reject m).
    + unfold leader_app_resp_reject in H. apply bind_ok in H. destruct H as (probe & _ & H).
      destruct (pr_maybe_decr_to _ _ _) as [pr1 ok]. destruct ok.
      * apply (send_append_sf m) in H; auto. eapply sf_trans; [|apply H]. se.
      * inv H. se.
    + unfold leader_app_resp_accept in H. destruct (pr_maybe_update _ _) as [pr1 upd] eqn:Hu. destruct upd.
      2:{ inv H. se. }
      apply bind_ok in H. destruct H as (pr2 & Hp2 & H). apply bind_ok in H. destruct H as ([r2 com] & Hc & H).
      apply raft_maybe_commit_state in Hc. destruct Hc as [l ->].
      apply bind_ok in H. destruct H as (r3 & H3 & H). apply bind_ok in H. destruct H as (r4 & H4 & H).
      set (r2 := set_r_log l (put_progress (m_from m) pr2 r)) in *.
      assert (S3 : sf m r2 r3).
      { destruct com; [apply bind_ok in H3; destruct H3 as (r5 & X1 & X2); apply (release_sf m) in X1; apply (bcast_append_sf m) in X2; eapply sf_trans; eauto|].
        destruct (pr_is_paused _); [apply (send_append_sf m) in H3; auto|]. inv H3. apply sf_refl. }
      apply (send_all_sf m) in H4; auto. assert (S4 : sf m r r4) by (eapply sf_trans; [|eapply sf_trans; [exact S3|exact H4]]; unfold r2; se).
      destruct (_ && _) in H; [|inv H; auto].
      eapply sf_trans; [exact S4|]. unfold send_timeout_now in H. eapply sf_send; [| |exact H]; [discriminate|intros []].
  - assert (Hk : kmsg m) by (unfold kmsg; rewrite Ht; exact I).
    assert (Hg' : forall x, tgt m x (m_from m)) by (intros x; right; auto).
    unfold leader_heartbeat_resp in H. apply bind_ok in H. destruct H as (pr1 & _ & H). apply bind_ok in H. destruct H as (r2 & H2 & H).
    set (r0 := put_progress (m_from m) pr1 r) in *. assert (S2 : sf m r0 r2) by (destruct (_ <? _) in H2; [apply (send_append_sf m) in H2; auto|inv H2; apply sf_refl]).
    assert (A0 : sf m r r2) by (eapply sf_trans; [|apply S2]; unfold r0; se).
    destruct (negb (roption_eqb (ro_option (r_ro r2)) RoSafe) || String.eqb (m_ctx m) EmptyString) eqn:Hb; [inv H; auto|].
    destruct (ro_recv_ack (m_from m) (m_ctx m) (r_ro r2)) as [ro acks] eqn:Hr. cbv zeta in H.
    destruct (tc_vote_result _ acks) eqn:Hv in H.
    1,2: inv H; eapply sf_trans; [exact A0|se].
    apply bind_ok in H. destruct H as ([ro' rss] & Hadv & H). eapply sf_trans; [exact A0|].
    apply (mfold_inv _ (sf m)) in H; auto using sf_refl; [|intros; eapply sf_trans; eauto|intros a s s' _; apply response_sf].
    eapply sf_trans; [|exact H]. se.
  - inv H. unfold leader_unreachable. destruct (pstate_eqb _ _); [se|apply sf_refl].
  - inv H. unfold leader_snap_status. destruct (p_state pr); try apply sf_refl; se.
  - inv H. apply check_quorum_sf.
  - unfold leader_transfer in H. destruct (p_learner pr); [inv H; apply sf_refl|].
    destruct (_ && _) in H; [inv H; apply sf_refl|].
    set (r0 := if negb (r_transferee r =? 0) then set_r_transferee 0 r else r) in *.
    assert (F : sf m r r0) by (unfold r0; destruct (negb _); [se|apply sf_refl]). clearbody r0.
    destruct (N.eqb_spec (m_from m) (r_id r0)) in H; [inv H; auto|]. eapply sf_trans; [exact F|].
    eapply sf_trans; [|destruct (p_match pr =? _) in H; [unfold send_timeout_now in H; apply (sf_send m) in H; [exact H|discriminate|intros []]|apply (send_append_sf m) in H; [apply H|left; auto]]]. se.
  - unfold leader_read_index in H. destruct (trk_is_singleton (r_trk r)) eqn:Hsg.
    + eapply response_sf; exact H.
    + apply bind_ok in H. destruct H as (ok & Hc & H). destruct ok; [eapply srir_sf; exact H|inv H; se].
Qed.

Lemma candidate_sf m r r' e : (lmsg m -> m_term m = r_term r) -> (r_state r = RCandidate \/ r_state r = RPreCandidate) ->
  step_candidate m r = Ok (r', e) -> sf m r r'.
Proof.
  intros Hd Hs H. unfold step_candidate in H.
  assert (Kv : forall t', mtype_eqb t' MsgProp = false -> (if mtype_eqb t' (match r_state r with RPreCandidate => MsgPreVoteResp | _ => MsgVoteResp end) then
      let '(r1, res_) := poll (m_from m) (negb (m_reject m)) r in
      match res_ with
      | VoteWon => if role_eqb (r_state r1) RPreCandidate then okr (campaign CElection r1) else okr (r2 <- become_leader r1 ;; bcast_append r2)
      | VoteLost => Ok (become_follower (r_term r1) 0 r1, None)
      | VotePending => Ok (r1, None)
      end else Ok (r, None)) = Ok (r', e) -> sf m r r').
  { intros t' _ X. destruct (mtype_eqb t' _) in X; [|inv X; apply sf_refl].
    destruct (poll (m_from m) (negb (m_reject m)) r) as [r1 v] eqn:Hp. unfold poll in Hp.
    assert (A1 : sf m r r1) by (inv Hp; se).
    eapply sf_trans; [exact A1|]. destruct v.
    - inv X. apply sf_refl.
    - pose proof (follow_sf m (r_term r1) 0 r1 (or_introl eq_refl)) as A2. hide (become_follower (r_term r1) 0 r1) r2 E2. clear E2. apply Ok_inj, pair_equal_spec in X. destruct X as [<- _]. exact A2.
    - destruct (role_eqb (r_state r1) RPreCandidate); unfold okr in X; apply bind_ok in X; destruct X as (r2 & X & Hx); apply Ok_inj, pair_equal_spec in Hx; destruct Hx as [-> _].
      + eapply campaign_sf; exact X.
      + apply bind_ok in X. destruct X as (r3 & X1 & X2). apply (become_leader_sf m) in X1. apply (bcast_append_sf m) in X2. eapply sf_trans; [exact X1|apply X2]. }
  assert (Kf : lmsg m -> sf m r (become_follower (m_term m) (m_from m) r) /\ kmsg m).
  { intros X. split; [apply follow_sf; right; auto|]. unfold lmsg, kmsg in *. destruct (m_type m); auto; contradiction. }
  unfold lmsg in Kf, Hd.
  destruct (m_type m) eqn:Ht; try (eapply Kv; [|exact H]; reflexivity).
  - inv H. apply sf_refl.
  - destruct (Kf I) as [A2 Hk]. hide (become_follower (m_term m) (m_from m) r) r1 E2. clear E2 Kf.
    unfold okr in H. apply bind_ok in H. destruct H as (r2 & H & Hx). apply Ok_inj, pair_equal_spec in Hx. destruct Hx as [<- _].
    apply handle_app_sf in H; auto. eapply sf_trans; eauto.
  - destruct (Kf I) as [A2 Hk]. hide (become_follower (m_term m) (m_from m) r) r1 E2. destruct (become_follower_fields _ _ _ _ E2) as (_&_&_&_&B5&_). clear E2 Kf.
    unfold okr in H. apply bind_ok in H. destruct H as (r2 & H & Hx). apply Ok_inj, pair_equal_spec in Hx. destruct Hx as [<- _].
    apply handle_snap_sf in H; auto. eapply sf_trans; eauto.
  - destruct (Kf I) as [A2 Hk]. hide (become_follower (m_term m) (m_from m) r) r1 E2. clear E2 Kf.
    unfold okr in H. apply bind_ok in H. destruct H as (r2 & H & Hx). apply Ok_inj, pair_equal_spec in Hx. destruct Hx as [<- _].
    apply handle_beat_sf in H; auto. eapply sf_trans; eauto.
Qed.

(** A transfer request a follower passes on to the leader. *)
Definition fwd (im : msg) (r r' : raft) : Prop :=
  r_state r = RFollower /\ r_lead r <> 0 /\ m_type im = MsgTransferLeader /\ m_term im = 0 /\ r' = emit (outm r (set_m_to (r_lead r) im)) r.
Lemma follower_sf m r r' e : (lmsg m -> m_term m = r_term r) -> r_state r = RFollower -> step_follower m r = Ok (r', e) -> sf m r r' \/ fwd m r r'.
Proof.
  intros Hd Hs H. unfold step_follower in H. cbv zeta in H.
  set (r0 := set_r_lead (m_from m) (set_r_el_elapsed 0 r)) in *.
  assert (A0 : lmsg m -> sf m r r0 /\ kmsg m) by (intros X; split; [apply nomsgs; auto; right; right; cbn; auto|unfold lmsg, kmsg in *; destruct (m_type m); auto; contradiction]).
  assert (A1 : r_state r0 = RFollower) by exact Hs. clearbody r0. unfold lmsg in A0.
  destruct (m_type m) eqn:Ht; try (inv H; left; apply sf_refl; fail);
    repeat match type of H with (if ?b then _ else _) = _ => destruct b eqn:?; [inv H; left; apply sf_refl|] end;
    try (unfold okr in H; apply bind_ok in H; destruct H as (r1 & H & Hx); apply Ok_inj, pair_equal_spec in Hx; destruct Hx as [<- _]).
  - left. apply (sf_send m) in H; auto; destruct m; unfold kmsg; cbn in *; rewrite Ht; [discriminate|intros []].
  - destruct (A0 I). apply handle_app_sf in H; auto. left. eapply sf_trans; eauto.
  - destruct (A0 I). apply handle_snap_sf in H; auto. left. eapply sf_trans; eauto.
  - destruct (A0 I). apply handle_beat_sf in H; auto. left. eapply sf_trans; eauto.
  - right. apply send_ok in H. destruct H as [-> H]. split; auto. split; [apply N.eqb_neq; auto|]. split; auto. split; auto.
    destruct m as [ty a b c d e0 f g h i j k]; cbn in *. subst ty. cbn in H. auto.
  - left. eapply hup_sf; eauto.
  - left. apply (sf_send m) in H; auto; destruct m; unfold kmsg; cbn in *; rewrite Ht; [discriminate|intros []].
  - left. destruct (m_entries m) as [|x [|y l]] eqn:He; inv H; try apply sf_refl. se.
Qed.
Lemma step_vote_sf m r r' : step_vote m r = Ok r' -> sf m r r'.
Proof.
  intros H. unfold step_vote in H. cbv zeta in H. apply bind_ok in H. destruct H as (up & Hup & H). apply bind_ok in H. destruct H as (rt & Hrt & H).
  assert (P : forall x, m_type x = rt -> m_type x <> MsgTransferLeader /\ ~ kmsg x) by (unfold kmsg; intros x ->; destruct (m_type m); inv Hrt; split; auto; discriminate).
  destruct up.
  - apply bind_ok in H. destruct H as (r1 & H1 & H). apply (sf_send m) in H1; [|apply P; reflexivity|intros X; exfalso; revert X; apply P; reflexivity].
    destruct (mtype_eqb (m_type m) MsgVote) in H; inv H; auto. eapply sf_trans; [exact H1|se].
  - apply (sf_send m) in H; auto; [apply P; reflexivity|intros X; exfalso; revert X; apply P; reflexivity].
Qed.
Lemma dispatch_sf m r r' e : (lmsg m -> m_term m = r_term r) -> step_dispatch m r = Ok (r', e) -> sf m r r' \/ fwd m r r'.
Proof.
  intros Hd H. unfold step_dispatch in H.
  assert (K : match r_state r with RLeader => step_leader m r | RCandidate | RPreCandidate => step_candidate m r | RFollower => step_follower m r end = Ok (r', e) ->
     sf m r r' \/ fwd m r r').
  { clear H. intros H. destruct (r_state r) eqn:Hs.
    - eapply follower_sf; eauto.
    - left. eapply candidate_sf; eauto.
    - left. eapply leader_sf; eauto.
    - left. eapply candidate_sf; eauto. }
  destruct (m_type m) eqn:Ht; try (apply K; exact H); clear K;
    unfold okr in H; apply bind_ok in H; destruct H as (r1 & H & Hx); apply Ok_inj, pair_equal_spec in Hx; destruct Hx as [<- _]; left.
  - eapply hup_sf; eauto.
  - eapply step_vote_sf; eauto.
  - eapply step_vote_sf; eauto.
Qed.
Lemma step_sf m r r' e : wf_in m -> step m r = Ok (r', e) -> sf m r r' \/ fwd m r r'.
Proof.
  intros Hw H. unfold step in H. destruct (N.eqb_spec (m_term m) 0) as [H0|H0].
  { apply dispatch_sf with (e := e); auto. intros Hl. specialize (Hw H0). unfold lmsg in Hl. destruct (m_type m); try contradiction; discriminate. }
  destruct (N.ltb_spec (r_term r) (m_term m)) as [H1|H1].
  - destruct (_ && _ && _) in H; [inv H; left; apply sf_refl|].
    assert (F : forall l, (l = 0 \/ lmsg m /\ l = m_from m) -> step_dispatch m (become_follower (m_term m) l r) = Ok (r', e) -> sf m r r' \/ fwd m r r').
    { clear H. intros l Hl H. assert (A1 : sf m r (become_follower (m_term m) l r)) by (apply follow_sf; tauto).
      pose proof (become_follower_term (m_term m) l r) as A2.
      hide (become_follower (m_term m) l r) r1 E1. destruct (become_follower_fields _ _ _ _ E1) as (_&_&_&_&_&_&_&A8&_). clear E1. apply dispatch_sf in H; auto.
      left. destruct H as [H|(_ & _ & _ & X & _)]; [eapply sf_trans; eauto|congruence]. }
    unfold lmsg in F.
    destruct (m_type m) eqn:Hty; try (eapply F; [|exact H]; auto; fail); try (destruct (m_reject m) eqn:Hrj in H; [eapply F; [|exact H]; auto|]);
      apply dispatch_sf with (e := e); auto; unfold lmsg; rewrite Hty; intros [].
  - destruct (N.ltb_spec (m_term m) (r_term r)) as [H2|H2]; [|apply dispatch_sf with (e := e); auto; intros _; lia].
    left. destruct ((k_check_quorum (r_cfg r) || k_pre_vote (r_cfg r)) && (mtype_eqb (m_type m) MsgHeartbeat || mtype_eqb (m_type m) MsgApp)) eqn:Hb in H;
      [|destruct (mtype_eqb _ _) in H; [|inv H; apply sf_refl]];
      unfold okr in H; apply bind_ok in H; destruct H as (r1 & H & Hx); apply Ok_inj, pair_equal_spec in Hx; destruct Hx as [<- _].
    + apply (sf_send m) in H; auto; [discriminate|]. intros _. split; [reflexivity|]. right. split; [|reflexivity].
      apply andb_true_iff in Hb. destruct Hb as [_ Hb]. unfold kmsg. destruct (m_type m); cbn in Hb; try discriminate; exact I.
    + apply (sf_send m) in H; [exact H|discriminate|intros []].
Qed.
Lemma tick_sf im r r' : tick r = Ok r' -> ~ kmsg im -> sf im r r'.
Proof.
  intros H Hk.
  assert (SW : forall m a b e, m_term m = 0 -> m_type m <> MsgTransferLeader -> local_type (m_type m) = true -> step m a = Ok (b, e) -> sf m a b).
  { intros m a b e W1 W2 W3 Hs. apply step_sf in Hs; [|intros _; exact W3]. destruct Hs as [Hs|(_ & _ & X & _)]; [auto|congruence]. }
  assert (CH : forall m a b, m_type m = MsgHup \/ m_type m = MsgBeat \/ m_type m = MsgCheckQuorum -> sf m a b -> sf im a b).
  { intros m a b Hm [A B (ms & C1 & C2)]. constructor; auto.
    - destruct B as [B|[B|[B|(B & _)]]]; auto. unfold lmsg in B. destruct Hm as [Hm|[Hm|Hm]]; rewrite Hm in B; contradiction.
    - exists ms. split; auto. eapply Forall_impl; [|exact C2]. intros x [X1 X2]. split; auto. intros Y. destruct (X2 Y) as [Z1 Z2]. split; auto.
      destruct Z2 as [Z2|[Z2 _]]; auto. unfold kmsg in Z2. destruct Hm as [Hm|[Hm|Hm]]; rewrite Hm in Z2; contradiction. }
  assert (TE : tick_election r = Ok r' -> sf im r r').
  { clear H. intros K. unfold tick_election in K. cbv zeta in K.
    assert (A : sf im r (set_r_el_elapsed (r_el_elapsed r + 1) r)) by se. revert K A. generalize (set_r_el_elapsed (r_el_elapsed r + 1) r) as r0. intros r0 K A.
    destruct (promotable r0 && past_election_timeout r0) in K; [|inv K; auto].
    apply bind_ok in K. destruct K as ([r3 e3] & K & Hx). apply Ok_inj in Hx. subst r3.
    eapply sf_trans; [exact A|]. eapply sf_trans; [|eapply CH; [|eapply SW; [| | |exact K]]]; try reflexivity; try discriminate; auto. se. }
  unfold tick in H. destruct (r_state r) eqn:Hs; auto. clear TE. unfold tick_heartbeat in H. cbv zeta in H.
  assert (K5 : sf im r (set_r_el_elapsed (r_el_elapsed r + 1) (set_r_hb_elapsed (r_hb_elapsed r + 1) r))) by se.
  revert H K5. generalize (set_r_el_elapsed (r_el_elapsed r + 1) (set_r_hb_elapsed (r_hb_elapsed r + 1) r)) as r0. intros r0 H K5.
  apply bind_ok in H. destruct H as (r1 & H1 & H).
  assert (A1 : sf im r r1).
  { destruct (k_el_timeout (r_cfg r0) <=? r_el_elapsed r0); [|apply Ok_inj in H1; subst r1; auto].
    apply bind_ok in H1. destruct H1 as (r2 & H2 & H1).
    assert (A2 : sf im r r2).
    { eapply sf_trans; [exact K5|]. match type of H2 with (if ?b then _ else _) = _ => destruct b end; [|apply Ok_inj in H2; subst r2; se].
      apply bind_ok in H2. destruct H2 as ([r3 e3] & H2 & Hx). apply Ok_inj in Hx. subst r3.
      eapply sf_trans; [|eapply CH; [|eapply SW; [| | |exact H2]]]; try reflexivity; try discriminate; auto. se. }
    destruct (is_leader r2 && negb (r_transferee r2 =? 0)); apply Ok_inj in H1; subst r1; auto. eapply sf_trans; [exact A2|se]. }
  clear H1. destruct (negb (is_leader r1)) eqn:Hl; [apply Ok_inj in H; subst r'; auto|].
  destruct (k_hb_timeout (r_cfg r1) <=? r_hb_elapsed r1); [|apply Ok_inj in H; subst r'; auto].
  apply bind_ok in H. destruct H as ([r3 e3] & H & Hx). apply Ok_inj in Hx. subst r3.
  eapply sf_trans; [exact A1|]. eapply sf_trans; [|eapply CH; [|eapply SW; [| | |exact H]]]; try reflexivity; try discriminate; auto. se.
Qed.
End Self.
