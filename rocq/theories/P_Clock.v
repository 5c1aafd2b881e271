(** The election clock (raft.cc Raft::TickElection/TickHeartbeat, r_el_elapsed): only ticks move it on. *)
From Verif Require Import Prelude Types M_Util M_Quorum M_Inflights M_Progress M_Tracker.
From Verif Require Import M_Storage M_Unstable M_Log M_ReadOnly M_ConfPb M_ConfChange M_Raft M_RawNode.
From Verif Require Import P_Inflights Spec_Log P_Lists P_Log P_Frame P_Prim Sys_Node P_Node P_Fields P_Vote Spec_Node P_New P_Time P_Handle P_NodeRun P_Emit P_Lead P_Transfer.

Section Clk.
Context {E : Env}.

(** The clock does not advance; entering a term and winning an election reset it. *)
Definition slow (r r' : raft) : Prop := r_el_elapsed r' <= r_el_elapsed r /\
  (r_term r' = r_term r \/ r_el_elapsed r' = 0) /\ (r_state r' = RLeader -> r_state r = RLeader \/ r_el_elapsed r' = 0).
Lemma slow_eq r r' : r_el_elapsed r' = r_el_elapsed r -> r_term r' = r_term r -> r_state r' = r_state r -> slow r r'.
Proof. unfold slow. intros H H1 H2. rewrite H1, H2. split; [lia|auto]. Qed.
Lemma slow_nl r r' : r_el_elapsed r' <= r_el_elapsed r -> r_term r' = r_term r -> r_state r' <> RLeader -> slow r r'.
Proof. unfold slow. intros H H1 H2. split; [lia|]. split; auto. tauto. Qed.
Lemma slow_refl r : slow r r. Proof. apply slow_eq; auto. Qed.
Lemma slow_0 r r' : r_el_elapsed r' = 0 -> slow r r'. Proof. unfold slow. intros H. split; [lia|]. auto. Qed.
Lemma slow_trans a b c : slow a b -> slow b c -> slow a c.
Proof.
  intros (A1 & A2 & A3) (B1 & B2 & B3). split; [lia|]. split.
  - destruct B2 as [B2|B2]; auto. destruct A2 as [A2|A2]; [left; congruence|right; lia].
  - intros H. destruct (B3 H) as [H1|H1]; auto. destruct (A3 H1) as [H2|H2]; auto. right. lia.
Qed.
Lemma slow_sends r r' : sends r r' -> slow r r'.
Proof. intros S. destruct (sd_same _ _ S). apply slow_eq; auto. Qed.
Lemma slow_send m r r' : send m r = Ok r' -> slow r r'.
Proof. intros H. apply send_ok in H. destruct H as [-> _]. apply slow_eq; reflexivity. Qed.
Lemma slow_le r r' : slow r r' -> r_el_elapsed r' <= r_el_elapsed r. Proof. intros H. apply H. Qed.
Lemma slow_of0 r r' : slow r r' -> r_el_elapsed r = 0 -> r_el_elapsed r' = 0. Proof. intros [H _]. lia. Qed.
Lemma follow_el t l r : r_el_elapsed (become_follower t l r) = 0.
Proof. unfold become_follower. hide (reset t r) r0 E0. destruct (reset_more _ _ _ E0) as (_&_&_&_&_&_&A7&_). exact A7. Qed.
Lemma slow_follow t l r : slow r (become_follower t l r).
Proof. apply slow_0, follow_el. Qed.
Lemma cand_el r r' : become_candidate r = Ok r' -> r_el_elapsed r' = 0.
Proof.
  unfold become_candidate. destruct (is_leader r); [discriminate|]. intros H. apply Ok_inj in H. hide (reset (r_term r + 1) r) r0 E0.
  destruct (reset_more _ _ _ E0) as (_&_&_&_&_&_&A7&_). subst r'. exact A7.
Qed.
Lemma lead_el r r' : become_leader r = Ok r' -> r_el_elapsed r' = 0.
Proof.
  intros H. apply become_leader_inv in H. destruct H as (pr & r1 & u & _ & _ & Ha & ->).
  hide (reset (r_term r) r) r0 E0. destruct (reset_more _ _ _ E0) as (_&_&_&_&_&_&A7&_). clear E0.
  apply append_entry_fields in Ha. destruct Ha as (l & p & u' & ->). exact A7.
Qed.
Lemma vote_reqs_el t term tr l r r' : mfold (send_vote_req t term tr) l r = Ok r' -> slow r r'.
Proof.
  intros H. apply (mfold_inv (send_vote_req t term tr) slow) in H; auto using slow_refl; [intros; eapply slow_trans; eauto|].
  intros a s s' _ Hs. unfold send_vote_req in Hs. apply bind_ok in Hs. destruct Hs as (lt & _ & Hs). eapply slow_send; eauto.
Qed.
Lemma campaign_real_el tr r r' : campaign_real tr r = Ok r' -> r_el_elapsed r' = 0.
Proof.
  unfold campaign_real. intros H. apply bind_ok in H. destruct H as (r1 & H1 & H). apply cand_el in H1.
  destruct (poll (r_id r1) true r1) as [r2 v] eqn:Hp. unfold poll in Hp.
  assert (A : r_el_elapsed r2 = 0) by (inv Hp; exact H1). clear Hp.
  destruct v; [apply vote_reqs_el in H; eapply slow_of0; eauto|apply vote_reqs_el in H; eapply slow_of0; eauto|apply lead_el in H; auto].
Qed.
Lemma campaign_el t r r' : campaign t r = Ok r' -> slow r r'.
Proof.
  destruct t; cbn [campaign]; try (intros H; apply campaign_real_el in H; apply slow_0; auto). intros H. apply bind_ok in H. destruct H as (r1 & H1 & H).
  assert (A1 : slow r r1) by (unfold become_pre_candidate in H1; destruct (is_leader r); [discriminate|]; apply Ok_inj in H1; subst r1; apply slow_nl; [cbn; lia|reflexivity|discriminate]). clear H1.
  destruct (poll (r_id r1) true r1) as [r2 v] eqn:Hp. unfold poll in Hp.
  assert (A : slow r r2) by (inv Hp; exact A1). clear Hp A1.
  destruct v; [apply vote_reqs_el in H; eapply slow_trans; eauto|apply vote_reqs_el in H; eapply slow_trans; eauto|apply campaign_real_el in H; apply slow_0; auto].
Qed.
Lemma hup_el t r r' : hup t r = Ok r' -> slow r r'.
Proof.
  unfold hup. destruct (is_leader r); [intros H; inv H; apply slow_refl|].
  destruct (negb (promotable r)); [intros H; inv H; apply slow_refl|].
  intros H; apply bind_ok in H; destruct H as ([ents|] & _ & H); [|discriminate].
  destruct (_ && _); [inv H; apply slow_refl|eapply campaign_el; eauto].
Qed.
Lemma transfer_el pr m r r' : trk_get (m_from m) (r_trk r) = Some pr -> leader_transfer m pr r = Ok r' -> slow r r'.
Proof.
  intros Hg H. unfold leader_transfer in H. destruct (p_learner pr); [inv H; apply slow_refl|].
  destruct (_ && _) in H; [inv H; apply slow_refl|].
  set (r0 := if negb (r_transferee r =? 0) then set_r_transferee 0 r else r) in *.
  assert (F : slow r r0 /\ r_trk r0 = r_trk r) by (unfold r0; destruct (negb _); split; auto; apply slow_eq; reflexivity). clearbody r0. destruct F as [F F3].
  destruct (_ =? r_id r0) in H; [inv H; auto|].
  set (r2 := set_r_transferee (m_from m) (set_r_el_elapsed 0 r0)) in *.
  destruct (N.eqb_spec (p_match pr) (r_last r2)).
  - apply slow_send in H. apply slow_0. exact (slow_of0 _ _ H eq_refl).
  - apply send_append_sends in H. apply slow_0. rewrite (sm_el _ _ (sd_same _ _ H)). reflexivity.
Qed.
Lemma leader_el m r r' e : r_state r = RLeader -> step_leader m r = Ok (r', e) -> slow r r'.
Proof.
  intros Hl H. destruct (mtype_eqb (m_type m) MsgTransferLeader) eqn:Ex.
  - apply mtype_eqb_eq in Ex. unfold step_leader in H. rewrite Ex in H. destruct (trk_get _ _) as [pr|] eqn:Hg; [|inv H; apply slow_refl].
    unfold okr in H; apply bind_ok in H; destruct H as (r1 & H & Hx); apply Ok_inj, pair_equal_spec in Hx; destruct Hx as [-> _]. eapply transfer_el; eauto.
  - assert (Hn : m_type m <> MsgTransferLeader) by (intros X; rewrite X in Ex; discriminate).
    destruct (mtype_eqb (m_type m) MsgCheckQuorum) eqn:Ec.
    + apply mtype_eqb_eq in Ec. unfold step_leader in H. rewrite Ec in H. apply Ok_inj, pair_equal_spec in H. destruct H as [<- _]. unfold leader_check_quorum. cbv zeta.
      set (r1 := match trk_get (r_id r) (r_trk r) with Some _ => _ | None => _ end) in *.
      assert (F : slow r r1) by (unfold r1; destruct (trk_get _ _); apply slow_eq; reflexivity). clearbody r1.
      destruct (trk_quorum_active (r_trk r1)); [exact F|]. apply slow_0.
      pose proof (follow_el (r_term r1) 0 r1) as A. hide (become_follower (r_term r1) 0 r1) r2 E2. exact A.
    + unfold step_leader in H. destruct (m_type m) eqn:Ht; try congruence;
        try (destruct (trk_get (m_from m) (r_trk r)) as [pr|] eqn:Hg; [|inv H; apply slow_refl]);
        try (inv H; apply slow_refl; fail); try (cbn in Ec; discriminate);
        try (unfold okr in H; apply bind_ok in H; destruct H as (r1 & H & Hx); apply Ok_inj, pair_equal_spec in Hx; destruct Hx as [-> _]).
      * unfold bcast_heartbeat in H. apply bcast_heartbeat_ctx_sends in H. apply slow_sends; auto.
      * unfold leader_prop in H. destruct (is_nil (m_entries m)); [discriminate|].
        destruct (trk_get (r_id r) (r_trk r)) as [ps|]; [|inv H; apply slow_refl].
        destruct (negb (r_transferee r =? 0)); [inv H; apply slow_refl|].
        apply bind_ok in H. destruct H as ([es r1] & Hf & H). apply filter_prop_fields in Hf. destruct Hf as [k ->].
        apply bind_ok in H. destruct H as ([r2|] & Ha & H).
        -- apply append_entry_fields in Ha. destruct Ha as (l & p0 & u & ->). unfold okr in H. apply bind_ok in H. destruct H as (r3 & H & Hx). inv Hx.
           apply bcast_append_sends in H. exact (slow_sends _ _ H).
        -- inv H. apply slow_eq; reflexivity.
      * unfold leader_app_resp in H. destruct (m_reject m).
        -- unfold leader_app_resp_reject in H. apply bind_ok in H. destruct H as (probe & _ & H).
           destruct (pr_maybe_decr_to _ _ _) as [pr1 ok]. destruct ok.
           ++ apply send_append_sends in H. exact (slow_sends _ _ H).
           ++ inv H. apply slow_eq; reflexivity.
        -- unfold leader_app_resp_accept in H. destruct (pr_maybe_update _ _) as [pr1 upd] eqn:Hu. destruct upd.
           2:{ inv H. apply slow_eq; reflexivity. }
           apply bind_ok in H. destruct H as (pr2 & Hp2 & H). apply bind_ok in H. destruct H as ([r2 com] & Hc & H).
           apply raft_maybe_commit_state in Hc. destruct Hc as [l ->].
           apply bind_ok in H. destruct H as (r3 & H3 & H). apply bind_ok in H. destruct H as (r4 & H4 & H).
           set (r2 := set_r_log l (put_progress (m_from m) pr2 r)) in *.
           assert (S3 : slow r r3).
           { apply (slow_trans _ r2); [apply slow_eq; reflexivity|]. destruct com; [apply bind_ok in H3; destruct H3 as (r5 & X1 & X2); apply release_pending_reads_sends in X1; apply bcast_append_sends in X2; eapply slow_trans; eapply slow_sends; eauto|].
             destruct (pr_is_paused _); [apply send_append_sends in H3; apply slow_sends; auto|]. inv H3. apply slow_refl. }
           apply send_all_sends in H4. eapply slow_trans; [exact S3|]. eapply slow_trans; [exact (slow_sends _ _ H4)|].
           destruct (_ && _) eqn:Hb in H; [|inv H; apply slow_refl]. unfold send_timeout_now in H. eapply slow_send; eauto.
      * unfold leader_heartbeat_resp in H. apply bind_ok in H. destruct H as (pr1 & _ & H). apply bind_ok in H. destruct H as (r2 & H2 & H).
        set (r0 := put_progress (m_from m) pr1 r) in *. assert (S2 : slow r r2) by (destruct (_ <? _) in H2; [apply send_append_sends in H2; exact (slow_sends _ _ H2)|inv H2; apply slow_eq; reflexivity]).
        match type of H with (if ?b then _ else _) = _ => destruct b end; [inv H; auto|].
        destruct (ro_recv_ack (m_from m) (m_ctx m) (r_ro r2)) as [ro acks] eqn:Hr.
        destruct (tc_vote_result _ acks) in H; try (inv H; exact S2; fail).
        apply bind_ok in H. destruct H as ([ro' rss] & _ & H).
        eapply slow_trans; [exact S2|].
        apply (mfold_inv (fun rs r => response_to_read_index (ris_req rs) (ris_index rs) r) slow) in H; auto using slow_refl; [intros; eapply slow_trans; eauto|].
        intros a s s' _ Hs. apply response_to_read_index_sends in Hs. apply slow_sends; auto.
      * inv H. unfold leader_unreachable. destruct (pstate_eqb _ _); apply slow_eq; reflexivity.
      * inv H. unfold leader_snap_status. destruct (p_state pr); apply slow_eq; reflexivity.
      * unfold leader_read_index in H. destruct (trk_is_singleton (r_trk r)); [apply slow_sends; eapply response_to_read_index_sends; eauto|].
        apply bind_ok in H. destruct H as (ok & _ & H). destruct ok; [apply slow_sends; eapply send_read_index_response_sends; eauto|]. inv H. apply slow_eq; reflexivity.
Qed.

Lemma handle_app_el m r r' : handle_append_entries m r = Ok r' -> slow r r'.
Proof.
  unfold handle_append_entries. cbv zeta. destruct (_ <? _); [intros H; eapply slow_send; eauto|].
  intros H. apply bind_ok in H. destruct H as ([l o] & _ & H). destruct o.
  - apply slow_send in H. exact H.
  - apply bind_ok in H. destruct H as (h & _ & H). apply bind_ok in H. destruct H as ([ht|] & _ & H); [|discriminate]. apply slow_send in H. exact H.
Qed.
Lemma handle_beat_el m r r' : handle_heartbeat m r = Ok r' -> slow r r'.
Proof. unfold handle_heartbeat. intros H. apply bind_ok in H. destruct H as (l & _ & H). apply slow_send in H. exact H. Qed.
Lemma switch_el cp r r' cs : switch_to_config cp r = Ok (r', cs) -> r_el_elapsed r' = r_el_elapsed r /\ r_term r' = r_term r /\ r_state r' = r_state r.
Proof.
  unfold switch_to_config. cbv zeta. match goal with |- context [set_r_learner ?a ?b] => set (r0 := set_r_learner a b) end.
  assert (A : r_el_elapsed r0 = r_el_elapsed r /\ r_term r0 = r_term r /\ r_state r0 = r_state r) by (repeat split). clearbody r0.
  destruct (_ && _); [intros H; inv H; auto|]. destruct (_ || _); [intros H; inv H; auto|]. intros H. apply bind_ok in H. destruct H as (r1 & H & Hx). inv Hx.
  destruct A as (<- & <- & <-). unfold switch_leader in H. apply bind_ok in H. destruct H as ([r1 com] & H1 & H).
  apply raft_maybe_commit_state in H1. destruct H1 as [l ->]. apply bind_ok in H. destruct H as (r2 & H2 & H).
  assert (S : sends (set_r_log l r0) r2).
  { destruct com; [apply bcast_append_sends; auto|]. apply (mfold_inv _ sends) in H2; auto using sends_refl; [intros; eapply sends_trans; eauto|].
    intros a s s' _ Hs. apply bind_ok in Hs. destruct Hs as ([r5 b] & Hs & Hx). inv Hx. eapply maybe_send_append_sends; eauto. }
  assert (B : r_el_elapsed r2 = r_el_elapsed r0 /\ r_term r2 = r_term r0 /\ r_state r2 = r_state r0) by (destruct (sd_same _ _ S); auto).
  destruct (_ && _) in H; inv H; exact B.
Qed.
Lemma handle_snap_el m r r' : handle_snapshot m r = Ok r' -> slow r r'.
Proof.
  unfold handle_snapshot. intros H. apply bind_ok in H. destruct H as ([r1 b] & H1 & H). apply slow_send in H.
  eapply slow_trans; [|exact H]. clear H. unfold raft_restore in H1. destruct (_ <=? _); [inv H1; apply slow_refl|].
  destruct (negb (role_eqb (r_state r) RFollower)) eqn:Hf; [apply Ok_inj, pair_equal_spec in H1; destruct H1 as [<- _]; apply slow_follow|]. cbv zeta in H1. destruct (negb _) in H1; [inv H1; apply slow_refl|].
  apply bind_ok in H1. destruct H1 as (mt & _ & H1). destruct mt; [apply bind_ok in H1; destruct H1 as (l & _ & H1); inv H1; apply slow_eq; reflexivity|].
  match type of H1 with context [cc_restore ?x ?y] => destruct (cc_restore x y) as [cp|] end; [|discriminate].
  apply bind_ok in H1. destruct H1 as ([r2 cs2] & Hs & H1). apply switch_el in Hs.
  destruct (negb _) in H1; [discriminate|]. destruct (trk_get _ _) in H1; [|discriminate]. destruct (pr_maybe_update _ _) in H1. inv H1. apply slow_eq; apply Hs.
Qed.
Lemma candidate_el m r r' e : step_candidate m r = Ok (r', e) -> slow r r'.
Proof.
  intros H. unfold step_candidate in H.
  assert (Kv : forall t', (if mtype_eqb t' (match r_state r with RPreCandidate => MsgPreVoteResp | _ => MsgVoteResp end) then
      let '(r1, res_) := poll (m_from m) (negb (m_reject m)) r in
      match res_ with
      | VoteWon => if role_eqb (r_state r1) RPreCandidate then okr (campaign CElection r1) else okr (r2 <- become_leader r1 ;; bcast_append r2)
      | VoteLost => Ok (become_follower (r_term r1) 0 r1, None)
      | VotePending => Ok (r1, None)
      end else Ok (r, None)) = Ok (r', e) -> slow r r').
  { intros t' X. destruct (mtype_eqb t' _) in X; [|inv X; apply slow_refl].
    destruct (poll (m_from m) (negb (m_reject m)) r) as [r1 v] eqn:Hp. unfold poll in Hp.
    assert (A1 : slow r r1) by (inv Hp; apply slow_eq; reflexivity). clear Hp.
    eapply slow_trans; [exact A1|]. destruct v.
    - inv X. apply slow_refl.
    - pose proof (slow_follow (r_term r1) 0 r1) as A2. hide (become_follower (r_term r1) 0 r1) r2 E2. clear E2. apply Ok_inj, pair_equal_spec in X. destruct X as [<- _]. exact A2.
    - destruct (role_eqb (r_state r1) RPreCandidate); unfold okr in X; apply bind_ok in X; destruct X as (r2 & X & Hx); apply Ok_inj, pair_equal_spec in Hx; destruct Hx as [-> _].
      + eapply campaign_el; exact X.
      + apply bind_ok in X. destruct X as (r3 & X1 & X2). apply lead_el in X1. apply bcast_append_sends in X2. apply slow_0. rewrite (sm_el _ _ (sd_same _ _ X2)). exact X1. }
  destruct (m_type m) eqn:Ht; try (eapply Kv; exact H).
  - inv H. apply slow_refl.
  - pose proof (slow_follow (m_term m) (m_from m) r) as A2. hide (become_follower (m_term m) (m_from m) r) r1 E2. clear E2.
    unfold okr in H. apply bind_ok in H. destruct H as (r2 & H & Hx). apply Ok_inj, pair_equal_spec in Hx. destruct Hx as [<- _].
    apply handle_app_el in H. eapply slow_trans; eauto.
  - pose proof (slow_follow (m_term m) (m_from m) r) as A2. hide (become_follower (m_term m) (m_from m) r) r1 E2. clear E2.
    unfold okr in H. apply bind_ok in H. destruct H as (r2 & H & Hx). apply Ok_inj, pair_equal_spec in Hx. destruct Hx as [<- _].
    apply handle_snap_el in H. eapply slow_trans; eauto.
  - pose proof (slow_follow (m_term m) (m_from m) r) as A2. hide (become_follower (m_term m) (m_from m) r) r1 E2. clear E2.
    unfold okr in H. apply bind_ok in H. destruct H as (r2 & H & Hx). apply Ok_inj, pair_equal_spec in Hx. destruct Hx as [<- _].
    apply handle_beat_el in H. eapply slow_trans; eauto.
Qed.
Lemma follower_el m r r' e : step_follower m r = Ok (r', e) -> slow r r'.
Proof.
  intros H. unfold step_follower in H. cbv zeta in H.
  set (r0 := set_r_lead (m_from m) (set_r_el_elapsed 0 r)) in *.
  assert (A0 : slow r r0) by (apply slow_0; reflexivity). clearbody r0.
  destruct (m_type m) eqn:Ht; try (inv H; apply slow_refl; fail);
    repeat match type of H with (if ?b then _ else _) = _ => destruct b; [inv H; apply slow_refl|] end;
    try (unfold okr in H; apply bind_ok in H; destruct H as (r1 & H & Hx); apply Ok_inj, pair_equal_spec in Hx; destruct Hx as [<- _]).
  - eapply slow_send; eauto.
  - apply handle_app_el in H. eapply slow_trans; eauto.
  - apply handle_snap_el in H. eapply slow_trans; eauto.
  - apply handle_beat_el in H. eapply slow_trans; eauto.
  - eapply slow_send; eauto.
  - apply hup_el in H. auto.
  - eapply slow_send; eauto.
  - destruct (m_entries m) as [|x [|y l]]; inv H; apply slow_eq; reflexivity.
Qed.
Lemma step_vote_el m r r' : step_vote m r = Ok r' -> slow r r'.
Proof.
  intros H. unfold step_vote in H. cbv zeta in H. apply bind_ok in H. destruct H as (up & Hup & H). apply bind_ok in H. destruct H as (rt & Hrt & H).
  destruct up.
  - apply bind_ok in H. destruct H as (r1 & H1 & H). apply slow_send in H1. destruct (mtype_eqb (m_type m) MsgVote); inv H; [apply slow_0; reflexivity|auto].
  - eapply slow_send; eauto.
Qed.
Lemma dispatch_el m r r' e : step_dispatch m r = Ok (r', e) -> slow r r'.
Proof.
  intros H. unfold step_dispatch in H.
  assert (K : match r_state r with RLeader => step_leader m r | RCandidate | RPreCandidate => step_candidate m r | RFollower => step_follower m r end = Ok (r', e) -> slow r r').
  { clear H. intros H. destruct (r_state r) eqn:Hs; [eapply follower_el|eapply candidate_el|eapply leader_el|eapply candidate_el]; eauto. }
  destruct (m_type m) eqn:Ht; try (apply K; exact H); clear K;
    unfold okr in H; apply bind_ok in H; destruct H as (r1 & H & Hx); apply Ok_inj, pair_equal_spec in Hx; destruct Hx as [<- _];
    [eapply hup_el|eapply step_vote_el|eapply step_vote_el]; eauto.
Qed.
Lemma step_el m r r' e : step m r = Ok (r', e) -> slow r r'.
Proof.
  intros H. unfold step in H. destruct (N.eqb_spec (m_term m) 0) as [H0|H0]; [eapply dispatch_el; eauto|].
  destruct (N.ltb_spec (r_term r) (m_term m)) as [H1|H1].
  - destruct (_ && _ && _) in H; [inv H; apply slow_refl|].
    assert (F : forall l, step_dispatch m (become_follower (m_term m) l r) = Ok (r', e) -> slow r r').
    { clear H. intros l H. pose proof (slow_follow (m_term m) l r) as A1. hide (become_follower (m_term m) l r) r1 E1. clear E1.
      apply dispatch_el in H. eapply slow_trans; eauto. }
    destruct (m_type m) eqn:Hty; try (eapply F; exact H); try (destruct (m_reject m) in H; [eapply F; exact H|]); eapply dispatch_el; eauto.
  - destruct (N.ltb_spec (m_term m) (r_term r)) as [H2|H2]; [|eapply dispatch_el; eauto].
    destruct (_ && _) in H; [|destruct (mtype_eqb _ _) in H; [|inv H; apply slow_refl]];
      unfold okr in H; apply bind_ok in H; destruct H as (r1 & H & Hx); apply Ok_inj, pair_equal_spec in Hx; destruct Hx as [<- _]; eapply slow_send; eauto.
Qed.
(** A tick moves the clock by one, or resets it. *)
Definition ticked (r r' : raft) : Prop := slow (set_r_el_elapsed (r_el_elapsed r + 1) r) r'.
Lemma tick_el r r' : tick r = Ok r' -> ticked r r'.
Proof.
  intros H. unfold tick in H.
  assert (A : tick_election r = Ok r' -> ticked r r').
  { clear H. intros K. unfold tick_election in K. cbv zeta in K. match type of K with (if ?b then _ else _) = _ => destruct b end; [|inv K; apply slow_refl].
    apply bind_ok in K. destruct K as ([r3 e3] & K & Hx). inv Hx. apply step_el in K. unfold ticked. eapply slow_trans; [|exact K]. apply slow_0; reflexivity. }
  assert (B : tick_heartbeat r = Ok r' -> ticked r r').
  { clear H A. intros H. unfold tick_heartbeat in H. cbv zeta in H. unfold ticked.
    set (r0 := set_r_el_elapsed (r_el_elapsed r + 1) (set_r_hb_elapsed (r_hb_elapsed r + 1) r)) in *.
    assert (K0 : slow (set_r_el_elapsed (r_el_elapsed r + 1) r) r0) by (apply slow_eq; reflexivity). clearbody r0. apply bind_ok in H. destruct H as (r1 & H1 & H).
    eapply slow_trans; [exact K0|]. assert (A1 : slow r0 r1).
    { match type of H1 with (if ?b then _ else _) = _ => destruct b end; [|inv H1; apply slow_refl]. apply bind_ok in H1. destruct H1 as (r2 & H2 & H1).
      assert (A2 : slow r0 r2).
      { match type of H2 with (if ?b then _ else _) = _ => destruct b end; [|inv H2; apply slow_0; reflexivity].
        apply bind_ok in H2. destruct H2 as ([r3 e3] & H2 & Hx). inv Hx. apply step_el in H2. eapply slow_trans; [|exact H2]. apply slow_0; reflexivity. }
      match type of H1 with (if ?b then _ else _) = _ => destruct b end; inv H1; exact A2. }
    clear H1. eapply slow_trans; [exact A1|]. destruct (negb (is_leader r1)); [inv H; apply slow_refl|].
    match type of H with (if ?b then _ else _) = _ => destruct b end; [|inv H; apply slow_refl].
    apply bind_ok in H. destruct H as ([r3 e3] & H & Hx). inv Hx. apply step_el in H. exact H. }
  destruct (r_state r); auto.
Qed.
End Clk.
