(** A leadership transfer makes progress (C69). *)
From Verif Require Import Prelude Types M_Util M_Quorum M_Inflights M_Progress M_Tracker.
From Verif Require Import M_Storage M_Unstable M_Log M_ReadOnly M_ConfPb M_ConfChange M_Raft M_RawNode.
From Verif Require Import P_Inflights Spec_Log P_Lists P_Storage P_Log Spec_Storage Sys_Storage P_StorageSeq Spec_RaftLog Sys_RaftLog P_RaftLogSeq.
From Verif Require Import Spec_Quorum P_Quorum Spec_Progress Spec_ConfChange P_ConfChange Spec_Inflights Sys_ConfChange.
From Verif Require Import P_Frame P_Prim Sys_Node P_Node P_Fields P_Vote Spec_Node P_Persist P_New P_Time P_NodeLog P_Handle P_NodeRun P_Emit P_Lead P_Transfer P_Ack P_Flow P_Window P_FlowRun P_Elect P_Beat P_Commit P_Feed P_Bcast.
From Verif Require Import Prop_Vote Prop_Deliver Prop_Msg Prop_Flow Prop_Elect Prop_Beat Prop_Commit Prop_Feed Prop_Answer Prop_Ballot Prop_Transfer R_Elig Spec_Flow Spec_Feed Spec_Elect Spec_Snap Spec_Resp Spec_Handoff Ex_Env Ex_Node Ex_Check Ex_Case.

Section Props.
Context {E : Env}.

Lemma self_set n : set_rn_raft (rn_raft n) n = n. Proof. destruct n; reflexivity. Qed.
(** The request, as a step of the leader. *)
Lemma nstep_transfer n o id n' out : node_role n = RLeader -> asks_for n o id -> n_step o n = Ok (n', out) ->
  match trk_get id (r_trk (rn_raft n)) with
  | None => n' = n
  | Some p => exists m r', m_from m = id /\ leader_transfer m p (rn_raft n) = Ok r' /\ n' = set_rn_raft r' n
  end.
Proof.
  intros L Ha H. change (r_state (rn_raft n) = RLeader) in L.
  assert (K : forall m e, m_type m = MsgTransferLeader -> m_from m = id -> m_term m = 0 \/ m_term m = r_term (rn_raft n) -> rn_raft_step m n = Ok (n', e) ->
    match trk_get id (r_trk (rn_raft n)) with
    | None => n' = n
    | Some p => exists m r', m_from m = id /\ leader_transfer m p (rn_raft n) = Ok r' /\ n' = set_rn_raft r' n
    end).
  { intros m e Ht Hf Hz K. unfold rn_raft_step in K. apply bind_ok in K. destruct K as ([r1 e2] & K & Hx). apply Ok_inj, pair_equal_spec in Hx. destruct Hx as [<- _].
    assert (K' : step_dispatch m (rn_raft n) = Ok (r1, e2)).
    { unfold step in K. destruct (N.eqb_spec (m_term m) 0); [exact K|]. destruct Hz as [Hz|Hz]; [congruence|].
      rewrite Hz, N.ltb_irrefl in K. exact K. }
    unfold step_dispatch, step_leader in K'. rewrite Ht, L, Hf in K'. destruct (trk_get id (r_trk (rn_raft n))) as [p|].
    - unfold okr in K'. apply bind_ok in K'. destruct K' as (r2 & K' & Hx). apply Ok_inj, pair_equal_spec in Hx. destruct Hx as [<- _]. exists m, r2. auto.
    - apply Ok_inj, pair_equal_spec in K'. destruct K' as [<- _]. apply self_set. }
  destruct o; cbn in Ha; try contradiction; cbn [n_step] in H; apply bind_ok in H.
  - destruct H as ([n1 e1] & H & Hx). apply Ok_inj, pair_equal_spec in Hx. destruct Hx as [<- _]. destruct Ha as (Ht & Hf & Hz).
    unfold rn_step in H. rewrite Ht in H. cbn [is_local_msg is_response_msg negb] in H. rewrite orb_true_r in H. eapply K; eauto.
  - destruct H as (n1 & H & Hx). apply Ok_inj, pair_equal_spec in Hx. destruct Hx as [<- _]. subst.
    unfold rn_transfer_leader in H. apply bind_ok in H. destruct H as ([n2 e2] & H & Hx). apply Ok_inj in Hx. subst n2. eapply K; [| | |exact H]; auto.
Qed.

(** C69: a leader asked to hand over to a voter remembers it as the transferee and acts at once: a
    voter that holds the whole log is told to campaign, any other is sent what it lacks.  A request
    for a learner or a stranger, or for the present transferee, changes nothing; one for the leader
    itself cancels a pending transfer. *)
Theorem C69_request c o n n' out id :
  made c n -> nop_ok o n -> n_step o n = Ok (n', out) -> node_role n = RLeader -> asks_for n o id ->
  (peer n id = None -> n' = n) /\
  (forall p, peer n id = Some p ->
     (p_learner p = true -> n' = n) /\
     (p_learner p = false ->
       (transferee n = id -> id <> 0 -> n' = n) /\
       (transferee n <> id -> id = node_id n -> transferee n' = 0 /\ pending n' = pending n) /\
       (transferee n <> id -> id <> node_id n ->
          transferee n' = id /\ node_role n' = RLeader /\
          (p_match p = node_last n -> exists x, pending n' = pending n ++ [x] /\ told n id x) /\
          (p_match p <> node_last n -> ready_for (max_inflight c) n p -> sent_from o n n' id (p_next p))))).
Proof.
  intros M Hk H L Ha. rewrite peer_get by auto. pose proof (nstep_transfer _ _ _ _ _ L Ha H) as T.
  split; [intros X; rewrite X in T; exact T|]. intros p Hp. rewrite Hp in T. destruct T as (m & r' & Hf & T & Hn).
  pose proof (lwf_0 _ (li_wf _ (ni_log _ (di_ninv _ (mi_dinv _ _ (made_inv _ _ M)))))) as W0.
  unfold leader_transfer in T. rewrite Hf in T. change (transferee n) with (r_transferee (rn_raft n)). change (node_id n) with (r_id (rn_raft n)).
  split; [intros X; rewrite X in T; apply Ok_inj in T; subst r'; rewrite Hn; apply self_set|].
  intros X. rewrite X in T. clear X.
  split; [|split].
  - intros X Y. rewrite X, N.eqb_refl in T. destruct (N.eqb_spec id 0); [congruence|]. cbn [negb andb] in T. apply Ok_inj in T. subst r'. rewrite Hn. apply self_set.
  - intros X Y. destruct (N.eqb_spec (r_transferee (rn_raft n)) id); [congruence|]. rewrite andb_false_r in T.
    destruct (N.eqb_spec (r_transferee (rn_raft n)) 0) as [Z|Z]; cbn [negb] in T; cbv zeta in T;
      rewrite Y in T; cbn [r_id r_cfg set_r_transferee] in T; unfold r_id in T; cbn [r_cfg set_r_transferee] in T; rewrite N.eqb_refl in T; apply Ok_inj in T; subst r'; rewrite Hn.
    + rewrite self_set. auto.
    + split; reflexivity.
  - intros X Y. destruct (N.eqb_spec (r_transferee (rn_raft n)) id); [congruence|]. rewrite andb_false_r in T. cbv zeta in T.
    assert (T' : exists r0, r0 = set_r_transferee id (set_r_el_elapsed 0 (rn_raft n)) /\ (if p_match p =? r_last r0 then send_timeout_now id r0 else send_append id r0) = Ok r').
    { destruct (negb (r_transferee (rn_raft n) =? 0)).
      - change (r_id (set_r_transferee 0 (rn_raft n))) with (r_id (rn_raft n)) in T. destruct (N.eqb_spec id (r_id (rn_raft n))); [congruence|]. eexists; split; [reflexivity|]. exact T.
      - destruct (N.eqb_spec id (r_id (rn_raft n))); [congruence|]. eexists; split; [reflexivity|]. exact T. }
    clear T. destruct T' as (r0 & E0 & T).
    assert (F : r_last r0 = node_last n /\ r_log r0 = r_log (rn_raft n) /\ r_id r0 = r_id (rn_raft n) /\ r_term r0 = r_term (rn_raft n) /\ r_trk r0 = r_trk (rn_raft n) /\ r_msgs r0 = r_msgs (rn_raft n) /\ r_transferee r0 = id /\ r_state r0 = r_state (rn_raft n))
      by (rewrite E0; repeat split; reflexivity).
    clear E0. destruct F as (F1 & F2 & F3 & F4 & F5 & F6 & F7 & F8). rewrite F1 in T.
    assert (S : sends r0 r' /\ (p_match p = node_last n -> r' = emit (outm r0 (set_m_to id (new_msg MsgTimeoutNow))) r0) /\ (p_match p <> node_last n -> send_append id r0 = Ok r')).
    { destruct (N.eqb_spec (p_match p) (node_last n)) as [Q|Q].
      - split; [|split; [|congruence]]; [|apply send_ok in T; tauto]. eapply send_timeout_now_sends; [exact F7| | |exact T]; [rewrite F5; exact Hp|rewrite F1; exact Q].
      - split; [eapply send_append_sends; eauto|split; [congruence|auto]]. }
    destruct S as (S & S1 & S2). split; [|split; [|split]].
    + subst n'. change (r_transferee r' = id). rewrite (sm_transferee _ _ (sd_same _ _ S)). exact F7.
    + subst n'. change (r_state r' = RLeader). rewrite (sm_state _ _ (sd_same _ _ S)), F8. exact L.
    + intros Q. exists (outm r0 (set_m_to id (new_msg MsgTimeoutNow))). split.
      * subst n'. unfold pending. cbn [rn_raft set_rn_raft]. rewrite (S1 Q). unfold emit. cbn [r_msgs set_r_msgs]. rewrite F6. reflexivity.
      * unfold told, outm. cbn. rewrite F3, F4. auto.
    + intros Q [R1 R2]. destruct (peer_win _ _ _ _ M L Y ltac:(rewrite peer_get by auto; exact Hp)) as (G & Z & K & q & Wq).
      destruct (send_feeds id p r0 r') as (x & Hx & Fx); auto.
      { rewrite F2; auto. } { rewrite F5; auto. } { eapply not_paused; eauto. } { unfold servable. rewrite F2. exact R2. }
      assert (Fx' : feeds (rn_raft n) id p x) by (unfold feeds in *; rewrite F2, F3, F4 in Fx; exact Fx).
      eapply (feeds_sent c o n n' out [x] x id p); eauto; [|left; auto].
      subst n'. cbn [rn_raft set_rn_raft]. rewrite Hx, F6. reflexivity.
Qed.
(** C69: as soon as the transferee acknowledges the last entry, it is told to campaign. *)
Theorem C69_caught_up c m n n' out p :
  made c n -> nop_ok (NStep m) n -> n_step (NStep m) n = Ok (n', out) -> node_role n = RLeader ->
  m_type m = MsgAppResp -> m_term m = node_term n -> m_reject m = false -> m_index m = node_last n ->
  transferee n = m_from m -> peer n (m_from m) = Some p -> p_match p < m_index m ->
  exists x, emits (NStep m) n n' x /\ told n (m_from m) x.
Proof.
  intros M Hk H L Ht T Hr Hi Htr Hp Hm. rewrite peer_get in Hp by auto.
  destruct (nstep_resp _ _ _ _ _ (or_introl Ht) (proj1 Hk) L T Hp H) as (r' & H1 & Hn). rewrite Ht in H1.
  unfold leader_app_resp in H1. rewrite Hr in H1. unfold leader_app_resp_accept in H1. cbv zeta in H1.
  destruct (pr_maybe_update (m_index m) (set_p_active true p)) as [p1 u] eqn:Hu.
  assert (Hp1 : u = true /\ p_match p1 = m_index m).
  { unfold pr_maybe_update in Hu. cbn [p_match set_p_active] in Hu. destruct (N.ltb_spec (p_match p) (m_index m)); [|lia]. inv Hu. auto. }
  destruct Hp1 as (-> & Hp1). apply bind_ok in H1. destruct H1 as (p2 & _ & H1).
  apply bind_ok in H1. destruct H1 as ([r2 cm] & Hc & H1). apply commit_last in Hc. destruct Hc as (k & Hc).
  apply bind_ok in H1. destruct H1 as (r3 & H3 & H1). apply bind_ok in H1. destruct H1 as (r4 & H4 & H1).
  assert (F2 : r_last r2 = r_last (rn_raft n) /\ r_id r2 = r_id (rn_raft n) /\ r_term r2 = r_term (rn_raft n) /\ r_msgs r2 = r_msgs (rn_raft n) /\ r_transferee r2 = r_transferee (rn_raft n)) by (rewrite Hc; auto).
  clear Hc. destruct F2 as (A1 & A2 & A3 & A4 & A5).
  assert (S3 : sends r2 r3).
  { destruct cm; [|match type of H3 with (if ?c then _ else _) = _ => destruct c end; [eapply send_append_sends; eauto|inv H3; apply sends_refl]].
    apply bind_ok in H3. destruct H3 as (r5 & H5 & H3). eapply sends_trans; [apply release_sends; eauto|eapply bcast_append_sends; eauto]. }
  pose proof (sends_trans _ _ _ S3 (send_all_sends _ _ _ _ H4)) as S. pose proof (sd_same _ _ S) as Sm.
  assert (B1 : r_transferee r4 = m_from m) by (rewrite (sm_transferee _ _ Sm), A5; exact Htr).
  assert (B2 : r_last r4 = m_index m) by (unfold r_last in *; rewrite (sm_log _ _ Sm), A1; symmetry; exact Hi).
  rewrite B1, B2, Hp1, !N.eqb_refl in H1. cbn [andb] in H1. apply send_ok in H1. destruct H1 as [H1 _].
  destruct (sd_msgs _ _ S) as (ms & Hms & _).
  exists (outm r4 (set_m_to (m_from m) (new_msg MsgTimeoutNow))). split.
  - exists out, (ms ++ [outm r4 (set_m_to (m_from m) (new_msg MsgTimeoutNow))]). split; [exact H|]. split; [|apply in_or_app; right; left; auto].
    subst n'. unfold pending. cbn [rn_raft set_rn_raft]. rewrite H1. unfold emit. cbn [r_msgs set_r_msgs]. rewrite Hms, A4, app_assoc. reflexivity.
  - unfold told, outm. cbn. rewrite (sends_id _ _ S), A2, (sm_term _ _ Sm), A3. auto.
Qed.

(** The requests of a campaign, with the mark of a transfer. *)
Lemma campaign_real_reqs tr r r' : campaign_real tr r = Ok r' -> r_state r' = RCandidate ->
  exists lt, (other_voters r' <> [] -> log_last_term (r_log r) = Ok lt) /\
    r_msgs r' = r_msgs r ++ map (vreq RCandidate tr (r_id r) lt (r_last r) (r_term r')) (other_voters r').
Proof.
  unfold campaign_real. intros H X. apply bind_ok in H. destruct H as (r1 & H1 & H).
  apply become_candidate_all in H1. destruct H1 as (A0&A1&A2&A3&A4&A5&A6&A7&A8&A9&A10&A11).
  destruct (poll (r_id r1) true r1) as [r2 v] eqn:Hp. pose proof (poll_parts _ _ _ _ _ Hp) as (Q1 & Q2 & Q3 & Q4 & Q5 & Q6).
  assert (M2 : r_msgs r2 = r_msgs r) by (unfold poll in Hp; apply pair_equal_spec in Hp; destruct Hp as [<- _]; cbn; auto).
  clear Hp.
  assert (K : mfold (send_vote_req MsgVote (r_term r2) tr) (other_voters r2) r2 = Ok r' -> exists lt, (other_voters r' <> [] -> log_last_term (r_log r) = Ok lt) /\
    r_msgs r' = r_msgs r ++ map (vreq RCandidate tr (r_id r) lt (r_last r) (r_term r')) (other_voters r')).
  { intros K. apply (vote_reqs RCandidate) in K. destruct K as (lt & K1 & K2).
    assert (Hid2 : r_id r2 = r_id r) by (unfold r_id; congruence). assert (Hla2 : r_last r2 = r_last r) by (unfold r_last; congruence).
    rewrite K2. exists lt. change (other_voters (set_r_msgs _ r2)) with (other_voters r2). split; [intros Y; rewrite <- (K1 Y); congruence|].
    cbn [r_msgs set_r_msgs r_term]. rewrite M2, Hid2, Hla2. reflexivity. }
  destruct v; auto. apply become_leader_all in H. destruct H as (B0&B1&B2&B3&B4&_). congruence.
Qed.

(** C69: a follower told to campaign does so at once, whatever PreVote says: it enters the next term
    and, unless its own vote elects it, asks every other voter, with the mark of a transfer. *)
Theorem C69_timeout_now m n n' out :
  node_at n -> nop_ok (NStep m) n -> n_step (NStep m) n = Ok (n', out) ->
  m_type m = MsgTimeoutNow -> m_term m = node_term n -> node_role n = RFollower -> electable n ->
  (forall k e, node_applied n < k -> k <= node_commit n -> holds_entry n k e -> e_type e = EntryNormal) ->
  node_term n' = node_term n + 1 /\ hs_vote (node_hard n') = node_id n /\
  (elects n (first_vote [(node_id n, true)]) -> node_role n' = RLeader) /\
  (~ elects n (first_vote [(node_id n, true)]) -> node_role n' = RCandidate /\ same_log n n' /\
     exists ids ms, NoDup ids /\
       (forall id, In id ids <-> id <> node_id n /\ (In id (node_incoming n) \/ In id (node_outgoing n))) /\
       pending n' = pending n ++ ms /\ Forall2 (asks RCandidate n') ids ms /\
       Forall (fun x => m_ctx x = "CampaignTransfer"%string) ms).
Proof.
  intros Ha Hok H Ht Hterm Hf He Hc. pose proof (node_at_dinv _ Ha) as D. pose proof (proj1 (n_step_dinv _ _ _ _ Hok H D)) as D'.
  cbn [n_step] in H. apply bind_ok in H. destruct H as ([n1 e1] & H & Hx). apply Ok_inj, pair_equal_spec in Hx. destruct Hx as [<- _].
  unfold rn_step in H. rewrite Ht in H. cbn [is_local_msg is_response_msg negb] in H. rewrite orb_true_r in H.
  unfold rn_raft_step in H. apply bind_ok in H. destruct H as ([r1 e2] & H & Hx). apply Ok_inj, pair_equal_spec in Hx. destruct Hx as [<- _].
  assert (H' : hup CTransfer (rn_raft n) = Ok r1).
  { assert (K : step_dispatch m (rn_raft n) = Ok (r1, e2)).
    { unfold step in H. destruct (N.eqb_spec (m_term m) 0); [exact H|]. change (m_term m = r_term (rn_raft n)) in Hterm. rewrite Hterm, N.ltb_irrefl in H. exact H. }
    change (r_state (rn_raft n) = RFollower) in Hf. unfold step_dispatch, step_follower in K. rewrite Ht, Hf in K.
    unfold okr in K. apply bind_ok in K. destruct K as (r2 & K & Hx). apply Ok_inj, pair_equal_spec in Hx. destruct Hx as [<- _]. exact K. }
  clear H. rename H' into H. unfold hup, is_leader in H. change (r_state (rn_raft n) = RFollower) in Hf. rewrite Hf in H. cbn [role_eqb] in H.
  rewrite (proj2 (promotable_iff n) He) in H. cbn [negb] in H.
  destruct (unapplied_slice n D He) as (ents & Hs & Hen). rewrite Hs in H. cbn [bind] in H.
  assert (Hz : num_pending_conf ents = 0).
  { apply num_conf_0. intros k e Hk. destruct (Hen _ _ Hk) as [G1 G2]. eapply Hc; [|exact G2|exact G1]. lia. }
  rewrite Hz in H. cbn [N.eqb negb andb campaign] in H.
  destruct (campaign_real_state _ _ _ H) as (C1 & C2 & C3).
  split; [exact C2|]. split; [exact C3|].
  assert (A : agree n [(r_id (rn_raft n), true)] (first_vote [(node_id n, true)])).
  { intros id _. cbn. change (node_id n) with (r_id (rn_raft n)). rewrite N.eqb_sym. destruct (_ =? _); reflexivity. }
  pose proof (verdict_elects n _ _ A) as VE.
  destruct (campaign_real_cand _ _ _ H) as [F|(F1 & F2 & F3)].
  2:{ split; [intros _; exact F1|]. intros X. exfalso. apply X, VE, F3. }
  assert (NE : ~ elects n (first_vote [(node_id n, true)])).
  { intros K. apply VE in K. apply (fc_res _ _ _ F). rewrite (fc_conf _ _ _ F), (fc_votes _ _ _ F). exact K. }
  split; [tauto|]. intros _. split; [apply (fc_state _ _ _ F)|].
  split; [apply same_log_abs; auto; cbn [rn_raft set_rn_raft]; rewrite (fc_log _ _ _ F); auto|].
  destruct (campaign_real_reqs _ _ _ H (fc_state _ _ _ F)) as (lt & Lt & Hm).
  assert (Hid : r_id r1 = r_id (rn_raft n)) by (unfold r_id; rewrite (fc_cfg _ _ _ F); auto).
  exists (other_voters r1), (map (vreq RCandidate true (r_id (rn_raft n)) lt (r_last (rn_raft n)) (r_term r1)) (other_voters r1)).
  split; [|split; [|split; [exact Hm|split]]].
  - unfold other_voters. apply NoDup_filter, sorted_NoDup. unfold trk_voter_nodes, joint_ids. apply fold_sadd_sorted, fold_sadd_sorted. constructor.
  - intros id. unfold other_voters. rewrite filter_In, Hid. unfold trk_voter_nodes. rewrite joint_ids_In, (fc_conf _ _ _ F).
    unfold node_id, node_incoming, node_outgoing. cbn [rn_status ns_id ns_config]. destruct (N.eqb_spec id (r_id (rn_raft n))); cbn; split; intros [B1 B2]; try congruence; auto; tauto.
  - assert (G : forall ids, (ids <> [] -> log_last_term (r_log (rn_raft n)) = Ok lt) -> Forall2 (asks RCandidate (set_rn_raft r1 n)) ids (map (vreq RCandidate true (r_id (rn_raft n)) lt (r_last (rn_raft n)) (r_term r1)) ids)).
    { induction ids as [|i ids IH]; intros Hl; cbn [map]; constructor.
      - specialize (Hl ltac:(discriminate)).
        assert (Hl' : log_term (node_last (set_rn_raft r1 n)) (r_log r1) = Ok (SOk lt)).
        { unfold node_last. cbn [rn_raft set_rn_raft]. rewrite (fc_log _ _ _ F). unfold log_last_term in Hl. apply bind_ok in Hl. destruct Hl as ([t0|] & Hl & Hx'); [inv Hx'; auto|discriminate]. }
        assert (Hla : node_last (set_rn_raft r1 n) = r_last (rn_raft n)) by (unfold node_last, r_last; cbn [rn_raft set_rn_raft]; rewrite (fc_log _ _ _ F); reflexivity).
        assert (Hi : node_id (set_rn_raft r1 n) = r_id (rn_raft n)) by exact Hid.
        unfold asks. cbn [rn_raft set_rn_raft]. rewrite Hl', Hla, Hi. unfold vreq. cbn. auto 10.
      - apply IH. intros _. apply Hl. discriminate. }
    apply G, Lt.
  - apply Forall_forall. intros x Hx. apply in_map_iff in Hx. destruct Hx as (i & <- & _). reflexivity.
Qed.

(** C69: such a request is answered by every voter whose term it exceeds, even one that still hears
    from its leader; the vote is granted to a log that is at least as up-to-date. *)
Theorem C69_lease_bypassed c n m n' out :
  made c n -> nop_ok (NStep m) n -> m_type m = MsgVote -> m_ctx m = "CampaignTransfer"%string -> n_step (NStep m) n = Ok (n', out) ->
  node_term n < m_term m ->
  exists a lt, pending n' = pending n ++ [a] /\ m_type a = MsgVoteResp /\ m_to a = m_from m /\ node_term n' = m_term m /\ node_role n' = RFollower /\
    shows n (node_last n) lt /\
    (m_reject a = false <-> lt < m_logterm m \/ (lt = m_logterm m /\ node_last n <= m_index m)).
Proof.
  intros M Hok Ht Hx H Hlt. destruct (C59_vote_answered c n m n' out M Hok Ht H ltac:(lia) (or_intror (or_introl Hx))) as (a & lt & A1 & A2 & A3 & A4 & A5 & A6 & A7 & A8 & A9 & A10).
  exists a, lt. split; [exact A1|]. split; [exact A3|]. split; [apply A2|]. split; [exact A4|]. split; [apply A7; exact Hlt|]. split; [exact A9|].
  cbv zeta in A10. destruct A10 as [(B1 & B2 & B3 & B4)|(B1 & B2 & B3)].
  - tauto.
  - rewrite B2. split; [discriminate|]. intros X. exfalso. apply B1. split; [left; exact Hlt|exact X].
Qed.

(** C69: a configuration change that takes the transferee's vote away ends the transfer; any other
    leaves it pending. *)
Theorem C69_reconfigured cc n n' out p :
  n_step (NApplyCC cc) n = Ok (n', out) -> node_role n = RLeader ->
  peer n' (node_id n') = Some p -> p_learner p = false -> node_incoming n' <> [] ->
  node_role n' = RLeader /\
  (In (transferee n) (node_incoming n') \/ In (transferee n) (node_outgoing n') -> transferee n' = transferee n) /\
  (~ (In (transferee n) (node_incoming n') \/ In (transferee n) (node_outgoing n')) -> transferee n' = 0).
Proof.
  intros H L Hp Hl Hne. change (r_state (rn_raft n) = RLeader) in L.
  cbn [n_step] in H. apply bind_ok in H. destruct H as ([n1 c1] & H & Hx). apply Ok_inj, pair_equal_spec in Hx. destruct Hx as [<- _].
  unfold rn_apply_conf_change in H. apply bind_ok in H. destruct H as (c & _ & H). apply bind_ok in H. destruct H as ([r1 cs] & H & Hx).
  apply Ok_inj, pair_equal_spec in Hx. destruct Hx as [<- _].
  unfold raft_apply_conf_change in H. cbv zeta in H. apply bind_ok in H. destruct H as ([cp|] & _ & H); [|discriminate].
  change (transferee (set_rn_raft r1 n)) with (r_transferee r1). change (transferee n) with (r_transferee (rn_raft n)).
  change (node_role (set_rn_raft r1 n)) with (r_state r1).
  change (node_incoming (set_rn_raft r1 n)) with (tc_incoming (t_config (r_trk r1))) in *. change (node_outgoing (set_rn_raft r1 n)) with (tc_outgoing (t_config (r_trk r1))) in *.
  unfold switch_to_config in H. cbv zeta in H. match type of H with context [set_r_learner ?a ?b] => set (r0 := set_r_learner a b) in H end.
  assert (F : r_state r0 = RLeader /\ r_transferee r0 = r_transferee (rn_raft n) /\ r_id r0 = r_id (rn_raft n)) by (split; [exact L|split; reflexivity]).
  change (trk_get (r_id (rn_raft n)) _) with (trk_get (r_id r0) (r_trk r0)) in H.
  change (r_id (set_r_trk _ (rn_raft n))) with (r_id r0) in H.
  change (r_trk (set_r_trk (set_t_progress (snd cp) (set_t_config (fst cp) (r_trk (rn_raft n)))) (rn_raft n))) with (r_trk r0) in H.
  clearbody r0. destruct F as (F1 & F2 & F3). unfold is_leader in H. rewrite F1 in H. cbn [role_eqb negb] in H. rewrite andb_true_r in H. cbn [orb] in H.
  match type of H with (if ?b then _ else _) = _ => destruct b eqn:Hb end.
  { exfalso. apply Ok_inj, pair_equal_spec in H. destruct H as [<- _]. rewrite peer_get in Hp by exact F1.
    change (trk_get (r_id r0) (r_trk r0) = Some p) in Hp. rewrite Hp, Hl in Hb. discriminate. }
  match type of H with (if ?b then _ else _) = _ => destruct b eqn:Hv end.
  { exfalso. apply Ok_inj, pair_equal_spec in H. destruct H as [<- _]. apply Hne. unfold trk_confstate in Hv. cbn [cs_voters] in Hv. destruct (tc_incoming _); [reflexivity|discriminate]. }
  apply bind_ok in H. destruct H as (r2 & H & Hx). apply Ok_inj, pair_equal_spec in Hx. destruct Hx as [<- _].
  unfold switch_leader in H. apply bind_ok in H. destruct H as ([r3 com] & H3 & H). apply raft_maybe_commit_state in H3. destruct H3 as [l ->].
  apply bind_ok in H. destruct H as (r4 & H4 & H).
  assert (S : sends (set_r_log l r0) r4).
  { destruct com; [apply bcast_append_sends; auto|]. apply (mfold_inv _ sends) in H4; auto using sends_refl; [intros; eapply sends_trans; eauto|].
    intros a s s' _ Hs. apply bind_ok in Hs. destruct Hs as ([r5 b] & Hs & Hx). inv Hx. eapply maybe_send_append_sends; eauto. }
  assert (G1 : r_transferee r4 = r_transferee (rn_raft n)) by (rewrite (sm_transferee _ _ (sd_same _ _ S)); exact F2).
  assert (G2 : r_state r4 = RLeader) by (rewrite (sm_state _ _ (sd_same _ _ S)); exact F1).
  assert (G3 : forall b, smem (r_transferee r4) (joint_ids (tc_incoming (t_config (r_trk r4))) (tc_outgoing (t_config (r_trk r4)))) = b ->
    if b then In (r_transferee (rn_raft n)) (tc_incoming (t_config (r_trk r4))) \/ In (r_transferee (rn_raft n)) (tc_outgoing (t_config (r_trk r4)))
    else ~ (In (r_transferee (rn_raft n)) (tc_incoming (t_config (r_trk r4))) \/ In (r_transferee (rn_raft n)) (tc_outgoing (t_config (r_trk r4))))).
  { intros b Hs. rewrite G1 in Hs. pose proof (joint_ids_In (tc_incoming (t_config (r_trk r4))) (tc_outgoing (t_config (r_trk r4))) (r_transferee (rn_raft n))) as J. destruct b; [apply J, smem_In; auto|]. intros X. apply J, smem_In in X. congruence. }
  destruct (smem _ _) eqn:Hs in H; cbn [negb andb] in H; specialize (G3 _ Hs); cbn iota in G3.
  - apply Ok_inj in H. subst r4. split; [exact G2|]. split; [auto|tauto].
  - destruct (N.eqb_spec (r_transferee r4) 0) as [Z|Z]; cbn [negb] in H; apply Ok_inj in H; subst r2.
    + split; [exact G2|]. split; [auto|congruence].
    + split; [exact G2|]. cbn [r_trk set_r_transferee r_transferee]. split; [tauto|auto].
Qed.
(** A tick before the leader's election timeout. *)
Lemma tick_early r r' : r_state r = RLeader -> r_el_elapsed r + 1 < k_el_timeout (r_cfg r) -> tick r = Ok r' ->
  r_el_elapsed r' = r_el_elapsed r + 1 /\ r_transferee r' = r_transferee r.
Proof.
  intros Hs Hlt H. unfold tick in H. rewrite Hs in H. unfold tick_heartbeat in H. cbv zeta in H.
  set (r0 := set_r_el_elapsed (r_el_elapsed r + 1) (set_r_hb_elapsed (r_hb_elapsed r + 1) r)) in *.
  assert (K0 : r_state r0 = RLeader /\ r_transferee r0 = r_transferee r /\ r_el_elapsed r0 = r_el_elapsed r + 1 /\ r_cfg r0 = r_cfg r)
    by (repeat split; exact Hs). clearbody r0. destruct K0 as (K1 & K2 & K3 & K4).
  apply bind_ok in H. destruct H as (r1 & H1 & H). rewrite K3, K4 in H1. destruct (N.leb_spec (k_el_timeout (r_cfg r)) (r_el_elapsed r + 1)); [lia|].
  apply Ok_inj in H1. subst r1. unfold is_leader in H. rewrite K1 in H. cbn [role_eqb negb] in H.
  match type of H with (if ?b then _ else _) = _ => destruct b end; [|apply Ok_inj in H; subst r'; auto].
  apply bind_ok in H. destruct H as ([r3 e3] & H & Hx). apply Ok_inj in Hx. subst r3.
  match type of H with step ?mm ?rr = _ => set (m0 := mm) in H; set (ra := rr) in H end.
  assert (Ha : r_state ra = RLeader /\ r_transferee ra = r_transferee r /\ r_el_elapsed ra = r_el_elapsed r + 1) by (split; [exact K1|split; [exact K2|exact K3]]).
  assert (Hm : m_term m0 = 0 /\ m_type m0 = MsgBeat) by (split; reflexivity). clearbody m0 ra.
  destruct Ha as (Ha & Hc & Hd). destruct Hm as [Hm Hty]. unfold step in H. rewrite Hm in H. cbn [N.eqb] in H. unfold step_dispatch in H. rewrite Hty, Ha in H.
  apply beat_sends in H; auto. rewrite (sm_transferee _ _ (sd_same _ _ H)), (sm_el _ _ (sd_same _ _ H)). auto.
Qed.
(** Ticks of either kind. *)
Definition clock (os : list nop) : N := nlen (filter (fun o => match o with NTick | NTickQuiesced => true | _ => false end) os).
Definition w_inv (t id k : N) (n : rawnode) : Prop :=
  lost t (rn_raft n) \/ (r_state (rn_raft n) = RLeader /\ r_term (rn_raft n) = t /\ r_transferee (rn_raft n) = id /\ r_el_elapsed (rn_raft n) = k).
Lemma clock_cons o os : clock (o :: os) = clock [o] + clock os.
Proof. unfold clock. cbn. destruct o; cbn; rewrite ?nlen_cons; nl; lia. Qed.
Lemma w_inv_step t id k o n n' out : dinv n -> vself (rn_raft n) -> nop_ok o n -> ~ asks_transfer o -> ~ own_vote (r_id (rn_raft n)) o -> (forall cc, o <> NApplyCC cc) ->
  k + clock [o] < k_el_timeout (r_cfg (rn_raft n)) -> n_step o n = Ok (n', out) -> w_inv t id k n -> w_inv t id (k + clock [o]) n'.
Proof.
  intros D V Hok Hna Hno Hcc Hlt H K.
  assert (HL : (r_state (rn_raft n) = RLeader /\ r_term (rn_raft n) = t) \/ lost t (rn_raft n)) by (destruct K as [K|(K1&K2&_)]; auto).
  destruct (n_step_gfix t o n n' out Hok H D HL) as [(L1 & L2 & L3 & L4 & _)|L]; [|left; auto].
  right. split; auto. split; auto. destruct K as [K|(_ & _ & K1 & K2)]; [exfalso; exact (lost_leader _ _ L1 L2 K)|].
  assert (T : o = NTick \/ o = NTickQuiesced \/ (o <> NTick /\ o <> NTickQuiesced /\ clock [o] = 0)) by (destruct o; auto; right; right; repeat split; discriminate).
  destruct T as [->|[->|(T1 & T2 & Tc)]].
  - change (clock [NTick]) with 1 in *. cbn [n_step] in H. apply bind_ok in H. destruct H as (n1 & H & Hx). apply Ok_inj, pair_equal_spec in Hx. destruct Hx as [<- _].
    unfold rn_tick in H. apply bind_ok in H. destruct H as (r1 & H & Hx). apply Ok_inj in Hx. subst n1. cbn [rn_raft set_rn_raft] in *.
    apply tick_early in H; auto; [|lia]. destruct H as [A B]. split; congruence.
  - change (clock [NTickQuiesced]) with 1 in *. cbn [n_step] in H. apply Ok_inj, pair_equal_spec in H. destruct H as [<- _]. cbn. split; [auto|congruence].
  - rewrite Tc, N.add_0_r. destruct (plain_dec o) as [Hp|Hp].
    + destruct (n_step_calm o n n' out Hp (proj1 Hok) V H T1 T2 Hcc Hna Hno L1 L3 ltac:(congruence)) as [A B]. split; congruence.
    + destruct (calm_not_plain _ _ _ _ Hp Hok D H) as (B1 & B2 & _). split; congruence.
Qed.
Lemma w_inv_run t id os : forall n n' outs k, dinv n -> vself (rn_raft n) -> n_run_ok os n -> n_run os n = Ok (n', outs) ->
  (forall o, In o os -> ~ asks_transfer o /\ ~ own_vote (r_id (rn_raft n)) o /\ forall cc, o <> NApplyCC cc) -> k + clock os < k_el_timeout (r_cfg (rn_raft n)) ->
  w_inv t id k n -> w_inv t id (k + clock os) n'.
Proof.
  induction os as [|o os IH]; intros n n' outs k D V Hok H Ho Hlt K; cbn [n_run] in H.
  - inv H. unfold clock. cbn. change (nlen (@nil nop)) with 0. rewrite N.add_0_r. auto.
  - apply bind_ok in H. destruct H as ([n1 out] & H1 & H). apply bind_ok in H. destruct H as ([n2 outs2] & H2 & H). inv H.
    cbn [n_run_ok] in Hok. rewrite H1 in Hok. destruct Hok as [Ok1 Ok2]. destruct (Ho o (or_introl eq_refl)) as (O1 & O2 & O3).
    assert (Q : aprs ([], rn_raft n) ([] ++ sent [out], rn_raft n1)).
    { apply (n_run_aprs [o]); [constructor; [apply Ok1|constructor]|]. cbn [n_run]. rewrite H1. reflexivity. }
    assert (Qc : r_cfg (rn_raft n1) = r_cfg (rn_raft n)) by exact (proj1 (aprs_tv _ _ Q)).
    assert (Hc : clock (o :: os) = clock [o] + clock os) by apply clock_cons. rewrite Hc, N.add_assoc in Hlt |- *.
    assert (Hl1 : k + clock [o] < k_el_timeout (r_cfg (rn_raft n))) by lia. pose proof (w_inv_step _ _ _ _ _ _ _ D V Ok1 O1 O2 O3 Hl1 H1 K) as K1.
    refine (IH n1 n' outs2 (k + clock [o]) (proj1 (n_step_dinv _ _ _ _ Ok1 H1 D)) (vself_aprs _ _ Q V) Ok2 H2 _ _ K1).
    + intros o' Ho'. replace (r_id (rn_raft n1)) with (r_id (rn_raft n)) by (unfold r_id; f_equal; auto). apply Ho. right; auto.
    + rewrite Qc. exact Hlt.
Qed.
(** C69: the leader is patient: a transfer just requested stays pending for an election timeout (in
    ticks), as long as the node leads its term and nobody asks for another or changes the membership. *)
Theorem C69_patience c o n n1 out id os n2 outs :
  made c n -> nop_ok o n -> n_step o n = Ok (n1, out) -> node_role n = RLeader -> asks_for n o id ->
  transferee n <> id -> transferee n1 = id -> id <> 0 ->
  n_run_ok os n1 -> n_run os n1 = Ok (n2, outs) -> clock os < Z.to_N (c_election_tick c) ->
  (forall o', In o' os -> ~ asks_transfer o' /\ ~ own_vote (c_id c) o' /\ forall cc, o' <> NApplyCC cc) ->
  node_role n2 = RLeader -> node_term n2 = node_term n ->
  transferee n2 = id.
Proof.
  intros M Hk H L Ha Hne Ht Hz Hok Hr Hc Ho L2 T2. pose proof (made_step _ _ _ _ _ M Hk H) as M1.
  pose proof (nstep_transfer _ _ _ _ _ L Ha H) as T.
  change (transferee n) with (r_transferee (rn_raft n)) in *. change (transferee n1) with (r_transferee (rn_raft n1)) in *.
  destruct (trk_get id (r_trk (rn_raft n))) as [p|] eqn:Hp; [|subst n1; congruence]. destruct T as (m & r' & Hf & T & Hn).
  assert (El : r_el_elapsed r' = 0 /\ r_state r' = RLeader /\ r_term r' = r_term (rn_raft n)).
  { assert (Ht' : r_transferee r' = id) by (rewrite <- Ht, Hn; reflexivity). clear - T Ht' Hne L Hp Hz Hf.
    assert (K : r' = rn_raft n \/ r' = set_r_transferee 0 (rn_raft n) \/ (exists r0, r_el_elapsed r0 = 0 /\ r_state r0 = RLeader /\ r_term r0 = r_term (rn_raft n) /\ sends r0 r')).
    { unfold leader_transfer in T. destruct (p_learner p); [apply Ok_inj in T; auto|]. match type of T with (if ?b then _ else _) = _ => destruct b end; [apply Ok_inj in T; auto|].
      cbv zeta in T. rewrite Hf in T. match type of T with context [if ?b then set_r_transferee 0 ?x else ?x] => set (rb := if b then set_r_transferee 0 x else x) in T;
        assert (F : r_state rb = RLeader /\ r_term rb = r_term (rn_raft n) /\ r_trk rb = r_trk (rn_raft n) /\ (rb = rn_raft n \/ rb = set_r_transferee 0 (rn_raft n))) by (unfold rb; destruct b; auto) end.
      clearbody rb. destruct F as (F1 & F2 & F3 & F4). match type of T with (if ?b then _ else _) = _ => destruct b end; [apply Ok_inj in T; subst rb; tauto|].
      right; right. set (r0 := set_r_transferee id (set_r_el_elapsed 0 rb)) in T. exists r0. split; [reflexivity|]. split; [exact F1|]. split; [exact F2|].
      destruct (N.eqb_spec (p_match p) (r_last r0)) as [Q|Q].
      - eapply send_timeout_now_sends; [| |exact Q|exact T]; [reflexivity|]. unfold r0. cbn. rewrite F3. exact Hp.
      - eapply send_append_sends; eauto. }
    destruct K as [K|[K|(r0 & K1 & K2 & K3 & S)]]; [rewrite K in Ht'; congruence|rewrite K in Ht'; cbn in Ht'; congruence|].
    rewrite (sm_el _ _ (sd_same _ _ S)), (sm_state _ _ (sd_same _ _ S)), (sm_term _ _ (sd_same _ _ S)). auto. }
  destruct El as (E1 & E2 & E3).
  assert (W : w_inv (r_term (rn_raft n)) id 0 n1) by (right; rewrite Hn; cbn [rn_raft set_rn_raft]; rewrite Hn in Ht; auto).
  pose proof (made_inv _ _ M1) as MI. assert (Hcfg : r_cfg (rn_raft n1) = cfg_of c) by exact (mi_cfg _ _ MI).
  assert (V : vself (rn_raft n1)).
  { apply node_at_vself. destruct M1 as (tape & s & n0 & os' & outs' & X). exists c, tape, s, n0, os', outs'. exact X. }
  apply (w_inv_run _ _ os n1 n2 outs 0 (mi_dinv _ _ MI) V Hok Hr) in W.
  - destruct W as [W|(_ & _ & W & _)]; [exfalso; exact (lost_leader _ _ L2 T2 W)|exact W].
  - replace (r_id (rn_raft n1)) with (c_id c) by (unfold r_id; rewrite Hcfg; reflexivity). exact Ho.
  - rewrite Hcfg. cbn. lia.
Qed.
End Props.
#[local] Existing Instance ex_env.
Definition toldb (id : N) (ms : list msg) : bool := existsb (fun x => mtype_eqb (m_type x) MsgTimeoutNow && (m_to x =? id)) ms.
(** The leader of {1, 2, 3}: 2 holds everything, 3 lacks entry 8. *)
Example C69_example_now : exists n n' outs ms, made (ex_cfg 1) n /\ n_run_ok [NTransferLeader 2] n /\ n_run [NTransferLeader 2] n = Ok (n', outs) /\
  emitted n outs n' ms /\ (role_eqb (node_role n) RLeader && (transferee n =? 0) && (transferee n' =? 2) && toldb 2 ms)%bool = true.
Proof. apply (flow_case_ok (ex_cfg 1) ex_tape ex_repl [NTransferLeader 2] (fun n ms n' => role_eqb (node_role n) RLeader && (transferee n =? 0) && (transferee n' =? 2) && toldb 2 ms)%bool). vm_compute. reflexivity. Qed.
Example C69_example_switch : exists n n' outs ms, made (ex_cfg 1) n /\ n_run_ok [NTransferLeader 2] n /\ n_run [NTransferLeader 2] n = Ok (n', outs) /\
  emitted n outs n' ms /\ (role_eqb (node_role n) RLeader && (transferee n =? 3) && (transferee n' =? 2) && toldb 2 ms)%bool = true.
Proof. apply (flow_case_ok (ex_cfg 1) ex_tape (ex_repl ++ [NTransferLeader 3]) [NTransferLeader 2] (fun n ms n' => role_eqb (node_role n) RLeader && (transferee n =? 3) && (transferee n' =? 2) && toldb 2 ms)%bool). vm_compute. reflexivity. Qed.
Example C69_example_behind : exists n n' outs ms, made (ex_cfg 1) n /\ n_run_ok [NTransferLeader 3] n /\ n_run [NTransferLeader 3] n = Ok (n', outs) /\
  emitted n outs n' ms /\ (role_eqb (node_role n) RLeader && (transferee n' =? 3) && negb (toldb 3 ms) && sentb n 3 7 ms &&
    match peer n 3 with Some p => negb (p_match p =? node_last n) && negb (p_probe_sent p) && (p_next p =? 7) | None => false end)%bool = true.
Proof. apply (flow_case_ok (ex_cfg 1) ex_tape (ex_elect ++ [NStep (ex_app_resp 3 3 6); NReportUnreachable 3; NHandle]) [NTransferLeader 3] (fun n ms n' => role_eqb (node_role n) RLeader && (transferee n' =? 3) && negb (toldb 3 ms) && sentb n 3 7 ms &&
    match peer n 3 with Some p => negb (p_match p =? node_last n) && negb (p_probe_sent p) && (p_next p =? 7) | None => false end)%bool). vm_compute. reflexivity. Qed.
Example C69_example_cancel : exists n n' outs ms, made (ex_cfg 1) n /\ n_run_ok [NTransferLeader 1] n /\ n_run [NTransferLeader 1] n = Ok (n', outs) /\
  emitted n outs n' ms /\ (role_eqb (node_role n) RLeader && (transferee n =? 3) && (transferee n' =? 0) && is_nil ms)%bool = true.
Proof. apply (flow_case_ok (ex_cfg 1) ex_tape (ex_repl ++ [NTransferLeader 3]) [NTransferLeader 1] (fun n ms n' => role_eqb (node_role n) RLeader && (transferee n =? 3) && (transferee n' =? 0) && is_nil ms)%bool). vm_compute. reflexivity. Qed.
Example C69_example_caught_up : exists n n' outs ms, made (ex_cfg 1) n /\ n_run_ok [NStep (ex_app_resp 3 3 8)] n /\ n_run [NStep (ex_app_resp 3 3 8)] n = Ok (n', outs) /\
  emitted n outs n' ms /\ (role_eqb (node_role n) RLeader && (transferee n =? 3) && (node_last n =? 8) && toldb 3 ms)%bool = true.
Proof. apply (flow_case_ok (ex_cfg 1) ex_tape (ex_repl ++ [NTransferLeader 3]) [NStep (ex_app_resp 3 3 8)] (fun n ms n' => role_eqb (node_role n) RLeader && (transferee n =? 3) && (node_last n =? 8) && toldb 3 ms)%bool). vm_compute. reflexivity. Qed.
(** Told to campaign, a follower with PreVote on asks 2 and 3 for their votes at once. *)
Definition ex_told : msg := set_m_term 2 (set_m_from 2 (set_m_to 1 (new_msg MsgTimeoutNow))).
Example C69_example_timeout_now : exists n n' out, node_at n /\ nop_ok (NStep ex_told) n /\ n_step (NStep ex_told) n = Ok (n', out) /\
  (role_eqb (node_role n) RFollower && (node_term n =? 2) && role_eqb (node_role n') RCandidate && (node_applied n <? node_commit n) && promotable (rn_raft n) &&
   match pending n' with [x; y] => (m_to x =? 2) && (m_to y =? 3) && String.eqb (m_ctx x) "CampaignTransfer" | _ => false end)%bool = true.
Proof. apply (case_ok ex_cfg_pv ex_tape [] (NStep ex_told) (fun n n' _ => role_eqb (node_role n) RFollower && (node_term n =? 2) && role_eqb (node_role n') RCandidate && (node_applied n <? node_commit n) && promotable (rn_raft n) &&
   match pending n' with [x; y] => (m_to x =? 2) && (m_to y =? 3) && String.eqb (m_ctx x) "CampaignTransfer" | _ => false end)%bool). vm_compute. reflexivity. Qed.
(** A follower of node 2 that checks the quorum, within its lease, votes for node 3 nevertheless. *)
Definition ex_cfg_cq : config := mkConfig 1 10 1 (Some ex_storage) 0 1000 1000 0 4 true false RoSafe false.
Definition ex_tvote (ctx : string) : msg := set_m_ctx ctx (set_m_logterm 3 (set_m_index 9 (set_m_term 4 (set_m_from 3 (set_m_to 1 (new_msg MsgVote)))))).
Definition ex_hb2 : msg := set_m_term 3 (set_m_from 2 (set_m_to 1 (new_msg MsgHeartbeat))).
Example C69_example_lease : exists n n' out, node_at n /\ nop_ok (NStep (ex_tvote "CampaignTransfer")) n /\ n_step (NStep (ex_tvote "CampaignTransfer")) n = Ok (n', out) /\
  (in_lease (rn_raft n) && (node_term n' =? 4) && match n_step (NStep (ex_tvote "")) n with Ok (n'', _) => node_term n'' =? 3 | _ => false end)%bool = true.
Proof. apply (case_ok ex_cfg_cq ex_tape [NStep ex_hb2; NHandle] (NStep (ex_tvote "CampaignTransfer")) (fun n n' _ => in_lease (rn_raft n) && (node_term n' =? 4) && match n_step (NStep (ex_tvote "")) n with Ok (n'', _) => node_term n'' =? 3 | _ => false end)%bool). vm_compute. reflexivity. Qed.
(** Removing the transferee 3 ends the transfer; adding a node leaves it pending. *)
Definition ex_rm3 : nop := NApplyCC (CCv1 (mkConfChange CcRemoveNode 3 EmptyString 0)).
Example C69_example_removed : exists n n' out, node_at n /\ nop_ok ex_rm3 n /\ n_step ex_rm3 n = Ok (n', out) /\
  (role_eqb (node_role n) RLeader && (transferee n =? 3) && (transferee n' =? 0) && smem 1 (node_incoming n') && match n_step ex_add4 n with Ok (n'', _) => transferee n'' =? 3 | _ => false end)%bool = true.
Proof. apply (case_ok (ex_cfg 1) ex_tape (ex_repl ++ [NTransferLeader 3]) ex_rm3 (fun n n' _ => role_eqb (node_role n) RLeader && (transferee n =? 3) && (transferee n' =? 0) && smem 1 (node_incoming n') && match n_step ex_add4 n with Ok (n'', _) => transferee n'' =? 3 | _ => false end)%bool). vm_compute. reflexivity. Qed.
(** Nine ticks, one short of the election timeout, with the 3 silent: the transfer is still pending. *)
Definition ex_wait : list nop := NTransferLeader 3 :: repeat NTick 9.
Example C69_example_patience : exists n n' outs ms, made (ex_cfg 1) n /\ n_run_ok ex_wait n /\ n_run ex_wait n = Ok (n', outs) /\
  emitted n outs n' ms /\ (role_eqb (node_role n) RLeader && role_eqb (node_role n') RLeader && (transferee n =? 0) && (transferee n' =? 3) && (clock (repeat NTick 9) =? 9))%bool = true.
Proof. apply (flow_case_ok (ex_cfg 1) ex_tape (ex_repl ++ repeat NTick 5 ++ [NHandle]) ex_wait (fun n ms n' => role_eqb (node_role n) RLeader && role_eqb (node_role n') RLeader && (transferee n =? 0) && (transferee n' =? 3) && (clock (repeat NTick 9) =? 9))%bool). vm_compute. reflexivity. Qed.
