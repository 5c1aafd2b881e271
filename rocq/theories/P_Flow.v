(** Flow control of a leader: one call = one incoming event for the follower's flow-control state,
    followed by sending. *)
From Verif Require Import Prelude Types M_Util M_Quorum M_Inflights M_Progress M_Tracker.
From Verif Require Import M_Storage M_Unstable M_Log M_ReadOnly M_ConfPb M_ConfChange M_Raft M_RawNode.
From Verif Require Import P_Inflights Spec_Log P_Lists P_Log P_Frame P_Prim Sys_Node P_Node P_Fields P_Vote Spec_Node P_New P_Time P_Handle P_NodeRun P_Emit P_Lead P_Transfer.

Section Flow.
Context {E : Env}.

Definition pact (p p' : progress) : Prop := exists b, p' = set_p_active b p.
Lemma pact_refl p : pact p p. Proof. exists (p_active p). destruct p; reflexivity. Qed.
Lemma pact_trans a b c : pact a b -> pact b c -> pact a c.
Proof. intros [x ->] [y ->]. exists y. reflexivity. Qed.
Lemma pact_set b p : pact p (set_p_active b p). Proof. exists b; auto. Qed.

(** What a message from the follower itself does to its flow-control state. *)
Definition onack (i : N) (p p' : progress) : Prop :=
  let '(p1, u) := pr_maybe_update i (set_p_active true p) in if u then ack_progress i p1 = Ok p' else p' = p1.
Definition onrej (i h : N) (p p' : progress) : Prop :=
  let '(p1, ok) := pr_maybe_decr_to i h (set_p_active true p) in
  p' = if ok && pstate_eqb (p_state p1) StReplicate then pr_become_probe p1 else p1.
Definition onbeat (p p' : progress) : Prop :=
  let p0 := set_p_probe_sent false (set_p_active true p) in
  if pstate_eqb (p_state p0) StReplicate && inf_full (p_infl p0)
  then exists inf, inf_free_first_one (p_infl p0) = Ok inf /\ p' = set_p_infl inf p0 else p' = p0.
Definition onstatus (rej : bool) (p p' : progress) : Prop :=
  match p_state p with
  | StSnapshot => p' = set_p_probe_sent true (pr_become_probe (if rej then set_p_pending 0 p else p))
  | _ => p' = p
  end.
Definition onunreach (p p' : progress) : Prop :=
  p' = if pstate_eqb (p_state p) StReplicate then pr_become_probe p else p.
Definition rin (m : msg) (p p' : progress) : Prop :=
  match m_type m with
  | MsgAppResp => if m_reject m then exists h, onrej (m_index m) h p p' else onack (m_index m) p p'
  | MsgHeartbeatResp => onbeat p p'
  | MsgSnapStatus => onstatus (m_reject m) p p'
  | MsgUnreachable => onunreach p p'
  | _ => False
  end.

(** Next stays above Match. *)
Definition mnle (p p' : progress) : Prop := p_match p < p_next p -> p_match p' < p_next p'.
Lemma mnle_pact p p' : pact p p' -> mnle p p'. Proof. intros [b ->] X. exact X. Qed.
Lemma mnle_update i p p' b : pr_maybe_update i p = (p', b) -> mnle p p'.
Proof.
  unfold pr_maybe_update, mnle. intros H. destruct p as [pm pn ps pp pa pb pf pl]. cbn in *.
  destruct (N.ltb_spec pm i); inversion H; subst; cbn; destruct (N.leb_spec pn i); cbn; try lia.
Qed.
Record taken (m : msg) (r r1 : raft) : Prop := {
  tk_msgs : r_msgs r1 = r_msgs r;
  tk_state : r_state r1 = r_state r;
  tk_term : r_term r1 = r_term r;
  tk_cfg : r_cfg r1 = r_cfg r;
  tk_maxinf : t_max_inflight (r_trk r1) = t_max_inflight (r_trk r);
  tk_prs : forall to, to <> r_id r ->
    match trk_get to (r_trk r), trk_get to (r_trk r1) with
    | Some p, Some p' => pact p p' \/ (m_from m = to /\ rin m p p')
    | None, None => True
    | _, _ => False
    end;
  tk_self : forall p', trk_get (r_id r) (r_trk r1) = Some p' -> exists p, trk_get (r_id r) (r_trk r) = Some p /\
    (mnle p p' \/ (m_from m = r_id r /\ rin m p p'))
}.
Lemma taken_same m r r1 : r_msgs r1 = r_msgs r -> r_state r1 = r_state r -> r_term r1 = r_term r -> r_cfg r1 = r_cfg r ->
  r_trk r1 = r_trk r -> taken m r r1.
Proof.
  intros H1 H2 H3 H4 H5. constructor; auto; [congruence| |].
  - intros to _. rewrite H5. destruct (trk_get to _); auto using pact_refl.
  - rewrite H5. intros p' Hg. exists p'. split; auto. left. intros X; exact X.
Qed.
Lemma taken_refl m r : taken m r r. Proof. apply taken_same; auto. Qed.
Lemma taken_put m p p' r r1 : trk_get (m_from m) (r_trk r) = Some p -> rin m p p' ->
  r_msgs r1 = r_msgs r -> r_state r1 = r_state r -> r_term r1 = r_term r -> r_cfg r1 = r_cfg r ->
  r_trk r1 = r_trk (put_progress (m_from m) p' r) -> taken m r r1.
Proof.
  intros Hg Hr H1 H2 H3 H4 H5. constructor; auto; [rewrite H5; reflexivity| |].
  - intros to _. rewrite H5. unfold trk_get in *. cbn. rewrite mget_mset.
    destruct (N.eqb_spec to (m_from m)) as [->|]; [rewrite Hg; auto|]. destruct (mget to _); auto using pact_refl.
  - rewrite H5. unfold trk_get in *. cbn. intros q. rewrite mget_mset. destruct (N.eqb_spec (r_id r) (m_from m)) as [Eq|].
    + intros Hq. injection Hq as <-. exists p. rewrite Eq. auto.
    + intros Hq. exists q. split; auto. left. intros X; exact X.
Qed.
Lemma taken_self m p p0 r r1 : trk_get (r_id r) (r_trk r) = Some p0 -> mnle p0 p -> r_msgs r1 = r_msgs r -> r_state r1 = r_state r -> r_term r1 = r_term r -> r_cfg r1 = r_cfg r ->
  r_trk r1 = r_trk (put_progress (r_id r) p r) -> taken m r r1.
Proof.
  intros Hg Hm H1 H2 H3 H4 H5. constructor; auto; [rewrite H5; reflexivity| |].
  - intros to Ht. rewrite H5. unfold trk_get in *. cbn. rewrite mget_mset.
    destruct (N.eqb_spec to (r_id r)) as [->|]; [congruence|]. destruct (mget to _); auto using pact_refl.
  - rewrite H5. unfold trk_get in *. cbn. intros q. rewrite mget_mset, N.eqb_refl. intros Hq. injection Hq as <-. eauto.
Qed.

Lemma append_taken m es r r' : append_entry es r = Ok (Some r') -> taken m r r'.
Proof.
  intros Ha. apply append_entry_inv in Ha. destruct Ha as (_ & l0 & li & pr & pr' & u & b & G1 & G2 & G3 & G4).
  apply raft_maybe_commit_state in G4. destruct G4 as [l ->].
  apply (taken_self m pr' pr); try reflexivity; auto. eapply mnle_update; eauto.
Qed.
(** Sending, or answering a vote request. *)
Definition quiet (r r' : raft) : Prop :=
  r_trk r' = r_trk r /\ r_log r' = r_log r /\ r_cfg r' = r_cfg r /\ exists ms, r_msgs r' = r_msgs r ++ ms /\ Forall idle ms.
Definition fsend (r r' : raft) : Prop := sends r r' \/ quiet r r'.
Lemma fsend_flows r r' : fsend r r' -> flows r r'.
Proof.
  intros [H|(H1 & _ & _ & ms & H2 & H3)]; [apply H|]. intros to p ms' Hg Hm. rewrite H2 in Hm. apply app_inv_head in Hm. subst ms'.
  exists p. rewrite H1. split; auto. apply pflow_others. intros m Hi. right. rewrite Forall_forall in H3. exact (H3 _ Hi).
Qed.
Lemma quiet_send m r r' : idle m -> send m r = Ok r' -> quiet r r'.
Proof.
  intros Hi H. apply send_ok in H. destruct H as [-> _]. repeat split. exists [outm r m]. split; [reflexivity|]. constructor; auto.
  destruct m as [ty a b c d e f g h i j k]. unfold idle, outm in *. cbn in Hi |- *. destruct (b =? 0), ty; cbn; auto.
Qed.
Definition lflow (m : msg) (r r' : raft) : Prop := exists r1, taken m r r1 /\ fsend r1 r'.
Lemma lflow_taken m r r' : taken m r r' -> lflow m r r'.
Proof. intros H. exists r'. split; auto. left. apply sends_refl. Qed.
Lemma lflow_refl m r : lflow m r r. Proof. apply lflow_taken, taken_refl. Qed.
Lemma lflow_sends m r r' : sends r r' -> lflow m r r'.
Proof. intros H. exists r. split; [apply taken_refl|left; auto]. Qed.

Lemma reset_self m r r1 r2 : (forall p', trk_get (r_id r) (r_trk r1) = Some p' -> exists p, trk_get (r_id r) (r_trk r) = Some p /\
    (mnle p p' \/ (m_from m = r_id r /\ rin m p p'))) -> r_id r1 = r_id r -> r_trk r2 = set_t_progress (mmap (fun id p => if id =? r_id r1 then p else set_p_active false p) (t_progress (r_trk r1))) (r_trk r1) ->
  forall p', trk_get (r_id r) (r_trk r2) = Some p' -> exists p, trk_get (r_id r) (r_trk r) = Some p /\ (mnle p p' \/ (m_from m = r_id r /\ rin m p p')).
Proof.
  intros H Hid E2 p' Hp. rewrite E2 in Hp. unfold trk_get in Hp. cbn in Hp. rewrite mget_mmap, Hid, N.eqb_refl in Hp.
  apply H. unfold trk_get. destruct (mget (r_id r) (t_progress (r_trk r1))); exact Hp.
Qed.

Lemma leader_flow m r r' e : r_state r = RLeader -> step_leader m r = Ok (r', e) -> r_state r' = RLeader -> lflow m r r'.
Proof.
  intros Hl H Hl'. unfold step_leader in H.
  destruct (m_type m) eqn:Ht;
    try (destruct (trk_get (m_from m) (r_trk r)) as [pr|] eqn:Hg; [|inv H; apply lflow_refl]);
    try (inv H; apply lflow_refl; fail);
    try (unfold okr in H; apply bind_ok in H; destruct H as (r1 & H & Hx); apply Ok_inj, pair_equal_spec in Hx; destruct Hx as [-> _]).
  - (* Beat *) unfold bcast_heartbeat in H. apply bcast_heartbeat_ctx_sends in H. apply lflow_sends; auto.
  - (* Prop *) unfold leader_prop in H. destruct (is_nil (m_entries m)); [discriminate|].
    destruct (trk_get (r_id r) (r_trk r)) as [ps|] eqn:Hsf; [|inv H; apply lflow_refl].
    destruct (negb (r_transferee r =? 0)); [inv H; apply lflow_refl|].
    apply bind_ok in H. destruct H as ([es r1] & Hf & H). apply filter_prop_fields in Hf. destruct Hf as [k ->].
    apply bind_ok in H. destruct H as ([r2|] & Ha & H).
    + apply append_entry_inv in Ha. destruct Ha as (_ & l0 & li & pr & pr' & u & b & G1 & G2 & G3 & G4).
      apply raft_maybe_commit_state in G4. destruct G4 as [l ->].
      unfold okr in H. apply bind_ok in H. destruct H as (r3 & H & Hx). inv Hx.
      apply bcast_append_sends in H. eexists. split; [|left; exact H].
      apply (taken_self m pr' pr); try reflexivity; auto. eapply mnle_update; eauto.
    + inv H. apply lflow_taken, taken_same; reflexivity.
  - (* AppResp *) unfold leader_app_resp in H. destruct (m_reject m) eqn:Hrj.
    + unfold leader_app_resp_reject in H. apply bind_ok in H. destruct H as (probe & _ & H).
      destruct (pr_maybe_decr_to _ _ _) as [pr1 ok] eqn:Hd.
      assert (R : rin m pr (if ok && pstate_eqb (p_state pr1) StReplicate then pr_become_probe pr1 else pr1)).
      { unfold rin. rewrite Ht, Hrj. exists probe. unfold onrej. rewrite Hd. reflexivity. }
      destruct ok.
      * apply send_append_sends in H. eexists. split; [|left; exact H]. eapply taken_put; try reflexivity; eauto.
      * inv H. apply lflow_taken. eapply taken_put; try reflexivity; eauto.
    + unfold leader_app_resp_accept in H. destruct (pr_maybe_update _ _) as [pr1 upd] eqn:Hu.
      assert (R : forall p', (if upd then ack_progress (m_index m) pr1 = Ok p' else p' = pr1) -> rin m pr p').
      { intros p' Hp. unfold rin. rewrite Ht, Hrj. unfold onack. rewrite Hu. exact Hp. }
      destruct upd.
      2:{ inv H. apply lflow_taken. eapply taken_put; try reflexivity; eauto. }
      apply bind_ok in H. destruct H as (pr2 & Hp2 & H). apply bind_ok in H. destruct H as ([r2 com] & Hc & H).
      apply raft_maybe_commit_state in Hc. destruct Hc as [l ->].
      apply bind_ok in H. destruct H as (r3 & H3 & H). apply bind_ok in H. destruct H as (r4 & H4 & H).
      set (r2 := set_r_log l (put_progress (m_from m) pr2 r)) in *.
      assert (S3 : sends r2 r3).
      { destruct com; [apply bind_ok in H3; destruct H3 as (r5 & X1 & X2); apply release_pending_reads_sends in X1; apply bcast_append_sends in X2; eapply sends_trans; eauto|].
        destruct (pr_is_paused _); [apply send_append_sends in H3; auto|]. inv H3. apply sends_refl. }
      apply send_all_sends in H4. pose proof (sends_trans _ _ _ S3 H4) as S4.
      assert (P2 : p_match pr2 = p_match pr1).
      { pose proof (ack_progress_keep _ _ _ Hp2) as (X & _). exact X. }
      assert (S5 : sends r2 r').
      { destruct (_ && _) eqn:Hb in H; [|inv H; auto]. apply andb_prop in Hb. destruct Hb as [B1 B2]. apply N.eqb_eq in B1, B2.
        destruct (prs_same_get _ _ (m_from m) pr2 (sd_prs _ _ S4)) as (p4 & G4 & Q4).
        { unfold r2, trk_get, put_progress. cbn. rewrite mget_mset, N.eqb_refl. reflexivity. }
        eapply sends_trans; [exact S4|]. eapply send_timeout_now_sends; [| | |exact H]; eauto. destruct Q4 as [Q4 _]. congruence. }
      exists r2. split; [|left; exact S5]. eapply taken_put; try reflexivity; eauto.
  - (* HeartbeatResp *) unfold leader_heartbeat_resp in H. apply bind_ok in H. destruct H as (pr1 & Hb & H). apply bind_ok in H. destruct H as (r2 & H2 & H).
    set (r0 := put_progress (m_from m) pr1 r) in *. assert (S2 : sends r0 r2) by (destruct (_ <? _) in H2; [apply send_append_sends in H2; auto|inv H2; apply sends_refl]).
    assert (S3 : sends r0 r').
    { match type of H with (if ?b then _ else _) = _ => destruct b end; [inv H; auto|].
      destruct (ro_recv_ack (m_from m) (m_ctx m) (r_ro r2)) as [ro acks] eqn:Hr. pose proof (ro_ack_opt (m_from m) (m_ctx m) (r_ro r2)) as Ho. rewrite Hr in Ho. cbn in Ho.
      assert (S3 : sends r0 (set_r_ro ro r2)) by (eapply sends_trans; [exact S2|apply sends_ro; auto]).
      destruct (tc_vote_result _ acks) in H; try (inv H; auto; fail).
      apply bind_ok in H. destruct H as ([ro' rss] & Hadv & H). apply ro_advance_opt in Hadv.
      eapply sends_trans; [exact S3|]. eapply sends_trans; [apply (sends_ro ro'); auto|].
      apply (mfold_inv (fun rs r => response_to_read_index (ris_req rs) (ris_index rs) r) sends) in H; auto using sends_refl; [intros; eapply sends_trans; eauto|].
      intros a s s' _ Hs. eapply response_to_read_index_sends; eauto. }
    exists r0. split; [|left; exact S3]. eapply taken_put; try reflexivity; eauto.
    unfold rin. rewrite Ht. unfold onbeat. match type of Hb with (if ?b then _ else _) = _ => destruct b end; [|inv Hb; reflexivity].
    apply bind_ok in Hb. destruct Hb as (inf & Hb & Hx). inv Hx. eauto.
  - (* Unreachable *) inv H. unfold leader_unreachable. apply lflow_taken. destruct (pstate_eqb (p_state pr) StReplicate) eqn:Hs; [|apply taken_refl].
    eapply taken_put; try reflexivity; eauto. unfold rin. rewrite Ht. unfold onunreach. rewrite Hs. reflexivity.
  - (* SnapStatus *) inv H. unfold leader_snap_status. apply lflow_taken. destruct (p_state pr) eqn:Hs; try apply taken_refl.
    eapply taken_put; try reflexivity; eauto. unfold rin. rewrite Ht. unfold onstatus. rewrite Hs. destruct (m_reject m); reflexivity.
  - (* CheckQuorum *) inv H. revert Hl'. unfold leader_check_quorum. cbv zeta.
    set (r1 := match trk_get (r_id r) (r_trk r) with Some _ => _ | None => _ end) in *.
    assert (T1 : taken m r r1).
    { unfold r1. destruct (trk_get (r_id r) (r_trk r)) as [ps|] eqn:Hsf; [|apply taken_refl].
      eapply taken_self; try reflexivity; [exact Hsf|]. apply mnle_pact, pact_set. }
    clearbody r1. destruct (trk_quorum_active (r_trk r1)).
    + intros _. apply lflow_taken. destruct T1 as [T1 T2 T3 T4 T5 T6 T7]. constructor; auto; [|apply (reset_self _ _ _ _ T7); [unfold r_id; congruence|reflexivity]].
      intros to Hto. specialize (T6 to Hto). unfold trk_get in *. cbn. rewrite mget_mmap. destruct (mget to (t_progress (r_trk r))) as [p|], (mget to (t_progress (r_trk r1))) as [p1|]; cbn; try tauto.
      assert (P : pact p1 (if to =? r_id r1 then p1 else set_p_active false p1)) by (destruct (to =? r_id r1); auto using pact_refl, pact_set).
      destruct T6 as [T6|[_ T6]]; [left; eapply pact_trans; eauto|]. unfold rin in T6. rewrite Ht in T6. destruct T6.
    + hide (become_follower (r_term r1) 0 r1) r2 E2. destruct (become_follower_fields _ _ _ _ E2) as (A1&A2&A3&A4&A5&A6&A7&_). clear E2.
      cbn. congruence.
  - (* TransferLeader *) unfold leader_transfer in H. destruct (p_learner pr); [inv H; apply lflow_refl|].
    destruct (_ && _) in H; [inv H; apply lflow_refl|].
    set (r0 := if negb (r_transferee r =? 0) then set_r_transferee 0 r else r) in *.
    assert (T0 : taken m r r0) by (unfold r0; destruct (negb _); apply taken_same; reflexivity).
    assert (F3 : r_trk r0 = r_trk r) by (unfold r0; destruct (negb _); auto).
    clearbody r0. destruct (_ =? r_id r0) in H; [inv H; apply lflow_taken; auto|].
    set (r2 := set_r_transferee (m_from m) (set_r_el_elapsed 0 r0)) in *.
    exists r2. split; [destruct T0; constructor; auto|]. left.
    destruct (N.eqb_spec (p_match pr) (r_last r2)); [|apply send_append_sends in H; auto].
    eapply send_timeout_now_sends; [| | |exact H]; eauto. unfold r2. cbn. rewrite F3. exact Hg.
  - (* ReadIndex *) apply lflow_sends.
    unfold leader_read_index in H. destruct (trk_is_singleton (r_trk r)); [eapply response_to_read_index_sends; eauto|].
    apply bind_ok in H. destruct H as (ok & _ & H). destruct ok; [eapply send_read_index_response_sends; eauto|]. inv H. apply sends_pend.
Qed.

Lemma step_vote_flow im m r r' : vself r -> r_state r = RLeader -> (m_type m = MsgVote \/ m_type m = MsgPreVote) ->
  step_vote m r = Ok r' -> lflow im r r'.
Proof.
  intros V Hl Ht H. unfold step_vote in H. cbv zeta in H. apply bind_ok in H. destruct H as (up & Hup & H). apply bind_ok in H. destruct H as (rt & Hrt & H).
  assert (Hi : rt <> MsgApp /\ rt <> MsgSnap) by (destruct Ht as [Ht|Ht]; rewrite Ht in Hrt; inv Hrt; split; discriminate).
  exists r. split; [apply taken_refl|]. right. destruct up.
  - apply bind_ok in H. destruct H as (r1 & H1 & H). apply quiet_send in H1; [|exact Hi]. destruct (mtype_eqb (m_type m) MsgVote); inv H; auto.
  - apply quiet_send in H; [|exact Hi]. auto.
Qed.
Lemma dispatch_flow m r r' e : vself r -> r_state r = RLeader -> step_dispatch m r = Ok (r', e) -> r_state r' = RLeader -> lflow m r r'.
Proof.
  intros V Hl H Hl'. unfold step_dispatch in H. rewrite Hl in H.
  destruct (m_type m) eqn:Ht; try (eapply leader_flow; eauto; fail);
    unfold okr in H; apply bind_ok in H; destruct H as (r1 & H & Hx); apply Ok_inj, pair_equal_spec in Hx; destruct Hx as [<- _].
  - apply hup_adds in H. destruct H as [_ B]. rewrite (B Hl). apply lflow_refl.
  - eapply step_vote_flow; eauto.
  - eapply step_vote_flow; eauto.
Qed.
Lemma taken_strip m m' r r1 : (forall p p', ~ rin m p p') -> taken m r r1 -> taken m' r r1.
Proof.
  intros Hn [T1 T2 T3 T4 T5 T6 T7]. constructor; auto.
  - intros to Hto. specialize (T6 to Hto).
    destruct (trk_get to (r_trk r)), (trk_get to (r_trk r1)); auto. destruct T6 as [T6|[_ T6]]; auto. destruct (Hn _ _ T6).
  - intros p' Hp. destruct (T7 _ Hp) as (p & Hg & [X|[_ X]]); eauto. destruct (Hn _ _ X).
Qed.
(** The message takes effect only if it is local or of the leader's term. *)
Definition heard (m : msg) (r : raft) (im : msg) : Prop :=
  im = m /\ (m_term m = 0 \/ m_term m = r_term r) \/ im = new_msg MsgHup.
Lemma step_flow m r r' e : wf_in m -> vself r -> r_state r = RLeader -> step m r = Ok (r', e) -> r_state r' = RLeader -> r_term r' = r_term r ->
  exists im, heard m r im /\ lflow im r r'.
Proof.
  intros Hw V Hl H Hl' Ht'. unfold step in H. destruct (N.eqb_spec (m_term m) 0) as [H0|H0].
  { exists m. split; [left; auto|]. eapply dispatch_flow; eauto. }
  destruct (N.ltb_spec (r_term r) (m_term m)) as [H1|H1].
  - exists (new_msg MsgHup). split; [right; auto|]. destruct (_ && _ && _) in H; [inv H; apply lflow_refl|].
    assert (F : forall l, step_dispatch m (become_follower (m_term m) l r) = Ok (r', e) -> lflow (new_msg MsgHup) r r').
    { clear H. intros l H. exfalso.
      assert (D : disp_ok m (become_follower (m_term m) l r)) by (split; auto; left; rewrite become_follower_term; auto).
      assert (L1 : lost (r_term r) (become_follower (m_term m) l r)) by (left; rewrite become_follower_term; auto).
      hide (become_follower (m_term m) l r) r1 E1. clear E1.
      pose proof (step_dispatch_prims m r1 r' e D H) as P.
      assert (L2 : lost (r_term r) r') by (revert P L1; apply (prims_ind_inv m (lost (r_term r))); intros; eapply prim_lost; eauto).
      exact (lost_leader _ _ Hl' Ht' L2). }
    assert (G : (forall p p', ~ rin m p p') -> step_dispatch m r = Ok (r', e) -> lflow (new_msg MsgHup) r r').
    { clear H. intros Hn H. apply dispatch_flow in H; auto. destruct H as (r1 & T & S). exists r1. split; auto. eapply taken_strip; eauto. }
    destruct (m_type m) eqn:Hty; try (eapply F; exact H); try (destruct (m_reject m) in H; [eapply F; exact H|]);
      (apply G; [unfold rin; rewrite Hty; auto|exact H]).
  - destruct (N.ltb_spec (m_term m) (r_term r)) as [H2|H2].
    + exists (new_msg MsgHup). split; [right; auto|].
      destruct (_ && _) in H; [|destruct (mtype_eqb _ _) in H; [|inv H; apply lflow_refl]];
        unfold okr in H; apply bind_ok in H; destruct H as (r1 & H & Hx); apply Ok_inj, pair_equal_spec in Hx; destruct Hx as [<- _];
        (apply quiet_send in H; [|split; discriminate]); exists r; (split; [apply taken_refl|right; auto]).
    + exists m. split; [left; split; auto; right; lia|]. eapply dispatch_flow; eauto.
Qed.
Lemma taken_pre m a b c : r_msgs b = r_msgs a -> r_state b = r_state a -> r_term b = r_term a -> r_cfg b = r_cfg a -> r_trk b = r_trk a ->
  taken m b c -> taken m a c.
Proof.
  intros H1 H2 H3 H4 H5 [T1 T2 T3 T4 T5 T6 T7]. assert (Hid : r_id b = r_id a) by (unfold r_id; congruence). constructor; try congruence.
  - intros to Hto. specialize (T6 to). rewrite H5 in T6. apply T6. congruence.
  - rewrite Hid, H5 in T7. exact T7.
Qed.
Lemma tick_flow r r' : r_state r = RLeader -> tick r = Ok r' -> r_state r' = RLeader -> lflow (new_msg MsgBeat) r r'.
Proof.
  intros Hs H Hs'. unfold tick in H. rewrite Hs in H. unfold tick_heartbeat in H. cbv zeta in H.
  set (r0 := set_r_el_elapsed (r_el_elapsed r + 1) (set_r_hb_elapsed (r_hb_elapsed r + 1) r)) in *.
  assert (K0 : r_state r0 = RLeader /\ taken (new_msg MsgBeat) r r0) by (split; [exact Hs|apply taken_same; reflexivity]). clearbody r0. destruct K0 as (K1 & K2).
  apply bind_ok in H. destruct H as (r1 & H1 & H).
  assert (A1 : r_state r1 = RLeader -> taken (new_msg MsgBeat) r r1).
  { intros Hl1. destruct (N.leb_spec (k_el_timeout (r_cfg r0)) (r_el_elapsed r0)) as [Hle|Hle]; [|inv H1; auto].
    apply bind_ok in H1. destruct H1 as (r2 & H2 & H1).
    assert (E2 : r_state r2 = RLeader /\ r_msgs r1 = r_msgs r2 /\ r_term r1 = r_term r2 /\ r_cfg r1 = r_cfg r2 /\ r_trk r1 = r_trk r2).
    { destruct (is_leader r2 && _) eqn:Ei in H1; inv H1; repeat split; auto. }
    destruct E2 as (Hl2 & M1 & M2 & M3 & M4). clear H1.
    assert (A2 : taken (new_msg MsgBeat) r r2).
    { match type of H2 with (if ?b then _ else _) = _ => destruct b end; [|inv H2; destruct K2; constructor; auto].
      apply bind_ok in H2. destruct H2 as ([r3 e3] & H2 & Hx). inv Hx.
      match type of H2 with step ?mm ?rr = _ => set (m0 := mm) in H2; set (ra := rr) in H2 end.
      assert (Ha : r_state ra = RLeader /\ taken (new_msg MsgBeat) r ra) by (split; [exact K1|destruct K2; constructor; auto]).
      assert (Hm : m_term m0 = 0 /\ m_type m0 = MsgCheckQuorum) by (split; reflexivity). clearbody m0 ra.
      destruct Ha as [Ha Hb]. destruct Hm as [Hm Hty]. unfold step in H2. rewrite Hm in H2. cbn [N.eqb] in H2. unfold step_dispatch in H2. rewrite Hty, Ha in H2.
      unfold step_leader in H2. rewrite Hty in H2. injection H2 as H2 _. revert Hl2. rewrite <- H2. clear H2. unfold leader_check_quorum. cbv zeta.
      set (r4 := match trk_get (r_id ra) (r_trk ra) with Some _ => _ | None => _ end).
      assert (T4 : taken (new_msg MsgBeat) r r4).
      { unfold r4. destruct (trk_get (r_id ra) (r_trk ra)) as [ps|] eqn:Hsf; [|exact Hb]. destruct Hb as [B1 B2 B3 B4 B5 B6 B7]. assert (Hid : r_id ra = r_id r) by (unfold r_id; congruence). constructor; auto.
        - intros to Hto. specialize (B6 to Hto). unfold trk_get in *. cbn. rewrite mget_mset. destruct (N.eqb_spec to (r_id ra)) as [->|]; auto. congruence.
        - intros p' Hp. unfold trk_get in Hp. cbn in Hp. rewrite mget_mset, Hid, N.eqb_refl in Hp. injection Hp as <-. rewrite Hid in Hsf.
          destruct (B7 _ Hsf) as (p & Hg & X). exists p. split; [exact Hg|]. destruct X as [X|[_ X]]; [|destruct X]. left. intros Y. apply X in Y. exact Y. }
      clearbody r4. destruct (trk_quorum_active (r_trk r4)).
      - intros _. destruct T4 as [T1 T2 T3 T4 T5 T6 T7]. constructor; auto; [|apply (reset_self _ _ _ _ T7); [unfold r_id; congruence|reflexivity]].
        intros to Hto. specialize (T6 to Hto). unfold trk_get in *. cbn. rewrite mget_mmap. destruct (mget to (t_progress (r_trk r))) as [p|], (mget to (t_progress (r_trk r4))) as [p1|]; cbn; try tauto.
        assert (P : pact p1 (if to =? r_id r4 then p1 else set_p_active false p1)) by (destruct (to =? r_id r4); auto using pact_refl, pact_set).
        destruct T6 as [T6|[_ T6]]; [left; eapply pact_trans; eauto|]. destruct T6.
      - hide (become_follower (r_term r4) 0 r4) r5 E2. destruct (become_follower_fields _ _ _ _ E2) as (Z1&Z2&Z3&Z4&Z5&_). clear E2. cbn. congruence. }
    destruct A2 as [B1 B2 B3 B4 B5 B6 B7]. constructor; try congruence; rewrite M4; [exact B6|exact B7]. }
  clear H1. destruct (negb (is_leader r1)) eqn:Hl.
  { inv H. unfold is_leader in Hl. rewrite Hs' in Hl. discriminate. }
  assert (Hl1 : r_state r1 = RLeader) by (unfold is_leader in Hl; destruct (r_state r1); auto; discriminate). clear Hl. specialize (A1 Hl1).
  match type of H with (if ?b then _ else _) = _ => destruct b end; [|inv H; apply lflow_taken; auto].
  apply bind_ok in H. destruct H as ([r3 e3] & H & Hx). inv Hx.
  match type of H with step ?mm ?rr = _ => set (m0 := mm) in H; set (ra := rr) in H end.
  assert (Ha : r_state ra = RLeader /\ taken (new_msg MsgBeat) r ra) by (split; [exact Hl1|destruct A1; constructor; auto]).
  assert (Hm : m_term m0 = 0 /\ m_type m0 = MsgBeat) by (split; reflexivity). clearbody m0 ra.
  destruct Ha as (Ha & Hb). destruct Hm as [Hm Hty]. unfold step in H. rewrite Hm in H. cbn [N.eqb] in H. unfold step_dispatch in H. rewrite Hty, Ha in H.
  apply beat_sends in H; auto. exists ra. split; [auto|left; auto].
Qed.
End Flow.
