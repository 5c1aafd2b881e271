(** The heartbeat clock of a leader. *)
From Verif Require Import Prelude Types M_Util M_Quorum M_Inflights M_Progress M_Tracker.
From Verif Require Import M_Storage M_Unstable M_Log M_ReadOnly M_ConfPb M_ConfChange M_Raft M_RawNode.
From Verif Require Import P_Inflights Spec_Log P_Lists P_Storage P_Log Spec_Storage Sys_Storage P_StorageSeq Spec_RaftLog Sys_RaftLog P_RaftLogSeq.
From Verif Require Import Spec_Quorum P_Quorum.
From Verif Require Import P_Frame P_Prim Sys_Node Sys_ConfChange P_Node P_Fields P_Vote Spec_Node P_Persist P_New P_Time P_NodeLog P_Handle P_NodeRun P_Emit P_Ack.
From Verif Require Import Prop_Vote P_Lead P_Elect.

Section Beat.
Context {E : Env}.

(** The heartbeat clock is kept, or the node steps down. *)
Definition hbk (r r' : raft) : Prop := r_state r' = RFollower \/ (r_state r' = r_state r /\ r_hb_elapsed r' = r_hb_elapsed r).
Lemma hbk_keep r r' : r_state r' = r_state r -> r_hb_elapsed r' = r_hb_elapsed r -> hbk r r'. Proof. unfold hbk. auto. Qed.
Lemma hbk_refl r : hbk r r. Proof. apply hbk_keep; auto. Qed.
Lemma hbk_sends r r' : sends r r' -> hbk r r'.
Proof. intros [[] _ _ _]. apply hbk_keep; auto. Qed.
Lemma step_leader_hb m r r' e : step_leader m r = Ok (r', e) -> hbk r r'.
Proof.
  unfold step_leader.
  assert (P : forall id p, hbk r (put_progress id p r)) by (intros; apply hbk_keep; reflexivity).
  assert (Hrest : match trk_get (m_from m) (r_trk r) with
      | None => Ok (r, None)
      | Some pr =>
          match m_type m with
          | MsgAppResp => okr (leader_app_resp m pr r)
          | MsgHeartbeatResp => okr (leader_heartbeat_resp m pr r)
          | MsgSnapStatus => Ok (leader_snap_status m pr r, None)
          | MsgUnreachable => Ok (leader_unreachable m pr r, None)
          | MsgTransferLeader => okr (leader_transfer m pr r)
          | _ => Ok (r, None)
          end
      end = Ok (r', e) -> hbk r r').
  { destruct (trk_get (m_from m) (r_trk r)) as [pr|] eqn:Hg; [|intros H; inv H; apply hbk_refl].
    destruct (m_type m) eqn:Ht; try (intros H; inv H; apply hbk_refl; fail); unfold okr; intros H.
    - apply bind_ok in H. destruct H as (r1 & H & Hx). inv Hx. unfold leader_app_resp in H. destruct (m_reject m).
      + unfold leader_app_resp_reject in H. apply bind_ok in H. destruct H as (pb & _ & H). destruct (pr_maybe_decr_to _ _ _) as [p1 ok].
        destruct ok; [|inv H; auto]. apply send_append_sends in H. destruct H as [[] _ _ _]. apply hbk_keep; cbn in *; congruence.
      + unfold leader_app_resp_accept in H. destruct (pr_maybe_update _ _) as [p1 ok]. destruct ok; [|inv H; auto].
        apply bind_ok in H. destruct H as (p2 & _ & H). apply bind_ok in H. destruct H as ([r2 cm] & H1 & H).
        apply raft_maybe_commit_state in H1. destruct H1 as [l H1]. apply bind_ok in H. destruct H as (r3 & H2 & H).
        apply bind_ok in H. destruct H as (r4 & H3 & H). apply send_all_sends in H3.
        assert (S23 : sends r2 r3).
        { destruct cm; [apply bind_ok in H2; destruct H2 as (r5 & H5 & H2); eapply sends_trans; [eapply release_pending_reads_sends; eauto|eapply bcast_append_sends; eauto]|].
          match type of H2 with (if ?b then _ else _) = _ => destruct b end; [eapply send_append_sends; eauto|inv H2; apply sends_refl]. }
        assert (S24 : r_state r4 = r_state r /\ r_hb_elapsed r4 = r_hb_elapsed r).
        { pose proof (sd_same _ _ (sends_trans _ _ _ S23 H3)) as []. rewrite H1 in *. cbn in *. auto. }
        destruct S24. destruct (_ && _); [|inv H; apply hbk_keep; cbn in *; congruence]. unfold send_timeout_now in H. apply send_ok in H. destruct H as [-> _].
        apply hbk_keep; cbn in *; congruence.
    - apply bind_ok in H. destruct H as (r1 & H & Hx). inv Hx. unfold leader_heartbeat_resp in H.
      apply bind_ok in H. destruct H as (p1 & _ & H). apply bind_ok in H. destruct H as (r2 & H2 & H).
      assert (S2 : r_state r2 = r_state r /\ r_hb_elapsed r2 = r_hb_elapsed r).
      { match type of H2 with (if ?b then _ else _) = _ => destruct b end; [|inv H2; auto]. apply send_append_sends in H2. destruct H2 as [[] _ _ _]. auto. }
      destruct S2. match type of H with (if ?b then _ else _) = _ => destruct b end; [inv H; apply hbk_keep; cbn in *; congruence|].
      destruct (ro_recv_ack _ _ _) as [ro acks]. destruct (tc_vote_result _ _); try (inv H; apply hbk_keep; cbn in *; congruence; fail).
      apply bind_ok in H. destruct H as ([ro' rss] & _ & H).
      apply (mfold_inv _ sends) in H; [|apply sends_refl|apply sends_trans|intros; eapply response_to_read_index_sends; eauto].
      destruct H as [[] _ _ _]. apply hbk_keep; cbn in *; congruence.
    - unfold leader_unreachable in H. destruct (pstate_eqb _ _); inv H; auto. apply hbk_refl.
    - unfold leader_snap_status in H. destruct (p_state pr); inv H; auto; apply hbk_refl.
    - apply bind_ok in H. destruct H as (r1 & H & Hx). inv Hx. unfold leader_transfer in H. destruct (p_learner pr); [inv H; apply hbk_refl|].
      destruct (_ && _); [inv H; apply hbk_refl|].
      set (r1 := if negb (r_transferee r =? 0) then set_r_transferee 0 r else r) in *.
      assert (K1 : r_state r1 = r_state r /\ r_hb_elapsed r1 = r_hb_elapsed r) by (unfold r1; destruct (negb _); auto). destruct K1. clearbody r1.
      destruct (m_from m =? r_id r1); [inv H; apply hbk_keep; cbn in *; congruence|].
      destruct (_ =? _); [unfold send_timeout_now in H; apply send_ok in H; destruct H as [-> _]; apply hbk_keep; cbn in *; congruence|].
      apply send_append_sends in H. destruct H as [[] _ _ _]. apply hbk_keep; cbn in *; congruence. }
  destruct (m_type m) eqn:Ht; try exact Hrest; clear Hrest; unfold okr; intros H.
  - apply bind_ok in H. destruct H as (r1 & H & Hx). inv Hx. apply hbk_sends. eapply bcast_heartbeat_ctx_sends; eauto.
  - unfold leader_prop in H. destruct (m_entries m) eqn:He; [discriminate|]. cbn [is_nil] in H. rewrite <- He in *.
    destruct (trk_get (r_id r) (r_trk r)); [|inv H; apply hbk_refl].
    destruct (negb _); [inv H; apply hbk_refl|]. apply bind_ok in H. destruct H as ([es r1] & Hf & H).
    apply filter_prop_fields in Hf. destruct Hf as [k ->]. apply bind_ok in H. destruct H as ([r2|] & Ha & H); [|inv H; apply hbk_keep; cbn in *; congruence].
    unfold okr in H. apply bind_ok in H. destruct H as (r3 & H & Hx). inv Hx. apply bcast_append_sends in H. destruct H as [[] _ _ _].
    apply append_entry_fields in Ha. destruct Ha as (l1 & p1 & u1 & ->). apply hbk_keep; cbn in *; congruence.
  - injection H as H _. rewrite <- H. clear H. unfold leader_check_quorum.
    set (r1 := match trk_get (r_id r) (r_trk r) with Some pr => put_progress (r_id r) (set_p_active true pr) r | None => r end).
    assert (K1 : r_state r1 = r_state r /\ r_hb_elapsed r1 = r_hb_elapsed r) by (unfold r1; destruct (trk_get _ _); auto). destruct K1. clearbody r1.
    destruct (trk_quorum_active (r_trk r1)); [apply hbk_keep; cbn in *; congruence|]. left; reflexivity.
  - apply bind_ok in H. destruct H as (r1 & H & Hx). inv Hx. unfold leader_read_index in H. destruct (trk_is_singleton (r_trk r)).
    + apply hbk_sends. eapply response_to_read_index_sends; eauto.
    + apply bind_ok in H. destruct H as (b & _ & H). destruct b.
      * apply hbk_sends. eapply send_read_index_response_sends; eauto.
      * inv H. apply hbk_keep; cbn in *; congruence.
Qed.


(* ---- any message ---- *)
Lemma via_hb r r' : via r r' -> r_hb_elapsed r' = 0 /\ r_term r <= r_term r' /\ (r_state r <> RCandidate -> r_term r < r_term r').
Proof.
  intros (a & b & A1 & A2 & A3 & A4 & A5 & A6 & A7 & A8).
  rewrite (sm_hb _ _ (sd_same _ _ A8)), (sm_term _ _ (sd_same _ _ A8)).
  pose proof (become_leader_all _ _ A7) as X. destruct X as (_ & _ & X & _). rewrite X. clear X.
  split; [|destruct A5 as [A5|[A5 A9]]; split; intros; try lia; congruence].
  apply become_leader_inv in A7. destruct A7 as (pr & r1 & u & H1 & H2 & H3 & ->).
  apply append_entry_fields in H3. destruct H3 as (l & p & u' & ->). reflexivity.
Qed.
Lemma step_dispatch_hb m r r' e : r_state r = RLeader -> step_dispatch m r = Ok (r', e) -> hbk r r'.
Proof.
  intros Hl H. unfold step_dispatch in H. rewrite Hl in H.
  assert (V : step_vote m r = Ok r' -> hbk r r').
  { intros V. unfold step_vote in V. apply bind_ok in V. destruct V as (u & _ & V). apply bind_ok in V. destruct V as (rt & _ & V). destruct u.
    - apply bind_ok in V. destruct V as (r1 & V1 & V). apply send_ok in V1. destruct V1 as [-> _]. destruct (mtype_eqb _ _); inv V; apply hbk_keep; auto.
    - apply send_ok in V. destruct V as [-> _]. apply hbk_keep; auto. }
  destruct (m_type m); try (eapply step_leader_hb; eauto; fail); unfold okr in H; apply bind_ok in H; destruct H as (r1 & H & Hx); inv Hx; auto.
  unfold hup, is_leader in H. rewrite Hl in H. inv H. apply hbk_refl.
Qed.
Definition beats (r r' : raft) : Prop := r_state r' = RLeader ->
  (r_state r = RLeader /\ r_term r' = r_term r /\ r_hb_elapsed r' = r_hb_elapsed r) \/
  (~ (r_state r = RLeader /\ r_term r' = r_term r) /\ r_hb_elapsed r' = 0).
Lemma step_beats m r r' e : step m r = Ok (r', e) -> beats r r'.
Proof.
  intros H Hl'. destruct (step_leads _ _ _ _ H Hl') as [[Hl Ht]|V].
  2:{ apply via_hb in V. destruct V as (V1 & V2 & V3). right. split; [|auto]. intros [X Y]. specialize (V3 ltac:(congruence)). lia. }
  left. split; [auto|split; [auto|]].
  assert (K : hbk r r' -> r_hb_elapsed r' = r_hb_elapsed r) by (intros [X|[_ X]]; [congruence|auto]).
  unfold step in H. destruct (m_term m =? 0); [apply K; eapply step_dispatch_hb; eauto|].
  destruct (N.ltb_spec (r_term r) (m_term m)).
  - destruct (_ && _); [inv H; auto|].
    match type of H with step_dispatch m ?x = _ => assert (Kx : x = r \/ exists l, x = become_follower (m_term m) l r) end.
    { destruct (m_type m); eauto. destruct (m_reject m); eauto. }
    destruct Kx as [Kx|[l Kx]]; rewrite Kx in H; clear Kx; [apply K; eapply step_dispatch_hb; eauto|].
    exfalso. hide (become_follower (m_term m) l r) rx Ex.
    destruct (become_follower_fields _ _ r _ Ex) as (A1&A2&A3&A4&A5&A6&A7&A8&A9&_). clear Ex.
    apply step_dispatch_leads in H. destruct (H Hl') as [[X _]|V]; [congruence|]. apply via_hb in V. lia.
  - destruct (m_term m <? r_term r); [|apply K; eapply step_dispatch_hb; eauto].
    assert (S : forall x, send x r = Ok r' -> r_hb_elapsed r' = r_hb_elapsed r).
    { intros x Hx. apply send_ok in Hx. destruct Hx as [-> _]. auto. }
    unfold okr in H. destruct (_ && _); [apply bind_ok in H; destruct H as (r1 & H & Hx); inv Hx; eapply S; eauto|].
    destruct (mtype_eqb _ _); [apply bind_ok in H; destruct H as (r1 & H & Hx); inv Hx; eapply S; eauto|]. inv H. auto.
Qed.

(* ---- the heartbeats of one tick ---- *)
Definition hbmsg (r : raft) (ctx : string) (to : N) : msg :=
  mkMsg MsgHeartbeat to (r_id r) (r_term r) 0 0 []
    (N.min (match trk_get to (r_trk r) with Some p => p_match p | None => 0 end) (l_committed (r_log r))) empty_snapshot false 0 ctx.
Lemma bcast_hb ctx l : forall r r', mfold (send_heartbeat ctx) l r = Ok r' ->
  r' = set_r_msgs (r_msgs r ++ map (hbmsg r ctx) l) r.
Proof.
  induction l as [|a l IH]; intros r r' H; cbn [mfold] in H.
  - apply Ok_inj in H. subst. cbn. rewrite app_nil_r. destruct r'; reflexivity.
  - apply bind_ok in H. destruct H as (r1 & H1 & H). unfold send_heartbeat in H1.
    destruct (trk_get a (r_trk r)) as [p|] eqn:Hg; [|discriminate]. apply send_ok in H1. destruct H1 as [H1 _].
    assert (E1 : r1 = emit (hbmsg r ctx a) r).
    { rewrite H1. f_equal. unfold outm, hbmsg. rewrite Hg. reflexivity. }
    clear H1. rewrite (IH _ _ H), E1. unfold emit. cbn [r_msgs set_r_msgs]. rewrite <- app_assoc. cbn [map app]. reflexivity.
Qed.
(** The same as far as heartbeats are concerned. *)
Record hsame (r r' : raft) : Prop := {
  hm_msgs : r_msgs r' = r_msgs r;
  hm_hb : r_hb_elapsed r' = r_hb_elapsed r;
  hm_cfg : r_cfg r' = r_cfg r;
  hm_term : r_term r' = r_term r;
  hm_log : r_log r' = r_log r;
  hm_ro : r_ro r' = r_ro r;
  hm_sorted : msorted (t_progress (r_trk r)) -> msorted (t_progress (r_trk r'));
  hm_match : forall id, option_map p_match (trk_get id (r_trk r')) = option_map p_match (trk_get id (r_trk r))
}.
Lemma hsame_refl r : hsame r r. Proof. constructor; auto. Qed.
Lemma hsame_trans a b c : hsame a b -> hsame b c -> hsame a c.
Proof. intros [] []. constructor; try congruence; auto. Qed.
Lemma cq_down (f : raft -> N -> progress -> progress) t l r :
  r_state (let x := become_follower t l r in set_r_trk (set_t_progress (mmap (f x) (t_progress (r_trk x))) (r_trk x)) x) = RFollower.
Proof. reflexivity. Qed.
Lemma cq_stay f r : (forall id p, p_match (f id p) = p_match p) -> hsame r (set_r_trk (set_t_progress (mmap f (t_progress (r_trk r))) (r_trk r)) r).
Proof.
  intros Hf. constructor; try reflexivity; cbn; unfold trk_get; cbn.
  - apply msorted_mmap.
  - intros id. rewrite mget_mmap. destruct (mget id (t_progress (r_trk r))); cbn; [|reflexivity]. rewrite Hf. reflexivity.
Qed.
Lemma cq_active r id p : trk_get id (r_trk r) = Some p -> hsame r (put_progress id (set_p_active true p) r).
Proof.
  intros Hg. constructor; try reflexivity; unfold put_progress, trk_put, trk_get in *; cbn.
  - apply msorted_mset.
  - intros id'. rewrite mget_mset. destruct (N.eqb_spec id' id); [subst; rewrite Hg; reflexivity|reflexivity].
Qed.
Lemma check_quorum_hsame r : r_state (leader_check_quorum r) = RLeader -> hsame r (leader_check_quorum r).
Proof.
  unfold leader_check_quorum.
  assert (K1 : hsame r (match trk_get (r_id r) (r_trk r) with Some pr => put_progress (r_id r) (set_p_active true pr) r | None => r end))
    by (destruct (trk_get (r_id r) (r_trk r)) as [p|] eqn:Hg; [apply cq_active; auto|apply hsame_refl]).
  revert K1. generalize (match trk_get (r_id r) (r_trk r) with Some pr => put_progress (r_id r) (set_p_active true pr) r | None => r end). intros r1 K1.
  destruct (trk_quorum_active (r_trk r1)); intros X.
  - eapply hsame_trans; [exact K1|]. apply cq_stay. intros id p. destruct (id =? _); reflexivity.
  - exfalso. rewrite (cq_down (fun x id pr => if id =? r_id x then pr else set_p_active false pr)) in X. discriminate.
Qed.

Lemma local_leader_step m x y ee : step m x = Ok (y, ee) -> m_term m = 0 -> r_state x = RLeader ->
  (m_type m = MsgCheckQuorum -> y = leader_check_quorum x) /\ (m_type m = MsgBeat -> bcast_heartbeat x = Ok y).
Proof.
  intros H Hz Hx. unfold step in H. rewrite Hz in H. cbn [N.eqb] in H. unfold step_dispatch in H. rewrite Hx in H. split; intros Ht; rewrite Ht in H; unfold step_leader in H; rewrite Ht in H.
  - apply Ok_inj, pair_equal_spec in H. destruct H as [H _]. auto.
  - unfold okr in H. apply bind_ok in H. destruct H as (z & H & Hy). apply Ok_inj, pair_equal_spec in Hy. destruct Hy as [<- _]. auto.
Qed.

Lemma hb_clock r : hsame (set_r_hb_elapsed (r_hb_elapsed r + 1) r) (set_r_el_elapsed (r_el_elapsed r + 1) (set_r_hb_elapsed (r_hb_elapsed r + 1) r)).
Proof. constructor; reflexivity || auto. Qed.

(** A tick of a leader that stays one. *)
Lemma tick_beat r r' : r_state r = RLeader -> tick r = Ok r' -> r_state r' = RLeader ->
  r_term r' = r_term r /\
  (r_hb_elapsed r + 1 < k_hb_timeout (r_cfg r) -> r_hb_elapsed r' = r_hb_elapsed r + 1 /\ r_msgs r' = r_msgs r) /\
  (k_hb_timeout (r_cfg r) <= r_hb_elapsed r + 1 -> r_hb_elapsed r' = 0 /\
     exists r1, hsame (set_r_hb_elapsed 0 r) r1 /\ r_msgs r' = r_msgs r ++ map (hbmsg r1 (ro_last_ctx (r_ro r))) (peer_ids r1)).
Proof.
  intros Hs H Hl'. unfold tick in H. rewrite Hs in H. unfold tick_heartbeat in H. cbv zeta in H.
  pose proof (hb_clock r) as K. assert (K1 : r_state (set_r_el_elapsed (r_el_elapsed r + 1) (set_r_hb_elapsed (r_hb_elapsed r + 1) r)) = RLeader) by exact Hs.
  revert H K K1. generalize (set_r_el_elapsed (r_el_elapsed r + 1) (set_r_hb_elapsed (r_hb_elapsed r + 1) r)). intros r0 H K K1.
  apply bind_ok in H. destruct H as (r1 & H1 & H).
  destruct (negb (is_leader r1)) eqn:Hl.
  { apply Ok_inj in H. subst r1. unfold is_leader in Hl. rewrite Hl' in Hl. discriminate. }
  assert (Hl1 : r_state r1 = RLeader) by (unfold is_leader in Hl; destruct (r_state r1); auto; discriminate). clear Hl.
  assert (L1 : hsame (set_r_hb_elapsed (r_hb_elapsed r + 1) r) r1).
  { match type of H1 with (if ?b then _ else _) = _ => destruct b end; [|apply Ok_inj in H1; subst; auto].
    apply bind_ok in H1. destruct H1 as (r2 & H2 & H1).
    assert (L2 : r_state r2 = RLeader -> hsame (set_r_hb_elapsed (r_hb_elapsed r + 1) r) r2).
    { match type of H2 with (if ?b then _ else _) = _ => destruct b end.
      2:{ apply Ok_inj in H2. subst r2. intros _. eapply hsame_trans; [exact K|]. constructor; reflexivity || auto. }
      apply bind_ok in H2. destruct H2 as ([r3 e3] & H3 & Hx). apply Ok_inj in Hx. subst r3. intros X.
      destruct (local_leader_step _ _ _ _ H3) as [Y _]; [reflexivity|exact K1|]. specialize (Y eq_refl). subst r2.
      eapply hsame_trans; [exact K|]. apply (hsame_trans _ (set_r_el_elapsed 0 r0)); [constructor; reflexivity || auto|]. apply check_quorum_hsame. exact X. }
    destruct (is_leader r2 && negb (r_transferee r2 =? 0)); apply Ok_inj in H1; subst r1; [|auto].
    eapply hsame_trans; [apply L2; exact Hl1|]. constructor; reflexivity || auto. }
  clear H1 K K1 r0. pose proof (hm_hb _ _ L1) as B1. cbn in B1. pose proof (hm_cfg _ _ L1) as B2. cbn in B2. rewrite B1, B2 in H.
  split; [|split].
  - pose proof (hm_term _ _ L1) as B3. cbn in B3. rewrite <- B3. destruct (_ <=? _); [|apply Ok_inj in H; subst; auto].
    apply bind_ok in H. destruct H as ([r3 e3] & H3 & Hx). apply Ok_inj in Hx. subst r3.
    destruct (local_leader_step _ _ _ _ H3) as [_ Y]; [reflexivity|exact Hl1|]. specialize (Y eq_refl). apply bcast_hb in Y. rewrite Y. reflexivity.
  - intros Hlt. destruct (N.leb_spec (k_hb_timeout (r_cfg r)) (r_hb_elapsed r + 1)); [lia|]. apply Ok_inj in H. subst r1. split; auto.
    rewrite (hm_msgs _ _ L1). reflexivity.
  - intros Hge. destruct (N.leb_spec (k_hb_timeout (r_cfg r)) (r_hb_elapsed r + 1)); [|lia].
    apply bind_ok in H. destruct H as ([r3 e3] & H3 & Hx). apply Ok_inj in Hx. subst r3.
    destruct (local_leader_step _ _ _ _ H3) as [_ Y]; [reflexivity|exact Hl1|]. specialize (Y eq_refl). unfold bcast_heartbeat in Y. apply bcast_hb in Y.
    rewrite Y. cbn [r_hb_elapsed r_msgs set_r_msgs set_r_hb_elapsed]. split; auto. exists (set_r_hb_elapsed 0 r1).
    destruct L1. split; [constructor; cbn in *; auto|]. cbn in *. rewrite hm_msgs0, hm_ro0. reflexivity.
Qed.
Lemma tick_beats r r' : tick r = Ok r' -> r_state r' = RLeader -> ~ (r_state r = RLeader /\ r_term r' = r_term r) -> r_hb_elapsed r' = 0.
Proof.
  intros H Hl Hn. destruct (tick_leads _ _ H Hl) as [[X Y]|V]; [tauto|]. apply via_hb in V. apply V.
Qed.

(* ---- any call ---- *)
Lemma apply_cc_hb cc r r' cs : raft_apply_conf_change cc r = Ok (r', cs) ->
  r_state r' = r_state r /\ r_term r' = r_term r /\ r_hb_elapsed r' = r_hb_elapsed r.
Proof.
  unfold raft_apply_conf_change. intros H. apply bind_ok in H. destruct H as (s & _ & H). destruct s as [cp|]; [|discriminate].
  unfold switch_to_config in H. cbv zeta in H.
  match type of H with (if _ then Ok (?x, _) else _) = _ => set (r1 := x) in *; assert (K : r_state r1 = r_state r /\ r_term r1 = r_term r /\ r_hb_elapsed r1 = r_hb_elapsed r) by (unfold r1; auto) end.
  clearbody r1. destruct K as (K1 & K2 & K3).
  match type of H with (if ?b then _ else _) = _ => destruct b end; [apply Ok_inj, pair_equal_spec in H; destruct H as [<- _]; auto|].
  match type of H with (if ?b then _ else _) = _ => destruct b end; [apply Ok_inj, pair_equal_spec in H; destruct H as [<- _]; auto|].
  apply bind_ok in H. destruct H as (r2 & H & Hx). apply Ok_inj, pair_equal_spec in Hx. destruct Hx as [<- _].
  unfold switch_leader in H. apply bind_ok in H. destruct H as ([r3 b] & H1 & H). apply raft_maybe_commit_state in H1. destruct H1 as [l ->].
  apply bind_ok in H. destruct H as (r4 & H2 & H).
  assert (S : sends (set_r_log l r1) r4).
  { destruct b; [eapply bcast_append_sends; eauto|]. apply (mfold_inv _ sends) in H2; auto; [apply sends_refl|apply sends_trans|].
    intros a x y _ Hy. apply bind_ok in Hy. destruct Hy as ([z w] & Hy & Hx). apply Ok_inj in Hx. subst. eapply maybe_send_append_sends; eauto. }
  pose proof (sd_same _ _ S) as []. cbn in *.
  match type of H with (if ?b then _ else _) = _ => destruct b end; apply Ok_inj in H; subst r2; cbn; split; try split; congruence.
Qed.
Lemma advance_hb n n' : rn_advance n = Ok n' ->
  r_state (rn_raft n') = r_state (rn_raft n) /\ r_term (rn_raft n') = r_term (rn_raft n) /\ r_hb_elapsed (rn_raft n') = r_hb_elapsed (rn_raft n).
Proof.
  unfold rn_advance. destruct (rn_ready n) as [rd|]; [|discriminate]. intros H. mon. cbn [rn_raft].
  unfold raft_advance in Hm. mon. rename x0 into r1, x1 into r2.
  destruct (reduce_uncommitted_fields (rd_committed rd) (rn_raft n)) as [u Hu]. rewrite Hu in Hm0.
  assert (A1 : r_state r1 = r_state (rn_raft n) /\ r_term r1 = r_term (rn_raft n) /\ r_hb_elapsed r1 = r_hb_elapsed (rn_raft n)).
  { destruct (0 <? applied_cursor rd); mon; [|auto]. unfold maybe_auto_leave in Hm0.
    match type of Hm0 with (if ?b then _ else _) = _ => destruct b end; mon; auto.
    destruct x1; [|discriminate]. inv Hm0. match goal with H : append_entry _ _ = _ |- _ => apply append_entry_fields in H; destruct H as (l & p & u' & ->) end. cbn. auto. }
  assert (A2 : r_state r2 = r_state r1 /\ r_term r2 = r_term r1 /\ r_hb_elapsed r2 = r_hb_elapsed r1) by (destruct (rev (rd_ents rd)); mon; auto).
  destruct A1 as (B1&B2&B3), A2 as (C1&C2&C3). destruct (_ =? 0); mon; cbn; repeat split; congruence.
Qed.
Theorem n_step_beats o n n' out : n_step o n = Ok (n', out) -> o <> NTick -> beats (rn_raft n) (rn_raft n').
Proof.
  intros H Ho.
  assert (K : forall r r', r_state r' = r_state r /\ r_term r' = r_term r /\ r_hb_elapsed r' = r_hb_elapsed r -> beats r r').
  { intros r r' (A & B & C) X. left. repeat split; congruence. }
  assert (S : forall m x y, rn_raft_step m n = Ok (x, y) -> beats (rn_raft n) (rn_raft x)).
  { intros m x y Hs. unfold rn_raft_step in Hs. apply bind_ok in Hs. destruct Hs as ([r1 e1] & Hs & Hx). inv Hx. cbn. eapply step_beats; eauto. }
  destruct o; cbn [n_step] in H; try congruence; try (apply Ok_inj, pair_equal_spec in H; destruct H as [<- _]; apply K; auto; fail); apply bind_ok in H.
  - destruct H as ([n1 e1] & H & Hx). inv Hx. eapply S; eauto.
  - destruct H as ([n1 e1] & H & Hx). inv Hx. eapply S; eauto.
  - destruct H as ([n1 e1] & H & Hx). inv Hx. unfold rn_propose_conf_change in H. apply bind_ok in H. destruct H as ([t d] & _ & H). eapply S; eauto.
  - destruct H as ([n1 e1] & H & Hx). inv Hx. unfold rn_apply_conf_change in H. apply bind_ok in H. destruct H as (v2 & _ & H). apply bind_ok in H. destruct H as ([r1 cs] & H & Hx). inv Hx. apply K. cbn. eapply apply_cc_hb; eauto.
  - destruct H as ([n1 e1] & H & Hx). inv Hx. unfold rn_step in H. destruct (is_local_msg _); [inv H; apply K; auto|].
    destruct (_ || _); [|inv H; apply K; auto]. eapply S; eauto.
  - destruct H as ([n1 rd] & H & Hx). inv Hx. apply get_ready_inv in H. destruct H as (_ & -> & _). apply K; auto.
  - destruct H as (n1 & H & Hx). inv Hx. apply K. apply advance_hb; auto.
  - destruct H as ([n1 rd] & H & Hx). inv Hx. unfold n_handle in H. apply bind_ok in H. destruct H as ([n2 rd2] & H & H1).
    apply bind_ok in H1. destruct H1 as (s & _ & H1). apply bind_ok in H1. destruct H1 as (n3 & H1 & Hx). inv Hx.
    apply get_ready_inv in H. destruct H as (_ & H & _). apply advance_hb in H1. cbn in H1. rewrite H in H1. apply K. exact H1.
  - destruct H as ([s e] & H & Hx). inv Hx. apply K; auto.
  - destruct H as ([s e] & H & Hx). inv Hx. apply K; auto.
  - destruct H as (n1 & H & Hx). inv Hx. unfold rn_report_unreachable in H. apply bind_ok in H. destruct H as ([n2 e2] & H & Hx). inv Hx. eapply S; eauto.
  - destruct H as (n1 & H & Hx). inv Hx. unfold rn_report_snapshot in H. apply bind_ok in H. destruct H as ([n2 e2] & H & Hx). inv Hx. eapply S; eauto.
  - destruct H as (n1 & H & Hx). inv Hx. unfold rn_transfer_leader in H. apply bind_ok in H. destruct H as ([n2 e2] & H & Hx). inv Hx. eapply S; eauto.
  - destruct H as (n1 & H & Hx). inv Hx. unfold rn_read_index in H. apply bind_ok in H. destruct H as ([n2 e2] & H & Hx). inv Hx. eapply S; eauto.
Qed.
End Beat.
