(** When the leader's log or commit index grows, every member that can take it is sent a message (C64). *)
From Verif Require Import Prelude Types M_Util M_Quorum M_Inflights M_Progress M_Tracker.
From Verif Require Import M_Storage M_Unstable M_Log M_ReadOnly M_ConfPb M_ConfChange M_Raft M_RawNode.
From Verif Require Import P_Inflights Spec_Log P_Lists P_Storage P_Log Spec_Storage Sys_Storage P_StorageSeq Spec_RaftLog Sys_RaftLog P_RaftLogSeq.
From Verif Require Import Spec_Quorum P_Quorum Spec_Progress Spec_ConfChange P_ConfChange Spec_Inflights Sys_ConfChange.
From Verif Require Import P_Frame P_Prim Sys_Node P_Node P_Fields P_Vote Spec_Node P_Persist P_New P_Time P_NodeLog P_Lead P_Ack P_Flow P_Window P_FlowRun P_Commit P_Feed.

Section Props.
Context {E : Env}.

Definition fedall (m : msg) (r r' : raft) : Prop :=
  forall to p, to <> r_id r -> trk_get to (r_trk r) = Some p -> pr_is_paused p = false -> servable r p ->
  exists p2 new x, r_msgs r' = r_msgs r ++ new /\ In x new /\ feeds r to p2 x /\ (p2 = p \/ to = m_from m /\ m_type m = MsgAppResp).
Definition grows (m : msg) (r r' : raft) : Prop := r_state r' = RFollower \/ r_log r' = r_log r \/ fedall m r r'.
Lemma grows_msame m r r' : msame r r' -> grows m r r'. Proof. intros S. right; left. apply S. Qed.

Lemma ack_keeps_unpaused i p p2 q : pr_is_paused p = false -> p_match p < i -> win p q -> 1 <= i_size (p_infl p) ->
  ack_progress i (fst (pr_maybe_update i (set_p_active true p))) = Ok p2 -> pr_is_paused p2 = false.
Proof.
  intros U Hm (Iw & Ih & _) Sz H. unfold pr_maybe_update in H. cbn [p_match set_p_active] in H. destruct (N.ltb_spec (p_match p) i); [|lia]. cbn [fst] in H.
  unfold ack_progress in H. cbn [p_state set_p_next set_p_probe_sent set_p_match set_p_active p_pending p_match p_infl] in H.
  unfold pr_is_paused in U. destruct (p_state p) eqn:Hs; [| |discriminate].
  - inv H. unfold pr_is_paused. cbn. unfold inf_full. cbn. apply N.eqb_neq. lia.
  - apply bind_ok in H. destruct H as (inf & Hf & H). apply Ok_inj in H. subst p2.
    destruct (free_le_ok i _ _ Iw Ih) as (x & F1 & F2 & F3 & F4). assert (x = inf) by congruence. subst x.
    unfold pr_is_paused. cbn [p_state set_p_next set_p_probe_sent set_p_match set_p_active p_infl set_p_infl]. rewrite Hs. unfold inf_full in *. apply N.eqb_neq in U. apply N.eqb_neq.
    destruct F3 as [F3 _]. rewrite F3, F4. pose proof (drop_le_len i q). destruct Ih as [Ih _]. destruct Iw as (Iw & _). lia.
Qed.

Lemma maybe_commit_same r r' : raft_maybe_commit r = Ok (r', false) -> r_log r' = r_log r.
Proof.
  unfold raft_maybe_commit. intros H. apply bind_ok in H. destruct H as (mci & Hm & H). apply bind_ok in H. destruct H as ([l ok] & Hl & H).
  apply Ok_inj, pair_equal_spec in H. destruct H as [<- ->]. cbn. unfold log_maybe_commit in Hl.
  destruct (_ <? _); [|inv Hl; auto]. apply bind_ok in Hl. destruct Hl as (rt & H1 & Hl). apply bind_ok in Hl. destruct Hl as (z & H2 & Hl).
  destruct (z =? r_term r); [apply bind_ok in Hl; destruct Hl as (l' & _ & Hl); inv Hl|inv Hl; auto].
Qed.
Lemma release_trk r r' : release_pending_reads r = Ok r' -> r_trk r' = r_trk r.
Proof.
  unfold release_pending_reads. intros H. apply bind_ok in H. destruct H as (ok & _ & H). destruct ok; [|inv H; auto].
  change (r_trk r) with (r_trk (set_r_pend_reads [] r)). apply (mfold_inv _ (fun a b => r_trk b = r_trk a)) in H; auto; [intros; congruence|].
  intros a s s' _ Hs. eapply read_resp_trk; eauto.
Qed.

Section Leader.
Variable r : raft.
Hypothesis W : lwf (r_log r).
Hypothesis T : 0 < r_term r.
Hypothesis Wn : forall to p, to <> r_id r -> trk_get to (r_trk r) = Some p -> 1 <= i_size (p_infl p) /\ exists q, win p q.

(** The state the broadcast starts from has the progress of the other members of [r]. *)
Lemma bcast_fed m a b r' ms : lwf0 (r_log a) -> log_first (r_log a) = log_first (r_log r) -> r_id a = r_id r -> r_term a = r_term r -> r_msgs a = r_msgs r ++ ms ->
  (forall to p, to <> r_id r -> trk_get to (r_trk r) = Some p -> pr_is_paused p = false -> exists p2, trk_get to (r_trk a) = Some p2 /\ pr_is_paused p2 = false /\
     (p2 = p \/ (to = m_from m /\ m_type m = MsgAppResp) /\ p_active p2 = true)) ->
  bcast_append a = Ok b -> sends b r' -> fedall m r r'.
Proof.
  intros Wa Fa Ia Ta Ma Hp H S to p Hto G Hu Sv. destruct (Hp _ _ Hto G Hu) as (p2 & G2 & U2 & D).
  assert (Sv2 : servable a p2) by (unfold servable in *; rewrite Fa; destruct D as [->|[_ D]]; auto).
  destruct (bcast_append_feeds a b Wa H to p2 ltac:(congruence) G2 U2 Sv2) as (new & x & Hn & Hx & F).
  destruct (sd_msgs _ _ S) as (ms2 & Hms & _). exists p2, (ms ++ new ++ ms2), x. split; [rewrite Hms, Hn, Ma, !app_assoc; auto|].
  split; [apply in_or_app; right; apply in_or_app; auto|]. split; [|tauto]. unfold feeds in *. rewrite Fa, Ia, Ta in F. exact F.
Qed.

Lemma step_leader_grows m r' e : step_leader m r = Ok (r', e) -> grows m r r'.
Proof.
  pose proof (lwf_0 _ W) as W0. unfold step_leader.
  assert (Hrest : match trk_get (m_from m) (r_trk r) with
      | None => Ok (r, None)
      | Some pr =>
          match m_type m with
          | MsgAppResp => okr (leader_app_resp m pr r)
          | MsgHeartbeatResp => okr (leader_heartbeat_resp m pr r)
          | MsgSnapStatus => Ok (leader_snap_status m pr r, None)
          | MsgUnreachable => Ok (leader_unreachable m pr r, None)
          | MsgTransferLeader => okr (leader_transfer m pr r)
          | _ => Ok (r, None)
          end
      end = Ok (r', e) -> grows m r r').
  { destruct (trk_get (m_from m) (r_trk r)) as [pr|] eqn:Hg; [|intros H; inv H; apply grows_msame, msame_refl].
    destruct (m_type m) eqn:Ht; try (intros H; inv H; apply grows_msame, msame_refl; fail); unfold okr; intros H.
    - apply bind_ok in H. destruct H as (r1 & H & Hx). inv Hx. unfold leader_app_resp in H. destruct (m_reject m) eqn:Hr.
      + unfold leader_app_resp_reject in H. apply bind_ok in H. destruct H as (pb & _ & H). destruct (pr_maybe_decr_to _ _ _) as [p1 ok] eqn:Hd.
        destruct ok; [|inv H; right; left; reflexivity]. apply send_append_sends in H. right; left. rewrite (sm_log _ _ (sd_same _ _ H)). reflexivity.
      + unfold leader_app_resp_accept in H. cbv zeta in H. destruct (pr_maybe_update (m_index m) (set_p_active true pr)) as [p1 ok] eqn:Hu.
        destruct ok; [|inv H; right; left; reflexivity].
        apply bind_ok in H. destruct H as (p2 & Hp2 & H). apply bind_ok in H. destruct H as ([r2 cc] & H1 & H). apply bind_ok in H. destruct H as (r3 & H2 & H).
        apply bind_ok in H. destruct H as (r4 & H3 & H). apply send_all_sends in H3.
        assert (S4 : exists z, sends r3 z /\ r_log r' = r_log z /\ exists ms, r_msgs r' = r_msgs z ++ ms).
        { exists r4. split; auto. match type of H with (if ?c then _ else _) = _ => destruct c end; [apply send_ok in H; destruct H as [-> _]; split; [reflexivity|]; cbn; eauto|].
          inv H; split; auto; exists []; rewrite app_nil_r; auto. }
        clear H3 H. destruct S4 as (z & Sz & Lz & msz & Mz).
        destruct cc.
        * right; right. pose proof H1 as H1'. apply commit_last in H1'. destruct H1' as [k H1'].
          apply bind_ok in H2. destruct H2 as (r5 & H5 & H2). pose proof (release_trk _ _ H5) as Tk. pose proof (release_sends _ _ H5) as S5.
          assert (F : fedall m r z).
          { destruct (sd_msgs _ _ S5) as (ms & Hms & _). pose proof (sd_same _ _ S5) as Sm. pose proof (sm_log _ _ Sm) as El. pose proof (sm_term _ _ Sm) as Et. pose proof (sends_id _ _ S5) as Ei.
            apply (bcast_fed m r5 r3 z ms); auto.
            - rewrite El, H1'. exact W0.
            - rewrite El, H1'. reflexivity.
            - rewrite Ei, H1'. reflexivity.
            - rewrite Et, H1'. reflexivity.
            - rewrite Hms, H1'. reflexivity.
            - intros to p Hto G Hpa. rewrite Tk, H1'. cbn [r_trk set_r_log]. destruct (N.eq_dec to (m_from m)) as [->|Hne].
              + exists p2. split; [exact (get_put _ _ r)|]. assert (p = pr) by congruence. subst p. destruct (Wn _ _ Hto Hg) as (Sz1 & q & Wq).
                assert (Hlt : p_match pr < m_index m) by (unfold pr_maybe_update in Hu; cbn [p_match set_p_active] in Hu; destruct (N.ltb_spec (p_match pr) (m_index m)); [auto|inv Hu]).
                split; [eapply ack_keeps_unpaused; eauto; rewrite Hu; exact Hp2|]. right. split; [auto|]. apply ack_fields in Hp2. destruct Hp2 as [_ ->].
                unfold pr_maybe_update in Hu. destruct (_ <? _) in Hu; inv Hu; reflexivity.
              + exists p. split; [rewrite get_put_other; auto|]. auto. }
          intros to p Hto G Hpa Sv. destruct (F to p Hto G Hpa Sv) as (p3 & new & x & F1 & F2 & F3 & F4). exists p3, (new ++ msz), x.
          split; [rewrite Mz, F1, app_assoc; auto|]. split; [apply in_or_app; auto|auto].
        * right; left. apply maybe_commit_same in H1. rewrite Lz, (sm_log _ _ (sd_same _ _ Sz)). change (r_log r) with (r_log (put_progress (m_from m) p2 r)). rewrite <- H1.
          match type of H2 with (if ?b then _ else _) = _ => destruct b end; [apply send_append_sends in H2; rewrite (sm_log _ _ (sd_same _ _ H2)); reflexivity|inv H2; auto].
    - apply bind_ok in H. destruct H as (r1 & H & Hx). inv Hx. unfold leader_heartbeat_resp in H.
      apply bind_ok in H. destruct H as (p1 & Hp1 & H). apply bind_ok in H. destruct H as (r2 & H2 & H). right; left.
      assert (S2 : r_log r2 = r_log r).
      { match type of H2 with (if ?b then _ else _) = _ => destruct b end; [|inv H2; reflexivity]. apply send_append_sends in H2. rewrite (sm_log _ _ (sd_same _ _ H2)). reflexivity. }
      match type of H with (if ?b then _ else _) = _ => destruct b end; [inv H; exact S2|].
      destruct (ro_recv_ack _ _ _) as [ro acks].
      destruct (tc_vote_result _ _); try (inv H; exact S2).
      apply bind_ok in H. destruct H as ([ro' rss] & _ & H).
      apply (mfold_inv _ sends) in H; [|apply sends_refl|apply sends_trans|intros; eapply response_to_read_index_sends; eauto].
      rewrite (sm_log _ _ (sd_same _ _ H)). exact S2.
    - right; left. unfold leader_unreachable in H. destruct (pstate_eqb _ _); inv H; reflexivity.
    - right; left. unfold leader_snap_status in H. destruct (p_state pr) eqn:Hps; inv H; reflexivity.
    - right; left. apply bind_ok in H. destruct H as (r1 & H & Hx). inv Hx. unfold leader_transfer in H. destruct (p_learner pr); [inv H; auto|].
      destruct (_ && _); [inv H; auto|].
      set (r1 := if negb (r_transferee r =? 0) then set_r_transferee 0 r else r) in *.
      assert (K1 : r_log r1 = r_log r) by (unfold r1; destruct (negb _); reflexivity). clearbody r1.
      destruct (m_from m =? r_id r1); [inv H; auto|].
      destruct (_ =? _); [unfold send_timeout_now in H; apply send_ok in H; destruct H as [-> _]; exact K1|].
      apply send_append_sends in H. rewrite (sm_log _ _ (sd_same _ _ H)). exact K1. }
  destruct (m_type m) eqn:Ht; try exact Hrest; clear Hrest; unfold okr; intros H.
  - apply bind_ok in H. destruct H as (r1 & H & Hx). inv Hx. apply grows_msame. apply msame_sends. eapply bcast_heartbeat_ctx_sends; eauto.
  - unfold leader_prop in H. destruct (m_entries m) eqn:He; [discriminate|]. cbn [is_nil] in H. rewrite <- He in *.
    destruct (trk_get (r_id r) (r_trk r)); [|inv H; apply grows_msame, msame_refl].
    destruct (negb _); [inv H; apply grows_msame, msame_refl|]. apply bind_ok in H. destruct H as ([es r1] & Hf & H).
    apply filter_prop_fields in Hf. destruct Hf as [k ->]. apply bind_ok in H. destruct H as ([r2|] & Ha & H); [|inv H; right; left; reflexivity].
    unfold okr in H. apply bind_ok in H. destruct H as (r3 & H & Hx). inv Hx.
    right; right. pose proof (append_entry_fields _ _ _ Ha) as (l9 & q9 & u9 & E2).
    destruct (append_log_w es (set_r_pending_conf k r) r2 W T Ha) as (A1 & A2 & _). change (log_abs (r_log (set_r_pending_conf k r))) with (log_abs (r_log r)) in A2.
    apply (bcast_fed m r2 r' r' []); auto.
    + apply lwf_0; auto.
    + rewrite !log_first_abs, A2. reflexivity.
    + rewrite E2. reflexivity.
    + rewrite E2. reflexivity.
    + rewrite E2, app_nil_r. reflexivity.
    + intros to p9 Hto G Hpa. exists p9. split; [|auto]. unfold trk_get. rewrite (append_peers (fun _ _ _ => True) es (set_r_pending_conf k r) r2 to Ha Hto). exact G.
    + apply sends_refl.
  - injection H as H _. rewrite <- H. clear H. destruct (check_quorum_msame r) as [X|X]; [left; exact X|apply grows_msame; exact X].
  - apply bind_ok in H. destruct H as (r1 & H & Hx). inv Hx. unfold leader_read_index in H. destruct (trk_is_singleton (r_trk r)).
    + apply grows_msame, msame_sends. eapply response_to_read_index_sends; eauto.
    + apply bind_ok in H. destruct H as (b & _ & H). destruct b.
      * apply grows_msame, msame_sends. eapply send_read_index_response_sends; eauto.
      * inv H. right; left; reflexivity.
Qed.
Lemma step_dispatch_grows m r' e : r_state r = RLeader -> step_dispatch m r = Ok (r', e) -> grows m r r'.
Proof.
  intros Hl H. unfold step_dispatch in H. rewrite Hl in H.
  assert (V : step_vote m r = Ok r' -> grows m r r').
  { intros V. right; left. unfold step_vote in V. apply bind_ok in V. destruct V as (u & _ & V). apply bind_ok in V. destruct V as (rt & _ & V). destruct u.
    - apply bind_ok in V. destruct V as (r1 & V1 & V). apply send_ok in V1. destruct V1 as [-> _]. destruct (mtype_eqb _ _); inv V; auto.
    - apply send_ok in V. destruct V as [-> _]. auto. }
  destruct (m_type m) eqn:Ht; try (eapply step_leader_grows; eauto; fail); unfold okr in H; apply bind_ok in H; destruct H as (r1 & H & Hx); inv Hx;
    try (apply V; auto; fail).
  unfold hup, is_leader in H. rewrite Hl in H. inv H. apply grows_msame, msame_refl.
Qed.
Lemma step_grows m r' e : wf_in m -> r_state r = RLeader -> step m r = Ok (r', e) -> r_state r' = RLeader -> r_term r' = r_term r -> r_log r' = r_log r \/ fedall m r r'.
Proof.
  intros Hw Hl H Hl' Ht'.
  assert (G : forall x, step_dispatch m r = Ok (r', x) -> r_log r' = r_log r \/ fedall m r r').
  { intros x Hx. destruct (step_dispatch_grows _ _ _ Hl Hx) as [X|[X|X]]; [congruence|auto|auto]. }
  unfold step in H. destruct (N.eqb_spec (m_term m) 0) as [H0|H0]; [eauto|].
  destruct (N.ltb_spec (r_term r) (m_term m)) as [H1|H1].
  - destruct (_ && _ && _) in H; [inv H; auto|].
    assert (F : forall l, step_dispatch m (become_follower (m_term m) l r) = Ok (r', e) -> r_log r' = r_log r \/ fedall m r r').
    { clear H. intros l H. exfalso.
      assert (D : disp_ok m (become_follower (m_term m) l r)) by (split; auto; left; rewrite become_follower_term; auto).
      assert (L1 : lost (r_term r) (become_follower (m_term m) l r)) by (left; rewrite become_follower_term; auto).
      hide (become_follower (m_term m) l r) r1 E1. clear E1.
      pose proof (step_dispatch_prims m r1 r' e D H) as P.
      assert (L2 : lost (r_term r) r') by (revert P L1; apply (prims_ind_inv m (lost (r_term r))); intros; eapply prim_lost; eauto).
      exact (lost_leader _ _ Hl' Ht' L2). }
    destruct (m_type m) eqn:Hty; try (eapply F; exact H); try (destruct (m_reject m) in H; [eapply F; exact H|]); eapply G; exact H.
  - destruct (N.ltb_spec (m_term m) (r_term r)) as [H2|H2]; [|eauto]. left.
    destruct (_ && _) in H; [|destruct (mtype_eqb _ _) in H; [|inv H; auto]];
      unfold okr in H; apply bind_ok in H; destruct H as (r1 & H & Hx); apply Ok_inj, pair_equal_spec in Hx; destruct Hx as [<- _];
      apply send_ok in H; destruct H as [-> _]; reflexivity.
Qed.
End Leader.

(** ** A new leader *)
Lemma lead_prs r r' : become_leader r = Ok r' -> forall to p, to <> r_id r -> trk_get to (r_trk r) = Some p ->
  trk_get to (r_trk r') = Some (new_progress (r_last r + 1) 0 (t_max_inflight (r_trk r)) (p_learner p) false).
Proof.
  intros Hb to p Hn Hg. apply become_leader_inv in Hb. destruct Hb as (pr & r1 & u & _ & B1 & B2 & ->).
  change (trk_get to (r_trk (set_r_uncommitted u r1))) with (mget to (t_progress (r_trk r1))). clear B1.
  hide (reset (r_term r) r) r0 Er0. destruct (reset_more _ _ _ Er0) as (_&_&_&_&_&_&_&_&R&_).
  destruct (reset_fields _ _ _ Er0) as (R1&_). clear Er0.
  hide (lead_base pr r0) rb Erb. apply lead_base_fields in Erb. destruct Erb as (L1 & L2).
  assert (Hid2 : r_id rb = r_id r /\ r_id r0 = r_id r) by (unfold r_id; split; congruence). destruct Hid2 as [I1 I2].
  rewrite (append_peers (fun _ _ _ => True) _ _ _ to B2) by congruence. clear B2.
  rewrite L2, mget_mset. destruct (N.eqb_spec to (r_id r0)); [congruence|]. rewrite R, mget_mmap.
  unfold trk_get in Hg. rewrite Hg. cbn. destruct (N.eqb_spec to (r_id r)); [congruence|]. reflexivity.
Qed.
Lemma won_feeds r r' m e : ninv r -> r_state r = RCandidate -> m_type m = MsgVoteResp -> m_term m = r_term r ->
  step m r = Ok (r', e) -> r_state r' = RLeader ->
  forall to p, to <> r_id r -> trk_get to (r_trk r) = Some p ->
  exists new x, r_msgs r' = r_msgs r ++ new /\ In x new /\ m_to x = to /\ m_type x = MsgApp /\ m_index x = r_last r /\ m_term x = r_term r' /\ m_from x = r_id r /\
    exists e0, log_abs (r_log r') = a_app (log_abs (r_log r)) [e0] /\ e_term e0 = r_term r'.
Proof.
  intros Hn Hs Ht Htm H Hl to p Hto G. pose proof (ni_term _ Hn (or_intror Hs)) as Hpos.
  assert (H' : step_candidate m r = Ok (r', e)).
  { unfold step in H. rewrite Htm, N.ltb_irrefl in H. destruct (N.eqb_spec (r_term r) 0); [lia|]. unfold step_dispatch in H. rewrite Ht, Hs in H. exact H. }
  clear H. unfold step_candidate in H'. rewrite Ht, Hs in H'. cbn [mtype_eqb] in H'. destruct (poll (m_from m) (negb (m_reject m)) r) as [r1 v] eqn:Hp.
  assert (E1 : r_state r1 = RCandidate /\ r_log r1 = r_log r /\ r_id r1 = r_id r /\ r_term r1 = r_term r /\ r_msgs r1 = r_msgs r /\ trk_get to (r_trk r1) = Some p /\
    t_max_inflight (r_trk r1) = t_max_inflight (r_trk r) /\ r_cfg r1 = r_cfg r).
  { replace r1 with (fst (poll (m_from m) (negb (m_reject m)) r)) by (rewrite Hp; reflexivity). clear Hp. cbn. repeat split; auto. unfold trk_record_vote. destruct (mget _ _); auto. unfold trk_record_vote. destruct (mget _ _); auto. }
  destruct E1 as (S1 & L1 & I1 & T1 & M1 & G1 & K1 & C1). clear Hp. destruct v.
  - inv H'. congruence.
  - injection H' as <- _. exfalso. change (RFollower = RLeader) in Hl. discriminate.
  - rewrite S1 in H'. cbn [role_eqb] in H'. unfold okr in H'. apply bind_ok in H'. destruct H' as (r3 & H & Hx). injection Hx as -> _.
    apply bind_ok in H. destruct H as (r2 & H1 & H2). pose proof (lead_prs _ _ H1 to p ltac:(congruence) G1) as G2.
    pose proof (become_leader_all _ _ H1) as (_ & C2 & T2 & _ & _ & _ & M2 & _). assert (I2 : r_id r2 = r_id r) by (unfold r_id in *; congruence).
    assert (Wl : lwf (r_log r2) /\ log_first (r_log r2) = log_first (r_log r) /\ exists e0, log_abs (r_log r2) = a_app (log_abs (r_log r)) [e0] /\ e_term e0 = r_term r).
    { apply become_leader_inv in H1. destruct H1 as (pr & r4 & u & _ & _ & B2 & ->). change (r_log (set_r_uncommitted u r4)) with (r_log r4).
      assert (Z : r_log (lead_base pr (reset (r_term r1) r1)) = r_log r /\ r_term (lead_base pr (reset (r_term r1) r1)) = r_term r).
      { hide (reset (r_term r1) r1) r0 Er0. destruct (reset_fields _ _ _ Er0) as (_ & R2 & _ & R4 & _). clear Er0 B2. split; [rewrite <- L1, <- R4; reflexivity|rewrite <- T1, <- R2; reflexivity]. }
      hide (lead_base pr (reset (r_term r1) r1)) rb Erb. clear Erb. destruct Z as [Z1 Z2].
      apply append_log_w in B2; [|rewrite Z1; apply (li_wf _ (ni_log _ Hn))|rewrite Z2; auto]. destruct B2 as (B2 & B3 & _). cbv zeta in B3. split; [exact B2|].
      rewrite !log_first_abs, B3, Z1, Z2. split; [reflexivity|]. eexists. split; [reflexivity|]. reflexivity. }
    destruct Wl as (Wl & Fl & e0 & El & Et0). pose proof (lwf_0 _ (li_wf _ (ni_log _ Hn))) as W0.
    assert (Hf : log_first (r_log r2) <= r_last r + 1). { rewrite Fl. unfold r_last. rewrite log_first_abs, log_last_abs by auto. unfold a_first, a_last. lia. }
    destruct (bcast_append_feeds r2 r' (lwf_0 _ Wl) H2 to _ ltac:(congruence) G2) as (new & x & F1 & F2 & F3 & F4 & F5 & F6).
    + reflexivity.
    + left. cbn. unfold r_last in *. rewrite L1. exact Hf.
    + exists new, x. split; [rewrite F1; congruence|]. split; [auto|]. split; [auto|]. cbn [p_next new_progress] in F6. unfold r_last in *. rewrite L1 in F6.
      destruct F6 as [(F6 & F7 & _)|(F6 & F7)]; [|lia]. split; [auto|]. split; [lia|]. pose proof (sd_same _ _ (bcast_append_sends _ _ H2)) as Sm. split; [rewrite F5; symmetry; apply Sm|]. split; [congruence|].
      exists e0. rewrite (sm_log _ _ Sm), (sm_term _ _ Sm), T2. split; [exact El|congruence].
Qed.

(** ** A configuration change *)
Lemma each_feeds l : forall r r', lwf0 (r_log r) -> mfold (fun id r => '(r', _) <- maybe_send_append id false r ;; Ok r') l r = Ok r' ->
  forall to p, In to l -> trk_get to (r_trk r) = Some p -> pr_is_paused p = false -> log_first (r_log r) <= p_next p <= r_last r ->
  exists new x, r_msgs r' = r_msgs r ++ new /\ In x new /\ feeds r to p x.
Proof.
  induction l as [|a l IH]; intros r r' W H to p Hin G Hp Sv; [destruct Hin|]. cbn [mfold] in H. apply bind_ok in H. destruct H as (r1 & H1 & H).
  apply bind_ok in H1. destruct H1 as ([r0 b] & H1 & Hx). apply Ok_inj in Hx. subst r0. pose proof (maybe_send_append_sends _ _ _ _ _ H1) as S1.
  assert (S2 : sends r1 r').
  { apply (mfold_inv _ sends) in H; eauto using sends_refl, sends_trans. intros z s s' _ Hs. apply bind_ok in Hs. destruct Hs as ([r5 b5] & Hs & Hx). inv Hx. eapply maybe_send_append_sends; eauto. }
  destruct (N.eq_dec to a) as [->|Hne].
  - destruct (maybe_send_feeds _ _ _ _ _ _ W G Hp (or_introl (proj1 Sv)) (or_intror Sv) H1) as (x & Hm & F). destruct (sd_msgs _ _ S2) as (ms & Hms & _).
    exists ([x] ++ ms), x. rewrite Hms, Hm, <- app_assoc. split; [reflexivity|]. split; [left; auto|exact F].
  - destruct Hin as [->|Hin]; [congruence|].
    assert (G1 : trk_get to (r_trk r1) = Some p) by (rewrite (maybe_send_other _ _ _ _ _ _ H1); auto).
    pose proof (sd_same _ _ S1) as Sm. assert (El : r_log r1 = r_log r) by apply Sm. assert (Ei : r_id r1 = r_id r) by (apply sends_id; auto).
    assert (Et : r_term r1 = r_term r) by apply Sm.
    destruct (IH r1 r' ltac:(rewrite El; auto) H to p Hin G1 Hp ltac:(unfold r_last in *; rewrite El; auto)) as (new & x & Hm & Hx & F).
    destruct (sd_msgs _ _ S1) as (ms & Hms & _). exists (ms ++ new), x. rewrite Hm, Hms, app_assoc. split; auto. split; [apply in_or_app; auto|].
    unfold feeds in *. rewrite El, Ei, Et in F. exact F.
Qed.
Lemma switch_leader_feeds r r' : lwf0 (r_log r) -> switch_leader r = Ok r' ->
  forall to p, to <> r_id r -> trk_get to (r_trk r) = Some p -> pr_is_paused p = false -> log_first (r_log r) <= p_next p <= r_last r ->
  exists new x, r_msgs r' = r_msgs r ++ new /\ In x new /\ feeds r to p x.
Proof.
  intros W H to p Hto G Hp Hb. unfold switch_leader in H. apply bind_ok in H. destruct H as ([r1 cm] & H1 & H). apply commit_last in H1. destruct H1 as [k H1].
  apply bind_ok in H. destruct H as (r2 & H2 & H).
  assert (Em : r_msgs r' = r_msgs r2) by (match type of H with (if ?c then _ else _) = _ => destruct c end; inv H; auto). rewrite Em. clear Em H.
  assert (W1 : lwf0 (r_log r1)) by (rewrite H1; exact W). assert (G1 : trk_get to (r_trk r1) = Some p) by (rewrite H1; exact G).
  assert (L1 : log_first (r_log r1) = log_first (r_log r) /\ r_last r1 = r_last r /\ r_id r1 = r_id r /\ r_term r1 = r_term r /\ r_msgs r1 = r_msgs r) by (rewrite H1; auto). clear H1.
  destruct L1 as (L1 & L2 & L3 & L4 & L5).
  assert (X : exists new x, r_msgs r2 = r_msgs r1 ++ new /\ In x new /\ feeds r1 to p x).
  { destruct cm.
    - apply (bcast_append_feeds r1 r2); auto; [congruence|]. left. rewrite L1. apply Hb.
    - eapply each_feeds; eauto; [apply mget_key; unfold trk_get in G1; congruence|]. rewrite L1, L2. exact Hb. }
  destruct X as (new & x & A & B & C). exists new, x. rewrite A, L5. split; auto. split; auto. unfold feeds in *. rewrite L1, L3, L4 in C. exact C.
Qed.
Lemma apply_cc_feeds cc r r' cs : lwf0 (r_log r) -> raft_apply_conf_change cc r = Ok (r', cs) -> r_state r' = RLeader -> 1 <= t_max_inflight (r_trk r) ->
  (exists p, trk_get (r_id r') (r_trk r') = Some p /\ p_learner p = false) -> tc_incoming (t_config (r_trk r')) <> [] ->
  forall to, to <> r_id r -> trk_get to (r_trk r) = None -> trk_get to (r_trk r') <> None -> log_first (r_log r) <= r_last r ->
  exists new x, r_msgs r' = r_msgs r ++ new /\ In x new /\ m_to x = to /\ m_from x = r_id r /\ m_term x = r_term r /\ m_type x = MsgApp /\ m_index x + 1 = r_last r.
Proof.
  unfold raft_apply_conf_change. intros W H Hl Hk Hp Hi to Hto Hg Hg' Hb. apply bind_ok in H. destruct H as (s & Hc & H). destruct s as [cp|]; [|discriminate].
  assert (Ev : evolved (t_max_inflight (r_trk r)) (r_last r) (t_progress (r_trk r)) (snd cp)).
  { destruct (leave_joint cc).
    - apply (call_ev (mkChanger (r_trk r) (r_last r)) OpLeave cp). exact Hc.
    - destruct (enter_joint cc) as [al j]. destruct j; [apply (call_ev (mkChanger (r_trk r) (r_last r)) (OpEnter al (c2_changes cc)) cp)|apply (call_ev (mkChanger (r_trk r) (r_last r)) (OpSimple (c2_changes cc)) cp)]; exact Hc. }
  clear Hc. unfold switch_to_config in H. cbv zeta in H.
  match type of H with (if _ then Ok (?x, _) else _) = _ => set (r1 := x) in * end.
  assert (Ep : trk_get (r_id r1) (r_trk r1) = trk_get (r_id (set_r_trk (set_t_progress (snd cp) (set_t_config (fst cp) (r_trk r))) r)) (r_trk (set_r_trk (set_t_progress (snd cp) (set_t_config (fst cp) (r_trk r))) r))) by reflexivity.
  assert (Ec : cs_voters (trk_confstate (r_trk (set_r_trk (set_t_progress (snd cp) (set_t_config (fst cp) (r_trk r))) r))) = tc_incoming (t_config (r_trk r1))) by reflexivity.
  assert (Eg : trk_get to (r_trk r1) = mget to (snd cp)) by reflexivity.
  assert (Ef : r_log r1 = r_log r /\ r_id r1 = r_id r /\ r_term r1 = r_term r /\ r_msgs r1 = r_msgs r) by auto.
  rewrite <- Ep, Ec in H. clearbody r1. clear Ep Ec.
  match type of H with (if ?b then _ else _) = _ => destruct b eqn:H1 end.
  { apply Ok_inj, pair_equal_spec in H. destruct H as [<- _]. destruct Hp as (p & G & L). rewrite G, L in H1. discriminate. }
  match type of H with (if ?b then _ else _) = _ => destruct b eqn:H2 end.
  { apply Ok_inj, pair_equal_spec in H. destruct H as [<- _]. unfold is_leader in H2. rewrite Hl in H2. cbn in H2. destruct (tc_incoming _); [congruence|discriminate]. }
  clear H1 H2. apply bind_ok in H. destruct H as (r2 & H & Hx). apply Ok_inj, pair_equal_spec in Hx. destruct Hx as [<- _].
  destruct Ef as (F1 & F2 & F3 & F4).
  assert (G1 : exists b, mget to (snd cp) = Some (new_progress (r_last r) 0 (t_max_inflight (r_trk r)) b true)).
  { destruct (mget to (snd cp)) as [q|] eqn:Hq.
    - destruct (Ev _ _ Hq) as [(p & b & A & _)|[b ->]]; [unfold trk_get in Hg; congruence|eauto].
    - exfalso. apply Hg'. clear - H Eg. unfold switch_leader in H. apply bind_ok in H. destruct H as ([r3 b] & H1 & H). apply commit_last in H1. destruct H1 as [k H1].
      apply bind_ok in H. destruct H as (r4 & H2 & H).
      assert (S : sends r3 r4).
      { destruct b; [eapply bcast_append_sends; eauto|]. apply (mfold_inv _ sends) in H2; auto; [apply sends_refl|apply sends_trans|].
        intros a x y _ Hy. apply bind_ok in Hy. destruct Hy as ([z w] & Hy & Hx). apply Ok_inj in Hx. subst. eapply maybe_send_append_sends; eauto. }
      assert (Z : trk_get to (r_trk r4) = None). { apply (proj1 (prs_same_none _ _ to (sd_prs _ _ S))). rewrite H1. exact Eg. }
      match type of H with (if ?b then _ else _) = _ => destruct b end; inv H; exact Z. }
  destruct G1 as [b G1]. rewrite <- Eg in G1.
  destruct (switch_leader_feeds r1 r2 ltac:(rewrite F1; auto) H to _ ltac:(congruence) G1) as (new & x & A & B & C1 & C2 & C3 & C4).
  - reflexivity.
  - cbn. unfold r_last in *. rewrite F1. lia.
  - exists new, x. rewrite A, F4. split; [auto|]. split; [auto|]. split; [auto|]. split; [congruence|]. split; [congruence|]. cbn [p_next new_progress] in C4. rewrite F1 in C4. destruct C4 as [(C4 & C5 & _)|(_ & C5)]; [auto|unfold r_last in *; lia].
Qed.
End Props.
