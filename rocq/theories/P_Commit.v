(** A leader commits whatever a quorum acknowledged. *)
From Verif Require Import Prelude Types M_Util M_Quorum M_Inflights M_Progress M_Tracker.
From Verif Require Import M_Storage M_Unstable M_Log M_ReadOnly M_ConfPb M_ConfChange M_Raft M_RawNode.
From Verif Require Import P_Inflights Spec_Log P_Lists P_Storage P_Log Spec_Storage Sys_Storage P_StorageSeq Spec_RaftLog Sys_RaftLog P_RaftLogSeq.
From Verif Require Import Spec_Quorum P_Quorum.
From Verif Require Import P_Frame P_Prim Sys_Node Sys_ConfChange P_Node P_Fields P_Vote Spec_Node P_Persist P_New P_Time P_NodeLog P_Handle P_NodeRun P_Emit P_Ack.
From Verif Require Import Prop_Vote P_Lead P_Elect P_Beat.

Section Commit.
Context {E : Env}.

(** The quorum's index, if beyond the commit index, is not an entry of the leader's term. *)
Definition maxc (r : raft) : Prop := forall k, trk_committed (r_trk r) = Ok k -> l_committed (r_log r) < k ->
  log_term k (r_log r) <> Ok (SOk (r_term r)).
Lemma acked_values_ext c l l' : (forall id, l id = l' id) -> acked_values c l = acked_values c l'.
Proof. intros H. induction c as [|a c IH]; cbn; auto. rewrite H, IH. auto. Qed.
Lemma joint_ci_ext c0 c1 l l' : (forall id, l id = l' id) -> joint_committed_index c0 c1 l = joint_committed_index c0 c1 l'.
Proof. intros H. unfold joint_committed_index, majority_committed_index, fill. rewrite !(acked_values_ext _ l l' H). auto. Qed.

(** The same as far as committing is concerned. *)
Record msame (r r' : raft) : Prop := {
  ms_log : r_log r' = r_log r;
  ms_cfg : r_cfg r' = r_cfg r;
  ms_term : r_term r' = r_term r;
  ms_conf : t_config (r_trk r') = t_config (r_trk r);
  ms_state : r_state r' = r_state r;
  ms_match : forall id, option_map p_match (trk_get id (r_trk r')) = option_map p_match (trk_get id (r_trk r))
}.
Lemma msame_refl r : msame r r. Proof. constructor; auto. Qed.
Lemma msame_trans a b c : msame a b -> msame b c -> msame a c.
Proof. intros [] []. constructor; congruence. Qed.
Lemma msame_sends r r' : sends r r' -> msame r r'.
Proof.
  intros [[] [_ P] _ _]. constructor; auto. intros id. specialize (P id). unfold trk_get.
  destruct (mget id (t_progress (r_trk r))), (mget id (t_progress (r_trk r'))); try tauto. destruct P as (P & _). cbn. congruence.
Qed.
Lemma trk_committed_msame r r' : msame r r' -> trk_committed (r_trk r') = trk_committed (r_trk r).
Proof. intros [_ _ _ A _ B]. unfold trk_committed. rewrite A. apply joint_ci_ext. intros id. apply B. Qed.
Lemma maxc_msame r r' : msame r r' -> maxc r -> maxc r'.
Proof. intros S H k. rewrite (trk_committed_msame _ _ S). destruct S as [-> _ -> _ _ _]. apply H. Qed.
Lemma msame_put r id p p' : trk_get id (r_trk r) = Some p -> p_match p' = p_match p -> msame r (put_progress id p' r).
Proof.
  intros H1 H2. constructor; try reflexivity. intros id'. unfold put_progress, trk_put, trk_get in *. cbn. rewrite mget_mset.
  destruct (N.eqb_spec id' id); [subst; rewrite H1; cbn; congruence|reflexivity].
Qed.
Lemma raft_maybe_commit_maxc r r' b : raft_maybe_commit r = Ok (r', b) -> maxc r'.
Proof.
  unfold raft_maybe_commit. intros H. apply bind_ok in H. destruct H as (mci & Hm & H). apply bind_ok in H. destruct H as ([l ok] & Hl & H).
  apply Ok_inj, pair_equal_spec in H. destruct H as [<- _]. intros k Hk Hlt. cbn [r_trk set_r_log r_log r_term] in *.
  assert (k = mci) by congruence. subst k. clear Hk. unfold log_maybe_commit in Hl.
  destruct (N.ltb_spec (l_committed (r_log r)) mci).
  - apply bind_ok in Hl. destruct Hl as (rt & H1 & Hl). apply bind_ok in Hl. destruct Hl as (z & H2 & Hl). destruct (N.eqb_spec z (r_term r)).
    + apply bind_ok in Hl. destruct Hl as (l' & H3 & Hl). apply Ok_inj, pair_equal_spec in Hl. destruct Hl as [<- _].
      exfalso. unfold log_commit_to in H3. destruct (N.ltb_spec (l_committed (r_log r)) mci); [|lia]. destruct (_ <? _); [discriminate|].
      apply Ok_inj in H3. subst l'. cbn in Hlt. lia.
    + apply Ok_inj, pair_equal_spec in Hl. destruct Hl as [<- _]. intros X. rewrite X in H1. apply Ok_inj in H1. subst rt. cbn in H2. apply Ok_inj in H2. congruence.
  - apply Ok_inj, pair_equal_spec in Hl. destruct Hl as [<- _]. lia.
Qed.

(** The leader's own Match covers its log. *)
Definition selfm (r : raft) : Prop := forall p, trk_get (r_id r) (r_trk r) = Some p -> r_last r <= p_match p.
Lemma selfm_msame r r' : msame r r' -> selfm r -> selfm r'.
Proof.
  intros [A B _ _ _ C] H p Hp. unfold r_last, r_id in *. rewrite A, B in *. specialize (C (k_id (r_cfg r))). rewrite Hp in C.
  destruct (trk_get (k_id (r_cfg r)) (r_trk r)) as [q|] eqn:Hq; [|discriminate]. cbn in C. injection C as ->. auto.
Qed.
Lemma commit_last r r' b : raft_maybe_commit r = Ok (r', b) -> exists k, r' = set_r_log (set_l_committed k (r_log r)) r.
Proof.
  unfold raft_maybe_commit. intros H. apply bind_ok in H. destruct H as (mci & Hm & H). apply bind_ok in H. destruct H as ([l ok] & Hl & H).
  apply Ok_inj, pair_equal_spec in H. destruct H as [<- _]. unfold log_maybe_commit in Hl.
  assert (K : exists k, l = set_l_committed k (r_log r)).
  { assert (Z : exists k, r_log r = set_l_committed k (r_log r)) by (exists (l_committed (r_log r)); destruct (r_log r); reflexivity).
    destruct (_ <? _); [|inv Hl; auto].
    apply bind_ok in Hl. destruct Hl as (rt & H1 & Hl). apply bind_ok in Hl. destruct Hl as (z & H2 & Hl). destruct (N.eqb_spec z (r_term r)); [|inv Hl; auto].
    apply bind_ok in Hl. destruct Hl as (l' & H3 & Hl). inv Hl. unfold log_commit_to in H3. destruct (_ <? _); [|inv H3; auto]. destruct (_ <? _); inv H3. eauto. }
  destruct K as [k ->]. eauto.
Qed.
Lemma log_append_last es l l' i : log_append es l = Ok (l', i) -> i = log_last l'.
Proof.
  unfold log_append. destruct es; [intros H; inv H; auto|]. destruct (_ <? _); [discriminate|]. intros H. apply bind_ok in H. destruct H as (u & _ & H).
  cbv zeta in H. inv H. reflexivity.
Qed.

Definition bnd (B : N) (r : raft) : Prop := forall id p, trk_get id (r_trk r) = Some p -> p_match p <= B.
Lemma bnd_msame B r r' : msame r r' -> bnd B r -> bnd B r'.
Proof.
  intros S H id p Hp. pose proof (ms_match _ _ S id) as C. rewrite Hp in C. destruct (trk_get id (r_trk r)) as [q|] eqn:Hq; [|discriminate].
  cbn in C. injection C as ->. eauto.
Qed.
Definition accepts (m : msg) : Prop := m_type m = MsgAppResp /\ m_reject m = false.
Record cm (m : msg) (r r' : raft) : Prop := {
  cm_state : r_state r' = r_state r;
  cm_term : r_term r' = r_term r;
  cm_conf : t_config (r_trk r') = t_config (r_trk r);
  cm_cfg : r_cfg r' = r_cfg r;
  cm_self : selfm r -> selfm r';
  cm_le : forall B, r_last r' <= B -> (accepts m -> m_index m <= B) -> bnd B r -> bnd B r';
  cm_max : maxc r -> maxc r';
  cm_ge : forall id p, trk_get id (r_trk r) = Some p -> exists p', trk_get id (r_trk r') = Some p' /\ p_match p <= p_match p';
  cm_ack : accepts m -> m_term m = r_term r -> forall p, trk_get (m_from m) (r_trk r) = Some p -> exists p', trk_get (m_from m) (r_trk r') = Some p' /\ m_index m <= p_match p'
}.
Lemma opt_match t t' id p : option_map p_match (trk_get id t') = option_map p_match (trk_get id t) -> trk_get id t = Some p ->
  exists p', trk_get id t' = Some p' /\ p_match p' = p_match p.
Proof. intros H1 H2. rewrite H2 in H1. destruct (trk_get id t') as [p'|]; [|discriminate]. exists p'. cbn in H1. split; congruence. Qed.
Lemma cm_keep m r r' : msame r r' -> (accepts m -> forall p, trk_get (m_from m) (r_trk r) = Some p -> m_index m <= p_match p) -> cm m r r'.
Proof.
  intros S Ha. constructor; try apply S.
  - apply selfm_msame; auto.
  - intros B _ _. apply bnd_msame; auto.
  - apply maxc_msame; auto.
  - intros id p Hg. destruct (opt_match _ _ _ _ (ms_match _ _ S id) Hg) as (p' & G & X). exists p'. split; auto. lia.
  - intros A _ p Hg. destruct (opt_match _ _ _ _ (ms_match _ _ S (m_from m)) Hg) as (p' & G & X). exists p'. split; auto. rewrite X. auto.
Qed.
Lemma cm_then m r a b : cm m r a -> msame a b -> cm m r b.
Proof.
  intros [A1 A2 A0 A6 A7 A8 A3 A4 A5] S. constructor; try (destruct S; congruence).
  - intros X. eapply selfm_msame; eauto.
  - intros B HB Ha Hb. eapply bnd_msame; [exact S|]. apply A8; auto. unfold r_last in *. rewrite <- (ms_log _ _ S). exact HB.
  - intros X. eapply maxc_msame; eauto.
  - intros id p Hg. destruct (A4 _ _ Hg) as (p1 & G1 & L1). destruct (opt_match _ _ _ _ (ms_match _ _ S id) G1) as (p2 & G2 & L2). exists p2. split; auto. lia.
  - intros Ha Ht p Hg. destruct (A5 Ha Ht _ Hg) as (p1 & G1 & L1). destruct (opt_match _ _ _ _ (ms_match _ _ S (m_from m)) G1) as (p2 & G2 & L2). exists p2. split; auto. lia.
Qed.
Lemma append_cm m es r r' : ~ accepts m -> append_entry es r = Ok (Some r') -> cm m r r' /\ maxc r' /\ selfm r'.
Proof.
  intros Hn H. apply append_entry_inv in H. cbv zeta in H. destruct H as (_ & l0 & li & p & p1 & u & b & Hl & Hg & Hu & Hc).
  pose proof (raft_maybe_commit_maxc _ _ _ Hc) as M. apply commit_last in Hc. destruct Hc as [k Hc]. apply log_append_last in Hl.
  apply pr_maybe_update_spec in Hu. destruct Hu as (U1 & _).
  assert (X : selfm r').
  { rewrite Hc. intros q Hq. unfold put_progress, trk_put, trk_get, r_id in Hq. cbn in Hq. rewrite mget_mset, N.eqb_refl in Hq. inv Hq.
    change (log_last l0 <= p_match q). lia. }
  split; [|split; [exact M|exact X]]. rewrite Hc in *. constructor; try reflexivity; [auto| |auto| |tauto].
  - intros B HB _ Hb id q Hq. unfold put_progress, trk_put, trk_get in *. cbn in Hq. rewrite mget_mset in Hq. change (log_last l0 <= B) in HB.
    destruct (N.eqb_spec id (r_id r)); [inv Hq|eapply Hb; exact Hq]. specialize (Hb _ _ Hg). lia.
  - intros id q Hq. unfold put_progress, trk_put, trk_get in *. cbn. rewrite mget_mset.
    destruct (N.eqb_spec id (r_id r)); [subst|exists q; split; auto; lia]. exists p1. split; auto. assert (q = p) by congruence. subst. lia.
Qed.
Lemma ack_progress_match i p p' : ack_progress i p = Ok p' -> p_match p' = p_match p.
Proof. intros H. pose proof (ack_progress_keep _ _ _ H) as (K1 & _). exact K1. Qed.
Lemma decr_match a b p p' ok : pr_maybe_decr_to a b p = (p', ok) -> p_match p' = p_match p.
Proof. unfold pr_maybe_decr_to. destruct (p_state p); intros H; repeat match type of H with (if ?b then _ else _) = _ => destruct b end; inv H; reflexivity. Qed.
Lemma probe_match p : p_match (pr_become_probe p) = p_match p.
Proof. unfold pr_become_probe. destruct (p_state p); reflexivity. Qed.
Lemma cq_stay_m f r : (forall id p, p_match (f id p) = p_match p) -> msame r (set_r_trk (set_t_progress (mmap f (t_progress (r_trk r))) (r_trk r)) r).
Proof.
  intros Hf. constructor; try reflexivity. intros id. cbn. unfold trk_get. cbn. rewrite mget_mmap. destruct (mget id (t_progress (r_trk r))); cbn; [|reflexivity]. rewrite Hf. reflexivity.
Qed.
Lemma check_quorum_msame r : r_state (leader_check_quorum r) = RFollower \/ msame r (leader_check_quorum r).
Proof.
  unfold leader_check_quorum.
  assert (K1 : msame r (match trk_get (r_id r) (r_trk r) with Some pr => put_progress (r_id r) (set_p_active true pr) r | None => r end)).
  { destruct (trk_get (r_id r) (r_trk r)) as [p|] eqn:Hg; [eapply msame_put; [exact Hg|reflexivity]|apply msame_refl]. }
  revert K1. generalize (match trk_get (r_id r) (r_trk r) with Some pr => put_progress (r_id r) (set_p_active true pr) r | None => r end). intros r1 K1.
  destruct (trk_quorum_active (r_trk r1)).
  - right. eapply msame_trans; [exact K1|]. apply cq_stay_m. intros id p. destruct (id =? _); reflexivity.
  - left. apply (cq_down (fun x id pr => if id =? r_id x then pr else set_p_active false pr)).
Qed.
Definition cms (m : msg) (r r' : raft) : Prop := r_state r' = RFollower \/ cm m r r'.
Lemma step_leader_cm m r r' e : step_leader m r = Ok (r', e) -> cms m r r'.
Proof.
  unfold step_leader.
  assert (Keep : ~ accepts m -> forall x, msame r x -> cms m r x) by (intros N x S; right; apply cm_keep; auto; tauto).
  assert (Hrest : match trk_get (m_from m) (r_trk r) with
      | None => Ok (r, None)
      | Some pr =>
          match m_type m with
          | MsgAppResp => okr (leader_app_resp m pr r)
          | MsgHeartbeatResp => okr (leader_heartbeat_resp m pr r)
          | MsgSnapStatus => Ok (leader_snap_status m pr r, None)
          | MsgUnreachable => Ok (leader_unreachable m pr r, None)
          | MsgTransferLeader => okr (leader_transfer m pr r)
          | _ => Ok (r, None)
          end
      end = Ok (r', e) -> cms m r r').
  { destruct (trk_get (m_from m) (r_trk r)) as [pr|] eqn:Hg.
    2:{ intros H; inv H. right. apply cm_keep; [apply msame_refl|]. intros _ p X. congruence. }
    destruct (m_type m) eqn:Ht; try (intros H; inv H; apply Keep; [unfold accepts; intros [X _]; congruence|apply msame_refl]; fail); unfold okr; intros H.
    - apply bind_ok in H. destruct H as (r1 & H & Hx). inv Hx. unfold leader_app_resp in H. destruct (m_reject m) eqn:Hr.
      + assert (Na : ~ accepts m) by (unfold accepts; intros [_ X]; congruence). apply Keep; auto.
        unfold leader_app_resp_reject in H. apply bind_ok in H. destruct H as (pb & _ & H). destruct (pr_maybe_decr_to _ _ _) as [p1 ok] eqn:Hd.
        apply decr_match in Hd. cbn in Hd. destruct ok; [|inv H; eapply msame_put; eauto].
        apply send_append_sends, msame_sends in H. eapply msame_trans; [|exact H]. eapply msame_put; [exact Hg|].
        destruct (pstate_eqb _ _); [|exact Hd]. rewrite <- Hd. apply probe_match.
      + unfold leader_app_resp_accept in H. destruct (pr_maybe_update _ _) as [p1 ok] eqn:Hu.
        apply pr_maybe_update_spec in Hu. cbn in Hu. destruct Hu as (U1 & _ & _ & _ & _ & U6 & U7 & _). destruct ok.
        2:{ inv H. right. apply cm_keep; [eapply msame_put; eauto|]. intros _ p Hp. assert (p = pr) by congruence. subst p.
            destruct (N.le_gt_cases (m_index m) (p_match pr)) as [|X]; auto. apply U6 in X. discriminate. }
        apply bind_ok in H. destruct H as (p2 & Hp2 & H). apply ack_progress_match in Hp2. apply bind_ok in H. destruct H as ([r2 cc] & H1 & H).
        pose proof (raft_maybe_commit_maxc _ _ _ H1) as M2.
        apply commit_last in H1. destruct H1 as [l H1]. apply bind_ok in H. destruct H as (r3 & H2 & H).
        apply bind_ok in H. destruct H as (r4 & H3 & H). apply send_all_sends in H3.
        assert (S23 : sends r2 r3).
        { destruct cc; [apply bind_ok in H2; destruct H2 as (r5 & H5 & H2); eapply sends_trans; [eapply release_pending_reads_sends; eauto|eapply bcast_append_sends; eauto]|].
          match type of H2 with (if ?b then _ else _) = _ => destruct b end; [eapply send_append_sends; eauto|inv H2; apply sends_refl]. }
        right. apply (cm_then m r r2).
        * rewrite H1 in *. constructor; try reflexivity; [| |auto| |].
          -- intros Hs q Hq. unfold put_progress, trk_put, trk_get, selfm, r_id, r_last in *. cbn in Hq. change (log_last (r_log r) <= p_match q).
             rewrite mget_mset in Hq. destruct (N.eqb_spec (k_id (r_cfg r)) (m_from m)) as [Y|Y]; [|auto]. inv Hq. rewrite <- Y in Hg. specialize (Hs _ Hg). lia.
          -- intros B _ Hi Hb id q Hq. unfold put_progress, trk_put, trk_get in *. cbn in Hq. rewrite mget_mset in Hq.
             destruct (N.eqb_spec id (m_from m)); [inv Hq|eapply Hb; exact Hq]. specialize (Hb _ _ Hg). specialize (Hi (conj Ht Hr)). lia.
          -- intros id q Hq. unfold put_progress, trk_put, trk_get in *. cbn. rewrite mget_mset.
             destruct (N.eqb_spec id (m_from m)); [subst|exists q; split; auto; lia]. exists p2. split; auto. assert (q = pr) by congruence. subst. lia.
          -- intros _ _ q Hq. unfold put_progress, trk_put, trk_get in *. cbn. rewrite mget_mset, N.eqb_refl. exists p2. split; auto. lia.
        * eapply msame_trans; [apply msame_sends; eapply sends_trans; [exact S23|exact H3]|].
          destruct (_ && _); [|inv H; apply msame_refl]. unfold send_timeout_now in H. apply send_ok in H. destruct H as [-> _]. constructor; reflexivity.
    - assert (Na : ~ accepts m) by (unfold accepts; intros [X _]; congruence). apply Keep; auto.
      apply bind_ok in H. destruct H as (r1 & H & Hx). inv Hx. unfold leader_heartbeat_resp in H.
      apply bind_ok in H. destruct H as (p1 & Hp1 & H). apply bind_ok in H. destruct H as (r2 & H2 & H).
      assert (M1 : p_match p1 = p_match pr).
      { match type of Hp1 with (if ?b then _ else _) = _ => destruct b end; [apply bind_ok in Hp1; destruct Hp1 as (inf & _ & Hp1)|]; inv Hp1; reflexivity. }
      assert (S2 : msame r r2).
      { eapply msame_trans; [eapply msame_put; [exact Hg|exact M1]|].
        match type of H2 with (if ?b then _ else _) = _ => destruct b end; [|inv H2; apply msame_refl]. apply msame_sends. eapply send_append_sends; eauto. }
      match type of H with (if ?b then _ else _) = _ => destruct b end; [inv H; exact S2|].
      destruct (ro_recv_ack _ _ _) as [ro acks]. eapply msame_trans; [exact S2|].
      destruct (tc_vote_result _ _); try (inv H; constructor; reflexivity; fail).
      apply bind_ok in H. destruct H as ([ro' rss] & _ & H).
      apply (mfold_inv _ sends) in H; [|apply sends_refl|apply sends_trans|intros; eapply response_to_read_index_sends; eauto].
      apply msame_sends in H. eapply msame_trans; [|exact H]. constructor; reflexivity.
    - assert (Na : ~ accepts m) by (unfold accepts; intros [X _]; congruence). apply Keep; auto.
      unfold leader_unreachable in H. destruct (pstate_eqb _ _); inv H; [|apply msame_refl]. eapply msame_put; [exact Hg|].
      apply probe_match.
    - assert (Na : ~ accepts m) by (unfold accepts; intros [X _]; congruence). apply Keep; auto.
      unfold leader_snap_status in H. destruct (p_state pr) eqn:Hps; inv H; try apply msame_refl. eapply msame_put; [exact Hg|].
      destruct (m_reject m); cbn; rewrite probe_match; reflexivity.
    - assert (Na : ~ accepts m) by (unfold accepts; intros [X _]; congruence). apply Keep; auto.
      apply bind_ok in H. destruct H as (r1 & H & Hx). inv Hx. unfold leader_transfer in H. destruct (p_learner pr); [inv H; apply msame_refl|].
      destruct (_ && _); [inv H; apply msame_refl|].
      set (r1 := if negb (r_transferee r =? 0) then set_r_transferee 0 r else r) in *.
      assert (K1 : msame r r1) by (unfold r1; destruct (negb _); constructor; reflexivity). clearbody r1. eapply msame_trans; [exact K1|].
      destruct (m_from m =? r_id r1); [inv H; apply msame_refl|].
      destruct (_ =? _); [unfold send_timeout_now in H; apply send_ok in H; destruct H as [-> _]; constructor; reflexivity|].
      apply send_append_sends, msame_sends in H. eapply msame_trans; [|exact H]. constructor; reflexivity. }
  assert (Na : m_type m <> MsgAppResp -> ~ accepts m) by (unfold accepts; tauto).
  destruct (m_type m) eqn:Ht; try exact Hrest; clear Hrest; specialize (Na ltac:(discriminate)); specialize (Keep Na); unfold okr; intros H.
  - apply bind_ok in H. destruct H as (r1 & H & Hx). inv Hx. apply Keep. apply msame_sends. eapply bcast_heartbeat_ctx_sends; eauto.
  - unfold leader_prop in H. destruct (m_entries m) eqn:He; [discriminate|]. cbn [is_nil] in H. rewrite <- He in *.
    destruct (trk_get (r_id r) (r_trk r)); [|inv H; apply Keep, msame_refl].
    destruct (negb _); [inv H; apply Keep, msame_refl|]. apply bind_ok in H. destruct H as ([es r1] & Hf & H).
    apply filter_prop_fields in Hf. destruct Hf as [k ->]. apply bind_ok in H. destruct H as ([r2|] & Ha & H); [|inv H; apply Keep; constructor; reflexivity].
    unfold okr in H. apply bind_ok in H. destruct H as (r3 & H & Hx). inv Hx. apply bcast_append_sends, msame_sends in H.
    right. eapply cm_then; [|exact H]. destruct (append_cm m _ _ _ Na Ha) as ([A1 A2 A0 A6 A7 A8 A3 A4 A5] & M & Sf). constructor; [exact A1|exact A2|exact A0|exact A6|intros _; exact Sf|exact A8|intros _; exact M|exact A4|intros X; tauto].
  - injection H as H _. rewrite <- H. clear H. destruct (check_quorum_msame r) as [X|X]; [left; exact X|apply Keep; exact X].
  - apply bind_ok in H. destruct H as (r1 & H & Hx). inv Hx. unfold leader_read_index in H. destruct (trk_is_singleton (r_trk r)).
    + apply Keep, msame_sends. eapply response_to_read_index_sends; eauto.
    + apply bind_ok in H. destruct H as (b & _ & H). destruct b.
      * apply Keep, msame_sends. eapply send_read_index_response_sends; eauto.
      * inv H. apply Keep; constructor; reflexivity.
Qed.
Lemma step_dispatch_cm m r r' e : r_state r = RLeader -> step_dispatch m r = Ok (r', e) -> cms m r r'.
Proof.
  intros Hl H. unfold step_dispatch in H. rewrite Hl in H.
  assert (V : ~ accepts m -> step_vote m r = Ok r' -> cms m r r').
  { intros Na V. right. apply cm_keep; [|tauto].
    unfold step_vote in V. apply bind_ok in V. destruct V as (u & _ & V). apply bind_ok in V. destruct V as (rt & _ & V). destruct u.
    - apply bind_ok in V. destruct V as (r1 & V1 & V). apply send_ok in V1. destruct V1 as [-> _]. destruct (mtype_eqb _ _); inv V; constructor; auto.
    - apply send_ok in V. destruct V as [-> _]. constructor; auto. }
  destruct (m_type m) eqn:Ht; try (eapply step_leader_cm; eauto; fail); unfold okr in H; apply bind_ok in H; destruct H as (r1 & H & Hx); inv Hx;
    try (apply V; auto; unfold accepts; rewrite Ht; intros [X _]; discriminate).
  unfold hup, is_leader in H. rewrite Hl in H. inv H. right. apply cm_keep; [apply msame_refl|]. unfold accepts. rewrite Ht. intros [X _]; discriminate.
Qed.
Lemma lead_bnd B r r' : r_last r <= B -> r_last r' <= B -> become_leader r = Ok r' -> bnd B r'.
Proof.
  intros HB HB' H. apply become_leader_inv in H. destruct H as (pr & r1 & u & H1 & H2 & H3 & ->).
  apply (append_cm (new_msg MsgHup)) in H3; [|unfold accepts; cbn; intros [X _]; discriminate]. destruct H3 as (C & _).
  change (bnd B r1). change (r_last r1 <= B) in HB'. apply (cm_le _ _ _ C); auto; [unfold accepts; cbn; intros [X _]; discriminate|]. clear C.
  assert (B0 : bnd B (reset (r_term r) r)).
  { hide (reset (r_term r) r) r0 Er0. destruct (reset_more _ _ _ Er0) as (_&_&_&_&_&_&_&_&R&_). clear Er0 H1 H2.
    intros id p Hp. unfold trk_get in Hp. rewrite R, mget_mmap in Hp. destruct (mget id (t_progress (r_trk r))) as [p0|]; [|discriminate]. cbn in Hp.
    destruct (id =? r_id r); injection Hp as <-; cbn; [exact HB|apply N.le_0_l]. }
  hide (reset (r_term r) r) r0 Er0. intros id p Hp. unfold trk_get in Hp. destruct (lead_base_fields pr r0 _ eq_refl) as [_ L2]. rewrite L2, mget_mset in Hp.
  destruct (id =? r_id r0); [|eapply B0; exact Hp]. inv Hp. change (p_match pr <= B). eapply B0; eauto.
Qed.
Lemma via_bnd B r r' : r_last r <= B -> r_last r' <= B -> via r r' -> bnd B r'.
Proof.
  intros HB HB' (a & b & A1 & _ & _ & _ & _ & _ & A7 & A8). apply msame_sends in A8. eapply bnd_msame; [exact A8|].
  eapply lead_bnd; [|  |exact A7]; unfold r_last in *; [rewrite A1; exact HB|rewrite <- (ms_log _ _ A8); exact HB'].
Qed.
Lemma via_log r r' : ninv r -> via r r' -> log_abs (r_log r') = a_app (log_abs (r_log r)) (stamp (r_term r') (a_last (log_abs (r_log r)) + 1) [empty_entry]).
Proof.
  intros Hn (a & b & B1 & B2 & B3 & B4 & B5 & B6 & B7 & B8).
  pose proof (become_leader_all _ _ B7) as X. destruct X as (_ & _ & X & _). rewrite (sm_term _ _ (sd_same _ _ B8)), X. clear X.
  rewrite (ms_log _ _ (msame_sends _ _ B8)). apply become_leader_inv in B7. destruct B7 as (pr & r1 & u & H1 & H2 & H3 & ->).
  change (r_log (set_r_uncommitted u r1)) with (r_log r1).
  assert (Z : r_log (lead_base pr (reset (r_term a) a)) = r_log r /\ r_term (lead_base pr (reset (r_term a) a)) = r_term a).
  { hide (reset (r_term a) a) r0 Er0. destruct (reset_fields _ _ _ Er0) as (_ & R2 & _ & R4 & _). clear Er0 H2 H3. split; [rewrite <- B1, <- R4; reflexivity|rewrite <- R2; reflexivity]. }
  hide (lead_base pr (reset (r_term a) a)) rb Erb. clear Erb. destruct Z as [Z1 Z2].
  apply append_log_w in H3; [|rewrite Z1; apply (li_wf _ (ni_log _ Hn))|].
  - destruct H3 as (_ & H3 & _). cbv zeta in H3. rewrite H3, Z1, Z2. reflexivity.
  - rewrite Z2. destruct B5 as [B5|[B5 B9]]; [lia|]. rewrite B9. apply (ni_term _ Hn). auto.
Qed.
Lemma via_max r r' : via r r' -> maxc r' /\ selfm r' /\ ~ (r_state r = RLeader /\ r_term r' = r_term r).
Proof.
  intros V. split; [|split]; [| |intros [X Y]; apply via_hb in V; destruct V as (_ & _ & V); specialize (V ltac:(congruence)); lia];
  destruct V as (a & b & _ & _ & _ & _ & _ & _ & A7 & A8);
  apply become_leader_inv in A7; destruct A7 as (pr & r1 & u & H1 & H2 & H3 & ->);
  apply (append_cm (new_msg MsgHup)) in H3; try (unfold accepts; cbn; intros [X _]; discriminate); destruct H3 as (_ & M & S);
  apply msame_sends in A8; [eapply maxc_msame; [exact A8|exact M]|eapply selfm_msame; [exact A8|exact S]].
Qed.
(** The same, but only an acknowledgement of the node's term can raise a Match. *)
Record cm' (m : msg) (r r' : raft) : Prop := {
  cn_state : r_state r' = r_state r;
  cn_term : r_term r' = r_term r;
  cn_conf : t_config (r_trk r') = t_config (r_trk r);
  cn_cfg : r_cfg r' = r_cfg r;
  cn_self : selfm r -> selfm r';
  cn_le : forall B, r_last r' <= B -> (accepts m -> m_term m = r_term r -> m_index m <= B) -> bnd B r -> bnd B r';
  cn_max : maxc r -> maxc r';
  cn_ge : forall id p, trk_get id (r_trk r) = Some p -> exists p', trk_get id (r_trk r') = Some p' /\ p_match p <= p_match p';
  cn_ack : accepts m -> m_term m = r_term r -> forall p, trk_get (m_from m) (r_trk r) = Some p -> exists p', trk_get (m_from m) (r_trk r') = Some p' /\ m_index m <= p_match p'
}.
Lemma cm_cn m r r' : cm m r r' -> (accepts m -> m_term m = r_term r) -> cm' m r r'.
Proof. intros [A1 A2 A3 A4 A5 A6 A7 A8 A9] H. constructor; auto. Qed.
Lemma msame_cn m r r' : msame r r' -> (accepts m -> m_term m <> r_term r) -> cm' m r r'.
Proof.
  intros S H. destruct (cm_keep (new_msg MsgHup) r r' S) as [A1 A2 A3 A4 A5 A6 A7 A8 A9]; [unfold accepts; cbn; intros [X _]; discriminate|].
  constructor; auto.
  - intros B HB Ha. apply A6; auto. unfold accepts. cbn. intros [X _]; discriminate.
  - intros X Y. destruct (H X Y).
Qed.
Lemma step_cm m r r' e : (m_term m = 0 -> ~ accepts m) -> step m r = Ok (r', e) -> r_state r' = RLeader ->
  (r_state r = RLeader /\ r_term r' = r_term r /\ cm' m r r') \/ via r r'.
Proof.
  intros Hz H Hl'. destruct (step_leads _ _ _ _ H Hl') as [[Hl Ht]|V]; [|right; auto]. left. split; [auto|split; [auto|]].
  assert (K : (accepts m -> m_term m = r_term r) -> cms m r r' -> cm' m r r') by (intros X [Y|Y]; [congruence|apply cm_cn; auto]).
  unfold step in H. destruct (N.eqb_spec (m_term m) 0); [apply K; [intros X; destruct (Hz e0 X)|eapply step_dispatch_cm; eauto]|].
  destruct (N.ltb_spec (r_term r) (m_term m)).
  - assert (C0 : msame r r' -> cm' m r r') by (intros S; apply msame_cn; auto; lia).
    destruct (_ && _); [inv H; apply C0, msame_refl|].
    match type of H with step_dispatch m ?x = _ => assert (Kx : x = r /\ m_type m <> MsgAppResp \/ exists l, x = become_follower (m_term m) l r) end.
    { destruct (m_type m); eauto; try (left; split; [reflexivity|discriminate]). destruct (m_reject m); eauto. left; split; [reflexivity|discriminate]. }
    destruct Kx as [[Kx Kt]|[l Kx]]; rewrite Kx in H; clear Kx; [apply K; [intros [X _]; congruence|eapply step_dispatch_cm; eauto]|].
    exfalso. hide (become_follower (m_term m) l r) rx Ex.
    destruct (become_follower_fields _ _ r _ Ex) as (A1&A2&A3&A4&A5&A6&A7&A8&A9&_). clear Ex.
    apply step_dispatch_leads in H. destruct (H Hl') as [[X _]|V]; [congruence|]. apply via_hb in V. lia.
  - destruct (N.ltb_spec (m_term m) (r_term r)); [|apply K; [lia|eapply step_dispatch_cm; eauto]].
    assert (C0 : msame r r' -> cm' m r r') by (intros S; apply msame_cn; auto; lia).
    assert (S : forall x, send x r = Ok r' -> cm' m r r').
    { intros x Hx. apply send_ok in Hx. destruct Hx as [-> _]. apply C0. constructor; auto. }
    unfold okr in H. destruct (_ && _); [apply bind_ok in H; destruct H as (r1 & H & Hx); inv Hx; eapply S; eauto|].
    destruct (mtype_eqb _ _); [apply bind_ok in H; destruct H as (r1 & H & Hx); inv Hx; eapply S; eauto|]. inv H. apply C0, msame_refl.
Qed.
(** A tick of a leader that stays one changes nothing about committing. *)
Lemma tick_msame r r' : r_state r = RLeader -> tick r = Ok r' -> r_state r' = RLeader -> msame r r'.
Proof.
  intros Hs H Hl'. unfold tick in H. rewrite Hs in H. unfold tick_heartbeat in H. cbv zeta in H.
  assert (K : msame r (set_r_el_elapsed (r_el_elapsed r + 1) (set_r_hb_elapsed (r_hb_elapsed r + 1) r))) by (constructor; auto).
  revert H K. generalize (set_r_el_elapsed (r_el_elapsed r + 1) (set_r_hb_elapsed (r_hb_elapsed r + 1) r)). intros r0 H K.
  assert (K1 : r_state r0 = RLeader) by (rewrite (ms_state _ _ K); auto).
  apply bind_ok in H. destruct H as (r1 & H1 & H).
  destruct (negb (is_leader r1)) eqn:Hl.
  { apply Ok_inj in H. subst r1. unfold is_leader in Hl. rewrite Hl' in Hl. discriminate. }
  assert (Hl1 : r_state r1 = RLeader) by (unfold is_leader in Hl; destruct (r_state r1); auto; discriminate). clear Hl.
  assert (L1 : msame r r1).
  { match type of H1 with (if ?b then _ else _) = _ => destruct b end; [|apply Ok_inj in H1; subst; auto].
    apply bind_ok in H1. destruct H1 as (r2 & H2 & H1).
    assert (L2 : r_state r2 = RLeader -> msame r r2).
    { match type of H2 with (if ?b then _ else _) = _ => destruct b end.
      2:{ apply Ok_inj in H2. subst r2. intros _. eapply msame_trans; [exact K|]. constructor; auto. }
      apply bind_ok in H2. destruct H2 as ([r3 e3] & H3 & Hx). apply Ok_inj in Hx. subst r3. intros X.
      destruct (local_leader_step _ _ _ _ H3) as [Y _]; [reflexivity|exact K1|]. specialize (Y eq_refl). subst r2.
      eapply msame_trans; [exact K|]. apply (msame_trans _ (set_r_el_elapsed 0 r0)); [constructor; auto|].
      destruct (check_quorum_msame (set_r_el_elapsed 0 r0)) as [Z|Z]; [congruence|exact Z]. }
    destruct (is_leader r2 && negb (r_transferee r2 =? 0)); apply Ok_inj in H1; subst r1; [|auto].
    eapply msame_trans; [apply L2; exact Hl1|]. constructor; auto. }
  clear H1 K K1 r0. destruct (_ <=? _); [|apply Ok_inj in H; subst; auto].
  apply bind_ok in H. destruct H as ([r3 e3] & H3 & Hx). apply Ok_inj in Hx. subst r3.
  destruct (local_leader_step _ _ _ _ H3) as [_ Y]; [reflexivity|exact Hl1|]. specialize (Y eq_refl). unfold bcast_heartbeat in Y. apply bcast_hb in Y. rewrite Y.
  eapply msame_trans; [exact L1|]. constructor; auto.
Qed.
(* ---- any call ---- *)
Definition maxa (r : raft) : Prop := forall k e, trk_committed (r_trk r) = Ok k -> l_committed (r_log r) < k ->
  a_entry (log_abs (r_log r)) k = Some e -> e_term e <> r_term r.
Lemma maxc_iff r : lwf (r_log r) -> 0 < r_term r -> (maxc r <-> maxa r).
Proof.
  intros W Ht. pose proof (lwf_com _ W) as Hc. unfold maxc, maxa. split.
  - intros H k e Hk Hlt He X. apply (H k Hk Hlt). rewrite log_term_abs by (apply lwf_0; auto). unfold a_term.
    destruct (N.eqb_spec k (a_base (log_abs (r_log r)))); [lia|]. rewrite He. cbn. congruence.
  - intros H k Hk Hlt X. rewrite log_term_abs in X by (apply lwf_0; auto). unfold a_term in X.
    destruct (N.eqb_spec k (a_base (log_abs (r_log r)))); [lia|]. destruct (a_entry (log_abs (r_log r)) k) as [e|] eqn:He; cbn in X; [|inv X; lia].
    apply (H k e Hk Hlt He). inv X. reflexivity.
Qed.
Record ncm (o : nop) (r r' : raft) : Prop := {
  nc_term : r_term r' = r_term r;
  nc_conf : t_config (r_trk r') = t_config (r_trk r);
  nc_cfg : r_cfg r' = r_cfg r;
  nc_self : selfm r -> selfm r';
  nc_le : forall B, r_last r' <= B -> (forall m, o = NStep m -> accepts m -> m_term m = r_term r -> m_index m <= B) -> bnd B r -> bnd B r';
  nc_max : maxa r -> maxa r';
  nc_ge : forall id p, trk_get id (r_trk r) = Some p -> exists p', trk_get id (r_trk r') = Some p' /\ p_match p <= p_match p';
  nc_ack : forall m, o = NStep m -> accepts m -> m_term m = r_term r ->
    forall p, trk_get (m_from m) (r_trk r) = Some p -> exists p', trk_get (m_from m) (r_trk r') = Some p' /\ m_index m <= p_match p'
}.
Lemma ncm_cm o m r r' : lwf (r_log r) -> lwf (r_log r') -> 0 < r_term r -> cm' m r r' ->
  (forall x, o = NStep x -> x = m) -> (accepts m -> o = NStep m) -> ncm o r r'.
Proof.
  intros W W' Ht [A1 A2 A3 A4 A5 A9 A6 A7 A8] Ho Hm. constructor; auto.
  - rewrite <- !maxc_iff; auto. rewrite A2. auto.
  - intros x Hx. specialize (Ho x Hx). subst x. auto.
Qed.
Lemma ncm_msame o r r' : lwf (r_log r) -> 0 < r_term r -> msame r r' -> (forall x, o = NStep x -> ~ accepts x) -> ncm o r r'.
Proof.
  intros W Ht S Ho. destruct (cm_keep (new_msg MsgHup) r r' S) as [A1 A2 A3 A4 A5 A9 A6 A7 _]; [unfold accepts; cbn; intros [X _]; discriminate|].
  constructor; auto.
  - intros B HB _. apply bnd_msame; auto.
  - rewrite <- !maxc_iff; auto; [rewrite (ms_log _ _ S); auto|rewrite A2; auto].
  - intros x Hx Ha. destruct (Ho x Hx Ha).
Qed.
(** Compaction and snapshot creation touch nothing beyond the commit index. *)
Lemma store_abs o n s out : nop_ok o n -> dinv n -> n_step o n = Ok (set_storage s n, out) ->
  (exists i, o = NCompact i) \/ (exists i cs d, o = NCreateSnapshot i cs d) ->
  a_last (log_abs (r_log (rn_raft (set_storage s n)))) = a_last (log_abs (r_log (rn_raft n))) /\
  forall k, l_committed (r_log (rn_raft n)) < k -> a_entry (log_abs (r_log (rn_raft (set_storage s n)))) k = a_entry (log_abs (r_log (rn_raft n))) k.
Proof.
  intros Hok D H Ho. destruct Ho as [[i ->]|(i & cs & d & ->)]; cbn [n_step] in H; apply bind_ok in H; destruct H as ([s0 e] & H1 & H2);
    apply Ok_inj, pair_equal_spec in H2; destruct H2 as [H2 _].
  - destruct D as [[N1 N2 N3] D2 D3 D4 D5 D6 D7 D8 D9].
    assert (Hs : s0 = node_storage n \/ s0 <> node_storage n /\ a_base (ms_abs (node_storage n)) < i).
    { pose proof (proj1 (storage_ok_abs _) D2) as (S1 & _). pose proof (ms_compact_abs (node_storage n) i S1) as HC.
      destruct (N.leb_spec i (a_base (ms_abs (node_storage n)))); [rewrite HC in H1; inv H1; auto|].
      destruct (_ <? _); [destruct HC as [w HC]; congruence|]. destruct HC as (s' & t1 & C1 & _ & _ & _ & _ & C6).
      rewrite C1 in H1. inv H1. right. split; auto. intros X1. rewrite X1 in C6. rewrite C6 in H. cbn in H. lia. }
    rewrite <- H2. clear H2. destruct Hs as [-> |[Hne Hs]]; [rewrite set_storage_same; auto|].
    unfold set_storage, set_rn_raft. cbn [rn_raft r_log set_r_log].
    destruct (u_snap (l_us (r_log (rn_raft n)))) as [sn|] eqn:Hu.
    + unfold log_abs; cbn; rewrite ?Hu; auto.
    + destruct Hok as [_ Hok]. destruct (log_compact_ok i (r_log (rn_raft n)) N1 Hu Hok) as [K1 K2].
      assert (Hb : a_base (log_abs (r_log (rn_raft n))) = a_base (ms_abs (node_storage n))) by (unfold log_abs; rewrite Hu; auto).
      destruct K2 as (st' & t1 & K2 & K3 & K4 & K5 & K6 & K7); [lia|]. unfold node_storage in H1. rewrite H1 in K2. inv K2.
      pose proof (lwf_com _ (li_wf _ N1)) as C. pose proof (lwf_app _ (li_wf _ N1)) as C2. cbn in Hok.
      rewrite K7. unfold a_last, a_entry. cbn [a_base a_ents]. rewrite nlen_ndrop. unfold a_last in C. split; [lia|].
      intros j J. destruct (N.ltb_spec i j); [|lia]. destruct (N.ltb_spec (a_base (log_abs (r_log (rn_raft n)))) j); [|lia]. rewrite nnth_ndrop. f_equal. lia.
  - assert (Hs : ms_abs s0 = ms_abs (node_storage n)).
    { unfold ms_create_snapshot in H1. destruct (_ <=? _); [inv H1; auto|]. destruct (_ <? i); [discriminate|].
      destruct (_ <? _); [discriminate|]. destruct (nnth _ _); inv H1; auto. }
    rewrite <- H2.
    assert (X : log_abs (r_log (rn_raft (set_storage s0 n))) = log_abs (r_log (rn_raft n))); [|rewrite X; auto].
    unfold log_abs. cbn [set_storage set_rn_raft rn_raft r_log set_r_log l_us set_l_st l_st]. rewrite Hs. reflexivity.
Qed.
Definition gained (r r' : raft) : Prop := ~ (r_state r = RLeader /\ r_term r' = r_term r) /\ maxa r' /\ selfm r' /\ via r r'.
Theorem n_step_cm o n n' out : nop_ok o n -> dinv n -> n_step o n = Ok (n', out) -> r_state (rn_raft n') = RLeader -> (forall cc, o <> NApplyCC cc) ->
  (r_state (rn_raft n) = RLeader /\ r_term (rn_raft n') = r_term (rn_raft n) /\ ncm o (rn_raft n) (rn_raft n')) \/
  gained (rn_raft n) (rn_raft n').
Proof.
  intros Hk D H Hl' Hcc. pose proof (n_step_dinv _ _ _ _ Hk H D) as [D' X].
  pose proof (li_wf _ (ni_log _ (di_ninv _ D))) as W. pose proof (li_wf _ (ni_log _ (di_ninv _ D'))) as W'.
  pose proof (ni_term _ (di_ninv _ D')) as T'. specialize (T' (or_introl Hl')).
  pose proof (ni_term _ (di_ninv _ D)) as T.
  assert (Via : via (rn_raft n) (rn_raft n') -> gained (rn_raft n) (rn_raft n')).
  { intros V. pose proof V as V0. apply via_max in V. destruct V as (V1 & V2 & V3). split; [exact V3|]. split; [apply maxc_iff; auto|]. split; [exact V2|exact V0]. }
  assert (S : forall m x y, rn_raft_step m n = Ok (x, y) -> x = n' -> (forall z, o = NStep z -> z = m) -> (accepts m -> o = NStep m) -> (m_term m = 0 -> ~ accepts m) ->
    (r_state (rn_raft n) = RLeader /\ r_term (rn_raft n') = r_term (rn_raft n) /\ ncm o (rn_raft n) (rn_raft n')) \/
    gained (rn_raft n) (rn_raft n')).
  { intros m x y Hs -> Hm Hma Hz. unfold rn_raft_step in Hs. apply bind_ok in Hs. destruct Hs as ([r1 e1] & Hs & Hx). inv Hx. cbn [rn_raft set_rn_raft] in *.
    destruct (step_cm _ _ _ _ Hz Hs Hl') as [(A & B & C)|V]; [left|right; auto]. split; [auto|split; [auto|]]. eapply ncm_cm; eauto. }
  assert (K : forall r', rn_raft n' = r' -> msame (rn_raft n) r' -> (forall z, o = NStep z -> ~ accepts z) ->
    (r_state (rn_raft n) = RLeader /\ r_term (rn_raft n') = r_term (rn_raft n) /\ ncm o (rn_raft n) (rn_raft n')) \/
    gained (rn_raft n) (rn_raft n')).
  { intros r' <- Sm Hz. left. assert (L : r_state (rn_raft n) = RLeader) by (rewrite <- (ms_state _ _ Sm); auto). split; [auto|]. split; [apply Sm|].
    apply ncm_msame; auto. }
  assert (Ho : (forall z, o <> NStep z) -> forall m, (forall z, o = NStep z -> z = m)) by (intros Hn m z Hz; destruct (Hn z Hz)).
  assert (Hn : (forall z, o <> NStep z) -> (forall z, o = NStep z -> ~ accepts z)) by (intros Hn z Hz; destruct (Hn z Hz)).
  assert (Store : (exists s, n' = set_storage s n) -> n_step o n = Ok (n', out) -> (exists i, o = NCompact i) \/ (exists i cs d, o = NCreateSnapshot i cs d) ->
    (r_state (rn_raft n) = RLeader /\ r_term (rn_raft n') = r_term (rn_raft n) /\ ncm o (rn_raft n) (rn_raft n')) \/
    gained (rn_raft n) (rn_raft n')).
  { intros [s Hs] Hx Hy. rewrite Hs in Hx. destruct (store_abs _ _ _ _ Hk D Hx Hy) as [St1 St2]. rewrite <- Hs in St1, St2.
    assert (Z : r_state (rn_raft n') = r_state (rn_raft n) /\ r_term (rn_raft n') = r_term (rn_raft n) /\ r_trk (rn_raft n') = r_trk (rn_raft n) /\ r_cfg (rn_raft n') = r_cfg (rn_raft n) /\ l_committed (r_log (rn_raft n')) = l_committed (r_log (rn_raft n))) by (rewrite Hs; auto).
    destruct Z as (Z1 & Z2 & Z3 & Z4 & Z5). left. rewrite <- Z1. split; [auto|]. split; [auto|].
    constructor; rewrite ?Z3; auto.
    - unfold selfm, r_id, r_last. rewrite Z3, Z4, !log_last_abs, St1 by (apply lwf_0; auto). auto.
    - unfold bnd. rewrite Z3. auto.
    - unfold maxa. rewrite Z3, Z5, Z2. intros Hm k e A B. rewrite (St2 _ B). eauto.
    - intros id p Hp. exists p. split; auto. lia.
    - intros m Hm. destruct Hy as [[i ->]|(i & cs & d & ->)]; discriminate Hm. }
  destruct o; cbn [n_step] in H; try (destruct (Hcc cc); reflexivity); try (destruct (proj2 Hk); fail).
  - clear X. pose proof H as H0. apply bind_ok in H. destruct H as (n1 & H & Hx). inv Hx. unfold rn_tick in H. apply bind_ok in H. destruct H as (r1 & H & Hx). inv Hx. cbn [rn_raft set_rn_raft] in *.
    destruct (tick_leads _ _ H Hl') as [[L1 L2]|V]; [|right; auto]. eapply K; [reflexivity| |apply Hn; discriminate]. apply tick_msame; auto.
  - clear X. apply Ok_inj, pair_equal_spec in H. destruct H as [<- _]. eapply K; [reflexivity| |apply Hn; discriminate]. constructor; auto.
  - apply bind_ok in H. destruct H as ([n1 e1] & H & Hx). inv Hx. eapply S; [exact H|reflexivity|apply Ho; discriminate|unfold accepts; cbn; intros [X0 _]; discriminate|unfold accepts; cbn; intros _ [X0 _]; discriminate].
  - apply bind_ok in H. destruct H as ([n1 e1] & H & Hx). inv Hx. eapply S; [exact H|reflexivity|apply Ho; discriminate|unfold accepts; cbn; intros [X0 _]; discriminate|unfold accepts; cbn; intros _ [X0 _]; discriminate].
  - apply bind_ok in H. destruct H as ([n1 e1] & H & Hx). inv Hx. unfold rn_propose_conf_change in H. apply bind_ok in H. destruct H as ([t d] & _ & H). eapply S; [exact H|reflexivity|apply Ho; discriminate|unfold accepts; cbn; intros [X0 _]; discriminate|unfold accepts; cbn; intros _ [X0 _]; discriminate].
  - apply bind_ok in H. destruct H as ([n1 e1] & H & Hx). inv Hx. unfold rn_step in H.
    destruct (is_local_msg _) eqn:Hloc; [inv H; eapply K; [reflexivity|apply msame_refl|]; intros z Hz [X1 X2]; inv Hz; rewrite X1 in Hloc; discriminate|].
    destruct (_ || _) eqn:Htr; [eapply S; [exact H|reflexivity|congruence|reflexivity|intros Z0 [Z1 _]; destruct Hk as [[_ Hk] _]; destruct (Hk Z0) as [Q|[Q|Q]]; congruence]|]. inv H. left. pose proof (ni_term _ (di_ninv _ D')) as T2.
    split; [auto|split; [auto|]]. constructor; auto; [intros id p Hp; exists p; split; auto; lia|].
    intros z Hz _ _ p Hp. inv Hz. rewrite Hp in Htr. discriminate.
  - destruct X as (rd & _ & [R1 R2 R3 R4 R5 R6 R7 R8 R9 R10 R11]).
    pose proof (lwf_0 _ W) as W0. pose proof (lwf_0 _ W') as W0'.
    destruct R11 as [(u & E1 & E2 & E3 & E4 & _)|(Hl & rb & r0 & (u & l & E1 & E2 & E3 & E6 & _) & Ha & E4 & E5 & E7 & _)].
    + assert (Z : r_state (rn_raft n') = r_state (rn_raft n) /\ r_term (rn_raft n') = r_term (rn_raft n) /\ r_trk (rn_raft n') = r_trk (rn_raft n) /\ r_cfg (rn_raft n') = r_cfg (rn_raft n)) by (rewrite E1; auto).
      destruct Z as (Z1 & Z2 & Z3 & Z4). left. rewrite <- Z1. split; [auto|]. split; [auto|].
      constructor; rewrite ?Z3; auto.
      * unfold selfm, r_id, r_last. rewrite Z3, Z4, !log_last_abs, E2; auto.
      * unfold bnd. rewrite Z3. auto.
      * unfold maxa. rewrite Z3, E2, E4, Z2. auto.
      * intros id p Hp. exists p. split; auto. lia.
      * intros m X; discriminate X.
    + assert (Hb : 0 < r_term rb /\ r_trk rb = r_trk (rn_raft n) /\ r_cfg rb = r_cfg (rn_raft n) /\ r_term rb = r_term (rn_raft n) /\ lwf (r_log rb)) by (rewrite E1; split; [apply T; auto|]; split; [reflexivity|]; split; [reflexivity|]; split; [reflexivity|exact E2]).
      destruct Hb as (B1 & B2 & B3 & B4 & B5).
      destruct (append_log_w _ _ _ B5 B1 Ha) as (W1 & _). pose proof (lwf_0 _ W1) as W10.
      apply (append_cm (new_msg MsgHup)) in Ha; [|unfold accepts; cbn; intros [X _]; discriminate]. destruct Ha as ([C1 C2 C3 C4 C5 C8 C6 C7 _] & M & Sf).
      assert (Z : r_trk (rn_raft n') = r_trk r0 /\ r_cfg (rn_raft n') = r_cfg r0 /\ r_term (rn_raft n') = r_term r0) by (rewrite E4; auto). destruct Z as (Z1 & Z2 & Z3).
      left. split; [auto|]. split; [congruence|]. constructor; try congruence.
      * intros _. unfold selfm, r_id, r_last. rewrite Z1, Z2, log_last_abs, E5 by auto. rewrite <- log_last_abs by auto. exact Sf.
      * unfold bnd. rewrite Z1. intros B HB _ Hb. apply C8; [|unfold accepts; cbn; intros [X _]; discriminate|unfold bnd; rewrite B2; exact Hb].
        unfold r_last in *. rewrite log_last_abs in * by auto. rewrite <- E5. exact HB.
      * intros _. apply maxc_iff in M; auto; [|lia]. unfold maxa. rewrite Z1, E5, E7, Z3. exact M.
      * rewrite Z1, <- B2. exact C7.
  - destruct X as (s & -> & _). apply Store; [exists s; auto|exact H|left; eauto].
  - destruct X as (s & -> & _). apply Store; [exists s; auto|exact H|right; eauto].
  - apply bind_ok in H. destruct H as (n1 & H & Hx). inv Hx. unfold rn_report_unreachable in H. apply bind_ok in H. destruct H as ([n2 e2] & H & Hx). inv Hx. eapply S; [exact H|reflexivity|apply Ho; discriminate|unfold accepts; cbn; intros [X0 _]; discriminate|unfold accepts; cbn; intros _ [X0 _]; discriminate].
  - apply bind_ok in H. destruct H as (n1 & H & Hx). inv Hx. unfold rn_report_snapshot in H. apply bind_ok in H. destruct H as ([n2 e2] & H & Hx). inv Hx. eapply S; [exact H|reflexivity|apply Ho; discriminate|unfold accepts; cbn; intros [X0 _]; discriminate|unfold accepts; cbn; intros _ [X0 _]; discriminate].
  - apply bind_ok in H. destruct H as (n1 & H & Hx). inv Hx. unfold rn_transfer_leader in H. apply bind_ok in H. destruct H as ([n2 e2] & H & Hx). inv Hx. eapply S; [exact H|reflexivity|apply Ho; discriminate|unfold accepts; cbn; intros [X0 _]; discriminate|unfold accepts; cbn; intros _ [X0 _]; discriminate].
  - apply bind_ok in H. destruct H as (n1 & H & Hx). inv Hx. unfold rn_read_index in H. apply bind_ok in H. destruct H as ([n2 e2] & H & Hx). inv Hx. eapply S; [exact H|reflexivity|apply Ho; discriminate|unfold accepts; cbn; intros [X0 _]; discriminate|unfold accepts; cbn; intros _ [X0 _]; discriminate].
Qed.
End Commit.
