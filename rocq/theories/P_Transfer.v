(** Leader transfer: where MsgTimeoutNow can come from, and the leader's clock. *)
From Verif Require Import Prelude Types M_Util M_Quorum M_Inflights M_Progress M_Tracker.
From Verif Require Import M_Storage M_Unstable M_Log M_ReadOnly M_ConfPb M_ConfChange M_Raft M_RawNode.
From Verif Require Import P_Inflights Spec_Log P_Lists P_Log P_Frame P_Prim Sys_Node P_Node P_Fields P_Vote Spec_Node P_New P_Time P_Handle P_NodeRun P_Emit P_Lead.

Section Tr.
Context {E : Env}.

(** Messages only a leader's sending code emits. *)
Definition notn (m : msg) : Prop := m_type m <> MsgTimeoutNow /\ m_type m <> MsgApp /\ m_type m <> MsgSnap.
Definition adds (r r' : raft) : Prop := exists ms, r_msgs r' = r_msgs r ++ ms /\ Forall notn ms.
Definition adds0 (r r' : raft) : Prop := exists ms, r_msgs r' = r_msgs r ++ ms /\ Forall (fun m => m_type m <> MsgTimeoutNow) ms.
Lemma adds0_same r r' : r_msgs r' = r_msgs r -> adds0 r r'.
Proof. intros H. exists []. rewrite app_nil_r. auto. Qed.
Lemma adds0_refl r : adds0 r r. Proof. apply adds0_same; auto. Qed.
Lemma adds0_trans a b c : adds0 a b -> adds0 b c -> adds0 a c.
Proof. intros (x & X1 & X2) (y & Y1 & Y2). exists (x ++ y). rewrite Y1, X1, app_assoc. split; auto. apply Forall_app; auto. Qed.
Lemma adds0_send m r r' : m_type m <> MsgTimeoutNow -> send m r = Ok r' -> adds0 r r'.
Proof.
  intros Hm H. apply send_ok in H. destruct H as [-> _].
  exists [outm r m]. split; [reflexivity|]. constructor; auto. destruct m as [ty a b c d e f g h i j k]. unfold outm. cbn in Hm |- *. destruct (b =? 0), ty; cbn; congruence.
Qed.
Lemma adds_same r r' : r_msgs r' = r_msgs r -> adds r r'.
Proof. intros H. exists []. rewrite app_nil_r. auto. Qed.
Lemma adds_refl r : adds r r. Proof. apply adds_same; auto. Qed.
Lemma adds_trans a b c : adds a b -> adds b c -> adds a c.
Proof. intros (x & X1 & X2) (y & Y1 & Y2). exists (x ++ y). rewrite Y1, X1, app_assoc. split; auto. apply Forall_app; auto. Qed.
Lemma adds_send m r r' : notn m -> send m r = Ok r' -> adds r r' /\ r_state r' = r_state r /\ r_trk r' = r_trk r /\
  r_term r' = r_term r /\ r_el_elapsed r' = r_el_elapsed r /\ r_transferee r' = r_transferee r.
Proof.
  intros Hm H. apply send_ok in H. destruct H as [-> _]. split; [|repeat split].
  exists [outm r m]. split; [reflexivity|]. constructor; auto. destruct m as [ty a b c d e f g h i j k]. unfold notn, outm in *. cbn in Hm |- *. destruct (b =? 0), ty; cbn; repeat split; try congruence; try apply Hm.
Qed.
Ltac nt := repeat split; discriminate.

(** The leader's clock and transferee are what they were. *)
Definition calm (r r' : raft) : Prop :=
  r_state r = RLeader -> r_state r' = RLeader -> r_term r' = r_term r ->
  r_el_elapsed r' = r_el_elapsed r /\ r_transferee r' = r_transferee r.
(** First some work without MsgTimeoutNow, then (only by a leader) plain sending. *)
Definition tres (r r' : raft) : Prop :=
  exists r1, adds r r1 /\ (r1 = r' \/ (r_state r1 = RLeader /\ sends r1 r')).
Lemma tres_adds r r' : adds r r' -> tres r r'. Proof. intros H. exists r'. auto. Qed.
Lemma tres_sends r r' : r_state r = RLeader -> sends r r' -> tres r r'.
Proof. intros H1 H2. exists r. split; [apply adds_refl|auto]. Qed.
Lemma tres_pre a b c : adds a b -> tres b c -> tres a c.
Proof. intros H (r1 & H1 & H2). exists r1. split; [eapply adds_trans; eauto|auto]. Qed.

Lemma calm_sends r1 r r' : r_el_elapsed r1 = r_el_elapsed r -> r_transferee r1 = r_transferee r -> sends r1 r' -> calm r r'.
Proof. intros H1 H2 [S _ _] _ _ _. rewrite (sm_el _ _ S), (sm_transferee _ _ S). auto. Qed.

Lemma msa_adds to b r r' x : maybe_send_append to b r = Ok (r', x) -> adds0 r r'.
Proof.
  unfold maybe_send_append. destruct (trk_get to (r_trk r)) as [pr|]; [|discriminate]. destruct (pr_is_paused pr); [intros H; inv H; apply adds0_refl|].
  intros H. apply bind_ok in H. destruct H as (t & _ & H). apply bind_ok in H. destruct H as (es & _ & H). cbv zeta in H.
  match type of H with (if ?c then _ else _) = _ => destruct c end; [inv H; apply adds0_refl|].
  assert (K : send_snap_msg to pr r = Ok (r', x) -> adds0 r r').
  { clear. unfold send_snap_msg. destruct (negb (p_active pr)); [intros H; inv H; apply adds0_refl|].
    destruct (log_snapshot (r_log r)) as [sn|[]]; try discriminate; [|intros H; inv H; apply adds0_refl].
    destruct (_ =? 0); [discriminate|]. intros H. apply bind_ok in H. destruct H as (r1 & H & Hx). inv Hx.
    apply adds0_send in H; [|discriminate]. exact H. }
  destruct t as [t|]; [|auto]. destruct es as [es|]; [|auto]. clear K.
  apply bind_ok in H. destruct H as (r1 & H & Hx). inv Hx. unfold send_app_msg in H. cbv zeta in H.
  destruct (rev es) as [|la tl]; [apply adds0_send in H; [exact H|discriminate]|]. destruct (p_state pr); [|apply bind_ok in H; destruct H as (inf & _ & H)|discriminate];
    (apply adds0_send in H; [|discriminate]); exact H.
Qed.
Lemma bcast_adds r r' : bcast_append r = Ok r' -> adds0 r r'.
Proof.
  unfold bcast_append. intros H. apply (mfold_inv send_append adds0) in H; auto using adds0_refl; [intros; eapply adds0_trans; eauto|].
  intros a s s' _ Hs. unfold send_append in Hs. apply bind_ok in Hs. destruct Hs as ([r1 b] & Hs & Hx). inv Hx. eapply msa_adds; eauto.
Qed.
Lemma become_leader_adds r r' : become_leader r = Ok r' -> adds r r' /\ r_state r' = RLeader.
Proof. intros H. apply become_leader_all in H. destruct H as (_&_&_&_&H1&_&H2&_). split; auto. apply adds_same; auto. Qed.

Lemma follow_adds t l r : adds r (become_follower t l r).
Proof. hide (become_follower t l r) r1 E1. destruct (become_follower_fields _ _ _ _ E1) as (A1&A2&A3&A4&A5&A6&A7&_). apply adds_same; auto. Qed.

Lemma vote_reqs_adds t term tr l r r' : (t <> MsgTimeoutNow /\ t <> MsgApp /\ t <> MsgSnap) -> mfold (send_vote_req t term tr) l r = Ok r' -> adds r r'.
Proof.
  intros Ht H. apply (mfold_inv (send_vote_req t term tr) adds) in H; auto using adds_refl; [intros; eapply adds_trans; eauto|].
  intros a s s' _ Hs. unfold send_vote_req in Hs. apply bind_ok in Hs. destruct Hs as (lt & _ & Hs).
  eapply adds_send in Hs; [apply Hs|]. destruct tr; exact Ht.
Qed.
Lemma campaign_real_adds tr r r' : campaign_real tr r = Ok r' -> adds r r'.
Proof.
  unfold campaign_real. intros H. apply bind_ok in H. destruct H as (r1 & H1 & H).
  apply become_candidate_all in H1. destruct H1 as (_&_&_&_&_&_&_&Hm&_).
  destruct (poll (r_id r1) true r1) as [r2 v] eqn:Hp. unfold poll in Hp. inv Hp.
  assert (A : adds r (set_r_trk (trk_record_vote (r_id r1) true (r_trk r1)) r1)) by (apply adds_same; auto).
  eapply adds_trans; [exact A|]. match type of H with context [match ?v with VotePending => _ | VoteLost => _ | VoteWon => _ end] => destruct v end.
  - eapply vote_reqs_adds; [|exact H]; nt.
  - eapply vote_reqs_adds; [|exact H]; nt.
  - apply become_leader_adds in H. apply H.
Qed.
Lemma campaign_adds t r r' : campaign t r = Ok r' -> adds r r'.
Proof.
  destruct t; cbn [campaign]; try apply campaign_real_adds. intros H. apply bind_ok in H. destruct H as (r1 & H1 & H).
  apply become_pre_all in H1. destruct H1 as (_&_&_&_&_&_&_&Hm&_).
  destruct (poll (r_id r1) true r1) as [r2 v] eqn:Hp. unfold poll in Hp. inv Hp.
  assert (A : adds r (set_r_trk (trk_record_vote (r_id r1) true (r_trk r1)) r1)) by (apply adds_same; auto).
  eapply adds_trans; [exact A|]. match type of H with context [match ?v with VotePending => _ | VoteLost => _ | VoteWon => _ end] => destruct v end.
  - eapply vote_reqs_adds; [|exact H]; nt.
  - eapply vote_reqs_adds; [|exact H]; nt.
  - eapply campaign_real_adds; exact H.
Qed.
Lemma hup_adds t r r' : hup t r = Ok r' -> adds r r' /\ (r_state r = RLeader -> r' = r).
Proof.
  unfold hup, is_leader. destruct (r_state r) eqn:Hs; cbn [role_eqb]; try (intros H; inv H; split; [apply adds_refl|auto]; fail);
  (destruct (negb (promotable r)); [intros H; inv H; split; [apply adds_refl|discriminate]|];
  intros H; apply bind_ok in H; destruct H as ([ents|] & _ & H); [|discriminate];
  destruct (_ && _); [inv H; split; [apply adds_refl|discriminate]|]; split; [eapply campaign_adds; eauto|discriminate]).
Qed.

Lemma leader_tres m r r' e : r_state r = RLeader -> step_leader m r = Ok (r', e) ->
  tres r r' /\ (m_type m <> MsgTransferLeader -> calm r r').
Proof.
  intros Hl H. unfold step_leader in H.
  assert (Kput : forall id p, r_state (put_progress id p r) = RLeader) by (intros; exact Hl).
  destruct (m_type m) eqn:Ht;
    try (destruct (trk_get (m_from m) (r_trk r)) as [pr|] eqn:Hg; [|inv H; split; [apply tres_adds, adds_refl|intros _ _ _ _; auto]]);
    try (inv H; split; [apply tres_adds, adds_refl|intros _ _ _ _; auto]; fail);
    try (unfold okr in H; apply bind_ok in H; destruct H as (r1 & H & Hx); apply Ok_inj, pair_equal_spec in Hx; destruct Hx as [-> _]).
  - (* Beat *) unfold bcast_heartbeat in H. apply bcast_heartbeat_ctx_sends in H. split; [apply tres_sends; auto|intros _; eapply calm_sends; eauto].
  - (* Prop *) unfold leader_prop in H. destruct (is_nil (m_entries m)); [discriminate|].
    destruct (trk_get (r_id r) (r_trk r)) as [ps|]; [|inv H; split; [apply tres_adds, adds_refl|intros _ _ _ _; auto]].
    destruct (negb (r_transferee r =? 0)); [inv H; split; [apply tres_adds, adds_refl|intros _ _ _ _; auto]|].
    apply bind_ok in H. destruct H as ([es r1] & Hf & H). apply filter_prop_fields in Hf. destruct Hf as [k ->].
    apply bind_ok in H. destruct H as ([r2|] & Ha & H).
    + apply append_entry_fields in Ha. destruct Ha as (l & p0 & u & ->). unfold okr in H. apply bind_ok in H. destruct H as (r3 & H & Hx). inv Hx.
      apply bcast_append_sends in H. split; [eexists; split; [|right; split; [|exact H]]; [apply adds_same; reflexivity|exact Hl]|].
      intros _. eapply calm_sends; [| |exact H]; auto.
    + inv H. split; [apply tres_adds, adds_same; reflexivity|intros _ _ _ _; auto].
  - (* AppResp *) unfold leader_app_resp in H. destruct (m_reject m).
    + unfold leader_app_resp_reject in H. apply bind_ok in H. destruct H as (probe & _ & H).
      destruct (pr_maybe_decr_to _ _ _) as [pr1 ok]. destruct ok.
      * apply send_append_sends in H. split; [eexists; split; [|right; split; [|exact H]]; [apply adds_same; reflexivity|exact Hl]|].
        intros _. eapply calm_sends; [| |exact H]; auto.
      * inv H. split; [apply tres_adds, adds_same; reflexivity|intros _ _ _ _; auto].
    + unfold leader_app_resp_accept in H. destruct (pr_maybe_update _ _) as [pr1 upd] eqn:Hu. destruct upd.
      2:{ inv H. split; [apply tres_adds, adds_same; reflexivity|intros _ _ _ _; auto]. }
      apply bind_ok in H. destruct H as (pr2 & Hp2 & H). apply bind_ok in H. destruct H as ([r2 com] & Hc & H).
      apply raft_maybe_commit_state in Hc. destruct Hc as [l ->].
      apply bind_ok in H. destruct H as (r3 & H3 & H). apply bind_ok in H. destruct H as (r4 & H4 & H).
      set (r2 := set_r_log l (put_progress (m_from m) pr2 r)) in *.
      assert (S3 : sends r2 r3).
      { destruct com; [apply bind_ok in H3; destruct H3 as (r5 & X1 & X2); apply release_pending_reads_sends in X1; apply bcast_append_sends in X2; eapply sends_trans; eauto|].
        destruct (pr_is_paused _); [apply send_append_sends in H3; auto|]. inv H3. apply sends_refl. }
      apply send_all_sends in H4. pose proof (sends_trans _ _ _ S3 H4) as S4.
      assert (P2 : p_match pr2 = p_match pr1).
      { unfold ack_progress in Hp2. destruct (p_state pr1); [inv Hp2; reflexivity| |destruct (p_pending pr1 <=? p_match pr1); inv Hp2; auto].
        apply bind_ok in Hp2. destruct Hp2 as (inf & _ & Hp2). inv Hp2. reflexivity. unfold pr_become_probe. destruct (p_state pr1); reflexivity. }
      assert (S5 : sends r2 r').
      { destruct (_ && _) eqn:Hb in H; [|inv H; auto]. apply andb_prop in Hb. destruct Hb as [B1 B2]. apply N.eqb_eq in B1, B2.
        destruct (prs_same_get _ _ (m_from m) pr2 (sd_prs _ _ S4)) as (p4 & G4 & Q4).
        { unfold r2, trk_get, put_progress. cbn. rewrite mget_mset, N.eqb_refl. reflexivity. }
        eapply sends_trans; [exact S4|]. eapply send_timeout_now_sends; [| | |exact H]; eauto. destruct Q4 as [Q4 _]. congruence. }
      split; [exists r2; split; [apply adds_same; reflexivity|right; split; [exact Hl|exact S5]]|].
      intros _. eapply calm_sends; [| |exact S5]; auto.
  - (* HeartbeatResp *) unfold leader_heartbeat_resp in H. apply bind_ok in H. destruct H as (pr1 & _ & H). apply bind_ok in H. destruct H as (r2 & H2 & H).
    set (r0 := put_progress (m_from m) pr1 r) in *. assert (S2 : sends r0 r2) by (destruct (_ <? _) in H2; [apply send_append_sends in H2; auto|inv H2; apply sends_refl]).
    assert (S3 : sends r0 r').
    { match type of H with (if ?b then _ else _) = _ => destruct b end; [inv H; auto|].
      destruct (ro_recv_ack (m_from m) (m_ctx m) (r_ro r2)) as [ro acks] eqn:Hr. pose proof (ro_ack_opt (m_from m) (m_ctx m) (r_ro r2)) as Ho. rewrite Hr in Ho. cbn in Ho.
      assert (S3 : sends r0 (set_r_ro ro r2)) by (eapply sends_trans; [exact S2|apply sends_ro; auto]).
      destruct (tc_vote_result _ acks) in H; try (inv H; auto; fail).
      apply bind_ok in H. destruct H as ([ro' rss] & Hadv & H). apply ro_advance_opt in Hadv.
      eapply sends_trans; [exact S3|]. eapply sends_trans; [apply (sends_ro ro'); auto|].
      apply (mfold_inv (fun rs r => response_to_read_index (ris_req rs) (ris_index rs) r) sends) in H; auto using sends_refl; [intros; eapply sends_trans; eauto|].
      intros a s s' _ Hs. eapply response_to_read_index_sends; eauto. }
    split; [exists r0; split; [apply adds_same; reflexivity|right; split; [exact Hl|exact S3]]|].
    intros _. eapply calm_sends; [| |exact S3]; auto.
  - (* Unreachable *) inv H. unfold leader_unreachable. split; [apply tres_adds, adds_same|intros _ _ _ _]; destruct (pstate_eqb _ _); auto.
  - (* SnapStatus *) inv H. unfold leader_snap_status. split; [apply tres_adds, adds_same|intros _ _ _ _]; destruct (p_state pr); auto.
  - (* CheckQuorum *) inv H. unfold leader_check_quorum. cbv zeta.
    set (r1 := match trk_get (r_id r) (r_trk r) with Some _ => _ | None => _ end) in *.
    assert (F : r_msgs r1 = r_msgs r /\ r_term r1 = r_term r /\ r_el_elapsed r1 = r_el_elapsed r /\ r_transferee r1 = r_transferee r) by (unfold r1; destruct (trk_get _ _); auto).
    clearbody r1. destruct F as (F1 & F2 & F3 & F4). destruct (trk_quorum_active (r_trk r1)).
    + split; [apply tres_adds, adds_same; exact F1|]. intros _ _ _ _. cbn. auto.
    + hide (become_follower (r_term r1) 0 r1) r2 E2. destruct (become_follower_fields _ _ _ _ E2) as (A1&A2&A3&A4&A5&A6&A7&_). clear E2.
      split; [apply tres_adds, adds_same; cbn; congruence|]. intros _ _ X. cbn in X. congruence.
  - (* TransferLeader *) split; [|intros X; congruence]. unfold leader_transfer in H. destruct (p_learner pr); [inv H; apply tres_adds, adds_refl|].
    destruct (_ && _) in H; [inv H; apply tres_adds, adds_refl|].
    set (r0 := if negb (r_transferee r =? 0) then set_r_transferee 0 r else r) in *.
    assert (F : r_msgs r0 = r_msgs r /\ r_state r0 = RLeader /\ r_trk r0 = r_trk r) by (unfold r0; destruct (negb _); auto). clearbody r0.
    destruct F as (F1 & F2 & F3). destruct (_ =? r_id r0) in H; [inv H; apply tres_adds, adds_same; auto|].
    set (r2 := set_r_transferee (m_from m) (set_r_el_elapsed 0 r0)) in *.
    exists r2. split; [apply adds_same; exact F1|]. right. split; [exact F2|].
    destruct (N.eqb_spec (p_match pr) (r_last r2)); [|apply send_append_sends in H; auto].
    eapply send_timeout_now_sends; [| | |exact H]; eauto. unfold r2. cbn. rewrite F3. exact Hg.
  - (* ReadIndex *) assert (S : sends r r').
    { unfold leader_read_index in H. destruct (trk_is_singleton (r_trk r)); [eapply response_to_read_index_sends; eauto|].
      apply bind_ok in H. destruct H as (ok & _ & H). destruct ok; [eapply send_read_index_response_sends; eauto|]. inv H. apply sends_pend. }
    split; [apply tres_sends; auto|intros _; eapply calm_sends; eauto].
Qed.

(** Whoever stands for election or leads has voted for itself. *)
Definition vself (r : raft) : Prop := r_id r <> 0 /\ (r_state r = RCandidate \/ r_state r = RLeader -> r_vote r = r_id r).
Lemma vself_eq r r' : r_cfg r' = r_cfg r -> r_vote r' = r_vote r -> r_state r' = r_state r -> vself r -> vself r'.
Proof. unfold vself, r_id. intros -> -> ->. auto. Qed.
Lemma vself_prim im r r' : prim im r r' -> vself r -> vself r'.
Proof.
  intros H K. pose proof (proj1 (prim_spec _ _ _ H)) as Hc. assert (Hid : r_id r' <> 0) by (destruct K as [K _]; unfold r_id in *; congruence).
  destruct H as [r' Kp|r' Hl S|m Hm|t l Ht _|r' Hcd|r' Hcd|Hs|Hs|to lt ctx Hs Hlt Hz|Ht Hm Hz Hv Hu|r' Hs Hv Hb|
                 es r1 r' Hs Ht He Hf Ha|p p' Hs Ht Hr Hm Hg|r' b Hs Hcd|Hg Hm Hs|l last Ht Hm Hs Hcd Ha|
                 l Ht Hm Hs Hcd|l Ht Hm Hs Hcd Hmt Hct|r1 Ht Hm Hs Hr].
  all: try (revert K; apply vself_eq; auto; fail).
  - revert K. apply vself_eq; auto; apply Kp.
  - revert K. apply vself_eq; auto; apply S.
  - hide (become_follower t l r) r1 E1. destruct (become_follower_fields _ _ _ _ E1) as (A1&A2&A3&A4&A5&_). clear E1. split; [exact Hid|]. intros [X|X]; congruence.
  - apply become_candidate_all in Hcd. destruct Hcd as (_&A1&A2&A3&_). split; [exact Hid|]. intros _. unfold r_id in *. congruence.
  - apply become_pre_all in Hcd. destruct Hcd as (A0&A1&A2&A3&A4&A5&A6&A7&A8&A9&A10&A11). split; [exact Hid|]. intros [X|X]; congruence.
  - split; [exact Hid|]. destruct K as [Kz K]. intros X. change (r_state r = RCandidate \/ r_state r = RLeader) in X. specialize (K X). destruct Hv as [Hv|[Hv _]].
    + transitivity (r_id r); [|reflexivity]. rewrite <- K, Hv. reflexivity.
    + congruence.
  - apply become_leader_all in Hb. destruct Hb as (_&A1&A2&A3&_). split; [exact Hid|]. destruct K as [_ K]. intros _. rewrite A3, K by auto. unfold r_id. congruence.
  - pose proof (prop_fields _ _ _ _ _ Hf Ha) as (A1&A2&A3&A4&_). revert K. apply vself_eq; auto.
  - apply raft_commit_fields in Hcd. destruct Hcd as (A1&A2&A3&A4&_). revert K. apply vself_eq; auto.
  - apply restore_fields in Hr; auto. destruct Hr as (A1&A2&A3&A4&A5&A6&A7). split; [exact Hid|]. intros [X|X]; cbn in X; congruence.
Qed.
Lemma vself_aprs a b : aprs a b -> vself (snd a) -> vself (snd b).
Proof.
  apply (aprs_ind_inv (fun x => vself (snd x))). intros x y K H. destruct H; cbn [snd] in *; auto.
  - eapply vself_prim; eauto.
  - apply append_entry_fields in H0. destruct H0 as (l & p & u & ->). exact K.
Qed.

Lemma handle_app_adds m r r' : handle_append_entries m r = Ok r' -> adds r r'.
Proof.
  unfold handle_append_entries. cbv zeta. destruct (_ <? _); [intros H; apply adds_send in H; [apply H|nt]|].
  intros H. apply bind_ok in H. destruct H as ([l o] & _ & H). destruct o.
  - apply adds_send in H; [|nt]. destruct H as [H _]. exact H.
  - apply bind_ok in H. destruct H as (h & _ & H). apply bind_ok in H. destruct H as ([ht|] & _ & H); [|discriminate].
    apply adds_send in H; [|nt]. destruct H as [H _]. exact H.
Qed.
Lemma handle_beat_adds m r r' : handle_heartbeat m r = Ok r' -> adds r r'.
Proof. unfold handle_heartbeat. intros H. apply bind_ok in H. destruct H as (l & _ & H). apply adds_send in H; [|nt]. destruct H as [H _]. exact H. Qed.
Lemma switch_adds cp r r' cs : switch_to_config cp r = Ok (r', cs) -> adds0 r r'.
Proof.
  unfold switch_to_config. cbv zeta. match goal with |- context [set_r_learner ?a ?b] => set (r0 := set_r_learner a b) end.
  assert (A : adds0 r r0) by (apply adds0_same; reflexivity). clearbody r0.
  destruct (_ && _); [intros H; inv H; auto|]. destruct (_ || _); [intros H; inv H; auto|]. intros H. apply bind_ok in H. destruct H as (r1 & H & Hx). inv Hx.
  eapply adds0_trans; [exact A|]. clear A. unfold switch_leader in H. apply bind_ok in H. destruct H as ([r1 com] & H1 & H).
  apply raft_maybe_commit_state in H1. destruct H1 as [l ->]. apply bind_ok in H. destruct H as (r2 & H2 & H).
  assert (A : adds0 (set_r_log l r0) r2).
  { destruct com; [apply bcast_adds; auto|]. apply (mfold_inv _ adds0) in H2; auto using adds0_refl; [intros; eapply adds0_trans; eauto|].
    intros a s s' _ Hs. apply bind_ok in Hs. destruct Hs as ([r5 b] & Hs & Hx). inv Hx. eapply msa_adds; eauto. }
  destruct (_ && _) in H; inv H; exact A.
Qed.
Lemma switch_follow_adds cp r r' cs : r_state r <> RLeader -> switch_to_config cp r = Ok (r', cs) -> adds r r'.
Proof.
  unfold switch_to_config. cbv zeta. match goal with |- context [set_r_learner ?a ?b] => set (r0 := set_r_learner a b) end.
  intros Hs. assert (A : adds r r0 /\ is_leader r0 = false) by (split; [apply adds_same; reflexivity|unfold is_leader, r0; cbn; destruct (r_state r); auto; congruence]). clearbody r0. destruct A as [A B].
  rewrite B. destruct (_ && false); [intros H; inv H; auto|]. cbn. intros H. inv H. auto.
Qed.
Lemma handle_snap_adds m r r' : handle_snapshot m r = Ok r' -> adds r r'.
Proof.
  unfold handle_snapshot. intros H. apply bind_ok in H. destruct H as ([r1 b] & H1 & H). apply adds_send in H; [|nt]. destruct H as [H _].
  eapply adds_trans; [|exact H]. clear H. unfold raft_restore in H1. destruct (_ <=? _); [inv H1; apply adds_refl|].
  destruct (negb (role_eqb (r_state r) RFollower)) eqn:Hf; [inv H1; apply follow_adds|]. cbv zeta in H1. destruct (negb _) in H1; [inv H1; apply adds_refl|].
  apply bind_ok in H1. destruct H1 as (mt & _ & H1). destruct mt; [apply bind_ok in H1; destruct H1 as (l & _ & H1); inv H1; apply adds_same; reflexivity|].
  match type of H1 with context [cc_restore ?x ?y] => destruct (cc_restore x y) as [cp|] end; [|discriminate].
  apply bind_ok in H1. destruct H1 as ([r2 cs2] & Hs & H1). apply switch_follow_adds in Hs; [|cbn; intros X; rewrite X in Hf; discriminate].
  assert (A : adds r r2) by (eapply adds_trans; [|exact Hs]; apply adds_same; reflexivity).
  destruct (negb _) in H1; [discriminate|]. destruct (trk_get _ _) in H1; [|discriminate]. destruct (pr_maybe_update _ _) in H1. inv H1. exact A.
Qed.
Lemma calm_term r r' t : r_term r <> t -> r_term r' = t -> calm r r'.
Proof. intros H1 H2 _ _ H. congruence. Qed.
Lemma candidate_tres m r r' e : (r_state r = RCandidate \/ r_state r = RPreCandidate) -> step_candidate m r = Ok (r', e) -> tres r r'.
Proof.
  intros Hs H. unfold step_candidate in H.
  assert (Kv : forall t', mtype_eqb t' MsgProp = false -> (if mtype_eqb t' (match r_state r with RPreCandidate => MsgPreVoteResp | _ => MsgVoteResp end) then
      let '(r1, res_) := poll (m_from m) (negb (m_reject m)) r in
      match res_ with
      | VoteWon => if role_eqb (r_state r1) RPreCandidate then okr (campaign CElection r1) else okr (r2 <- become_leader r1 ;; bcast_append r2)
      | VoteLost => Ok (become_follower (r_term r1) 0 r1, None)
      | VotePending => Ok (r1, None)
      end else Ok (r, None)) = Ok (r', e) -> tres r r').
  { intros t' _ X. destruct (mtype_eqb t' _) in X; [|inv X; apply tres_adds, adds_refl].
    destruct (poll (m_from m) (negb (m_reject m)) r) as [r1 v] eqn:Hp. unfold poll in Hp.
    assert (A1 : adds r r1) by (inv Hp; apply adds_same; reflexivity).
    eapply tres_pre; [exact A1|]. destruct v.
    - inv X. apply tres_adds, adds_refl.
    - pose proof (follow_adds (r_term r1) 0 r1) as A2. hide (become_follower (r_term r1) 0 r1) r2 E2. clear E2. apply Ok_inj, pair_equal_spec in X. destruct X as [<- _]. apply tres_adds. exact A2.
    - destruct (role_eqb (r_state r1) RPreCandidate); unfold okr in X; apply bind_ok in X; destruct X as (r2 & X & Hx); apply Ok_inj, pair_equal_spec in Hx; destruct Hx as [-> _].
      + apply tres_adds. eapply campaign_adds; exact X.
      + apply bind_ok in X. destruct X as (r3 & X1 & X2). apply become_leader_adds in X1. destruct X1 as [X0 X1].
        exists r3. split; auto. right. split; auto. apply bcast_append_sends; auto. }
  destruct (m_type m) eqn:Ht; try (eapply Kv; [|exact H]; reflexivity).
  - inv H. apply tres_adds, adds_refl.
  - pose proof (follow_adds (m_term m) (m_from m) r) as A2. hide (become_follower (m_term m) (m_from m) r) r1 E2. clear E2.
    unfold okr in H. apply bind_ok in H. destruct H as (r2 & H & Hx). apply Ok_inj, pair_equal_spec in Hx. destruct Hx as [<- _].
    apply handle_app_adds in H. apply tres_adds. eapply adds_trans; eauto.
  - pose proof (follow_adds (m_term m) (m_from m) r) as A2. hide (become_follower (m_term m) (m_from m) r) r1 E2. clear E2.
    unfold okr in H. apply bind_ok in H. destruct H as (r2 & H & Hx). apply Ok_inj, pair_equal_spec in Hx. destruct Hx as [<- _].
    apply handle_snap_adds in H. apply tres_adds. eapply adds_trans; eauto.
  - pose proof (follow_adds (m_term m) (m_from m) r) as A2. hide (become_follower (m_term m) (m_from m) r) r1 E2. clear E2.
    unfold okr in H. apply bind_ok in H. destruct H as (r2 & H & Hx). apply Ok_inj, pair_equal_spec in Hx. destruct Hx as [<- _].
    apply handle_beat_adds in H. apply tres_adds. eapply adds_trans; eauto.
Qed.

Lemma calm_refl r : calm r r. Proof. intros _ _ _. auto. Qed.
Lemma calm_nl r r' : r_state r <> RLeader -> calm r r'. Proof. intros H X. congruence. Qed.
Lemma follower_tres m r r' e : r_state r = RFollower -> step_follower m r = Ok (r', e) -> tres r r'.
Proof.
  intros Hs H. unfold step_follower in H. cbv zeta in H.
  set (r0 := set_r_lead (m_from m) (set_r_el_elapsed 0 r)) in *.
  assert (A0 : adds r r0) by (apply adds_same; reflexivity). clearbody r0. apply tres_adds.
  destruct (m_type m) eqn:Ht; try (inv H; apply adds_refl; fail);
    repeat match type of H with (if ?b then _ else _) = _ => destruct b; [inv H; apply adds_refl|] end;
    try (unfold okr in H; apply bind_ok in H; destruct H as (r1 & H & Hx); apply Ok_inj, pair_equal_spec in Hx; destruct Hx as [<- _]).
  - apply adds_send in H; [apply H|]. destruct m; unfold notn; cbn in *; repeat split; congruence.
  - apply handle_app_adds in H. eapply adds_trans; eauto.
  - apply handle_snap_adds in H. eapply adds_trans; eauto.
  - apply handle_beat_adds in H. eapply adds_trans; eauto.
  - apply adds_send in H; [apply H|]. destruct m; unfold notn; cbn in *; repeat split; congruence.
  - apply hup_adds in H. apply H.
  - apply adds_send in H; [apply H|]. destruct m; unfold notn; cbn in *; repeat split; congruence.
  - destruct (m_entries m) as [|x [|y l]]; inv H; apply adds_same; reflexivity.
Qed.
Lemma vote_resp_not t rt : vote_resp_type t = Ok rt -> rt <> MsgTimeoutNow /\ rt <> MsgApp /\ rt <> MsgSnap.
Proof. destruct t; cbn; intros H; inv H; nt. Qed.
Lemma step_vote_tres m r r' : vself r -> (m_type m = MsgVote \/ m_type m = MsgPreVote) -> step_vote m r = Ok r' ->
  adds r r' /\ ((m_type m = MsgVote -> m_from m <> r_id r) -> calm r r').
Proof.
  intros V Ht H. unfold step_vote in H. cbv zeta in H. apply bind_ok in H. destruct H as (up & Hup & H). apply bind_ok in H. destruct H as (rt & Hrt & H).
  apply vote_resp_not in Hrt. destruct up.
  - apply bind_ok in H. destruct H as (r1 & H1 & H). apply adds_send in H1; [|exact Hrt]. destruct H1 as (A & S1 & S2 & S3 & S4 & S5).
    destruct (mtype_eqb (m_type m) MsgVote) eqn:Et; [|inv H; split; auto; intros _ _ _ _; rewrite S4, S5; auto].
    inv H. split; [exact A|]. intros Hf HL _ _. exfalso. apply mtype_eqb_eq in Et. specialize (Hf Et).
    destruct V as [Vz V]. specialize (V (or_intror HL)).
    destruct ((r_vote r =? m_from m) || ((r_vote r =? 0) && (r_lead r =? 0)) || (mtype_eqb (m_type m) MsgPreVote && (r_term r <? m_term m))) eqn:Ec; [|discriminate].
    rewrite Et in Ec. cbn [mtype_eqb andb] in Ec. rewrite orb_false_r in Ec. apply orb_true_iff in Ec. rewrite V in Ec. destruct Ec as [Ec|Ec].
    + apply N.eqb_eq in Ec. congruence.
    + apply andb_true_iff in Ec. destruct Ec as [Ec _]. apply N.eqb_eq in Ec. congruence.
  - apply adds_send in H; [|exact Hrt]. destruct H as (A & S1 & S2 & S3 & S4 & S5). split; auto. intros _ _ _ _. rewrite S4, S5. auto.
Qed.
Lemma dispatch_tres m r r' e : vself r -> step_dispatch m r = Ok (r', e) ->
  tres r r' /\ (m_type m <> MsgTransferLeader -> (m_type m = MsgVote -> m_from m <> r_id r) -> calm r r').
Proof.
  intros V H. unfold step_dispatch in H.
  assert (K : match r_state r with RLeader => step_leader m r | RCandidate | RPreCandidate => step_candidate m r | RFollower => step_follower m r end = Ok (r', e) ->
     tres r r' /\ (m_type m <> MsgTransferLeader -> (m_type m = MsgVote -> m_from m <> r_id r) -> calm r r')).
  { clear H. intros H. destruct (r_state r) eqn:Hs.
    - split; [eapply follower_tres; eauto|]. intros _ _. apply calm_nl. congruence.
    - split; [eapply candidate_tres; eauto|]. intros _ _. apply calm_nl. congruence.
    - eapply leader_tres in H; auto. destruct H as [H1 H2]. split; auto.
    - split; [eapply candidate_tres; eauto|]. intros _ _. apply calm_nl. congruence. }
  destruct (m_type m) eqn:Ht; try (apply K; exact H); clear K;
    unfold okr in H; apply bind_ok in H; destruct H as (r1 & H & Hx); apply Ok_inj, pair_equal_spec in Hx; destruct Hx as [<- _].
  - apply hup_adds in H. destruct H as [A B]. split; [apply tres_adds; auto|]. intros _ _ X. rewrite (B X). intros _ _. auto.
  - apply step_vote_tres in H; auto. destruct H as [A B]. split; [apply tres_adds; auto|]. intros _ X. apply B. intros _. auto.
  - apply step_vote_tres in H; auto. destruct H as [A B]. split; [apply tres_adds; auto|]. intros _ X. apply B. intros Y. congruence.
Qed.
Lemma vself_follow t l r : vself r -> vself (become_follower t l r).
Proof.
  intros [V1 V2]. hide (become_follower t l r) r1 E1. destruct (become_follower_fields _ _ _ _ E1) as (A1&A2&A3&A4&A5&_). clear E1.
  split; [unfold r_id in *; congruence|]. intros [X|X]; congruence.
Qed.
Lemma step_tres m r r' e : wf_in m -> vself r -> step m r = Ok (r', e) ->
  tres r r' /\ (m_type m <> MsgTransferLeader -> (m_type m = MsgVote -> m_from m <> r_id r) -> calm r r').
Proof.
  intros Hw V H. unfold step in H. destruct (N.eqb_spec (m_term m) 0) as [H0|H0]; [apply dispatch_tres with (e := e); auto|].
  destruct (N.ltb_spec (r_term r) (m_term m)) as [H1|H1].
  - destruct (_ && _ && _) in H; [inv H; split; [apply tres_adds, adds_refl|intros _ _; apply calm_refl]|].
    assert (F : forall l, step_dispatch m (become_follower (m_term m) l r) = Ok (r', e) ->
       tres r r' /\ (m_type m <> MsgTransferLeader -> (m_type m = MsgVote -> m_from m <> r_id r) -> calm r r')).
    { clear H. intros l H. pose proof (vself_follow (m_term m) l r V) as V1. pose proof (follow_adds (m_term m) l r) as A1.
      assert (D : disp_ok m (become_follower (m_term m) l r)) by (split; auto; left; rewrite become_follower_term; auto).
      assert (L1 : lost (r_term r) (become_follower (m_term m) l r)) by (left; rewrite become_follower_term; auto).
      hide (become_follower (m_term m) l r) r1 E1. clear E1.
      pose proof (step_dispatch_prims m r1 r' e D H) as P. apply dispatch_tres in H; auto. destruct H as [T _].
      split; [eapply tres_pre; eauto|]. intros _ _ _ X Y. exfalso. revert L1. clear - P X Y. intros L1.
      assert (L2 : lost (r_term r) r') by (revert P L1; apply (prims_ind_inv m (lost (r_term r))); intros; eapply prim_lost; eauto).
      exact (lost_leader _ _ X Y L2). }
    destruct (m_type m) eqn:Hty; try (eapply F; exact H); try (destruct (m_reject m) in H; [eapply F; exact H|]); rewrite <- Hty; eapply dispatch_tres; eauto.
  - destruct (N.ltb_spec (m_term m) (r_term r)) as [H2|H2]; [|apply dispatch_tres with (e := e); auto].
    destruct (_ && _) in H; [|destruct (mtype_eqb _ _) in H; [|inv H; split; [apply tres_adds, adds_refl|intros _ _; apply calm_refl]]];
      unfold okr in H; apply bind_ok in H; destruct H as (r1 & H & Hx); apply Ok_inj, pair_equal_spec in Hx; destruct Hx as [<- _];
      (apply adds_send in H; [|nt]); destruct H as (A & S1 & S2 & S3 & S4 & S5); (split; [apply tres_adds; auto|intros _ _ _ _ _; rewrite S4, S5; auto]).
Qed.

Lemma beat_sends m r r' e : m_type m = MsgBeat -> step_leader m r = Ok (r', e) -> sends r r'.
Proof.
  intros Ht H. unfold step_leader in H. destruct (m_type m); try discriminate. clear Ht.
  unfold okr in H. apply bind_ok in H. destruct H as (r1 & H & Hx). apply Ok_inj, pair_equal_spec in Hx. destruct Hx as [-> _].
  unfold bcast_heartbeat in H. apply bcast_heartbeat_ctx_sends in H. exact H.
Qed.
(** The leader's tick: the clock moves on, and at the election timeout the transfer is given up. *)
Lemma tick_leader_tres r r' : r_state r = RLeader -> tick r = Ok r' -> tres r r' /\
  (r_state r' = RLeader -> r_transferee r' = 0 \/
     (r_transferee r' = r_transferee r /\ r_el_elapsed r' = r_el_elapsed r + 1 /\ r_el_elapsed r + 1 < k_el_timeout (r_cfg r))).
Proof.
  intros Hs H. unfold tick in H. rewrite Hs in H. unfold tick_heartbeat in H. cbv zeta in H.
  set (r0 := set_r_el_elapsed (r_el_elapsed r + 1) (set_r_hb_elapsed (r_hb_elapsed r + 1) r)) in *.
  assert (K0 : r_state r0 = RLeader /\ r_transferee r0 = r_transferee r /\ r_el_elapsed r0 = r_el_elapsed r + 1 /\ r_cfg r0 = r_cfg r /\ adds r r0)
    by (repeat split; [exact Hs|apply adds_same; reflexivity]). clearbody r0. destruct K0 as (K1 & K2 & K3 & K4 & K5).
  apply bind_ok in H. destruct H as (r1 & H1 & H).
  assert (A1 : adds r r1 /\ (r_state r1 = RLeader -> r_transferee r1 = 0 \/
     (r_transferee r1 = r_transferee r /\ r_el_elapsed r1 = r_el_elapsed r + 1 /\ r_el_elapsed r + 1 < k_el_timeout (r_cfg r)))).
  { destruct (N.leb_spec (k_el_timeout (r_cfg r0)) (r_el_elapsed r0)) as [Hle|Hle]; [|inv H1; split; auto; intros _; right; rewrite <- K4, <- K3; auto].
    apply bind_ok in H1. destruct H1 as (r2 & H2 & H1).
    assert (A2 : adds r r2).
    { eapply adds_trans; [exact K5|]. match type of H2 with (if ?b then _ else _) = _ => destruct b end; [|inv H2; apply adds_same; reflexivity].
      apply bind_ok in H2. destruct H2 as ([r3 e3] & H2 & Hx). inv Hx.
      match type of H2 with step ?mm ?rr = _ => set (m0 := mm) in H2; set (ra := rr) in H2 end.
      assert (Ha : r_state ra = RLeader /\ r_msgs ra = r_msgs r0) by (split; [exact K1|reflexivity]).
      assert (Hm : m_term m0 = 0 /\ m_type m0 = MsgCheckQuorum) by (split; reflexivity). clearbody m0 ra.
      destruct Ha as [Ha Hb]. destruct Hm as [Hm Hty]. unfold step in H2. rewrite Hm in H2. cbn [N.eqb] in H2. unfold step_dispatch in H2. rewrite Hty, Ha in H2.
      unfold step_leader in H2. rewrite Hty in H2. injection H2 as H2 _. rewrite <- H2. clear H2. unfold leader_check_quorum. cbv zeta.
      set (r4 := match trk_get (r_id ra) (r_trk ra) with Some _ => _ | None => _ end).
      assert (F : r_msgs r4 = r_msgs r0) by (unfold r4; destruct (trk_get _ _); auto). clearbody r4.
      destruct (trk_quorum_active (r_trk r4)); [apply adds_same; exact F|].
      hide (become_follower (r_term r4) 0 r4) r5 E2. destruct (become_follower_fields _ _ _ _ E2) as (Z1&Z2&Z3&Z4&Z5&Z6&Z7&_). clear E2. apply adds_same. cbn. congruence. }
    destruct (is_leader r2 && negb (r_transferee r2 =? 0)) eqn:Ei; inv H1; [split; [exact A2|]; cbn; auto|].
    split; auto. intros X. left. unfold is_leader in Ei. rewrite X in Ei. cbn in Ei. destruct (N.eqb_spec (r_transferee r1) 0); auto; discriminate. }
  destruct A1 as [A1 B1]. clear H1. destruct (negb (is_leader r1)) eqn:Hl; [inv H; split; [apply tres_adds; auto|auto]|].
  assert (Hl1 : r_state r1 = RLeader) by (unfold is_leader in Hl; destruct (r_state r1); auto; discriminate). clear Hl. specialize (B1 Hl1).
  match type of H with (if ?b then _ else _) = _ => destruct b end; [|inv H; split; [apply tres_adds; auto|auto]].
  apply bind_ok in H. destruct H as ([r3 e3] & H & Hx). inv Hx.
  match type of H with step ?mm ?rr = _ => set (m0 := mm) in H; set (ra := rr) in H end.
  assert (Ha : r_state ra = RLeader /\ r_msgs ra = r_msgs r1 /\ r_transferee ra = r_transferee r1 /\ r_el_elapsed ra = r_el_elapsed r1) by (split; [exact Hl1|repeat split]).
  assert (Hm : m_term m0 = 0 /\ m_type m0 = MsgBeat) by (split; reflexivity). clearbody m0 ra.
  destruct Ha as (Ha & Hb & Hc & Hd). destruct Hm as [Hm Hty]. unfold step in H. rewrite Hm in H. cbn [N.eqb] in H. unfold step_dispatch in H. rewrite Hty, Ha in H.
  apply beat_sends in H; auto. split.
  - exists ra. split; [|auto]. eapply adds_trans; [exact A1|apply adds_same; auto].
  - intros _. rewrite (sm_transferee _ _ (sd_same _ _ H)), (sm_el _ _ (sd_same _ _ H)), Hc, Hd. auto.
Qed.
Lemma tick_other_tres r r' : r_state r <> RLeader -> vself r -> tick r = Ok r' -> tres r r'.
Proof.
  intros Hs V H. unfold tick in H. assert (K : tick_election r = Ok r') by (destruct (r_state r); auto; congruence). clear H.
  unfold tick_election in K. cbv zeta in K. match type of K with (if ?b then _ else _) = _ => destruct b end; [|inv K; apply tres_adds, adds_same; reflexivity].
  apply bind_ok in K. destruct K as ([r3 e3] & K & Hx). inv Hx.
  match type of K with step ?mm ?rr = _ => set (m0 := mm) in K; set (ra := rr) in K end.
  assert (Ha : vself ra /\ adds r ra) by (split; [exact V|apply adds_same; reflexivity]).
  assert (Hm : wf_in m0) by (intros _; reflexivity). clearbody m0 ra. destruct Ha as [Ha Hb].
  apply step_tres in K; auto. destruct K as [K _]. eapply tres_pre; eauto.
Qed.
End Tr.
