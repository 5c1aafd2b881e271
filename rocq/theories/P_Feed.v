(** Which calls make a leader send entries: resuming, continuing and broadcasting (C63, C64). *)
From Verif Require Import Prelude Types M_Util M_Quorum M_Inflights M_Progress M_Tracker.
From Verif Require Import M_Storage M_Unstable M_Log M_ReadOnly M_ConfPb M_ConfChange M_Raft M_RawNode.
From Verif Require Import P_Inflights Spec_Log P_Lists P_Storage P_Log Spec_Storage Sys_Storage P_StorageSeq Spec_RaftLog Sys_RaftLog P_RaftLogSeq.
From Verif Require Import Spec_Quorum P_Quorum Spec_Progress Spec_ConfChange P_ConfChange.
From Verif Require Import P_Frame P_Prim Sys_Node P_Node P_Fields P_Vote Spec_Node P_Persist P_New P_Time P_NodeLog P_Flow P_Window P_Commit.
From Verif Require Import Spec_Inflights.

Section Props.
Context {E : Env}.

(** [x] continues the log of the member [to], whose Progress is [p]. *)
Definition feeds (r : raft) (to : N) (p : progress) (x : msg) : Prop :=
  m_to x = to /\ m_from x = r_id r /\ m_term x = r_term r /\
  ((m_type x = MsgApp /\ m_index x + 1 = p_next p /\ log_first (r_log r) <= p_next p) \/ (m_type x = MsgSnap /\ p_next p < log_first (r_log r))).
(** Sending a snapshot needs a recently active member. *)
Definition servable (r : raft) (p : progress) : Prop := log_first (r_log r) <= p_next p \/ p_active p = true.

Lemma first_pos l : 1 <= log_first l. Proof. rewrite log_first_abs. unfold a_first. lia. Qed.

Lemma wsub1 a : 1 <= a -> wsub a 1 + 1 = a.
Proof. intros H. unfold wsub. destruct (N.leb_spec 1 a); lia. Qed.

Lemma feeds_app r r1 to p c es t i : r_id r1 = r_id r -> r_term r1 = r_term r -> i + 1 = p_next p -> log_first (r_log r) <= p_next p ->
  feeds r to p (outm r1 (set_m_commit c (set_m_entries es (set_m_logterm t (set_m_index i (set_m_to to (new_msg MsgApp))))))).
Proof. intros Hi Ht H1 H2. unfold feeds, outm. cbn. auto 8. Qed.

Lemma maybe_send_feeds to p r r' se b : lwf0 (r_log r) -> trk_get to (r_trk r) = Some p -> pr_is_paused p = false -> servable r p ->
  (se = true \/ log_first (r_log r) <= p_next p <= r_last r) ->
  maybe_send_append to se r = Ok (r', b) -> exists x, r_msgs r' = r_msgs r ++ [x] /\ feeds r to p x.
Proof.
  intros W G Hp Sv Hse H. unfold maybe_send_append in H. rewrite G, Hp in H. pose proof (first_pos (r_log r)) as Hf1.
  apply bind_ok in H. destruct H as (t & H1 & H). apply bind_ok in H. destruct H as (es & H2 & H).
  cbv zeta in H. rewrite log_term_abs in H1 by auto. apply Ok_inj in H1. subst t.
  match type of H with (if ?z then _ else _) = _ => assert (Hz : z = false) end.
  { destruct Hse as [->|Hse]; [apply andb_false_r|]. rewrite log_entries_abs in H2 by (auto; rewrite <- log_first_abs; lia). apply Ok_inj in H2. subst es.
    assert (Hn : nlen (ndrop (p_next p - a_first (log_abs (r_log r))) (a_ents (log_abs (r_log r)))) <> 0).
    { rewrite nlen_ndrop. unfold r_last in Hse. rewrite log_last_abs, log_first_abs in Hse by auto. unfold a_last, a_first in *. lia. }
    destruct (ndrop (p_next p - a_first (log_abs (r_log r))) (a_ents (log_abs (r_log r)))) as [|e q]; [exfalso; apply Hn; reflexivity|reflexivity]. }
  rewrite Hz in H. clear Hz.
  destruct (N.le_gt_cases (log_first (r_log r)) (p_next p)) as [Hle|Hgt].
  - rewrite log_entries_abs in H2 by (auto; rewrite <- log_first_abs; auto). apply Ok_inj in H2. subst es.
    apply bind_ok in H. destruct H as (r1 & H & Hx). apply Ok_inj, pair_equal_spec in Hx. destruct Hx as [<- _].
    unfold send_app_msg in H.
    match type of H with match ?z with _ => _ end = _ => destruct z as [|e0 q] end.
    + apply send_ok in H. destruct H as [-> _]. eexists. split; [reflexivity|]. apply feeds_app; auto; rewrite wsub1; lia.
    + destruct (p_state p); [| |discriminate].
      * apply send_ok in H. destruct H as [-> _]. eexists. split; [reflexivity|]. apply feeds_app; auto; rewrite wsub1; lia.
      * apply bind_ok in H. destruct H as (i & _ & H). apply send_ok in H. destruct H as [-> _]. eexists. split; [reflexivity|]. apply feeds_app; auto; rewrite wsub1; lia.
  - assert (Hes : es = SErr ECompacted).
    { rewrite log_entries_compacted in H2 by (auto; rewrite <- log_first_abs; auto). rewrite log_first_abs in Hgt. unfold a_first, a_last in *.
      destruct (N.ltb_spec (a_base (log_abs (r_log r)) + nlen (a_ents (log_abs (r_log r)))) (p_next p)); [lia|]. inv H2. auto. }
    subst es. unfold send_snap_msg in H. destruct Sv as [Sv|Sv]; [lia|]. rewrite Sv in H. cbn [negb] in H.
    destruct (log_snapshot (r_log r)) as [sn|er] eqn:Hs.
    + destruct (sn_index sn =? 0); [discriminate|]. apply bind_ok in H. destruct H as (r1 & H & Hx). apply Ok_inj, pair_equal_spec in Hx. destruct Hx as [<- _].
      apply send_ok in H. destruct H as [-> _]. eexists. split; [reflexivity|]. unfold feeds, outm. cbn. split; auto.
    + unfold log_snapshot, ms_snapshot in Hs. destruct (u_snap (l_us (r_log r))); discriminate.
Qed.
Lemma send_feeds to p r r' : lwf0 (r_log r) -> trk_get to (r_trk r) = Some p -> pr_is_paused p = false -> servable r p ->
  send_append to r = Ok r' -> exists x, r_msgs r' = r_msgs r ++ [x] /\ feeds r to p x.
Proof. intros W G Hp Sv H. unfold send_append in H. apply bind_ok in H. destruct H as ([r1 b] & H & Hx). apply Ok_inj in Hx. subst r1. eapply maybe_send_feeds; eauto. Qed.

Lemma maybe_send_other to b r r' x id : maybe_send_append to b r = Ok (r', x) -> id <> to -> trk_get id (r_trk r') = trk_get id (r_trk r).
Proof.
  intros H Hne. unfold maybe_send_append in H. destruct (trk_get to (r_trk r)) as [pr|]; [|discriminate].
  destruct (pr_is_paused pr); [inv H; auto|]. apply bind_ok in H. destruct H as (t & _ & H). apply bind_ok in H. destruct H as (es & _ & H).
  cbv zeta in H. match type of H with (if ?c then _ else _) = _ => destruct c end; [inv H; auto|].
  assert (P : forall p, trk_get id (r_trk (put_progress to p r)) = trk_get id (r_trk r)).
  { intros p. unfold trk_get, put_progress. cbn. rewrite mget_mset. destruct (N.eqb_spec id to); congruence. }
  assert (Sn : send_snap_msg to pr r = Ok (r', x) -> trk_get id (r_trk r') = trk_get id (r_trk r)).
  { unfold send_snap_msg. destruct (negb (p_active pr)); [intros X; inv X; auto|]. destruct (log_snapshot (r_log r)) as [sn|[]]; try discriminate; [|intros X; inv X; auto].
    destruct (sn_index sn =? 0); [discriminate|]. intros X. apply bind_ok in X. destruct X as (r1 & X & Y). inv Y. apply send_ok in X. destruct X as [-> _]. apply P. }
  destruct t as [t|]; [|auto]. destruct es as [es|]; [|auto]. apply bind_ok in H. destruct H as (r1 & H & Y). inv Y. unfold send_app_msg in H.
  destruct (rev es); [apply send_ok in H; destruct H as [-> _]; reflexivity|]. destruct (p_state pr); [| |discriminate].
  - apply send_ok in H; destruct H as [-> _]. apply P.
  - apply bind_ok in H. destruct H as (i & _ & H). apply send_ok in H; destruct H as [-> _]. apply P.
Qed.
Lemma bcast_feeds l : forall r r', lwf0 (r_log r) -> mfold send_append l r = Ok r' ->
  forall to p, In to l -> trk_get to (r_trk r) = Some p -> pr_is_paused p = false -> servable r p ->
  exists new x, r_msgs r' = r_msgs r ++ new /\ In x new /\ feeds r to p x.
Proof.
  induction l as [|a l IH]; intros r r' W H to p Hin G Hp Sv; [destruct Hin|]. cbn [mfold] in H. apply bind_ok in H. destruct H as (r1 & H1 & H).
  assert (S2 : sends r1 r').
  { apply (mfold_inv send_append sends) in H; eauto using sends_refl, sends_trans. intros; eapply send_append_sends; eauto. }
  destruct (N.eq_dec to a) as [->|Hne].
  - destruct (send_feeds _ _ _ _ W G Hp Sv H1) as (x & Hm & F). destruct (sd_msgs _ _ S2) as (ms & Hms & _).
    exists ([x] ++ ms), x. rewrite Hms, Hm, <- app_assoc. split; [reflexivity|]. split; [left; auto|exact F].
  - destruct Hin as [->|Hin]; [congruence|]. pose proof (send_append_sends _ _ _ H1) as S1.
    assert (G1 : trk_get to (r_trk r1) = Some p).
    { unfold send_append in H1. apply bind_ok in H1. destruct H1 as ([r2 b] & H1 & Hx). apply Ok_inj in Hx. subst r2. rewrite (maybe_send_other _ _ _ _ _ _ H1); auto. }
    pose proof (sd_same _ _ S1) as Sm. assert (El : r_log r1 = r_log r) by apply Sm. assert (Ei : r_id r1 = r_id r) by (apply sends_id; auto).
    assert (Et : r_term r1 = r_term r) by apply Sm.
    destruct (IH r1 r' ltac:(rewrite El; auto) H to p Hin G1 Hp ltac:(unfold servable in *; rewrite El; auto)) as (new & x & Hm & Hx & F).
    destruct (sd_msgs _ _ S1) as (ms & Hms & _). exists (ms ++ new), x. rewrite Hm, Hms, app_assoc. split; auto. split; [apply in_or_app; auto|].
    unfold feeds in *. rewrite El, Ei, Et in F. exact F.
Qed.
Lemma bcast_append_feeds r r' : lwf0 (r_log r) -> bcast_append r = Ok r' ->
  forall to p, to <> r_id r -> trk_get to (r_trk r) = Some p -> pr_is_paused p = false -> servable r p ->
  exists new x, r_msgs r' = r_msgs r ++ new /\ In x new /\ feeds r to p x.
Proof.
  intros W H to p Hto G. eapply bcast_feeds; eauto. unfold peer_ids. apply filter_In. split; [|destruct (N.eqb_spec to (r_id r)); auto].
  unfold trk_get in G. apply mget_key. congruence.
Qed.

(** After the loop of an acknowledgement nothing more can be sent to the member right away. *)
Definition drained (r : raft) (p : progress) : Prop :=
  pr_is_paused p = true \/ r_last r < p_next p \/ p_next p < log_first (r_log r).
Lemma send_all_drained f to : forall r r' , lwf0 (r_log r) -> send_all f to r = Ok r' -> exists p, trk_get to (r_trk r') = Some p /\ drained r' p.
Proof.
  induction f as [|f IH]; intros r r' W H; [discriminate|]. cbn [send_all] in H. apply bind_ok in H. destruct H as ([r1 b] & H1 & H).
  pose proof (maybe_send_append_sends _ _ _ _ _ H1) as S. assert (El : r_log r1 = r_log r) by apply (sd_same _ _ S).
  destruct b; [apply (IH r1); auto; rewrite El; auto|]. apply Ok_inj in H. subst r1.
  unfold maybe_send_append in H1. destruct (trk_get to (r_trk r)) as [p|] eqn:G; [|discriminate].
  destruct (pr_is_paused p) eqn:Hp; [injection H1 as <-; exists p; split; [auto|left; auto]|].
  apply bind_ok in H1. destruct H1 as (t & H2 & H1). apply bind_ok in H1. destruct H1 as (es & H3 & H1). cbv zeta in H1.
  destruct (N.le_gt_cases (p_next p) (r_last r)) as [Hle|Hgt].
  2:{ match type of H1 with (if ?c then _ else _) = _ => destruct c eqn:Hc end.
      - injection H1 as <-. exists p. split; [auto|]. right; left; auto.
      - exfalso. unfold log_entries in H3. unfold r_last in Hgt. destruct (N.ltb_spec (log_last (r_log r)) (p_next p)); [|lia]. inv H3. discriminate. }
  destruct (N.le_gt_cases (log_first (r_log r)) (p_next p)) as [Hf|Hf].
  - exfalso. rewrite log_entries_abs in H3 by (auto; rewrite <- log_first_abs; auto). apply Ok_inj in H3. subst es. rewrite log_term_abs in H2 by auto. apply Ok_inj in H2. subst t.
    match type of H1 with (if ?c then _ else _) = _ => destruct c eqn:Hc end.
    + cbn [negb] in Hc. rewrite andb_true_r in Hc.
      assert (Hn : nlen (ndrop (p_next p - a_first (log_abs (r_log r))) (a_ents (log_abs (r_log r)))) <> 0).
      { rewrite nlen_ndrop. unfold r_last in Hle. rewrite log_last_abs in Hle by auto. rewrite log_first_abs in Hf. unfold a_last, a_first in *. lia. }
      destruct (ndrop (p_next p - a_first (log_abs (r_log r))) (a_ents (log_abs (r_log r)))) as [|e q]; [apply Hn; reflexivity|]. cbn in Hc. discriminate.
    + apply bind_ok in H1. destruct H1 as (r1 & _ & Hx). inv Hx.
  - assert (Hes : es = SErr ECompacted).
    { rewrite log_entries_compacted in H3 by (auto; rewrite <- log_first_abs; auto). unfold r_last in Hle. rewrite log_last_abs in Hle by auto.
      destruct (N.ltb_spec (a_last (log_abs (r_log r))) (p_next p)); [lia|]. inv H3. auto. }
    subst es. cbn in H1. injection H1 as <-. exists p. split; [auto|]. right; right; auto.
Qed.

(** ** The leader's handlers of responses *)
Lemma get_put id p r : trk_get id (r_trk (put_progress id p r)) = Some p.
Proof. unfold put_progress, trk_put, trk_get. cbn [r_trk set_r_trk t_progress set_t_progress]. rewrite mget_mset, N.eqb_refl. reflexivity. Qed.
Lemma get_put_other id to p r : id <> to -> trk_get id (r_trk (put_progress to p r)) = trk_get id (r_trk r).
Proof. intros H. unfold put_progress, trk_put, trk_get. cbn [r_trk set_r_trk t_progress set_t_progress]. rewrite mget_mset. destruct (N.eqb_spec id to); congruence. Qed.

Lemma beat_unpaused p p' q : onbeat p p' -> win p q -> 1 <= i_size (p_infl p) -> p_state p <> StSnapshot -> pr_is_paused p' = false.
Proof.
  unfold onbeat. cbn [p_state set_p_probe_sent set_p_active p_infl]. intros H W Hs Hn.
  destruct (p_state p) eqn:Hst; [| |congruence].
  - cbn in H. subst p'. unfold pr_is_paused. cbn. rewrite Hst. reflexivity.
  - cbn [pstate_eqb andb] in H. destruct (inf_full (p_infl p)) eqn:Hf; [|subst p'; unfold pr_is_paused; cbn; rewrite Hst; exact Hf].
    destruct H as (inf & Hf1 & ->). destruct W as (A & B & C & D). unfold inf_full in Hf. apply N.eqb_eq in Hf.
    destruct q as [|x q]; [destruct B as [B _]; rewrite nlen_nil in B; lia|].
    pose proof (step_ok IFreeFirst _ _ A B ltac:(discriminate)) as SO. cbn [q_step i_step] in SO. destruct SO as (y & F1 & F2 & F3 & F4).
    assert (y = inf) by congruence. subst y. rewrite drop_le_head in F3 by apply C. unfold pr_is_paused. cbn. rewrite Hst. unfold inf_full.
    destruct F3 as [F3 _]. destruct B as [B _]. rewrite nlen_cons in B. apply N.eqb_neq. rewrite F4. lia.
Qed.
Lemma onbeat_fields p p' : onbeat p p' -> p_next p' = p_next p /\ p_match p' = p_match p /\ p_active p' = true.
Proof. unfold onbeat. cbn. destruct (_ && _); [intros (i & _ & ->)|intros ->]; cbn; auto. Qed.

Lemma heartbeat_resp_feeds m p q r r' : lwf0 (r_log r) -> trk_get (m_from m) (r_trk r) = Some p -> win p q -> 1 <= i_size (p_infl p) -> p_state p <> StSnapshot ->
  p_match p < r_last r -> leader_heartbeat_resp m p r = Ok r' -> exists new x, r_msgs r' = r_msgs r ++ new /\ In x new /\ feeds r (m_from m) p x.
Proof.
  intros W G Wq Hs Hn Hm H. unfold leader_heartbeat_resp in H. apply bind_ok in H. destruct H as (p1 & H1 & H).
  assert (B : onbeat p p1).
  { unfold onbeat. destruct (_ && _); [apply bind_ok in H1; destruct H1 as (i & H1 & Hx); inv Hx; eauto|inv H1; auto]. }
  destruct (onbeat_fields _ _ B) as (B1 & B2 & B3). pose proof (beat_unpaused _ _ _ B Wq Hs Hn) as Hu. clear H1 B. cbv zeta in H.
  apply bind_ok in H. destruct H as (r2 & H2 & H). change (r_last (put_progress (m_from m) p1 r)) with (r_last r) in H2.
  destruct (N.ltb_spec (p_match p1) (r_last r)); [|lia].
  destruct (send_feeds (m_from m) p1 (put_progress (m_from m) p1 r) r2) as (x & Hx & F); auto.
  { apply get_put. } { right; auto. }
  assert (F' : feeds r (m_from m) p x) by (unfold feeds in *; rewrite B1 in F; exact F). change (r_msgs (put_progress (m_from m) p1 r)) with (r_msgs r) in Hx.
  assert (Go : forall ms, r_msgs r' = r_msgs r2 ++ ms -> exists new y, r_msgs r' = r_msgs r ++ new /\ In y new /\ feeds r (m_from m) p y).
  { intros ms Hms. exists ([x] ++ ms), x. rewrite Hms, Hx, <- app_assoc. split; [reflexivity|]. split; [left; auto|auto]. }
  match type of H with (if ?c then _ else _) = _ => destruct c end; [inv H; apply (Go []); rewrite app_nil_r; auto|].
  destruct (ro_recv_ack (m_from m) (m_ctx m) (r_ro r2)) as [ro ac].
  destruct (tc_vote_result _ _); try (inv H; apply (Go []); rewrite app_nil_r; reflexivity).
  apply bind_ok in H. destruct H as ([ro2 rss] & _ & H). 
  assert (S : sends (set_r_ro ro2 (set_r_ro ro r2)) r').
  { apply (mfold_inv _ sends) in H; eauto using sends_refl, sends_trans. intros a s s' _ Ha. eapply response_to_read_index_sends; eauto. }
  destruct (sd_msgs _ _ S) as (ms & Hms & _). apply (Go ms). exact Hms.
Qed.

(** A rejection that is not stale: it answers the outstanding probe, or a message beyond what the
    member is known to hold. *)
Definition fresh_reject (m : msg) (p : progress) : Prop :=
  match p_state p with
  | StProbe => p_next p = m_index m + 1
  | StReplicate => p_match p < m_index m
  | StSnapshot => False
  end.
Lemma reject_feeds m p r r' : lwf0 (r_log r) -> trk_get (m_from m) (r_trk r) = Some p -> fresh_reject m p -> m_reject m = true -> 0 < m_index m ->
  leader_app_resp m p r = Ok r' -> exists x p2, r_msgs r' = r_msgs r ++ [x] /\ feeds r (m_from m) p2 x /\ p_next p2 <= m_index m /\
    (p_state p = StReplicate -> p_next p2 = p_match p + 1).
Proof.
  intros W G Hf Hr Hi H. unfold leader_app_resp in H. rewrite Hr in H. unfold leader_app_resp_reject in H. cbv zeta in H.
  apply bind_ok in H. destruct H as (h & _ & H). unfold fresh_reject in Hf. unfold pr_maybe_decr_to in H. cbn [p_state set_p_active p_match p_next] in H.
  assert (Go : forall p2, p_active p2 = true -> pr_is_paused p2 = false -> send_append (m_from m) (put_progress (m_from m) p2 r) = Ok r' ->
    exists x, r_msgs r' = r_msgs r ++ [x] /\ feeds r (m_from m) p2 x).
  { intros p2 Ha Hp Hs. pose proof (send_feeds (m_from m) p2 (put_progress (m_from m) p2 r) r' W (get_put _ _ _) Hp (or_intror Ha) Hs) as X. clear Hs. rename X into Hs.
    destruct Hs as (x & Hx & F). exists x. split; [exact Hx|exact F]. }
  destruct (p_state p) eqn:Hs; [| |contradiction].
  - assert (Hw : wsub (p_next p) 1 = m_index m) by (pose proof (wsub1 (p_next p)); lia). rewrite Hw, N.eqb_refl in H. cbn [negb] in H.
    cbn [p_state set_p_probe_sent set_p_next set_p_active] in H. rewrite Hs in H. cbn [pstate_eqb] in H.
    apply Go in H; [|reflexivity|unfold pr_is_paused; cbn; rewrite Hs; reflexivity].
    destruct H as (x & Hx & F). eexists x, _. split; [exact Hx|]. split; [exact F|]. split; [cbn; lia|discriminate].
  - destruct (N.leb_spec (m_index m) (p_match p)); [lia|]. cbn [p_state set_p_next set_p_active] in H. rewrite Hs in H. cbn [pstate_eqb] in H.
    apply Go in H; [|unfold pr_become_probe; cbn; rewrite Hs; reflexivity|unfold pr_become_probe; cbn; rewrite Hs; reflexivity].
    destruct H as (x & Hx & F). eexists x, _. split; [exact Hx|]. split; [exact F|]. split; [|intros _; unfold pr_become_probe; cbn; rewrite Hs; reflexivity].
    unfold pr_become_probe; cbn; rewrite Hs. cbn. lia.
Qed.

(** An acknowledgement that brings news. *)
Lemma ack_fields i p p2 : ack_progress i p = Ok p2 -> p_match p2 = p_match p /\ p_active p2 = p_active p.
Proof.
  unfold ack_progress. destruct (p_state p); [intros H; inv H; auto| |].
  - intros H. apply bind_ok in H. destruct H as (inf & _ & H). inv H. auto.
  - destruct (p_pending p <=? p_match p); intros H; inv H; auto. unfold pr_become_probe. destruct (p_state p); auto.
Qed.
Definition unblocks (m : msg) (p : progress) : Prop :=
  match p_state p with
  | StProbe => p_probe_sent p = true
  | StReplicate => i_count (p_infl p) = i_size (p_infl p) /\ exists b q, holds (p_infl p) (b :: q) /\ b <= m_index m
  | StSnapshot => p_pending p <= m_index m
  end.
Definition next_after (m : msg) (p : progress) : N :=
  match p_state p with StReplicate => N.max (p_next p) (m_index m + 1) | _ => m_index m + 1 end.
Lemma ack_unblocks m p p2 : unblocks m p -> p_match p < m_index m -> iwf (p_infl p) -> 1 <= i_size (p_infl p) ->
  ack_progress (m_index m) (fst (pr_maybe_update (m_index m) (set_p_active true p))) = Ok p2 ->
  pr_is_paused (set_p_active true p) = true /\ pr_is_paused p2 = false /\ p_next p2 = next_after m p.
Proof.
  intros U Hm Iw Sz H. unfold pr_maybe_update in H. cbn [p_match set_p_active] in H. destruct (N.ltb_spec (p_match p) (m_index m)); [|lia]. cbn [fst] in H.
  unfold unblocks, next_after in *. unfold ack_progress in H. cbn [p_state set_p_next set_p_probe_sent set_p_match set_p_active p_pending p_match p_infl] in H.
  unfold pr_is_paused at 1. cbn [p_state set_p_active p_probe_sent p_infl].
  destruct (p_state p) eqn:Hs.
  - inv H. split; [auto|]. split; [|cbn; lia]. unfold pr_is_paused. cbn. unfold inf_full. cbn. apply N.eqb_neq. lia.
  - apply bind_ok in H. destruct H as (inf & Hf & H). apply Ok_inj in H. subst p2. destruct U as (U1 & b & q & U2 & U3). split; [apply N.eqb_eq; auto|].
    destruct (free_le_ok (m_index m) _ _ Iw U2) as (x & F1 & F2 & F3 & F4). assert (x = inf) by congruence. subst x.
    split; [|cbn; lia]. unfold pr_is_paused. cbn [p_state set_p_next set_p_probe_sent set_p_match set_p_active p_infl set_p_infl]. rewrite Hs. unfold inf_full. apply N.eqb_neq.
    destruct F3 as [F3 _]. rewrite F3, F4. cbn [drop_le]. destruct (N.leb_spec b (m_index m)); [|lia]. pose proof (drop_le_len (m_index m) q). destruct U2 as [U2 _]. rewrite nlen_cons in U2. lia.
  - destruct (N.leb_spec (p_pending p) (m_index m)); [|lia]. inv H. split; [auto|]. split.
    + unfold pr_is_paused. cbn. unfold inf_full, pr_become_probe. cbn. rewrite Hs. cbn. apply N.eqb_neq. lia.
    + unfold pr_become_replicate, pr_become_probe. cbn. rewrite Hs. cbn. lia.
Qed.

Lemma send_trk m r r' : send m r = Ok r' -> r_trk r' = r_trk r. Proof. intros H. apply send_ok in H. destruct H as [-> _]. reflexivity. Qed.
Lemma read_resp_trk m r r' : send_read_index_response m r = Ok r' -> r_trk r' = r_trk r.
Proof.
  unfold send_read_index_response. destruct (ro_option (r_ro r)); intros H.
  - apply bind_ok in H. destruct H as (ro & _ & H). apply bind_ok in H. destruct H as (d & _ & H). destruct (ro_recv_ack _ _ _) as [ro2 ac].
    change (r_trk r) with (r_trk (set_r_ro ro2 r)). apply (mfold_inv _ (fun a b => r_trk b = r_trk a)) in H; auto; [intros; congruence|].
    intros a s s' _ Hs. unfold send_heartbeat in Hs. destruct (trk_get a (r_trk s)); [|discriminate]. eapply send_trk; eauto.
  - unfold response_to_read_index in H. destruct (_ || _); [apply bind_ok in H; destruct H as (d & _ & H); inv H; auto|eapply send_trk; eauto].
Qed.
Lemma release_sends r r' : release_pending_reads r = Ok r' -> sends r r'. Proof. apply release_pending_reads_sends. Qed.
Lemma accept_spec m p r r' : lwf0 (r_log r) -> trk_get (m_from m) (r_trk r) = Some p -> m_reject m = false -> p_match p < m_index m -> 
  leader_app_resp m p r = Ok r' ->
  (exists p', trk_get (m_from m) (r_trk r') = Some p' /\ drained r' p' /\ p_match p' = m_index m) /\
  (unblocks m p -> iwf (p_infl p) -> 1 <= i_size (p_infl p) -> m_from m <> r_id r ->
   exists p2 new x, p_next p2 = next_after m p /\ r_msgs r' = r_msgs r ++ new /\ In x new /\ feeds r (m_from m) p2 x).
Proof.
  intros W G Hr Hi H. unfold leader_app_resp in H. rewrite Hr in H. unfold leader_app_resp_accept in H. cbv zeta in H.
  destruct (pr_maybe_update (m_index m) (set_p_active true p)) as [p1 u] eqn:Hu.
  assert (Hp1 : u = true /\ p_match p1 = m_index m /\ p_active p1 = true).
  { unfold pr_maybe_update in Hu. cbn [p_match set_p_active] in Hu. destruct (N.ltb_spec (p_match p) (m_index m)); [|lia]. inv Hu. auto. }
  destruct Hp1 as (-> & Hp1 & Ha1). apply bind_ok in H. destruct H as (p2 & Hk & H). destruct (ack_fields _ _ _ Hk) as [Hp2 Ha2].
  apply bind_ok in H. destruct H as ([r2 cm] & Hc & H). apply commit_last in Hc. destruct Hc as (k & Hc).
  apply bind_ok in H. destruct H as (r3 & H3 & H). apply bind_ok in H. destruct H as (r4 & H4 & H).
  assert (W2 : lwf0 (r_log r2)) by (rewrite Hc; exact W).
  assert (F2 : log_first (r_log r2) = log_first (r_log r) /\ r_id r2 = r_id r /\ r_term r2 = r_term r /\ r_msgs r2 = r_msgs r) by (rewrite Hc; auto).
  assert (G2 : trk_get (m_from m) (r_trk r2) = Some p2) by (rewrite Hc; exact (get_put _ _ r)). clear Hc. destruct F2 as (F21 & F22 & F23 & F24).
  assert (S3 : sends r2 r3).
  { destruct cm; [|match type of H3 with (if ?c then _ else _) = _ => destruct c end; [eapply send_append_sends; eauto|inv H3; apply sends_refl]].
    apply bind_ok in H3. destruct H3 as (r5 & H5 & H3). eapply sends_trans; [apply release_sends; eauto|eapply bcast_append_sends; eauto]. }
  pose proof (send_all_sends _ _ _ _ H4) as S4.
  assert (El3 : r_log r3 = r_log r2) by apply (sd_same _ _ S3). assert (El4 : r_log r4 = r_log r3) by apply (sd_same _ _ S4).
  assert (Hend : r_trk r' = r_trk r4 /\ r_log r' = r_log r4 /\ exists ms, r_msgs r' = r_msgs r4 ++ ms).
  { match type of H with (if ?c then _ else _) = _ => destruct c end; [apply send_ok in H; destruct H as [-> _]; cbn; eauto|inv H; repeat split; auto; exists []; rewrite app_nil_r; auto]. }
  destruct Hend as (E1 & E2 & (ms5 & E3)). split.
  - destruct (send_all_drained _ _ _ _ ltac:(rewrite El3; exact W2) H4) as (p' & G4 & D). exists p'. rewrite E1. split; [exact G4|]. split.
    { unfold drained, r_last in *. rewrite E2. exact D. }
    destruct (prs_same_get _ _ _ _ (sd_prs _ _ S3) G2) as (p3 & G3 & Q3). destruct (prs_same_get _ _ _ _ (sd_prs _ _ S4) G3) as (p4 & G5 & Q4).
    assert (p4 = p') by congruence. subst p4. destruct Q3 as (Q3 & _). destruct Q4 as (Q4 & _). congruence.
  - intros U Iw Sz Hid. destruct (ack_unblocks m p p2 U Hi Iw Sz) as (U1 & U2 & U3); [rewrite Hu; exact Hk|]. rewrite U1 in H3.
    assert (X : exists new x, r_msgs r3 = r_msgs r2 ++ new /\ In x new /\ feeds r (m_from m) p2 x).
    { assert (Sv : forall rr, servable rr p2) by (intros; right; congruence). destruct cm.
      - apply bind_ok in H3. destruct H3 as (r5 & H5 & H3). pose proof (release_sends _ _ H5) as S5.
        assert (El5 : r_log r5 = r_log r2) by apply (sd_same _ _ S5). assert (Ei : r_id r5 = r_id r) by (rewrite (sends_id _ _ S5); auto). assert (Et : r_term r5 = r_term r) by (rewrite (sm_term _ _ (sd_same _ _ S5)); auto).
        assert (G5 : trk_get (m_from m) (r_trk r5) = Some p2).
        { unfold release_pending_reads in H5. apply bind_ok in H5. destruct H5 as (ok & _ & H5). destruct ok; [|inv H5; auto].
          assert (P : r_trk r5 = r_trk r2); [|rewrite P; exact G2].
          change (r_trk r2) with (r_trk (set_r_pend_reads [] r2)). apply (mfold_inv _ (fun a b => r_trk b = r_trk a)) in H5; auto; [intros; congruence|].
          intros a s s' _ Hs. eapply read_resp_trk; eauto. }
        destruct (bcast_append_feeds r5 r3 ltac:(rewrite El5; auto) H3 (m_from m) p2 ltac:(congruence) G5 U2 (Sv _)) as (new & x & Hn & Hx & F).
        destruct (sd_msgs _ _ S5) as (ms & Hms & _). exists (ms ++ new), x. rewrite Hn, Hms, app_assoc. split; [auto|]. split; [apply in_or_app; auto|].
        unfold feeds in *. rewrite El5, F21, Ei, Et in F. exact F.
      - destruct (send_feeds _ _ _ _ W2 G2 U2 (Sv _) H3) as (x & Hx & F). exists [x], x. split; [auto|]. split; [left; auto|].
        unfold feeds in *. rewrite F21, F22, F23 in F. exact F. }
    destruct X as (new & x & Hn & Hx & F). destruct (sd_msgs _ _ S4) as (ms & Hms & _). exists p2, (new ++ ms ++ ms5), x. split; [auto|].
    split; [rewrite E3, Hms, Hn, F24, !app_assoc; auto|]. split; [apply in_or_app; auto|exact F].
Qed.
End Props.
