(** Which calls return at all, continued: proposals, the follower's handlers, Step and Tick. *)
From Verif Require Import Prelude Types M_Util M_Quorum M_Inflights M_Progress M_Tracker.
From Verif Require Import M_Storage M_Unstable M_Log M_ReadOnly M_ConfPb M_ConfChange M_Raft M_RawNode.
From Verif Require Import Spec_Inflights P_Inflights Spec_ReadOnly P_ReadOnly Spec_Log P_Lists P_Storage P_Log P_Quorum P_Frame P_Prim.
From Verif Require Import Spec_ConfChange P_ConfChange P_Conf P_Fields P_RaftLogSeq P_New P_NodeLog P_Read P_ReadQ Sys_Node Prop_Api R_Elig P_Total P_Total2 Spec_Total.

Section Total3.
Context {E : Env}.

Definition decodable (e : entry) : Prop :=
  match e_type e with
  | EntryNormal => True
  | EntryConfChange => dec_cc (e_data e) <> None
  | EntryConfChangeV2 => dec_ccv2 (e_data e) <> None
  end.

Lemma filter_total es : forall i r, Forall decodable es -> total (filter_prop i es r).
Proof.
  induction es as [|e es IH]; intros i r H; cbn [filter_prop]; [apply total_ok|]. apply Forall_inv in H as H1. apply Forall_inv_tail in H.
  assert (T : total (entry_cc e)).
  { unfold entry_cc, decodable in *. destruct (e_type e); [apply total_ok| |].
    - destruct (dec_cc (e_data e)); [|congruence]. apply total_ok.
    - destruct (dec_ccv2 (e_data e)); [|congruence]. apply total_ok. }
  destruct T as [o ->]. cbn [bind]. destruct (match o with None => _ | Some _ => _ end) as [e' r'].
  destruct (IH (i + 1) r' H) as [[t' r''] ->]. apply total_ok.
Qed.
Lemma filter_nil es : forall i r es' r', filter_prop i es r = Ok (es', r') -> es <> [] -> es' <> [].
Proof.
  destruct es as [|e es]; intros i r es' r' H; [congruence|]. intros _. cbn [filter_prop] in H.
  apply bind_ok in H. destruct H as (o & _ & H). destruct (match o with None => _ | Some _ => _ end) as [e' r1].
  apply bind_ok in H. destruct H as ([t' r2] & _ & H). injection H as <- _. discriminate.
Qed.
Lemma prop_total m r : live r -> r_state r = RLeader -> m_entries m <> [] -> Forall decodable (m_entries m) -> total (leader_prop m r).
Proof.
  intros L Hs He Hd. unfold leader_prop. destruct (m_entries m) as [|e es] eqn:Em; [congruence|]. rewrite <- Em in *. cbn [is_nil].
  assert (is_nil (m_entries m) = false) as -> by (rewrite Em; reflexivity).
  destruct (trk_get (r_id r) (r_trk r)) as [pr|] eqn:Hg; [|apply total_ok]. destruct (negb _); [apply total_ok|].
  destruct (filter_total (m_entries m) 0 r Hd) as [[es' r1] F]. rewrite F. cbn [bind].
  pose proof (filter_nil _ _ _ _ _ F He) as Hn. destruct (filter_prop_fields _ _ _ _ _ F) as [k ->].
  destruct (live_sok _ L) as [S1 S2 S3].
  destruct (append_total es' (set_r_pending_conf k r)) as [[o T1] T2]; auto.
  - cbn. apply (ni_term _ (lv_n _ L)). auto.
  - change (trk_get (r_id r) (r_trk r) <> None). congruence.
  - rewrite T1. cbn [bind]. destruct o as [r2|]; [|apply total_ok]. apply okr_total, bcast_append_total. apply (T2 _ T1).
Qed.

(* ---- followers ---- *)
Lemma app_total m r : live r -> app_wf m -> total (handle_append_entries m r).
Proof.
  intros L (A1 & A2 & A3). unfold handle_append_entries. pose proof (live_lwf _ L) as W. pose proof (lwf_0 _ W) as W0.
  destruct (N.ltb_spec (m_index m) (l_committed (r_log r))) as [Hc|Hc]; [apply send_total; reflexivity|].
  destruct (N.eq_dec (a_term0 (log_abs (r_log r)) (m_index m)) (m_logterm m)) as [Hm|Hm].
  - assert (Ha : a_term (log_abs (r_log r)) (m_index m) = Some (m_logterm m)).
    { unfold a_term0 in Hm. destruct (a_term (log_abs (r_log r)) (m_index m)) as [t|] eqn:Ht; [congruence|]. exfalso.
      rewrite (A3 (eq_sym Hm)) in *. pose proof (lwf_com _ W) as HC. destruct (a_term_in (log_abs (r_log r)) 0) as [t Ht']; [lia|congruence]. }
    destruct (log_maybe_append_match (m_index m) (m_logterm m) (m_commit m) (m_entries m) (r_log r) W A1 A2 Ha) as (k & _ & K).
    destruct (N.ltb_spec k (nlen (m_entries m))); destruct (N.leb_spec (m_index m + 1 + k) (l_committed (r_log r))); cbn [andb] in K; try lia;
    destruct K as (l' & K & _); rewrite K; cbn [bind]; apply send_total; reflexivity.
  - rewrite (log_maybe_append_mismatch _ _ _ _ _ W0 Hm). cbn [bind].
    assert (Eq : set_r_log (r_log r) r = r) by (destruct r; reflexivity). rewrite Eq.
    destruct (fcbt_total (N.min (m_index m) (r_last r)) (m_logterm m) (r_log r) W (lv_z _ L)) as [h ->]. cbn [bind].
    rewrite (log_term_abs _ _ W0). cbn [bind]. apply send_total; reflexivity.
Qed.
Lemma beat_total m r : live r -> m_commit m <= a_last (log_abs (r_log r)) -> total (handle_heartbeat m r).
Proof.
  intros L H. unfold handle_heartbeat. pose proof (log_commit_to_abs (m_commit m) (r_log r) (live_lwf _ L)) as C.
  destruct (N.ltb_spec (a_last (log_abs (r_log r))) (m_commit m)); [lia|]. destruct C as [-> _]. cbn [bind]. apply send_total; reflexivity.
Qed.
Lemma restore_total s r : live r -> (sn_index s <> 0 -> 0 < sn_term s) -> conf_ok (sn_conf s) -> total (raft_restore s r).
Proof.
  intros L Hp [V N1 N2 N3 N4]. unfold raft_restore. pose proof (live_lwf _ L) as W. pose proof (lwf_0 _ W) as W0.
  destruct (N.leb_spec (sn_index s) (l_committed (r_log r))) as [Hc|Hc]; [apply total_ok|].
  destruct (role_eqb (r_state r) RFollower) eqn:Hr; [|apply total_ok]. cbn [negb].
  destruct (smem (r_id r) (cs_voters (sn_conf s)) || smem (r_id r) (cs_learners (sn_conf s)) || smem (r_id r) (cs_outgoing (sn_conf s))) eqn:Hm; [|apply total_ok].
  cbn [negb]. rewrite (log_match_term_abs _ _ _ W0). cbn [bind].
  destruct (N.eqb_spec (a_term0 (log_abs (r_log r)) (sn_index s)) (sn_term s)) as [He|He].
  - pose proof (log_commit_to_abs (sn_index s) (r_log r) W) as C. destruct (N.ltb_spec (a_last (log_abs (r_log r))) (sn_index s)) as [Hl|Hl].
    + exfalso. unfold a_term0 in He. rewrite a_term_out in He by lia. specialize (Hp ltac:(lia)). lia.
    + destruct C as [-> _]. apply total_ok.
  - set (r0 := set_r_trk _ _). assert (Hi0 : r_id r0 = r_id r) by reflexivity. assert (Hs0 : r_state r0 = r_state r) by reflexivity.
    assert (Ht0 : r_trk r0 = new_tracker (t_max_inflight (r_trk r))) by reflexivity. clearbody r0. rewrite Ht0.
    destruct (restore_ok (t_max_inflight (r_trk r)) (r_last r0) (sn_conf s) V) as (c & prs & R1 & R2 & R3 & R4 & R5). rewrite R1.
    unfold switch_to_config. cbv zeta. cbn [fst snd]. set (r1 := set_r_learner _ _).
    assert (Hs1 : is_leader r1 = false) by (unfold is_leader, r1; cbn; rewrite Hs0; destruct (r_state r); try discriminate; reflexivity).
    rewrite (andb_comm _ (is_leader _)). change (is_leader (set_r_learner _ _)) with (is_leader r1). rewrite Hs1. cbn [andb negb orb bind].
    assert (Eq : confstate_eqb (sn_conf s) (trk_confstate (set_t_progress prs (set_t_config c (r_trk r0)))) = true).
    { rewrite Ht0. apply describes_eqb; auto. }
    assert (Ht1 : r_trk r1 = set_t_progress prs (set_t_config c (r_trk r0))) by reflexivity.
    assert (Hi1 : r_id r1 = r_id r) by exact Hi0.
    cbn [r_trk set_r_trk] in *. rewrite Eq. cbn [negb]. change (r_trk (set_r_learner _ _)) with (r_trk r1) in *. rewrite Ht1, Hi1.
    unfold trk_get. cbn [t_progress set_t_progress].
    assert (Hg : mget (r_id r) prs <> None).
    { apply (cw_trk _ _ R2). destruct R4 as (D1 & D2 & D3 & _). apply orb_true_iff in Hm. rewrite orb_true_iff in Hm.
      rewrite !smem_In in Hm. destruct Hm as [[Hm|Hm]|Hm]; [left; apply D1|right; right; apply D3|right; left; apply D2]; auto. }
    destruct (mget (r_id r) prs) as [pr|]; [|congruence]. destruct (pr_maybe_update _ pr). apply total_ok.
Qed.
Lemma snap_total m r : live r -> (sn_index (m_snap m) <> 0 -> 0 < sn_term (m_snap m)) -> conf_ok (sn_conf (m_snap m)) -> total (handle_snapshot m r).
Proof.
  intros L H1 H2. unfold handle_snapshot. destruct (restore_total (m_snap m) r L H1 H2) as [[r1 b] ->]. cbn [bind]. apply send_total. reflexivity.
Qed.

(** What a message must look like for the node to get through Step. *)
Definition mgood (r : raft) (m : msg) : Prop :=
  match m_type m with
  | MsgProp => m_term m = 0 /\ m_entries m <> [] /\ Forall decodable (m_entries m)
  | MsgReadIndex => m_term m = 0 /\ m_entries m <> []
  | MsgApp => app_wf m
  | MsgHeartbeat => r_term r <= m_term m -> m_commit m <= a_last (log_abs (r_log r))
  | MsgSnap => (sn_index (m_snap m) <> 0 -> 0 < sn_term (m_snap m)) /\ conf_ok (sn_conf (m_snap m))
  | MsgTransferLeader => m_term m = 0 \/ ~ (m_term m = r_term r /\ r_state r = RFollower /\ r_lead r <> 0)
  | _ => True
  end.

Lemma step_leader_total m r : live r -> r_state r = RLeader -> mgood r m -> total (step_leader m r).
Proof.
  intros L Hs G. unfold step_leader. unfold mgood in G. pose proof (live_sok _ L) as S. pose proof (lv_rd _ L) as R.
  assert (Ht : 0 < r_term r) by (apply (lv_n _ L); auto).
  destruct (m_type m) eqn:Hm; try (destruct (trk_get (m_from m) (r_trk r)) as [pr|] eqn:Hg; [|apply total_ok]; try apply total_ok).
  all: try (apply okr_total).
  all: try apply total_ok.
  - apply bcast_hb_total.
  - apply prop_total; tauto.
  - apply app_resp_total; auto; apply L.
  - apply hb_resp_total; auto. apply R.
  - apply transfer_total; auto.
  - apply read_index_total; auto; [apply live_lwf; auto|apply R|tauto].
Qed.
Lemma mgood_follower t l r m : r_term r <= t -> t <= m_term m -> mgood r m -> m_type m <> MsgTransferLeader -> mgood (become_follower t l r) m.
Proof.
  intros H1 H2 H Ht. remember (become_follower t l r) as r' eqn:Er. destruct (become_follower_fields _ _ _ _ Er) as (_&A2&_&A4&_). clear Er.
  unfold mgood in *. destruct (m_type m); auto; try congruence. rewrite A4. intros _. apply H. lia.
Qed.
Lemma step_candidate_total m r : live r -> r_state r = RCandidate \/ r_state r = RPreCandidate -> m_term m = r_term r \/ local_type (m_type m) = true \/ m_type m = MsgPreVoteResp ->
  mgood r m -> total (step_candidate m r).
Proof.
  intros L Hs Hd G. unfold step_candidate.
  assert (HF : m_type m = MsgApp \/ m_type m = MsgHeartbeat \/ m_type m = MsgSnap -> live (become_follower (m_term m) (m_from m) r) /\ mgood (become_follower (m_term m) (m_from m) r) m).
  { intros X. assert (Eq : m_term m = r_term r) by (destruct Hd as [?|[Y|Y]]; auto; destruct X as [X|[X|X]]; rewrite X in Y; discriminate).
    split; [eapply live_follower; eauto; lia|]. apply mgood_follower; auto; try lia. destruct X as [X|[X|X]]; rewrite X; discriminate. }
  assert (HV : forall my, total (if mtype_eqb (m_type m) my
    then let '(r1, res_) := poll (m_from m) (negb (m_reject m)) r in
         match res_ with
         | VoteWon => if role_eqb (r_state r1) RPreCandidate then okr (campaign CElection r1) else okr (r2 <- become_leader r1 ;; bcast_append r2)
         | VoteLost => Ok (become_follower (r_term r1) 0 r1, None)
         | VotePending => Ok (r1, None)
         end
    else Ok (r, None))).
  { intros my. destruct (mtype_eqb (m_type m) my); [|apply total_ok].
    destruct (poll (m_from m) (negb (m_reject m)) r) as [r1 x] eqn:Hp. destruct (live_poll _ _ _ _ _ L Hp) as (L1 & B1 & B2 & B3 & B4).
    destruct x; try apply total_ok. destruct (role_eqb (r_state r1) RPreCandidate) eqn:Hr; apply okr_total.
    - apply campaign_total; auto.
      + apply (lv_el _ L1). rewrite B1. destruct Hs as [-> | ->]; discriminate.
      + rewrite B1. destruct Hs as [-> | ->]; discriminate.
    - assert (Hc : r_state r1 = RCandidate) by (rewrite B1 in *; destruct Hs as [Hs|Hs]; [auto|rewrite Hs in Hr; discriminate]).
      destruct (become_leader_total r1 L1) as [[r2 T1] T2]; [congruence|apply (ni_term _ (lv_n _ L1)); auto|].
      rewrite T1. cbn [bind]. apply bcast_append_total. auto. }
  destruct (m_type m) eqn:Hm; try apply HV; try (apply total_ok); destruct HF as [F1 F2]; auto; apply okr_total; unfold mgood in F2; rewrite Hm in F2.
  - apply app_total; auto.
  - apply snap_total; tauto.
  - apply beat_total; auto. apply F2. remember (become_follower (m_term m) (m_from m) r) as r' eqn:Er. destruct (become_follower_fields _ _ _ _ Er) as (_&A2&_). lia.
Qed.
Lemma live_heard l r : live r -> r_state r = RFollower -> live (set_r_lead l (set_r_el_elapsed 0 r)).
Proof.
  intros [L1 L2 L3 L4 L5 L6 L7 L8 L9 L10] Hs. constructor; auto.
  - apply (ninv_log r); auto. cbn. rewrite Hs. intros [?|?]; discriminate.
  - destruct L6. constructor; auto.
Qed.
Lemma step_follower_total m r : live r -> r_state r = RFollower -> m_term m = r_term r \/ local_type (m_type m) = true \/ m_type m = MsgPreVoteResp ->
  mgood r m -> (m_type m = MsgTransferLeader -> m_term m = 0 \/ r_lead r = 0) -> total (step_follower m r).
Proof.
  intros L Hs Hd G HT. unfold step_follower. pose proof (live_heard (m_from m) r L Hs) as LH. unfold mgood in G.
  destruct (m_type m) eqn:Hm; try apply total_ok; try apply okr_total.
  all: try (destruct (N.eqb_spec (r_lead r) 0); [apply total_ok|]).
  all: try (apply hup_total; auto; fail).
  - destruct (k_disable_fwd _); [apply total_ok|]. apply okr_total, send_total. cbn. rewrite Hm. cbn. tauto.
  - apply app_total; auto.
  - apply snap_total; tauto.
  - apply beat_total; auto. cbn. apply G. destruct Hd as [?|[?|?]]; try discriminate. lia.
  - apply okr_total, send_total. cbn. rewrite Hm. cbn. destruct HT; auto; congruence.
  - apply okr_total, send_total. cbn. rewrite Hm. cbn. tauto.
  - destruct (m_entries m) as [|e [|e' es]]; apply total_ok.
Qed.
Lemma vote_total m r : live r -> m_type m = MsgVote \/ m_type m = MsgPreVote -> m_term m <> 0 -> (m_term m = r_term r \/ (m_type m = MsgPreVote /\ r_term r < m_term m)) -> total (step_vote m r).
Proof.
  intros L Hm Hz Hd. unfold step_vote. pose proof (live_lwf _ L) as W. pose proof (lwf_0 _ W) as W0.
  set (cv := _ || _ || _). assert (Hcv : m_type m = MsgPreVote -> r_term r < m_term m -> cv = true).
  { intros H1 H2. unfold cv. rewrite H1. cbn. destruct (N.ltb_spec (r_term r) (m_term m)); [|lia]. apply orb_true_r. }
  clearbody cv. pose proof (log_is_up_to_date_abs (m_index m) (m_logterm m) (r_log r) W0) as U. destruct U as (t & U1 & U2).
  set (up := if cv then _ else _). assert (Hup : exists b, up = Ok b /\ (b = false -> r_term r <> 0)).
  { unfold up. destruct cv; [rewrite U2; eexists; split; [reflexivity|]|eexists; split; [reflexivity|]].
    - intros Hb Hr. rewrite (lv_zero _ L Hr) in *. pose proof (lv_z _ L) as Z. unfold a_term0 in Z. rewrite U1 in Z. subst t.
      revert Hb. destruct (N.ltb_spec 0 (m_logterm m)); cbn; [discriminate|]. destruct (N.eqb_spec (m_logterm m) 0); [|lia]. cbn.
      destruct (N.leb_spec 0 (m_index m)); [discriminate|lia].
    - intros _ Hr. destruct Hd as [Hd|[Hd1 Hd2]]; [lia|]. specialize (Hcv Hd1 Hd2). discriminate. }
  clearbody up. destruct Hup as (b & -> & Hb). cbn [bind].
  assert (Hrt : exists rt, vote_resp_type (m_type m) = Ok rt /\ is_vote_family rt = true) by (destruct Hm as [-> | ->]; cbn; eauto).
  destruct Hrt as (rt & -> & Hf). cbn [bind]. destruct b.
  - tb; [apply send_total; cbn; rewrite Hf; auto|]. destruct (mtype_eqb _ _); apply total_ok.
  - apply send_total. cbn. rewrite Hf. auto.
Qed.
Lemma dispatch_total m r : live r -> mgood r m -> (m_type m = MsgTransferLeader -> m_term m = 0 \/ r_state r <> RFollower \/ r_lead r = 0) ->
  disp_ok m r -> total (step_dispatch m r).
Proof.
  intros L G HT [Wf D]. unfold step_dispatch.
  assert (D' : m_term m = r_term r \/ local_type (m_type m) = true \/ m_type m = MsgPreVoteResp \/ m_type m = MsgPreVote) by tauto.
  assert (Hv : m_type m = MsgVote \/ m_type m = MsgPreVote -> total (step_vote m r)).
  { intros X. apply vote_total; auto.
    - intros Z. specialize (Wf Z). destruct X as [X|X]; rewrite X in Wf; discriminate.
    - destruct D as [?|[[D1 D2]|[D1 [D2|[D2 D3]]]]]; auto; destruct X as [X|X]; rewrite X in *; discriminate. }
  assert (HR : m_type m <> MsgVote -> m_type m <> MsgPreVote ->
     total (match r_state r with RLeader => step_leader m r | RCandidate | RPreCandidate => step_candidate m r | RFollower => step_follower m r end)).
  { intros X1 X2. destruct (r_state r) eqn:Hs.
    - apply step_follower_total; auto; [tauto|]. intros X. destruct (HT X) as [?|[?|?]]; auto. congruence.
    - apply step_candidate_total; auto. tauto.
    - apply step_leader_total; auto.
    - apply step_candidate_total; auto. tauto. }
  destruct (m_type m) eqn:Hm; try (apply HR; congruence); try (apply okr_total, Hv; auto).
  apply okr_total, hup_total; auto.
Qed.
Lemma step_total m r : live r -> mgood r m -> wf_in m -> total (step m r).
Proof.
  intros L G Wf. unfold step. destruct (N.eqb_spec (m_term m) 0) as [Hz|Hz].
  { apply dispatch_total; auto. split; auto. }
  destruct (N.ltb_spec (r_term r) (m_term m)) as [Hlt|Hge].
  - destruct (_ && _ && _); [apply total_ok|].
    set (r1 := match m_type m with MsgPreVote => r | _ => _ end).
    assert (Hr1 : live r1 /\ (m_type m <> MsgTransferLeader -> mgood r1 m) /\ disp_ok m r1 /\ (m_type m = MsgTransferLeader -> r_lead r1 = 0)).
    { assert (HB : forall l, live (become_follower (m_term m) l r) /\ (m_type m <> MsgTransferLeader -> mgood (become_follower (m_term m) l r) m) /\
               disp_ok m (become_follower (m_term m) l r) /\ r_lead (become_follower (m_term m) l r) = l).
      { intros l. split; [eapply live_follower; eauto; lia|]. split; [intros; apply mgood_follower; auto; lia|].
        remember (become_follower (m_term m) l r) as r' eqn:Er. destruct (become_follower_fields _ _ _ _ Er) as (_&A2&_&_&_&_&_&A8&_).
        split; [split; auto|auto]. }
      assert (HS : (m_type m = MsgPreVote \/ (m_type m = MsgPreVoteResp /\ m_reject m = false)) -> live r /\ (m_type m <> MsgTransferLeader -> mgood r m) /\ disp_ok m r /\ (m_type m = MsgTransferLeader -> r_lead r = 0)).
      { intros X. split; auto. split; auto. split; [split; auto|]. intros Y. destruct X as [X|[X _]]; congruence. }
      unfold r1. destruct (m_type m) eqn:Hm;
        lazymatch goal with
        | |- live (become_follower _ 0 _) /\ _ => destruct (HB 0) as (B1 & B2 & B3 & B4); split; [exact B1|split; [exact B2|split; [exact B3|auto]]]
        | |- live (become_follower _ _ _) /\ _ => destruct (HB (m_from m)) as (B1 & B2 & B3 & B4); split; [exact B1|split; [exact B2|split; [exact B3|intros; discriminate]]]
        | _ => idtac
        end.
      - apply HS; auto.
      - destruct (m_reject m) eqn:Hrj; [|apply HS; auto]. destruct (HB 0) as (B1 & B2 & B3 & B4); split; [exact B1|split; [exact B2|split; [exact B3|intros; discriminate]]]. }
    clearbody r1. destruct Hr1 as (R1 & R2 & R3 & R4). apply dispatch_total; auto.
    destruct (mtype_eqb (m_type m) MsgTransferLeader) eqn:Et.
    + assert (Hm : m_type m = MsgTransferLeader) by (destruct (m_type m); try discriminate; auto). unfold mgood. rewrite Hm. right. intros (_ & _ & X). apply X, R4; auto.
    + apply R2. intros Hm. rewrite Hm in Et. discriminate.
  - destruct (N.ltb_spec (m_term m) (r_term r)) as [Hlt|Hge'].
    + destruct (_ && _); [apply okr_total, send_total; reflexivity|]. destruct (mtype_eqb _ _); [|apply total_ok].
      apply okr_total, send_total. cbn. lia.
    + apply dispatch_total; auto; [|split; auto; left; lia]. intros X. unfold mgood in G. rewrite X in G.
      destruct G as [G|G]; [left; auto|right]. destruct (r_state r) eqn:Hs; try (left; congruence). destruct (N.eq_dec (r_lead r) 0); auto.
      exfalso. apply G. repeat split; auto; lia.
Qed.
End Total3.
