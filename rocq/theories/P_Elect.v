(** A candidacy: how it starts, which votes it counts, and how it ends. *)
From Verif Require Import Prelude Types M_Util M_Quorum M_Inflights M_Progress M_Tracker.
From Verif Require Import M_Storage M_Unstable M_Log M_ReadOnly M_ConfPb M_ConfChange M_Raft M_RawNode.
From Verif Require Import P_Inflights Spec_Log P_Lists P_Storage P_Log Spec_Storage Sys_Storage P_StorageSeq Spec_RaftLog Sys_RaftLog P_RaftLogSeq.
From Verif Require Import Spec_Quorum P_Quorum.
From Verif Require Import P_Frame P_Prim Sys_Node Sys_ConfChange P_Node P_Fields P_Vote Spec_Node P_Persist P_New P_Time P_NodeLog P_Handle P_NodeRun P_Emit P_Ack.
From Verif Require Import Prop_Vote P_Lead.

Section Elect.
Context {E : Env}.

Definition vtype (x : role) : mtype := match x with RPreCandidate => MsgPreVote | _ => MsgVote end.
Definition vreq (x : role) (tr : bool) (id lt last term to : N) : msg :=
  let m := set_m_from id (set_m_logterm lt (set_m_index last (set_m_to to (set_m_term term (new_msg (vtype x)))))) in
  if tr then set_m_ctx campaign_transfer_ctx m else m.
Lemma vote_reqs x term tr l : forall r r', mfold (send_vote_req (vtype x) term tr) l r = Ok r' ->
  exists lt, (l <> [] -> log_last_term (r_log r) = Ok lt) /\
    r' = set_r_msgs (r_msgs r ++ map (vreq x tr (r_id r) lt (r_last r) term) l) r.
Proof.
  induction l as [|a l IH]; intros r r' H; cbn [mfold] in H.
  - inv H. exists 0. split; [congruence|]. cbn. rewrite app_nil_r. destruct r'; reflexivity.
  - apply bind_ok in H. destruct H as (r1 & H1 & H). unfold send_vote_req in H1. apply bind_ok in H1. destruct H1 as (lt & Hl & H1).
    apply send_ok in H1. destruct H1 as [H1 _].
    assert (E1 : r1 = emit (vreq x tr (r_id r) lt (r_last r) term a) r).
    { rewrite H1. f_equal. unfold outm, vreq. destruct tr, x; reflexivity. }
    clear H1. destruct (IH _ _ H) as (lt' & L1 & L2). exists lt. split; [auto|].
    rewrite L2, E1. unfold emit. cbn [r_msgs set_r_msgs]. rewrite <- app_assoc. cbn [map app].
    destruct l as [|b l]; [reflexivity|].
    assert (lt' = lt). { rewrite E1 in L1. cbn in L1. specialize (L1 ltac:(discriminate)). congruence. } subst lt'. reflexivity.
Qed.

(** [r'] has just started asking for votes. *)
Record fresh (x : role) (r r' : raft) : Prop := {
  fc_state : r_state r' = x;
  fc_cfg : r_cfg r' = r_cfg r;
  fc_conf : t_config (r_trk r') = t_config (r_trk r);
  fc_votes : t_votes (r_trk r') = [(r_id r, true)];
  fc_log : r_log r' = r_log r;
  fc_res : tc_vote_result (t_config (r_trk r')) (t_votes (r_trk r')) <> VoteWon;
  fc_term : match x with RPreCandidate => r_term r' = r_term r | _ => r_term r < r_term r' end;
  fc_msgs : exists tr lt, (other_voters r' <> [] -> log_last_term (r_log r) = Ok lt) /\
    r_msgs r' = r_msgs r ++ map (vreq x tr (r_id r) lt (r_last r) (match x with RPreCandidate => r_term r' + 1 | _ => r_term r' end)) (other_voters r')
}.
(** or it has won at once. *)
Definition at_once (r r' : raft) : Prop :=
  r_state r' = RLeader /\ r_term r < r_term r' /\
  tc_vote_result (t_config (r_trk r)) [(r_id r, true)] = VoteWon.
Lemma fresh_from a x r r' : r_cfg a = r_cfg r -> t_config (r_trk a) = t_config (r_trk r) -> r_log a = r_log r ->
  r_msgs a = r_msgs r -> match x with RPreCandidate => r_term a = r_term r | _ => r_term r <= r_term a end -> fresh x a r' -> fresh x r r'.
Proof.
  intros H1 H2 H3 H4 H5 [F1 F2 F3 F4 F5 F6 F7 (tr & lt & F8 & F9)].
  assert (Hid : r_id a = r_id r) by (unfold r_id; congruence). assert (Hla : r_last a = r_last r) by (unfold r_last; congruence).
  constructor; try congruence; [destruct x; lia|]. exists tr, lt. split; [rewrite <- H3; auto|]. rewrite F9, H4, Hid, Hla. reflexivity.
Qed.
Lemma campaign_real_cand tr r r' : campaign_real tr r = Ok r' -> fresh RCandidate r r' \/ at_once r r'.
Proof.
  unfold campaign_real. intros H. apply bind_ok in H. destruct H as (r1 & H1 & H).
  apply become_candidate_all in H1. destruct H1 as (A0&A1&A2&A3&A4&A5&A6&A7&A8&A9&A10&A11).
  assert (Hid : r_id r1 = r_id r) by (unfold r_id; congruence).
  destruct (poll (r_id r1) true r1) as [r2 v] eqn:Hp. pose proof (poll_parts _ _ _ _ _ Hp) as (Q1 & Q2 & Q3 & Q4 & Q5 & Q6).
  assert (V2 : t_votes (r_trk r2) = [(r_id r, true)]).
  { unfold poll in Hp. apply pair_equal_spec in Hp. destruct Hp as [<- _]. cbn. unfold trk_record_vote. rewrite A10. cbn. rewrite Hid, ?A10. reflexivity. }
  assert (M2 : r_msgs r2 = r_msgs r) by (unfold poll in Hp; apply pair_equal_spec in Hp; destruct Hp as [<- _]; cbn; auto).
  clear Hp.
  assert (K : v <> VoteWon -> mfold (send_vote_req MsgVote (r_term r2) tr) (other_voters r2) r2 = Ok r' -> fresh RCandidate r r').
  { intros Hv K. apply (vote_reqs RCandidate) in K. destruct K as (lt & K1 & K2).
    assert (Hid2 : r_id r2 = r_id r) by (unfold r_id; congruence). assert (Hla2 : r_last r2 = r_last r) by (unfold r_last; congruence).
    rewrite K2. constructor; cbn [r_state r_cfg r_trk r_log r_term r_msgs set_r_msgs]; try congruence; [lia|].
    exists tr, lt. change (other_voters (set_r_msgs _ r2)) with (other_voters r2). split; [intros X; rewrite <- (K1 X); congruence|].
    rewrite M2, Hid2, Hla2. reflexivity. }
  destruct v; [left; apply K; auto; discriminate|left; apply K; auto; discriminate|].
  right. apply become_leader_all in H. destruct H as (B0&B1&B2&B3&B4&_). split; [auto|]. split; [lia|]. rewrite <- V2, <- A9, <- Q3. auto.
Qed.
Lemma hup_cand t r r' : hup t r = Ok r' -> r' = r \/ fresh RCandidate r r' \/ (t = CPreElection /\ fresh RPreCandidate r r') \/ at_once r r'.
Proof.
  unfold hup. destruct (is_leader r) eqn:Hl; [intros H; inv H; auto|]. destruct (negb (promotable r)); [intros H; inv H; auto|].
  intros H. apply bind_ok in H. destruct H as ([ents|] & _ & H); [|discriminate].
  destruct (_ && _); [inv H; auto|]. right. destruct t; cbn [campaign] in H; try (apply campaign_real_cand in H; tauto).
  apply bind_ok in H. destruct H as (r1 & H1 & H).
  apply become_pre_all in H1. destruct H1 as (A0&A1&A2&A3&A4&A5&A6&A7&A8&A9&A10&A11&_).
  assert (Hid : r_id r1 = r_id r) by (unfold r_id; congruence).
  destruct (poll (r_id r1) true r1) as [r2 v] eqn:Hp. pose proof (poll_parts _ _ _ _ _ Hp) as (Q1 & Q2 & Q3 & Q4 & Q5 & Q6).
  assert (V2 : t_votes (r_trk r2) = [(r_id r, true)]).
  { unfold poll in Hp. apply pair_equal_spec in Hp. destruct Hp as [<- _]. cbn. unfold trk_record_vote. rewrite A10. cbn. rewrite Hid, ?A10. reflexivity. }
  assert (M2 : r_msgs r2 = r_msgs r) by (unfold poll in Hp; apply pair_equal_spec in Hp; destruct Hp as [<- _]; cbn; auto).
  clear Hp.
  assert (K : v <> VoteWon -> mfold (send_vote_req MsgPreVote (r_term r1 + 1) false) (other_voters r2) r2 = Ok r' -> fresh RPreCandidate r r').
  { intros Hv K. apply (vote_reqs RPreCandidate) in K. destruct K as (lt & K1 & K2).
    assert (Hid2 : r_id r2 = r_id r) by (unfold r_id; congruence). assert (Hla2 : r_last r2 = r_last r) by (unfold r_last; congruence).
    rewrite K2. constructor; cbn [r_state r_cfg r_trk r_log r_term r_msgs set_r_msgs]; try congruence.
    exists false, lt. change (other_voters (set_r_msgs _ r2)) with (other_voters r2). split; [intros X; rewrite <- (K1 X); congruence|].
    rewrite M2, Hid2, Hla2, Q5. reflexivity. }
  destruct v; [right; left; split; [auto|]; apply K; auto; discriminate|right; left; split; [auto|]; apply K; auto; discriminate|].
  assert (V3 : tc_vote_result (t_config (r_trk r)) [(r_id r, true)] = VoteWon) by (rewrite <- V2, <- A9, <- Q3; auto).
  apply campaign_real_cand in H. destruct H as [H|(C1 & C2 & C3)].
  - left. apply (fresh_from r2); try congruence. lia.
  - right. right. split; [auto|]. split; [lia|auto].
Qed.

Lemma campaign_pre_cand r r' : campaign CPreElection r = Ok r' -> fresh RPreCandidate r r' \/ at_once r r'.
Proof.
  cbn [campaign]. intros H. apply bind_ok in H. destruct H as (r1 & H1 & H).
  apply become_pre_all in H1. destruct H1 as (A0&A1&A2&A3&A4&A5&A6&A7&A8&A9&A10&A11&_).
  assert (Hid : r_id r1 = r_id r) by (unfold r_id; congruence).
  destruct (poll (r_id r1) true r1) as [r2 v] eqn:Hp. pose proof (poll_parts _ _ _ _ _ Hp) as (Q1 & Q2 & Q3 & Q4 & Q5 & Q6).
  assert (V2 : t_votes (r_trk r2) = [(r_id r, true)]).
  { unfold poll in Hp. apply pair_equal_spec in Hp. destruct Hp as [<- _]. cbn. unfold trk_record_vote. rewrite A10. cbn. rewrite Hid, ?A10. reflexivity. }
  assert (M2 : r_msgs r2 = r_msgs r) by (unfold poll in Hp; apply pair_equal_spec in Hp; destruct Hp as [<- _]; cbn; auto).
  clear Hp.
  assert (K : v <> VoteWon -> mfold (send_vote_req MsgPreVote (r_term r1 + 1) false) (other_voters r2) r2 = Ok r' -> fresh RPreCandidate r r').
  { intros Hv K. apply (vote_reqs RPreCandidate) in K. destruct K as (lt & K1 & K2).
    assert (Hid2 : r_id r2 = r_id r) by (unfold r_id; congruence). assert (Hla2 : r_last r2 = r_last r) by (unfold r_last; congruence).
    rewrite K2. constructor; cbn [r_state r_cfg r_trk r_log r_term r_msgs set_r_msgs]; try congruence.
    exists false, lt. change (other_voters (set_r_msgs _ r2)) with (other_voters r2). split; [intros X; rewrite <- (K1 X); congruence|].
    rewrite M2, Hid2, Hla2, Q5. reflexivity. }
  destruct v; [left; apply K; auto; discriminate|left; apply K; auto; discriminate|].
  assert (V3 : tc_vote_result (t_config (r_trk r)) [(r_id r, true)] = VoteWon) by (rewrite <- V2, <- A9, <- Q3; auto).
  right. assert (Hid2 : r_id r2 = r_id r) by (unfold r_id; congruence). apply campaign_real_cand in H. destruct H as [H|(C1 & C2 & C3)].
  - exfalso. apply (fc_res _ _ _ H). rewrite (fc_conf _ _ _ H), (fc_votes _ _ _ H), Hid2, Q3, A9. exact V3.
  - split; [auto|]. split; [lia|auto].
Qed.
(** The message counts as a vote in the candidacy [x] of term [t]. *)
Definition counts (x : role) (t : N) (m : msg) : bool :=
  match x with
  | RPreCandidate => mtype_eqb (m_type m) MsgPreVoteResp && (t <=? m_term m)
  | _ => mtype_eqb (m_type m) MsgVoteResp && (m_term m =? t)
  end.
Definition poll_votes (m : msg) (vs : nmap bool) : nmap bool :=
  match mget (m_from m) vs with None => mset (m_from m) (negb (m_reject m)) vs | Some _ => vs end.
Record kept (x : role) (m : msg) (r r' : raft) : Prop := {
  kc_state : r_state r = x;
  kc_term : r_term r' = r_term r;
  kc_cfg : r_cfg r' = r_cfg r;
  kc_conf : t_config (r_trk r') = t_config (r_trk r);
  kc_votes : t_votes (r_trk r') = if counts x (r_term r) m then poll_votes m (t_votes (r_trk r)) else t_votes (r_trk r);
  kc_res : counts x (r_term r) m = true -> tc_vote_result (t_config (r_trk r')) (t_votes (r_trk r')) = VotePending
}.
Definition starts (m : msg) (x : role) : Prop :=
  m_type m = MsgHup \/ (x = RCandidate /\ (m_type m = MsgTimeoutNow \/ m_type m = MsgPreVoteResp)).
Definition cands (x : role) (m : msg) (r r' : raft) : Prop :=
  r_state r' = x -> kept x m r r' \/ (starts m x /\ fresh x r r').
Lemma cands_not x m r r' : r_state r' <> x -> cands x m r r'. Proof. intros H X. congruence. Qed.
Lemma cands_same x m r r' : r_term r' = r_term r -> r_cfg r' = r_cfg r -> r_trk r' = r_trk r -> r_state r' = r_state r ->
  counts x (r_term r) m = false -> cands x m r r'.
Proof. intros H1 H2 H3 H4 H5 X. left. constructor; rewrite ?H3, ?H5; auto; congruence. Qed.
Lemma hup_cands x m t r r' : x = RCandidate \/ x = RPreCandidate -> hup t r = Ok r' -> (t = CPreElection -> m_type m = MsgHup) -> (t <> CPreElection -> m_type m = MsgHup \/ m_type m = MsgTimeoutNow) ->
  cands x m r r'.
Proof.
  intros Hx H Hm1 Hm2 X. assert (Hm : m_type m = MsgHup \/ m_type m = MsgTimeoutNow) by (destruct t; auto; apply Hm2; discriminate).
  assert (Hc : counts x (r_term r) m = false) by (unfold counts; destruct Hm as [Hm|Hm]; rewrite Hm; destruct x; reflexivity).
  destruct (hup_cand _ _ _ H) as [-> |[F|[[-> F]|(F & _)]]].
  - left. constructor; rewrite ?Hc; auto. congruence.
  - right. assert (Q : x = RCandidate) by (rewrite <- X; apply F). rewrite Q. split; [|exact F]. destruct Hm as [Hm|Hm]; [left; auto|right; auto].
  - right. assert (Q : x = RPreCandidate) by (rewrite <- X; apply F). rewrite Q. split; [|exact F]. left; auto.
  - destruct Hx; congruence.
Qed.
Lemma not_counts x t m : x = RCandidate \/ x = RPreCandidate -> m_type m <> MsgVoteResp -> m_type m <> MsgPreVoteResp -> counts x t m = false.
Proof. intros [-> | ->] H1 H2; unfold counts; destruct (m_type m); try reflexivity; congruence. Qed.

(** What polling a counted vote leads to. *)
Definition verdict (x : role) (m : msg) (r r' : raft) : Prop :=
  match tc_vote_result (t_config (r_trk r)) (poll_votes m (t_votes (r_trk r))) with
  | VoteWon => match x with RPreCandidate => r_term r < r_term r' /\ (fresh RCandidate r r' \/ at_once r r') | _ => r_state r' = RLeader /\ r_term r' = r_term r end
  | VoteLost => r_state r' = RFollower /\ r_term r' = r_term r /\ r_lead r' = 0
  | VotePending => r_state r' = x
  end.
Lemma fresh_weak (a r r' : raft) : r_cfg a = r_cfg r -> t_config (r_trk a) = t_config (r_trk r) -> r_log a = r_log r ->
  r_msgs a = r_msgs r -> r_term a = r_term r -> fresh RCandidate a r' \/ at_once a r' -> fresh RCandidate r r' \/ at_once r r'.
Proof.
  intros H1 H2 H3 H4 H5 [F|(F1 & F2 & F3)]; [left; apply (fresh_from a); auto; lia|right].
  assert (Hid : r_id a = r_id r) by (unfold r_id; congruence). split; [auto|]. split; [lia|congruence].
Qed.
Lemma step_candidate_cands x m r r' e : x = RCandidate \/ x = RPreCandidate -> r_state r = x ->
  (m_type m = MsgVoteResp -> m_term m = r_term r) -> (m_type m = MsgPreVoteResp -> r_term r <= m_term m) ->
  step_candidate m r = Ok (r', e) ->
  (forall y, y = RCandidate \/ y = RPreCandidate -> cands y m r r') /\
  (counts x (r_term r) m = true -> verdict x m r r').
Proof.
  intros Hx Hs Ht1 Ht2 H. unfold step_candidate in H. cbv zeta in H.
  hide (become_follower (m_term m) (m_from m) r) rx Ex. destruct (become_follower_fields _ _ r _ Ex) as (A1&A2&A3&A4&A5&_). clear Ex.
  assert (F : from_leader m -> handle_append_entries m rx = Ok r' \/ handle_heartbeat m rx = Ok r' \/ handle_snapshot m rx = Ok r' ->
    (forall y, y = RCandidate \/ y = RPreCandidate -> cands y m r r') /\ (counts x (r_term r) m = true -> verdict x m r r')).
  { intros F1 F2. split.
    - intros y Hy. apply cands_not. apply handle_frame in F2; auto. destruct F2 as (_ & _ & _ & F2 & _). destruct Hy; congruence.
    - intros C. rewrite not_counts in C; auto; [discriminate|unfold from_leader in F1; intuition congruence|unfold from_leader in F1; intuition congruence]. }
  assert (R : (if mtype_eqb (m_type m) (match r_state r with RPreCandidate => MsgPreVoteResp | _ => MsgVoteResp end)
               then let '(r1, res_) := poll (m_from m) (negb (m_reject m)) r in
                    match res_ with
                    | VoteWon => if role_eqb (r_state r1) RPreCandidate then okr (campaign CElection r1) else okr (r2 <- become_leader r1 ;; bcast_append r2)
                    | VoteLost => Ok (become_follower (r_term r1) 0 r1, None)
                    | VotePending => Ok (r1, None)
                    end else Ok (r, None)) = Ok (r', e) ->
    (forall y, y = RCandidate \/ y = RPreCandidate -> cands y m r r') /\ (counts x (r_term r) m = true -> verdict x m r r')).
  { clear H F. destruct (mtype_eqb (m_type m) _) eqn:Hmt.
    - assert (Hc : counts x (r_term r) m = true).
      { rewrite Hs in Hmt. destruct Hx as [-> | ->]; unfold counts; rewrite Hmt; apply mtype_eqb_eq in Hmt; cbn; [apply N.eqb_eq; auto|apply N.leb_le; auto]. }
      destruct (poll _ _ r) as [r2 v] eqn:Hp. destruct (poll_parts _ _ _ _ _ Hp) as (Q1 & Q2 & Q3 & Q4 & Q5 & Q6).
      assert (V2 : t_votes (r_trk r2) = poll_votes m (t_votes (r_trk r))).
      { unfold poll in Hp. apply pair_equal_spec in Hp. destruct Hp as [<- _]. cbn. unfold trk_record_vote, poll_votes. destruct (mget _ _); reflexivity. }
      assert (M2 : r_msgs r2 = r_msgs r) by (unfold poll in Hp; apply pair_equal_spec in Hp; destruct Hp as [<- _]; cbn; auto).
      clear Hp. unfold verdict. rewrite <- V2, <- Q3. intros H. destruct v; rewrite <- Q6.
      + inv H. split; [|intros _; congruence]. intros y Hy X. left. rewrite Q4 in X. rewrite X in *.
        constructor; auto; rewrite Hc; auto.
      + injection H as H _. split; [intros y Hy; apply cands_not; rewrite <- H; cbn; destruct Hy; congruence|]. intros _. rewrite <- H.
        hide (become_follower (r_term r2) 0 r2) ry Ey. destruct (become_follower_fields _ _ r2 _ Ey) as (B1&B2&B3&B4&B5&B6&_).
        split; [auto|]. split; [congruence|]. rewrite Ey. reflexivity.
      + destruct (role_eqb (r_state r2) RPreCandidate) eqn:Hr; unfold okr in H; apply bind_ok in H; destruct H as (r3 & H & Hx'); inv Hx'.
        * assert (Hpre : r_state r2 = RPreCandidate) by (destruct (r_state r2); try discriminate; auto).
          assert (Hxp : r_state r = RPreCandidate) by congruence. rewrite Hxp.
          apply campaign_real_cand in H. apply (fresh_weak r2 r) in H; auto.
          split; [|intros _; split; [destruct H as [H|(_ & H & _)]; [apply (fc_term _ _ _ H)|auto]|exact H]].
          intros y Hy X. right. destruct H as [H|(H & _)]; [|destruct Hy; congruence].
          assert (Q : y = RCandidate) by (rewrite <- X; apply H). rewrite Q. split; [|exact H]. right. split; [auto|]. right.
          rewrite Hxp in Hmt. apply mtype_eqb_eq in Hmt. auto.
        * assert (Hcd : r_state r2 = RCandidate) by (destruct (r_state r2); try discriminate; auto; destruct Hx; congruence).
          assert (Hxc : r_state r = RCandidate) by congruence. rewrite Hxc.
          apply bind_ok in H. destruct H as (r4 & H4 & H). apply bcast_append_sends in H. apply become_leader_all in H4. destruct H4 as (B0&B1&B2&B3&B4&_).
          destruct H as [[] _ _ _]. split; [intros y Hy; apply cands_not; destruct Hy; congruence|]. intros _. split; congruence.
    - assert (Hc : counts x (r_term r) m = false).
      { rewrite Hs in Hmt. destruct Hx as [-> | ->]; unfold counts; rewrite Hmt; reflexivity. }
      intros H; inv H. split; [|intros C; congruence]. intros y Hy X. left. constructor; auto; rewrite <- ?X, ?Hc; auto. congruence. }
  assert (Nc : m_type m = MsgProp -> r' = r -> (forall y, y = RCandidate \/ y = RPreCandidate -> cands y m r r') /\ (counts x (r_term r) m = true -> verdict x m r r')).
  { intros Hp ->. split; [intros y Hy; apply cands_same; auto; apply not_counts; auto; congruence|]. intros C. rewrite not_counts in C; auto; congruence. }
  destruct (m_type m) eqn:Ht; try (exact (R H)); clear R; unfold okr in H; try (inv H; apply Nc; auto; fail);
    apply bind_ok in H; destruct H as (r1 & H & Hx'); inv Hx'; apply F; auto; unfold from_leader; auto.
Qed.
(* ---- a leader never becomes a candidate directly ---- *)
Definition lfs (r r' : raft) : Prop := r_state r = RLeader -> r_state r' = RLeader \/ r_state r' = RFollower.
Lemma lfs_keep r r' : r_state r' = r_state r -> r_term r' = r_term r -> lfs r r'.
Proof. intros H1 H2 X. left. congruence. Qed.
Lemma lfs_refl r : lfs r r. Proof. apply lfs_keep; auto. Qed.
Lemma lfs_sends r r' : sends r r' -> lfs r r'.
Proof. intros [[] _ _ _]. apply lfs_keep; auto. Qed.
Lemma step_leader_lf m r r' e : r_state r = RLeader -> step_leader m r = Ok (r', e) -> lfs r r'.
Proof.
  intros Hl. unfold step_leader.
  assert (P : forall id p, lfs r (put_progress id p r)) by (intros; apply lfs_keep; reflexivity).
  assert (Hrest : match trk_get (m_from m) (r_trk r) with
      | None => Ok (r, None)
      | Some pr =>
          match m_type m with
          | MsgAppResp => okr (leader_app_resp m pr r)
          | MsgHeartbeatResp => okr (leader_heartbeat_resp m pr r)
          | MsgSnapStatus => Ok (leader_snap_status m pr r, None)
          | MsgUnreachable => Ok (leader_unreachable m pr r, None)
          | MsgTransferLeader => okr (leader_transfer m pr r)
          | _ => Ok (r, None)
          end
      end = Ok (r', e) -> lfs r r').
  { destruct (trk_get (m_from m) (r_trk r)) as [pr|] eqn:Hg; [|intros H; inv H; apply lfs_refl].
    destruct (m_type m) eqn:Ht; try (intros H; inv H; apply lfs_refl; fail); unfold okr; intros H.
    - apply bind_ok in H. destruct H as (r1 & H & Hx). inv Hx. unfold leader_app_resp in H. destruct (m_reject m).
      + unfold leader_app_resp_reject in H. apply bind_ok in H. destruct H as (pb & _ & H). destruct (pr_maybe_decr_to _ _ _) as [p1 ok].
        destruct ok; [|inv H; auto]. apply send_append_sends in H. destruct H as [[] _ _ _]. apply lfs_keep; cbn in *; congruence.
      + unfold leader_app_resp_accept in H. destruct (pr_maybe_update _ _) as [p1 ok]. destruct ok; [|inv H; auto].
        apply bind_ok in H. destruct H as (p2 & _ & H). apply bind_ok in H. destruct H as ([r2 cm] & H1 & H).
        apply raft_maybe_commit_state in H1. destruct H1 as [l H1]. apply bind_ok in H. destruct H as (r3 & H2 & H).
        apply bind_ok in H. destruct H as (r4 & H3 & H). apply send_all_sends in H3.
        assert (S23 : sends r2 r3).
        { destruct cm; [apply bind_ok in H2; destruct H2 as (r5 & H5 & H2); eapply sends_trans; [eapply release_pending_reads_sends; eauto|eapply bcast_append_sends; eauto]|].
          match type of H2 with (if ?b then _ else _) = _ => destruct b end; [eapply send_append_sends; eauto|inv H2; apply sends_refl]. }
        assert (S24 : r_state r4 = r_state r /\ r_term r4 = r_term r).
        { pose proof (sd_same _ _ (sends_trans _ _ _ S23 H3)) as []. rewrite H1 in *. cbn in *. auto. }
        destruct S24. destruct (_ && _); [|inv H; apply lfs_keep; auto]. unfold send_timeout_now in H. apply send_ok in H. destruct H as [-> _].
        apply lfs_keep; auto.
    - apply bind_ok in H. destruct H as (r1 & H & Hx). inv Hx. unfold leader_heartbeat_resp in H.
      apply bind_ok in H. destruct H as (p1 & _ & H). apply bind_ok in H. destruct H as (r2 & H2 & H).
      assert (S2 : r_state r2 = r_state r /\ r_term r2 = r_term r).
      { match type of H2 with (if ?b then _ else _) = _ => destruct b end; [|inv H2; auto]. apply send_append_sends in H2. destruct H2 as [[] _ _ _]. auto. }
      destruct S2. match type of H with (if ?b then _ else _) = _ => destruct b end; [inv H; apply lfs_keep; auto|].
      destruct (ro_recv_ack _ _ _) as [ro acks]. destruct (tc_vote_result _ _); try (inv H; apply lfs_keep; auto; fail).
      apply bind_ok in H. destruct H as ([ro' rss] & _ & H).
      apply (mfold_inv _ sends) in H; [|apply sends_refl|apply sends_trans|intros; eapply response_to_read_index_sends; eauto].
      destruct H as [[] _ _ _]. apply lfs_keep; cbn in *; congruence.
    - unfold leader_unreachable in H. destruct (pstate_eqb _ _); inv H; auto. apply lfs_refl.
    - unfold leader_snap_status in H. destruct (p_state pr); inv H; auto; apply lfs_refl.
    - apply bind_ok in H. destruct H as (r1 & H & Hx). inv Hx. unfold leader_transfer in H. destruct (p_learner pr); [inv H; apply lfs_refl|].
      destruct (_ && _); [inv H; apply lfs_refl|].
      set (r1 := if negb (r_transferee r =? 0) then set_r_transferee 0 r else r) in *.
      assert (K1 : r_state r1 = r_state r /\ r_term r1 = r_term r) by (unfold r1; destruct (negb _); auto). destruct K1. clearbody r1.
      destruct (m_from m =? r_id r1); [inv H; apply lfs_keep; auto|].
      destruct (_ =? _); [unfold send_timeout_now in H; apply send_ok in H; destruct H as [-> _]; apply lfs_keep; auto|].
      apply send_append_sends in H. destruct H as [[] _ _ _]. apply lfs_keep; cbn in *; congruence. }
  destruct (m_type m) eqn:Ht; try exact Hrest; clear Hrest; unfold okr; intros H.
  - apply bind_ok in H. destruct H as (r1 & H & Hx). inv Hx. apply lfs_sends. eapply bcast_heartbeat_ctx_sends; eauto.
  - unfold leader_prop in H. destruct (m_entries m) eqn:He; [discriminate|]. cbn [is_nil] in H. rewrite <- He in *.
    destruct (trk_get (r_id r) (r_trk r)); [|inv H; apply lfs_refl].
    destruct (negb _); [inv H; apply lfs_refl|]. apply bind_ok in H. destruct H as ([es r1] & Hf & H).
    apply filter_prop_fields in Hf. destruct Hf as [k ->]. apply bind_ok in H. destruct H as ([r2|] & Ha & H); [|inv H; apply lfs_keep; auto].
    unfold okr in H. apply bind_ok in H. destruct H as (r3 & H & Hx). inv Hx. apply bcast_append_sends in H. destruct H as [[] _ _ _].
    apply append_entry_fields in Ha. destruct Ha as (l1 & p1 & u1 & ->). apply lfs_keep; cbn in *; congruence.
  - injection H as H _. rewrite <- H. clear H. unfold leader_check_quorum.
    set (r1 := match trk_get (r_id r) (r_trk r) with Some pr => put_progress (r_id r) (set_p_active true pr) r | None => r end).
    assert (K1 : r_state r1 = r_state r /\ r_term r1 = r_term r) by (unfold r1; destruct (trk_get _ _); auto). destruct K1. clearbody r1.
    destruct (trk_quorum_active (r_trk r1)); [apply lfs_keep; auto|]. intros _. right; reflexivity.
  - apply bind_ok in H. destruct H as (r1 & H & Hx). inv Hx. unfold leader_read_index in H. destruct (trk_is_singleton (r_trk r)).
    + apply lfs_sends. eapply response_to_read_index_sends; eauto.
    + apply bind_ok in H. destruct H as (b & _ & H). destruct b.
      * apply lfs_sends. eapply send_read_index_response_sends; eauto.
      * inv H. apply lfs_keep; auto.
Qed.

Lemma step_follower_cands m r r' e : r_state r = RFollower -> step_follower m r = Ok (r', e) -> forall y, y = RCandidate \/ y = RPreCandidate -> cands y m r r'.
Proof.
  intros Hs H y Hy. unfold step_follower in H. cbv zeta in H.
  set (h := set_r_lead (m_from m) (set_r_el_elapsed 0 r)) in *.
  assert (Hh : r_state h = RFollower) by (unfold h; cbn; auto). clearbody h.
  assert (Nf : r_state r' = RFollower -> cands y m r r') by (intros X; apply cands_not; destruct Hy; congruence).
  assert (F : from_leader m -> handle_append_entries m h = Ok r' \/ handle_heartbeat m h = Ok r' \/ handle_snapshot m h = Ok r' -> cands y m r r').
  { intros F1 F2. apply Nf. apply handle_frame in F2; auto. destruct F2 as (_ & _ & _ & F2 & _). congruence. }
  assert (S : forall x, send x r = Ok r' -> cands y m r r').
  { intros x Hx. apply send_ok in Hx. destruct Hx as [-> _]. apply Nf; auto. }
  destruct (m_type m) eqn:Ht; unfold okr in H; try (inv H; apply Nf; auto; fail);
    try (apply bind_ok in H; destruct H as (r1 & H & Hx); inv Hx; apply F; unfold from_leader; auto; fail).
  all: try (destruct (r_lead r =? 0); [inv H; apply Nf; assumption|]).
  - destruct (k_disable_fwd _); [inv H; apply Nf; auto|]. apply bind_ok in H. destruct H as (r1 & H & Hx). inv Hx. eapply S; eauto.
  - apply bind_ok in H. destruct H as (r1 & H & Hx). inv Hx. eapply S; eauto.
  - apply bind_ok in H. destruct H as (r1 & H & Hx). inv Hx. eapply hup_cands; eauto. discriminate.
  - apply bind_ok in H. destruct H as (r1 & H & Hx). inv Hx. eapply S; eauto.
  - destruct (m_entries m) as [|e0 [|]]; inv H; apply Nf; auto.
Qed.
Lemma step_dispatch_cands m r r' e : step_dispatch m r = Ok (r', e) ->
  (m_type m = MsgVoteResp -> m_term m = r_term r) -> (m_type m = MsgPreVoteResp -> r_term r <= m_term m) ->
  (forall y, y = RCandidate \/ y = RPreCandidate -> cands y m r r') /\
  (forall x, x = RCandidate \/ x = RPreCandidate -> r_state r = x -> counts x (r_term r) m = true -> verdict x m r r').
Proof.
  intros H Ht1 Ht2. unfold step_dispatch in H.
  assert (C0 : m_type m <> MsgVoteResp -> m_type m <> MsgPreVoteResp -> (forall y, y = RCandidate \/ y = RPreCandidate -> cands y m r r') ->
     (forall y, y = RCandidate \/ y = RPreCandidate -> cands y m r r') /\
     (forall x, x = RCandidate \/ x = RPreCandidate -> r_state r = x -> counts x (r_term r) m = true -> verdict x m r r')).
  { intros N1 N2 K. split; [exact K|]. intros x Hx _ C. rewrite not_counts in C; auto. discriminate. }
  assert (V : step_vote m r = Ok r' -> m_type m <> MsgVoteResp -> m_type m <> MsgPreVoteResp -> forall y, y = RCandidate \/ y = RPreCandidate -> cands y m r r').
  { intros V N1 N2 y Hy. unfold step_vote in V. apply bind_ok in V. destruct V as (u & _ & V). apply bind_ok in V. destruct V as (rt & _ & V). destruct u.
    - apply bind_ok in V. destruct V as (r1 & V1 & V). apply send_ok in V1. destruct V1 as [-> _]. destruct (mtype_eqb _ _); inv V; apply cands_same; auto; apply not_counts; auto.
    - apply send_ok in V. destruct V as [-> _]. apply cands_same; auto; apply not_counts; auto. }
  assert (R : match r_state r with
      | RLeader => step_leader m r
      | RCandidate | RPreCandidate => step_candidate m r
      | RFollower => step_follower m r
      end = Ok (r', e) -> (forall y, y = RCandidate \/ y = RPreCandidate -> cands y m r r') /\
     (forall x, x = RCandidate \/ x = RPreCandidate -> r_state r = x -> counts x (r_term r) m = true -> verdict x m r r')).
  { clear H V C0. intros H. destruct (r_state r) eqn:Hs.
    - split; [eapply step_follower_cands; eauto|]. intros x [-> | ->]; discriminate.
    - destruct (step_candidate_cands _ _ _ _ _ (or_introl eq_refl) Hs Ht1 Ht2 H) as [K1 K2]. split; [exact K1|]. intros x _ <-. exact K2.
    - split; [|intros x [-> | ->]; discriminate]. apply step_leader_lf in H; auto. specialize (H Hs). intros y Hy. apply cands_not. destruct Hy, H; congruence.
    - destruct (step_candidate_cands _ _ _ _ _ (or_intror eq_refl) Hs Ht1 Ht2 H) as [K1 K2]. split; [exact K1|]. intros x _ <-. exact K2. }
  destruct (m_type m) eqn:Ht; try (exact (R H)); unfold okr in H; apply bind_ok in H; destruct H as (r1 & H & Hx); inv Hx; apply C0; try discriminate; try (apply V; auto; discriminate).
  intros y Hy. eapply hup_cands; eauto.
Qed.
Lemma counts_lt x t m : counts x t m = true -> x = RCandidate \/ x = RPreCandidate -> t <= m_term m.
Proof. unfold counts. intros H [-> | ->]; apply andb_true_iff in H; destruct H as [_ H]; lia. Qed.
Lemma step_cands m r r' e : step m r = Ok (r', e) -> (m_term m = 0 -> m_type m <> MsgVoteResp /\ m_type m <> MsgPreVoteResp) -> (m_type m = MsgHup -> m_term m = 0) ->
  (forall y, y = RCandidate \/ y = RPreCandidate -> cands y m r r') /\
  (forall x, x = RCandidate \/ x = RPreCandidate -> r_state r = x -> counts x (r_term r) m = true ->
     (m_reject m = true -> m_term m = r_term r) -> verdict x m r r').
Proof.
  intros H Hz Hhup. unfold step in H. destruct (N.eqb_spec (m_term m) 0) as [E0|E0].
  { destruct (Hz E0) as [Z1 Z2]. destruct (step_dispatch_cands _ _ _ _ H) as [K1 K2]; try congruence. split; auto. }
  destruct (N.ltb_spec (r_term r) (m_term m)) as [Hlt|Hge].
  - assert (NV : m_type m = MsgVote \/ m_type m = MsgPreVote -> m_type m <> MsgVoteResp /\ m_type m <> MsgPreVoteResp) by (intros [-> | ->]; split; discriminate).
    destruct (_ && _) eqn:Hb.
    { inv H. assert (Hq : m_type m = MsgVote \/ m_type m = MsgPreVote).
      { apply andb_true_iff in Hb. destruct Hb as [Hb _]. apply andb_true_iff in Hb. destruct Hb as [Hb _]. apply orb_true_iff in Hb.
        destruct Hb as [Hb|Hb]; apply mtype_eqb_eq in Hb; auto. }
      destruct (NV Hq) as [N1 N2]. split; [intros y Hy; apply cands_same; auto; apply not_counts; auto|]. intros x Hx _ C. rewrite not_counts in C; auto. discriminate. }
    match type of H with step_dispatch m ?x = _ => assert (K : (x = r /\ (m_type m = MsgPreVote \/ m_type m = MsgPreVoteResp)) \/
       ((m_type m = MsgPreVoteResp -> m_reject m = true) /\ exists l, x = become_follower (m_term m) l r)) end.
    { destruct (m_type m); try (right; split; [discriminate|eauto]; fail); auto. destruct (m_reject m); [right; split; [auto|eauto]|auto]. }
    destruct K as [[K Hq]|[Hq [l K]]]; rewrite K in H; clear K.
    + destruct (step_dispatch_cands _ _ _ _ H) as [K1 K2]; [destruct Hq; congruence|lia|]. split; auto.
    + hide (become_follower (m_term m) l r) rx Ex.
      destruct (become_follower_fields _ _ r _ Ex) as (A1&A2&A3&A4&A5&A6&A7&A8&A9&_). clear Ex.
      assert (Hc : forall x, x = RCandidate \/ x = RPreCandidate -> counts x (r_term r) m = true -> m_type m = MsgPreVoteResp).
      { intros x Hx. unfold counts. destruct Hx as [-> | ->]; intros C; apply andb_true_iff in C; destruct C as [C1 C2]; [lia|apply mtype_eqb_eq; auto]. }
      split.
      * intros y Hy. unfold cands. intros X. destruct (step_dispatch_cands _ _ _ _ H) as [K1 _]; [lia|lia|].
        destruct (K1 y Hy X) as [[Y _ _ _ _]|[S F]]; [destruct Hy; congruence|]. right. split; [exact S|].
        destruct Hy as [-> | ->].
        -- apply (fresh_from rx); auto. lia.
        -- exfalso. destruct S as [S|[S _]]; [|discriminate]. apply Hhup in S. lia.
      * intros x Hx Hs C Hr. exfalso. specialize (Hc x Hx C). specialize (Hr (Hq Hc)). lia.
  - destruct (N.ltb_spec (m_term m) (r_term r)) as [Hlt|Hge2].
    + assert (NC : forall x, x = RCandidate \/ x = RPreCandidate -> counts x (r_term r) m = false).
      { intros x Hx. destruct (counts x (r_term r) m) eqn:C; auto. pose proof (counts_lt _ _ _ C Hx). lia. }
      assert (S : forall x, send x r = Ok r' -> forall y, y = RCandidate \/ y = RPreCandidate -> cands y m r r').
      { intros x Hx y Hy. apply send_ok in Hx. destruct Hx as [-> _]. apply cands_same; auto. }
      split; [|intros x Hx _ C; rewrite NC in C; auto; discriminate].
      unfold okr in H. destruct (_ && _); [apply bind_ok in H; destruct H as (r1 & H & Hx); inv Hx; eapply S; eauto|].
      destruct (mtype_eqb _ _); [apply bind_ok in H; destruct H as (r1 & H & Hx); inv Hx; eapply S; eauto|]. inv H. intros y Hy. apply cands_same; auto.
    + destruct (step_dispatch_cands _ _ _ _ H) as [K1 K2]; [lia|lia|]. split; auto.
Qed.
(* ---- winning ---- *)
Definition wins (m : msg) (r r' : raft) : Prop :=
  r_state r <> RLeader -> r_state r' = RLeader -> r_term r < r_term r' \/ (r_state r = RCandidate /\ counts RCandidate (r_term r) m = true).
Lemma wins_not m r r' : r_state r' <> RLeader -> wins m r r'. Proof. intros H _ X. congruence. Qed.
Lemma wins_same m r r' : r_state r' = r_state r -> wins m r r'. Proof. intros H Y X. congruence. Qed.
Lemma hup_wins t m r r' : hup t r = Ok r' -> wins m r r'.
Proof.
  intros H. destruct (hup_cand _ _ _ H) as [-> |[F|[[_ F]|(F1 & F2 & _)]]].
  - apply wins_same; auto.
  - apply wins_not. rewrite (fc_state _ _ _ F). discriminate.
  - apply wins_not. rewrite (fc_state _ _ _ F). discriminate.
  - intros _ _. auto.
Qed.
Lemma step_candidate_wins m r r' e : r_state r = RCandidate \/ r_state r = RPreCandidate ->
  (m_type m = MsgVoteResp -> m_term m = r_term r) -> (m_type m = MsgPreVoteResp -> r_term r <= m_term m) ->
  step_candidate m r = Ok (r', e) -> wins m r r'.
Proof.
  intros Hs Ht1 Ht2 H. destruct (step_candidate_cands (r_state r) _ _ _ _ Hs eq_refl Ht1 Ht2 H) as [_ V].
  destruct (counts (r_state r) (r_term r) m) eqn:Hc.
  - specialize (V eq_refl). intros _ X. destruct Hs as [Hs|Hs]; rewrite Hs in *; [auto|]. left. unfold verdict in V.
    destruct (tc_vote_result _ _); [congruence|destruct V; congruence|apply V].
  - clear V. unfold step_candidate in H. cbv zeta in H.
    hide (become_follower (m_term m) (m_from m) r) rx Ex. destruct (become_follower_fields _ _ r _ Ex) as (A1&A2&A3&A4&A5&_). clear Ex.
    assert (F : from_leader m -> handle_append_entries m rx = Ok r' \/ handle_heartbeat m rx = Ok r' \/ handle_snapshot m rx = Ok r' -> wins m r r').
    { intros F1 F2. apply wins_not. apply handle_frame in F2; auto. destruct F2 as (_ & _ & _ & F2 & _). congruence. }
    assert (Hm : mtype_eqb (m_type m) (match r_state r with RPreCandidate => MsgPreVoteResp | _ => MsgVoteResp end) = false).
    { apply not_true_is_false. intros Q. unfold counts in Hc. apply mtype_eqb_eq in Q. destruct Hs as [Hs|Hs]; rewrite Hs in Q, Hc; rewrite Q in Hc; cbn [mtype_eqb mtype_code N.eqb Pos.eqb andb] in Hc.
      - specialize (Ht1 Q). rewrite Ht1, N.eqb_refl in Hc. discriminate.
      - specialize (Ht2 Q). apply N.leb_gt in Hc. lia. }
    destruct (m_type m) eqn:Ht; try rewrite Hm in H; unfold okr in H; try (inv H; apply wins_same; auto; fail);
      apply bind_ok in H; destruct H as (r1 & H & Hx'); inv Hx'; apply F; auto; unfold from_leader; auto.
Qed.
Lemma step_follower_wins m r r' e : r_state r = RFollower -> step_follower m r = Ok (r', e) -> wins m r r'.
Proof.
  intros Hs H. unfold step_follower in H. cbv zeta in H.
  set (h := set_r_lead (m_from m) (set_r_el_elapsed 0 r)) in *.
  assert (Hh : r_state h = RFollower) by (unfold h; cbn; auto). clearbody h.
  assert (F : from_leader m -> handle_append_entries m h = Ok r' \/ handle_heartbeat m h = Ok r' \/ handle_snapshot m h = Ok r' -> wins m r r').
  { intros F1 F2. apply wins_not. apply handle_frame in F2; auto. destruct F2 as (_ & _ & _ & F2 & _). congruence. }
  assert (S : forall x, send x r = Ok r' -> wins m r r').
  { intros x Hx. apply send_ok in Hx. destruct Hx as [-> _]. apply wins_same; auto. }
  destruct (m_type m) eqn:Ht; unfold okr in H; try (inv H; apply wins_same; auto; fail);
    try (apply bind_ok in H; destruct H as (r1 & H & Hx); inv Hx; apply F; unfold from_leader; auto; fail).
  all: try (destruct (r_lead r =? 0); [inv H; apply wins_same; reflexivity|]).
  - destruct (k_disable_fwd _); [inv H; apply wins_same; auto|]. apply bind_ok in H. destruct H as (r1 & H & Hx). inv Hx. eapply S; eauto.
  - apply bind_ok in H. destruct H as (r1 & H & Hx). inv Hx. eapply S; eauto.
  - apply bind_ok in H. destruct H as (r1 & H & Hx). inv Hx. eapply hup_wins; eauto.
  - apply bind_ok in H. destruct H as (r1 & H & Hx). inv Hx. eapply S; eauto.
  - destruct (m_entries m) as [|e0 [|]]; inv H; apply wins_same; auto.
Qed.
Lemma step_dispatch_wins m r r' e : step_dispatch m r = Ok (r', e) ->
  (m_type m = MsgVoteResp -> m_term m = r_term r) -> (m_type m = MsgPreVoteResp -> r_term r <= m_term m) -> wins m r r'.
Proof.
  intros H Ht1 Ht2. unfold step_dispatch in H.
  assert (V : step_vote m r = Ok r' -> wins m r r').
  { intros V. unfold step_vote in V. apply bind_ok in V. destruct V as (u & _ & V). apply bind_ok in V. destruct V as (rt & _ & V). destruct u.
    - apply bind_ok in V. destruct V as (r1 & V1 & V). apply send_ok in V1. destruct V1 as [-> _]. destruct (mtype_eqb _ _); inv V; apply wins_same; auto.
    - apply send_ok in V. destruct V as [-> _]. apply wins_same; auto. }
  assert (R : match r_state r with
      | RLeader => step_leader m r
      | RCandidate | RPreCandidate => step_candidate m r
      | RFollower => step_follower m r
      end = Ok (r', e) -> wins m r r').
  { clear H V. intros H. destruct (r_state r) eqn:Hs; [eapply step_follower_wins|eapply step_candidate_wins| |eapply step_candidate_wins]; eauto.
    intros X. congruence. }
  destruct (m_type m) eqn:Ht; try (exact (R H)); unfold okr in H; apply bind_ok in H; destruct H as (r1 & H & Hx); inv Hx; auto.
  eapply hup_wins; eauto.
Qed.
Lemma step_wins m r r' e : step m r = Ok (r', e) -> (m_term m = 0 -> m_type m <> MsgVoteResp /\ m_type m <> MsgPreVoteResp) -> wins m r r'.
Proof.
  intros H Hz. unfold step in H. destruct (N.eqb_spec (m_term m) 0) as [E0|E0].
  { destruct (Hz E0) as [Z1 Z2]. apply step_dispatch_wins in H; auto; congruence. }
  destruct (N.ltb_spec (r_term r) (m_term m)) as [Hlt|Hge].
  - destruct (_ && _); [inv H; apply wins_same; auto|].
    match type of H with step_dispatch m ?x = _ => assert (K : (x = r /\ (m_type m = MsgPreVote \/ m_type m = MsgPreVoteResp)) \/ exists l, x = become_follower (m_term m) l r) end.
    { destruct (m_type m); eauto. destruct (m_reject m); eauto. }
    destruct K as [[K Hq]|[l K]]; rewrite K in H; clear K.
    + apply step_dispatch_wins in H; auto; [destruct Hq; congruence|lia].
    + hide (become_follower (m_term m) l r) rx Ex.
      destruct (become_follower_fields _ _ r _ Ex) as (A1&A2&A3&A4&A5&_). clear Ex.
      apply step_dispatch_wins in H; [|lia|lia]. intros Y X. destruct (H ltac:(congruence) X) as [W|[W _]]; [left; lia|congruence].
  - destruct (N.ltb_spec (m_term m) (r_term r)).
    + assert (S : forall x, send x r = Ok r' -> wins m r r').
      { intros x Hx. apply send_ok in Hx. destruct Hx as [-> _]. apply wins_same; auto. }
      unfold okr in H. destruct (_ && _); [apply bind_ok in H; destruct H as (r1 & H & Hx); inv Hx; eapply S; eauto|].
      destruct (mtype_eqb _ _); [apply bind_ok in H; destruct H as (r1 & H & Hx); inv Hx; eapply S; eauto|]. inv H. apply wins_same; auto.
    + apply step_dispatch_wins in H; auto; lia.
Qed.
End Elect.
