(** Every call into Raft decomposes into a few primitive transitions.  All invariants of single
    nodes and of clusters are proved once per primitive. *)
From Verif Require Import Prelude Types M_Util M_Quorum M_Inflights M_Progress M_Tracker.
From Verif Require Import M_Storage M_Unstable M_Log M_ReadOnly M_ConfPb M_ConfChange M_Raft.
From Verif Require Import Spec_Inflights P_Inflights P_Frame.

Section Prim.
Context {E : Env}.

Definition pr_keep (p p' : progress) : Prop :=
  p_match p' = p_match p /\ p_learner p' = p_learner p /\
  i_size (p_infl p') = i_size (p_infl p) /\ (infl_ok p -> infl_ok p') /\ (forall B, nx B p -> nx B p').
Definition prs_keep (r r' : raft) : Prop :=
  (msorted (t_progress (r_trk r)) -> msorted (t_progress (r_trk r'))) /\
  forall id, match mget id (t_progress (r_trk r)), mget id (t_progress (r_trk r')) with
             | None, None => True
             | Some p, Some p' => pr_keep p p'
             | _, _ => False
             end.

(** Only bookkeeping changed: timers, leader id, transferee, read-index state, flow control. *)
Record keep (r r' : raft) : Prop := {
  kp_cfg : r_cfg r' = r_cfg r;
  kp_term : r_term r' = r_term r;
  kp_vote : r_vote r' = r_vote r;
  kp_log : r_log r' = r_log r;
  kp_state : r_state r' = r_state r;
  kp_learner : r_learner r' = r_learner r;
  kp_msgs : r_msgs r' = r_msgs r;
  kp_pending : r_pending_conf r' = r_pending_conf r;
  kp_unc : r_uncommitted r' = r_uncommitted r;
  kp_tconf : t_config (r_trk r') = t_config (r_trk r);
  kp_votes : t_votes (r_trk r') = t_votes (r_trk r);
  kp_maxinf : t_max_inflight (r_trk r') = t_max_inflight (r_trk r);
  kp_roopt : ro_option (r_ro r') = ro_option (r_ro r);
  kp_rand : r_rand_timeout r' = r_rand_timeout r;
  kp_lead : r_lead r' = r_lead r \/ r_term r <> 0;
  kp_prs : prs_keep r r'
}.

Definition emit (m : msg) (r : raft) : raft := set_r_msgs (r_msgs r ++ [m]) r.

(** The message [send] puts in the outbox for [m]. *)
Definition outm (r : raft) (m : msg) : msg :=
  let m := if m_from m =? 0 then set_m_from (r_id r) m else m in
  if is_vote_family (m_type m) then m
  else match m_type m with MsgProp | MsgReadIndex => m | _ => set_m_term (r_term r) m end.
Lemma send_ok m r r' : send m r = Ok r' ->
  r' = emit (outm r m) r /\ (if is_vote_family (m_type m) then m_term m <> 0 else m_term m = 0).
Proof.
  unfold send, outm, emit. set (m1 := if m_from m =? 0 then set_m_from (r_id r) m else m).
  assert (Ht : m_type m1 = m_type m) by (unfold m1; destruct (m_from m =? 0); auto).
  assert (Hm : m_term m1 = m_term m) by (unfold m1; destruct (m_from m =? 0); auto).
  clearbody m1. rewrite Ht, Hm. destruct (is_vote_family (m_type m)).
  - destruct (N.eqb_spec (m_term m) 0); [discriminate|]. intros H; inv H. auto.
  - destruct (N.eqb_spec (m_term m) 0); [|discriminate]. cbn [negb]. intros H; inv H. split; auto.
Qed.

Definition mk_resp (t : mtype) (to id term lt i : N) (rej : bool) (hint : N) (ctx : string) : msg :=
  mkMsg t to id term lt i [] 0 empty_snapshot rej hint ctx.

(** Messages that establish nothing. *)
Inductive misc (im : msg) (r : raft) : msg -> Prop :=
| MiVoteRej to : r_term r <> 0 -> misc im r (mk_resp MsgVoteResp to (r_id r) (r_term r) 0 0 true 0 EmptyString)
| MiPreVoteRej to : r_term r <> 0 -> misc im r (mk_resp MsgPreVoteResp to (r_id r) (r_term r) 0 0 true 0 EmptyString)
| MiPreVoteOk : m_type im = MsgPreVote -> m_term im <> 0 ->
    log_is_up_to_date (m_index im) (m_logterm im) (r_log r) = Ok true ->
    misc im r (mk_resp MsgPreVoteResp (m_from im) (r_id r) (m_term im) 0 0 false 0 EmptyString)
| MiPreVote to lt : r_state r = RPreCandidate -> log_last_term (r_log r) = Ok lt ->
    misc im r (mk_resp MsgPreVote to (r_id r) (r_term r + 1) lt (r_last r) false 0 EmptyString)
| MiHbResp to ctx : m_type im = MsgHeartbeat -> m_term im = r_term r ->
    misc im r (mk_resp MsgHeartbeatResp to (r_id r) (r_term r) 0 0 false 0 ctx)
| MiAppRej to lt i h : m_type im = MsgApp -> m_term im = r_term r ->
    misc im r (mk_resp MsgAppResp to (r_id r) (r_term r) lt i true h EmptyString)
| MiAppZero to : r_term r <> 0 -> misc im r (mk_resp MsgAppResp to (r_id r) (r_term r) 0 0 false 0 EmptyString)
| MiFwd : r_state r = RFollower -> r_lead r <> 0 -> m_term im = 0 ->
    (m_type im = MsgProp \/ m_type im = MsgReadIndex \/ m_type im = MsgTransferLeader) ->
    misc im r (outm r (set_m_to (r_lead r) im)).

Definition my_resp (s : role) : mtype := match s with RPreCandidate => MsgPreVoteResp | _ => MsgVoteResp end.
Definition app_resp (im : msg) (i : N) (r : raft) : msg :=
  mk_resp MsgAppResp (m_from im) (r_id r) (r_term r) 0 i false 0 EmptyString.

Inductive prim (im : msg) (r : raft) : raft -> Prop :=
| PKeep r' : keep r r' -> prim im r r'
| PSends r' : r_state r = RLeader -> sends r r' -> prim im r r'
| PMisc m : misc im r m -> prim im r (emit m r)
| PFollow t l : (t = r_term r \/ (r_term r < t /\ t = m_term im)) -> (l = 0 \/ t <> 0) ->
    prim im r (become_follower t l r)
| PCand r' : become_candidate r = Ok r' -> (promotable r = true \/ r_state r = RPreCandidate) -> prim im r r'
| PPre r' : become_pre_candidate r = Ok r' -> promotable r = true -> prim im r r'
| PPollSelf : (r_state r = RPreCandidate \/ (r_state r = RCandidate /\ r_vote r = r_id r)) ->
    prim im r (fst (poll (r_id r) true r))
| PPollMsg : (r_state r = RPreCandidate /\ m_type im = MsgPreVoteResp \/
              r_state r = RCandidate /\ m_type im = MsgVoteResp /\ m_term im = r_term r) ->
    prim im r (fst (poll (m_from im) (negb (m_reject im)) r))
| PVoteReq to lt ctx : r_state r = RCandidate -> log_last_term (r_log r) = Ok lt -> r_term r <> 0 ->
    prim im r (emit (mkMsg MsgVote to (r_id r) (r_term r) lt (r_last r) [] 0 empty_snapshot false 0 ctx) r)
| PGrant : m_type im = MsgVote -> m_term im = r_term r -> r_term r <> 0 ->
    (r_vote r = m_from im \/ r_vote r = 0 /\ r_lead r = 0) ->
    log_is_up_to_date (m_index im) (m_logterm im) (r_log r) = Ok true ->
    prim im r (set_r_vote (m_from im) (set_r_el_elapsed 0
      (emit (mk_resp MsgVoteResp (m_from im) (r_id r) (m_term im) 0 0 false 0 EmptyString) r)))
| PLead r' : r_state r = RCandidate -> tc_vote_result (t_config (r_trk r)) (t_votes (r_trk r)) = VoteWon ->
    become_leader r = Ok r' -> prim im r r'
| PProp es r1 r' : r_state r = RLeader -> m_type im = MsgProp -> m_entries im <> [] ->
    filter_prop 0 (m_entries im) r = Ok (es, r1) ->
    (append_entry es r1 = Ok (Some r') \/ append_entry es r1 = Ok None /\ r' = r1) ->
    prim im r r'
| PAck p p' : r_state r = RLeader -> m_type im = MsgAppResp -> m_reject im = false -> m_term im = r_term r ->
    trk_get (m_from im) (r_trk r) = Some p -> p_match p < m_index im -> p_match p' = m_index im ->
    p_learner p' = p_learner p -> i_size (p_infl p') = i_size (p_infl p) -> (infl_ok p -> infl_ok p') ->
    (forall B, m_index im <= B -> nx B p -> nx B p') ->
    prim im r (put_progress (m_from im) p' r)
| PCommit r' b : r_state r = RLeader -> raft_maybe_commit r = Ok (r', b) -> prim im r r'
| PComAck : (m_type im = MsgApp /\ m_index im < l_committed (r_log r) \/
             m_type im = MsgSnap) -> m_term im = r_term r -> r_state r = RFollower ->
    prim im r (emit (app_resp im (l_committed (r_log r)) r) r)
| PAppOk l last : m_type im = MsgApp -> m_term im = r_term r -> r_state r = RFollower ->
    l_committed (r_log r) <= m_index im ->
    log_maybe_append (m_index im) (m_logterm im) (m_commit im) (m_entries im) (r_log r) = Ok (l, Some last) ->
    prim im r (emit (app_resp im last r) (set_r_log l r))
| PBeat l : m_type im = MsgHeartbeat -> m_term im = r_term r -> r_state r = RFollower ->
    log_commit_to (m_commit im) (r_log r) = Ok l -> prim im r (set_r_log l r)
| PSnapFast l : m_type im = MsgSnap -> m_term im = r_term r -> r_state r = RFollower ->
    l_committed (r_log r) < sn_index (m_snap im) ->
    log_match_term (sn_index (m_snap im)) (sn_term (m_snap im)) (r_log r) = Ok true ->
    log_commit_to (sn_index (m_snap im)) (r_log r) = Ok l ->
    prim im r (emit (app_resp im (l_committed l) r) (set_r_log l r))
| PSnapInstall r1 : m_type im = MsgSnap -> m_term im = r_term r -> r_state r = RFollower ->
    raft_restore (m_snap im) r = Ok (r1, true) ->
    prim im r (emit (app_resp im (r_last r1) r1) r1).

Inductive prims (im : msg) : raft -> raft -> Prop :=
| PsNil r : prims im r r
| PsCons a b c : prim im a b -> prims im b c -> prims im a c.
Lemma prims_one im a b : prim im a b -> prims im a b.
Proof. intros; econstructor; [eauto|constructor]. Qed.
Lemma prims_trans im a b c : prims im a b -> prims im b c -> prims im a c.
Proof. induction 1; auto. intros. econstructor; eauto. Qed.
Lemma prims_snoc im a b c : prims im a b -> prim im b c -> prims im a c.
Proof. intros; eapply prims_trans; eauto using prims_one. Qed.

(** An invariant preserved by every primitive. *)
Lemma prims_ind_inv im (P : raft -> Prop) :
  (forall a b, P a -> prim im a b -> P b) -> forall a b, prims im a b -> P a -> P b.
Proof. intros H a b Hp. induction Hp; eauto. Qed.
Lemma prims_ind_rel im (P : raft -> raft -> Prop) :
  (forall a, P a a) -> (forall a b c, P a b -> P b c -> P a c) ->
  (forall a b, prim im a b -> P a b) -> forall a b, prims im a b -> P a b.
Proof. intros H1 H2 H3 a b Hp. induction Hp; eauto. Qed.

(* ---- building blocks ---- *)
Lemma pr_keep_refl p : pr_keep p p. Proof. unfold pr_keep; auto. Qed.
Lemma prs_keep_refl r : prs_keep r r.
Proof. split; auto. intros id; destruct (mget id _); auto using pr_keep_refl. Qed.
Lemma keep_refl r : keep r r. Proof. constructor; auto using prs_keep_refl. Qed.
Lemma keep_put r id p p' : trk_get id (r_trk r) = Some p -> pr_keep p p' -> keep r (put_progress id p' r).
Proof.
  intros Hg Hp. constructor; auto. split; [cbn; apply msorted_mset|]. intros j. cbn. rewrite mget_mset.
  destruct (N.eqb_spec j id) as [->|]; [unfold trk_get in Hg; rewrite Hg; auto|].
  destruct (mget j _); auto using pr_keep_refl.
Qed.
Ltac kp := constructor; try reflexivity; try (left; reflexivity); try (right; assumption); split; [cbn; auto|intros id; cbn; destruct (mget id _); auto using pr_keep_refl].
Lemma sends_prims im r r' : r_state r = RLeader -> sends r r' -> prims im r r'.
Proof. intros; apply prims_one, PSends; auto. Qed.
Lemma sends_state r r' : sends r r' -> r_state r' = r_state r.
Proof. intros [[] _ _ _]; auto. Qed.

Definition local_type (t : mtype) : bool :=
  match t with
  | MsgHup | MsgBeat | MsgProp | MsgUnreachable | MsgSnapStatus | MsgCheckQuorum | MsgTransferLeader
  | MsgReadIndex => true
  | _ => false
  end.
(** Peer messages carry a term; the messages RawNode makes for local calls may not. *)
Definition wf_in (m : msg) : Prop := m_term m = 0 -> local_type (m_type m) = true.
(** What holds when Step gets past the term check. *)
Definition disp_ok (m : msg) (r : raft) : Prop := wf_in m /\
  (m_term m = r_term r \/ (m_term m = 0 /\ local_type (m_type m) = true) \/
  (r_term r < m_term m /\ (m_type m = MsgPreVote \/ (m_type m = MsgPreVoteResp /\ m_reject m = false)))).

Lemma pr_maybe_update_spec n p p' b : pr_maybe_update n p = (p', b) ->
  p_match p' = N.max (p_match p) n /\ p_learner p' = p_learner p /\ p_infl p' = p_infl p /\ p_state p' = p_state p /\
  p_active p' = p_active p /\ (b = true <-> p_match p < n) /\ (b = false -> p_match p' = p_match p) /\
  p_next p' = N.max (p_next p) (n + 1) /\ p_pending p' = p_pending p.
Proof.
  unfold pr_maybe_update. destruct (N.ltb_spec (p_match p) n); intros H1; inv H1; cbn; repeat split; auto; try discriminate; lia.
Qed.

(* ---- handlers ---- *)
Lemma raft_maybe_commit_state r r' b : raft_maybe_commit r = Ok (r', b) ->
  exists l, r' = set_r_log l r.
Proof. unfold raft_maybe_commit. intros H. mon. destruct x0. mon. eauto. Qed.

Lemma append_entry_inv es r o : append_entry es r = Ok o ->
  let es' := stamp (r_term r) (r_last r + 1) es in
  let over := (0 <? r_uncommitted r) && (0 <? payloads_size es') &&
              (k_max_uncommitted (r_cfg r) <? r_uncommitted r + payloads_size es') in
  match o with
  | None => over = true
  | Some r' => over = false /\ exists l0 li pr pr' u b,
      log_append es' (r_log r) = Ok (l0, li) /\ trk_get (r_id r) (r_trk r) = Some pr /\
      pr_maybe_update li pr = (pr', u) /\
      raft_maybe_commit (put_progress (r_id r) pr'
        (set_r_log l0 (set_r_uncommitted (r_uncommitted r + payloads_size es') r))) = Ok (r', b)
  end.
Proof.
  unfold append_entry, increase_uncommitted. intros H. cbv zeta.
  destruct (_ && _ && _); [inv H; auto|]. mon. destruct x as [l0 li]. cbn in H.
  change (trk_get (r_id (set_r_log l0 (set_r_uncommitted (r_uncommitted r + payloads_size (stamp (r_term r) (r_last r + 1) es)) r))) (r_trk r))
    with (trk_get (r_id r) (r_trk r)) in H.
  destruct (trk_get (r_id r) (r_trk r)) as [pr|] eqn:Hg; [|discriminate].
  destruct (pr_maybe_update li pr) as [pr' u] eqn:Hu. mon. destruct x as [r3 b]. mon. split; auto.
  exists l0, li, pr, pr', u, b. auto.
Qed.
Lemma append_entry_fields es r r' : append_entry es r = Ok (Some r') ->
  exists l p u, r' = set_r_log l (put_progress (r_id r) p (set_r_uncommitted u r)).
Proof.
  intros H. apply append_entry_inv in H. destruct H as (_ & l0 & li & pr & pr' & u & b & H1 & H2 & H3 & H4).
  apply raft_maybe_commit_state in H4. destruct H4 as [l ->]. do 3 eexists. reflexivity.
Qed.
Lemma reduce_uncommitted_fields es r : exists u, reduce_uncommitted es r = set_r_uncommitted u r.
Proof.
  unfold reduce_uncommitted. destruct (_ =? _); [exists (r_uncommitted r); destruct r; auto|].
  destruct (_ <? _); eauto.
Qed.
Lemma become_leader_state r r' : become_leader r = Ok r' -> r_state r' = RLeader.
Proof.
  unfold become_leader, become_leader_reset. destruct (role_eqb (r_state r) RFollower); [discriminate|].
  destruct (trk_get _ _) as [pr|]; [|discriminate]. intros H. mon. destruct x as [r1|]; [|discriminate]. inv H.
  apply append_entry_fields in Hm. destruct Hm as (l & p & u & ->).
  match goal with |- r_state (reduce_uncommitted ?a ?b) = _ =>
    destruct (reduce_uncommitted_fields a b) as [u' ->] end. reflexivity.
Qed.

Lemma poll_state id v r : r_state (fst (poll id v r)) = r_state r. Proof. reflexivity. Qed.
Lemma poll_res id v r : snd (poll id v r) =
  tc_vote_result (t_config (r_trk (fst (poll id v r)))) (t_votes (r_trk (fst (poll id v r)))).
Proof. reflexivity. Qed.

Lemma become_candidate_fields r r' : become_candidate r = Ok r' ->
  r_state r' = RCandidate /\ r_vote r' = r_id r' /\ r_id r' = r_id r /\ r_term r' = r_term r + 1 /\ r_log r' = r_log r.
Proof.
  unfold become_candidate. destruct (is_leader r); [discriminate|]. intros H; inv H. cbn.
  unfold reset. cbn. destruct (N.eqb_spec (r_term r) (r_term r + 1)); [lia|]. cbn. auto.
Qed.

Lemma campaign_real_prims im tr r r' : (promotable r = true \/ r_state r = RPreCandidate) ->
  campaign_real tr r = Ok r' -> prims im r r'.
Proof.
  intros Hpm H. unfold campaign_real in H. mon. rename x into r1.
  pose proof (become_candidate_fields _ _ Hm) as (F1 & F2 & F3 & F4 & F5).
  eapply PsCons; [eapply PCand; eauto|].
  pose proof (poll_res (r_id r1) true r1) as Hres.
  pose proof (PPollSelf im r1 (or_intror (conj F1 F2))) as Hpoll.
  pose proof (poll_state (r_id r1) true r1) as Hst.
  assert (Ht2 : r_term (fst (poll (r_id r1) true r1)) = r_term r1) by reflexivity.
  destruct (poll (r_id r1) true r1) as [r2 v]. cbn [fst snd] in *.
  eapply PsCons; [exact Hpoll|].
  assert (Hgen : forall l s s', mfold (send_vote_req MsgVote (r_term r2) tr) l s = Ok s' ->
     r_state s = RCandidate -> r_term s = r_term r2 -> prims im s s').
  { induction l as [|to l IH]; intros s s' Hf Hs Ht; cbn in Hf; mon; [constructor|].
    unfold send_vote_req in Hm0. mon. apply send_ok in Hm0. destruct Hm0 as [-> Hz].
    eapply PsCons; [|eapply IH; [exact Hf|exact Hs|exact Ht]].
    assert (Hnz : r_term s <> 0) by (rewrite Ht; destruct tr; exact Hz).
    destruct tr; unfold outm; cbn; rewrite <- Ht; apply PVoteReq; auto. }
  destruct v.
  - eapply Hgen; eauto; congruence.
  - eapply Hgen; eauto; congruence.
  - apply prims_one, PLead; auto; congruence.
Qed.
Lemma campaign_prims im t r r' : (promotable r = true \/ r_state r = RPreCandidate /\ t <> CPreElection) -> campaign t r = Ok r' -> prims im r r'.
Proof.
  intros Hpm H. assert (Hpm' : promotable r = true \/ r_state r = RPreCandidate) by tauto. destruct t; unfold campaign in H; try (eapply campaign_real_prims; eauto; fail).
  mon. rename x into r1.
  destruct Hpm as [Hpm|[_ Hpm]]; [|congruence].
  eapply PsCons; [eapply PPre; eauto|].
  assert (F : r_state r1 = RPreCandidate /\ r_trk r1 = trk_reset_votes (r_trk r) /\ r_log r1 = r_log r /\ r_id r1 = r_id r).
  { unfold become_pre_candidate in Hm. destruct (is_leader r); [discriminate|]. inv Hm. auto. }
  destruct F as (F1 & F2 & F3 & F4).
  pose proof (PPollSelf im r1 (or_introl F1)) as Hpoll.
  pose proof (poll_state (r_id r1) true r1) as Hst.
  assert (Ht2 : r_term (fst (poll (r_id r1) true r1)) = r_term r1) by reflexivity.
  destruct (poll (r_id r1) true r1) as [r2 v]. cbn [fst snd] in *.
  eapply PsCons; [exact Hpoll|].
  assert (Hgen : forall l s s', mfold (send_vote_req MsgPreVote (r_term r1 + 1) false) l s = Ok s' ->
     r_state s = RPreCandidate -> r_term s = r_term r1 -> prims im s s').
  { induction l as [|to l IH]; intros s s' Hf Hs Ht; cbn in Hf; mon; [constructor|].
    unfold send_vote_req in Hm0. mon. apply send_ok in Hm0; destruct Hm0 as [-> Hz]; cbn in Hz.
    eapply PsCons; [|apply IH; eauto]. unfold outm; cbn. rewrite <- Ht. apply PMisc. apply MiPreVote; auto. }
  destruct v.
  - eapply Hgen; eauto; congruence.
  - eapply Hgen; eauto; congruence.
  - eapply campaign_real_prims; [|eauto]. right. congruence.
Qed.
Lemma hup_prims im t r r' : hup t r = Ok r' -> prims im r r'.
Proof.
  unfold hup. destruct (is_leader r); [intros H; inv H; constructor|].
  destruct (promotable r) eqn:Hp; cbn [negb]; [|intros H; inv H; constructor].
  intros H. mon. destruct x; [|discriminate]. destruct (_ && _); [inv H; constructor|]. eapply campaign_prims; eauto.
Qed.

Lemma step_vote_prims m r r' : disp_ok m r -> m_type m = MsgVote \/ m_type m = MsgPreVote ->
  step_vote m r = Ok r' -> prims m r r'.
Proof.
  intros Hd Ht H. unfold step_vote in H. mon. rename x into up, x0 into rt.
  assert (Hrt : rt = match m_type m with MsgVote => MsgVoteResp | _ => MsgPreVoteResp end).
  { unfold vote_resp_type in Hm0. destruct (m_type m); try discriminate; inv Hm0; auto. }
  destruct up.
  - mon. assert (Hup : log_is_up_to_date (m_index m) (m_logterm m) (r_log r) = Ok true /\
       ((r_vote r =? m_from m) || ((r_vote r =? 0) && (r_lead r =? 0)) || (mtype_eqb (m_type m) MsgPreVote && (r_term r <? m_term m))) = true).
    { match goal with H : (if ?b then _ else _) = _ |- _ => destruct b eqn:Hb; [auto|discriminate] end. }
    destruct Hup as [Hup Hcv]. apply send_ok in Hm1. destruct Hm1 as [-> Hz]. subst rt.
    destruct Ht as [Ht|Ht]; rewrite Ht in *; cbn in Hz, H.
    + inv H. apply prims_one.
      change (MsgVoteResp) with MsgVoteResp. unfold outm; cbn [m_from set_m_term set_m_to new_msg m_type].
      change (0 =? 0) with true. cbv iota. cbn [is_vote_family set_m_from m_type].
      assert (Hmt : m_term m = r_term r).
      { destruct Hd as [_ [?|[[? ?]|[? [?|[? ?]]]]]]; try congruence. }
      unfold emit. cbn. apply PGrant; auto; try congruence. cbn in Hcv.
      change (mtype_eqb MsgVote MsgPreVote) with false in Hcv. cbn in Hcv. lia.
    + inv H. apply prims_one, PMisc. unfold outm; cbn. apply MiPreVoteOk; auto.
  - apply send_ok in H. destruct H as [-> Hz]. subst rt.
    destruct Ht as [Ht|Ht]; rewrite Ht in *; cbn in Hz; apply prims_one, PMisc; unfold outm; cbn.
    + apply MiVoteRej; auto.
    + apply MiPreVoteRej; auto.
Qed.

Lemma pr_keep_decr a b p : pr_keep p (fst (pr_maybe_decr_to a b p)).
Proof.
  unfold pr_maybe_decr_to. destruct (p_state p);
    repeat match goal with |- context[if ?c then _ else _] => destruct c eqn:? end; cbn; unfold pr_keep, nx; cbn;
    (repeat match goal with |- _ /\ _ => split end); auto; intros B (N1 & (N2 & N2') & N3); repeat split; auto; try lia;
    match goal with H : negb (wsub (p_next p) 1 =? a) = false |- _ => apply negb_false_iff, N.eqb_eq in H; unfold wsub in H;
      destruct (N.leb_spec 1 (p_next p)); lia end.
Qed.
Lemma pr_keep_trans a b c : pr_keep a b -> pr_keep b c -> pr_keep a c.
Proof.
  unfold pr_keep. intros (A1&A2&A3&A4&A5) (B1&B2&B3&B4&B5). (repeat match goal with |- _ /\ _ => split end); try congruence; auto.
Qed.
Ltac pk := unfold pr_keep, nx; cbn; (repeat match goal with |- _ /\ _ => split end); auto;
  try (intros B (N1 & (N2 & N2') & N3); repeat split; auto; lia).
Lemma pr_keep_active b p : pr_keep p (set_p_active b p).
Proof. pk. Qed.
Lemma pr_keep_probe_sent b p : pr_keep p (set_p_probe_sent b p).
Proof. pk. Qed.
Lemma pr_keep_pending p : pr_keep p (set_p_pending 0 p).
Proof. pk. Qed.
Lemma pr_keep_probe p : pr_keep p (pr_become_probe p).
Proof.
  unfold pr_become_probe. destruct (p_state p); pk; intros H; apply (infl_reset (p_infl p)); exact H.
Qed.
Lemma pr_keep_replicate p : pr_keep p (pr_become_replicate p).
Proof. pk; intros H; apply (infl_reset (p_infl p)); exact H. Qed.
Lemma infl_free_le to x y : inf_free_le to x = Ok y -> i_size y = i_size x /\
  ((iwf x /\ exists q, holds x q) -> iwf y /\ exists q, holds y q).
Proof.
  intros H. split.
  - unfold inf_free_le in H. destruct (i_count x =? 0); [inv H; auto|].
    destruct (nnth _ _); [|discriminate]. destruct (to <? n); [inv H; auto|]. mon. destruct x0. inv H. auto.
  - intros [H1 [q H2]]. destruct (free_le_ok to x q H1 H2) as (y' & E1 & E2 & E3 & _).
    rewrite E1 in H. inv H. eauto.
Qed.
Lemma ack_progress_keep i p p' : ack_progress i p = Ok p' -> pr_keep p p'.
Proof.
  unfold ack_progress. destruct (p_state p).
  - intros H; inv H. apply pr_keep_replicate.
  - intros H. mon. apply infl_free_le in Hm. destruct Hm as [A1 A2]. unfold pr_keep; cbn. auto.
  - destruct (_ <=? _); intros H; inv H; [|apply pr_keep_refl].
    eapply pr_keep_trans; [apply pr_keep_probe|apply pr_keep_replicate].
Qed.

Lemma leader_app_resp_prims m pr r r' : r_state r = RLeader -> m_type m = MsgAppResp -> disp_ok m r ->
  trk_get (m_from m) (r_trk r) = Some pr ->
  leader_app_resp m pr r = Ok r' -> prims m r r'.
Proof.
  intros Hl Ht Hd Hg. unfold leader_app_resp.
  assert (Hmt : m_term m = r_term r).
  { destruct Hd as [_ [?|[[? Hx]|[? [?|[? ?]]]]]]; try congruence. rewrite Ht in Hx; discriminate. }
  destruct (m_reject m) eqn:Hrej.
  - unfold leader_app_resp_reject. intros H. mon.
    pose proof (pr_keep_decr (m_index m) x (set_p_active true pr)) as Hk.
    destruct (pr_maybe_decr_to (m_index m) x (set_p_active true pr)) as [pr1 ok]. cbn [fst] in Hk.
    assert (Hk1 : pr_keep pr pr1) by (eapply pr_keep_trans; [apply pr_keep_active|exact Hk]).
    destruct ok.
    + set (pr2 := if pstate_eqb (p_state pr1) StReplicate then pr_become_probe pr1 else pr1) in *.
      assert (Hk2 : pr_keep pr pr2).
      { unfold pr2. destruct (pstate_eqb _ _); auto. eapply pr_keep_trans; [exact Hk1|apply pr_keep_probe]. }
      eapply PsCons; [apply PKeep; eapply keep_put; eauto|].
      apply sends_prims; auto. eapply send_append_sends; eauto.
    + inv H. apply prims_one, PKeep. eapply keep_put; eauto.
  - unfold leader_app_resp_accept.
    destruct (pr_maybe_update (m_index m) (set_p_active true pr)) as [pr1 upd] eqn:Hu.
    apply pr_maybe_update_spec in Hu. cbn in Hu. destruct Hu as (U1 & U2 & U3 & U4 & U5 & U6 & U7 & U8 & U9).
    destruct upd; intros H.
    + mon. rename x into pr2. destruct x0 as [r2 cm]. mon. rename x into r3, x0 into r4.
      assert (Hlt : p_match pr < m_index m) by (apply U6; auto).
      pose proof (ack_progress_keep _ _ _ Hm) as (K1 & K2 & K3 & K4 & K5).
      eapply PsCons; [apply (PAck m r pr pr2); auto; try congruence; try lia|].
      { intros X. apply K4. unfold infl_ok in *. rewrite U3. exact X. }
      { intros B HB (N1 & (N2 & N4) & N3). apply K5. unfold nx. rewrite U1, U8, U9. lia. }
      pose proof (raft_maybe_commit_state _ _ _ Hm0) as [l El].
      eapply PsCons; [eapply PCommit; [|exact Hm0]; auto|].
      assert (S2 : r_state r2 = RLeader) by (rewrite El; auto).
      assert (Hs3 : sends r2 r3).
      { destruct cm; [|destruct (pr_is_paused (set_p_active true pr))].
        - mon. eapply sends_trans; [eapply release_pending_reads_sends; eauto|eapply bcast_append_sends; eauto].
        - eapply send_append_sends; eauto.
        - inv Hm1. apply sends_refl. }
      pose proof (send_all_sends _ _ _ _ Hm2) as Hs4.
      assert (Hs5 : sends r2 r4) by (eapply sends_trans; eauto).
      destruct ((m_from m =? r_transferee r4) && (p_match pr1 =? r_last r4)) eqn:Htr.
      * apply sends_prims; auto. eapply sends_trans; [exact Hs5|].
        assert (Hg2 : trk_get (m_from m) (r_trk r2) = Some pr2).
        { rewrite El. unfold trk_get; cbn. apply mget_mset_same. }
        destruct (prs_same_get _ _ _ _ (sd_prs _ _ Hs5) Hg2) as (p4 & G4 & (M4 & _)).
        eapply send_timeout_now_sends; [|exact G4| |exact H]; lia.
      * inv H. apply sends_prims; auto.
    + inv H. apply prims_one, PKeep. eapply keep_put; eauto.
      assert (Hle : m_index m <= p_match pr) by (destruct (N.le_gt_cases (m_index m) (p_match pr)) as [|X]; auto; apply U6 in X; discriminate).
      unfold pr_keep, infl_ok. rewrite U3. specialize (U7 eq_refl). cbn in *.
      (repeat match goal with |- _ /\ _ => split end); auto.
      unfold nx. intros B (N1 & (N2 & N4) & N3). rewrite U1, U8, U9. lia.
Qed.

Lemma leader_heartbeat_resp_prims m pr r r' : r_state r = RLeader ->
  trk_get (m_from m) (r_trk r) = Some pr ->
  leader_heartbeat_resp m pr r = Ok r' -> prims m r r'.
Proof.
  intros Hl Hg. unfold leader_heartbeat_resp. intros H. mon. rename x into pr1, x0 into r2.
  assert (Hk : pr_keep pr pr1).
  { destruct (_ && _) in Hm; mon.
    - assert (X : exists b, inf_free_le b (p_infl pr) = Ok x).
      { unfold inf_free_first_one in Hm1. cbn [p_infl set_p_probe_sent set_p_active] in Hm1.
        destruct (nnth (i_buf (p_infl pr)) (i_start (p_infl pr))); [eauto|discriminate]. }
      destruct X as [b X]. apply infl_free_le in X. destruct X. unfold pr_keep; cbn; auto.
    - unfold pr_keep; cbn; auto. }
  eapply PsCons; [apply PKeep; eapply keep_put; eauto|].
  assert (Hs : sends (put_progress (m_from m) pr1 r) r2).
  { destruct (_ <? _); [eapply send_append_sends; eauto|inv Hm0; apply sends_refl]. }
  apply sends_prims; auto. eapply sends_trans; [exact Hs|]. clear Hs Hm0.
  destruct (_ || _); [inv H; apply sends_refl|].
  pose proof (ro_ack_opt (m_from m) (m_ctx m) (r_ro r2)) as Ha.
  destruct (ro_recv_ack (m_from m) (m_ctx m) (r_ro r2)) as [ro acks]. cbn in Ha.
  eapply sends_trans; [apply (sends_ro ro); auto|].
  destruct (tc_vote_result _ acks); [inv H; apply sends_refl|inv H; apply sends_refl|].
  mon. destruct x as [ro' rss]. pose proof (ro_advance_opt _ _ _ _ Hm0) as Hb.
  eapply sends_trans; [apply (sends_ro ro'); auto|].
  eapply (mfold_inv _ sends); [apply sends_refl|apply sends_trans| |exact H].
  intros a s s0 _ Hr. cbv beta in Hr. eapply response_to_read_index_sends; exact Hr.
Qed.

Lemma leader_check_quorum_prims m r : prims m r (leader_check_quorum r).
Proof.
  unfold leader_check_quorum.
  set (r1 := match trk_get (r_id r) (r_trk r) with Some pr => put_progress (r_id r) (set_p_active true pr) r | None => r end).
  assert (H1 : keep r r1).
  { unfold r1. destruct (trk_get (r_id r) (r_trk r)) eqn:Hg; [|apply keep_refl].
    eapply keep_put; eauto using pr_keep_active. }
  clearbody r1. eapply PsCons; [apply PKeep; exact H1|].
  assert (Hd : forall s, keep s (set_r_trk (set_t_progress (mmap (fun id pr => if id =? r_id s then pr else set_p_active false pr)
                  (t_progress (r_trk s))) (r_trk s)) s)).
  { intros s. constructor; try reflexivity; try (left; reflexivity). split.
    - cbn. unfold msorted. rewrite keys_mmap. auto.
    - intros id. cbn. rewrite mget_mmap. destruct (mget id _); cbn; auto.
      destruct (id =? r_id s); auto using pr_keep_refl, pr_keep_active. }
  destruct (trk_quorum_active (r_trk r1)).
  - apply prims_one, PKeep, Hd.
  - eapply PsCons; [apply PFollow; auto|]. apply prims_one, PKeep, Hd.
Qed.

Lemma step_leader_prims m r r' e : r_state r = RLeader -> disp_ok m r ->
  step_leader m r = Ok (r', e) -> prims m r r'.
Proof.
  intros Hl Hd. unfold step_leader.
  assert (Hrest : match trk_get (m_from m) (r_trk r) with
      | None => Ok (r, None)
      | Some pr =>
          match m_type m with
          | MsgAppResp => okr (leader_app_resp m pr r)
          | MsgHeartbeatResp => okr (leader_heartbeat_resp m pr r)
          | MsgSnapStatus => Ok (leader_snap_status m pr r, None)
          | MsgUnreachable => Ok (leader_unreachable m pr r, None)
          | MsgTransferLeader => okr (leader_transfer m pr r)
          | _ => Ok (r, None)
          end
      end = Ok (r', e) -> prims m r r').
  { destruct (trk_get (m_from m) (r_trk r)) as [pr|] eqn:Hg; [|intros H; inv H; constructor].
    destruct (m_type m) eqn:Ht; try (intros H; inv H; constructor; fail); unfold okr; intros H; mon.
    - eapply leader_app_resp_prims; eauto.
    - eapply leader_heartbeat_resp_prims; eauto.
    - unfold leader_unreachable. destruct (pstate_eqb _ _); [|constructor].
      apply prims_one, PKeep. eapply keep_put; eauto using pr_keep_probe.
    - unfold leader_snap_status. destruct (p_state pr); try constructor.
      apply prims_one, PKeep. eapply keep_put; eauto.
      eapply pr_keep_trans; [|apply pr_keep_probe_sent]. destruct (m_reject m); [|apply pr_keep_probe].
      eapply pr_keep_trans; [|apply pr_keep_probe]. apply pr_keep_pending.
    - unfold leader_transfer in Hm. destruct (p_learner pr); [inv Hm; constructor|].
      destruct (_ && _); [inv Hm; constructor|].
      set (r1 := if negb (r_transferee r =? 0) then set_r_transferee 0 r else r) in *.
      assert (K1 : keep r r1) by (unfold r1; destruct (negb _); [kp|apply keep_refl]).
      assert (Hg1 : r_trk r1 = r_trk r) by (unfold r1; destruct (negb _); auto).
      assert (Hl1 : r_state r1 = RLeader) by (unfold r1; destruct (negb _); auto).
      clearbody r1.
      destruct (m_from m =? r_id r1); [inv Hm; apply prims_one, PKeep; auto|].
      eapply PsCons; [apply PKeep; exact K1|].
      eapply PsCons; [apply (PKeep m r1 (set_r_transferee (m_from m) (set_r_el_elapsed 0 r1))); kp|].
      apply sends_prims; [exact Hl1|].
      destruct (N.eqb_spec (p_match pr) (r_last (set_r_transferee (m_from m) (set_r_el_elapsed 0 r1)))) as [Heq|].
      + eapply send_timeout_now_sends; [|  |exact Heq|exact Hm]; auto. cbn. rewrite Hg1. exact Hg.
      + eapply send_append_sends; eauto. }
  destruct (m_type m) eqn:Ht; try exact Hrest; clear Hrest; unfold okr; intros H; mon.
  - apply sends_prims; auto. eapply bcast_heartbeat_ctx_sends; eauto.
  - unfold leader_prop in H. destruct (m_entries m) eqn:He; [discriminate|]. cbn [is_nil] in H. rewrite <- He in *.
    destruct (trk_get (r_id r) (r_trk r)); [|inv H; constructor].
    destruct (negb _); [inv H; constructor|]. mon. destruct x as [es r1]. mon. rename x into o.
    destruct o as [r2|].
    + unfold okr in H. mon. eapply PsCons; [eapply (PProp m r es r1 r2); eauto; congruence|].
      apply sends_prims; [|eapply bcast_append_sends; eauto].
      assert (Hr1 : forall es i r es' r', filter_prop i es r = Ok (es', r') -> r_state r' = r_state r).
      { clear. induction es as [|e es IH]; intros i r es' r' H; cbn in H; mon; auto.
        destruct x as [cc|]; [destruct (cc_refused cc (r_pending_conf r) r)|]; mon; destruct x; mon;
        match goal with H : filter_prop _ _ _ = _ |- _ => apply IH in H; rewrite H; auto end. }
      apply Hr1 in Hm. apply append_entry_fields in Hm0. destruct Hm0 as (l1 & p1 & u1 & ->). cbn. congruence.
    + inv H. apply prims_one. eapply (PProp m r es r' r'); eauto. congruence.
  - apply leader_check_quorum_prims.
  - unfold leader_read_index in Hm. destruct (trk_is_singleton (r_trk r)).
    + apply sends_prims; auto. eapply response_to_read_index_sends; eauto.
    + mon. destruct x.
      * apply sends_prims; auto. eapply send_read_index_response_sends; eauto.
      * inv Hm. apply prims_one, PKeep. kp.
Qed.

Lemma set_r_log_id r : set_r_log (r_log r) r = r. Proof. destruct r; reflexivity. Qed.

Lemma handle_append_prims m r r' : r_state r = RFollower -> m_type m = MsgApp -> m_term m = r_term r ->
  handle_append_entries m r = Ok r' -> prims m r r'.
Proof.
  intros Hf Ht Hd. unfold handle_append_entries.
  destruct (N.ltb_spec (m_index m) (l_committed (r_log r))); intros Hx.
  - apply send_ok in Hx. destruct Hx as [-> _]. apply prims_one. apply PComAck; auto.
  - mon. destruct x as [l o]. destruct o as [last|].
    + apply send_ok in Hx. destruct Hx as [-> _]. apply prims_one.
      apply (PAppOk m r l last); auto.
    + assert (l = r_log r).
      { unfold log_maybe_append in Hm. clear Hx. mon. match goal with H : (if ?b then _ else _) = _ |- _ => destruct b end; mon; auto. }
      subst l. rewrite set_r_log_id in Hx. mon. destruct x0; [|discriminate].
      apply send_ok in Hx. destruct Hx as [-> _]. apply prims_one, PMisc. unfold outm; cbn. apply MiAppRej; auto.
Qed.

Lemma handle_heartbeat_prims m r r' : r_state r = RFollower -> m_type m = MsgHeartbeat -> m_term m = r_term r ->
  handle_heartbeat m r = Ok r' -> prims m r r'.
Proof.
  intros Hf Ht Hd. unfold handle_heartbeat. intros Hx. mon.
  eapply PsCons; [eapply PBeat; eauto|].
  apply send_ok in Hx. destruct Hx as [-> _]. apply prims_one, PMisc. unfold outm; cbn.
  apply (MiHbResp m (set_r_log x r)); auto.
Qed.

Lemma handle_snapshot_prims m r r' : r_state r = RFollower -> m_type m = MsgSnap -> m_term m = r_term r ->
  handle_snapshot m r = Ok r' -> prims m r r'.
Proof.
  intros Hf Ht Hd. unfold handle_snapshot. intros Hx. mon. destruct x as [r1 restored].
  apply send_ok in Hx. destruct Hx as [-> _].
  destruct restored.
  - apply prims_one. apply PSnapInstall; auto.
  - unfold raft_restore in Hm. destruct (N.leb_spec (sn_index (m_snap m)) (l_committed (r_log r))).
    { inv Hm. apply prims_one. apply (PComAck m r1); auto. }
    rewrite Hf in Hm. cbn [role_eqb negb] in Hm.
    destruct (negb _); [inv Hm; apply prims_one, (PComAck m r1); auto|]. mon. destruct x.
    + mon. apply prims_one. apply (PSnapFast m r x); auto.
    + destruct (cc_restore _ _) as [cp|]; [|discriminate]. mon. destruct x as [r2 cs2].
      destruct (negb _); [discriminate|]. destruct (trk_get _ _); [|discriminate].
      destruct (pr_maybe_update _ _). mon.
Qed.

Lemma step_candidate_prims m r r' e : (r_state r = RCandidate \/ r_state r = RPreCandidate) -> disp_ok m r ->
  step_candidate m r = Ok (r', e) -> prims m r r'.
Proof.
  intros Hs Hd. unfold step_candidate.
  assert (Hmt : match m_type m with MsgApp | MsgHeartbeat | MsgSnap | MsgVoteResp => m_term m = r_term r | _ => True end).
  { destruct (m_type m) eqn:Ht; auto; destruct Hd as [_ [?|[[? Hx]|[? [?|[? ?]]]]]]; auto; congruence || (rewrite Ht in Hx; discriminate Hx). }
  assert (Hnz : match m_type m with MsgApp | MsgHeartbeat | MsgSnap => m_term m <> 0 | _ => True end).
  { destruct (m_type m) eqn:Ht; auto; destruct Hd as [Hw _]; intros Hz; apply Hw in Hz; rewrite Ht in Hz; discriminate. }
  assert (Hbf : forall l, r_term (become_follower (m_term m) l r) = m_term m).
  { intros l. unfold become_follower, reset. cbn. destruct (N.eqb_spec (r_term r) (m_term m)); auto. }
  assert (Hdef : forall t0, t0 = m_type m -> t0 <> MsgProp -> t0 <> MsgApp -> t0 <> MsgHeartbeat -> t0 <> MsgSnap ->
     (if mtype_eqb t0 match r_state r with RPreCandidate => MsgPreVoteResp | _ => MsgVoteResp end then
        let '(r1, res_) := poll (m_from m) (negb (m_reject m)) r in
        match res_ with
        | VoteWon =>
            if role_eqb (r_state r1) RPreCandidate then okr (campaign CElection r1)
            else okr (r2 <- become_leader r1 ;; bcast_append r2)
        | VoteLost => Ok (become_follower (r_term r1) 0 r1, None)
        | VotePending => Ok (r1, None)
        end
      else Ok (r, None)) = Ok (r', e) -> prims m r r').
  { intros t0 -> _ _ _ _. destruct (mtype_eqb _ _) eqn:Hty; [|intros H; inv H; constructor].
    apply mtype_eqb_eq in Hty.
    assert (Hg : r_state r = RPreCandidate /\ m_type m = MsgPreVoteResp \/
              r_state r = RCandidate /\ m_type m = MsgVoteResp /\ m_term m = r_term r).
    { destruct Hs as [Hs|Hs]; rewrite Hs in Hty; [right|left]; rewrite Hty in Hmt; auto. }
    pose proof (PPollMsg m r Hg) as Hpoll.
    pose proof (poll_res (m_from m) (negb (m_reject m)) r) as Hres.
    pose proof (poll_state (m_from m) (negb (m_reject m)) r) as Hst.
    destruct (poll (m_from m) (negb (m_reject m)) r) as [r1 v]. cbn [fst snd] in *.
    intros H. eapply PsCons; [exact Hpoll|]. clear Hpoll.
    clear Hnz. destruct v; mon.
    - constructor.
    - apply prims_one, PFollow; auto.
    - rewrite Hst in H. destruct Hs as [Hs|Hs]; rewrite Hs in H; cbn in H; unfold okr in H; mon.
      + eapply PsCons; [eapply PLead; eauto; congruence|].
        apply sends_prims; [eapply become_leader_state; eauto|eapply bcast_append_sends; eauto].
      + eapply campaign_real_prims; [|eauto]. right. congruence. }
  destruct (m_type m) eqn:Ht; try (apply Hdef; (reflexivity || discriminate)); unfold okr; intros H; mon.
  - constructor.
  - eapply PsCons; [apply (PFollow m r (m_term m) (m_from m)); auto|]. apply handle_append_prims; auto; symmetry; apply Hbf.
  - eapply PsCons; [apply (PFollow m r (m_term m) (m_from m)); auto|]. apply handle_snapshot_prims; auto; symmetry; apply Hbf.
  - eapply PsCons; [apply (PFollow m r (m_term m) (m_from m)); auto|]. apply handle_heartbeat_prims; auto; symmetry; apply Hbf.
Qed.

Lemma step_follower_prims m r r' e : r_state r = RFollower -> disp_ok m r ->
  step_follower m r = Ok (r', e) -> prims m r r'.
Proof.
  intros Hs Hd. unfold step_follower.
  assert (Hmt : match m_type m with MsgApp | MsgHeartbeat | MsgSnap => m_term m = r_term r | _ => True end).
  { destruct (m_type m) eqn:Ht; auto; destruct Hd as [_ [?|[[? Hx]|[? [?|[? ?]]]]]]; auto; congruence || (rewrite Ht in Hx; discriminate Hx). }
  assert (Hk : match m_type m with MsgApp | MsgHeartbeat | MsgSnap => True | _ => False end ->
     keep r (set_r_lead (m_from m) (set_r_el_elapsed 0 r))).
  { intros Hx. destruct Hd as [Hw _]. assert (r_term r <> 0).
    { destruct (m_type m) eqn:Ht; try tauto; intros Hz; rewrite <- Hmt in Hz; apply Hw in Hz; rewrite Ht in Hz; discriminate. }
    kp. }
  assert (Hfwd : forall s, r_lead r <> 0 ->
     (m_type m = MsgProp \/ m_type m = MsgReadIndex \/ m_type m = MsgTransferLeader) ->
     send (set_m_to (r_lead r) m) r = Ok s -> prims m r s).
  { intros s Hn Ht H. apply send_ok in H. destruct H as [-> Hz]. apply prims_one, PMisc. apply MiFwd; auto.
    cbn in Hz. destruct Ht as [Ht|[Ht|Ht]]; rewrite Ht in Hz; exact Hz. }
  destruct (m_type m) eqn:Ht; unfold okr; intros H; mon; try constructor.
  - destruct (N.eqb_spec (r_lead r) 0); [inv H; constructor|]. destruct (k_disable_fwd _); mon; [constructor|auto].
  - eapply PsCons; [apply PKeep; exact (Hk I)|]. eapply handle_append_prims; eauto.
  - eapply PsCons; [apply PKeep; exact (Hk I)|]. eapply handle_snapshot_prims; eauto.
  - eapply PsCons; [apply PKeep; exact (Hk I)|]. eapply handle_heartbeat_prims; eauto.
  - destruct (N.eqb_spec (r_lead r) 0); mon; [constructor|auto].
  - eapply hup_prims; eauto.
  - destruct (N.eqb_spec (r_lead r) 0); mon; [constructor|auto].
  - destruct (m_entries m) as [|e0 [|]]; mon; try constructor. apply prims_one, PKeep. kp.
Qed.

Lemma step_dispatch_prims m r r' e : disp_ok m r -> step_dispatch m r = Ok (r', e) -> prims m r r'.
Proof.
  intros Hd. unfold step_dispatch.
  assert (Hrole : match r_state r with
      | RLeader => step_leader m r
      | RCandidate | RPreCandidate => step_candidate m r
      | RFollower => step_follower m r
      end = Ok (r', e) -> prims m r r').
  { destruct (r_state r) eqn:Hs; eauto using step_leader_prims, step_follower_prims, step_candidate_prims. }
  destruct (m_type m) eqn:Ht; try exact Hrole; unfold okr; intros H; mon.
  - eapply hup_prims; eauto.
  - eapply step_vote_prims; eauto.
  - eapply step_vote_prims; eauto.
Qed.

Lemma become_follower_term t l r : r_term (become_follower t l r) = t.
Proof. unfold become_follower, reset. cbn. destruct (N.eqb_spec (r_term r) t); auto. Qed.

Theorem step_prims m r r' e : wf_in m -> step m r = Ok (r', e) -> prims m r r'.
Proof.
  intros Hw. unfold step. destruct (N.eqb_spec (m_term m) 0) as [H0|H0].
  { apply step_dispatch_prims. split; auto. }
  destruct (N.ltb_spec (r_term r) (m_term m)) as [H1|H1].
  - destruct (_ && _ && _); [intros H; inv H; constructor|].
    assert (Hf : forall l, step_dispatch m (become_follower (m_term m) l r) = Ok (r', e) -> prims m r r').
    { intros l H. eapply PsCons; [apply (PFollow m r (m_term m) l); auto|].
      eapply step_dispatch_prims; eauto. split; auto. left. rewrite become_follower_term. auto. }
    assert (Hn : (m_type m = MsgPreVote \/ m_type m = MsgPreVoteResp /\ m_reject m = false) ->
       step_dispatch m r = Ok (r', e) -> prims m r r').
    { intros Hx H. eapply step_dispatch_prims; eauto. split; auto. }
    destruct (m_type m) eqn:Ht; eauto. destruct (m_reject m) eqn:Hr; eauto.
  - destruct (N.ltb_spec (m_term m) (r_term r)).
    + destruct (_ && _).
      * unfold okr. intros Hx. mon. apply send_ok in Hm. destruct Hm as [-> _]. apply prims_one, PMisc.
        unfold outm; cbn. apply MiAppZero; lia.
      * destruct (mtype_eqb _ _); [|intros Hx; inv Hx; constructor].
        unfold okr. intros Hx. mon. apply send_ok in Hm. destruct Hm as [-> Hz]. apply prims_one, PMisc.
        unfold outm; cbn. apply MiPreVoteRej. exact Hz.
    + apply step_dispatch_prims. split; auto. left. lia.
Qed.

(** Ticks: a sequence of primitives of local messages. *)
Definition tick_msg (m : msg) : Prop :=
  m_term m = 0 /\ (m_type m = MsgHup \/ m_type m = MsgBeat \/ m_type m = MsgCheckQuorum).
Inductive lprims : raft -> raft -> Prop :=
| LpNil r : lprims r r
| LpCons m a b c : tick_msg m -> prims m a b -> lprims b c -> lprims a c.
Lemma lprims_trans a b c : lprims a b -> lprims b c -> lprims a c.
Proof. induction 1; auto. intros. econstructor; eauto. Qed.
Lemma lprims_one m a b : tick_msg m -> prims m a b -> lprims a b.
Proof. intros. econstructor; eauto. constructor. Qed.

Theorem tick_prims r r' : tick r = Ok r' -> lprims r r'.
Proof.
  assert (T1 : forall id, tick_msg (set_m_from id (new_msg MsgHup))) by (intros; split; auto).
  assert (T2 : forall id, tick_msg (set_m_from id (new_msg MsgBeat))) by (intros; split; auto).
  assert (T3 : forall id, tick_msg (set_m_from id (new_msg MsgCheckQuorum))) by (intros; split; auto).
  assert (W : forall m, tick_msg m -> wf_in m).
  { intros m [_ [H|[H|H]]] _; rewrite H; auto. }
  assert (Hel : tick_election r = Ok r' -> lprims r r').
  { unfold tick_election. set (r1 := set_r_el_elapsed (r_el_elapsed r + 1) r).
    assert (K1 : keep r r1) by kp. clearbody r1. intros H.
    eapply LpCons; [apply (T1 0)|apply prims_one, PKeep; exact K1|].
    destruct (_ && _); mon; [|constructor]. destruct x; mon.
    eapply LpCons; [apply (T1 0)|apply prims_one, (PKeep _ r1 (set_r_el_elapsed 0 r1)); kp|].
    eapply lprims_one; [|eapply step_prims; [|eassumption]]; auto. }
  assert (Hhb : tick_heartbeat r = Ok r' -> lprims r r').
  { unfold tick_heartbeat. set (r1 := set_r_el_elapsed (r_el_elapsed r + 1) (set_r_hb_elapsed (r_hb_elapsed r + 1) r)).
    assert (K1 : keep r r1) by kp. clearbody r1. intros H.
    eapply LpCons; [apply (T1 0)|apply prims_one, PKeep; exact K1|]. mon. rename x into r2.
    assert (H2 : lprims r1 r2).
    { destruct (_ <=? _); mon; [|constructor]. rename x into r3.
      assert (H3 : lprims (set_r_el_elapsed 0 r1) r3).
      { destruct (k_check_quorum _); mon; [|constructor]. destruct x. mon.
        eapply lprims_one; [|eapply step_prims; [|eassumption]]; auto. }
      eapply LpCons; [apply (T1 0)|apply prims_one, (PKeep _ r1 (set_r_el_elapsed 0 r1)); kp|].
      eapply lprims_trans; [exact H3|].
      destruct (_ && _); mon; [|constructor].
      eapply lprims_one; [apply (T1 0)|apply prims_one, PKeep; kp]. }
    eapply lprims_trans; [exact H2|]. clear Hm H2 K1.
    destruct (negb _); mon; [constructor|]. destruct (_ <=? _); mon; [|constructor]. destruct x. mon.
    eapply LpCons; [apply (T1 0)|apply prims_one, (PKeep _ r2 (set_r_hb_elapsed 0 r2)); kp|].
    eapply lprims_one; [|eapply step_prims; [|eassumption]]; auto. }
  unfold tick. destruct (r_state r); auto.
Qed.
End Prim.
