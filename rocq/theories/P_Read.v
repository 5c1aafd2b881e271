(** What one call does to read-only requests: first some work that leaves them alone (or drops
    them all with the leadership), then a sequence of small read-only steps with the log, role,
    term and configuration fixed. *)
From Verif Require Import Prelude Types M_Util M_Quorum M_Inflights M_Progress M_Tracker.
From Verif Require Import M_Storage M_Unstable M_Log M_ReadOnly M_ConfPb M_ConfChange M_Raft M_RawNode.
From Verif Require Import P_Inflights Spec_Log P_Lists P_Log P_Frame P_Prim Sys_Node P_Node P_Fields P_Vote Spec_Node P_New P_Time P_Handle P_NodeRun P_Emit P_Lead P_Transfer.

Section Rd.
Context {E : Env}.

Definition plainm (m : msg) : Prop :=
  match m_type m with MsgHeartbeat | MsgHeartbeatResp | MsgReadIndex | MsgReadIndexResp => False | _ => True end.
(** Term and role, ordered as a node runs through them: within a term it may turn from candidate to
    leader and from either to follower, but not back. *)
Definition rk (r : raft) : N := 3 * r_term r + match r_state r with RCandidate => 0 | RLeader => 1 | _ => 2 end.
(** Work that has nothing to do with read-only requests. *)
Record qa (r r' : raft) : Prop := {
  qa_cfg : r_cfg r' = r_cfg r;
  qa_pend : r_pend_reads r' = r_pend_reads r;
  qa_reads : r_read_states r' = r_read_states r;
  qa_ro : (r_ro r' = r_ro r /\ (r_state r' = RLeader <-> r_state r = RLeader) /\ (r_state r = RLeader -> r_term r' = r_term r))
          \/ (r_ro r' = new_readonly (ro_option (r_ro r)) /\ (r_state r = RLeader -> rk r < rk r'));
  qa_rk : rk r <= rk r';
  qa_msgs : exists ms, r_msgs r' = r_msgs r ++ ms /\ Forall plainm ms
}.
Lemma qa_opt r r' : qa r r' -> ro_option (r_ro r') = ro_option (r_ro r).
Proof. intros H. destruct (qa_ro _ _ H) as [[-> _]|[-> _]]; reflexivity. Qed.
Lemma qa_eq r r' : r_cfg r' = r_cfg r -> r_pend_reads r' = r_pend_reads r -> r_read_states r' = r_read_states r -> r_ro r' = r_ro r ->
  r_state r' = r_state r -> r_term r' = r_term r -> r_msgs r' = r_msgs r -> qa r r'.
Proof. intros. constructor; auto. - left. split; auto. split; [split; congruence|auto]. - unfold rk. rewrite H3, H4. lia. - exists []. rewrite app_nil_r. auto. Qed.
Lemma qa_refl r : qa r r. Proof. apply qa_eq; auto. Qed.
Lemma qa_trans a b c : qa a b -> qa b c -> qa a c.
Proof.
  intros H K. pose proof (qa_rk _ _ H) as R1. pose proof (qa_rk _ _ K) as R2. constructor; try (etransitivity; [apply K|apply H]).
  - pose proof (qa_opt _ _ H) as Ho. destruct (qa_ro _ _ H) as [(A1 & A2 & A3)|[A1 A2]], (qa_ro _ _ K) as [(B1 & B2 & B3)|[B1 B2]].
    + left. split; [congruence|]. split; [tauto|]. intros X. rewrite B3, A3; auto. tauto.
    + right. rewrite B1, Ho. split; auto. intros X. assert (r_state b = RLeader) by tauto. specialize (B2 H0). lia.
    + right. split; [congruence|]. intros X. specialize (A2 X). lia.
    + right. rewrite B1, Ho. split; auto. intros X. specialize (A2 X). lia.
  - lia.
  - destruct (qa_msgs _ _ H) as (x & X1 & X2), (qa_msgs _ _ K) as (y & Y1 & Y2). exists (x ++ y). rewrite Y1, X1, app_assoc. split; auto. apply Forall_app; auto.
Qed.
Ltac qe := apply qa_eq; reflexivity.

Lemma plainm_outm r m : plainm m -> plainm (outm r m).
Proof. destruct m as [ty a b c d e f g h i j k]. unfold plainm, outm. cbn. destruct (b =? 0), ty; cbn; auto. Qed.
Lemma qa_send m r r' : plainm m -> send m r = Ok r' -> qa r r'.
Proof.
  intros Hm H. apply send_ok in H. destruct H as [-> _]. constructor; auto; [left; cbn; tauto|apply N.le_refl|].
  exists [outm r m]. split; [reflexivity|]. constructor; auto. apply plainm_outm; auto.
Qed.
(** Sending by a leader that leaves the requests alone. *)
Record qs (r r' : raft) : Prop := { qs_same : same r r'; qs_qa : qa r r'; qs_ro : r_ro r' = r_ro r }.
Lemma qs_refl r : qs r r. Proof. constructor; auto using same_refl, qa_refl. Qed.
Lemma qs_trans a b c : qs a b -> qs b c -> qs a c.
Proof. intros [A1 A2 A3] [B1 B2 B3]. constructor; [eapply same_trans|eapply qa_trans|congruence]; eauto. Qed.
Lemma msa_qs to b r r' x : maybe_send_append to b r = Ok (r', x) -> qs r r'.
Proof.
  intros H. pose proof (sd_same _ _ (maybe_send_append_sends _ _ _ _ _ H)) as Sm. revert H.
  assert (K : forall m r1, plainm m -> r_msgs r1 = r_msgs r -> r_ro r1 = r_ro r -> r_cfg r1 = r_cfg r -> r_pend_reads r1 = r_pend_reads r ->
     r_read_states r1 = r_read_states r -> r_state r1 = r_state r -> r_term r1 = r_term r -> send m r1 = Ok r' -> qs r r').
  { intros m r1 Hm E1 E2 E3 E4 E5 E6 E7 H. apply send_ok in H. destruct H as [-> _]. constructor; auto. constructor; auto.
    - left. split; auto. split; [cbn; rewrite E6; tauto|auto].
    - unfold rk. cbn [r_term r_state emit set_r_msgs]. rewrite E6, E7. lia.
    - exists [outm r1 m]. cbn. rewrite E1. split; auto. constructor; auto using plainm_outm. }
  unfold maybe_send_append. destruct (trk_get to (r_trk r)) as [pr|]; [|discriminate]. destruct (pr_is_paused pr); [intros H; inv H; apply qs_refl|].
  intros H. apply bind_ok in H. destruct H as (t & _ & H). apply bind_ok in H. destruct H as (es & _ & H). cbv zeta in H.
  match type of H with (if ?c then _ else _) = _ => destruct c end; [inv H; apply qs_refl|].
  assert (K2 : send_snap_msg to pr r = Ok (r', x) -> qs r r').
  { clear H. unfold send_snap_msg. destruct (negb (p_active pr)); [intros H; inv H; apply qs_refl|].
    destruct (log_snapshot (r_log r)) as [sn|[]]; try discriminate; [|intros H; inv H; apply qs_refl].
    destruct (_ =? 0); [discriminate|]. intros H. apply bind_ok in H. destruct H as (r1 & H & Hx). inv Hx.
    eapply K; [| | | | | | | |exact H]; reflexivity || exact I. }
  destruct t as [t|]; [|auto]. destruct es as [es|]; [|auto]. clear K2.
  apply bind_ok in H. destruct H as (r1 & H & Hx). inv Hx. unfold send_app_msg in H. cbv zeta in H.
  destruct (rev es) as [|la tl]; [eapply K; [| | | | | | | |exact H]; reflexivity || exact I|].
  destruct (p_state pr); [|apply bind_ok in H; destruct H as (inf & _ & H)|discriminate];
    (eapply K; [| | | | | | | |exact H]; reflexivity || exact I).
Qed.
Lemma send_append_qs to r r' : send_append to r = Ok r' -> qs r r'.
Proof. unfold send_append. intros H. apply bind_ok in H. destruct H as ([r1 b] & H & Hx). inv Hx. eapply msa_qs; eauto. Qed.
Lemma bcast_append_qs r r' : bcast_append r = Ok r' -> qs r r'.
Proof.
  unfold bcast_append. intros H. apply (mfold_inv send_append qs) in H; auto using qs_refl; [intros; eapply qs_trans; eauto|].
  intros a s s' _ Hs. eapply send_append_qs; eauto.
Qed.
Lemma send_all_qs fuel to r r' : send_all fuel to r = Ok r' -> qs r r'.
Proof.
  revert r. induction fuel as [|k IH]; intros r H; cbn in H; [discriminate|]. apply bind_ok in H. destruct H as ([r1 b] & H1 & H).
  apply msa_qs in H1. destruct b; [eapply qs_trans; eauto|]. inv H. auto.
Qed.
Lemma send_plain_qs m r r' : plainm m -> send m r = Ok r' -> qs r r'.
Proof.
  intros Hm H. pose proof (qa_send _ _ _ Hm H) as Q. apply send_ok in H. destruct H as [-> _]. constructor; auto. constructor; reflexivity.
Qed.

(* ---- work that is not about requests ---- *)
Lemma follow_qa t l r : r_term r <= t -> qa r (become_follower t l r).
Proof.
  intros Ht. assert (R : rk (become_follower t l r) = 3 * t + 2).
  { unfold rk. rewrite become_follower_term. hide (become_follower t l r) r1 E1. destruct (become_follower_fields _ _ _ _ E1) as (_&_&_&_&B2&_). rewrite B2. reflexivity. }
  constructor; [| | |right; split; [|intros X; rewrite R; unfold rk; rewrite X; lia]|rewrite R; unfold rk; destruct (r_state r); lia|].
  all: unfold become_follower, reset; cbv zeta; destruct (r_term r =? t); try reflexivity; exists []; rewrite app_nil_r; auto.
Qed.

Lemma reset_qa (t : N) r r' : r_cfg r' = r_cfg r -> r_pend_reads r' = r_pend_reads r -> r_read_states r' = r_read_states r ->
  r_ro r' = new_readonly (ro_option (r_ro r)) -> r_msgs r' = r_msgs r -> t = t -> r_state r <> RLeader -> rk r <= rk r' -> qa r r'.
Proof. intros. constructor; auto; [right; tauto|]. exists []. rewrite app_nil_r. auto. Qed.
Lemma become_leader_qa r r' : r_state r = RCandidate -> become_leader r = Ok r' -> qa r r'.
Proof.
  intros Hs H. pose proof (become_leader_all _ _ H) as (_&C1&C3&_&C4&_&C2&_).
  apply become_leader_inv in H. destruct H as (pr & r1 & u & H1 & H2 & H3 & ->).
  apply append_entry_fields in H3. destruct H3 as (l & p & u' & ->).
  hide (reset (r_term r) r) r0 Er0. destruct (reset_more _ _ _ Er0) as (A1&A2&A3&_).
  clear Er0. apply (reset_qa 0); auto; [congruence|]. unfold rk at 1. rewrite Hs. unfold rk. rewrite C3, C4. lia.
Qed.
Lemma become_candidate_qa r r' : become_candidate r = Ok r' -> qa r r'.
Proof.
  intros H0. pose proof (become_candidate_all _ _ H0) as (C1&_&C2&_&_&C3&_). revert H0. 
  unfold become_candidate. destruct (is_leader r); [discriminate|]. cbv zeta. hide (reset (r_term r + 1) r) r0 Er0. destruct (reset_more _ _ _ Er0) as (A1&A2&A3&_).
  destruct (reset_fields _ _ _ Er0) as (B1&B2&B3&B4&B5&B6&B7&_). clear Er0. intros H. apply Ok_inj in H. subst r'. apply (reset_qa 0); auto. unfold rk. rewrite C2, C3. destruct (r_state r); lia.
Qed.
Lemma become_pre_qa r r' : become_pre_candidate r = Ok r' -> qa r r'.
Proof.
  unfold become_pre_candidate, is_leader. destruct (r_state r) eqn:Hs; cbn [role_eqb]; try discriminate; intros H; apply Ok_inj in H; subst r';
  (constructor; auto; [left; split; auto; split; [|intros X; congruence]; cbn; split; intros X; congruence|unfold rk; rewrite Hs; cbn [r_term r_state set_r_state set_r_lead set_r_trk]; lia|exists []; rewrite app_nil_r; auto]).
Qed.
Lemma vote_reqs_qa t term tr l r r' : (t = MsgVote \/ t = MsgPreVote) -> mfold (send_vote_req t term tr) l r = Ok r' -> qa r r'.
Proof.
  intros Ht H. apply (mfold_inv (send_vote_req t term tr) qa) in H; auto using qa_refl; [intros; eapply qa_trans; eauto|].
  intros a s s' _ Hs. unfold send_vote_req in Hs. apply bind_ok in Hs. destruct Hs as (lt & _ & Hs).
  eapply qa_send in Hs; [apply Hs|]. destruct tr, Ht as [-> | ->]; exact I.
Qed.
Lemma campaign_real_qa tr r r' : campaign_real tr r = Ok r' -> qa r r'.
Proof.
  unfold campaign_real. intros H. apply bind_ok in H. destruct H as (r1 & H1 & H).
  pose proof (become_candidate_all _ _ H1) as (_&_&_&_&_&C3&_). apply become_candidate_qa in H1.
  destruct (poll (r_id r1) true r1) as [r2 v] eqn:Hp. unfold poll in Hp. inv Hp.
  assert (A : qa r (set_r_trk (trk_record_vote (r_id r1) true (r_trk r1)) r1)) by (eapply qa_trans; [exact H1|qe]).
  eapply qa_trans; [exact A|]. match type of H with context [match ?v with VotePending => _ | VoteLost => _ | VoteWon => _ end] => destruct v end.
  - eapply vote_reqs_qa; [|exact H]; auto.
  - eapply vote_reqs_qa; [|exact H]; auto.
  - apply become_leader_qa in H; [apply H|exact C3].
Qed.
Lemma campaign_qa t r r' : campaign t r = Ok r' -> qa r r'.
Proof.
  destruct t; cbn [campaign]; try apply campaign_real_qa. intros H. apply bind_ok in H. destruct H as (r1 & H1 & H).
  apply become_pre_qa in H1.
  destruct (poll (r_id r1) true r1) as [r2 v] eqn:Hp. unfold poll in Hp. inv Hp.
  assert (A : qa r (set_r_trk (trk_record_vote (r_id r1) true (r_trk r1)) r1)) by (eapply qa_trans; [exact H1|qe]).
  eapply qa_trans; [exact A|]. match type of H with context [match ?v with VotePending => _ | VoteLost => _ | VoteWon => _ end] => destruct v end.
  - eapply vote_reqs_qa; [|exact H]; auto.
  - eapply vote_reqs_qa; [|exact H]; auto.
  - eapply campaign_real_qa; exact H.
Qed.
Lemma hup_qa t r r' : hup t r = Ok r' -> qa r r'.
Proof.
  unfold hup. destruct (is_leader r); [intros H; inv H; apply qa_refl|].
  destruct (negb (promotable r)); [intros H; inv H; apply qa_refl|].
  intros H; apply bind_ok in H; destruct H as ([ents|] & _ & H); [|discriminate].
  destruct (_ && _); [inv H; apply qa_refl|]. eapply campaign_qa; eauto.
Qed.
Lemma handle_app_qa m r r' : handle_append_entries m r = Ok r' -> qa r r'.
Proof.
  unfold handle_append_entries. cbv zeta. destruct (_ <? _); [intros H; apply qa_send in H; [apply H|exact I]|].
  intros H. apply bind_ok in H. destruct H as ([l o] & _ & H). destruct o.
  - apply qa_send in H; [|exact I]. eapply qa_trans; [|exact H]. qe.
  - apply bind_ok in H. destruct H as (h & _ & H). apply bind_ok in H. destruct H as ([ht|] & _ & H); [|discriminate].
    apply qa_send in H; [|exact I]. eapply qa_trans; [|exact H]. qe.
Qed.
Lemma switch_qa cp r r' cs : switch_to_config cp r = Ok (r', cs) -> qa r r'.
Proof.
  unfold switch_to_config. cbv zeta. match goal with |- context [set_r_learner ?a ?b] => set (r0 := set_r_learner a b) end.
  assert (A : qa r r0) by qe. clearbody r0.
  destruct (_ && _); [intros H; inv H; auto|]. destruct (_ || _); [intros H; inv H; auto|]. intros H. apply bind_ok in H. destruct H as (r1 & H & Hx). inv Hx.
  eapply qa_trans; [exact A|]. clear A. unfold switch_leader in H. apply bind_ok in H. destruct H as ([r1 com] & H1 & H).
  apply raft_maybe_commit_state in H1. destruct H1 as [l ->]. apply bind_ok in H. destruct H as (r2 & H2 & H).
  assert (A : qs (set_r_log l r0) r2).
  { destruct com; [apply bcast_append_qs; auto|]. apply (mfold_inv _ qs) in H2; auto using qs_refl; [intros; eapply qs_trans; eauto|].
    intros a s s' _ Hs. apply bind_ok in Hs. destruct Hs as ([r5 b] & Hs & Hx). inv Hx. eapply msa_qs; eauto. }
  assert (B : qa r0 r2) by (eapply qa_trans; [|apply A]; qe).
  destruct (_ && _) in H; inv H; auto. eapply qa_trans; [exact B|qe].
Qed.
Lemma handle_snap_qa m r r' : handle_snapshot m r = Ok r' -> qa r r'.
Proof.
  unfold handle_snapshot. intros H. apply bind_ok in H. destruct H as ([r1 b] & H1 & H). apply qa_send in H; [|exact I].
  eapply qa_trans; [|exact H]. clear H. unfold raft_restore in H1. destruct (_ <=? _); [inv H1; apply qa_refl|].
  destruct (negb (role_eqb (r_state r) RFollower)) eqn:Hf.
  { pose proof (follow_qa (r_term r + 1) 0 r ltac:(lia)) as A. hide (become_follower (r_term r + 1) 0 r) r2 E2. clear E2. inv H1; auto. }
  cbv zeta in H1. destruct (negb _) in H1; [inv H1; apply qa_refl|].
  apply bind_ok in H1. destruct H1 as (mt & _ & H1). destruct mt; [apply bind_ok in H1; destruct H1 as (l & _ & H1); inv H1; qe|].
  match type of H1 with context [cc_restore ?x ?y] => destruct (cc_restore x y) as [cp|] end; [|discriminate].
  apply bind_ok in H1. destruct H1 as ([r2 cs2] & Hs & H1). apply switch_qa in Hs.
  assert (A : qa r r2) by (eapply qa_trans; [|exact Hs]; qe).
  destruct (negb _) in H1; [discriminate|]. destruct (trk_get _ _) in H1; [|discriminate]. destruct (pr_maybe_update _ _) in H1. inv H1.
  eapply qa_trans; [exact A|qe].
Qed.

(* ---- read-only steps ---- *)
Definition beat (ctx : string) (r : raft) (m : msg) : Prop :=
  m_type m = MsgHeartbeat /\ m_ctx m = ctx /\ m_from m = r_id r /\ m_term m = r_term r.
(** [hand]: requests taken from the message or the pending list and not yet dealt with.  The last
    list: the answers given, each the request and the index. *)
Inductive rb (im : msg) : list msg -> raft -> list msg -> raft -> list (msg * N) -> Prop :=
| RbSend h r r' : qs r r' -> rb im h r h r' []
| RbBeat h ctx r r' ms : r_state r = RLeader -> same r r' -> r_ro r' = r_ro r -> r_pend_reads r' = r_pend_reads r -> r_read_states r' = r_read_states r ->
    (ctx = EmptyString \/ In ctx (ro_queue (r_ro r)) \/ sget ctx (ro_pending (r_ro r)) <> None) ->
    r_msgs r' = r_msgs r ++ ms -> Forall (beat ctx r) ms -> rb im h r h r' []
| RbResp h r : r_state r = RFollower -> m_type im = MsgHeartbeat -> (wf_in im -> m_term im = r_term r) ->
    rb im h r h (emit (mk_resp MsgHeartbeatResp (m_from im) (r_id r) (r_term r) 0 0 false 0 (m_ctx im)) r) []
| RbFwd h r : r_state r = RFollower -> r_lead r <> 0 -> m_type im = MsgReadIndex -> m_term im = 0 ->
    rb im h r h (emit (outm r (set_m_to (r_lead r) im)) r) []
| RbRead h e r : r_state r = RFollower -> m_type im = MsgReadIndexResp -> m_entries im = [e] ->
    rb im h r h (set_r_read_states (r_read_states r ++ [mkReadState (m_index im) (e_data e)]) r) []
| RbPend r : r_state r = RLeader -> trk_is_singleton (r_trk r) = false -> committed_entry_in_current_term r = Ok false ->
    rb im [im] r [] (set_r_pend_reads (r_pend_reads r ++ [im]) r) []
| RbUnpend r : r_state r = RLeader -> m_type im = MsgAppResp -> committed_entry_in_current_term r = Ok true ->
    rb im [] r (r_pend_reads r) (set_r_pend_reads [] r) []
| RbAdd h m d ro1 ro2 a r : r_state r = RLeader -> ro_option (r_ro r) = RoSafe -> committed_entry_in_current_term r = Ok true ->
    entry0_data m = Ok d -> ro_add_request (l_committed (r_log r)) m (r_ro r) = Ok ro1 -> ro_recv_ack (r_id r) d ro1 = (ro2, a) ->
    rb im (m :: h) r h (set_r_ro ro2 r) []
| RbNow h m r r' : r_state r = RLeader -> trk_is_singleton (r_trk r) = true \/ (ro_option (r_ro r) = RoLeaseBased /\ committed_entry_in_current_term r = Ok true) ->
    response_to_read_index m (l_committed (r_log r)) r = Ok r' -> rb im (m :: h) r h r' [(m, l_committed (r_log r))]
| RbAck h r ro a : r_state r = RLeader -> m_type im = MsgHeartbeatResp -> (wf_in im -> m_term im = r_term r) -> m_ctx im <> EmptyString ->
    ro_option (r_ro r) = RoSafe ->
    ro_recv_ack (m_from im) (m_ctx im) (r_ro r) = (ro, a) -> tc_vote_result (t_config (r_trk r)) a <> VoteWon -> rb im h r h (set_r_ro ro r) []
| RbConfirm h r r' ro a ro' rss : r_state r = RLeader -> m_type im = MsgHeartbeatResp -> (wf_in im -> m_term im = r_term r) -> m_ctx im <> EmptyString ->
    ro_option (r_ro r) = RoSafe ->
    ro_recv_ack (m_from im) (m_ctx im) (r_ro r) = (ro, a) ->
    tc_vote_result (t_config (r_trk r)) a = VoteWon -> ro_advance (m_ctx im) ro = Ok (ro', rss) ->
    mfold (fun rs r => response_to_read_index (ris_req rs) (ris_index rs) r) rss (set_r_ro ro' r) = Ok r' ->
    rb im h r h r' (List.map (fun rs => (ris_req rs, ris_index rs)) rss).
Inductive rbs (im : msg) : list msg -> raft -> list msg -> raft -> list (msg * N) -> Prop :=
| RbsNil h r : rbs im h r h r []
| RbsCons h r h1 r1 l h2 r2 l' : rb im h r h1 r1 l -> rbs im h1 r1 h2 r2 l' -> rbs im h r h2 r2 (l ++ l').
Lemma rbs_one im h r h' r' l : rb im h r h' r' l -> rbs im h r h' r' l.
Proof. intros. rewrite <- (app_nil_r l). econstructor; [eauto|constructor]. Qed.
Lemma rbs_trans im h r h1 r1 l h2 r2 l' : rbs im h r h1 r1 l -> rbs im h1 r1 h2 r2 l' -> rbs im h r h2 r2 (l ++ l').
Proof. induction 1; intros; auto. rewrite <- app_assoc. econstructor; eauto. Qed.
Lemma rbs_cons0 im h r h1 r1 h2 r2 l' : rb im h r h1 r1 [] -> rbs im h1 r1 h2 r2 l' -> rbs im h r h2 r2 l'.
Proof. intros. change l' with ([] ++ l'). econstructor; eauto. Qed.
Lemma rbs_snoc0 im h r h1 r1 h2 r2 l : rbs im h r h1 r1 l -> rb im h1 r1 h2 r2 [] -> rbs im h r h2 r2 l.
Proof. intros. rewrite <- (app_nil_r l). eapply rbs_trans; eauto using rbs_one. Qed.

(** One call. *)
Definition takes (im : msg) (r : raft) (h : list msg) : Prop :=
  h = [] \/ (h = [im] /\ m_type im = MsgReadIndex /\ r_state r = RLeader).
Definition rcall (im : msg) (r r' : raft) (l : list (msg * N)) : Prop :=
  exists r1 h, qa r r1 /\ takes im r1 h /\ rbs im h r1 [] r' l.
Lemma rcall_qa im r r' : qa r r' -> rcall im r r' [].
Proof. intros H. exists r', []. split; auto. split; [left; auto|constructor]. Qed.
Lemma rcall_pre im a b c l : qa a b -> rcall im b c l -> rcall im a c l.
Proof. intros H (r1 & h & H1 & H2). exists r1, h. split; auto. eapply qa_trans; eauto. Qed.
Lemma rcall_rbs im r r' l : rbs im [] r [] r' l -> rcall im r r' l.
Proof. intros H. exists r, []. split; auto using qa_refl. split; [left; auto|auto]. Qed.
Lemma rcall_take im r r' l : m_type im = MsgReadIndex -> r_state r = RLeader -> rbs im [im] r [] r' l -> rcall im r r' l.
Proof. intros H1 H2 H. exists r, [im]. split; auto using qa_refl. split; [right; auto|auto]. Qed.

Lemma bcast_beat im h ctx r r' : r_state r = RLeader -> (ctx = EmptyString \/ In ctx (ro_queue (r_ro r)) \/ sget ctx (ro_pending (r_ro r)) <> None) ->
  bcast_heartbeat_ctx ctx r = Ok r' -> rb im h r h r' [].
Proof.
  intros Hl Hc H. pose proof (sd_same _ _ (bcast_heartbeat_ctx_sends _ _ _ H)) as Sm. unfold bcast_heartbeat_ctx in H.
  assert (K : r_ro r' = r_ro r /\ r_pend_reads r' = r_pend_reads r /\ r_read_states r' = r_read_states r /\ r_cfg r' = r_cfg r /\ r_term r' = r_term r /\
     exists ms, r_msgs r' = r_msgs r ++ ms /\ Forall (beat ctx r) ms).
  { clear Hl Hc Sm. apply (mfold_inv (send_heartbeat ctx) (fun r r' => r_ro r' = r_ro r /\ r_pend_reads r' = r_pend_reads r /\ r_read_states r' = r_read_states r /\ r_cfg r' = r_cfg r /\ r_term r' = r_term r /\
     exists ms, r_msgs r' = r_msgs r ++ ms /\ Forall (beat ctx r) ms)) in H; auto.
    - repeat split. exists []. rewrite app_nil_r. auto.
    - intros a b c (A1&A2&A3&A4&A5&x&A6&A7) (B1&B2&B3&B4&B5&y&B6&B7). repeat split; try congruence.
      exists (x ++ y). rewrite B6, A6, app_assoc. split; auto. apply Forall_app. split; auto.
      eapply Forall_impl; [|exact B7]. intros m (C1&C2&C3&C4). unfold beat, r_id in *. rewrite A4, A5 in *. auto.
    - intros a s s' _ Hs. unfold send_heartbeat in Hs. destruct (trk_get a (r_trk s)); [|discriminate]. apply send_ok in Hs. destruct Hs as [-> _].
      repeat split. eexists. split; [reflexivity|]. constructor; auto. repeat split. }
  destruct K as (K1&K2&K3&_&_&ms&K4&K5). eapply (RbBeat im h ctx); eauto.
Qed.
Lemma response_same m i r r' : response_to_read_index m i r = Ok r' -> same r r' /\ r_ro r' = r_ro r /\ r_pend_reads r' = r_pend_reads r.
Proof.
  unfold response_to_read_index. destruct (_ || _); intros H.
  - apply bind_ok in H. destruct H as (d & _ & H). inv H. split; [constructor; reflexivity|auto].
  - apply send_ok in H. destruct H as [-> _]. split; [constructor; reflexivity|auto].
Qed.
Lemma sget_snoc d rs p : sget d (p ++ [(d, rs)]) <> None.
Proof. induction p as [|[k v] p IH]; cbn; [rewrite String.eqb_refl; discriminate|]. destruct (String.eqb d k); [discriminate|auto]. Qed.
Lemma sget_sput d v p : sget d (sput d v p) <> None.
Proof. induction p as [|[k w] p IH]; cbn; [rewrite String.eqb_refl; discriminate|]. destruct (String.eqb d k) eqn:X; cbn; [rewrite String.eqb_refl; discriminate|rewrite X; auto]. Qed.
Lemma srir_rbs im m h r r' : r_state r = RLeader -> committed_entry_in_current_term r = Ok true -> send_read_index_response m r = Ok r' ->
  exists l, rbs im (m :: h) r h r' l.
Proof.
  intros Hl Hc H. unfold send_read_index_response in H. destruct (ro_option (r_ro r)) eqn:Ho.
  - apply bind_ok in H. destruct H as (ro & Ha & H). apply bind_ok in H. destruct H as (d & Hd & H).
    destruct (ro_recv_ack (r_id r) d ro) as [ro2 a] eqn:Hr. exists []. eapply rbs_cons0; [eapply RbAdd; eauto|].
    apply rbs_one. eapply bcast_beat; [exact Hl| |exact H]. right. right. cbn.
    unfold ro_recv_ack in Hr. destruct (sget d (ro_pending ro)) eqn:Hg.
    + inv Hr. cbn. apply sget_sput.
    + inv Hr. unfold ro_add_request in Ha. rewrite Hd in Ha. cbn [bind] in Ha. destruct (sget d (ro_pending (r_ro r))) eqn:Hg2; inv Ha; [congruence|].
      cbn in Hg. exfalso. eapply sget_snoc; eauto.
  - exists [(m, l_committed (r_log r))]. apply rbs_one. eapply RbNow; eauto.
Qed.
Lemma com_same r r' : same r r' -> committed_entry_in_current_term r' = committed_entry_in_current_term r.
Proof. intros S. unfold committed_entry_in_current_term. rewrite (sm_log _ _ S), (sm_term _ _ S). auto. Qed.
Lemma rb_same im h r h' r' l : rb im h r h' r' l -> same r r'.
Proof.
  intros H. destruct H; auto; try (apply H; fail); try (constructor; reflexivity).
  - constructor; try reflexivity. unfold ro_add_request, ro_recv_ack in *. rewrite H2 in H3. cbn [bind] in H3. cbn.
    assert (K : ro_option ro1 = ro_option (r_ro r)) by (destruct (sget d (ro_pending (r_ro r))); inv H3; auto).
    rewrite <- K. destruct (sget d (ro_pending ro1)); inv H4; auto.
  - eapply response_same; eauto.
  - constructor; try reflexivity. unfold ro_recv_ack in H4. destruct (sget _ _); inv H4; auto.
  - pose proof (ro_advance_opt _ _ _ _ H6) as Ho. assert (S1 : same r (set_r_ro ro' r)).
    { constructor; try reflexivity. cbn. rewrite Ho. unfold ro_recv_ack in H4. destruct (sget _ _); inv H4; auto. }
    eapply same_trans; [exact S1|]. eapply (mfold_inv _ same) in H7; eauto using same_refl, same_trans.
    intros x s s' _ Hs. eapply response_same; eauto.
Qed.
Lemma rbs_same im h r h' r' l : rbs im h r h' r' l -> same r r'.
Proof. induction 1; [apply same_refl|]. eapply same_trans; [eapply rb_same; eauto|auto]. Qed.
Lemma release_rbs im r r' : r_state r = RLeader -> m_type im = MsgAppResp -> release_pending_reads r = Ok r' -> exists l, rbs im [] r [] r' l.
Proof.
  intros Hl Ht H. unfold release_pending_reads in H. apply bind_ok in H. destruct H as (ok & Hc & H). destruct ok; [|inv H; exists []; constructor].
  assert (K : forall ms s, r_state s = RLeader -> committed_entry_in_current_term s = Ok true -> mfold send_read_index_response ms s = Ok r' -> exists l, rbs im ms s [] r' l).
  { clear - E. induction ms as [|m ms IH]; intros s Hl Hc H; cbn in H; [inv H; exists []; constructor|].
    apply bind_ok in H. destruct H as (s1 & H1 & H). destruct (srir_rbs im m ms _ _ Hl Hc H1) as (l1 & R1). pose proof (rbs_same _ _ _ _ _ _ R1) as S1.
    destruct (IH s1) as (l2 & R2); auto; [rewrite (sm_state _ _ S1); auto|rewrite (com_same _ _ S1); auto|]. exists (l1 ++ l2). eapply rbs_trans; eauto. }
  destruct (K _ (set_r_pend_reads [] r) Hl Hc H) as (l & R). exists l. eapply rbs_cons0; [|exact R]. apply RbUnpend; auto.
Qed.

Lemma leader_rcall m r r' e : disp_ok m r -> r_state r = RLeader -> step_leader m r = Ok (r', e) -> exists l, rcall m r r' l.
Proof.
  intros Hd Hl H. unfold step_leader in H.
  assert (Q : qa r r' -> exists l, rcall m r r' l) by (intros X; exists []; apply rcall_qa; auto).
  destruct (m_type m) eqn:Ht;
    try (destruct (trk_get (m_from m) (r_trk r)) as [pr|] eqn:Hg; [|inv H; apply Q, qa_refl]);
    try (inv H; apply Q, qa_refl; fail);
    try (unfold okr in H; apply bind_ok in H; destruct H as (r1 & H & Hx); apply Ok_inj, pair_equal_spec in Hx; destruct Hx as [-> _]).
  - (* Beat *) unfold bcast_heartbeat in H. exists []. apply rcall_rbs, rbs_one. eapply bcast_beat; [exact Hl| |exact H].
    unfold ro_last_ctx. destruct (ro_queue (r_ro r)) as [|x q] eqn:Hq; [left; reflexivity|]. right. left.
    clear. revert x. induction q as [|y q IH]; intros x; [left; reflexivity|]. right. apply (IH y).
  - (* Prop *) apply Q. unfold leader_prop in H. destruct (is_nil (m_entries m)); [discriminate|].
    destruct (trk_get (r_id r) (r_trk r)) as [ps|]; [|inv H; apply qa_refl].
    destruct (negb (r_transferee r =? 0)); [inv H; apply qa_refl|].
    apply bind_ok in H. destruct H as ([es r1] & Hf & H). apply filter_prop_fields in Hf. destruct Hf as [k ->].
    apply bind_ok in H. destruct H as ([r2|] & Ha & H).
    + apply append_entry_fields in Ha. destruct Ha as (l & p0 & u & ->). unfold okr in H. apply bind_ok in H. destruct H as (r3 & H & Hx). inv Hx.
      apply bcast_append_qs in H. eapply qa_trans; [|apply H]. qe.
    + inv H. qe.
  - (* AppResp *) unfold leader_app_resp in H. destruct (m_reject m).
    + apply Q. unfold leader_app_resp_reject in H. apply bind_ok in H. destruct H as (probe & _ & H).
      destruct (pr_maybe_decr_to _ _ _) as [pr1 ok]. destruct ok.
      * apply send_append_qs in H. eapply qa_trans; [|apply H]. qe.
      * inv H. qe.
    + unfold leader_app_resp_accept in H. destruct (pr_maybe_update _ _) as [pr1 upd] eqn:Hu. destruct upd.
      2:{ inv H. apply Q. qe. }
      apply bind_ok in H. destruct H as (pr2 & Hp2 & H). apply bind_ok in H. destruct H as ([r2 com] & Hc & H).
      apply raft_maybe_commit_state in Hc. destruct Hc as [l ->].
      apply bind_ok in H. destruct H as (r3 & H3 & H). apply bind_ok in H. destruct H as (r4 & H4 & H).
      set (r2 := set_r_log l (put_progress (m_from m) pr2 r)) in *.
      assert (S3 : exists l, rbs m [] r2 [] r3 l).
      { destruct com; [apply bind_ok in H3; destruct H3 as (r5 & X1 & X2); apply (release_rbs m) in X1; auto; destruct X1 as (l1 & X1); apply bcast_append_qs in X2; exists l1; eapply rbs_snoc0; [exact X1|apply RbSend; auto]|].
        destruct (pr_is_paused _); [apply send_append_qs in H3; exists []; apply rbs_one, RbSend; auto|]. inv H3. exists []. constructor. }
      destruct S3 as (la & S3). apply send_all_qs in H4. exists la, r2, []. split; [unfold r2; qe|]. split; [left; auto|].
      eapply rbs_snoc0; [exact S3|]. apply RbSend. destruct (_ && _) in H; [|inv H; auto].
      eapply qs_trans; [exact H4|]. unfold send_timeout_now in H. apply send_plain_qs in H; auto. exact I.
  - (* HeartbeatResp *) unfold leader_heartbeat_resp in H. apply bind_ok in H. destruct H as (pr1 & _ & H). apply bind_ok in H. destruct H as (r2 & H2 & H).
    set (r0 := put_progress (m_from m) pr1 r) in *. assert (S2 : qs r0 r2) by (destruct (_ <? _) in H2; [apply send_append_qs in H2; auto|inv H2; apply qs_refl]).
    assert (A0 : qa r r2) by (eapply qa_trans; [|apply S2]; unfold r0; qe).
    destruct (negb (roption_eqb (ro_option (r_ro r2)) RoSafe) || String.eqb (m_ctx m) EmptyString) eqn:Hb; [inv H; apply Q; auto|].
    apply orb_false_iff in Hb. destruct Hb as [Hb1 Hb2].
    assert (Ho : ro_option (r_ro r2) = RoSafe) by (destruct (ro_option (r_ro r2)); auto; discriminate). apply String.eqb_neq in Hb2.
    assert (Hl2 : r_state r2 = RLeader) by (rewrite (sm_state _ _ (qs_same _ _ S2)); exact Hl).
    assert (Htm : wf_in m -> m_term m = r_term r2).
    { intros _. rewrite (sm_term _ _ (qs_same _ _ S2)). change (r_term r0) with (r_term r). destruct Hd as [_ [D|[[_ D]|[_ [D|[D _]]]]]]; auto; rewrite Ht in D; discriminate. }
    destruct (ro_recv_ack (m_from m) (m_ctx m) (r_ro r2)) as [ro acks] eqn:Hr. cbv zeta in H.
    destruct (tc_vote_result _ acks) eqn:Hv in H.
    1,2: inv H; exists [], r2, []; split; auto; split; [left; auto|]; apply rbs_one; eapply RbAck; eauto; cbn in Hv; congruence.
    apply bind_ok in H. destruct H as ([ro' rss] & Hadv & H). eexists. exists r2, []. split; [exact A0|]. split; [left; auto|]. apply rbs_one. eapply RbConfirm; eauto.
  - (* Unreachable *) inv H. apply Q. unfold leader_unreachable. destruct (pstate_eqb _ _); [qe|apply qa_refl].
  - (* SnapStatus *) inv H. apply Q. unfold leader_snap_status. destruct (p_state pr); try apply qa_refl; qe.
  - (* CheckQuorum *) inv H. apply Q. unfold leader_check_quorum. cbv zeta.
    set (r1 := match trk_get (r_id r) (r_trk r) with Some _ => _ | None => _ end) in *.
    assert (F : qa r r1) by (unfold r1; destruct (trk_get _ _); [qe|apply qa_refl]).
    clearbody r1. eapply qa_trans; [exact F|]. destruct (trk_quorum_active (r_trk r1)); [qe|].
    eapply qa_trans; [apply follow_qa, N.le_refl|]. hide (become_follower (r_term r1) 0 r1) r2 E2. clear E2. qe.
  - (* TransferLeader *) apply Q. unfold leader_transfer in H. destruct (p_learner pr); [inv H; apply qa_refl|].
    destruct (_ && _) in H; [inv H; apply qa_refl|].
    set (r0 := if negb (r_transferee r =? 0) then set_r_transferee 0 r else r) in *.
    assert (F : qa r r0) by (unfold r0; destruct (negb _); [qe|apply qa_refl]). clearbody r0.
    destruct (_ =? r_id r0) in H; [inv H; auto|]. eapply qa_trans; [exact F|].
    eapply qa_trans; [|destruct (p_match pr =? _) in H; [unfold send_timeout_now in H; apply qa_send in H; [exact H|exact I]|apply send_append_qs in H; apply H]]. qe.
  - (* ReadIndex *) unfold leader_read_index in H. destruct (trk_is_singleton (r_trk r)) eqn:Hsg.
    + eexists. apply rcall_take; auto. apply rbs_one. eapply RbNow; eauto.
    + apply bind_ok in H. destruct H as (ok & Hc & H). destruct ok.
      * destruct (srir_rbs m m [] _ _ Hl Hc H) as (l & R). exists l. apply rcall_take; auto.
      * inv H. exists []. apply rcall_take; auto. apply rbs_one. apply RbPend; auto.
Qed.

Lemma handle_beat_rcall m r r' : r_state r = RFollower -> m_type m = MsgHeartbeat -> (wf_in m -> m_term m = r_term r) -> handle_heartbeat m r = Ok r' -> rcall m r r' [].
Proof.
  intros Hs Ht Hm H. unfold handle_heartbeat in H. apply bind_ok in H. destruct H as (l & _ & H). apply send_ok in H. destruct H as [-> _].
  exists (set_r_log l r), []. split; [qe|]. split; [left; auto|]. apply rbs_one. exact (RbResp m [] (set_r_log l r) Hs Ht Hm).
Qed.
Lemma candidate_rcall m r r' e : (m_type m = MsgHeartbeat \/ m_type m = MsgApp \/ m_type m = MsgSnap -> m_term m = r_term r) -> (r_state r = RCandidate \/ r_state r = RPreCandidate) ->
  step_candidate m r = Ok (r', e) -> rcall m r r' [].
Proof.
  intros Hd Hs H. unfold step_candidate in H.
  assert (Kv : forall t', mtype_eqb t' MsgProp = false -> (if mtype_eqb t' (match r_state r with RPreCandidate => MsgPreVoteResp | _ => MsgVoteResp end) then
      let '(r1, res_) := poll (m_from m) (negb (m_reject m)) r in
      match res_ with
      | VoteWon => if role_eqb (r_state r1) RPreCandidate then okr (campaign CElection r1) else okr (r2 <- become_leader r1 ;; bcast_append r2)
      | VoteLost => Ok (become_follower (r_term r1) 0 r1, None)
      | VotePending => Ok (r1, None)
      end else Ok (r, None)) = Ok (r', e) -> qa r r').
  { intros t' _ X. destruct (mtype_eqb t' _) in X; [|inv X; apply qa_refl].
    destruct (poll (m_from m) (negb (m_reject m)) r) as [r1 v] eqn:Hp. unfold poll in Hp.
    assert (A1 : qa r r1) by (inv Hp; qe).
    eapply qa_trans; [exact A1|]. destruct v.
    - inv X. apply qa_refl.
    - pose proof (follow_qa (r_term r1) 0 r1 (N.le_refl _)) as A2. hide (become_follower (r_term r1) 0 r1) r2 E2. clear E2. apply Ok_inj, pair_equal_spec in X. destruct X as [<- _]. exact A2.
    - destruct (role_eqb (r_state r1) RPreCandidate) eqn:Hpre; unfold okr in X; apply bind_ok in X; destruct X as (r2 & X & Hx); apply Ok_inj, pair_equal_spec in Hx; destruct Hx as [-> _].
      + eapply campaign_qa; exact X.
      + apply bind_ok in X. destruct X as (r3 & X1 & X2). apply become_leader_qa in X1; [|injection Hp as <- _; cbn in *; destruct Hs as [Hs|Hs]; [exact Hs|rewrite Hs in *; discriminate]]. apply bcast_append_qs in X2. eapply qa_trans; [exact X1|apply X2]. }
  destruct (m_type m) eqn:Ht; try (apply rcall_qa; eapply Kv; [|exact H]; reflexivity).
  - inv H. apply rcall_qa, qa_refl.
  - assert (Hd' : m_term m = r_term r) by (apply Hd; auto). pose proof (follow_qa (m_term m) (m_from m) r ltac:(lia)) as A2. hide (become_follower (m_term m) (m_from m) r) r1 E2. clear E2.
    unfold okr in H. apply bind_ok in H. destruct H as (r2 & H & Hx). apply Ok_inj, pair_equal_spec in Hx. destruct Hx as [<- _].
    apply handle_app_qa in H. apply rcall_qa. eapply qa_trans; eauto.
  - assert (Hd' : m_term m = r_term r) by (apply Hd; auto). pose proof (follow_qa (m_term m) (m_from m) r ltac:(lia)) as A2. hide (become_follower (m_term m) (m_from m) r) r1 E2. clear E2.
    unfold okr in H. apply bind_ok in H. destruct H as (r2 & H & Hx). apply Ok_inj, pair_equal_spec in Hx. destruct Hx as [<- _].
    apply handle_snap_qa in H. apply rcall_qa. eapply qa_trans; eauto.
  - assert (Hd' : m_term m = r_term r) by (apply Hd; auto). pose proof (follow_qa (m_term m) (m_from m) r ltac:(lia)) as A2. pose proof (become_follower_term (m_term m) (m_from m) r) as A3.
    hide (become_follower (m_term m) (m_from m) r) r1 E2. destruct (become_follower_fields _ _ _ _ E2) as (B1&B2&B3&B4&B5&B6&B7&_). clear E2.
    unfold okr in H. apply bind_ok in H. destruct H as (r2 & H & Hx). apply Ok_inj, pair_equal_spec in Hx. destruct Hx as [<- _].
    eapply rcall_pre; [exact A2|]. apply handle_beat_rcall; auto.
Qed.
Lemma follower_rcall m r r' e : (m_type m = MsgHeartbeat -> m_term m = r_term r) -> r_state r = RFollower -> step_follower m r = Ok (r', e) -> rcall m r r' [].
Proof.
  intros Hd Hs H. unfold step_follower in H. cbv zeta in H.
  set (r0 := set_r_lead (m_from m) (set_r_el_elapsed 0 r)) in *.
  assert (A0 : qa r r0 /\ r_state r0 = RFollower /\ r_term r0 = r_term r) by (split; [unfold r0; qe|auto]). clearbody r0. destruct A0 as (A0 & A1 & A2).
  destruct (m_type m) eqn:Ht; try (inv H; apply rcall_qa, qa_refl; fail);
    repeat match type of H with (if ?b then _ else _) = _ => destruct b eqn:?; [inv H; apply rcall_qa, qa_refl|] end;
    try (unfold okr in H; apply bind_ok in H; destruct H as (r1 & H & Hx); apply Ok_inj, pair_equal_spec in Hx; destruct Hx as [<- _]).
  - apply rcall_qa. apply qa_send in H; auto. destruct m; unfold plainm; cbn in *; rewrite Ht; exact I.
  - apply handle_app_qa in H. apply rcall_qa. eapply qa_trans; eauto.
  - apply handle_snap_qa in H. apply rcall_qa. eapply qa_trans; eauto.
  - eapply rcall_pre; [exact A0|]. apply handle_beat_rcall; auto. intros _. rewrite A2. auto.
  - apply rcall_qa. apply qa_send in H; auto. destruct m; unfold plainm; cbn in *; rewrite Ht; exact I.
  - apply rcall_qa. eapply hup_qa; eauto.
  - apply send_ok in H. destruct H as [-> H]. apply rcall_rbs, rbs_one. apply RbFwd; auto.
    + apply N.eqb_neq. auto.
    + destruct m as [ty a b c d e0 f g h i j k]; cbn in *. subst ty. cbn in H. auto.
  - destruct (m_entries m) as [|x [|y l]] eqn:He; inv H; try apply rcall_qa, qa_refl. apply rcall_rbs, rbs_one. eapply RbRead; eauto.
Qed.
Lemma step_vote_qa m r r' : step_vote m r = Ok r' -> qa r r'.
Proof.
  intros H. unfold step_vote in H. cbv zeta in H. apply bind_ok in H. destruct H as (up & Hup & H). apply bind_ok in H. destruct H as (rt & Hrt & H).
  assert (P : forall x, m_type x = rt -> plainm x) by (unfold plainm; intros x ->; destruct (m_type m); inv Hrt; exact I).
  destruct up.
  - apply bind_ok in H. destruct H as (r1 & H1 & H). apply qa_send in H1; [|apply P; reflexivity].
    destruct (mtype_eqb (m_type m) MsgVote) in H; inv H; auto. eapply qa_trans; [exact H1|qe].
  - apply qa_send in H; auto.
Qed.
Lemma dispatch_rcall m r r' e : disp_ok m r -> step_dispatch m r = Ok (r', e) -> exists l, rcall m r r' l.
Proof.
  intros Hd H. unfold step_dispatch in H.
  assert (Hb : m_type m = MsgHeartbeat \/ m_type m = MsgApp \/ m_type m = MsgSnap -> m_term m = r_term r).
  { intros Ht. destruct Hd as [_ [D|[[_ D]|[_ [D|[D _]]]]]]; auto; destruct Ht as [Ht|[Ht|Ht]]; rewrite Ht in D; discriminate. }
  assert (K : match r_state r with RLeader => step_leader m r | RCandidate | RPreCandidate => step_candidate m r | RFollower => step_follower m r end = Ok (r', e) ->
     exists l, rcall m r r' l).
  { clear H. intros H. destruct (r_state r) eqn:Hs.
    - eexists; eapply follower_rcall; eauto.
    - eexists; eapply candidate_rcall; eauto.
    - eapply leader_rcall; eauto.
    - eexists; eapply candidate_rcall; eauto. }
  destruct (m_type m) eqn:Ht; try (apply K; exact H); clear K;
    unfold okr in H; apply bind_ok in H; destruct H as (r1 & H & Hx); apply Ok_inj, pair_equal_spec in Hx; destruct Hx as [<- _]; exists [].
  - apply rcall_qa. eapply hup_qa; eauto.
  - apply rcall_qa. eapply step_vote_qa; eauto.
  - apply rcall_qa. eapply step_vote_qa; eauto.
Qed.
Lemma step_rcall m r r' e : wf_in m -> step m r = Ok (r', e) -> exists l, rcall m r r' l.
Proof.
  intros Hw H. unfold step in H. destruct (N.eqb_spec (m_term m) 0) as [H0|H0]; [apply dispatch_rcall with (e := e); auto; split; auto; right; left; auto|].
  destruct (N.ltb_spec (r_term r) (m_term m)) as [H1|H1].
  - destruct (_ && _ && _) in H; [inv H; exists []; apply rcall_qa, qa_refl|].
    assert (F : forall l, step_dispatch m (become_follower (m_term m) l r) = Ok (r', e) -> exists l, rcall m r r' l).
    { clear H. intros l H. pose proof (follow_qa (m_term m) l r ltac:(lia)) as A1.
      assert (D : disp_ok m (become_follower (m_term m) l r)) by (split; auto; left; rewrite become_follower_term; auto).
      hide (become_follower (m_term m) l r) r1 E1. clear E1. apply dispatch_rcall in H; auto. destruct H as (la & H). exists la. eapply rcall_pre; eauto. }
    destruct (m_type m) eqn:Hty; try (eapply F; exact H); try (destruct (m_reject m) eqn:Hrj in H; [eapply F; exact H|]); apply dispatch_rcall with (e := e); auto; split; auto; right; right; rewrite Hty; auto.
  - destruct (N.ltb_spec (m_term m) (r_term r)) as [H2|H2]; [|apply dispatch_rcall with (e := e); auto; split; auto; left; lia].
    exists []. apply rcall_qa. destruct (_ && _) in H; [|destruct (mtype_eqb _ _) in H; [|inv H; apply qa_refl]];
      unfold okr in H; apply bind_ok in H; destruct H as (r1 & H & Hx); apply Ok_inj, pair_equal_spec in Hx; destruct Hx as [<- _];
      (apply qa_send in H; [auto|exact I]).
Qed.
Lemma hup_step_qa m r r' e : m_term m = 0 -> m_type m = MsgHup -> step m r = Ok (r', e) -> qa r r'.
Proof.
  intros Hm Hty K. unfold step in K. rewrite Hm in K. cbn [N.eqb] in K. unfold step_dispatch in K. rewrite Hty in K.
  unfold okr in K. apply bind_ok in K. destruct K as (r4 & K & Hx). apply Ok_inj, pair_equal_spec in Hx. destruct Hx as [<- _]. eapply hup_qa; exact K.
Qed.
Lemma tick_election_qa r r' : tick_election r = Ok r' -> qa r r'.
Proof.
  intros K. unfold tick_election in K. cbv zeta in K.
  assert (A : qa r (set_r_el_elapsed (r_el_elapsed r + 1) r)) by qe. revert K A. generalize (set_r_el_elapsed (r_el_elapsed r + 1) r) as r0. intros r0 K A.
  destruct (promotable r0 && past_election_timeout r0) in K; [|inv K; auto].
  apply bind_ok in K. destruct K as ([r3 e3] & K & Hx). apply Ok_inj in Hx. subst r3.
  eapply qa_trans; [exact A|]. eapply qa_trans; [|eapply hup_step_qa; [| |exact K]]; try reflexivity. qe.
Qed.
Lemma check_quorum_qa r : qa r (leader_check_quorum r).
Proof.
  unfold leader_check_quorum. cbv zeta.
  set (r4 := match trk_get (r_id r) (r_trk r) with Some _ => _ | None => _ end).
  assert (F : qa r r4) by (unfold r4; destruct (trk_get _ _); [qe|apply qa_refl]). clearbody r4. eapply qa_trans; [exact F|].
  destruct (trk_quorum_active (r_trk r4)); [qe|].
  eapply qa_trans; [apply follow_qa, N.le_refl|]. hide (become_follower (r_term r4) 0 r4) r5 E2. clear E2. qe.
Qed.
Lemma cq_step_qa m r r' e : r_state r = RLeader -> m_term m = 0 -> m_type m = MsgCheckQuorum -> step m r = Ok (r', e) -> qa r r'.
Proof.
  intros Ha Hm Hty H2. pose proof (check_quorum_qa r) as Q. unfold step in H2. rewrite Hm in H2. cbn [N.eqb] in H2. unfold step_dispatch in H2. rewrite Hty, Ha in H2.
  unfold step_leader in H2. rewrite Hty in H2. revert H2 Q. generalize (leader_check_quorum r). intros x H2 Q. inv H2. auto.
Qed.
Lemma beat_step_rb im m r r' e : r_state r = RLeader -> m_term m = 0 -> m_type m = MsgBeat -> step m r = Ok (r', e) -> rb im [] r [] r' [].
Proof.
  intros Ha Hm Hty H. unfold step in H. rewrite Hm in H. cbn [N.eqb] in H. unfold step_dispatch in H. rewrite Hty, Ha in H.
  unfold step_leader in H. rewrite Hty in H. unfold okr in H. apply bind_ok in H. destruct H as (r4 & H & Hx). apply Ok_inj, pair_equal_spec in Hx. destruct Hx as [<- _].
  unfold bcast_heartbeat in H. eapply bcast_beat; [exact Ha| |exact H].
  unfold ro_last_ctx. destruct (ro_queue (r_ro r)) as [|x q] eqn:Hq; [left; reflexivity|]. right. left.
  clear. revert x. induction q as [|y q IH]; intros x; [left; reflexivity|]. right. apply (IH y).
Qed.
Lemma tick_heartbeat_rcall im r r' : r_state r = RLeader -> tick_heartbeat r = Ok r' -> rcall im r r' [].
Proof.
  intros Hs H. unfold tick_heartbeat in H. cbv zeta in H.
  assert (K0 : r_state (set_r_el_elapsed (r_el_elapsed r + 1) (set_r_hb_elapsed (r_hb_elapsed r + 1) r)) = RLeader /\
    qa r (set_r_el_elapsed (r_el_elapsed r + 1) (set_r_hb_elapsed (r_hb_elapsed r + 1) r))) by (split; [exact Hs|qe]).
  revert H K0. generalize (set_r_el_elapsed (r_el_elapsed r + 1) (set_r_hb_elapsed (r_hb_elapsed r + 1) r)) as r0. intros r0 H [K1 K5].
  apply bind_ok in H. destruct H as (r1 & H1 & H).
  assert (A1 : qa r r1).
  { destruct (k_el_timeout (r_cfg r0) <=? r_el_elapsed r0); [|apply Ok_inj in H1; subst r1; auto].
    apply bind_ok in H1. destruct H1 as (r2 & H2 & H1).
    assert (A2 : qa r r2).
    { eapply qa_trans; [exact K5|]. match type of H2 with (if ?b then _ else _) = _ => destruct b end; [|apply Ok_inj in H2; subst r2; qe].
      apply bind_ok in H2. destruct H2 as ([r3 e3] & H2 & Hx). apply Ok_inj in Hx. subst r3.
      eapply qa_trans; [|eapply cq_step_qa; [| | |exact H2]]; try reflexivity; [qe|exact K1]. }
    destruct (is_leader r2 && negb (r_transferee r2 =? 0)); apply Ok_inj in H1; subst r1; auto. eapply qa_trans; [exact A2|qe]. }
  clear H1. destruct (negb (is_leader r1)) eqn:Hl; [apply Ok_inj in H; subst r'; apply rcall_qa; auto|].
  assert (Hl1 : r_state r1 = RLeader) by (unfold is_leader in Hl; destruct (r_state r1); auto; discriminate). clear Hl.
  destruct (k_hb_timeout (r_cfg r1) <=? r_hb_elapsed r1); [|apply Ok_inj in H; subst r'; apply rcall_qa; auto].
  apply bind_ok in H. destruct H as ([r3 e3] & H & Hx). apply Ok_inj in Hx. subst r3.
  exists (set_r_hb_elapsed 0 r1), []. split; [eapply qa_trans; [exact A1|qe]|]. split; [left; auto|]. apply rbs_one. eapply beat_step_rb; [| | |exact H]; try reflexivity. exact Hl1.
Qed.
Lemma tick_rcall im r r' : tick r = Ok r' -> rcall im r r' [].
Proof.
  intros H. unfold tick in H. destruct (r_state r) eqn:Hs; [| |apply tick_heartbeat_rcall; assumption|]; apply rcall_qa, tick_election_qa; exact H.
Qed.

(** The message an operation makes the node handle. *)
Definition opmsg (o : nop) (im : msg) : Prop :=
  match o with NStep m => im = m | NReadIndex c => im = read_index_msg c | _ => m_type im <> MsgReadIndex /\ m_type im <> MsgHeartbeat /\
    m_type im <> MsgHeartbeatResp /\ m_type im <> MsgReadIndexResp /\ m_type im <> MsgAppResp end.
Theorem n_step_rcall o n n' out : plain o -> nop_wf o -> n_step o n = Ok (n', out) ->
  exists im l, opmsg o im /\ wf_in im /\ rcall im (rn_raft n) (rn_raft n') l.
Proof.
  intros Hp Hw H.
  assert (S : forall m x y, wf_in m -> opmsg o m -> rn_raft_step m n = Ok (x, y) -> exists im l, opmsg o im /\ wf_in im /\ rcall im (rn_raft n) (rn_raft x) l).
  { intros m x y Hwm Ho Hs. unfold rn_raft_step in Hs. apply bind_ok in Hs. destruct Hs as ([r1 e1] & Hs & Hx). inv Hx. cbn.
    apply step_rcall in Hs; auto. destruct Hs as (l & Hs). eauto. }
  assert (Q : qa (rn_raft n) (rn_raft n') -> (forall m, o <> NStep m) -> (forall c, o <> NReadIndex c) -> exists im l, opmsg o im /\ wf_in im /\ rcall im (rn_raft n) (rn_raft n') l).
  { intros A B1 B2. exists (new_msg MsgHup), []. split; [destruct o; cbn; repeat split; try discriminate; try (exfalso; eapply B1; reflexivity); exfalso; eapply B2; reflexivity|]. split; [intros _; reflexivity|apply rcall_qa; auto]. }
  assert (W : forall m, m_term m = 0 -> local_type (m_type m) = true -> wf_in m) by (intros m _ X _; exact X).
  destruct o; try (destruct Hp; fail); cbn [n_step] in H.
  - apply bind_ok in H. destruct H as (n1 & H & Hx). inv Hx. unfold rn_tick in H. apply bind_ok in H. destruct H as (r1 & H & Hx). inv Hx. cbn.
    exists (new_msg MsgHup), []. split; [repeat split; discriminate|]. split; [intros _; reflexivity|]. apply tick_rcall; auto.
  - inv H. apply Q; try discriminate. cbn. unfold tick_quiesced. qe.
  - apply bind_ok in H. destruct H as ([n1 e1] & H & Hx). inv Hx. eapply S; [| |exact H]; [apply W; reflexivity|repeat split; discriminate].
  - apply bind_ok in H. destruct H as ([n1 e1] & H & Hx). inv Hx. eapply S; [| |exact H]; [apply W; reflexivity|repeat split; discriminate].
  - apply bind_ok in H. destruct H as ([n1 e1] & H & Hx). inv Hx. unfold rn_propose_conf_change in H. apply bind_ok in H. destruct H as ([t d] & _ & H).
    eapply S; [| |exact H]; [apply W; reflexivity|repeat split; discriminate].
  - apply bind_ok in H. destruct H as ([n1 e1] & H & Hx). inv Hx. unfold rn_apply_conf_change in H. apply bind_ok in H. destruct H as (c & _ & H).
    apply bind_ok in H. destruct H as ([r1 cs] & H & Hx). inv Hx. cbn. unfold raft_apply_conf_change in H. cbv zeta in H. apply bind_ok in H. destruct H as ([cp|] & _ & H); [|discriminate].
    apply Q; try discriminate. cbn. eapply switch_qa; eauto.
  - apply bind_ok in H. destruct H as ([n1 e1] & H & Hx). inv Hx. unfold rn_step in H. cbn in Hw.
    assert (Wm : wf_in m) by (intros Hz; destruct Hw as [_ Hw]; destruct (Hw Hz) as [Y|[Y|Y]]; rewrite Y; reflexivity).
    destruct (is_local_msg _); [inv H; exists m, []; split; [reflexivity|]; split; auto; apply rcall_qa, qa_refl|].
    destruct (_ || _); [|inv H; exists m, []; split; [reflexivity|]; split; auto; apply rcall_qa, qa_refl].
    eapply S; [exact Wm|reflexivity|exact H].
  - apply bind_ok in H. destruct H as (n1 & H & Hx). inv Hx. unfold rn_report_unreachable in H. apply bind_ok in H. destruct H as ([n2 e2] & H & Hx). inv Hx.
    eapply S; [| |exact H]; [apply W; reflexivity|repeat split; discriminate].
  - apply bind_ok in H. destruct H as (n1 & H & Hx). inv Hx. unfold rn_report_snapshot in H. apply bind_ok in H. destruct H as ([n2 e2] & H & Hx). inv Hx.
    eapply S; [| |exact H]; [apply W; reflexivity|repeat split; discriminate].
  - apply bind_ok in H. destruct H as (n1 & H & Hx). inv Hx. unfold rn_transfer_leader in H. apply bind_ok in H. destruct H as ([n2 e2] & H & Hx). inv Hx.
    eapply S; [| |exact H]; [apply W; reflexivity|repeat split; discriminate].
  - apply bind_ok in H. destruct H as (n1 & H & Hx). inv Hx. unfold rn_read_index in H. apply bind_ok in H. destruct H as ([n2 e2] & H & Hx). inv Hx.
    eapply S; [| |exact H]; [apply W; reflexivity|reflexivity].
Qed.
End Rd.
