(** A leader resumes, retries and goes on (C63); growth is broadcast (C64). *)
From Verif Require Import Prelude Types M_Util M_Quorum M_Inflights M_Progress M_Tracker.
From Verif Require Import M_Storage M_Unstable M_Log M_ReadOnly M_ConfPb M_ConfChange M_Raft M_RawNode.
From Verif Require Import P_Inflights Spec_Log P_Lists P_Storage P_Log Spec_Storage Sys_Storage P_StorageSeq Spec_RaftLog Sys_RaftLog P_RaftLogSeq.
From Verif Require Import Spec_Quorum P_Quorum Spec_Progress Spec_ConfChange P_ConfChange Spec_Inflights Sys_ConfChange.
From Verif Require Import P_Frame P_Prim Sys_Node P_Node P_Fields P_Vote Spec_Node P_Persist P_New P_Time P_NodeLog P_Handle P_NodeRun P_Emit P_Lead P_Ack P_Flow P_Window P_FlowRun P_Elect P_Beat P_Commit P_Feed P_Bcast.
From Verif Require Import Prop_Vote Prop_Deliver Prop_Msg Prop_Flow Prop_Elect Prop_Beat Prop_Commit Prop_Leader R_Elig Spec_Flow Spec_Beat Spec_Commit Spec_Feed Ex_Env Ex_Node Ex_Check Ex_Case.

Section Props.
Context {E : Env}.

Lemma made_window c n : made c n -> 1 <= max_inflight c.
Proof.
  intros (tape & s & n0 & os & outs & H1 & H2 & H3 & H4 & H5).
  apply rn_new_spec in H3. destruct H3 as (r & H & _). apply raft_new_spec in H. destruct H as (s' & cp & V & _).
  unfold max_inflight. unfold validate in V. destruct (c_id c =? 0); [discriminate|].
  destruct (_ <=? 0)%Z; [discriminate|]. destruct (_ <=? _)%Z; [discriminate|]. destruct (c_storage c); [|discriminate].
  destruct (Z.leb_spec (c_max_inflight c) 0); [discriminate|]. lia.
Qed.
(** What is known of a member of a leader. *)
Lemma peer_win c n to p : made c n -> node_role n = RLeader -> to <> node_id n -> peer n to = Some p ->
  trk_get to (r_trk (rn_raft n)) = Some p /\ i_size (p_infl p) = max_inflight c /\ 1 <= i_size (p_infl p) /\ exists q, win p q.
Proof.
  intros M L Hto Hp. pose proof (made_window _ _ M) as K. apply made_inv in M. rewrite peer_get in Hp by auto. split; [exact Hp|].
  destruct (mi_win _ _ M L to p Hto Hp) as [[A _] B]. rewrite A, (mi_max _ _ M). auto.
Qed.
Lemma paused_iff K p : i_size (p_infl p) = K -> (paused K p <-> pr_is_paused p = true).
Proof.
  intros Hk. split; [apply paused_is; auto|]. unfold paused, pr_is_paused, inf_full. destruct (p_state p); auto. intros H. apply N.eqb_eq in H. congruence.
Qed.
Lemma not_paused K p : i_size (p_infl p) = K -> ~ paused K p -> pr_is_paused p = false.
Proof. intros Hk H. rewrite (paused_iff K p Hk) in H. destruct (pr_is_paused p); congruence. Qed.
(** A response of the term from a member, as a step of the leader. *)
Lemma nstep_resp m n n' out p : m_type m = MsgAppResp \/ m_type m = MsgHeartbeatResp -> peer_msg_wf m -> node_role n = RLeader ->
  m_term m = node_term n -> trk_get (m_from m) (r_trk (rn_raft n)) = Some p -> n_step (NStep m) n = Ok (n', out) ->
  exists r', match m_type m with MsgAppResp => leader_app_resp m p (rn_raft n) | _ => leader_heartbeat_resp m p (rn_raft n) end = Ok r' /\ n' = set_rn_raft r' n.
Proof.
  intros Ht [Hfr Hz] L T Hp H. cbn [n_step] in H. apply bind_ok in H. destruct H as ([n1 e1] & H & Hx). apply Ok_inj, pair_equal_spec in Hx. destruct Hx as [<- _].
  assert (Hnz : m_term m <> 0) by (intros X; apply Hz in X; destruct Ht as [Ht|Ht]; rewrite Ht in X; destruct X as [X|[X|X]]; discriminate).
  assert (H' : rn_raft_step m n = Ok (n1, e1)).
  { unfold rn_step in H. rewrite Hp in H. destruct Ht as [Ht|Ht]; rewrite Ht in H; cbn [is_local_msg is_response_msg negb orb] in H; exact H. }
  unfold rn_raft_step in H'. apply bind_ok in H'. destruct H' as ([r1 e2] & H' & Hx). apply Ok_inj, pair_equal_spec in Hx. destruct Hx as [<- <-].
  unfold step in H'. destruct (N.eqb_spec (m_term m) 0); [congruence|]. change (m_term m = r_term (rn_raft n)) in T.
  destruct (N.ltb_spec (r_term (rn_raft n)) (m_term m)); [lia|]. destruct (N.ltb_spec (m_term m) (r_term (rn_raft n))); [lia|].
  change (r_state (rn_raft n) = RLeader) in L. unfold step_dispatch, step_leader in H'. rewrite L, Hp in H'.
  destruct Ht as [Ht|Ht]; rewrite Ht in *; unfold okr in H'; apply bind_ok in H'; destruct H' as (r2 & H' & Hx); apply Ok_inj, pair_equal_spec in Hx; destruct Hx as [<- _]; eauto.
Qed.
(** From a message of the raft state to the API. *)
Lemma feeds_sent c o n n' out new x to p2 : made c n -> nop_ok o n -> n_step o n = Ok (n', out) ->
  r_msgs (rn_raft n') = r_msgs (rn_raft n) ++ new -> In x new -> feeds (rn_raft n) to p2 x -> sent_from o n n' to (p_next p2).
Proof.
  intros M Hk H Hn Hx (F1 & F2 & F3 & F4). assert (Em : emits o n n' x) by (exists out, new; auto).
  exists x. split; [exact Em|]. split; [exact F1|]. split; [exact F2|]. split; [exact F3|].
  destruct F4 as [(F4 & F5 & F6)|F4]; [left|right; exact F4]. split; [exact F4|]. split; [exact F6|]. split; [exact F5|].
  intros Hl. destruct (C45_append_content _ _ _ _ _ M Hk Em F4) as (_ & _ & _ & _ & _ & _ & G & _). apply G. lia.
Qed.

(** C63: a heartbeat response makes the leader send to a member that lacks entries, whatever paused it
    before, short of a snapshot under way: entries from [p_next] on, or a snapshot. *)
Theorem C63_beat_resp_resumes c m n n' out p :
  made c n -> nop_ok (NStep m) n -> n_step (NStep m) n = Ok (n', out) -> node_role n = RLeader ->
  m_type m = MsgHeartbeatResp -> m_term m = node_term n -> m_from m <> node_id n ->
  peer n (m_from m) = Some p -> p_state p <> StSnapshot -> p_match p < node_last n ->
  sent_from (NStep m) n n' (m_from m) (p_next p).
Proof.
  intros M Hk H L Ht T Hto Hp Hs Hm. destruct (peer_win _ _ _ _ M L Hto Hp) as (G & Z & K & q & W).
  destruct (nstep_resp _ _ _ _ _ (or_intror Ht) (proj1 Hk) L T G H) as (r' & H1 & ->). rewrite Ht in H1.
  pose proof (lwf_0 _ (li_wf _ (ni_log _ (di_ninv _ (mi_dinv _ _ (made_inv _ _ M)))))) as W0.
  destruct (heartbeat_resp_feeds _ _ _ _ _ W0 G W K Hs Hm H1) as (new & x & A & B & C).
  eapply feeds_sent; eauto.
Qed.
(** C63: the rejection of an append message, unless outdated, is answered by a message from an earlier
    index; a replicating member is taken back to the first entry it is not known to hold. *)
Theorem C63_reject_retries c m n n' out p :
  made c n -> nop_ok (NStep m) n -> n_step (NStep m) n = Ok (n', out) -> node_role n = RLeader ->
  m_type m = MsgAppResp -> m_term m = node_term n -> m_from m <> node_id n -> m_reject m = true -> 0 < m_index m ->
  peer n (m_from m) = Some p -> news (m_index m) p ->
  exists next, sent_from (NStep m) n n' (m_from m) next /\ next <= m_index m /\ (p_state p = StReplicate -> next = p_match p + 1).
Proof.
  intros M Hk H L Ht T Hto Hr Hi Hp Hn. destruct (peer_win _ _ _ _ M L Hto Hp) as (G & Z & K & q & W).
  destruct (nstep_resp _ _ _ _ _ (or_introl Ht) (proj1 Hk) L T G H) as (r' & H1 & ->). rewrite Ht in H1.
  pose proof (lwf_0 _ (li_wf _ (ni_log _ (di_ninv _ (mi_dinv _ _ (made_inv _ _ M)))))) as W0.
  destruct (reject_feeds _ _ _ _ W0 G Hn Hr Hi H1) as (x & p2 & A & B & C & D).
  exists (p_next p2). split; [|auto]. eapply feeds_sent; eauto. left; auto.
Qed.
(** C63: after an acknowledgement that brings news, the member has been sent all it can take. *)
Theorem C63_ack_continues c m n n' out p :
  made c n -> nop_ok (NStep m) n -> n_step (NStep m) n = Ok (n', out) -> node_role n = RLeader ->
  m_type m = MsgAppResp -> m_term m = node_term n -> m_from m <> node_id n -> m_reject m = false ->
  peer n (m_from m) = Some p -> p_match p < m_index m -> node_role n' = RLeader ->
  exists p', peer n' (m_from m) = Some p' /\ p_match p' = m_index m /\ served (max_inflight c) n' p'.
Proof.
  intros M Hk H L Ht T Hto Hr Hp Hm L'. destruct (peer_win _ _ _ _ M L Hto Hp) as (G & Z & K & q & W).
  pose proof (made_step _ _ _ _ _ M Hk H) as M'.
  destruct (nstep_resp _ _ _ _ _ (or_introl Ht) (proj1 Hk) L T G H) as (r' & H1 & Hn). rewrite Ht in H1.
  pose proof (lwf_0 _ (li_wf _ (ni_log _ (di_ninv _ (mi_dinv _ _ (made_inv _ _ M)))))) as W0.
  destruct (proj1 (accept_spec _ _ _ _ W0 G Hr Hm H1)) as (p' & A & B & C).
  assert (Hp' : peer n' (m_from m) = Some p') by (rewrite peer_get by auto; subst n'; exact A).
  exists p'. split; [exact Hp'|]. split; [exact C|].
  assert (Hto' : m_from m <> node_id n').
  { intros X. apply Hto. rewrite X. change (k_id (r_cfg (rn_raft n')) = k_id (r_cfg (rn_raft n))). rewrite (mi_cfg _ _ (made_inv _ _ M)), (mi_cfg _ _ (made_inv _ _ M')). reflexivity. }
  destruct (peer_win _ _ _ _ M' L' Hto' Hp') as (_ & Z' & _).
  unfold served. rewrite (paused_iff _ _ Z'). subst n'. exact B.
Qed.
(** C63: an acknowledgement that ends a pause makes the leader send the rest. *)
Theorem C63_ack_resumes c m n n' out p :
  made c n -> nop_ok (NStep m) n -> n_step (NStep m) n = Ok (n', out) -> node_role n = RLeader ->
  m_type m = MsgAppResp -> m_term m = node_term n -> m_from m <> node_id n -> m_reject m = false ->
  peer n (m_from m) = Some p -> p_match p < m_index m -> resumes (max_inflight c) (m_index m) p ->
  sent_from (NStep m) n n' (m_from m) (match p_state p with StReplicate => N.max (p_next p) (m_index m + 1) | _ => m_index m + 1 end).
Proof.
  intros M Hk H L Ht T Hto Hr Hp Hm Hu. destruct (peer_win _ _ _ _ M L Hto Hp) as (G & Z & K & q & W).
  destruct (nstep_resp _ _ _ _ _ (or_introl Ht) (proj1 Hk) L T G H) as (r' & H1 & ->). rewrite Ht in H1.
  pose proof (lwf_0 _ (li_wf _ (ni_log _ (di_ninv _ (mi_dinv _ _ (made_inv _ _ M)))))) as W0.
  destruct (proj2 (accept_spec _ _ _ _ W0 G Hr Hm H1)) as (p2 & new & x & A & B & C & D); auto; [|apply W|].
  - destruct Hu as [Hu1 Hu2]. unfold unblocks, paused in *. destruct (p_state p); auto. split; [congruence|].
    destruct Hu2 as (b & Hb & Hle). unfold oldest in Hb. destruct (N.eqb_spec (i_count (p_infl p)) 0) as [|Hc]; [discriminate|].
    destruct W as ((_ & _ & Iw) & Hh & _). destruct q as [|b' q]; [destruct Hh as [Hh _]; rewrite nlen_nil in Hh; congruence|].
    exists b', q. split; [exact Hh|]. destruct Hh as [_ Hh]. assert (0 < nlen (b' :: q)) as Hq by (rewrite nlen_cons; lia). specialize (Hh 0 Hq).
    assert (Hr0 : ring_pos (p_infl p) 0 = i_start (p_infl p)) by (unfold ring_pos; rewrite N.add_0_r; destruct (N.leb_spec (i_size (p_infl p)) (i_start (p_infl p))); lia).
    rewrite Hr0, Hb in Hh. cbn in Hh. injection Hh as ->. exact Hle.
  - replace (match p_state p with StReplicate => _ | _ => _ end) with (next_after m p) by reflexivity. rewrite <- A. eapply feeds_sent; eauto.
Qed.
(** C63: a member reported unreachable is probed from the first entry it is not known to hold. *)
Theorem C63_unreachable_probes c id n n' out p :
  made c n -> n_step (NReportUnreachable id) n = Ok (n', out) -> node_role n = RLeader -> peer n id = Some p -> p_state p = StReplicate ->
  exists p', peer n' id = Some p' /\ p_state p' = StProbe /\ p_probe_sent p' = false /\ p_match p' = p_match p /\ p_next p' = p_match p + 1.
Proof.
  intros M H L Hp Hs. rewrite peer_get in Hp by auto. change (r_state (rn_raft n) = RLeader) in L.
  cbn [n_step] in H. apply bind_ok in H. destruct H as (n1 & H & Hx). apply Ok_inj, pair_equal_spec in Hx. destruct Hx as [<- _].
  unfold rn_report_unreachable, rn_raft_step in H. apply bind_ok in H. destruct H as ([n2 e2] & H & Hx). apply Ok_inj in Hx. subst n2.
  apply bind_ok in H. destruct H as ([r2 e3] & H & Hx). apply Ok_inj, pair_equal_spec in Hx. destruct Hx as [<- _].
  unfold step in H. cbn [m_term set_m_from new_msg] in H. rewrite N.eqb_refl in H.
  unfold step_dispatch, step_leader in H. cbn [m_type set_m_from new_msg m_from] in H. rewrite L, Hp in H.
  apply Ok_inj, pair_equal_spec in H. destruct H as [<- _]. unfold leader_unreachable. rewrite Hs. cbn [pstate_eqb m_from set_m_from].
  exists (pr_become_probe p). split.
  { rewrite peer_get by exact L. apply get_put. }
  unfold pr_become_probe. rewrite Hs. cbn. auto.
Qed.
(** C63: a reported snapshot, delivered or failed, ends the member's snapshot state: it is to be probed
    (once it was heard from) from behind the snapshot, or (failure) from the first entry it is not known to hold. *)
Theorem C63_snapshot_report c id failed n n' out p :
  made c n -> n_step (NReportSnapshot id failed) n = Ok (n', out) -> node_role n = RLeader -> peer n id = Some p -> p_state p = StSnapshot ->
  exists p', peer n' id = Some p' /\ p_state p' = StProbe /\ p_probe_sent p' = true /\ p_match p' = p_match p /\
    p_next p' = N.max (p_match p + 1) (if failed then 1 else p_pending p + 1).
Proof.
  intros M H L Hp Hs. rewrite peer_get in Hp by auto. change (r_state (rn_raft n) = RLeader) in L.
  cbn [n_step] in H. apply bind_ok in H. destruct H as (n1 & H & Hx). apply Ok_inj, pair_equal_spec in Hx. destruct Hx as [<- _].
  unfold rn_report_snapshot, rn_raft_step in H. apply bind_ok in H. destruct H as ([n2 e2] & H & Hx). apply Ok_inj in Hx. subst n2.
  apply bind_ok in H. destruct H as ([r2 e3] & H & Hx). apply Ok_inj, pair_equal_spec in Hx. destruct Hx as [<- _].
  unfold step in H. cbn [m_term set_m_reject set_m_from new_msg] in H. rewrite N.eqb_refl in H.
  unfold step_dispatch, step_leader in H. cbn [m_type set_m_reject set_m_from new_msg m_from] in H. rewrite L, Hp in H.
  apply Ok_inj, pair_equal_spec in H. destruct H as [<- _]. unfold leader_snap_status. rewrite Hs. cbn [m_from m_reject set_m_reject set_m_from].
  eexists. split; [rewrite peer_get by exact L; apply get_put|].
  destruct failed; unfold pr_become_probe; cbn [p_state set_p_pending]; rewrite Hs; cbn; repeat split; lia.
Qed.

(** C64: when a message or a proposal makes the log or the commit index of a leader grow, every member
    that can take it is sent a message at once. *)
Theorem C64_broadcast c o n n' out to p :
  made c n -> nop_ok o n -> n_step o n = Ok (n', out) -> still_leads n n' ->
  (exists d, o = NPropose d) \/ (exists cc, o = NProposeCC cc) \/ (exists m, o = NStep m) ->
  node_last n < node_last n' \/ node_commit n < node_commit n' ->
  to <> node_id n -> peer n to = Some p -> ready_for (max_inflight c) n p ->
  exists next, sent_from o n n' to next /\ (next = p_next p \/ exists m, o = NStep m /\ m_type m = MsgAppResp /\ m_from m = to).
Proof.
  intros M Hk H (L & L' & T) Ho Hg Hto Hp [Hr1 Hr2]. destruct (peer_win _ _ _ _ M L Hto Hp) as (G & Z & K & q & W).
  apply (not_paused _ _ Z) in Hr1. pose proof (mi_dinv _ _ (made_inv _ _ M)) as D.
  assert (X : exists m r' e, step m (rn_raft n) = Ok (r', e) /\ n' = set_rn_raft r' n /\ wf_in m /\ (m_type m = MsgAppResp -> o = NStep m)).
  { destruct Ho as [[d ->]|[[cc ->]|[m ->]]]; cbn [n_step] in H; apply bind_ok in H; destruct H as ([n1 e1] & H & Hx); apply Ok_inj, pair_equal_spec in Hx; destruct Hx as [<- _].
    - unfold rn_propose, rn_raft_step in H. apply bind_ok in H. destruct H as ([r2 e3] & H & Hx). apply Ok_inj, pair_equal_spec in Hx. destruct Hx as [<- _].
      do 3 eexists. split; [exact H|]. split; [reflexivity|]. split; [intros _; reflexivity|]. discriminate.
    - unfold rn_propose_conf_change in H. apply bind_ok in H. destruct H as ([t0 d0] & _ & H). unfold rn_raft_step in H.
      apply bind_ok in H. destruct H as ([r2 e3] & H & Hx). apply Ok_inj, pair_equal_spec in Hx. destruct Hx as [<- _].
      do 3 eexists. split; [exact H|]. split; [reflexivity|]. split; [intros _; reflexivity|]. discriminate.
    - unfold rn_step in H.
      assert (Hstay : Ok (n, @None err) = Ok (n1, @None err) -> False).
      { intros Q. inv Q. destruct Hg as [Hg|Hg]; exact (N.lt_irrefl _ Hg). }
      match type of H with (if ?b then _ else _) = _ => destruct b end; [exfalso; apply Hstay; inv H; auto|]. cbv zeta in H.
      match type of H with (if ?b then _ else _) = _ => destruct b end; [|exfalso; apply Hstay; inv H; auto].
      unfold rn_raft_step in H. apply bind_ok in H. destruct H as ([r2 e3] & H & Hx). apply Ok_inj, pair_equal_spec in Hx. destruct Hx as [<- _].
      do 3 eexists. split; [exact H|]. split; [reflexivity|]. split; [|auto].
      intros Q. apply (proj2 (proj1 Hk)) in Q. destruct Q as [Q|[Q|Q]]; rewrite Q; reflexivity. }
  destruct X as (m & r' & e & Hs & Hn & Hw & Hf). change (r_state (rn_raft n) = RLeader) in L.
  destruct (step_grows (rn_raft n)) with (m := m) (r' := r') (e := e) as [Q|Q]; auto.
  - apply (li_wf _ (ni_log _ (di_ninv _ D))).
  - apply (ni_term _ (di_ninv _ D)). left. exact L.
  - intros to0 p0 Hto0 Hp0. rewrite <- peer_get in Hp0 by exact L. destruct (peer_win _ _ _ _ M L Hto0 Hp0) as (_ & _ & Q1 & Q2). auto.
  - subst n'. exact L'.
  - subst n'. exact T.
  - exfalso. subst n'. unfold node_last, node_commit, rn_status in Hg. cbn in Hg. rewrite Q in Hg. destruct Hg as [Hg|Hg]; exact (N.lt_irrefl _ Hg).
  - destruct (Q to p Hto G Hr1 Hr2) as (p2 & new & x & A1 & A2 & A3 & A4). exists (p_next p2). split.
    + eapply feeds_sent; eauto. subst n'. exact A1.
    + destruct A4 as [->|A4]; [left; auto|]. right. exists m. destruct A4 as [A4 A5]. auto.
Qed.
(** C64: a candidate that wins the election sends every other member an append message, from the entry
    before the one it starts its term with. *)
Theorem C64_new_leader c m n n' out to :
  made c n -> nop_ok (NStep m) n -> n_step (NStep m) n = Ok (n', out) -> node_role n = RCandidate ->
  m_type m = MsgVoteResp -> m_term m = node_term n -> node_role n' = RLeader -> to <> node_id n -> member n to ->
  exists x, emits (NStep m) n n' x /\ m_to x = to /\ m_type x = MsgApp /\ m_from x = node_id n /\ m_term x = node_term n' /\
    m_index x = node_last n /\ (exists e, m_entries x = [e] /\ e_term e = node_term n' /\ e_index e = node_last n').
Proof.
  intros M Hk H Hs Ht T L' Hto Hme. pose proof (made_inv _ _ M) as I. pose proof (mi_dinv _ _ I) as D.
  assert (G : exists p, trk_get to (r_trk (rn_raft n)) = Some p).
  { pose proof (proj2 (cw_trk _ _ (node_at_tok _ (made_at _ _ M)) to) Hme) as G. unfold trk_get. destruct (mget to (t_progress (r_trk (rn_raft n)))); [eauto|congruence]. }
  destruct G as [p G].
  assert (X : exists r' e, step m (rn_raft n) = Ok (r', e) /\ n' = set_rn_raft r' n).
  { cbn [n_step] in H. apply bind_ok in H. destruct H as ([n1 e1] & H & Hx). apply Ok_inj, pair_equal_spec in Hx. destruct Hx as [<- _]. unfold rn_step in H.
    assert (Hstay : n1 = n -> False) by (intros ->; congruence).
    match type of H with (if ?b then _ else _) = _ => destruct b end; [exfalso; apply Hstay; inv H; auto|]. cbv zeta in H.
    match type of H with (if ?b then _ else _) = _ => destruct b end; [|exfalso; apply Hstay; inv H; auto].
    unfold rn_raft_step in H. apply bind_ok in H. destruct H as ([r2 e3] & H & Hx). apply Ok_inj, pair_equal_spec in Hx. destruct Hx as [<- _]. eauto. }
  destruct X as (r' & e & Hst & Hn). 
  destruct (won_feeds (rn_raft n) r' m e (di_ninv _ D) Hs Ht T Hst ltac:(subst n'; exact L') to p Hto G) as (new & x & A1 & A2 & A3 & A4 & A5 & A6 & A7 & e0 & A8 & A9).
  assert (Em : emits (NStep m) n n' x) by (exists out, new; subst n'; auto).
  destruct (C45_append_content _ _ _ _ _ M Hk Em A4) as (_ & _ & _ & _ & B1 & _ & B2 & _).
  pose proof (mi_dinv _ _ (minv_step _ _ _ _ _ Hk H I)) as D'.
  pose proof (lwf_0 _ (li_wf _ (ni_log _ (di_ninv _ D)))) as W. pose proof (lwf_0 _ (li_wf _ (ni_log _ (di_ninv _ D')))) as W'.
  assert (Hla : node_last n' = node_last n + 1).
  { unfold node_last. rewrite !log_last_abs by auto. subst n'. cbn [rn_raft set_rn_raft]. rewrite A8, a_last_app. reflexivity. }
  unfold r_last in A5. change (m_index x = node_last n) in A5.
  exists x. split; [exact Em|]. split; [exact A3|]. split; [exact A4|]. split; [exact A7|]. split; [rewrite A6; subst n'; reflexivity|]. split; [exact A5|].
  assert (Hne : m_entries x <> []) by (apply B2; lia).
  destruct (m_entries x) as [|e1 es] eqn:Ex; [congruence|]. destruct (B1 0 e1 eq_refl) as [C1 C2].
  assert (En : es = []).
  { destruct es as [|e2 es]; [auto|]. exfalso. destruct (B1 1 e2 eq_refl) as [C3 _]. apply holds_abs in C3; auto.
    unfold node_last in *. rewrite !log_last_abs in Hla, A5 by auto. clear Hst. subst n'. cbn [rn_raft set_rn_raft] in *. rewrite A8 in C3.
    unfold a_entry, a_app, a_last in *. cbn [a_base a_ents] in *. destruct (_ <? _) in C3; [|discriminate]. apply nnth_Some_lt in C3. rewrite nlen_app, nlen_cons, nlen_nil in C3. lia. }
  subst es. exists e1. split; [reflexivity|]. split; [|lia].
  apply holds_abs in C1; auto. unfold node_last in *. rewrite !log_last_abs in Hla, A5 by auto. clear Hst. subst n'. cbn [rn_raft set_rn_raft] in *.
  rewrite A8 in C1. change (e_term e1 = r_term r'). rewrite <- A9. f_equal.
  unfold a_entry, a_app, a_last in *. cbn [a_base a_ents] in *. destruct (_ <? _) in C1; [|discriminate]. rewrite nnth_app2 in C1 by lia.
  match type of C1 with nnth _ ?k = _ => replace k with 0 in C1 by lia end. change (Some e0 = Some e1) in C1. congruence.
Qed.
(** C64: a member added to the configuration of a leader is sent an append message at once, if the
    leader's log is not compacted to the end. *)
Theorem C64_new_member c cc n n' out to :
  made c n -> n_step (NApplyCC cc) n = Ok (n', out) -> node_role n = RLeader -> votes_itself n' ->
  to <> node_id n -> peer n to = None -> peer n' to <> None -> node_first n <= node_last n ->
  exists x, emits (NApplyCC cc) n n' x /\ m_to x = to /\ m_type x = MsgApp /\ m_from x = node_id n /\ m_term x = node_term n /\
    m_index x + 1 = node_last n /\ m_entries x <> [].
Proof.
  intros M H L V Hto Hp Hp' Hf. pose proof (made_inv _ _ M) as I. pose proof (mi_dinv _ _ I) as D. rewrite peer_get in Hp by auto.
  assert (Hk : nop_ok (NApplyCC cc) n) by (split; exact Logic.I). pose proof (made_step _ _ _ _ _ M Hk H) as M'.
  assert (L' : node_role n' = RLeader).
  { destruct (node_role n') eqn:R; auto; exfalso; apply Hp'; unfold peer, rn_status, is_leader; cbn; change (r_state (rn_raft n') = node_role n') in R || idtac;
      change (node_role n') with (r_state (rn_raft n')) in R; rewrite R; reflexivity. }
  rewrite peer_get in Hp' by auto. pose proof (votes_itself_tracked n' (node_at_tok _ (made_at _ _ M')) V) as Vt.
  pose proof H as H0. cbn [n_step] in H. apply bind_ok in H. destruct H as ([n1 e1] & H & Hx). apply Ok_inj, pair_equal_spec in Hx. destruct Hx as [Hx _]. subst n1. unfold rn_apply_conf_change in H.
  apply bind_ok in H. destruct H as (v2 & _ & H). apply bind_ok in H. destruct H as ([r1 cs] & H & Hx). apply Ok_inj, pair_equal_spec in Hx. destruct Hx as [Hx _].
  pose proof (lwf_0 _ (li_wf _ (ni_log _ (di_ninv _ D)))) as W.
  destruct (apply_cc_feeds v2 (rn_raft n) r1 cs W H ltac:(subst n'; exact L') ltac:(fold (maxinf (rn_raft n)); rewrite (mi_max _ _ I); eapply made_window; eauto)
    ltac:(subst n'; exact Vt) ltac:(subst n'; exact (proj1 V)) to Hto Hp ltac:(subst n'; exact Hp') Hf) as (new & x & A1 & A2 & A3 & A4 & A5 & A6 & A7).
  assert (Em : emits (NApplyCC cc) n n' x) by (exists out, new; subst n'; auto).
  exists x. split; [exact Em|]. split; [exact A3|]. split; [exact A6|]. split; [exact A4|]. split; [exact A5|]. split; [exact A7|].
  destruct (C45_append_content _ _ _ _ _ M Hk Em A6) as (_ & _ & B0 & _ & _ & _ & B2 & _). apply B2.
  change (m_index x + 1 = node_last n) in A7.
  assert (node_last n <= node_last n'); [|lia].
  assert (R : n_run [NApplyCC cc] n = Ok (n', [out])) by (cbn [n_run]; rewrite H0; reflexivity).
  apply (C33_leader_append_only n [NApplyCC cc] n' [out] (made_at _ _ M)); auto.
  - cbn [n_run_ok]. split; [exact Hk|]. rewrite H0. exact Logic.I.
  - rewrite <- B0. exact A5.
Qed.
End Props.
#[local] Existing Instance ex_env.
Definition sentb (n : rawnode) (to next : N) (ms : list msg) : bool :=
  existsb (fun x => (m_to x =? to) && mtype_eqb (m_type x) MsgApp && (m_index x + 1 =? next) && negb (is_nil (m_entries x))) ms.
Definition blocked (n : rawnode) (to : N) : bool :=
  match peer n to with Some p => pstate_eqb (p_state p) StReplicate && (i_count (p_infl p) =? 4) && (p_match p <? node_last n) | None => false end.
(** A full window; a heartbeat response, or the acknowledgement of the oldest message, lets one more out. *)
Example C63_example_beat : exists n n' outs ms, @made ex_env (ex_cfg 1) n /\ @n_run_ok ex_env [NStep (ex_beat_resp 2 3)] n /\ @n_run ex_env [NStep (ex_beat_resp 2 3)] n = Ok (n', outs) /\
  @emitted ex_env n outs n' ms /\ (blocked n 2 && sentb n 2 13 ms)%bool = true.
Proof. apply (flow_case_ok (ex_cfg 1) ex_tape (ex_repl ++ ex_flood) [NStep (ex_beat_resp 2 3)] (fun n ms n' => blocked n 2 && sentb n 2 13 ms)%bool). vm_compute. reflexivity. Qed.
Example C63_example_ack : exists n n' outs ms, @made ex_env (ex_cfg 1) n /\ @n_run_ok ex_env [NStep (ex_app_resp 2 3 9)] n /\ @n_run ex_env [NStep (ex_app_resp 2 3 9)] n = Ok (n', outs) /\
  @emitted ex_env n outs n' ms /\ (blocked n 2 && sentb n 2 13 ms && match peer n 2 with Some p => match oldest (p_infl p) with Some b => b =? 9 | None => false end | None => false end)%bool = true.
Proof. apply (flow_case_ok (ex_cfg 1) ex_tape (ex_repl ++ ex_flood) [NStep (ex_app_resp 2 3 9)] (fun n ms n' => blocked n 2 && sentb n 2 13 ms && match peer n 2 with Some p => match oldest (p_infl p) with Some b => b =? 9 | None => false end | None => false end)%bool). vm_compute. reflexivity. Qed.
(** A probed member rejects index 7: the next probe starts earlier. *)
Definition ex_rej : msg := mkMsg MsgAppResp 1 3 3 1 7 [] 0 empty_snapshot true 6 EmptyString.
Example C63_example_reject : exists n n' outs ms, @made ex_env (ex_cfg 1) n /\ @n_run_ok ex_env [NStep ex_rej] n /\ @n_run ex_env [NStep ex_rej] n = Ok (n', outs) /\
  @emitted ex_env n outs n' ms /\ (match peer n 3 with Some p => pstate_eqb (p_state p) StProbe && (p_next p =? 8) | None => false end && sentb n 3 7 ms)%bool = true.
Proof. apply (flow_case_ok (ex_cfg 1) ex_tape ex_elect [NStep ex_rej] (fun n ms n' => match peer n 3 with Some p => pstate_eqb (p_state p) StProbe && (p_next p =? 8) | None => false end && sentb n 3 7 ms)%bool). vm_compute. reflexivity. Qed.
Example C63_example_unreachable : exists n n' outs ms, @made ex_env (ex_cfg 1) n /\ @n_run_ok ex_env [NReportUnreachable 2] n /\ @n_run ex_env [NReportUnreachable 2] n = Ok (n', outs) /\
  @emitted ex_env n outs n' ms /\ (blocked n 2)%bool = true.
Proof. apply (flow_case_ok (ex_cfg 1) ex_tape (ex_repl ++ ex_flood) [NReportUnreachable 2] (fun n ms n' => blocked n 2)%bool). vm_compute. reflexivity. Qed.
(** A member that needs a snapshot. *)
Definition ex_to_snap : list nop := ex_repl ++ [NCompact 8; NCreateSnapshot 8 (Some ex_conf) "s"; NStep ex_rej; NHandle].
Example C63_example_snapshot : exists n n' outs ms, @made ex_env (ex_cfg 1) n /\ @n_run_ok ex_env [NReportSnapshot 3 false] n /\ @n_run ex_env [NReportSnapshot 3 false] n = Ok (n', outs) /\
  @emitted ex_env n outs n' ms /\ (match peer n 3 with Some p => pstate_eqb (p_state p) StSnapshot && (p_pending p =? 8) | None => false end)%bool = true.
Proof. apply (flow_case_ok (ex_cfg 1) ex_tape ex_to_snap [NReportSnapshot 3 false] (fun n ms n' => match peer n 3 with Some p => pstate_eqb (p_state p) StSnapshot && (p_pending p =? 8) | None => false end)%bool). vm_compute. reflexivity. Qed.
Example C64_example_broadcast : exists n n' outs ms, @made ex_env (ex_cfg 1) n /\ @n_run_ok ex_env [NPropose "x"] n /\ @n_run ex_env [NPropose "x"] n = Ok (n', outs) /\
  @emitted ex_env n outs n' ms /\ ((node_last n <? node_last n') && sentb n 2 9 ms)%bool = true.
Proof. apply (flow_case_ok (ex_cfg 1) ex_tape ex_repl [NPropose "x"] (fun n ms n' => (node_last n <? node_last n') && sentb n 2 9 ms)%bool). vm_compute. reflexivity. Qed.
Example C64_example_leader : exists n n' outs ms, @made ex_env (ex_cfg 1) n /\ @n_run_ok ex_env [NStep (ex_vote_resp 2 3 false)] n /\ @n_run ex_env [NStep (ex_vote_resp 2 3 false)] n = Ok (n', outs) /\
  @emitted ex_env n outs n' ms /\ (role_eqb (node_role n) RCandidate && role_eqb (node_role n') RLeader && sentb n 2 8 ms && sentb n 3 8 ms)%bool = true.
Proof. apply (flow_case_ok (ex_cfg 1) ex_tape [NCampaign; NHandle] [NStep (ex_vote_resp 2 3 false)] (fun n ms n' => role_eqb (node_role n) RCandidate && role_eqb (node_role n') RLeader && sentb n 2 8 ms && sentb n 3 8 ms)%bool). vm_compute. reflexivity. Qed.
Definition ex_add4 : nop := NApplyCC (CCv1 (mkConfChange CcAddNode 4 EmptyString 0)).
Example C64_example_member : exists n n' outs ms, @made ex_env (ex_cfg 1) n /\ @n_run_ok ex_env [ex_add4] n /\ @n_run ex_env [ex_add4] n = Ok (n', outs) /\
  @emitted ex_env n outs n' ms /\ (role_eqb (node_role n) RLeader && negb (is_nil (node_incoming n')) && smem (node_id n') (node_incoming n') &&
    (match peer n 4 with None => true | _ => false end) && (match peer n' 4 with None => false | _ => true end) && (node_first n <=? node_last n) && sentb n 4 8 ms)%bool = true.
Proof. apply (flow_case_ok (ex_cfg 1) ex_tape ex_repl [ex_add4] (fun n ms n' => role_eqb (node_role n) RLeader && negb (is_nil (node_incoming n')) && smem (node_id n') (node_incoming n') &&
    (match peer n 4 with None => true | _ => false end) && (match peer n' 4 with None => false | _ => true end) && (node_first n <=? node_last n) && sentb n 4 8 ms)%bool). vm_compute. reflexivity. Qed.
