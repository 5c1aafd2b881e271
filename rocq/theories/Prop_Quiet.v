(** An idle leader sends heartbeats only (C66). *)
From Verif Require Import Prelude Types M_Util M_Quorum M_Inflights M_Progress M_Tracker.
From Verif Require Import M_Storage M_Unstable M_Log M_ReadOnly M_ConfPb M_ConfChange M_Raft M_RawNode.
From Verif Require Import Spec_Log P_Lists P_Storage P_Log Spec_Storage Sys_Storage P_StorageSeq Spec_RaftLog Sys_RaftLog P_RaftLogSeq Spec_Quorum P_Quorum.
From Verif Require Import Spec_Progress Spec_ConfChange P_ConfChange Sys_ConfChange P_Persist P_Time P_Conf P_Handle P_Ack R_Elig Prop_Deliver P_Elect.
From Verif Require Import P_Frame P_Prim Sys_Node P_Node P_Fields P_Vote Spec_Node P_New P_NodeLog P_NodeRun P_Emit P_Lead P_Beat P_Commit P_Feed P_Bcast P_Total P_Quiet.
From Verif Require Import Spec_Flow Spec_Feed Spec_Beat Spec_Commit Spec_ReadLive Spec_Quiet Prop_Vote Prop_Msg Prop_Leader Prop_Flow Prop_Elect Prop_Beat Prop_Commit Prop_Feed Prop_ReadLive Ex_Env Ex_Node Ex_Check Ex_Case.

Section Props.
Context {E : Env}.

Lemma node_last_r n : dinv n -> node_last n = r_last (rn_raft n).
Proof. intros D. reflexivity. Qed.
Lemma touched_silent m n r' : touched (m_from m) (rn_raft n) r' -> pending (set_rn_raft r' n) = pending n.
Proof. intros (p & p' & _ & _ & ->). reflexivity. Qed.

(** C66: an acknowledgement that reports nothing new causes no message. *)
Theorem C66_old_ack_silent m n n' out p : nop_ok (NStep m) n -> n_step (NStep m) n = Ok (n', out) -> node_role n = RLeader ->
  m_type m = MsgAppResp -> m_term m = node_term n -> m_reject m = false -> peer n (m_from m) = Some p -> m_index m <= p_match p -> pending n' = pending n.
Proof.
  intros Hk H L Ht T Hr Hp Hi. rewrite peer_get in Hp by auto. destruct (nstep_resp _ _ _ _ _ (or_introl Ht) (proj1 Hk) L T Hp H) as (r' & H1 & ->). rewrite Ht in H1.
  apply (touched_silent m). eapply ack_quiet; eauto.
Qed.
(** C66: a rejection that is no news causes no message. *)
Theorem C66_old_rejection_silent c m n n' out p : made c n -> nop_ok (NStep m) n -> n_step (NStep m) n = Ok (n', out) -> node_role n = RLeader ->
  m_type m = MsgAppResp -> m_term m = node_term n -> m_reject m = true -> m_from m <> node_id n -> peer n (m_from m) = Some p -> p_state p <> StSnapshot -> m_index m < UINT64_MAX -> ~ news (m_index m) p -> pending n' = pending n.
Proof.
  intros M Hk H L Ht T Hr Hto Hp Hs Hu Hn. destruct (peer_win _ _ _ _ M L Hto Hp) as (G & Z & K & q & W).
  destruct (nstep_resp _ _ _ _ _ (or_introl Ht) (proj1 Hk) L T G H) as (r' & H1 & ->). rewrite Ht in H1.
  apply (touched_silent m). eapply reject_quiet; eauto. unfold news in Hn. destruct (p_state p); [|lia|congruence].
  intros X. apply Hn. revert X. unfold wsub. unfold UINT64_MAX in Hu. destruct (N.leb_spec 1 (p_next p)); unfold U64 in *; lia.
Qed.
(** C66: a heartbeat response of a member that holds the whole log causes no message, if it confirms no read. *)
Theorem C66_beat_resp_silent m n n' out p : nop_ok (NStep m) n -> n_step (NStep m) n = Ok (n', out) -> node_role n = RLeader ->
  m_type m = MsgHeartbeatResp -> m_term m = node_term n -> m_ctx m = EmptyString -> peer n (m_from m) = Some p -> node_last n <= p_match p -> pending n' = pending n.
Proof.
  intros Hk H L Ht T Hc Hp Hi. rewrite peer_get in Hp by auto. destruct (nstep_resp _ _ _ _ _ (or_intror Ht) (proj1 Hk) L T Hp H) as (r' & H1 & ->). rewrite Ht in H1.
  apply (touched_silent m). eapply beat_resp_quiet; eauto.
Qed.

(** One call of an idle leader. *)
Definition unmoved (r r' : raft) : Prop :=
  r_last r' = r_last r /\ forall id, option_map p_match (trk_get id (r_trk r')) = option_map p_match (trk_get id (r_trk r)).
Lemma unmoved_refl r : unmoved r r. Proof. split; auto. Qed.
Lemma unmoved_touched id r r' : touched id r r' -> unmoved r r'.
Proof.
  intros (p & p' & A & B & ->). split; [reflexivity|]. intros i. destruct (N.eqb_spec i id) as [->|Hi].
  - rewrite trk_get_put, A. cbn. rewrite B. reflexivity.
  - f_equal. unfold trk_get, put_progress, trk_put. cbn. rewrite mget_mset. destruct (N.eqb_spec i id); [contradiction|reflexivity].
Qed.
Lemma emitted_none n out n' ms : o_ready out = None -> pending n' = pending n -> emitted n [out] n' ms -> ms = [].
Proof.
  unfold emitted, sent, readys. intros Ho -> H. cbn [flat_map] in H. rewrite Ho in H. cbn in H. rewrite <- (app_nil_r (pending n)) in H at 2. exact (app_inv_head _ _ _ H).
Qed.
Lemma idle_step c t o n n' out ms : made c n -> nop_ok o n -> n_step o n = Ok (n', out) -> leads_in t n -> leads_in t n' ->
  caught_up n -> node_outgoing n = [] -> idle_call (node_id n) t (node_last n) o -> emitted n [out] n' ms ->
  Forall (is_heartbeat t (node_id n)) ms /\ caught_up n' /\ node_last n' = node_last n /\ node_outgoing n' = [] /\ node_id n' = node_id n.
Proof.
  intros M Hk H [L T] [L' T'] C J Hi Em. pose proof (made_step _ _ _ _ _ M Hk H) as M'.
  pose proof (mi_dinv _ _ (made_inv _ _ M)) as D. pose proof (mi_dinv _ _ (made_inv _ _ M')) as D'.
  assert (Hid : node_id n' = node_id n).
  { unfold node_id, rn_status. cbn. unfold r_id. rewrite (mi_cfg _ _ (made_inv _ _ M')), (mi_cfg _ _ (made_inv _ _ M)). reflexivity. }
  assert (Hcf : t_config (r_trk (rn_raft n')) = t_config (r_trk (rn_raft n))).
  { destruct (n_step_cm _ _ _ _ Hk D H L') as [(_ & _ & X)|(X & _)].
    - intros cc ->. destruct Hi.
    - exact (nc_conf _ _ _ X).
    - exfalso. apply X. split; [exact L|exact (eq_trans T' (eq_sym T))]. }
  enough (K : Forall (is_heartbeat t (node_id n)) ms /\ unmoved (rn_raft n) (rn_raft n')).
  { destruct K as (K1 & K2 & K3). split; [exact K1|]. split; [|split; [exact K2|split; [|exact Hid]]].
    - intros to p' Hto Hp'. rewrite peer_get in Hp' by auto. rewrite Hid in Hto. specialize (K3 to). rewrite Hp' in K3.
      destruct (trk_get to (r_trk (rn_raft n))) as [p|] eqn:Hp; [|discriminate K3]. cbn in K3. injection K3 as ->.
      change (node_last n') with (r_last (rn_raft n')). rewrite K2. apply (C to p Hto). rewrite peer_get by auto. exact Hp.
    - unfold node_outgoing, rn_status in *. cbn in *. rewrite Hcf. exact J. }
  pose proof (n_step_dinv _ _ _ _ Hk H D) as [_ X].
  destruct o; try (destruct Hi; fail).
  - destruct X as [_ Ho]. pose proof (n_tick _ _ _ H) as Ht. destruct (tick_keeps _ _ L Ht L') as (A1 & A2 & ctx & r1 & l & B1 & B2 & B3).
    split; [|split; [unfold r_last; rewrite A1; reflexivity|exact A2]].
    unfold emitted, sent, readys, pending in Em. cbn [flat_map] in Em. rewrite Ho, B3 in Em. cbn in Em. apply app_inv_head in Em. subst ms.
    apply Forall_forall. intros m Hm. apply in_map_iff in Hm. destruct Hm as (to & <- & _). unfold is_heartbeat, hbmsg. cbn. split; [reflexivity|].
    split; [unfold node_id, rn_status, r_id; cbn; unfold r_id; rewrite B2; reflexivity|]. rewrite B1. exact T.
  - destruct X as [_ Ho]. cbn [n_step] in H. apply Ok_inj, pair_equal_spec in H. destruct H as [<- _].
    rewrite (emitted_none _ _ _ _ Ho eq_refl Em). split; [constructor|split; reflexivity].
  - destruct X as [_ Ho]. destruct Hi as (I1 & I2 & I3).
    enough (K : n' = n \/ touched (m_from m) (rn_raft n) (rn_raft n')).
    { destruct K as [->|K].
      - rewrite (emitted_none _ _ _ _ Ho eq_refl Em). split; [constructor|apply unmoved_refl].
      - assert (Hp : pending n' = pending n) by (destruct K as (p & p' & _ & _ & K); unfold pending; rewrite K; reflexivity).
        rewrite (emitted_none _ _ _ _ Ho Hp Em). split; [constructor|apply (unmoved_touched _ _ _ K)]. }
    destruct (trk_get (m_from m) (r_trk (rn_raft n))) as [p|] eqn:Hp.
    + right. assert (Y : m_type m = MsgAppResp \/ m_type m = MsgHeartbeatResp) by (destruct I3 as [I3|I3]; intuition).
      destruct (nstep_resp _ _ _ _ _ Y (proj1 Hk) L (eq_trans I1 (eq_sym T)) Hp H) as (r' & H1 & ->).
      assert (Z : node_last n <= p_match p) by (apply (C (m_from m)); auto; rewrite peer_get by auto; exact Hp).
      destruct I3 as [(I3 & I4)|(I3 & I4 & I5)]; rewrite I3 in H1.
      * eapply beat_resp_quiet; eauto.
      * eapply ack_quiet; eauto. lia.
    + left. cbn [n_step] in H. apply bind_ok in H. destruct H as ([n1 e1] & H & Hx). apply Ok_inj, pair_equal_spec in Hx. destruct Hx as [<- _].
      unfold rn_step in H. rewrite Hp in H.
      destruct I3 as [(I3 & I4)|(I3 & I4 & I5)]; rewrite I3 in H; cbn [is_local_msg is_response_msg negb orb] in H; apply Ok_inj, pair_equal_spec in H; destruct H as [-> _]; reflexivity.
  - destruct X as (rd & -> & S).
    assert (NL : ~ leaving (rn_raft n) rd).
    { intros (Y & _). pose proof (node_at_tok _ (made_at _ _ M)) as K. destruct (cw_simple _ _ K J) as [_ K2]. rewrite K2 in Y. discriminate. }
    destruct (hs_stay _ _ _ S NL) as [K1 K2].
    assert (Hl : r_last (rn_raft n') = r_last (rn_raft n)).
    { unfold r_last. rewrite !log_last_abs, K1; auto; apply lwf_0; apply li_wf; apply ni_log; apply di_ninv; auto. }
    pose proof (ro_msgs _ _ (hs_ready _ _ _ S)) as Hm.
    assert (Q : exists u, rn_raft n' = set_r_log (r_log (rn_raft n')) (set_r_uncommitted u (set_r_msgs [] (set_r_read_states [] (rn_raft n))))).
    { destruct (hs_case _ _ _ S) as [(u & Q & _)|(_ & rb & r0 & (u & l & -> & W & E1 & E2 & _) & Q1 & Q2 & Q3 & _)]; [eauto|exfalso].
      pose proof (ni_term _ (di_ninv _ D) (or_introl L)) as T0. destruct (append_log_w _ (set_r_log l (set_r_uncommitted u (set_r_msgs [] (set_r_read_states [] (rn_raft n))))) _ W T0 Q1) as (_ & A2 & _). cbv zeta in A2. cbn [r_log set_r_log r_term set_r_uncommitted set_r_msgs set_r_read_states] in A2.
      apply (f_equal a_last) in A2. rewrite a_last_app, stamp_len, nlen_cons, nlen_nil, E1, <- Q3, K1 in A2. lia. }
    destruct Q as (u & Q).
    split; [|split; [exact Hl|]].
    + unfold emitted, sent, readys, pending in Em. cbn in Em. rewrite Hm, app_nil_r, Q in Em. cbn in Em. apply app_inv_head in Em. subst ms. constructor.
    + intros id. rewrite Q. reflexivity.
Qed.

(** C66: as long as nothing is proposed and no read is asked, a leader whose members hold its whole log
    sends nothing but heartbeats, appends nothing, and everybody stays caught up. *)
Theorem C66_idle_run c t os : forall n n' outs ms, made c n -> n_run_ok os n -> n_run os n = Ok (n', outs) -> throughout (leads_in t) os n ->
  caught_up n -> node_outgoing n = [] -> Forall (idle_call (node_id n) t (node_last n)) os -> emitted n outs n' ms ->
  Forall (is_heartbeat t (node_id n)) ms /\ caught_up n' /\ node_last n' = node_last n.
Proof.
  induction os as [|o os IH]; intros n n' outs ms M Hk H Th C J Hi Em; cbn [n_run n_run_ok] in *.
  - apply Ok_inj, pair_equal_spec in H. destruct H as [<- <-]. unfold emitted in Em. cbn in Em. rewrite <- (app_nil_r (pending n)) in Em at 2. apply app_inv_head in Em. subst. auto.
  - destruct Hk as [Hk1 Hk2]. apply bind_ok in H. destruct H as ([n1 o1] & H & H7). rewrite H in *. apply bind_ok in H7. destruct H7 as ([n2 o2] & H7 & Hx).
    apply Ok_inj, pair_equal_spec in Hx. destruct Hx as [<- <-]. destruct Th as [T1 T2]. specialize (T2 _ _ H). pose proof (throughout_hd _ _ _ T2) as T3.
    pose proof (made_step _ _ _ _ _ M Hk1 H) as M1.
    destruct (step_emitted _ _ _ _ Hk1 (mi_dinv _ _ (made_inv _ _ M)) H) as [a Ha].
    destruct (run_emitted _ _ _ _ _ M1 Hk2 H7) as [b Hb]. pose proof (emitted_inj _ _ _ _ _ (emitted_cons _ _ _ _ _ _ _ Ha Hb) Em) as <-.
    inversion_clear Hi as [|? ? Hi1 Hi2].
    destruct (idle_step _ _ _ _ _ _ _ M Hk1 H T1 T3 C J Hi1 Ha) as (S1 & S2 & S3 & S4 & S5).
    rewrite <- S3, <- S5 in Hi2. destruct (IH _ _ _ _ M1 Hk2 H7 T2 S2 S4 Hi2 Hb) as (R1 & R2 & R3).
    rewrite S5 in R1. split; [apply Forall_app; auto|]. split; [exact R2|]. congruence.
Qed.
End Props.

(** Concrete cases: the followers have acknowledged everything; then ticks, an old acknowledgement, an
    empty heartbeat response, a Ready. *)
#[local] Existing Instance ex_env.
Definition ex_caught : list nop := ex_elect ++ [NStep (ex_app_resp 2 3 8); NStep (ex_app_resp 3 3 8); NHandle; NHandle].
Definition ex_idle : list nop := [NTick; NTick; NTick; NHandle; NStep (ex_beat_resp 2 3); NStep (ex_app_resp 3 3 7); NTick; NTickQuiesced; NHandle].
Definition caught_upb (n : rawnode) : bool := forallb (fun to => match peer n to with Some p => node_last n <=? p_match p | None => false end) [2; 3] &&
  forallb (fun k => existsb (N.eqb k) [1; 2; 3]) (keys (ns_progress (rn_status n))).
Example C66_example_idle : exists n n' outs ms, made (ex_cfg 1) n /\ n_run_ok ex_idle n /\ n_run ex_idle n = Ok (n', outs) /\ emitted n outs n' ms /\
  (throughoutb (leads_inb 3) ex_idle n && caught_upb n && is_nil (node_outgoing n) && (node_id n =? 1) && (node_last n =? 8) && caught_upb n' && (nlen ms =? 8) &&
   forallb (fun m => mtype_eqb (m_type m) MsgHeartbeat) ms)%bool = true.
Proof. apply (flow_case_ok (ex_cfg 1) ex_tape ex_caught ex_idle (fun n ms n' => throughoutb (leads_inb 3) ex_idle n && caught_upb n && is_nil (node_outgoing n) && (node_id n =? 1) && (node_last n =? 8) && caught_upb n' && (nlen ms =? 8) &&
   forallb (fun m => mtype_eqb (m_type m) MsgHeartbeat) ms)%bool). vm_compute. reflexivity. Qed.
Example C66_example_calls : Forall (idle_call 1 3 8) ex_idle.
Proof.
  repeat (apply Forall_cons; [first [exact Logic.I | cbn; split; [reflexivity|split; [discriminate|first [left; split; reflexivity | right; repeat split; discriminate]]]]|]). apply Forall_nil.
Qed.
(** Silent answers: an acknowledgement repeated, a rejection repeated. *)
Example C66_example_silent : exists n n' outs ms, made (ex_cfg 1) n /\ n_run_ok [NStep (ex_app_resp 2 3 8); NStep ex_rej] n /\ n_run [NStep (ex_app_resp 2 3 8); NStep ex_rej] n = Ok (n', outs) /\ emitted n outs n' ms /\
  (leads_inb 3 n && match peer n 3 with Some p => pstate_eqb (p_state p) StReplicate && (p_match p =? 8) | None => false end && is_nil ms)%bool = true.
Proof. apply (flow_case_ok (ex_cfg 1) ex_tape ex_caught _ (fun n ms n' => leads_inb 3 n && match peer n 3 with Some p => pstate_eqb (p_state p) StReplicate && (p_match p =? 8) | None => false end && is_nil ms)%bool). vm_compute. reflexivity. Qed.
