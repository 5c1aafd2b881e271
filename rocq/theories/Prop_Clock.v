(** Election timeouts and quorum checks in terms of what a node has seen (C70). *)
From Verif Require Import Prelude Types M_Util M_Quorum M_Inflights M_Progress M_Tracker.
From Verif Require Import M_Storage M_Unstable M_Log M_ReadOnly M_ConfPb M_ConfChange M_Raft M_RawNode.
From Verif Require Import P_Inflights Spec_Log P_Lists P_Storage P_Log Spec_Storage Sys_Storage P_StorageSeq Spec_RaftLog Sys_RaftLog P_RaftLogSeq.
From Verif Require Import Spec_Quorum P_Quorum Spec_Progress Spec_ConfChange P_ConfChange Spec_Inflights Sys_ConfChange.
From Verif Require Import P_Frame P_Prim Sys_Node P_Node P_Fields P_Vote Spec_Node P_Persist P_New P_Time P_NodeLog P_Handle P_NodeRun P_Emit P_Lead P_Transfer P_Clock.
From Verif Require Import Prop_Time Prop_Vote Prop_Msg Prop_Flow Prop_Beat Prop_Commit Prop_Feed Prop_Ballot Prop_Transfer Prop_Handoff Spec_Flow Spec_Clock Ex_Env Ex_Node Ex_Check Ex_Case.

Section Props.
Context {E : Env}.

(** Every call: only ticks advance the clock. *)
Definition slown (k : N) (r r' : raft) : Prop := slow (set_r_el_elapsed (r_el_elapsed r + k) r) r'.
Lemma slow_n r r' : slow r r' -> slown 0 r r'.
Proof. intros (A & B & C). split; [cbn; lia|]. split; auto. Qed.
Lemma n_step_slow o n n' out : nop_ok o n -> dinv n -> n_step o n = Ok (n', out) -> slown (clock [o]) (rn_raft n) (rn_raft n').
Proof.
  intros Hok D H. destruct (plain_dec o) as [Hp|Hp].
  2:{ pose proof (calm_not_plain _ _ _ _ Hp Hok D H) as (B1 & _ & _ & _ & B5). pose proof (n_step_dinv o n n' out Hok H D) as [_ X].
      assert (Hc : clock [o] = 0) by (destruct o; auto; cbn in Hp; tauto). rewrite Hc. apply slow_n, slow_eq; auto.
      destruct o; cbn in Hp; try tauto; destruct Hok as [Hw Hok]; try tauto.
      - destruct X as (rd & _ & [R1 R2 R3 R4 R5 R6 R7 R8 R9 R10 R11]). destruct R11 as [(u & E1 & _)|(Hl & rb & r0 & (u & l & E1 & _) & Ha & E4 & _)]; [rewrite E1; auto|].
        apply append_entry_fields in Ha. destruct Ha as (l1 & p1 & u1 & ->). rewrite E4. cbn. rewrite E1. auto.
      - cbn [n_step] in H. apply bind_ok in H. destruct H as ([s e] & _ & Hx). inv Hx. auto.
      - cbn [n_step] in H. apply bind_ok in H. destruct H as ([s e] & _ & Hx). inv Hx. auto. }
  assert (S : forall m x y, rn_raft_step m n = Ok (x, y) -> slown 0 (rn_raft n) (rn_raft x)).
  { intros m x y Hs. unfold rn_raft_step in Hs. apply bind_ok in Hs. destruct Hs as ([r1 e1] & Hs & Hx). inv Hx. cbn. apply slow_n. eapply step_el; eauto. }
  destruct o; try (destruct Hp; fail); cbn [n_step] in H; try (change (clock [_]) with 0).
  - change (clock [NTick]) with 1. apply bind_ok in H. destruct H as (n1 & H & Hx). inv Hx. unfold rn_tick in H. apply bind_ok in H. destruct H as (r1 & H & Hx). inv Hx. cbn. exact (tick_el _ _ H).
  - change (clock [NTickQuiesced]) with 1. inv H. apply slow_eq; reflexivity.
  - apply bind_ok in H. destruct H as ([n1 e1] & H & Hx). inv Hx. eapply S; eauto.
  - apply bind_ok in H. destruct H as ([n1 e1] & H & Hx). inv Hx. eapply S; eauto.
  - apply bind_ok in H. destruct H as ([n1 e1] & H & Hx). inv Hx. unfold rn_propose_conf_change in H. apply bind_ok in H. destruct H as ([t d] & _ & H). eapply S; eauto.
  - apply bind_ok in H. destruct H as ([n1 e1] & H & Hx). inv Hx. unfold rn_apply_conf_change in H. apply bind_ok in H. destruct H as (c & _ & H).
    apply bind_ok in H. destruct H as ([r1 cs] & H & Hx). inv Hx. cbn. unfold raft_apply_conf_change in H. cbv zeta in H. apply bind_ok in H. destruct H as ([cp|] & _ & H); [|discriminate].
    apply switch_el in H. apply slow_n, slow_eq; apply H.
  - apply bind_ok in H. destruct H as ([n1 e1] & H & Hx). inv Hx. unfold rn_step in H. destruct (is_local_msg _); [inv H; apply slow_n, slow_refl|].
    destruct (_ || _); [|inv H; apply slow_n, slow_refl]. eapply S; eauto.
  - apply bind_ok in H. destruct H as (n1 & H & Hx). inv Hx. unfold rn_report_unreachable in H. apply bind_ok in H. destruct H as ([n2 e2] & H & Hx). inv Hx. eapply S; eauto.
  - apply bind_ok in H. destruct H as (n1 & H & Hx). inv Hx. unfold rn_report_snapshot in H. apply bind_ok in H. destruct H as ([n2 e2] & H & Hx). inv Hx. eapply S; eauto.
  - apply bind_ok in H. destruct H as (n1 & H & Hx). inv Hx. unfold rn_transfer_leader in H. apply bind_ok in H. destruct H as ([n2 e2] & H & Hx). inv Hx. eapply S; eauto.
  - apply bind_ok in H. destruct H as (n1 & H & Hx). inv Hx. unfold rn_read_index in H. apply bind_ok in H. destruct H as ([n2 e2] & H & Hx). inv Hx. eapply S; eauto.
Qed.
Lemma run_slow os : forall n n' outs, dinv n -> n_run_ok os n -> n_run os n = Ok (n', outs) ->
  r_el_elapsed (rn_raft n') <= r_el_elapsed (rn_raft n) + clock os.
Proof.
  induction os as [|o os IH]; intros n n' outs D Hok H; cbn [n_run] in H.
  - inv H. lia.
  - apply bind_ok in H. destruct H as ([n1 out] & H1 & H). apply bind_ok in H. destruct H as ([n2 outs2] & H2 & H). inv H.
    cbn [n_run_ok] in Hok. rewrite H1 in Hok. destruct Hok as [Ok1 Ok2].
    pose proof (n_step_slow _ _ _ _ Ok1 D H1) as (A & _). cbn [r_el_elapsed set_r_el_elapsed] in A.
    specialize (IH _ _ _ (proj1 (n_step_dinv _ _ _ _ Ok1 H1 D)) Ok2 H2). rewrite (clock_cons o os). lia.
Qed.

(** Hearing from the leader, granting a vote, entering a term, starting to lead: the clock restarts. *)
Lemma hears_0 o n n1 out : nop_ok o n -> n_step o n = Ok (n1, out) -> hears n o n1 -> r_el_elapsed (rn_raft n1) = 0.
Proof.
  intros Hok H (m & -> & Hm & Ht & Hr). cbn [n_step] in H. apply bind_ok in H. destruct H as ([n2 e] & H & Hx). inv Hx.
  destruct (heard_frame m n n1 e Hm (proj1 Hok) H Ht Hr) as (_ & _ & A & _). exact A.
Qed.
Lemma grants_0 o n n1 out : nop_ok o n -> n_step o n = Ok (n1, out) -> grants n o n1 -> r_el_elapsed (rn_raft n1) = 0.
Proof.
  intros Hok H (m & x & -> & Hm & (out' & new & H' & Hn & Hx) & Hy & Hz). clear H' out'.
  destruct (nstep_vote _ _ _ _ (or_introl Hm) (proj1 Hok) H) as (Hz' & r' & e & Hs & ->). cbn [rn_raft set_rn_raft] in *.
  change (pending (set_rn_raft r' n)) with (r_msgs r') in Hn. change (pending n) with (r_msgs (rn_raft n)) in Hn. set (r := rn_raft n) in *.
  assert (Q : r_msgs r' = r_msgs r -> r_el_elapsed r' = 0).
  { intros X. exfalso. rewrite X in Hn. rewrite <- (app_nil_r (r_msgs r)) in Hn at 1. apply app_inv_head in Hn. subst new. destruct Hx. }
  assert (K : forall r0, r_msgs r0 = r_msgs r -> step_dispatch m r0 = Ok (r', e) -> r_el_elapsed r' = 0).
  { clear Hs. intros r0 Hr0 Hs. unfold step_dispatch in Hs. rewrite Hm in Hs. unfold okr in Hs. apply bind_ok in Hs. destruct Hs as (r2 & Hs & Hx'). apply Ok_inj, pair_equal_spec in Hx'. destruct Hx' as [<- _].
    unfold step_vote in Hs. cbv zeta in Hs. apply bind_ok in Hs. destruct Hs as (up & _ & Hs). apply bind_ok in Hs. destruct Hs as (rt & _ & Hs).
    destruct up.
    - apply bind_ok in Hs. destruct Hs as (r1 & H1 & Hs). rewrite Hm in Hs. cbn [mtype_eqb] in Hs. apply Ok_inj in Hs. subst r2. reflexivity.
    - exfalso. apply send_ok in Hs. destruct Hs as [Hs _]. assert (Hf : new = [outm r0 (set_m_reject true (set_m_term (r_term r0) (set_m_to (m_from m) (new_msg rt))))]).
      { rewrite Hs in Hn. cbn in Hn. rewrite Hr0 in Hn. apply app_inv_head in Hn. auto. }
      subst new. destruct Hx as [Hx|[]]. subst x. revert Hz. unfold outm. destruct (_ =? 0); cbn; destruct rt; cbn; discriminate. }
  unfold step in Hs. destruct (N.eqb_spec (m_term m) 0); [lia|]. destruct (N.ltb_spec (r_term r) (m_term m)) as [Hlt|Hlt].
  - destruct (_ && _ && _) in Hs; [inv Hs; apply Q; auto|]. rewrite Hm in Hs.
    hide (become_follower (m_term m) 0 r) r1 E1. destruct (become_follower_fields _ _ _ _ E1) as (A1&A2&A3&A4&A5&A6&A7&_). clear E1. eapply K; [|exact Hs]. auto.
  - destruct (N.ltb_spec (m_term m) (r_term r)); [|eapply K; [|exact Hs]; auto].
    rewrite Hm in Hs. cbn [mtype_eqb orb] in Hs. rewrite andb_false_r in Hs. apply Ok_inj, pair_equal_spec in Hs. destruct Hs as [<- _]. apply Q; auto.
Qed.
Lemma restarts_0 o n n1 out : nop_ok o n -> dinv n -> n_step o n = Ok (n1, out) ->
  hears n o n1 \/ grants n o n1 \/ node_term n1 <> node_term n \/ takes_over n n1 -> r_el_elapsed (rn_raft n1) = 0.
Proof.
  intros Hok D H [K|[K|[K|[K1 K2]]]]; [eapply hears_0; eauto|eapply grants_0; eauto| |]; pose proof (n_step_slow _ _ _ _ Hok D H) as (A & B & C).
  - destruct B as [B|B]; auto. exfalso. exact (K B).
  - destruct (C K2) as [B0|B0]; auto. exfalso. exact (K1 B0).
Qed.

(** C70: a node that has just heard from its leader, granted its vote or entered a new term does not
    campaign by itself before an election timeout has passed: until then a tick only moves its
    clock, whatever else it is given to do in between. *)
Theorem C70_no_campaign c o n n1 out os n2 outs :
  made c n -> nop_ok o n -> n_step o n = Ok (n1, out) ->
  hears n o n1 \/ grants n o n1 \/ node_term n < node_term n1 ->
  n_run_ok os n1 -> n_run os n1 = Ok (n2, outs) -> node_role n2 <> RLeader ->
  clock os + 1 < Z.to_N (c_election_tick c) ->
  exists n3, n_step NTick n2 = Ok (n3, no_out) /\ only_clock n2 n3.
Proof.
  intros M Hk H Ev Hok Hr Hl Hc. pose proof (made_inv _ _ M) as MI. pose proof (made_step _ _ _ _ _ M Hk H) as M1. pose proof (made_inv _ _ M1) as MI1.
  assert (Z : r_el_elapsed (rn_raft n1) = 0).
  { eapply restarts_0; [exact Hk|exact (mi_dinv _ _ MI)|exact H|]. destruct Ev as [Ev|[Ev|Ev]]; auto. right; right; left. lia. }
  pose proof (run_slow _ _ _ _ (mi_dinv _ _ MI1) Hok Hr) as Hs. rewrite Z in Hs.
  assert (T : Z.to_N (c_election_tick c) <= r_rand_timeout (rn_raft n2)).
  { destruct M1 as (tape & s & n0 & os' & outs' & _ & _ & X3 & X4 & X5).
    pose proof (C42_timeout_range c tape n0 (os' ++ os) n2 (outs' ++ outs) X3) as R. apply R.
    - apply Forall_app. split; eapply nop_ok_wf; eauto.
    - clear - X5 Hr. revert n0 outs' X5. induction os' as [|a os' IH]; intros n0 outs' X5; cbn [n_run app] in *; [inv X5; exact Hr|].
      apply bind_ok in X5. destruct X5 as ([na oa] & A & X5). apply bind_ok in X5. destruct X5 as ([nb ob] & B & X5). inv X5. rewrite A. cbn [bind]. rewrite (IH _ _ B). reflexivity. }
  exists (elapse 1 n2). split.
  - cbn [n_step]. rewrite tick_quiet; auto. right. lia.
  - exists (r_el_elapsed (rn_raft n2) + 1). reflexivity.
Qed.

(** A leader's tick before the election timeout: members keep their marks; at the timeout the clock
    restarts. *)
Lemma tick_lead r r' : r_state r = RLeader -> tick r = Ok r' ->
  (r_el_elapsed r + 1 < k_el_timeout (r_cfg r) /\ r_state r' = RLeader /\ r_el_elapsed r' = r_el_elapsed r + 1 /\ prs_same r r') \/
  (k_el_timeout (r_cfg r) <= r_el_elapsed r + 1 /\ r_el_elapsed r' = 0).
Proof.
  intros Hs H. unfold tick in H. rewrite Hs in H. unfold tick_heartbeat in H. cbv zeta in H.
  set (r0 := set_r_el_elapsed (r_el_elapsed r + 1) (set_r_hb_elapsed (r_hb_elapsed r + 1) r)) in *.
  assert (K0 : r_state r0 = RLeader /\ r_el_elapsed r0 = r_el_elapsed r + 1 /\ r_cfg r0 = r_cfg r /\ r_trk r0 = r_trk r)
    by (repeat split; exact Hs). clearbody r0. destruct K0 as (K1 & K3 & K4 & K5).
  apply bind_ok in H. destruct H as (r1 & H1 & H). rewrite K3, K4 in H1.
  assert (B : r_state r1 = RLeader -> r1 = r' \/ exists ra, r_state ra = RLeader /\ r_el_elapsed ra = r_el_elapsed r1 /\ r_trk ra = r_trk r1 /\ sends ra r').
  { intros L1. unfold is_leader in H. rewrite L1 in H. cbn [role_eqb negb] in H.
    match type of H with (if ?b then _ else _) = _ => destruct b end; [|apply Ok_inj in H; subst r'; auto].
    apply bind_ok in H. destruct H as ([r3 e3] & H & Hx). apply Ok_inj in Hx. subst r3. right.
    match type of H with step ?mm ?rr = _ => set (m0 := mm) in H; set (ra := rr) in H end. exists ra.
    assert (Ha : r_state ra = RLeader) by exact L1. split; [exact Ha|]. split; [reflexivity|]. split; [reflexivity|].
    assert (Hm : m_term m0 = 0 /\ m_type m0 = MsgBeat) by (split; reflexivity). clearbody m0 ra.
    destruct Hm as [Hm Hty]. unfold step in H. rewrite Hm in H. cbn [N.eqb] in H. unfold step_dispatch in H. rewrite Hty, Ha in H.
    apply beat_sends in H; auto. }
  destruct (N.leb_spec (k_el_timeout (r_cfg r)) (r_el_elapsed r + 1)) as [Hle|Hlt].
  - right. split; auto. apply bind_ok in H1. destruct H1 as (r2 & H2 & H1).
    assert (Z2 : r_el_elapsed r2 = 0).
    { match type of H2 with (if ?b then _ else _) = _ => destruct b end; [|inv H2; reflexivity].
      apply bind_ok in H2. destruct H2 as ([r3 e3] & H2 & Hx). inv Hx. apply step_el in H2. exact (slow_of0 _ _ H2 eq_refl). }
    assert (Z1 : r_el_elapsed r1 = 0) by (match type of H1 with (if ?b then _ else _) = _ => destruct b end; inv H1; exact Z2).
    destruct (role_eqb (r_state r1) RLeader) eqn:El.
    + assert (L1 : r_state r1 = RLeader) by (destruct (r_state r1); auto; discriminate).
      destruct (B L1) as [<-|(ra & _ & A2 & _ & S)]; auto. rewrite (sm_el _ _ (sd_same _ _ S)). congruence.
    + unfold is_leader in H. rewrite El in H. cbn [negb] in H. inv H. auto.
  - left. split; auto. apply Ok_inj in H1. subst r1. destruct (B K1) as [<-|(ra & A1 & A2 & A3 & S)].
    + split; auto. split; auto. unfold prs_same. rewrite K5. apply prs_same_refl.
    + rewrite (sm_el _ _ (sd_same _ _ S)), (sm_state _ _ (sd_same _ _ S)). split; auto. split; [congruence|].
      pose proof (sd_prs _ _ S) as P. unfold prs_same in *. rewrite A3, K5 in P. exact P.
Qed.
Lemma nstep_tick n n' out : n_step NTick n = Ok (n', out) -> exists r', tick (rn_raft n) = Ok r' /\ n' = set_rn_raft r' n.
Proof.
  intros H. cbn [n_step] in H. apply bind_ok in H. destruct H as (n1 & H & Hx). apply Ok_inj, pair_equal_spec in Hx. destruct Hx as [<- _].
  unfold rn_tick in H. apply bind_ok in H. destruct H as (r1 & H & Hx). apply Ok_inj in Hx. subst n1. eauto.
Qed.
Lemma active_same n n' id : node_role n = RLeader -> node_role n' = RLeader -> prs_same (rn_raft n) (rn_raft n') -> active n' id = active n id.
Proof.
  intros L L' [_ P]. unfold active. rewrite !peer_get by auto. specialize (P id). unfold trk_get.
  destruct (mget id (t_progress (r_trk (rn_raft n)))), (mget id (t_progress (r_trk (rn_raft n')))); try tauto. destruct P as (_ & _ & P & _). cbn. congruence.
Qed.
(** When a leader's period starts. *)
Definition period_starts (n : rawnode) (o : nop) (n1 : rawnode) : Prop := takes_over n n1 \/ starts_over n o n1.
Lemma period_0 o n n1 out : nop_ok o n -> dinv n -> n_step o n = Ok (n1, out) -> period_starts n o n1 ->
  r_el_elapsed (rn_raft n1) = 0 /\ node_role n1 = RLeader.
Proof.
  intros Hok D H [K|(-> & L & L1 & id & p & p1 & P1 & P2 & P3 & P4)].
  - split; [eapply restarts_0; eauto|apply K].
  - split; auto. destruct (nstep_tick _ _ _ H) as (r' & Ht & Hn). pose proof (tick_lead _ _ L Ht) as [(_ & _ & _ & A)|[_ A]]; [|rewrite Hn; exact A].
    exfalso. assert (Q : active n1 id = active n id) by (apply active_same; auto; rewrite Hn; exact A).
    unfold active in Q. rewrite P1, P3 in Q. cbn in Q. congruence.
Qed.

(** C70: a leader gives its members a full election timeout to be heard from: after it took over, or
    started a new period of watching them, it neither steps down by itself nor forgets who was
    active at any tick before the election timeout has passed. *)
Theorem C70_check_not_early c o n n1 out os n2 outs n3 out3 :
  made c n -> nop_ok o n -> n_step o n = Ok (n1, out) -> period_starts n o n1 ->
  n_run_ok os n1 -> n_run os n1 = Ok (n2, outs) -> node_role n2 = RLeader ->
  clock os + 1 < Z.to_N (c_election_tick c) -> n_step NTick n2 = Ok (n3, out3) ->
  node_role n3 = RLeader /\ node_term n3 = node_term n2 /\ forall id, active n3 id = active n2 id.
Proof.
  intros M Hk H Ev Hok Hr L2 Hc H3. pose proof (made_inv _ _ M) as MI. pose proof (made_step _ _ _ _ _ M Hk H) as M1. pose proof (made_inv _ _ M1) as MI1.
  destruct (period_0 _ _ _ _ Hk (mi_dinv _ _ MI) H Ev) as [Z _].
  pose proof (run_slow _ _ _ _ (mi_dinv _ _ MI1) Hok Hr) as Hs. rewrite Z in Hs.
  assert (Hcfg : r_cfg (rn_raft n2) = cfg_of c).
  { pose proof (n_run_aprs _ _ _ _ [] (nop_ok_wf _ _ Hok _ _ Hr) Hr) as Q. apply aprs_tv in Q. etransitivity; [exact (proj1 Q)|exact (mi_cfg _ _ MI1)]. }
  destruct (nstep_tick _ _ _ H3) as (r' & Ht & Hn). pose proof (tick_lead _ _ L2 Ht) as [(A0 & A1 & A2 & A3)|[A _]].
  - assert (R3 : node_role n3 = RLeader) by (rewrite Hn; exact A1). split; auto. split.
    + pose proof (tick_el _ _ Ht) as (_ & B & _). rewrite Hn. change (r_term r' = r_term (rn_raft n2)). destruct B as [B|B]; auto. lia.
    + intros id. apply active_same; auto. rewrite Hn. exact A3.
  - exfalso. rewrite Hcfg in A. cbn in A. lia.
Qed.

(** Without transfers the clock of a leader just counts. *)
Definition x_inv (t k : N) (n : rawnode) : Prop :=
  lost t (rn_raft n) \/ (r_state (rn_raft n) = RLeader /\ r_term (rn_raft n) = t /\ r_el_elapsed (rn_raft n) = k).
Lemma x_inv_step t k o n n' out : dinv n -> vself (rn_raft n) -> nop_ok o n -> ~ asks_transfer o -> ~ own_vote (r_id (rn_raft n)) o ->
  k + clock [o] < k_el_timeout (r_cfg (rn_raft n)) -> n_step o n = Ok (n', out) -> x_inv t k n -> x_inv t (k + clock [o]) n'.
Proof.
  intros D V Hok Hna Hno Hlt H K.
  assert (HL : (r_state (rn_raft n) = RLeader /\ r_term (rn_raft n) = t) \/ lost t (rn_raft n)) by (destruct K as [K|(K1&K2&_)]; auto).
  destruct (n_step_gfix t o n n' out Hok H D HL) as [(L1 & L2 & L3 & L4 & _)|L]; [|left; auto].
  right. split; auto. split; auto. destruct K as [K|(_ & _ & K2)]; [exfalso; exact (lost_leader _ _ L1 L2 K)|].
  assert (T : o = NTick \/ o = NTickQuiesced \/ (exists cc, o = NApplyCC cc) \/ (o <> NTick /\ o <> NTickQuiesced /\ (forall cc, o <> NApplyCC cc) /\ clock [o] = 0))
    by (destruct o; eauto; right; right; right; repeat split; discriminate).
  destruct T as [->|[->|[[cc ->]|(T1 & T2 & T3 & Tc)]]].
  - change (clock [NTick]) with 1 in *. destruct (nstep_tick _ _ _ H) as (r' & Ht & ->). pose proof (tick_lead _ _ L1 Ht) as [(_ & _ & A & _)|[A _]]; [|lia].
    change (r_el_elapsed r' = k + 1). lia.
  - change (clock [NTickQuiesced]) with 1 in *. cbn [n_step] in H. apply Ok_inj, pair_equal_spec in H. destruct H as [<- _]. cbn. congruence.
  - change (clock [NApplyCC cc]) with 0. cbn [n_step] in H. apply bind_ok in H. destruct H as ([n1 e1] & H & Hx). inv Hx. unfold rn_apply_conf_change in H. apply bind_ok in H. destruct H as (c & _ & H).
    apply bind_ok in H. destruct H as ([r1 cs] & H & Hx). inv Hx. cbn. unfold raft_apply_conf_change in H. cbv zeta in H. apply bind_ok in H. destruct H as ([cp|] & _ & H); [|discriminate].
    apply switch_el in H. lia.
  - rewrite Tc, N.add_0_r. destruct (plain_dec o) as [Hp|Hp].
    + destruct (n_step_calm o n n' out Hp (proj1 Hok) V H T1 T2 T3 Hna Hno L1 L3 ltac:(congruence)) as [A B]. congruence.
    + destruct (calm_not_plain _ _ _ _ Hp Hok D H) as (B1 & B2 & _). congruence.
Qed.
Lemma x_inv_run t os : forall n n' outs k, dinv n -> vself (rn_raft n) -> n_run_ok os n -> n_run os n = Ok (n', outs) ->
  (forall o, In o os -> ~ asks_transfer o /\ ~ own_vote (r_id (rn_raft n)) o) -> k + clock os < k_el_timeout (r_cfg (rn_raft n)) ->
  x_inv t k n -> x_inv t (k + clock os) n'.
Proof.
  induction os as [|o os IH]; intros n n' outs k D V Hok H Ho Hlt K; cbn [n_run] in H.
  - inv H. unfold clock. cbn. change (nlen (@nil nop)) with 0. rewrite N.add_0_r. auto.
  - apply bind_ok in H. destruct H as ([n1 out] & H1 & H). apply bind_ok in H. destruct H as ([n2 outs2] & H2 & H). inv H.
    cbn [n_run_ok] in Hok. rewrite H1 in Hok. destruct Hok as [Ok1 Ok2]. destruct (Ho o (or_introl eq_refl)) as (O1 & O2).
    assert (Q : aprs ([], rn_raft n) ([] ++ sent [out], rn_raft n1)).
    { apply (n_run_aprs [o]); [constructor; [apply Ok1|constructor]|]. cbn [n_run]. rewrite H1. reflexivity. }
    assert (Qc : r_cfg (rn_raft n1) = r_cfg (rn_raft n)) by exact (proj1 (aprs_tv _ _ Q)).
    assert (Hc : clock (o :: os) = clock [o] + clock os) by apply clock_cons. rewrite Hc, N.add_assoc in Hlt |- *.
    assert (Hl1 : k + clock [o] < k_el_timeout (r_cfg (rn_raft n))) by lia. pose proof (x_inv_step _ _ _ _ _ _ D V Ok1 O1 O2 Hl1 H1 K) as K1.
    refine (IH n1 n' outs2 (k + clock [o]) (proj1 (n_step_dinv _ _ _ _ Ok1 H1 D)) (vself_aprs _ _ Q V) Ok2 H2 _ _ K1).
    + intros o' Ho'. replace (r_id (rn_raft n1)) with (r_id (rn_raft n)) by (unfold r_id; f_equal; auto). apply Ho. right; auto.
    + rewrite Qc. exact Hlt.
Qed.

(** C70: and at the tick that completes the election timeout it does check: with CheckQuorum on, a
    leader that counts no majority as active steps down, any other starts a new period with nobody
    but itself active (provided nobody asked for a leadership transfer meanwhile). *)
Theorem C70_check_due c o n n1 out os n2 outs n3 out3 :
  made c n -> c_check_quorum c = true -> nop_ok o n -> n_step o n = Ok (n1, out) -> period_starts n o n1 ->
  n_run_ok os n1 -> n_run os n1 = Ok (n2, outs) -> node_role n2 = RLeader -> node_term n2 = node_term n1 ->
  clock os + 1 = Z.to_N (c_election_tick c) ->
  (forall o', In o' os -> ~ asks_transfer o' /\ ~ own_vote (c_id c) o') ->
  n_step NTick n2 = Ok (n3, out3) ->
  (quorum_heard (rn_status n2) -> node_role n3 = RLeader /\ forall id p, id <> c_id c -> peer n3 id = Some p -> p_active p = false) /\
  (~ quorum_heard (rn_status n2) -> node_role n3 = RFollower /\ node_lead n3 = 0 /\ node_term n3 = node_term n2).
Proof.
  intros M Hcq Hk H Ev Hok Hr L2 T2 Hc Ho H3. pose proof (made_inv _ _ M) as MI. pose proof (made_step _ _ _ _ _ M Hk H) as M1. pose proof (made_inv _ _ M1) as MI1.
  destruct (period_0 _ _ _ _ Hk (mi_dinv _ _ MI) H Ev) as [Z L1].
  assert (Hcfg : r_cfg (rn_raft n1) = cfg_of c) by exact (mi_cfg _ _ MI1).
  assert (Hcfg2 : r_cfg (rn_raft n2) = cfg_of c).
  { pose proof (n_run_aprs _ _ _ _ [] (nop_ok_wf _ _ Hok _ _ Hr) Hr) as Q. apply aprs_tv in Q. etransitivity; [exact (proj1 Q)|exact Hcfg]. }
  assert (V : vself (rn_raft n1)).
  { apply node_at_vself. destruct M1 as (tape & s & n0 & os' & outs' & X). exists c, tape, s, n0, os', outs'. exact X. }
  assert (W : x_inv (r_term (rn_raft n1)) 0 n1) by (right; auto).
  apply (x_inv_run _ os n1 n2 outs 0 (mi_dinv _ _ MI1) V Hok Hr) in W.
  2:{ replace (r_id (rn_raft n1)) with (c_id c) by (unfold r_id; rewrite Hcfg; reflexivity). exact Ho. }
  2:{ rewrite Hcfg. cbn. lia. }
  destruct W as [W|(_ & _ & W)]; [exfalso; exact (lost_leader _ _ L2 T2 W)|]. rewrite N.add_0_l in W.
  assert (H3' : rn_tick n2 = Ok n3) by (destruct (nstep_tick _ _ _ H3) as (r' & Ht & ->); unfold rn_tick; rewrite Ht; reflexivity).
  destruct M1 as (tape & s & n0 & os' & outs' & _ & _ & X3 & X4 & X5).
  assert (R : n_run (os' ++ os) n0 = Ok (n2, outs' ++ outs)).
  { clear - X5 Hr. revert n0 outs' X5. induction os' as [|a os' IH]; intros n0 outs' X5; cbn [n_run app] in *; [inv X5; exact Hr|].
    apply bind_ok in X5. destruct X5 as ([na oa] & A & X5). apply bind_ok in X5. destruct X5 as ([nb ob] & B & X5). inv X5. rewrite A. cbn [bind]. rewrite (IH _ _ B). reflexivity. }
  pose proof (C41_check_quorum c tape n0 (os' ++ os) n2 (outs' ++ outs) n3 X3) as Q. specialize (Q (proj2 (Forall_app _ _ _) (conj (nop_ok_wf _ _ X4 _ _ X5) (nop_ok_wf _ _ Hok _ _ Hr))) R Hcq L2 H3').
  cbv zeta in Q. destruct Q as (Q1 & Q2 & Q3 & Q4). assert (Hle : Z.to_N (c_election_tick c) <= r_el_elapsed (rn_raft n2) + 1) by lia. destruct (Q4 Hle) as [Q5 Q6]. split.
  - intros Y. destruct (Q5 Y) as [Y1 Y2]. split; auto. intros id p Hne Hp. apply (Y2 id p); auto.
    replace (ns_id (rn_status n3)) with (c_id c); auto.
    destruct (nstep_tick _ _ _ H3) as (r' & Ht & ->). cbn. unfold r_id.
    pose proof (n_step_aprs NTick n2 _ out3 [] Logic.I H3) as QA. apply aprs_tv in QA. pose proof (proj1 QA) as QC. cbn [snd rn_raft set_rn_raft] in QC. rewrite QC, Hcfg2. reflexivity.
  - intros Y. destruct (Q6 Y) as [Y1 Y2]. auto.
Qed.
End Props.
#[local] Existing Instance ex_env.
(** A follower hears from its leader 2; after eight ticks and a proposal the ninth tick does nothing. *)
Definition ex_hb : msg := set_m_term 3 (set_m_from 2 (set_m_to 1 (new_msg MsgHeartbeat))).
Definition ex_calm : list nop := repeat NTick 4 ++ [NPropose "x"; NHandle] ++ repeat NTick 4.
Example C70_example_hears : exists n n' outs ms, made (ex_cfg 1) n /\ n_run_ok (NStep ex_hb :: ex_calm) n /\ n_run (NStep ex_hb :: ex_calm) n = Ok (n', outs) /\ emitted n outs n' ms /\
  (role_eqb (node_role n) RFollower && (node_term n' =? 3) && role_eqb (node_role n') RFollower && (clock ex_calm + 1 =? 9))%bool = true.
Proof. apply (flow_case_ok (ex_cfg 1) ex_tape (repeat NTick 5) (NStep ex_hb :: ex_calm) (fun n ms n' => role_eqb (node_role n) RFollower && (node_term n' =? 3) && role_eqb (node_role n') RFollower && (clock ex_calm + 1 =? 9))%bool). vm_compute. reflexivity. Qed.
(** Granting a vote of its own term, after nine ticks. *)
Example C70_example_grants : exists n n' outs ms, made (ex_cfg 1) n /\ n_run_ok [NStep (ex_ask MsgVote 2 2 7)] n /\ n_run [NStep (ex_ask MsgVote 2 2 7)] n = Ok (n', outs) /\ emitted n outs n' ms /\
  (role_eqb (node_role n) RFollower && (node_term n =? node_term n') && match ms with [x] => mtype_eqb (m_type x) MsgVoteResp && negb (m_reject x) | _ => false end)%bool = true.
Proof. apply (flow_case_ok (ex_cfg 1) ex_tape (repeat NTick 5) [NStep (ex_ask MsgVote 2 2 7)] (fun n ms n' => role_eqb (node_role n) RFollower && (node_term n =? node_term n') && match ms with [x] => mtype_eqb (m_type x) MsgVoteResp && negb (m_reject x) | _ => false end)%bool). vm_compute. reflexivity. Qed.
(** With CheckQuorum: node 1 wins at the first vote of 2.  Nine ticks later it still leads; the tenth
    makes it step down if nobody was heard from, and starts a new period if 2 was. *)
Definition ex_win : nop := NStep (ex_vote_resp 2 3 false).
Definition checked (os : list nop) (stays : bool) (n : rawnode) (ms : list msg) (n' : rawnode) : bool :=
  (role_eqb (node_role n) RCandidate && role_eqb (node_role n') RLeader && (clock os + 1 =? 10) &&
   match n_step NTick n' with
   | Ok (n3, _) => Bool.eqb stays (role_eqb (node_role n3) RLeader) && Bool.eqb stays (match active n' 2 with Some b => b | None => false end) &&
                   (if stays then match active n3 2 with Some b => negb b | None => false end else node_lead n3 =? 0)
   | _ => false end)%bool.
Example C70_example_down : exists n n' outs ms, made Prop_Handoff.ex_cfg_cq n /\ n_run_ok (ex_win :: repeat NTick 9) n /\ n_run (ex_win :: repeat NTick 9) n = Ok (n', outs) /\ emitted n outs n' ms /\
  checked (repeat NTick 9) false n ms n' = true.
Proof. apply (flow_case_ok Prop_Handoff.ex_cfg_cq ex_tape [NCampaign; NHandle] (ex_win :: repeat NTick 9) (checked (repeat NTick 9) false)). vm_compute. reflexivity. Qed.
Definition ex_heard : list nop := repeat NTick 9 ++ [NStep (ex_app_resp 2 3 8)].
Example C70_example_stays : exists n n' outs ms, made Prop_Handoff.ex_cfg_cq n /\ n_run_ok (ex_win :: ex_heard) n /\ n_run (ex_win :: ex_heard) n = Ok (n', outs) /\ emitted n outs n' ms /\
  checked ex_heard true n ms n' = true.
Proof. apply (flow_case_ok Prop_Handoff.ex_cfg_cq ex_tape [NCampaign; NHandle] (ex_win :: ex_heard) (checked ex_heard true)). vm_compute. reflexivity. Qed.
