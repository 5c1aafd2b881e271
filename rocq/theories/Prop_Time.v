(** Election timeouts and CheckQuorum (C41, C42). *)
From Verif Require Import Prelude Types M_Util M_Quorum M_Inflights M_Progress M_Tracker.
From Verif Require Import M_Storage M_Unstable M_Log M_ReadOnly M_ConfPb M_ConfChange M_Raft M_RawNode.
From Verif Require Import Spec_Quorum P_Quorum P_Inflights P_Progress P_Frame P_Prim Sys_Node P_Node P_Fields P_Vote Spec_Node P_Persist P_New P_Time Spec_ConfChange P_ConfChange P_Conf.
From Verif Require Import Ex_Env Ex_Node.

Section Props.
Context {E : Env}.

Fixpoint ticks (k : nat) (n : rawnode) : res rawnode :=
  match k with O => Ok n | S j => n1 <- rn_tick n ;; ticks j n1 end.

(** C42, the range: at any time the timeout in force lies in [election_tick, 2*election_tick-1]. *)
Theorem C42_timeout_range c tape n os n' outs :
  rn_new c tape = Ok n -> Forall nop_wf os -> n_run os n = Ok (n', outs) ->
  Z.to_N (c_election_tick c) <= r_rand_timeout (rn_raft n') <= 2 * Z.to_N (c_election_tick c) - 1.
Proof.
  intros Hn Hw Hr. apply rn_new_spec in Hn. destruct Hn as (r & Hn & ->).
  pose proof (raft_new_rand _ _ _ Hn) as (K0 & _). apply raft_new_spec in Hn. destruct Hn as (s & cp & Hv & _ & _ & _ & _ & _ & F).
  pose proof (n_run_aprs _ _ _ _ [] Hw Hr) as A1. pose proof (rand_ok_aprs _ _ A1 K0) as K1. apply aprs_tv in A1.
  cbn [snd rn_raft] in *. unfold rand_ok in K1. rewrite (proj1 A1), (fr_cfg _ _ _ _ F) in K1. cbn in K1. lia.
Qed.

(** C42: a node that is not leader, [e] ticks after its clock was last reset, does nothing at all
    (except counting) for the next ticks until its timeout [T] is reached; the tick that reaches it
    is exactly a call of Campaign, if it may be elected. *)
Lemma ticks_quiet k : forall n,
  node_role n <> RLeader ->
  promotable (rn_raft n) = false \/ r_el_elapsed (rn_raft n) + N.of_nat k < r_rand_timeout (rn_raft n) ->
  ticks k n = Ok (elapse (N.of_nat k) n).
Proof.
  induction k as [|k IH]; intros n Hl Hq; cbn [ticks].
  - unfold elapse, set_rn_raft, set_r_el_elapsed. rewrite N.add_0_r. destruct n as [[]]; reflexivity.
  - rewrite tick_quiet; [|exact Hl|destruct Hq; [left; auto|right; lia]]. cbn [bind]. rewrite IH.
    + rewrite elapse_elapse. do 2 f_equal. lia.
    + exact Hl.
    + destruct Hq as [Hq|Hq]; [left; exact Hq|right; cbn; lia].
Qed.
Theorem C42_campaign_exactly_at_timeout k n :
  let T := r_rand_timeout (rn_raft n) in
  let e := r_el_elapsed (rn_raft n) in
  node_role n <> RLeader -> e + N.of_nat k + 1 = T ->
  (forall j, (j <= k)%nat -> ticks j n = Ok (elapse (N.of_nat j) n)) /\
  (electable n ->
     ticks (S k) n = ('(n', _) <- rn_campaign (at_rest n) ;; Ok n')).
Proof.
  intros T e Hl Hk. split.
  - intros j Hj. apply ticks_quiet; auto. right. fold T e. lia.
  - intros Hp. apply promotable_iff in Hp.
    assert (G : forall j n, node_role n <> RLeader -> promotable (rn_raft n) = true ->
      r_el_elapsed (rn_raft n) + N.of_nat j + 1 = r_rand_timeout (rn_raft n) ->
      ticks (S j) n = ('(n', _) <- rn_campaign (at_rest n) ;; Ok n')).
    { clear. induction j as [|j IH]; intros n Hl Hp Hk.
      - cbn [ticks]. rewrite tick_fires by (auto; lia). destruct (rn_campaign (at_rest n)) as [[]| | |]; reflexivity.
      - cbn [ticks]. rewrite tick_quiet by (auto; right; lia). cbn [bind].
        change (ticks (S j) (elapse 1 n) = ('(n', _) <- rn_campaign (at_rest n) ;; Ok n')).
        rewrite IH; [reflexivity|exact Hl|exact Hp|cbn; lia]. }
    apply G; auto.
Qed.
(** A node that may not be elected (not in the configuration, a learner, or with a snapshot still
    to be applied) never campaigns, however many ticks pass. *)
Theorem C42_non_promotable_never_campaigns k n :
  node_role n <> RLeader -> ~ electable n -> ticks k n = Ok (elapse (N.of_nat k) n).
Proof. intros H H1. apply promotable_false in H1. apply ticks_quiet; auto. Qed.

(** A freshly started node: nothing happens before tick T, where T only depends on the random number. *)
Theorem C42_fresh_node c tape n k :
  rn_new c tape = Ok n ->
  let T := Z.to_N (c_election_tick c) + hd 0 tape mod Z.to_N (c_election_tick c) in
  (N.of_nat k < T -> ticks k n = Ok (elapse (N.of_nat k) n)) /\
  (N.of_nat k = T -> electable n ->
     ticks k n = ('(n', _) <- rn_campaign n ;; Ok n')).
Proof.
  intros Hn T. apply rn_new_spec in Hn. destruct Hn as (r & Hn & ->).
  pose proof (raft_new_rand _ _ _ Hn) as (K0 & K1 & _). apply raft_new_spec in Hn. destruct Hn as (s & cp & Hv & _ & _ & _ & _ & _ & F).
  set (n := mkRN r _ _ _).
  assert (Hl : node_role n <> RLeader) by (cbn; rewrite (fr_state _ _ _ _ F); discriminate).
  assert (He : r_el_elapsed (rn_raft n) = 0) by apply F. fold T in K1.
  split; intros Hk.
  - apply ticks_quiet; auto. right. rewrite He. cbn [n rn_raft]. lia.
  - intros Hp. destruct k as [|k]; [unfold T in Hk; destruct (validate c) as [c' o] eqn:Ev; cbn in Hv; subst o; apply validate_ok in Ev; lia|].
    rewrite (proj2 (C42_campaign_exactly_at_timeout k n Hl ltac:(rewrite He; cbn [n rn_raft]; lia)) Hp).
    replace (at_rest n) with n; auto. unfold at_rest, set_rn_raft, set_r_el_elapsed, n. cbn. f_equal.
    assert (X : r_el_elapsed r = 0) by apply F. destruct r; cbn in X; subst; reflexivity.
Qed.

(** C42: campaigning means becoming (pre-)candidate, or at once leader. *)
Theorem C42_campaign_effect n n' e : rn_campaign n = Ok (n', e) -> n' = n \/
  node_role n' = RPreCandidate \/ node_role n' = RCandidate \/ node_role n' = RLeader.
Proof.
  intros H. unfold rn_campaign, rn_raft_step in H. rewrite hup_step in H by reflexivity. unfold okr in H.
  apply bind_ok in H. destruct H as ([r1 e1] & H & Hx). inv Hx. apply bind_ok in H. destruct H as (r2 & H & Hx). inv Hx.
  apply hup_state in H. cbn. destruct H as [->|[(H&_)|([H|H]&_)]]; auto. left. destruct n; reflexivity.
Qed.

(** C41.  [heard st id]: the node with status [st] counts [id] as recently active. *)
Definition heard (st : nodestatus) (id : N) : bool :=
  (id =? ns_id st) || match mget id (ns_progress st) with Some p => p_active p | None => false end.
Definition quorum_heard (st : nodestatus) : Prop :=
  majority (tc_incoming (ns_config st)) (heard st) /\ majority (tc_outgoing (ns_config st)) (heard st).

Lemma active_votes_get prs : msorted prs -> forall id, mget id (active_votes prs) =
  match mget id prs with Some p => if p_learner p then None else Some (p_active p) | None => None end.
Proof.
  unfold active_votes.
  assert (G : forall prs acc, msorted prs -> forall id,
    mget id (fold_left (fun acc kv => if p_learner (snd kv) then acc else mset (fst kv) (p_active (snd kv)) acc) prs acc) =
    match mget id prs with Some p => if p_learner p then mget id acc else Some (p_active p) | None => mget id acc end).
  { clear prs. induction prs as [|[k p] t IH]; intros acc Hs id; cbn [fold_left mget fst snd]; auto.
    assert (Ht : msorted t) by (unfold msorted, sorted in *; cbn in Hs; apply StronglySorted_inv in Hs; tauto).
    assert (Hk : mget k t = None).
    { destruct (mget k t) eqn:Hg; auto. exfalso. unfold msorted, sorted in Hs; cbn in Hs. apply StronglySorted_inv in Hs.
      destruct Hs as [_ Hs]. rewrite Forall_forall in Hs. assert (In k (keys t)) by (apply mget_key; congruence).
      apply Hs in H. lia. }
    rewrite IH by auto. rewrite (N.eqb_sym id k) || idtac. destruct (N.eqb_spec k id) as [<-|Hne].
    - rewrite Hk, ?N.eqb_refl. destruct (p_learner p); auto. apply mget_mset_same.
    - destruct (mget id t) as [q|]; [destruct (p_learner q); auto|]; destruct (p_learner p); auto; rewrite mget_mset_other; auto. }
  intros Hs id. rewrite G by auto. reflexivity.
Qed.

Theorem C41_check_quorum c tape n0 os n outs n' :
  rn_new c tape = Ok n0 -> Forall nop_wf os -> n_run os n0 = Ok (n, outs) ->
  c_check_quorum c = true -> node_role n = RLeader -> rn_tick n = Ok n' ->
  let st := rn_status n in
  let st' := rn_status n' in
  hs_term (node_hard n') = hs_term (node_hard n) /\ hs_vote (node_hard n') = hs_vote (node_hard n) /\
  (* not yet an election timeout since the last check: it stays leader *)
  (r_el_elapsed (rn_raft n) + 1 < Z.to_N (c_election_tick c) -> node_role n' = RLeader) /\
  (Z.to_N (c_election_tick c) <= r_el_elapsed (rn_raft n) + 1 ->
    (quorum_heard st -> node_role n' = RLeader /\
       forall id p, id <> ns_id st' -> mget id (ns_progress st') = Some p -> p_active p = false) /\
    (~ quorum_heard st -> node_role n' = RFollower /\ node_lead n' = 0)).
Proof.
  intros Hn Hw Hr Hc Hl Ht st st'.
  pose proof (tok_run _ _ _ _ _ _ Hn Hw Hr) as W.
  apply rn_new_spec in Hn. destruct Hn as (r0 & Hn & ->). apply raft_new_spec in Hn. destruct Hn as (s & cp & Hv & _ & _ & _ & _ & _ & F).
  pose proof (n_run_aprs _ _ _ _ [] Hw Hr) as A1. apply aprs_tv in A1. destruct A1 as [A1 _]. cbn [snd rn_raft] in A1.
  rewrite (fr_cfg _ _ _ _ F) in A1. clear Hr Hw F Hv.
  unfold rn_tick in Ht. apply bind_ok in Ht. destruct Ht as (r' & Ht & Hx). apply Ok_inj in Hx. subst n'.
  cbn in st'. cbn [node_hard node_role node_lead rn_status ns_hard ns_soft hard_state soft_state hs_term hs_vote ss_state ss_lead rn_raft set_rn_raft].
  cbn in Hl. unfold tick in Ht. rewrite Hl in Ht. unfold tick_heartbeat in Ht. cbv zeta in Ht.
  set (r := rn_raft n) in *.
  set (r1 := set_r_el_elapsed (r_el_elapsed r + 1) (set_r_hb_elapsed (r_hb_elapsed r + 1) r)) in Ht.
  change (r_cfg r1) with (r_cfg r) in Ht. change (r_el_elapsed r1) with (r_el_elapsed r + 1) in Ht.
  rewrite A1 in Ht. cbn [k_el_timeout cfg_of k_check_quorum] in Ht.
  apply bind_ok in Ht. destruct Ht as (r2 & H2 & H3).
  (* the heartbeat part keeps everything we need *)
  assert (B : r_term r' = r_term r2 /\ r_vote r' = r_vote r2 /\ r_state r' = r_state r2 /\ r_lead r' = r_lead r2 /\
    r_cfg r' = r_cfg r2 /\ prs_same r2 r').
  { destruct (negb (is_leader r2)) eqn:Hn2; [apply Ok_inj in H3; subst; auto 10 using prs_same_refl|].
    destruct (_ <=? r_hb_elapsed r2); [|apply Ok_inj in H3; subst; auto 10 using prs_same_refl].
    apply bind_ok in H3. destruct H3 as ([r3 e3] & H3 & Hx). apply Ok_inj in Hx. subst r3.
    assert (L2 : r_state r2 = RLeader) by (unfold is_leader in Hn2; destruct (r_state r2); try discriminate; auto).
    unfold step in H3. change (m_term _ =? 0) with true in H3. cbv iota in H3. unfold step_dispatch in H3.
    cbn [m_type set_m_from new_msg] in H3. change (r_state (set_r_hb_elapsed 0 r2)) with (r_state r2) in H3. rewrite L2 in H3.
    unfold step_leader in H3. cbn [m_type set_m_from new_msg] in H3. unfold okr in H3.
    apply bind_ok in H3. destruct H3 as (r4 & H3 & Hx). apply Ok_inj in Hx. inv Hx.
    unfold bcast_heartbeat in H3. apply bcast_heartbeat_ctx_sends in H3. destruct H3 as [[] S2 _].
    assert (S2' : prs_same r2 r') by exact S2. auto 10. }
  clear H3. destruct B as (B1 & B2 & B3 & B4 & B5 & B6). rewrite B1, B2, B3, B4.
  destruct (N.leb_spec (Z.to_N (c_election_tick c)) (r_el_elapsed r + 1)) as [Hb|Hb].
  2:{ apply Ok_inj in H2. subst r2. repeat split; auto; intros; lia. }
  cbv zeta in H2. change (r_cfg (set_r_el_elapsed 0 r1)) with (r_cfg r) in H2. rewrite A1 in H2.
  cbn [k_check_quorum cfg_of] in H2. rewrite Hc in H2.
  apply bind_ok in H2. destruct H2 as (r3 & H2 & H4).
  apply bind_ok in H2. destruct H2 as ([r4 e4] & H2 & Hx). apply Ok_inj in Hx. subst r4.
  assert (H2' : r3 = leader_check_quorum (set_r_el_elapsed 0 r1)).
  { unfold step in H2. change (m_term _ =? 0) with true in H2. cbv iota in H2. unfold step_dispatch in H2.
    cbn [m_type set_m_from new_msg] in H2. change (r_state (set_r_el_elapsed 0 r1)) with (r_state r) in H2. rewrite Hl in H2.
    unfold step_leader in H2. cbn [m_type set_m_from new_msg] in H2. apply Ok_inj in H2. inv H2. reflexivity. }
  clear H2. 
  assert (C2 : r_term r2 = r_term r3 /\ r_vote r2 = r_vote r3 /\ r_state r2 = r_state r3 /\ r_lead r2 = r_lead r3 /\
    r_cfg r2 = r_cfg r3 /\ t_progress (r_trk r2) = t_progress (r_trk r3)).
  { destruct (is_leader r3 && _); apply Ok_inj in H4; subst r2; auto 10. }
  clear H4. destruct C2 as (C1 & C2 & C3 & C4 & C5 & C6). rewrite C1, C2, C3, C4.
  (* the check itself *)
  unfold leader_check_quorum in H2'. cbv zeta in H2'.
  set (ra := match trk_get (r_id _) _ with Some pr => _ | None => _ end) in H2'.
  assert (Ra : r_term ra = r_term r /\ r_vote ra = r_vote r /\ r_state ra = RLeader /\ r_cfg ra = r_cfg r /\
     t_config (r_trk ra) = t_config (r_trk r) /\
     t_progress (r_trk ra) = match mget (r_id r) (t_progress (r_trk r)) with
        | Some p => mset (r_id r) (set_p_active true p) (t_progress (r_trk r)) | None => t_progress (r_trk r) end).
  { unfold ra, trk_get. change (r_trk (set_r_el_elapsed 0 r1)) with (r_trk r). change (r_id (set_r_el_elapsed 0 r1)) with (r_id r).
    destruct (mget (r_id r) (t_progress (r_trk r))); cbn; auto 10. }
  clearbody ra. destruct Ra as (D1 & D2 & D3 & D4 & D5 & D6).
  assert (Sa : msorted (t_progress (r_trk ra))).
  { rewrite D6. destruct (mget (r_id r) _); [apply msorted_mset|]; apply W. }
  assert (Q : trk_quorum_active (r_trk ra) = true <-> quorum_heard st).
  { unfold trk_quorum_active, tc_vote_result. rewrite D5.
    assert (Qe : forall id, In id (tc_incoming (t_config (r_trk r))) \/ In id (tc_outgoing (t_config (r_trk r))) ->
      voted_yes (vget (active_votes (t_progress (r_trk ra)))) id = heard st id).
    { intros id Hid. unfold voted_yes, vget. rewrite active_votes_get by auto. rewrite D6.
      unfold heard, st. cbn [rn_status ns_id ns_progress]. unfold is_leader. fold r. rewrite Hl. cbn [role_eqb].
      assert (Tk : exists p, mget id (t_progress (r_trk r)) = Some p /\ p_learner p = false).
      { destruct (mget id (t_progress (r_trk r))) as [p|] eqn:Hg.
        - exists p. split; auto. destruct (p_learner p) eqn:Hp; auto. apply (cw_mark _ _ W id p Hg) in Hp.
          apply (cw_disj _ _ W) in Hp. tauto.
        - exfalso. assert (X : mget id (t_progress (r_trk r)) <> None) by (apply (cw_trk _ _ W); tauto). auto. }
      destruct Tk as (p & Hg & Hp).
      destruct (N.eqb_spec id (r_id r)) as [->|Hne].
      - rewrite Hg, mget_mset_same. cbn [p_learner set_p_active p_active]. rewrite Hp. reflexivity.
      - destruct (mget (r_id r) (t_progress (r_trk r))); rewrite ?mget_mset_other by auto; rewrite Hg, Hp; reflexivity. }
    assert (Mx : forall l, (forall id, In id l -> In id (tc_incoming (t_config (r_trk r))) \/ In id (tc_outgoing (t_config (r_trk r)))) ->
       (majority l (voted_yes (vget (active_votes (t_progress (r_trk ra))))) <-> majority l (heard st))).
    { intros l Hin. unfold majority. erewrite count_ext; [reflexivity|]. intros x Hx. apply Qe. auto. }
    unfold quorum_heard. cbn [ns_config st rn_status]. fold r. rewrite <- !Mx by auto. rewrite <- joint_won.
    destruct (joint_vote_result _ _ _); cbn; split; auto; discriminate. }
  assert (Hp : forall id p, id <> r_id r -> mget id (t_progress (r_trk r3)) = Some p -> p_active p = false).
  { intros id p Hne Hg. rewrite H2' in Hg. cbn [r_trk set_r_trk t_progress set_t_progress] in Hg. rewrite mget_mmap in Hg.
    match type of Hg with option_map (fun pr => if id =? r_id ?x then _ else _) _ = _ => assert (Hi : r_id x = r_id r) end.
    { unfold r_id. destruct (trk_quorum_active (r_trk ra)); [rewrite D4; auto|].
      destruct (become_follower_fields (r_term ra) 0 ra _ eq_refl) as (X & _). rewrite X, D4. auto. }
    rewrite Hi in Hg. destruct (mget id _); [|discriminate]. cbn in Hg. destruct (N.eqb_spec id (r_id r)); [tauto|].
    inv Hg. reflexivity. }
  destruct (trk_quorum_active (r_trk ra)) eqn:Ea.
  - assert (Qh : quorum_heard st) by tauto.
    assert (E3 : r_term r3 = r_term r /\ r_vote r3 = r_vote r /\ r_state r3 = RLeader /\ r_cfg r3 = r_cfg r)
      by (rewrite H2'; cbn; auto).
    destruct E3 as (E1 & E2 & E3 & E4). rewrite E1, E2, E3. split; auto. split; auto. split; [lia|]. intros _. split; [|tauto].
    intros _. split; auto. intros id p Hne Hg. unfold st' in Hne, Hg. cbn in Hne, Hg.
    assert (Hid : r_id r' = r_id r) by (unfold r_id; congruence). rewrite Hid in Hne.
    unfold is_leader in Hg. rewrite B3, C3, E3 in Hg. cbn in Hg.
    pose proof (proj2 B6 id) as S. rewrite Hg in S. destruct (mget id (t_progress (r_trk r2))) as [q|] eqn:Hq; [|tauto].
    rewrite C6 in Hq. destruct S as (_ & _ & S & _). rewrite S. eapply Hp; eauto.
  - assert (Qh : ~ quorum_heard st) by (intros X; apply Q in X; discriminate).
    hide (become_follower (r_term ra) 0 ra) rb Eb. 
    destruct (become_follower_fields _ _ _ _ Eb) as (G1&G2&G3&_&G5&_&_&G8&_). clear Eb. rewrite N.eqb_refl in G3.
    assert (E3 : r_term r3 = r_term r /\ r_vote r3 = r_vote r /\ r_state r3 = RFollower /\ r_lead r3 = 0)
      by (rewrite H2'; cbn; repeat split; congruence).
    destruct E3 as (E1 & E2 & E3 & E4). rewrite E1, E2, E3, E4. split; auto. split; auto. split; [lia|]. intros _. split; [tauto|]. auto.
Qed.

End Props.

(** Non-vacuity: node 1 leads term 3 and hears nothing; with CheckQuorum it survives the first
    check only because the voter answered. *)
Definition ex_elect_cq : list nop :=
  [NCampaign; NHandle; NStep (mkMsg MsgPreVoteResp 1 2 3 0 0 [] 0 empty_snapshot false 0 EmptyString);
   NStep (ex_vote_resp 2 3 false); NHandle].
Example C41_example_stays : run_ok (ex_run (ex_cfg_cq 1) (ex_elect_cq ++ NStep (ex_app_resp 2 3 8) :: repeat NTick 10))
  (fun x => node_role (fst x) = RLeader).
Proof. vm_compute. reflexivity. Qed.
Example C41_example_down : run_ok (ex_run (ex_cfg_cq 1) (ex_elect_cq ++ repeat NTick 10))
  (fun x => node_role (fst x) = RFollower /\ hs_term (node_hard (fst x)) = 3).
Proof. vm_compute. split; reflexivity. Qed.
Example C42_example : run_ok (ex_run (ex_cfg 1) (repeat NTick 12)) (fun x => node_role (fst x) = RFollower) /\
  run_ok (ex_run (ex_cfg 1) (repeat NTick 13)) (fun x => node_role (fst x) = RCandidate).
Proof. vm_compute. split; reflexivity. Qed.
