(** Commit progress (C62). *)
From Verif Require Import Prelude Types M_Util M_Quorum M_Inflights M_Progress M_Tracker.
From Verif Require Import M_Storage M_Unstable M_Log M_ReadOnly M_ConfPb M_ConfChange M_Raft M_RawNode.
From Verif Require Import P_Inflights Spec_Log P_Lists P_Storage P_Log Spec_Storage Sys_Storage P_StorageSeq Spec_RaftLog Sys_RaftLog P_RaftLogSeq.
From Verif Require Import Spec_Quorum P_Quorum Spec_Progress Spec_ConfChange P_ConfChange.
From Verif Require Import P_Frame P_Prim Sys_Node Sys_ConfChange P_Node P_Fields P_Vote Spec_Node P_Persist P_New P_Time P_Conf P_NodeLog P_Handle P_NodeRun P_Emit P_Ack.
From Verif Require Import Prop_Vote P_Lead P_Elect P_Beat R_Elig Spec_Flow Spec_Beat Prop_Deliver Prop_Msg Prop_Flow Prop_Elect Prop_Beat P_Commit Prop_Leader Spec_Commit Ex_Env Ex_Node Ex_Check Ex_Case.

Section Props.
Context {E : Env}.

Lemma apply_cc_max cc r r' cs : raft_apply_conf_change cc r = Ok (r', cs) -> r_state r' = RLeader ->
  (exists p, trk_get (r_id r') (r_trk r') = Some p /\ p_learner p = false) -> tc_incoming (t_config (r_trk r')) <> [] -> maxc r'.
Proof.
  unfold raft_apply_conf_change. intros H Hl Hp Hi. apply bind_ok in H. destruct H as (s & _ & H). destruct s as [cp|]; [|discriminate].
  unfold switch_to_config in H. cbv zeta in H.
  match type of H with (if _ then Ok (?x, _) else _) = _ => set (r1 := x) in * end.
  assert (Ep : trk_get (r_id r1) (r_trk r1) = trk_get (r_id (set_r_trk (set_t_progress (snd cp) (set_t_config (fst cp) (r_trk r))) r)) (r_trk (set_r_trk (set_t_progress (snd cp) (set_t_config (fst cp) (r_trk r))) r))) by reflexivity.
  assert (Ec : cs_voters (trk_confstate (r_trk (set_r_trk (set_t_progress (snd cp) (set_t_config (fst cp) (r_trk r))) r))) = tc_incoming (t_config (r_trk r1))) by reflexivity.
  rewrite <- Ep, Ec in H. clearbody r1. clear Ep Ec.
  match type of H with (if ?b then _ else _) = _ => destruct b eqn:H1 end.
  { apply Ok_inj, pair_equal_spec in H. destruct H as [<- _]. destruct Hp as (p & G & L). rewrite G, L in H1. discriminate. }
  match type of H with (if ?b then _ else _) = _ => destruct b eqn:H2 end.
  { apply Ok_inj, pair_equal_spec in H. destruct H as [<- _]. unfold is_leader in H2. rewrite Hl in H2. cbn in H2. destruct (tc_incoming _); [congruence|discriminate]. }
  clear H1 H2. apply bind_ok in H. destruct H as (r2 & H & Hx). apply Ok_inj, pair_equal_spec in Hx. destruct Hx as [<- _].
  unfold switch_leader in H. apply bind_ok in H. destruct H as ([r3 b] & H1 & H). apply raft_maybe_commit_maxc in H1.
  apply bind_ok in H. destruct H as (r4 & H2 & H).
  assert (S : sends r3 r4).
  { destruct b; [eapply bcast_append_sends; eauto|]. apply (mfold_inv _ sends) in H2; auto; [apply sends_refl|apply sends_trans|].
    intros a x y _ Hy. apply bind_ok in Hy. destruct Hy as ([z w] & Hy & Hx). apply Ok_inj in Hx. subst. eapply maybe_send_append_sends; eauto. }
  apply msame_sends in S. eapply maxc_msame; [|exact H1]. eapply msame_trans; [exact S|].
  match type of H with (if ?b then _ else _) = _ => destruct b end; apply Ok_inj in H; subst r2; constructor; auto.
Qed.
(** A leader with a vote never leaves a quorum's index of its own term uncommitted. *)
Definition qmax (n : rawnode) : Prop := node_role n = RLeader -> votes_itself n -> maxa (rn_raft n).
Lemma votes_itself_tracked n : tok (rn_raft n) -> votes_itself n -> exists p, trk_get (r_id (rn_raft n)) (r_trk (rn_raft n)) = Some p /\ p_learner p = false.
Proof.
  intros W [_ V]. destruct (voter_tracked n (node_id n) W V) as [p Hp]. exists p. split; [exact Hp|].
  destruct (p_learner p) eqn:Hl; auto. exfalso. apply (cw_mark _ _ W _ _ Hp) in Hl. apply (cw_disj _ _ W) in Hl. destruct Hl, V; auto.
Qed.
Lemma qmax_step c o n n' out : made c n -> nop_ok o n -> n_step o n = Ok (n', out) -> qmax n -> qmax n'.
Proof.
  intros M Hk H Q L V. pose proof (made_step _ _ _ _ _ M Hk H) as M'. pose proof (mi_dinv _ _ (made_inv _ _ M)) as D. pose proof (mi_dinv _ _ (made_inv _ _ M')) as D'.
  pose proof (node_at_tok _ (made_at _ _ M')) as W'.
  assert (Dc : (exists cc, o = NApplyCC cc) \/ forall cc, o <> NApplyCC cc) by (destruct o; eauto; right; discriminate).
  destruct Dc as [[cc ->]|Dc].
  - clear Hk. cbn [n_step] in H. apply bind_ok in H. destruct H as ([n1 e1] & H & Hx). inv Hx. unfold rn_apply_conf_change in H.
    apply bind_ok in H. destruct H as (v2 & _ & H). apply bind_ok in H. destruct H as ([r1 cs] & H & Hx). inv Hx.
    change (rn_raft (set_rn_raft r1 n)) with r1 in *.
    apply maxc_iff; [apply (li_wf _ (ni_log _ (di_ninv _ D')))|apply (ni_term _ (di_ninv _ D')); left; exact L|].
    eapply apply_cc_max; [exact H|exact L| |apply V]. exact (votes_itself_tracked (set_rn_raft r1 n) W' V).
  - destruct (n_step_cm _ _ _ _ Hk D H L Dc) as [(A & B & C)|(_ & A & _)]; [|exact A].
    apply (nc_max _ _ _ C). apply Q; [exact A|]. unfold votes_itself, node_incoming, node_outgoing, node_id, rn_status, r_id in *. cbn in *.
    rewrite <- (nc_conf _ _ _ C), <- (nc_cfg _ _ _ C). exact V.
Qed.
Lemma made_qmax c n : made c n -> qmax n.
Proof.
  intros (tape & s & n0 & os & outs & H1 & H2 & H3 & H4 & H5).
  assert (Q0 : qmax n0).
  { intros L. exfalso. apply rn_new_spec in H3. destruct H3 as (r & H & ->). apply raft_new_spec in H.
    destruct H as (s' & cp & _ & _ & _ & _ & _ & _ & F). change (r_state r = RLeader) in L. rewrite (fr_state _ _ _ _ F) in L. discriminate. }
  assert (M0 : made c n0) by (exists tape, s, n0, [], []; cbn; auto 10).
  clear H1 H2 H3. revert n0 outs H4 H5 Q0 M0. induction os as [|o os IH]; intros n0 outs H4 H5 Q0 M0; cbn [n_run n_run_ok] in *.
  - apply Ok_inj, pair_equal_spec in H5. destruct H5 as [<- _]. exact Q0.
  - destruct H4 as [H4 H6]. apply bind_ok in H5. destruct H5 as ([n1 o1] & H5 & H7). rewrite H5 in *. apply bind_ok in H7. destruct H7 as ([n2 o2] & H7 & Hx).
    apply Ok_inj, pair_equal_spec in Hx. destruct Hx as [-> <-]. apply (IH n1 o2); auto; [eapply qmax_step; eauto|eapply made_step; eauto].
Qed.

(** C62: whenever a leader that has a vote is at rest, every entry which it knows - from what Status
    reports - to be held by a majority of the voters (of both halves of a joint configuration) is
    committed, provided the log has only entries of the leader's term from there on and no member
    claims to hold more than the leader. *)
Theorem C62_quorum_committed c n i :
  made c n -> node_role n = RLeader -> votes_itself n -> i <= UINT64_MAX -> own_from n i ->
  (forall id p, peer n id = Some p -> p_match p <= node_last n) ->
  majority (node_incoming n) (reported n i) -> majority (node_outgoing n) (reported n i) ->
  i <= node_commit n.
Proof.
  intros M L V Hmax Own Hle M1 M2. pose proof (made_qmax _ _ M L V) as Q. pose proof (mi_dinv _ _ (made_inv _ _ M)) as D.
  pose proof (li_wf _ (ni_log _ (di_ninv _ D))) as W.
  destruct (joint_ci_spec (tc_incoming (t_config (r_trk (rn_raft n)))) (tc_outgoing (t_config (r_trk (rn_raft n)))) (match_acked (t_progress (r_trk (rn_raft n))))) as (k & Hk & Hs).
  assert (Hr : forall id, reported n i id = acked (match_acked (t_progress (r_trk (rn_raft n)))) i id).
  { intros id. unfold reported, acked, match_acked. rewrite peer_get by auto. unfold trk_get. destruct (mget id (t_progress (r_trk (rn_raft n)))); reflexivity. }
  assert (Hik : i <= k).
  { apply Hs; [exact Hmax|]. split; eapply majority_mono; try eassumption; intros x _; rewrite Hr; auto. }
  destruct (N.le_gt_cases i (node_commit n)) as [|Hgt]; [auto|]. exfalso.
  assert (Hck : l_committed (r_log (rn_raft n)) < k) by (unfold node_commit, node_hard in Hgt; cbn in Hgt; lia).
  assert (Hkl : k <= node_last n).
  { destruct (joint_ci_le _ _ _ _ k Hk ltac:(lia)) as [Mk _]. destruct V as [V _]. destruct Mk as [Mk|Mk]; [unfold node_incoming, rn_status in V; cbn in V; congruence|].
    assert (Ex : exists id, acked (match_acked (t_progress (r_trk (rn_raft n)))) k id = true).
    { destruct (existsb (acked (match_acked (t_progress (r_trk (rn_raft n)))) k) (tc_incoming (t_config (r_trk (rn_raft n))))) eqn:Ex; [apply existsb_exists in Ex; destruct Ex as (id & _ & Ex); eauto|].
      exfalso. assert (Z : count (acked (match_acked (t_progress (r_trk (rn_raft n)))) k) (tc_incoming (t_config (r_trk (rn_raft n)))) = 0).
      { clear - Ex. induction (tc_incoming (t_config (r_trk (rn_raft n)))) as [|a l IH]; [reflexivity|]. cbn in Ex. apply orb_false_elim in Ex. destruct Ex as [E1 E2].
        rewrite count_cons, E1, IH; auto. }
      rewrite Z in Mk. lia. }
    destruct Ex as (id & Ex). unfold acked, match_acked in Ex. destruct (mget id (t_progress (r_trk (rn_raft n)))) as [p|] eqn:Hp; cbn in Ex; [|lia].
    apply N.leb_le in Ex. specialize (Hle id p). rewrite peer_get in Hle by auto. specialize (Hle Hp). lia. }
  unfold node_last in Hkl. rewrite log_last_abs in Hkl by (apply lwf_0; auto).
  pose proof (lwf_com _ W) as Hc. destruct (a_term_in (log_abs (r_log (rn_raft n))) k ltac:(lia)) as [t Ht].
  unfold a_term in Ht. destruct (N.eqb_spec k (a_base (log_abs (r_log (rn_raft n))))); [lia|].
  destruct (a_entry (log_abs (r_log (rn_raft n))) k) as [e|] eqn:He; [|discriminate].
  apply (Q k e Hk Hck He). apply (Own k e Hik). apply holds_abs; auto.
Qed.
(** C62: while the node leads and its configuration stays, what Status reports never goes back, and
    an accepting MsgAppResp of the term from a member counts at once. *)
Theorem C62_ack_counts c o n n' out id p : made c n -> nop_ok o n -> n_step o n = Ok (n', out) -> still_leads n n' ->
  (forall cc, o <> NApplyCC cc) -> peer n id = Some p ->
  exists p', peer n' id = Some p' /\ p_match p <= p_match p' /\ forall i, acks (node_term n) id i o = true -> i <= p_match p'.
Proof.
  intros M Hk H (L & L' & T) Dc Hp. rewrite peer_get in * by auto. pose proof (mi_dinv _ _ (made_inv _ _ M)) as D.
  destruct (n_step_cm _ _ _ _ Hk D H L' Dc) as [(A & B & C)|(A & _)]; [|exfalso; apply A; split; [exact L|exact T]].
  destruct (nc_ge _ _ _ C _ _ Hp) as (p' & G & Hle). exists p'. split; [exact G|]. split; [exact Hle|].
  intros i Ha. unfold acks in Ha. destruct o; try discriminate. rewrite !andb_true_iff, negb_true_iff in Ha. destruct Ha as ((((A1 & A2) & A3) & A4) & A5).
  apply mtype_eqb_eq in A1. apply N.eqb_eq in A3, A4. apply N.leb_le in A5. subst id.
  destruct (nc_ack _ _ _ C m eq_refl (conj A1 A2) A3 _ Hp) as (p2 & G2 & L2). assert (p2 = p') by congruence. subst. lia.
Qed.
Definition upto (n : rawnode) (B : N) : Prop := bnd B (rn_raft n) /\ selfm (rn_raft n).
(** Match values over a reign with a fixed configuration. *)
Lemma reign_match c t B os : forall n n' outs, made c n -> n_run_ok os n -> n_run os n = Ok (n', outs) ->
  throughout (fun k => node_role k = RLeader /\ node_term k = t) os n -> fixed_config os ->
  (forall id j, acknowledged os t id j -> j <= B) -> node_last n' <= B ->
  upto n B -> upto n' B /\
  (forall id p, trk_get id (r_trk (rn_raft n)) = Some p -> exists p', trk_get id (r_trk (rn_raft n')) = Some p' /\ p_match p <= p_match p' /\
     forall j, acknowledged os t id j -> j <= p_match p') /\
  t_config (r_trk (rn_raft n')) = t_config (r_trk (rn_raft n)).
Proof.
  induction os as [|o os IH]; intros n n' outs M Hk H T F Ha HB U; cbn [n_run n_run_ok] in *.
  - apply Ok_inj, pair_equal_spec in H. destruct H as [-> _]. split; [exact U|]. split; [|reflexivity]. intros id p Hp. exists p. split; auto. split; [lia|].
    intros j (m & X & _). destruct X.
  - destruct Hk as [Hk1 Hk2]. apply bind_ok in H. destruct H as ([n1 o1] & H & H7). rewrite H in *. apply bind_ok in H7. destruct H7 as ([n2 o2] & H7 & Hx).
    apply Ok_inj, pair_equal_spec in Hx. destruct Hx as [-> <-]. cbn [throughout] in T. destruct T as [(T1 & T2) T3]. specialize (T3 _ _ H).
    pose proof (throughout_hd _ _ _ T3) as (T4 & T5). pose proof (made_step _ _ _ _ _ M Hk1 H) as M1.
    pose proof (mi_dinv _ _ (made_inv _ _ M)) as D. pose proof (mi_dinv _ _ (made_inv _ _ M1)) as D1.
    assert (Dc : forall cc, o <> NApplyCC cc) by (intros cc ->; apply (F cc); left; auto).
    assert (F' : fixed_config os) by (intros cc X; apply (F cc); right; auto).
    assert (Ha' : forall id j, acknowledged os t id j -> j <= B).
    { intros id j (m & X1 & X2). apply (Ha id j). exists m. split; [right; auto|auto]. }
    assert (St : still_leads n n1) by (repeat split; auto; congruence).
    destruct (n_step_cm _ _ _ _ Hk1 D H T4 Dc) as [(A & B0 & C)|(A & _)]; [|exfalso; apply A; split; [exact T1|exact (eq_trans T5 (eq_sym T2))]].
    assert (Hl : node_last n1 <= node_last n').
    { pose proof (mi_dinv _ _ (made_inv _ _ (made_run _ _ _ _ _ M1 Hk2 H7))) as D'. unfold node_last. rewrite !log_last_abs by (apply lwf_0, li_wf, ni_log, di_ninv; auto).
      destruct (n_run_gfix t os n1 n' o2 Hk2 H7 D1 (or_introl (conj T4 T5))) as [(_ & _ & _ & _ & G)|X]; [apply G|].
      exfalso. assert (E' : node_role n' = RLeader /\ node_term n' = t).
      { clear - T3 H7. revert n1 n' o2 T3 H7. induction os as [|o os IH]; intros n1 n' o2 T3 H7; cbn [n_run] in H7; [inv H7; apply T3|].
        apply bind_ok in H7. destruct H7 as ([n2 o3] & H7 & H8). apply bind_ok in H8. destruct H8 as ([n3 o4] & H8 & Hx). inv Hx.
        cbn [throughout] in T3. destruct T3 as [_ T3]. eapply IH; [apply (T3 _ _ H7)|exact H8]. }
      destruct E' as [E1 E2]. eapply lost_leader; [exact E1|exact E2|exact X]. }
    assert (U1 : upto n1 B).
    { destruct U as [U1 U2]. split; [|apply (nc_self _ _ _ C U2)]. apply (nc_le _ _ _ C); auto; [change (node_last n1 <= B); lia|].
      intros m -> [Q1 Q2] Q3. apply (Ha (m_from m) (m_index m)). exists m. split; [left; auto|]. repeat split; auto; [rewrite Q3; exact T2|lia]. }
    destruct (IH n1 n' o2 M1 Hk2 H7 T3 F' Ha' HB U1) as (I1 & I2 & I3). split; [exact I1|]. split; [|rewrite I3; apply C].
    intros id p Hp. destruct (nc_ge _ _ _ C _ _ Hp) as (p1 & G1 & L1). destruct (I2 _ _ G1) as (p2 & G2 & L2 & L3). exists p2. split; [exact G2|]. split; [lia|].
    intros j (m & [X|X] & X2 & X3 & X4 & X5 & X6).
    + subst o id. destruct (nc_ack _ _ _ C m eq_refl (conj X2 X3) (eq_trans X4 (eq_sym T2)) _ Hp) as (p3 & G3 & L4). assert (p3 = p1) by congruence. subst. lia.
    + apply L3. exists m. auto 10.
Qed.

(** C62: let the call [o] make the node leader, and let it lead from then on without changing its
    configuration, in whatever history [os] of calls.  If a majority of the voters - of both halves
    of a joint configuration - are the node itself or have acknowledged, in this term, the log up to
    [i], where [i] lies beyond the log the node was elected with, then everything up to [i] is
    committed. *)
Theorem C62_acked_committed c n o n1 out1 os n2 outs i Q :
  made c n -> nop_ok o n -> n_step o n = Ok (n1, out1) -> node_role n1 = RLeader -> ~ still_leads n n1 ->
  n_run_ok os n1 -> n_run os n1 = Ok (n2, outs) ->
  throughout (fun k => node_role k = RLeader /\ node_term k = node_term n1) os n1 -> fixed_config os -> votes_itself n2 ->
  (forall id j, acknowledged os (node_term n1) id j -> j <= node_last n2) ->
  node_last n < i -> i <= node_last n2 -> i <= UINT64_MAX ->
  majority (node_incoming n2) Q -> majority (node_outgoing n2) Q ->
  (forall id, Q id = true -> id = node_id n2 \/ acknowledged os (node_term n1) id i) ->
  i <= node_commit n2.
Proof.
  intros M Hk H L1 Hn Hok Hr T F V Hack Hi Hi2 Hmax Q1 Q2 HQ.
  pose proof (made_step _ _ _ _ _ M Hk H) as M1. pose proof (made_run _ _ _ _ _ M1 Hok Hr) as M2.
  pose proof (mi_dinv _ _ (made_inv _ _ M)) as D. pose proof (mi_dinv _ _ (made_inv _ _ M1)) as D1. pose proof (mi_dinv _ _ (made_inv _ _ M2)) as D2.
  assert (E' : node_role n2 = RLeader /\ node_term n2 = node_term n1).
  { clear - T Hr. revert T. generalize (node_term n1). intros t T. revert n1 n2 outs T Hr. induction os as [|o os IH]; intros n1 n2 outs T H7; cbn [n_run] in H7; [inv H7; apply T|].
    apply bind_ok in H7. destruct H7 as ([n3 o3] & H7 & H8). apply bind_ok in H8. destruct H8 as ([n4 o4] & H8 & Hx). inv Hx.
    cbn [throughout] in T. destruct T as [_ T]. eapply IH; [apply (T _ _ H7)|exact H8]. }
  destruct E' as [L2 T2].
  assert (Gn : gained (rn_raft n) (rn_raft n1)).
  { assert (Dc : (exists cc, o = NApplyCC cc) \/ forall cc, o <> NApplyCC cc) by (destruct o; eauto; right; discriminate).
    destruct Dc as [[cc ->]|Dc].
    - exfalso. apply Hn. pose proof (n_step_beats _ _ _ _ H ltac:(discriminate)) as Bt. cbn [n_step] in H. apply bind_ok in H. destruct H as ([n3 e1] & H & Hx). inv Hx. unfold rn_apply_conf_change in H.
      apply bind_ok in H. destruct H as (v2 & _ & H). apply bind_ok in H. destruct H as ([r1 cs] & H & Hx). inv Hx. apply apply_cc_hb in H. destruct H as (A & B & _).
      repeat split; auto. change (r_state (rn_raft n) = RLeader). rewrite <- A. exact L1.
    - destruct (n_step_cm _ _ _ _ Hk D H L1 Dc) as [(A & B & _)|A]; [|exact A]. exfalso. apply Hn. repeat split; auto. }
  destruct Gn as (_ & _ & Gs & Gv). pose proof (via_log _ _ (di_ninv _ D) Gv) as Gl.
  pose proof (lwf_0 _ (li_wf _ (ni_log _ (di_ninv _ D)))) as W. pose proof (lwf_0 _ (li_wf _ (ni_log _ (di_ninv _ D1)))) as W1.
  destruct (C33_leader_append_only n1 os n2 outs (made_at _ _ M1) Hok Hr L1 L2 T2) as (Gx1 & Gx2 & Gx3).
  assert (Hll : node_last n1 = node_last n + 1).
  { unfold node_last. rewrite !log_last_abs by auto. rewrite Gl, a_last_app, stamp_len. reflexivity. }
  assert (U1 : upto n1 (node_last n2)).
  { split; [|exact Gs]. eapply via_bnd; [| |exact Gv]; [change (node_last n <= node_last n2); lia|exact Gx1]. }
  destruct (reign_match c (node_term n1) (node_last n2) os n1 n2 outs M1 Hok Hr T F Hack ltac:(lia) U1) as ([U2 S2] & Rm & Rc).
  assert (Rep : forall x, In x (node_incoming n2) \/ In x (node_outgoing n2) -> Q x = true -> reported n2 i x = true).
  { intros x Hx Hq. unfold reported. rewrite peer_get by auto.
    assert (Hx1 : In x (node_incoming n1) \/ In x (node_outgoing n1)) by (unfold node_incoming, node_outgoing, rn_status in *; cbn in *; rewrite <- Rc; exact Hx).
    destruct (voter_tracked n1 x (node_at_tok _ (made_at _ _ M1)) Hx1) as [p Hp]. destruct (Rm _ _ Hp) as (p' & G & _ & A). rewrite G. apply N.leb_le.
    destruct (HQ x Hq) as [->|X]; [|auto]. specialize (S2 _ G). change (node_last n2 <= p_match p') in S2. lia. }
  apply (C62_quorum_committed c n2 i M2 L2 V Hmax).
  - intros j e Hj He. rewrite T2. destruct (N.le_gt_cases j (node_last n1)) as [Hle|Hgt]; [|eapply Gx3; eauto].
    assert (Hf : node_first n2 <= j).
    { apply holds_abs in He; auto. unfold a_entry in He. destruct (N.ltb_spec (a_base (log_abs (r_log (rn_raft n2)))) j); [|discriminate].
      unfold node_first. rewrite log_first_abs. unfold a_first. lia. }
    apply (Gx2 j e Hf Hle) in He. apply holds_abs in He; auto. rewrite Gl in He.
    assert (Hj2 : j = node_last n + 1) by lia. unfold node_last in Hj2. rewrite log_last_abs in Hj2 by auto. subst j. unfold a_entry, a_app in He. cbn [a_base a_ents] in He. 
    destruct (_ <? _); [|discriminate].
    assert (Hn2 : forall a : alog, nlen (a_ents a) <= a_last a + 1 - a_base a - 1) by (intros a; unfold a_last; lia).
    rewrite nnth_app2 in He by apply Hn2. apply nnth_In in He. apply stamp_term in He. exact He.
  - intros id p Hp. rewrite peer_get in Hp by auto. apply (U2 _ _ Hp).
  - eapply majority_mono; [|exact Q1]. intros x Hx. apply Rep. left; exact Hx.
  - eapply majority_mono; [|exact Q2]. intros x Hx. apply Rep. right; exact Hx.
Qed.
End Props.

(** Concrete case: the example node is elected by the vote of 2 with a log ending at 7 (committed 6),
    appends its empty entry 8 and the proposal 9, and 2 acknowledges 9 in term 3.  The node leads
    throughout, has a vote, holds entries up to 9 of which those from 8 on are of its term, nobody
    reports more than 9, and {1,2} is a majority of {1,2,3} reported to hold 9: all hypotheses of the
    three theorems hold, with [i] = 9. *)
#[local] Existing Instance ex_env.
Definition ex_q (id : N) : bool := (id =? 1) || (id =? 2).
Definition ex_commits (n n1 : rawnode) : bool :=
  negb (role_eqb (node_role n) RLeader) && role_eqb (node_role n1) RLeader && (node_last n =? 7) && (node_commit n1 =? 6) &&
  (let os := [NHandle; NPropose "x"; NTick; NHandle; NStep (ex_app_resp 2 3 9)] in
   n_run_okb os n1 && throughoutb (fun k => role_eqb (node_role k) RLeader && (node_term k =? node_term n1)) os n1 &&
   match n_run os n1 with
   | Ok (n2, _) => (node_last n2 =? 9) && negb (is_nil (node_incoming n2)) && smem (node_id n2) (node_incoming n2) &&
       (nlen (node_incoming n2) <? 2 * count ex_q (node_incoming n2)) && is_nil (node_outgoing n2) &&
       (nlen (node_incoming n2) <? 2 * count (reported n2 9) (node_incoming n2)) &&
       forallb (fun id => match peer n2 id with Some p => p_match p <=? node_last n2 | None => false end) (node_incoming n2) && (node_commit n2 =? 9)
   | _ => false
   end).
Example C62_example : exists n n1 out, node_at n /\ nop_ok (NStep (ex_vote_resp 2 3 false)) n /\ n_step (NStep (ex_vote_resp 2 3 false)) n = Ok (n1, out) /\ ex_commits n n1 = true.
Proof. apply (case_ok (ex_cfg 1) ex_tape [NCampaign; NHandle] _ (fun n n1 _ => ex_commits n n1)). vm_compute. reflexivity. Qed.
