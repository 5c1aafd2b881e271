(** Finding the common prefix takes at most one refused probe per term (C73). *)
From Coq Require Import Sorting.Sorted.
From Verif Require Import Prelude Types M_Util M_Quorum M_Inflights M_Progress M_Tracker.
From Verif Require Import M_Storage M_Unstable M_Log M_ReadOnly M_ConfPb M_ConfChange M_Raft M_RawNode.
From Verif Require Import P_Inflights Spec_Log P_Lists P_Storage P_Log Spec_Storage Sys_Storage P_StorageSeq Spec_RaftLog Sys_RaftLog P_RaftLogSeq.
From Verif Require Import Spec_Quorum P_Quorum Spec_Progress Spec_ConfChange P_ConfChange Spec_Inflights Sys_ConfChange.
From Verif Require Import P_Frame P_Prim Sys_Node P_Node P_Fields P_Vote Spec_Node P_Persist P_New P_Time P_NodeLog P_Handle P_NodeRun P_Emit P_Lead P_Ack P_Flow P_Window P_FlowRun P_Elect P_Beat P_Commit P_Feed P_Bcast.
From Verif Require Import Prop_Vote Prop_Deliver Prop_Msg Prop_Flow Prop_Elect Prop_Beat Prop_Commit Prop_Leader R_Elig Spec_Flow Spec_Beat Spec_Commit Spec_Feed Spec_Snap Spec_Resp Prop_Answer Prop_Feed Spec_Probe Sys_Cluster Spec_Cluster A_Proto R_Log R_Sim R_Node R_Cluster Prop_Cluster Ex_Env Ex_Node Ex_Check Ex_Case.

Section Props.
Context {E : Env}.

Definition tm (n : rawnode) (i : N) : N := a_term0 (log_abs (r_log (rn_raft n))) i.
Definition kept (n n' : rawnode) : Prop := r_log (rn_raft n') = r_log (rn_raft n) /\ node_id n' = node_id n.

(** ** The leader's side *)
Definition retry_at (i h : N) : N := N.max (N.min i (h + 1)) 1.
Lemma reject_exact m p r r' : lwf (r_log r) -> trk_get (m_from m) (r_trk r) = Some p -> p_state p = StProbe -> p_next p = m_index m + 1 ->
  m_reject m = true -> leader_app_resp m p r = Ok r' ->
  exists h x p2, (if 0 <? m_logterm m then log_find_conflict_by_term (m_hint m) (m_logterm m) (r_log r) else Ok (m_hint m)) = Ok h /\
    r_msgs r' = r_msgs r ++ [x] /\ same r r' /\ trk_get (m_from m) (r_trk r') = Some p2 /\
    (m_type x = MsgApp -> m_index x + 1 = retry_at (m_index m) h /\ p_state p2 = StProbe /\ p_next p2 = m_index x + 1 /\
       log_term (m_index x) (r_log r) = Ok (SOk (m_logterm x)) /\ m_from x = r_id r /\ m_term x = r_term r) /\
    (m_type x = MsgSnap -> retry_at (m_index m) h < log_first (r_log r) /\ log_snapshot (r_log r) = SOk (m_snap x) /\ m_term x = r_term r /\
       p_state p2 = StSnapshot /\ p_pending p2 = sn_index (m_snap x) /\ p_match p2 = p_match p).
Proof.
  intros Wl G Hs Hn Hr H. pose proof (lwf_0 _ Wl) as W. unfold leader_app_resp in H. rewrite Hr in H. unfold leader_app_resp_reject in H. cbv zeta in H.
  apply bind_ok in H. destruct H as (h & Hh & H). unfold pr_maybe_decr_to in H. cbn [p_state set_p_active p_match p_next] in H. rewrite Hs in H.
  assert (Hw : wsub (p_next p) 1 = m_index m) by (pose proof (wsub1 (p_next p)); lia). rewrite Hw, N.eqb_refl in H. cbn [negb] in H.
  cbn [p_state set_p_probe_sent set_p_next set_p_active] in H. rewrite Hs in H. cbn [pstate_eqb] in H.
  match type of H with send_append _ (put_progress _ ?q _) = _ => set (p1 := q) in * end.
  assert (Pu : pr_is_paused p1 = false) by (unfold p1, pr_is_paused; cbn; rewrite Hs; reflexivity).
  destruct (send_feeds (m_from m) p1 (put_progress (m_from m) p1 r) r' W (get_put _ _ _) Pu (or_intror eq_refl) H) as (x & Hx & F1 & F2 & F3 & F4).
  pose proof (send_append_sends _ _ _ H) as S. destruct (sd_flow _ _ S (m_from m) p1 [x] (get_put _ _ _) Hx) as (p2 & G2 & Fl).
  exists h, x, p2. split; [exact Hh|]. split; [exact Hx|]. split.
  { pose proof (sd_same _ _ S) as Sm. destruct Sm. constructor; assumption. }
  split; [exact G2|]. assert (N1 : p_next p1 = retry_at (m_index m) h) by reflexivity.
  split; intros Ht.
  2:{ destruct F4 as [[F4 _]|[_ F4]]; [congruence|]. rewrite <- N1. split; [exact F4|].
    destruct (sd_msgs _ _ S) as (ms & Hms & Hf). rewrite Hx in Hms. apply app_inv_head in Hms. subst ms. apply Forall_inv in Hf.
    split; [destruct Hf; try discriminate Ht; assumption|]. split; [exact F3|].
    inversion Fl as [|a b ms c X1 X2|a b ms c d X1 X2 X3 X4 X5 X6|a b ms c X1 X2 X3 X4 X5]; subst; [destruct X1 as [X1|[_ X1]]; congruence|congruence|].
    inversion X5; subst. cbn. auto. }
  destruct F4 as [(_ & F4 & _)|[F4 _]]; [|congruence].
  assert (C : p_state p2 = StProbe /\ p_next p2 = p_next p1).
  { inversion Fl as [|a b ms c X1 X2|a b ms c d X1 X2 X3 X4 X5 X6|a b ms c X1 X2]; subst; [destruct X1 as [X1|[X1 _]]; congruence| |congruence].
    inversion X6; subst. unfold after_app in X5. assert (Hp1 : p_state p1 = StProbe) by (unfold p1; cbn; exact Hs). rewrite Hp1 in X5.
    destruct (rev (m_entries x)); subst p2; cbn [p_state p_next set_p_probe_sent]; auto. }
  destruct C as [C1 C2]. rewrite C2, F4. split; [exact N1|]. split; [exact C1|]. split; [reflexivity|].
  destruct (sd_msgs _ _ S) as (ms & Hms & Hf). rewrite Hx in Hms. apply app_inv_head in Hms. subst ms. apply Forall_inv in Hf.
  destruct (smsg_content (put_progress (m_from m) p1 r) x Wl Hf Ht) as ([_ _ _ _ A5] & _). split; [exact A5|]. split; [exact F2|exact F3].
Qed.

(** ** The member's side *)
Lemma refused_answer F x F' a : node_at F -> replies F x F' a -> m_type x = MsgApp -> m_reject a = true ->
  kept F F' /\ node_commit F <= m_index x /\ ~ has_prev F x /\ m_type a = MsgAppResp /\ m_from a = node_id F /\ m_to a = m_from x /\ m_term a = m_term x /\
  m_index a = m_index x /\ shows F (m_hint a) (m_logterm a) /\
  (shows F 0 0 -> m_hint a <= N.min (m_index x) (node_last F) /\ m_logterm a <= m_logterm x).
Proof.
  intros Ha (Hk & Hl & out & H & Hp) Ht Hr. destruct (C58_append_answered _ _ _ _ Ha Hk Ht H Hl) as (_ & a' & A1 & (A2 & A3 & A4) & A5 & A6).
  rewrite Hp in A1. apply app_inv_head in A1. injection A1 as <-.
  destruct A6 as [(_ & A6 & _)|[(_ & _ & A6 & _)|(B1 & B2 & _ & B4 & _ & _ & B7 & B8)]]; [congruence|congruence|].
  split; [|repeat split; auto; apply B8; auto].
  pose proof (node_at_dinv _ Ha) as D. destruct (nstep_raft _ _ _ _ (or_introl Ht) (proj1 Hk) H) as (Hz & r' & e & Hs & ->).
  apply lead_step in Hs; auto. destruct Hl as [L1 L2]. change (r_term (rn_raft F) <= m_term x) in L1. change (~ (m_term x = r_term (rn_raft F) /\ r_state (rn_raft F) = RLeader)) in L2.
  destruct Hs as [[X _]|[(H1 & H2 & _)|(_ & _ & r0 & C1 & C2 & C3 & C4 & C5 & C6 & C7 & Hh)]]; [lia|tauto|].
  unfold lead_handle in Hh. rewrite Ht in Hh. unfold handle_append_entries in Hh. change (node_commit F) with (l_committed (r_log (rn_raft F))) in B1.
  rewrite C2 in Hh. destruct (N.ltb_spec (m_index x) (l_committed (r_log (rn_raft F)))); [lia|].
  rewrite log_maybe_append_mismatch in Hh; [|apply lwf_0, li_wf, ni_log, di_ninv; auto|unfold has_prev in B2; rewrite shows_abs in B2; auto].
  cbn [bind] in Hh. apply bind_ok in Hh. destruct Hh as (h & _ & Hh). apply bind_ok in Hh. destruct Hh as (t & _ & Hh). destruct t as [t|]; [|discriminate].
  apply send_ok in Hh. destruct Hh as [-> _]. split; [reflexivity|]. change (k_id (r_cfg r0) = k_id (r_cfg (rn_raft F))). congruence.
Qed.

Lemma made_node_at c n : made c n -> node_at n.
Proof. intros (tape & s & n0 & os & outs & H). exists c, tape, s, n0, os, outs. exact H. Qed.
Lemma tm_shows n i t : dinv n -> (shows n i t <-> tm n i = t). Proof. apply shows_abs. Qed.
Lemma tm_pos n i : dinv n -> i <> 0 -> a_base (log_abs (r_log (rn_raft n))) <= i <= node_last n -> 0 < tm n i.
Proof.
  intros D Hi [H1 H2]. unfold node_last in H2. rewrite log_last_abs in H2 by (apply lwf_0, li_wf, ni_log, di_ninv; auto).
  destruct (a_term_in _ _ (conj H1 H2)) as [t Ht]. unfold tm, a_term0. rewrite Ht. eapply apos_term; eauto. apply lp_log, ni_pos, di_ninv; auto.
Qed.
Lemma tm_out n i : dinv n -> node_last n < i -> tm n i = 0.
Proof.
  intros D H. unfold node_last in H. rewrite log_last_abs in H by (apply lwf_0, li_wf, ni_log, di_ninv; auto).
  unfold tm, a_term0, a_term, a_entry. unfold a_last in H. destruct (N.eqb_spec i (a_base (log_abs (r_log (rn_raft n))))); [lia|].
  destruct (N.ltb_spec (a_base (log_abs (r_log (rn_raft n)))) i); [|reflexivity]. rewrite (proj2 (nnth_None _ _)); [reflexivity|lia].
Qed.

(** One refused probe. *)
Lemma refusal_step cl cf L F x L' F' x' : made cl L -> made cf F -> ordered L -> shows F 0 0 -> probing L F x -> refusal L F x L' F' x' ->
  made cl L' /\ made cf F' /\ kept L L' /\ kept F F' /\ probing L' F' x' /\ m_index x' < m_index x /\
  (m_logterm x' < m_logterm x \/ has_prev F' x' \/ m_index x' < node_commit F').
Proof.
  intros ML MF [L0 LO] F0 (P1 & P2 & (p & P3 & P4 & P5) & P6 & P7 & P8 & P9) (a & R1 & R2 & R3 & R4 & R5 & R6).
  pose proof (made_node_at _ _ MF) as NF. pose proof (node_at_dinv _ NF) as DF. pose proof (node_at_dinv _ (made_node_at _ _ ML)) as DL.
  destruct (refused_answer _ _ _ _ NF R1 P6 R2) as (K & A1 & A2 & A3 & A4 & A5 & A6 & A7 & A8 & A9). destruct (A9 F0) as [A10 A11]. clear A9.
  assert (MF' : made cf F') by (destruct R1 as (Q1 & _ & out & Q2 & _); eapply made_step; eauto).
  assert (Wx : app_wf x) by (destruct R1 as ((_ & Q1 & _) & _); auto). destruct Wx as (_ & _ & Wx).
  destruct R4 as (out & new & H & Hn & Hx). assert (ML' : made cl L') by (eapply made_step; eauto). split; [exact ML'|]. split; [exact MF'|].
  rewrite <- A4 in P2, P3. destruct (peer_win _ _ _ _ ML P1 P2 P3) as (G & _).
  assert (T : m_term a = node_term L) by congruence.
  destruct (nstep_resp _ _ _ _ _ (or_introl A3) (proj1 R3) P1 T G H) as (r' & H1 & HL'). rewrite A3 in H1.
  pose proof (li_wf _ (ni_log _ (di_ninv _ DL))) as W.
  destruct (reject_exact a p (rn_raft L) r' W G P4 ltac:(congruence) R2 H1) as (h & y & p2 & E1 & E2 & E3 & E4 & E5 & _).
  assert (x' = y).
  { rewrite HL' in Hn. unfold pending in Hn. cbn [rn_raft set_rn_raft] in Hn. rewrite E2 in Hn. apply app_inv_head in Hn. subst new. destruct Hx as [Hx|[]]. auto. }
  subst y. destruct (E5 R6) as (E6 & E7 & E8 & E9 & E10 & E11). clear E5.
  assert (KL : kept L L').
  { subst L'. split; [exact (sm_log _ _ E3)|]. change (k_id (r_cfg r') = k_id (r_cfg (rn_raft L))). rewrite (sm_cfg _ _ E3). reflexivity. }
  split; [exact KL|]. split; [exact K|].
  assert (DF' : dinv F') by (apply node_at_dinv, (made_node_at _ _ MF')). assert (DL' : dinv L') by (apply node_at_dinv, (made_node_at _ _ ML')).
  assert (TL : forall i, tm L' i = tm L i) by (intros i; unfold tm; rewrite (proj1 KL); reflexivity).
  assert (TF : forall i, tm F' i = tm F i) by (intros i; unfold tm; rewrite (proj1 K); reflexivity).
  rewrite (tm_shows _ _ _ DL) in L0. rewrite (tm_shows _ _ _ DF) in F0. rewrite (tm_shows _ _ _ DF) in A8. unfold has_prev in P9, A2. rewrite (tm_shows _ _ _ DL) in P9. rewrite (tm_shows _ _ _ DF) in A2.
  assert (E9' : tm L (m_index x') = m_logterm x') by (apply tm_shows; auto).
  split.
  { split; [subst L'; change (r_state r' = RLeader); rewrite (sm_state _ _ E3); exact P1|].
    rewrite (proj2 K), (proj2 KL), <- A4. split; [exact P2|].
    assert (RL : node_role L' = RLeader) by (subst L'; change (r_state r' = RLeader); rewrite (sm_state _ _ E3); exact P1).
    split; [exists p2; split; [rewrite peer_get by exact RL; subst L'; exact E4|auto]|].
    split; [exact R6|]. split; [exact E10|]. split; [|apply tm_shows; auto; rewrite TL; exact E9'].
    rewrite E11. subst L'. change (r_term (rn_raft L) = r_term r'). symmetry. exact (sm_term _ _ E3). }
  assert (Bc : a_base (log_abs (r_log (rn_raft F))) <= node_commit F) by (pose proof (lwf_com _ (li_wf _ (ni_log _ (di_ninv _ DF)))) as X; exact (proj1 X)).
  assert (I0 : m_index x <> 0) by (intros X; apply A2; rewrite X in *; congruence).
  assert (T0 : m_logterm x <> 0) by (intros X; apply I0, Wx; exact X).
  assert (Il : m_index x <= node_last L) by (destruct (N.le_gt_cases (m_index x) (node_last L)) as [X|X]; [exact X|rewrite tm_out in P9; auto; congruence]).
  rewrite A7 in E6. unfold retry_at in E6.
  destruct (N.ltb_spec 0 (m_logterm a)) as [Ta|Ta].
  - assert (Z : a_term0 (log_abs (r_log (rn_raft L))) 0 = 0) by exact L0.
    destruct (log_fcbt_abs (m_hint a) (m_logterm a) _ (lwf_0 _ W) Z) as (h' & X1 & _ & X2). rewrite X1 in E1. apply Ok_inj in E1. subst h'.
    rewrite <- log_last_abs in X2 by (apply lwf_0; auto). fold (node_last L) in X2.
    destruct X2 as (X2 & X3 & X4); [lia|]. change (tm L h <= m_logterm a) in X3.
    assert (Hne : h <> m_index x).
    { intros X. apply A2. assert (m_hint a = m_index x) as Q by lia. rewrite X in X3. rewrite Q in A8. lia. }
    assert (Hh : m_index x' = h) by lia. split; [lia|].
    rewrite Hh in E9'. destruct (N.eq_dec (m_logterm x') (m_logterm x)) as [Q|Q]; [|left; lia].
    right; left. assert (Hy : h = m_hint a).
    { destruct (N.eq_dec h (m_hint a)) as [|Y]; [auto|]. exfalso.
      assert (Y1 : m_logterm a < tm L (m_hint a)) by (refine (X4 (m_hint a) _ _); lia).
      assert (Y2 : tm L (m_hint a) <= tm L (m_index x)) by (eapply (LO (m_hint a) (m_index x)); [lia|lia|apply tm_shows; auto|apply tm_shows; auto]). lia. }
    unfold has_prev. apply tm_shows; auto. rewrite TF, Hh, Hy, A8. lia.
  - apply Ok_inj in E1. subst h. assert (A0 : m_logterm a = 0) by lia. rewrite A0 in A8.
    destruct (N.lt_ge_cases (m_hint a) (node_commit F)) as [Y|Y].
    + assert (Hh : m_index x' = m_hint a) by lia. split; [lia|]. right; right.
      replace (node_commit F') with (node_commit F); [lia|]. change (l_committed (r_log (rn_raft F)) = l_committed (r_log (rn_raft F'))). rewrite (proj1 K). reflexivity.
    + assert (m_hint a = 0).
      { destruct (N.eq_dec (m_hint a) 0) as [|Q]; [auto|]. pose proof (tm_pos F (m_hint a) DF Q ltac:(lia)). lia. }
      assert (Hh : m_index x' = 0) by lia. split; [lia|]. right; left. unfold has_prev. apply tm_shows; auto. rewrite TF, Hh, F0. rewrite Hh in E9'. lia.
Qed.

Lemma kept_ordered c c' n n' : made c n -> made c' n' -> kept n n' -> ordered n -> ordered n'.
Proof.
  intros M M' [K _] [O1 O2]. pose proof (node_at_dinv _ (made_node_at _ _ M)) as D. pose proof (node_at_dinv _ (made_node_at _ _ M')) as D'.
  assert (Q : forall i t, shows n' i t <-> shows n i t) by (intros; unfold shows; rewrite K; tauto).
  split; [apply Q; auto|]. intros i j s t H1 H2 H3 H4. apply Q in H3, H4. refine (O2 i j s t H1 _ H3 H4). unfold node_last in *. rewrite <- K. exact H2.
Qed.

(** C73: a refused probe is followed by a probe at a lower index, and unless that one is of a lower term,
    the member will not refuse it. *)
Theorem C73_refused_probe cl cf L F x L' F' x' : made cl L -> made cf F -> ordered L -> shows F 0 0 -> probing L F x ->
  refusal L F x L' F' x' ->
  probing L' F' x' /\ m_index x' < m_index x /\
  (m_logterm x' < m_logterm x \/ forall F2 a, replies F' x' F2 a -> m_reject a = false).
Proof.
  intros ML MF OL OF P R. destruct (refusal_step _ _ _ _ _ _ _ _ ML MF OL OF P R) as (ML' & MF' & KL & KF & P' & Hi & Hc).
  split; [exact P'|]. split; [exact Hi|]. destruct Hc as [Hc|Hc]; [left; exact Hc|right].
  intros F2 a Ha. destruct (m_reject a) eqn:Hr; [|reflexivity]. exfalso. destruct P' as (_ & _ & _ & P6 & _).
  destruct (refused_answer _ _ _ _ (made_node_at _ _ MF') Ha P6 Hr) as (_ & A1 & A2 & _). destruct Hc as [Hc|Hc]; [tauto|lia].
Qed.
Lemma refusals_sorted ts : forall cl cf L F x, made cl L -> made cf F -> ordered L -> shows F 0 0 -> probing L F x -> refusals L F x ts ->
  StronglySorted N.gt ts /\ (forall t, In t ts -> t <= m_logterm x) /\ (forall t, In t ts -> exists i, 0 < i <= m_index x /\ node_first L <= i + 1 /\ shows L i t).
Proof.
  induction ts as [|t ts IH]; intros cl cf L F x ML MF OL OF P R; [split; [constructor|]; split; intros ? []|].
  inversion R as [|? ? ? L' F' x' ? R1 R2]; subst.
  destruct (refusal_step _ _ _ _ _ _ _ _ ML MF OL OF P R1) as (ML' & MF' & KL & KF & P' & Hi & _).
  destruct (C73_refused_probe _ _ _ _ _ _ _ _ ML MF OL OF P R1) as (_ & _ & Hc).
  assert (Sl : forall i t, shows L' i t <-> shows L i t) by (intros; unfold shows; rewrite (proj1 KL); tauto).
  destruct (IH cl cf L' F' x' ML' MF' (kept_ordered _ _ _ _ ML ML' KL OL) ltac:(unfold shows; rewrite (proj1 KF); exact OF) P' R2) as (S1 & S2 & S3).
  assert (Hlt : forall t, In t ts -> t < m_logterm x).
  { intros t Ht. pose proof (S2 _ Ht). destruct Hc as [Hc|Hc]; [lia|]. exfalso.
    inversion R2 as [|? ? ? ? ? ? ? (a & R3 & R4 & _) _]; subst; [destruct Ht|]. rewrite (Hc _ _ R3) in R4. discriminate. }
  pose proof P as (_ & _ & _ & _ & _ & _ & P9).
  assert (I0 : 0 < m_index x) by lia.
  split; [constructor; [exact S1|apply Forall_forall; intros t Ht; apply N.lt_gt, Hlt; exact Ht]|].
  split; [intros t [<-|Ht]; [lia|apply N.lt_le_incl, Hlt; exact Ht]|].
  intros t [<-|Ht].
  - exists (m_index x). split; [lia|]. split; [|exact P9].
    pose proof (node_at_dinv _ (made_node_at _ _ ML)) as DL. unfold has_prev in P9. rewrite (tm_shows _ _ _ DL) in P9.
    assert (T0 : m_logterm x <> 0).
    { intros X. destruct R1 as (a & ((_ & Q1 & _) & _) & _). destruct P as (_ & _ & _ & P6 & _). destruct (Q1 P6) as (_ & _ & Q). apply Q in X. lia. }
    unfold node_first. rewrite log_first_abs. unfold a_first. destruct (N.le_gt_cases (a_base (log_abs (r_log (rn_raft L)))) (m_index x)) as [|Y]; [lia|]. exfalso.
    unfold tm, a_term0, a_term, a_entry in P9. destruct (N.eqb_spec (m_index x) (a_base (log_abs (r_log (rn_raft L))))); [lia|].
    destruct (N.ltb_spec (a_base (log_abs (r_log (rn_raft L)))) (m_index x)); [lia|]. cbn in P9. congruence.
  - destruct (S3 _ Ht) as (i & [I1 I2] & I3 & I4). exists i. split; [lia|]. split; [|apply Sl; exact I4]. unfold node_first in *. rewrite (proj1 KL) in I3. exact I3.
Qed.
(** C73: however many probes a member refuses in a row, their terms are all different: each is lower than
    the one before, and is the term of an entry of the leader's log at or below the first probe.  So there
    are no more refusals than different terms in the leader's log. *)
Theorem C73_one_refusal_per_term cl cf L F x ts : made cl L -> made cf F -> ordered L -> shows F 0 0 -> probing L F x ->
  refusals L F x ts ->
  StronglySorted N.gt ts /\ (forall t, In t ts -> exists i, 0 < i <= m_index x /\ node_first L <= i + 1 /\ shows L i t).
Proof. intros ML MF OL OF P R. destruct (refusals_sorted _ _ _ _ _ _ ML MF OL OF P R) as (S1 & _ & S3). auto. Qed.
Theorem C73_refusals_bounded cl cf L F x ts terms : made cl L -> made cf F -> ordered L -> shows F 0 0 -> probing L F x ->
  refusals L F x ts -> (forall i t, 0 < i <= m_index x -> node_first L <= i + 1 -> shows L i t -> In t terms) -> (List.length ts <= List.length terms)%nat.
Proof.
  intros ML MF OL OF P R Ht. destruct (C73_one_refusal_per_term _ _ _ _ _ _ ML MF OL OF P R) as (S & I). apply NoDup_incl_length.
  - clear - S. induction S as [|a l S IH H]; constructor; auto. rewrite Forall_forall in H. intros X. apply H in X. lia.
  - intros t X. destruct (I _ X) as (i & I1 & I2 & I3). eapply Ht; eauto.
Qed.
(** C73: the answer that does not refuse the probe acknowledges at least the index probed; if it brings
    news the leader notes it and at once sends all that can be sent. *)
Theorem C73_found cl cf L F x F' a L' out : made cl L -> made cf F -> probing L F x -> replies F x F' a -> m_reject a = false ->
  nop_ok (NStep a) L -> n_step (NStep a) L = Ok (L', out) -> node_role L' = RLeader ->
  m_index x <= m_index a /\
  forall p, peer L (node_id F) = Some p -> p_match p < m_index a ->
    exists p', peer L' (node_id F) = Some p' /\ p_match p' = m_index a /\ served (max_inflight cl) L' p'.
Proof.
  intros ML MF (P1 & P2 & _ & P6 & P7 & P8 & P9) (R1 & R2 & o & R3 & R4) Hr Hk H L1.
  destruct (C58_append_answered _ _ _ _ (made_node_at _ _ MF) R1 P6 R3 R2) as (_ & a' & A1 & (A2 & A3 & A4) & A5 & A6).
  rewrite R4 in A1. apply app_inv_head in A1. injection A1 as <-.
  split.
  - destruct A6 as [(A6 & _ & A7 & _)|[(_ & _ & _ & A7 & _)|(_ & _ & A6 & _)]]; [lia|lia|congruence].
  - intros p Hp Hm. rewrite <- A3 in Hp, P2 |- *. eapply C63_ack_continues; eauto. congruence.
Qed.

(** C73: in every reachable cluster the logs are ordered. *)
Lemma lr_tm a L i : logrel a L -> i <= nlen L -> a_term0 a i = (if i <? a_base a then 0 else lastterm (ntake i L)).
Proof.
  intros R Hi. unfold a_term0. destruct (N.ltb_spec i (a_base a)).
  - unfold a_term, a_entry. destruct (N.eqb_spec i (a_base a)); [lia|]. destruct (N.ltb_spec (a_base a) i); [lia|reflexivity].
  - rewrite (lr_term_eq _ _ _ R); auto.
Qed.
Theorem C73_terms_ordered cs cl id n : reachable cs cl -> runs cl id n -> ordered n.
Proof.
  intros R H. destruct (reachable_inv _ _ R) as [Hv (t0 & g & F & I)].
  destruct (publish1 cs Hv t0 _ _ _ _ _ I H) as (s & O & _ & G & V & D).
  pose proof (gi_sort _ _ _ _ G id) as S. rewrite upd_same in S. pose proof (v_log _ _ _ _ _ V) as Lr.
  assert (Z : forall i, i <= node_last n -> tm n i = if i <? a_base (log_abs (r_log (rn_raft n))) then 0 else lastterm (ntake i (an_log s))).
  { intros i Hi. apply lr_tm; auto. rewrite <- (lr_last _ _ Lr). unfold node_last in Hi. rewrite log_last_abs in Hi by (apply lwf_0, li_wf, ni_log, di_ninv; auto). exact Hi. }
  split.
  - apply tm_shows; auto. rewrite Z by lia. destruct (0 <? _); reflexivity.
  - intros i j a b H1 H2 H3 H4. rewrite (tm_shows _ _ _ D) in H3. rewrite (tm_shows _ _ _ D) in H4. rewrite Z in H3, H4 by lia.
    destruct (N.ltb_spec i (a_base (log_abs (r_log (rn_raft n))))); [lia|]. destruct (N.ltb_spec j (a_base (log_abs (r_log (rn_raft n))))); [lia|].
    subst a b. apply lastterm_pre; [|eapply tsorted_pre; [apply pre_ntake|exact S]].
    apply pre_in_take; [apply pre_ntake|]. rewrite nlen_ntake. lia.
Qed.
End Props.

(** A concrete case: the leader's log has terms 1 2 4 6 at 6..9, the member's 1 3 3 5 5 at 6..10.  Probes of
    term 4 (index 8) and 2 (index 7) are refused, the one at index 6 is not. *)
#[local] Existing Instance ex_env.
Definition exp_storage (com t : N) (es : list entry) : mstorage :=
  mkMS (mkHardState t 0 com) (mkSnapshot 5 1 ex_conf EmptyString) (mkEntry 1 5 EntryNormal EmptyString) es.
Definition exp_ent (t i : N) : entry := mkEntry t i EntryNormal EmptyString.
Definition exp_s1 : mstorage := exp_storage 6 5 [exp_ent 1 6; exp_ent 2 7; exp_ent 4 8].
Definition exp_s2 : mstorage := exp_storage 6 5 [exp_ent 1 6; exp_ent 3 7; exp_ent 3 8; exp_ent 5 9; exp_ent 5 10].
Definition exp_cfg (id : N) (s : mstorage) : config := mkConfig id 10 1 (Some s) 0 1000 1000 0 4 false false RoSafe false.
Definition exp_lead : list nop := [NCampaign; NHandle; NStep (ex_vote_resp 3 6 false)].
Definition exp_x : msg := mkMsg MsgApp 2 1 6 4 8 [exp_ent 6 9] 6 empty_snapshot false 0 EmptyString.
Definition sortb (l : list N) : bool := (fix go l := match l with a :: ((b :: _) as t) => (a <=? b) && go t | _ => true end) l.
Definition orderedb (n : rawnode) : bool :=
  let a := log_abs (r_log (rn_raft n)) in
  (negb (a_base a =? 0) || (a_bterm a =? 0)) && sortb (a_bterm a :: map e_term (a_ents a)).
Lemma sortb_le l : sortb l = true -> forall i j a b, i <= j -> nnth l i = Some a -> nnth l j = Some b -> a <= b.
Proof.
  induction l as [|x l IH]; intros S i j a b Hij Ha Hb; [rewrite (proj2 (nnth_None _ _)) in Ha; [discriminate|nl]|].
  assert (S' : sortb l = true) by (destruct l; [reflexivity|apply andb_prop in S; apply S]). specialize (IH S').
  destruct (N.eq_dec j 0) as [->|Hj]; [assert (i = 0) by lia; subst i; assert (a = b) by congruence; lia|].
  rewrite nnth_consS in Hb by lia. destruct (N.eq_dec i 0) as [->|Hi]; [|rewrite nnth_consS in Ha by lia; eapply IH; [|exact Ha|exact Hb]; lia].
  rewrite nnth_cons0 in Ha. injection Ha as <-. destruct l as [|y l]; [rewrite (proj2 (nnth_None _ _)) in Hb; [discriminate|nl]|].
  apply andb_prop in S. destruct S as [S _]. assert (y <= b) by (eapply (IH 0 (j - 1)); [lia|apply nnth_cons0|exact Hb]). lia.
Qed.
Lemma orderedb_ok n : dinv n -> orderedb n = true -> ordered n.
Proof.
  intros D H. unfold orderedb in H. apply andb_prop in H. destruct H as [H1 H2]. set (a := log_abs (r_log (rn_raft n))) in *.
  assert (Z : forall i, tm n i = 0 /\ i < a_base a \/ (a_base a <= i /\ (node_last n < i \/ nnth (a_bterm a :: map e_term (a_ents a)) (i - a_base a) = Some (tm n i)))).
  { intros i. destruct (N.lt_ge_cases i (a_base a)) as [Hi|Hi].
    - left. split; [|exact Hi]. unfold tm, a_term0, a_term, a_entry. fold a. destruct (N.eqb_spec i (a_base a)); [lia|]. destruct (N.ltb_spec (a_base a) i); [lia|reflexivity].
    - right. split; [exact Hi|]. destruct (N.lt_ge_cases (node_last n) i) as [Hl|Hl]; [left; exact Hl|right].
      unfold node_last in Hl. rewrite log_last_abs in Hl by (apply lwf_0, li_wf, ni_log, di_ninv; auto). fold a in Hl.
      destruct (a_term_in a i (conj Hi Hl)) as [t Ht]. unfold tm, a_term0. fold a. rewrite Ht. unfold a_term, a_entry in Ht.
      destruct (N.eqb_spec i (a_base a)) as [->|Hne]; [rewrite N.sub_diag, nnth_cons0; exact Ht|].
      destruct (N.ltb_spec (a_base a) i); [|lia]. rewrite nnth_consS by lia. unfold nnth in *. rewrite nth_error_map. exact Ht. }
  split.
  - apply tm_shows; auto. destruct (Z 0) as [[Z0 _]|[Z0 [Z1|Z1]]]; [exact Z0|lia|]. assert (B : a_base a = 0) by lia. rewrite B in H1, Z1. rewrite nnth_cons0 in Z1. cbn in H1.
    apply N.eqb_eq in H1. congruence.
  - intros i j s t Hij Hj Hs Ht. rewrite (tm_shows _ _ _ D) in Hs. rewrite (tm_shows _ _ _ D) in Ht. subst s t.
    destruct (Z i) as [[Zi _]|[Bi Zi]]; [lia|]. destruct (Z j) as [[_ Zj]|[_ Zj]]; [lia|]. destruct Zi as [Zi|Zi]; [lia|]. destruct Zj as [Zj|Zj]; [lia|].
    eapply (sortb_le _ H2 (i - a_base a) (j - a_base a)); [lia|exact Zi|exact Zj].
Qed.
Example C73_example : exists L F, made (exp_cfg 1 exp_s1) L /\ made (exp_cfg 2 exp_s2) F /\ ordered L /\ shows F 0 0 /\ probing L F exp_x /\
  In exp_x (pending L) /\ refusals L F exp_x [4; 2].
Proof.
  eexists _, _.
  match goal with |- ?P /\ _ => assert (M : P) end.
  { exists ex_tape, exp_s1. eexists _, exp_lead, _. split; [reflexivity|]. split; [apply storage_okb_ok; reflexivity|].
    split; [vm_compute; reflexivity|]. split; [apply n_run_okb_ok; vm_compute; reflexivity|]. vm_compute; reflexivity. }
  split; [exact M|]. split.
  { exists ex_tape, exp_s2. eexists _, [NHandle], _. split; [reflexivity|]. split; [apply storage_okb_ok; reflexivity|].
    split; [vm_compute; reflexivity|]. split; [apply n_run_okb_ok; vm_compute; reflexivity|]. vm_compute; reflexivity. }
  split; [apply orderedb_ok; [apply node_at_dinv; eapply made_node_at; exact M|vm_compute; reflexivity]|].
  split; [vm_compute; reflexivity|].
  split. { split; [reflexivity|]. split; [vm_compute; discriminate|]. split; [eexists; split; [vm_compute; reflexivity|]; split; reflexivity|]. repeat split; vm_compute; reflexivity. }
  split; [vm_compute; tauto|].
  eapply (RefMore _ _ exp_x).
  { eexists. split; [split; [apply nop_okb_ok; vm_compute; reflexivity|]; split; [vm_compute; split; [discriminate|intros [_ X]; discriminate]|eexists; split; vm_compute; reflexivity]|].
    split; [reflexivity|]. split; [apply nop_okb_ok; vm_compute; reflexivity|].
    split; [eexists _, [_]; split; [vm_compute; reflexivity|]; split; [vm_compute; reflexivity|left; reflexivity]|]. split; reflexivity. }
  match goal with |- refusals ?L ?F ?x _ => eapply (RefMore L F x) end.
  { eexists. split; [split; [apply nop_okb_ok; vm_compute; reflexivity|]; split; [vm_compute; split; [discriminate|intros [_ X]; discriminate]|eexists; split; vm_compute; reflexivity]|].
    split; [reflexivity|]. split; [apply nop_okb_ok; vm_compute; reflexivity|].
    split; [eexists _, [_]; split; [vm_compute; reflexivity|]; split; [vm_compute; reflexivity|left; reflexivity]|]. split; reflexivity. }
  constructor.
Qed.
