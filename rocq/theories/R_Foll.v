(** Simulation: what a follower does with the messages of a leader. *)
From Coq Require Import Permutation.
From Verif Require Import Prelude Types M_Util M_Quorum M_Inflights M_Progress M_Tracker.
From Verif Require Import M_Storage M_Unstable M_Log M_ReadOnly M_ConfPb M_ConfChange M_Raft M_RawNode.
From Verif Require Import Spec_RaftLog Spec_Quorum P_Quorum P_Inflights Spec_Log P_Lists P_Storage P_Log P_RaftLogSeq P_Frame P_Prim Sys_Node P_Node P_Fields P_New P_NodeLog P_Ack P_Lead A_Proto Sys_Cluster R_Log R_Sim R_Prim R_Send R_Lead.
From Verif Require Import Prop_ConfPb.

Section RFoll.
Context {E : Env}.
Variable cs : confstate.
Hypothesis cs_ne : cs_voters cs <> [].
Variable t0 : N.

(** A committed prefix stays where it is. *)
Lemma com_keep g F id s' F' : ginv (vquorum cs) t0 g F -> lsteps (vquorum cs) (vmember cs) id (g id, F) (s', F') -> incl F F' ->
  an_com (g id) <= an_com s' -> forall i, i <= an_com (g id) -> ntake i (an_log s') = ntake i (an_log (g id)).
Proof.
  intros G H Hi Hc i Hle.
  pose proof (lsteps_ginv _ (vquorum_meet cs cs_ne) (vmember cs) t0 [] _ _ _ H g G eq_refl) as G'. cbn [fst snd] in G'.
  destruct (gi_com _ _ _ _ G id) as (A1 & t & C & A2 & A3 & A4).
  pose proof (gi_com _ _ _ _ G' id) as B. rewrite upd_same in B. destruct B as (B1 & t' & C' & B2 & B3 & B4).
  assert (Lc : an_com (g id) <= nlen C). { apply pre_len in A4. rewrite nlen_ntake in A4. lia. }
  assert (Lc' : an_com s' <= nlen C'). { apply pre_len in B4. rewrite nlen_ntake in B4. lia. }
  assert (E1 : ntake i (an_log (g id)) = ntake i C).
  { rewrite <- (pre_take_eq i _ _ A4) by (rewrite nlen_ntake; lia). rewrite ntake_ntake, N.min_l by lia. auto. }
  assert (E2 : ntake i (an_log s') = ntake i C').
  { rewrite <- (pre_take_eq i _ _ B4) by (rewrite nlen_ntake; lia). rewrite ntake_ntake, N.min_l by lia. auto. }
  rewrite E1, E2. destruct (N.le_ge_cases (nlen C) (nlen C')) as [X|X].
  - symmetry. apply pre_take_eq; [|lia]. exact (fcom_cmp _ _ _ _ _ _ _ _ G' (Hi _ A2) B2 X).
  - apply pre_take_eq; [|lia]. exact (fcom_cmp _ _ _ _ _ _ _ _ G' B2 (Hi _ A2) X).
Qed.

Variables (g : N -> anode) (F : list fact) (id : N).
Hypothesis G : ginv (vquorum cs) t0 g F.
Hypothesis Hid : id <> 0.
Variables (im : msg) (r : raft).
Hypothesis V : vrel cs id F (g id) r.
Hypothesis Hn : ninv r.
Hypothesis M : in_msg cs F id im.
Hypothesis MS : Forall (msg_ok cs F) (r_msgs r).
Notation L := (an_log (g id)).
Notation sim := (simulated cs id F (g id)).
Hypothesis Hf : r_state r = RFollower.

Lemma foll_role : an_role (g id) = AFollow.
Proof. rewrite (v_role _ _ _ _ _ V), Hf. auto. Qed.

Lemma foll_sim s' O r' :
  lsteps (vquorum cs) (vmember cs) id (g id, F) (s', O ++ F) ->
  an_term s' = r_term r -> an_vote s' = r_vote r -> an_role s' = AFollow -> logrel (log_abs (r_log r')) (an_log s') ->
  an_com s' = l_committed (r_log r') -> an_com (g id) <= an_com s' ->
  r_cfg r' = r_cfg r -> r_term r' = r_term r -> r_vote r' = r_vote r -> r_state r' = RFollower ->
  Permutation (cs_voters cs) (tc_incoming (t_config (r_trk r'))) ->
  Permutation (cs_outgoing cs) (tc_outgoing (t_config (r_trk r'))) ->
  l_st (r_log r') = l_st (r_log r) ->
  (forall sn, u_snap (l_us (r_log r')) = Some sn -> same_voters cs (sn_conf sn)) ->
  (exists ms, r_msgs r' = r_msgs r ++ ms /\ Forall (msg_ok cs (O ++ F)) ms) -> sim r'.
Proof.
  intros H A1 A2 A3 A4 A5 A6 B1 B2 B3 B4 B5 B6 B7 B8 (ms & D1 & D2).
  exists s', O. split; auto. split.
  - pose proof (com_keep _ _ _ _ _ G H (incl_appr0 _ _) A6) as K.
    constructor; auto; try congruence.
    + unfold r_id. rewrite B1. apply (v_id _ _ _ _ _ V).
    + rewrite B4. auto.
    + rewrite B2, B3. intros X. destruct (v_fvote _ _ _ _ _ V X) as [Y HY]. exists Y. apply in_or_app; auto.
    + rewrite B7. destruct (v_ssnap _ _ _ _ _ V) as (S1 & S2 & S3). split; [lia|]. split; auto. rewrite K by auto. auto.
  - rewrite D1. apply Forall_app. split; auto. apply (msgs_ok_mono cs F); auto. apply incl_appr0.
Qed.

Lemma ack_msg i r1 F1 X : r_id r1 = r_id r -> r_term r1 = r_term r -> r_term r <> 0 ->
  In (FAck (an_term (g id)) id X) F1 -> i <= nlen X -> msg_ok cs F1 (app_resp im i r1).
Proof.
  intros H1 H2 H3 H4 H5. apply ok_plain; cbn; try discriminate.
  - rewrite H1, (v_id _ _ _ _ _ V). auto.
  - congruence.
  - intros _. right. exists X. rewrite H1, H2, (v_id _ _ _ _ _ V), <- (v_term _ _ _ _ _ V). auto.
Qed.

Lemma lead_msg : (m_type im = MsgApp \/ m_type im = MsgSnap) -> m_term im = r_term r ->
  exists l X, In (FLead (an_term (g id)) l X) F.
Proof.
  intros Ht Hm. destruct (im_peer cs F id im M) as [[_ _ X] Y]; [destruct Ht as [->| ->]; auto|].
  unfold msg_fact in X. rewrite (v_term _ _ _ _ _ V), <- Hm.
  destruct Ht as [Ht|Ht]; rewrite Ht in X; destruct X as (Z & _ & _ & X & _); eauto.
Qed.
Lemma term_nz : local_type (m_type im) = false -> m_term im = r_term r -> r_term r <> 0.
Proof. intros H1 <-. apply (im_nz cs F id im M H1). Qed.

Lemma comack_sim : (m_type im = MsgApp /\ m_index im < l_committed (r_log r) \/ m_type im = MsgSnap) -> m_term im = r_term r ->
  sim (emit (app_resp im (l_committed (r_log r)) r) r).
Proof.
  intros Ht Hm. assert (Ht' : m_type im = MsgApp \/ m_type im = MsgSnap) by tauto.
  destruct (lead_msg Ht' Hm) as (l & X & HX). destruct (com_kept _ _ _ _ G id l X HX) as (l' & Y & Y1 & Y2).
  assert (Hz : r_term r <> 0) by (apply term_nz; auto; destruct Ht' as [->| ->]; auto).
  assert (Lc : an_com (g id) <= nlen Y).
  { apply pre_len in Y2. rewrite nlen_ntake in Y2. pose proof (proj1 (gi_com _ _ _ _ G id)). lia. }
  assert (Lo : an_com (g id) <= nlen L) by apply (proj1 (gi_com _ _ _ _ G id)).
  assert (HS : lstep (vquorum cs) (vmember cs) id (g id, F) (g id, FAck (an_term (g id)) id (ntake (an_com (g id)) Y) :: F)).
  { apply (LKeep (vquorum cs) (vmember cs) id (g id) F l' Y); auto. unfold pre in Y2. rewrite nlen_ntake, N.min_l in Y2 by lia. auto. }
  apply (foll_sim (g id) [FAck (an_term (g id)) id (ntake (an_com (g id)) Y)]); auto;
    try apply (v_conf _ _ _ _ _ V); try apply V; try lia.
  - apply lsteps_one. exact HS.
  - apply foll_role.
  - eexists. split; [reflexivity|]. constructor; auto. eapply ack_msg; auto; [left; reflexivity|].
    rewrite nlen_ntake, <- (v_com _ _ _ _ _ V). lia.
Qed.

Lemma beat_sim l : m_type im = MsgHeartbeat -> m_term im = r_term r -> log_commit_to (m_commit im) (r_log r) = Ok l ->
  sim (set_r_log l r).
Proof.
  intros Ht Hm Hc. destruct (commit_to_log _ _ _ (ni_log _ Hn) Hc) as (A1 & A2 & A3).
  destruct (im_peer cs F id im M) as [[_ _ X] Y]; [rewrite Ht; auto|]. unfold msg_fact in X. rewrite Ht, Hm, Y in X.
  pose proof (v_com _ _ _ _ _ V) as Ec. pose proof (v_term _ _ _ _ _ V) as Et. pose proof (v_vote _ _ _ _ _ V) as Ev.
  pose proof (proj1 (gi_com _ _ _ _ G id)) as Cl. destruct (v_conf _ _ _ _ _ V) as [P1 P2].
  apply (foll_sim (mkA (an_term (g id)) (an_vote (g id)) L (N.max (l_committed (r_log r)) (m_commit im)) (an_role (g id))) []);
    cbn; auto; subst l; auto; try apply V.
  - destruct (N.le_gt_cases (m_commit im) (l_committed (r_log r))) as [Z|Z].
    + rewrite N.max_l by auto. rewrite <- Ec. replace (mkA _ _ _ _ _) with (g id); [constructor|]. destruct (g id); auto.
    + rewrite N.max_r by lia. apply lsteps_one. destruct X as [_ [X|(A & t & C & X1 & X2 & X3 & X4 & X5)]]; [lia|].
      rewrite <- Et in X1. pose proof (ack_held _ _ _ _ G id A X1) as Hh.
      apply (LLearn (vquorum cs) (vmember cs) id (g id) F _ t C); auto; try lia.
      * split; [lia|]. apply pre_len in Hh. lia.
      * rewrite <- (pre_take_eq _ _ _ Hh); auto.
  - apply foll_role.
  - lia.
  - exists []. rewrite app_nil_r. auto.
Qed.

Lemma appok_sim l last : m_type im = MsgApp -> m_term im = r_term r -> l_committed (r_log r) <= m_index im ->
  log_maybe_append (m_index im) (m_logterm im) (m_commit im) (m_entries im) (r_log r) = Ok (l, Some last) ->
  sim (emit (app_resp im last r) (set_r_log l r)).
Proof.
  intros Ht Hm Hc Ha. destruct (im_peer cs F id im M) as [[_ [W _] X] Y]; [rewrite Ht; auto|]. specialize (W Ht).
  destruct (maybe_append_log im (r_log r) l last (ni_log _ Hn) W Hc Ha) as (A1&A2&A3&A4&A5&A6&A7&A8&A9&A10&A11).
  cbv zeta in *. unfold msg_fact in X. rewrite Ht in X. destruct X as (Z & t & C & X1 & X2 & X3 & X4 & X5 & X6 & X7 & X8).
  pose proof (v_com _ _ _ _ _ V) as Ec. pose proof (v_term _ _ _ _ _ V) as Et. pose proof (v_vote _ _ _ _ _ V) as Ev.
  pose proof (proj1 (gi_com _ _ _ _ G id)) as Cl. destruct (v_conf _ _ _ _ _ V) as [P1 P2].
  assert (Hz : r_term r <> 0) by (apply term_nz; auto; rewrite Ht; auto).
  rewrite Hm, <- Et in X1.
  set (n := nlen (m_entries im)) in *. set (k := match_len (log_abs (r_log r)) (m_entries im)) in *.
  rewrite X4 in A3. destruct (append_match _ _ _ _ G (log_abs (r_log r)) L Z (m_index im) n (m_entries im) k
     (gi_good _ _ _ _ G id) (good_lead _ _ _ _ G _ _ _ X1) (v_log _ _ _ _ _ V) X3 X2 (proj1 W) A3 A4) as [K1 K2].
  assert (Hk : k <= n) by apply A4.
  set (m := m_index im + n) in *.
  assert (HS : exists LX, lsteps (vquorum cs) (vmember cs) id (g id, F)
      (mkA (an_term (g id)) (an_vote (g id)) LX (an_com (g id)) AFollow, FAck (an_term (g id)) id (ntake m Z) :: F) /\
      logrel (log_abs l) LX /\ ntake m LX = ntake m Z /\ m <= nlen LX).
  { destruct (N.eq_dec k n) as [Ek|Ek].
    - destruct (K1 Ek) as [K3 K4]. exists L. rewrite A6. rewrite Ek, N.ltb_irrefl. split; [|split; [apply V|auto]].
      replace (mkA (an_term (g id)) (an_vote (g id)) L (an_com (g id)) AFollow) with (g id).
      + apply lsteps_one. apply (LKeep (vquorum cs) (vmember cs) id (g id) F (m_from im) Z m); auto.
      + rewrite <- foll_role. destruct (g id); auto.
    - destruct (K2 ltac:(lia)) as [K3 K4]. exists (ntake m Z). rewrite A6. destruct (N.ltb_spec k n); [|lia]. split; [|split; [auto|]].
      + apply lsteps_one. apply (LTake (vquorum cs) (vmember cs) id (g id) F (m_from im) Z m); auto. rewrite foll_role. discriminate.
      + rewrite ntake_ntake, N.min_id, nlen_ntake. split; auto. lia. }
  destruct HS as (LX & S1 & S2 & S3 & S4).
  assert (Hack : msg_ok cs (FAck (an_term (g id)) id (ntake m Z) :: F) (app_resp im last r)).
  { eapply ack_msg; auto; [left; reflexivity|]. rewrite nlen_ntake. lia. }
  apply (foll_sim (mkA (an_term (g id)) (an_vote (g id)) LX (l_committed l) AFollow) [FAck (an_term (g id)) id (ntake m Z)]);
    cbn [r_log emit set_r_msgs set_r_log an_term an_vote an_log an_com an_role]; auto; try lia.
  - eapply lsteps_trans; [exact S1|]. cbn [app].
    destruct (N.eq_dec (l_committed l) (an_com (g id))) as [->|Hne]; [constructor|]. apply lsteps_one.
    eapply (LLearn (vquorum cs) (vmember cs) id (mkA (an_term (g id)) (an_vote (g id)) LX (an_com (g id)) AFollow) _ (l_committed l) t C); cbn; auto; try lia.
    assert (Hl : l_committed l <= m) by lia.
    replace (ntake (l_committed l) LX) with (ntake (l_committed l) Z).
    + eapply pre_trans; [|exact X7]. apply pre_in_take; [apply pre_ntake|]. rewrite nlen_ntake. lia.
    + transitivity (ntake (l_committed l) (ntake m Z)); [rewrite ntake_ntake; f_equal; lia|]. rewrite <- S3, ntake_ntake. f_equal. lia.
  - rewrite A11. apply (v_usnap _ _ _ _ _ V).
  - eexists. split; [reflexivity|]. constructor; auto.
Qed.

Lemma snap_parts : m_type im = MsgSnap -> m_term im = r_term r -> exists ld Z t C,
  In (FLead (an_term (g id)) ld Z) F /\ sn_index (m_snap im) <= nlen Z /\
  sn_term (m_snap im) = lastterm (ntake (sn_index (m_snap im)) Z) /\ In (FCom t C) F /\ t <= an_term (g id) /\
  pre (ntake (sn_index (m_snap im)) Z) C /\ same_voters cs (sn_conf (m_snap im)).
Proof.
  intros Ht Hm. destruct (im_peer cs F id im M) as [[_ _ X] _]; [rewrite Ht; auto|].
  unfold msg_fact in X. rewrite Ht, Hm, <- (v_term _ _ _ _ _ V) in X. exists (m_from im). exact X.
Qed.

Lemma snapfast_sim l : m_type im = MsgSnap -> m_term im = r_term r -> l_committed (r_log r) < sn_index (m_snap im) ->
  log_match_term (sn_index (m_snap im)) (sn_term (m_snap im)) (r_log r) = Ok true ->
  log_commit_to (sn_index (m_snap im)) (r_log r) = Ok l ->
  sim (emit (app_resp im (l_committed l) r) (set_r_log l r)).
Proof.
  intros Ht Hm Hc Hmt Hct. destruct (commit_to_log _ _ _ (ni_log _ Hn) Hct) as (A1 & A2 & A3).
  destruct (snap_parts Ht Hm) as (ld & Z & t & C & X1 & X2 & X3 & X4 & X5 & X6 & X7).
  pose proof (v_com _ _ _ _ _ V) as Ec. pose proof (v_term _ _ _ _ _ V) as Et. pose proof (v_vote _ _ _ _ _ V) as Ev.
  pose proof (proj1 (gi_com _ _ _ _ G id)) as Cl. destruct (v_conf _ _ _ _ _ V) as [P1 P2].
  assert (Hz : r_term r <> 0) by (apply term_nz; auto; rewrite Ht; auto).
  set (m := sn_index (m_snap im)) in *. rewrite (last_is cs g F id r V) in A3.
  assert (Hpm : ntake m L = ntake m Z).
  { apply (prefix_match _ _ _ _ G); auto; [apply (gi_good _ _ _ _ G)|eapply good_lead; eauto|].
    rewrite log_match_term_abs in Hmt by (apply (wf0 r Hn)). apply Ok_inj in Hmt. apply N.eqb_eq in Hmt.
    unfold a_term0 in Hmt. pose proof (lwf_com _ (li_wf _ (ni_log _ Hn))) as Cb.
    rewrite (lr_term_eq _ _ _ (v_log _ _ _ _ _ V)) in Hmt by lia. congruence. }
  assert (El : l_committed l = m) by (rewrite A2; cbn; lia). rewrite El.
  apply (foll_sim (mkA (an_term (g id)) (an_vote (g id)) L m AFollow) [FAck (an_term (g id)) id (ntake m Z)]);
    cbn [r_log emit set_r_msgs set_r_log an_term an_vote an_log an_com an_role]; auto; try lia.
  - apply (LsCons _ _ _ _ (g id, FAck (an_term (g id)) id (ntake m Z) :: F)).
    + apply (LKeep (vquorum cs) (vmember cs) id (g id) F ld Z m); auto.
    + apply lsteps_one. cbn [app]. rewrite <- foll_role.
      apply (LLearn (vquorum cs) (vmember cs) id (g id) _ m t C); auto; try lia; [right; auto|]. rewrite Hpm. auto.
  - rewrite A2, log_abs_committed. apply V.
  - rewrite A2. reflexivity.
  - rewrite A2. apply (v_usnap _ _ _ _ _ V).
  - eexists. split; [reflexivity|]. constructor; auto. eapply ack_msg; auto; [left; reflexivity|]. rewrite nlen_ntake. lia.
Qed.

Lemma snapinstall_sim r1 : m_type im = MsgSnap -> m_term im = r_term r -> raft_restore (m_snap im) r = Ok (r1, true) ->
  sim (emit (app_resp im (r_last r1) r1) r1).
Proof.
  intros Ht Hm Hr. destruct (snap_parts Ht Hm) as (ld & Z & t & C & X1 & X2 & X3 & X4 & X5 & X6 & X7).
  destruct (restore_inv _ _ _ Hf Hr) as (B1 & _ & B2 & cp & pr & pr' & b & B3 & B4 & B5 & B6 & B7).
  destruct (restore_fields _ _ _ Hf Hr) as (C1&C2&C3&C4&C5&C6&C7).
  destruct (restore_log (m_snap im) (r_log r) (ni_log _ Hn) B1) as [D1 D2].
  assert (Ht1 : t_config (r_trk r1) = fst cp) by (rewrite B7; reflexivity). clear B7.
  pose proof (v_com _ _ _ _ _ V) as Ec. pose proof (v_term _ _ _ _ _ V) as Et. pose proof (v_vote _ _ _ _ _ V) as Ev.
  pose proof (proj1 (gi_com _ _ _ _ G id)) as Cl.
  assert (Hz : r_term r <> 0) by (apply term_nz; auto; rewrite Ht; auto).
  set (m := sn_index (m_snap im)) in *.
  assert (Hne : ntake m L <> ntake m Z).
  { intros Heq. rewrite log_match_term_abs in B2 by (apply (wf0 r Hn)). apply Ok_inj in B2. apply N.eqb_neq in B2. apply B2.
    assert (Hl : m <= nlen L). { apply (f_equal nlen) in Heq. rewrite !nlen_ntake in Heq. lia. }
    pose proof (lwf_com _ (li_wf _ (ni_log _ Hn))) as Cb. unfold a_term0.
    rewrite (lr_term_eq _ _ _ (v_log _ _ _ _ _ V)) by lia. congruence. }
  assert (Hlast : r_last r1 = m).
  { unfold r_last. rewrite C4, log_last_abs by (apply lwf_0, (li_wf _ D1)). rewrite D2. unfold a_last. cbn. rewrite nlen_nil. lia. }
  assert (Hcf : Permutation (cs_voters cs) (tc_incoming (t_config (r_trk r1))) /\ Permutation (cs_outgoing cs) (tc_outgoing (t_config (r_trk r1)))).
  { rewrite Ht1. apply C24_confstate_eq in B4. destruct B4 as (Q1 & _ & Q2 & _). cbn in Q1, Q2. destruct X7 as [Y1 Y2]. split; eapply Permutation_trans; eauto. }
  assert (Hac : msg_ok cs (FAck (an_term (g id)) id (ntake m Z) :: F) (app_resp im (r_last r1) r1)).
  { eapply ack_msg; auto; [unfold r_id; rewrite C1; auto|left; reflexivity|]. rewrite Hlast, nlen_ntake. lia. }
  apply (foll_sim (mkA (an_term (g id)) (an_vote (g id)) (ntake m Z) m AFollow) [FAck (an_term (g id)) id (ntake m Z)]);
    cbn [r_log emit set_r_msgs r_trk r_cfg r_term r_vote r_state r_msgs an_term an_vote an_log an_com an_role]; auto; try lia; try tauto.
  - apply (LsCons _ _ _ _ (mkA (an_term (g id)) (an_vote (g id)) (ntake m Z) (an_com (g id)) AFollow, FAck (an_term (g id)) id (ntake m Z) :: F)).
    + apply (LTake (vquorum cs) (vmember cs) id (g id) F ld Z m); auto. rewrite foll_role. discriminate.
    + apply lsteps_one. cbn [app].
      apply (LLearn (vquorum cs) (vmember cs) id (mkA (an_term (g id)) (an_vote (g id)) (ntake m Z) (an_com (g id)) AFollow) _ m t C); cbn; auto.
      * rewrite nlen_ntake. lia.
      * rewrite ntake_ntake, N.min_id. auto.
  - rewrite C4, D2, X3. apply lr_snap. auto.
  - rewrite C4. reflexivity.
  - rewrite C4. reflexivity.
  - rewrite C4. cbn. intros sn Hs. injection Hs as <-. auto.
  - exists [app_resp im (r_last r1) r1]. rewrite C6. split; auto.
Qed.
End RFoll.
