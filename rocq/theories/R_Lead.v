(** Simulation: elections won, proposals, acknowledgements, commitment. *)
From Coq Require Import Permutation.
From Verif Require Import Prelude Types M_Util M_Quorum M_Inflights M_Progress M_Tracker.
From Verif Require Import M_Storage M_Unstable M_Log M_ReadOnly M_ConfPb M_ConfChange M_Raft M_RawNode.
From Verif Require Import Spec_Quorum P_Quorum P_Inflights Spec_Log P_Lists P_Storage P_Log P_RaftLogSeq P_Frame P_Prim Sys_Node P_Node P_Fields P_New P_NodeLog P_Ack P_Lead A_Proto Sys_Cluster R_Log R_Sim R_Prim R_Send.

Lemma nx_le B B' p : B <= B' -> nx B p -> nx B' p.
Proof. unfold nx. intros; lia. Qed.

Section RLead.
Context {E : Env}.
Variable cs : confstate.
Variable t0 : N.
Variables (g : N -> anode) (F : list fact) (id : N).
Hypothesis G : ginv (vquorum cs) t0 g F.
Hypothesis Hid : id <> 0.
Variables (im : msg) (r : raft).
Hypothesis V : vrel cs id F (g id) r.
Hypothesis Hn : ninv r.
Hypothesis M : in_msg cs F id im.
Hypothesis MS : Forall (msg_ok cs F) (r_msgs r).
Notation L := (an_log (g id)).
Notation sim := (simulated cs id F (g id)).

(** A quorum has acknowledged what the tracker calls committed. *)
Lemma commit_quorum F1 T k mci :
  Permutation (cs_voters cs) (tc_incoming (t_config T)) -> Permutation (cs_outgoing cs) (tc_outgoing (t_config T)) ->
  (forall v p, mget v (t_progress T) = Some p -> p_match p = 0 \/ exists X, In (FAck k v X) F1 /\ p_match p <= nlen X) ->
  trk_committed T = Ok mci -> 0 < mci ->
  exists S, vquorum cs S /\ forall v, In v S -> exists X, In (FAck k v X) F1 /\ mci <= nlen X.
Proof.
  intros P1 P2 HM Hc Hp. unfold trk_committed in Hc. destruct (joint_ci_le _ _ _ _ mci Hc ltac:(lia)) as [M1 M2].
  destruct (quorum_of cs _ _ _ P1 P2 M1 M2) as (S & S1 & S2). exists S. split; auto. intros v Hv. specialize (S2 v Hv).
  unfold acked, match_acked in S2. destruct (mget v (t_progress T)) as [p|] eqn:Hg; cbn in S2; [|lia].
  destruct (HM v p Hg) as [Z|(X & X1 & X2)]; [lia|]. exists X. split; auto. lia.
Qed.

Lemma append_sim es T pr pr' u mci r' :
  lwf0 (r_log r) ->
  let es' := stamp (r_term r) (nlen L + 1) es in
  let F1 := FAck (r_term r) id (L ++ es') :: FLead (r_term r) id (L ++ es') :: F in
  lstep (vquorum cs) (vmember cs) id (g id, F) (mkA (r_term r) (an_vote (g id)) (L ++ es') (an_com (g id)) ALead, F1) ->
  r_cfg r' = r_cfg r -> r_term r' = r_term r -> r_vote r' = r_vote r -> r_state r' = RLeader -> r_msgs r' = r_msgs r ->
  t_config (r_trk r') = t_config (r_trk r) ->
  log_abs (r_log r') = a_app (log_abs (r_log r)) es' -> l_st (r_log r') = l_st (r_log r) ->
  u_snap (l_us (r_log r')) = u_snap (l_us (r_log r)) -> lwf0 (r_log r') ->
  trk_get (r_id r) T = Some pr -> pr_maybe_update (nlen L + nlen es) pr = (pr', u) ->
  r_trk r' = trk_put (r_id r) pr' T -> trk_committed (r_trk r') = Ok mci ->
  l_committed (r_log r) <= l_committed (r_log r') ->
  (l_committed (r_log r') <> l_committed (r_log r) ->
     l_committed (r_log r') = mci /\ a_term (log_abs (r_log r')) mci = Some (r_term r)) ->
  (forall v p, mget v (t_progress T) = Some p -> nx (r_last r) p /\
     (v <> id -> p_match p = 0 \/ exists X, In (FAck (r_term r) v X) F /\ p_match p <= nlen X)) ->
  sim r'.
Proof.
  intros W0 es' F1 Hst A1 A2 A3 A4 A5 A6 A7 A8 A9 A10 B1 B2 B3 B4 B5 B6 HT.
  assert (Hlen : nlen (L ++ es') = nlen L + nlen es) by (rewrite nlen_app; unfold es'; rewrite stamp_len; auto).
  pose proof (lr_app _ _ es' (v_log _ _ _ _ _ V)) as LR. rewrite <- A7 in LR.
  pose proof (com_le cs t0 g F id G r V) as Cl.
  assert (Hlast : r_last r = nlen L) by (unfold r_last; rewrite log_last_abs by exact W0; apply (last_is cs g F id r V)).
  assert (Hlast' : r_last r' = nlen L + nlen es) by (unfold r_last; rewrite log_last_abs by auto; rewrite (lr_last _ _ LR); auto).
  destruct (pr_maybe_update_spec _ _ _ _ B2) as (U1&_&_&_&_&_&_&U2&U3).
  pose proof (v_id _ _ _ _ _ V) as Ei. unfold trk_get in B1. destruct (HT _ _ B1) as [[K1 [K2 K3]] _].
  rewrite Hlast in *. rewrite Ei in B1, B3.
  assert (HP : forall v p, mget v (t_progress (r_trk r')) = Some p ->
    nx (r_last r') p /\ (p_match p = 0 \/ exists X, In (FAck (r_term r) v X) F1 /\ p_match p <= nlen X)).
  { intros v p Hp. rewrite B3 in Hp. cbn in Hp. rewrite mget_mset in Hp. rewrite Hlast'. destruct (N.eqb_spec v id) as [->|Hv].
    - injection Hp as <-. split; [unfold nx; lia|]. right. exists (L ++ es'). split; [left; auto|lia].
    - destruct (HT v p Hp) as [X1 X2]. split; [eapply nx_le; [|exact X1]; lia|].
      destruct (X2 Hv) as [?|(X & X3 & X4)]; auto. right. exists X. split; auto. right; right; auto. }
  assert (HV : forall k F2, incl F1 F2 -> k = l_committed (r_log r') -> vrel cs id F2 (mkA (r_term r) (an_vote (g id)) (L ++ es') k ALead) r').
  { intros k F2 Hi Hk. pose proof (v_id _ _ _ _ _ V). pose proof (v_vote _ _ _ _ _ V).
    constructor; cbn [an_term an_vote an_log an_com an_role]; auto.
    - unfold r_id in *. congruence.
    - congruence.
    - rewrite A4. reflexivity.
    - rewrite A6. apply (v_conf _ _ _ _ _ V).
    - rewrite A2, A3. intros X. destruct (v_fvote _ _ _ _ _ V X) as [Y HY]. exists Y. apply Hi. right; right; auto.
    - rewrite A4. discriminate.
    - intros _ v p Hp. rewrite A2. destruct (HP v p Hp) as [_ [?|(X & X1 & X2)]]; auto. right. exists X. auto.
    - intros _ v p Hp. apply (HP v p Hp).
    - rewrite A9. apply (v_usnap _ _ _ _ _ V).
    - rewrite A8. destruct (v_ssnap _ _ _ _ _ V) as (S1 & S2 & S3). rewrite (v_com _ _ _ _ _ V) in S1. split; [lia|]. split; auto.
      rewrite S2. rewrite ntake_app. replace (sn_index (ms_snap (l_st (r_log r))) - nlen L) with 0 by lia. rewrite ntake_0, app_nil_r. auto. }
  destruct (N.eq_dec (l_committed (r_log r')) (l_committed (r_log r))) as [Hc|Hc].
  - apply (sim_one cs id F (g id) (mkA (r_term r) (an_vote (g id)) (L ++ es') (an_com (g id)) ALead)
     [FAck (r_term r) id (L ++ es'); FLead (r_term r) id (L ++ es')]).
    + exact Hst.
    + apply HV; [intros x; auto|]. rewrite (v_com _ _ _ _ _ V). auto.
    + rewrite A5. apply (msgs_ok_mono cs F); auto. intros x Hx. right; right; auto.
  - destruct (B6 Hc) as [D1 D2]. destruct (lr_term _ _ _ _ LR D2) as [[_ D3] D4].
    destruct (v_conf _ _ _ _ _ V) as [P1 P2]. rewrite <- A6 in P1, P2.
    destruct (commit_quorum F1 (r_trk r') (r_term r) mci P1 P2) as (S & Q1 & Q2); auto; [intros v p Hp; apply (HP v p Hp)|lia|].
    eapply (sim_step cs id F (g id) _ [FAck (r_term r) id (L ++ es'); FLead (r_term r) id (L ++ es')]); [exact Hst|].
    apply (sim_one cs id _ _ (mkA (r_term r) (an_vote (g id)) (L ++ es') mci ALead) [FCom (r_term r) (ntake mci (L ++ es'))]).
    + apply (LCommit (vquorum cs) (vmember cs) id (mkA (r_term r) (an_vote (g id)) (L ++ es') (an_com (g id)) ALead) F1 mci S); cbn; auto.
      rewrite (v_com _ _ _ _ _ V). lia.
    + apply HV; auto. intros x Hx. right. exact Hx.
    + rewrite A5. apply (msgs_ok_mono cs F); auto. intros x Hx. right; right; right; auto.
Qed.

Lemma prop_sim es r1 r' : r_state r = RLeader -> filter_prop 0 (m_entries im) r = Ok (es, r1) ->
  (append_entry es r1 = Ok (Some r') \/ append_entry es r1 = Ok None /\ r' = r1) -> sim r'.
Proof.
  intros HL Hf Ha. destruct (prop_fields _ _ _ _ _ Hf Ha) as (P1&P2&P3&P4&P5&P6&P7&P8&P9&P10).
  destruct (filter_prop_fields _ _ _ _ _ Hf) as [k ->].
  destruct Ha as [Ha|[_ ->]].
  2:{ apply sim_none; [|exact MS]. apply (vrel_same cs id F (g id) r); auto; eauto. }
  assert (Hk : ninv (set_r_pending_conf k r)) by (apply (ninv_same r); auto).
  pose proof (ni_term _ Hn (or_introl HL)) as Hp.
  destruct (append_log _ _ _ (ni_log _ Hk) Hp Ha) as (A1&A2&A3&A4&A5&A6&pr1&pr2&u2&mci&D1&D2&D3&D4&D5&D6&D7&D8&D9).
  cbv zeta in *. change (r_log (set_r_pending_conf k r)) with (r_log r) in *. change (r_term (set_r_pending_conf k r)) with (r_term r) in *.
  change (r_trk (set_r_pending_conf k r)) with (r_trk r) in *. change (r_id (set_r_pending_conf k r)) with (r_id r) in *.
  rewrite (last_is cs g F id r V) in *.
  eapply (append_sim es (r_trk r) pr1 pr2 u2 mci r' (wf0 r Hn)); auto; try congruence.
  - pose proof (v_term _ _ _ _ _ V) as Et. rewrite <- Et. apply (LProp (vquorum cs) (vmember cs) id (g id) F).
    + rewrite (v_role _ _ _ _ _ V), HL. auto.
    + intros e He. rewrite Et in *. eapply stamp_term; eauto.
  - apply lwf_0, (li_wf _ A1).
  - intros v p Hv. split; [apply (v_next _ _ _ _ _ V HL v); auto|]. intros _. apply (v_match _ _ _ _ _ V HL); auto.
Qed.

Lemma lead_sim r' : r_state r = RCandidate -> tc_vote_result (t_config (r_trk r)) (t_votes (r_trk r)) = VoteWon ->
  become_leader r = Ok r' -> sim r'.
Proof.
  intros HC Hv Hb. destruct (become_leader_all _ _ Hb) as (_&P1&P2&P3&P4&P5&P6&P7&P8&_).
  apply become_leader_inv in Hb. destruct Hb as (pr & r1 & u & B1 & B2 & B3 & B4).
  hide (reset (r_term r) r) r0 Er0. destruct (reset_fields _ _ _ Er0) as (C1&C2&C3&C4&C5&C6&C7&C8&C9&C10&C11).
  destruct (reset_more _ _ _ Er0) as (_&_&_&_&_&_&_&_&R&_). clear Er0.
  hide (lead_base pr r0) rx Ex. pose proof (lead_base_fields _ _ _ Ex) as (_ & R').
  assert (Gx : r_log rx = r_log r /\ r_term rx = r_term r /\ r_id rx = r_id r /\ r_state rx = RLeader).
  { rewrite Ex. unfold r_id in *. cbn. rewrite ?C4, ?C2, ?C1, ?C8. auto. }
  clear Ex. destruct Gx as (G1 & G2 & G3 & G5).
  assert (Hi0 : r_id r0 = r_id r) by (unfold r_id; rewrite C1; auto).
  pose proof (ni_term _ Hn (or_intror HC)) as Hp.
  assert (Hnx : ninv rx) by (constructor; rewrite ?G1, ?G2; auto; apply Hn).
  assert (Hr : r_log r' = r_log r1 /\ r_trk r' = r_trk r1) by (rewrite B4; auto). destruct Hr as (R1 & R4). clear B4.
  destruct (append_log _ _ _ (ni_log _ Hnx) ltac:(rewrite G2; auto) B3) as (A1&A2&A3&A4&A5&A6&pr1&pr2&u2&mci&D1&D2&D3&D4&D5&D6&D7&D8&D9).
  cbv zeta in *. rewrite G1, G2, G3 in *. clear B3.
  rewrite (last_is cs g F id r V) in *. rewrite <- R1 in *. rewrite <- R4 in *.
  assert (Hlast : r_last r = nlen L) by (unfold r_last; rewrite log_last_abs by (apply (wf0 r Hn)); apply (last_is cs g F id r V)).
  eapply (append_sim [empty_entry] (r_trk rx) pr1 pr2 u2 mci r' (wf0 r Hn)); auto; try congruence.
  - pose proof (v_term _ _ _ _ _ V) as Et. rewrite <- Et.
    unfold tc_vote_result in Hv. apply joint_won in Hv. destruct Hv as [W1 W2]. destruct (v_conf _ _ _ _ _ V) as [Q1 Q2].
    destruct (quorum_of cs _ _ _ Q1 Q2 W1 W2) as (S & S1 & S2).
    apply (LWin (vquorum cs) (vmember cs) id (g id) F S); auto.
    + rewrite (v_role _ _ _ _ _ V), HC. auto.
    + intros v Hv. specialize (S2 v Hv). unfold voted_yes, vget in S2.
      destruct (mget v (t_votes (r_trk r))) as [[|]|] eqn:Hg; try discriminate. rewrite Et. apply (v_votes _ _ _ _ _ V HC v Hg).
  - apply lwf_0, (li_wf _ A1).
  - intros v p Hg. rewrite R', mget_mset in Hg. rewrite Hi0 in Hg. pose proof (v_id _ _ _ _ _ V) as Ei.
    assert (HR : forall w q, mget w (t_progress (r_trk r0)) = Some q -> nx (r_last r) q /\ (w <> id -> p_match q = 0) /\ p_match q <= r_last r).
    { intros w q Hq. rewrite R, mget_mmap in Hq. destruct (mget w (t_progress (r_trk r))) as [p0|]; [|discriminate]. cbn in Hq.
      destruct (N.eqb_spec w (r_id r)); injection Hq as <-; unfold nx; cbn; repeat match goal with |- _ /\ _ => split end; try lia; try congruence. }
    destruct (N.eqb_spec v (r_id r)) as [->|Hne].
    + injection Hg as <-. unfold trk_get in B2. destruct (HR _ _ B2) as (X1 & X2 & X3). split; [|tauto].
      unfold nx, pr_become_replicate; cbn. lia.
    + destruct (HR _ _ Hg) as (X1 & X2 & X3). split; auto.
Qed.

Lemma ack_sim p p' : r_state r = RLeader -> m_type im = MsgAppResp -> m_reject im = false -> m_term im = r_term r ->
  trk_get (m_from im) (r_trk r) = Some p -> p_match p < m_index im -> p_match p' = m_index im ->
  (forall B, m_index im <= B -> nx B p -> nx B p') ->
  sim (put_progress (m_from im) p' r).
Proof.
  intros HL Ht Hr Hm Hg H1 H2 H3. apply sim_none; [|exact MS].
  destruct (im_peer cs F id im M) as [[_ _ X] Y]; [rewrite Ht; auto|]. unfold msg_fact in X. rewrite Ht in X.
  destruct (X Hr) as [Z|(A & A1 & A2)]; [lia|]. rewrite Hm in A1.
  assert (Hlast : r_last r = nlen L) by (unfold r_last; rewrite log_last_abs by (apply (wf0 r Hn)); apply (last_is cs g F id r V)).
  pose proof (ack_in_lead _ _ _ _ G id (m_from im) A) as A3. rewrite (v_role _ _ _ _ _ V), HL, (v_term _ _ _ _ _ V) in A3.
  specialize (A3 eq_refl A1). apply pre_len in A3.
  destruct V. constructor; cbn; auto.
  - intros _ v q Hq. rewrite mget_mset in Hq. destruct (N.eqb_spec v (m_from im)) as [->|]; [|eauto]. injection Hq as <-. right. exists A. split; auto. lia.
  - intros _. apply nexts_put; auto. apply H3; [lia|]. apply (v_next HL (m_from im)); auto.
Qed.

Lemma commit_sim r' b : r_state r = RLeader -> raft_maybe_commit r = Ok (r', b) -> sim r'.
Proof.
  intros HL Hc. pose proof (ni_term _ Hn (or_introl HL)) as Hp.
  destruct (commit_log r r' b (ni_log _ Hn) Hp Hc) as (mci & C1 & C2 & C3 & C4 & C5).
  destruct b; [|subst r'; apply sim_none; auto]. specialize (C5 eq_refl).
  symmetry in C2. apply andb_true_iff in C2. destruct C2 as [C2 _]. apply N.ltb_lt in C2.
  destruct (lr_term _ _ _ _ (v_log _ _ _ _ _ V) C5) as [[_ D3] D4].
  destruct (v_conf _ _ _ _ _ V) as [P1 P2].
  destruct (commit_quorum F (r_trk r) (r_term r) mci P1 P2) as (S & Q1 & Q2); auto; [apply (v_match _ _ _ _ _ V HL)|lia|].
  pose proof (v_term _ _ _ _ _ V) as Et.
  apply (sim_one cs id F (g id) (mkA (an_term (g id)) (an_vote (g id)) L mci ALead) [FCom (an_term (g id)) (ntake mci L)]).
  - apply (LCommit (vquorum cs) (vmember cs) id (g id) F mci S); auto.
    + rewrite (v_role _ _ _ _ _ V), HL. auto.
    + rewrite (v_com _ _ _ _ _ V). lia.
    + congruence.
    + rewrite Et. auto.
  - assert (V1 : vrel cs id ([FCom (an_term (g id)) (ntake mci L)] ++ F) (g id) r) by (eapply vrel_mono; [apply incl_appr0|exact V]).
    subst r'. destruct V1. constructor; cbn; auto.
    + rewrite HL. auto.
    + destruct v_ssnap as (S1 & S2 & S3). split; [lia|]. auto.
  - subst r'. cbn. apply (msgs_ok_mono cs F); auto. intros x Hx. right. exact Hx.
Qed.
End RLead.
