(** Flow control over whole runs. *)
From Verif Require Import Prelude Types M_Util M_Quorum M_Inflights M_Progress M_Tracker.
From Verif Require Import M_Storage M_Unstable M_Log M_ReadOnly M_ConfPb M_ConfChange M_Raft M_RawNode.
From Verif Require Import Spec_Inflights P_Inflights Spec_Log P_Lists P_Storage P_Log P_RaftLogSeq P_NodeLog P_Frame P_Prim Sys_Node P_Node P_Fields P_Vote Spec_Node P_New P_Time P_Handle P_NodeRun P_Emit P_Lead P_Ack P_Transfer P_Flow Spec_ConfChange Sys_ConfChange P_ConfChange P_Conf P_Window.

Section FlowRun.
Context {E : Env}.

(* ---- configuration changes: progress is kept or starts afresh ---- *)
Definition evolved (K last : N) (prs prs' : nmap progress) : Prop :=
  forall id p', mget id prs' = Some p' ->
    (exists p b, mget id prs = Some p /\ p' = set_p_learner b p) \/ (exists b, p' = new_progress last 0 K b true).
Lemma set_learner_same p : p = set_p_learner (p_learner p) p. Proof. destruct p; reflexivity. Qed.
Lemma evolved_refl K l prs : evolved K l prs prs.
Proof. intros id p H. left. exists p, (p_learner p). split; auto. apply set_learner_same. Qed.
Lemma evolved_trans K l a b c : evolved K l a b -> evolved K l b c -> evolved K l a c.
Proof.
  intros H1 H2 id p H. destruct (H2 _ _ H) as [(q & x & A & ->)|[x ->]]; [|right; eauto].
  destruct (H1 _ _ A) as [(q' & y & B & ->)|[y ->]]; [left; exists q', x; split; auto|right; exists x; reflexivity].
Qed.
Lemma evolved_learner K l id b p prs : mget id prs = Some p -> evolved K l prs (mset id (set_p_learner b p) prs).
Proof.
  intros Hg j q H. rewrite mget_mset in H. destruct (N.eqb_spec j id) as [->|]; [inv H; left; eauto|].
  left. exists q, (p_learner q). split; auto. apply set_learner_same.
Qed.
Lemma evolved_del K l id prs : evolved K l prs (mdel id prs).
Proof.
  intros j q H. left. exists q, (p_learner q). split; [|apply set_learner_same].
  rewrite mget_mdel in H. destruct (j =? id); [discriminate|auto].
Qed.
Section Ch.
Variable ch : changer.
Notation K := (t_max_inflight (ch_trk ch)).
Notation L := (ch_last ch).
Lemma init_ev id b cp : evolved K L (snd cp) (snd (init_progress ch id b cp)).
Proof.
  destruct cp as [c p]. cbn. intros j q H. rewrite mget_mset in H. destruct (N.eqb_spec j id) as [->|]; [inv H; right; eauto|].
  left. exists q, (p_learner q). split; auto. apply set_learner_same.
Qed.
Lemma remove_ev id cp : evolved K L (snd cp) (snd (remove_node id cp)).
Proof.
  destruct cp as [c p]. unfold remove_node. destruct (mget id p); [|apply evolved_refl]. cbn [snd].
  match goal with |- context[if ?b then _ else _] => destruct b end; [apply evolved_refl|apply evolved_del].
Qed.
Lemma voter_ev id cp : evolved K L (snd cp) (snd (make_voter ch id cp)).
Proof.
  destruct cp as [c p]. unfold make_voter. destruct (mget id p) as [q|] eqn:Hg; [|apply (init_ev id false (c, p))].
  cbn. apply evolved_learner; auto.
Qed.
Lemma learner_ev id cp : evolved K L (snd cp) (snd (make_learner ch id cp)).
Proof.
  destruct cp as [c p]. unfold make_learner. destruct (mget id p) as [q|] eqn:Hg; [|apply (init_ev id true (c, p))].
  destruct (p_learner q); [apply evolved_refl|]. pose proof (remove_ev id (c, p)) as HR.
  destruct (remove_node id (c, p)) as [c' p'] eqn:Hr. cbn [snd] in *.
  assert (Hx : forall b, evolved K L p (mset id (set_p_learner b q) p')).
  { intros b j x Hj. rewrite mget_mset in Hj. destruct (N.eqb_spec j id) as [->|]; [inv Hj; left; eauto|]. apply HR; auto. }
  destruct (smem id (tc_outgoing c')); cbn; [rewrite (set_learner_same q)|]; apply Hx.
Qed.
Lemma one_ev cc cp : evolved K L (snd cp) (snd (apply_one ch cc cp)).
Proof.
  unfold apply_one. destruct (cc_node cc =? 0); [apply evolved_refl|]. destruct (cc_type cc);
    [apply voter_ev|apply remove_ev|apply evolved_refl|apply learner_ev].
Qed.
Lemma apply_ev ccs cp cp' : ch_apply ch ccs cp = SOk cp' -> evolved K L (snd cp) (snd cp').
Proof.
  unfold ch_apply. destruct (is_nil _); [discriminate|]. intros H; inv H.
  revert cp. induction ccs as [|cc t IH]; intros cp; [apply evolved_refl|]. cbn [fold_left].
  eapply evolved_trans; [apply one_ev|apply IH].
Qed.
Lemma promote_ev ids : forall cp cp', promote_next ids cp = Ok cp' -> evolved K L (snd cp) (snd cp').
Proof.
  induction ids as [|id t IH]; intros [c p] cp' H; cbn in H; [inv H; apply evolved_refl|].
  destruct (mget id p) as [q|] eqn:Hg; [|discriminate]. apply IH in H. cbn [snd] in *.
  eapply evolved_trans; [|exact H]. apply evolved_learner; auto.
Qed.
Lemma dels_ev (f : N -> bool) ids : forall p, evolved K L p (fold_left (fun acc id => if f id then mdel id acc else acc) ids p).
Proof.
  induction ids as [|id t IH]; intros p; [apply evolved_refl|]. cbn [fold_left]. eapply evolved_trans; [|apply IH].
  destruct (f id); [apply evolved_del|apply evolved_refl].
Qed.
Lemma call_ev o cp : cc_call o ch = Ok (SOk cp) -> evolved K L (t_progress (ch_trk ch)) (snd cp).
Proof.
  destruct o as [ccs|al ccs|]; cbn [cc_call]; intros H.
  - apply Ok_inj in H. unfold ch_simple in H. destruct (check_and_copy ch) as [[c p]|] eqn:H0; [|discriminate]. apply cac_eq in H0. subst p.
    destruct (tc_joint c); [discriminate|]. destruct (ch_apply ch ccs _) as [[c' p']|] eqn:H1; [|discriminate].
    destruct (_ <? _); [discriminate|]. apply car_eq in H. subst cp. apply apply_ev in H1. exact H1.
  - apply Ok_inj in H. unfold ch_enter_joint in H. destruct (check_and_copy ch) as [[c p]|] eqn:H0; [|discriminate]. apply cac_eq in H0. subst p.
    destruct (tc_joint c); [discriminate|]. destruct (is_nil _); [discriminate|].
    destruct (ch_apply ch ccs _) as [[c' p']|] eqn:H1; [|discriminate].
    apply car_eq in H. subst cp. apply apply_ev in H1. exact H1.
  - unfold ch_leave_joint in H. destruct (check_and_copy ch) as [[c p]|] eqn:H0; [|inv H]. apply cac_eq in H0. subst p.
    destruct (negb (tc_joint c)); [inv H|]. apply bind_ok in H. destruct H as ([c' p'] & H1 & H). apply Ok_inj in H.
    apply car_eq in H. subst cp. apply promote_ev in H1. cbn [snd] in *.
    eapply evolved_trans; [exact H1|]. exact (dels_ev (fun id => negb (smem id (tc_incoming (set_tc_learners_next [] c'))) && negb (smem id (tc_learners (set_tc_learners_next [] c')))) _ _).
Qed.
End Ch.

(* ---- one call of a node that leads before and after it ---- *)
Definition lfl (m : msg) (r r' : raft) : Prop := exists r1 new, taken m r r1 /\ flows r1 r' /\
  r_msgs r' = r_msgs r1 ++ new /\ (forall x, In x new -> m_type x = MsgApp \/ m_type x = MsgSnap -> smsg r1 x) /\
  r_log r' = r_log r1 /\ r_cfg r' = r_cfg r1 /\ t_max_inflight (r_trk r') = t_max_inflight (r_trk r1) /\
  (forall to p', trk_get to (r_trk r') = Some p' -> trk_get to (r_trk r1) <> None).
Lemma lflow_lfl m r r' : lflow m r r' -> lfl m r r'.
Proof.
  intros (r1 & T & [S|Q]).
  - destruct (sd_msgs _ _ S) as (ms & M1 & M2). exists r1, ms. split; auto. split; [apply S|]. split; auto.
    split; [intros x Hx _; rewrite Forall_forall in M2; auto|]. pose proof (sd_same _ _ S) as [].
    repeat (split; [assumption|]). intros to p' Hg. destruct (prs_same_get' _ _ _ _ (sd_prs _ _ S) Hg) as (p & Hp & _). congruence.
  - pose proof (fsend_flows _ _ (or_intror Q)) as F. destruct Q as (Q1 & Q2 & Q3 & ms & Q4 & Q5). exists r1, ms. split; auto. split; auto. split; auto.
    split; [intros x Hx [Ht|Ht]; rewrite Forall_forall in Q5; destruct (Q5 _ Hx); congruence|].
    repeat (split; [congruence|]). intros to p' Hg. congruence.
Qed.

Lemma rn_step_flow m n n' e : wf_in m -> vself (rn_raft n) -> rn_raft_step m n = Ok (n', e) ->
  r_state (rn_raft n) = RLeader -> r_state (rn_raft n') = RLeader -> r_term (rn_raft n') = r_term (rn_raft n) ->
  exists im, heard m (rn_raft n) im /\ lfl im (rn_raft n) (rn_raft n').
Proof.
  intros Hw V H L1 L2 T. unfold rn_raft_step in H. apply bind_ok in H. destruct H as ([r1 e1] & H & Hx). inv Hx. cbn in *.
  destruct (step_flow _ _ _ _ Hw V L1 H L2 T) as (im & A & B). exists im. split; auto. apply lflow_lfl; auto.
Qed.
Lemma switch_flow cc op cp r r' cs : cc_call op (mkChanger (r_trk r) (r_last r)) = Ok (SOk cp) ->
  switch_to_config cp r = Ok (r', cs) -> exists r0, switched (NApplyCC cc) r r0 /\ lfl (new_msg MsgHup) r0 r'.
Proof.
  intros Ho. unfold switch_to_config. cbv zeta.
  match goal with |- context[set_r_learner ?b ?x] => set (r1 := set_r_learner b x) end.
  assert (A : switched (NApplyCC cc) r r1) by (right; do 4 eexists; split; [reflexivity|split; [exact Ho|reflexivity]]).
  clearbody r1. intros H. exists r1. split; auto. clear A. revert H.
  destruct (_ && is_leader r1); [intros H; inv H; apply lflow_lfl, lflow_refl|].
  destruct (_ || _) eqn:Hl; [intros H; inv H; apply lflow_lfl, lflow_refl|]. intros H.
  apply bind_ok in H. destruct H as (ra & H & Hx). inv Hx.
  unfold switch_leader in H. apply bind_ok in H. destruct H as ([r2 com] & H1 & H).
  apply raft_maybe_commit_state in H1. destruct H1 as [l ->]. apply bind_ok in H. destruct H as (r3 & H2 & H).
  assert (S : sends (set_r_log l r1) r3).
  { destruct com; [apply bcast_append_sends; auto|]. apply (mfold_inv _ sends) in H2; auto using sends_refl; [intros; eapply sends_trans; eauto|].
    intros a s s' _ Hs. apply bind_ok in Hs. destruct Hs as ([r5 b] & Hs & Hx). inv Hx. eapply maybe_send_append_sends; eauto. }
  assert (X : lfl (new_msg MsgHup) r1 r3).
  { apply lflow_lfl. exists (set_r_log l r1). split; [apply taken_same; reflexivity|left; auto]. }
  destruct (_ && _) in H; inv H; exact X.
Qed.
Lemma tick_msg_beat : tick_msg (new_msg MsgBeat).
Proof. split; cbn; auto. Qed.
Theorem n_step_flow o n n' out : plain o -> nop_wf o -> vself (rn_raft n) -> n_step o n = Ok (n', out) ->
  r_state (rn_raft n) = RLeader -> r_state (rn_raft n') = RLeader -> r_term (rn_raft n') = r_term (rn_raft n) ->
  exists r0 m im, switched o (rn_raft n) r0 /\ call_msg (r_id (rn_raft n)) o m /\ heard m (rn_raft n) im /\ lfl im r0 (rn_raft n').
Proof.
  intros Hp Hw V H L1 L2 T.
  assert (S0 : forall m, call_msg (r_id (rn_raft n)) o m -> (exists im, heard m (rn_raft n) im /\ lfl im (rn_raft n) (rn_raft n')) ->
    exists r0 m im, switched o (rn_raft n) r0 /\ call_msg (r_id (rn_raft n)) o m /\ heard m (rn_raft n) im /\ lfl im r0 (rn_raft n')).
  { intros m Hc (im & Hh & Hf). exists (rn_raft n), m, im. split; [left; reflexivity|auto]. }
  assert (Z : forall m im, im = m /\ m_term m = 0 \/ im = new_msg MsgHup -> lflow im (rn_raft n) (rn_raft n') -> exists im, heard m (rn_raft n) im /\ lfl im (rn_raft n) (rn_raft n')).
  { intros m im [[-> Hz]| ->] HL; [exists m|exists (new_msg MsgHup)]; (split; [|apply lflow_lfl; auto]); [left; auto|right; auto]. }
  assert (W : forall m, call_msg (r_id (rn_raft n)) o m -> wf_in m) by (intros; eapply in_ok_wf, call_msg_in; eauto).
  destruct o; try (destruct Hp; fail); cbn [n_step] in H; apply bind_ok in H || (apply Ok_inj, pair_equal_spec in H; destruct H as [<- _]).
  - destruct H as (n1 & H & Hx). inv Hx. unfold rn_tick in H. apply bind_ok in H. destruct H as (r1 & H & Hx). inv Hx. cbn in *.
    apply (S0 (new_msg MsgBeat)); [apply tick_msg_beat|]. apply (Z _ (new_msg MsgBeat)); [left; auto|]. apply tick_flow; auto.
  - apply (S0 (new_msg MsgHup)); [reflexivity|]. apply (Z _ (new_msg MsgHup)); [right; auto|]. apply lflow_taken, taken_same; reflexivity.
  - destruct H as ([n1 e1] & H & Hx). inv Hx. unfold rn_campaign in H. eapply S0; [|eapply rn_step_flow; eauto]; [reflexivity|apply W; reflexivity].
  - destruct H as ([n1 e1] & H & Hx). inv Hx. unfold rn_propose in H. eapply S0; [|eapply rn_step_flow; eauto]; [reflexivity|apply W; reflexivity].
  - destruct H as ([n1 e1] & H & Hx). inv Hx. unfold rn_propose_conf_change in H. apply bind_ok in H. destruct H as ([t d] & Hm & H).
    eapply S0; [|eapply rn_step_flow; eauto]; [|apply W]; cbn; eauto.
  - clear S0. destruct H as ([n1 cs1] & H & Hx). inv Hx. unfold rn_apply_conf_change in H. apply bind_ok in H. destruct H as (v2 & _ & H).
    apply bind_ok in H. destruct H as ([r cs] & H & Hx). inv Hx. cbn in *.
    unfold raft_apply_conf_change in H. apply bind_ok in H. destruct H as ([cp|] & Hc & H); [|discriminate].
    assert (Ho : exists op, cc_call op (mkChanger (r_trk (rn_raft n)) (r_last (rn_raft n))) = Ok (SOk cp)).
    { destruct (leave_joint v2); [exists OpLeave; auto|]. destruct (enter_joint v2) as [al j]. destruct j.
      - exists (OpEnter al (c2_changes v2)). auto.
      - exists (OpSimple (c2_changes v2)). auto. }
    destruct Ho as [op Ho]. destruct (switch_flow cc _ _ _ _ _ Ho H) as (r0 & X & Y). exists r0, (new_msg MsgHup), (new_msg MsgHup). split; [exact X|]. split; [reflexivity|]. split; [right; reflexivity|exact Y].
  - destruct H as ([n1 e1] & H & Hx). inv Hx. unfold rn_step in H. destruct (is_local_msg _); [inv H; eapply S0; [reflexivity|apply (Z _ (new_msg MsgHup)); [right; auto|apply lflow_refl]]|].
    destruct (_ || _); [|inv H; eapply S0; [reflexivity|apply (Z _ (new_msg MsgHup)); [right; auto|apply lflow_refl]]]. eapply S0; [|eapply rn_step_flow; eauto]; [reflexivity|apply W; reflexivity].
  - destruct H as (n1 & H & Hx). inv Hx. unfold rn_report_unreachable in H. apply bind_ok in H. destruct H as ([n2 e2] & H & Hx). inv Hx.
    eapply S0; [|eapply rn_step_flow; eauto]; [reflexivity|apply W; reflexivity].
  - destruct H as (n1 & H & Hx). inv Hx. unfold rn_report_snapshot in H. apply bind_ok in H. destruct H as ([n2 e2] & H & Hx). inv Hx.
    eapply S0; [|eapply rn_step_flow; eauto]; [reflexivity|apply W; reflexivity].
  - destruct H as (n1 & H & Hx). inv Hx. unfold rn_transfer_leader in H. apply bind_ok in H. destruct H as ([n2 e2] & H & Hx). inv Hx.
    eapply S0; [|eapply rn_step_flow; eauto]; [reflexivity|apply W; reflexivity].
  - destruct H as (n1 & H & Hx). inv Hx. unfold rn_read_index in H. apply bind_ok in H. destruct H as ([n2 e2] & H & Hx). inv Hx.
    eapply S0; [|eapply rn_step_flow; eauto]; [reflexivity|apply W; reflexivity].
Qed.

Lemma append_peer es r r' id : append_entry es r = Ok (Some r') -> id <> r_id r ->
  mget id (t_progress (r_trk r')) = mget id (t_progress (r_trk r)).
Proof. exact (append_peers (fun _ _ _ => True) es r r' id). Qed.
(* ---- calls that handle no message ---- *)
Lemma advance_peers n n' : rn_advance n = Ok n' -> r_state (rn_raft n') = r_state (rn_raft n) /\ r_term (rn_raft n') = r_term (rn_raft n) /\
  r_cfg (rn_raft n') = r_cfg (rn_raft n) /\ t_max_inflight (r_trk (rn_raft n')) = t_max_inflight (r_trk (rn_raft n)) /\
  forall to, to <> r_id (rn_raft n) -> trk_get to (r_trk (rn_raft n')) = trk_get to (r_trk (rn_raft n)).
Proof.
  unfold rn_advance. destruct (rn_ready n) as [rd|]; [|discriminate]. intros H.
  apply bind_ok in H. destruct H as (r & H & Hx). inv Hx. cbn [rn_raft].
  unfold raft_advance in H. apply bind_ok in H. destruct H as (r1 & H1 & H). apply bind_ok in H. destruct H as (r2 & H2 & H).
  destruct (reduce_uncommitted_fields (rd_committed rd) (rn_raft n)) as [u Hu]. rewrite Hu in H1. clear Hu.
  assert (A1 : r_state r1 = r_state (rn_raft n) /\ r_term r1 = r_term (rn_raft n) /\
    r_cfg r1 = r_cfg (rn_raft n) /\ t_max_inflight (r_trk r1) = t_max_inflight (r_trk (rn_raft n)) /\
    forall to, to <> r_id (rn_raft n) -> trk_get to (r_trk r1) = trk_get to (r_trk (rn_raft n))).
  { match type of H1 with (if ?b then _ else _) = _ => destruct b end; [|inv H1; repeat split; auto].
    apply bind_ok in H1. destruct H1 as (l & _ & H1). unfold maybe_auto_leave in H1.
    match type of H1 with (if ?b then _ else _) = _ => destruct b end; [|inv H1; repeat split; auto].
    apply bind_ok in H1. destruct H1 as ([ra|] & Ha & H1); [|discriminate]. inv H1.
    apply append_entry_fields in Ha as Hf. destruct Hf as (l1 & p & u' & Hf).
    repeat (split; [subst ra; reflexivity|]). intros to Ht. cbn. exact (append_peer _ _ _ _ Ha Ht). }
  assert (A2 : r_state r2 = r_state r1 /\ r_term r2 = r_term r1 /\ r_cfg r2 = r_cfg r1 /\ r_trk r2 = r_trk r1).
  { destruct (rev (rd_ents rd)); [inv H2; auto|]. apply bind_ok in H2. destruct H2 as (l2 & _ & H2). inv H2. auto. }
  assert (A3 : r_state r = r_state r2 /\ r_term r = r_term r2 /\ r_cfg r = r_cfg r2 /\ r_trk r = r_trk r2) by (destruct (_ =? 0) in H; inv H; auto).
  destruct A1 as (B1&B2&B3&B4&B5), A2 as (C1&C2&C3&C4), A3 as (D1&D2&D3&D4).
  repeat (split; [congruence|]). intros to Ht. rewrite D4, C4. auto.
Qed.
Lemma not_plain_peers o n n' out : ~ plain o -> n_step o n = Ok (n', out) ->
  r_state (rn_raft n') = r_state (rn_raft n) /\ r_term (rn_raft n') = r_term (rn_raft n) /\
  r_cfg (rn_raft n') = r_cfg (rn_raft n) /\ t_max_inflight (r_trk (rn_raft n')) = t_max_inflight (r_trk (rn_raft n)) /\
  forall to, to <> r_id (rn_raft n) -> trk_get to (r_trk (rn_raft n')) = trk_get to (r_trk (rn_raft n)).
Proof.
  intros Hp H. destruct o; try (exfalso; apply Hp; exact I); cbn [n_step] in H; try (apply Ok_inj, pair_equal_spec in H; destruct H as [<- _]; repeat split; auto; fail); apply bind_ok in H.
  - destruct H as ([n1 rd] & H & Hx). inv Hx. apply get_ready_inv in H. destruct H as (_ & -> & _). repeat split; auto.
  - destruct H as (n1 & H & Hx). inv Hx. apply advance_peers; auto.
  - destruct H as ([n1 rd] & H & Hx). inv Hx. unfold n_handle in H. apply bind_ok in H. destruct H as ([n2 rd2] & H & H1).
    apply bind_ok in H1. destruct H1 as (s & _ & H1). apply bind_ok in H1. destruct H1 as (n3 & H1 & Hx). inv Hx.
    apply get_ready_inv in H. destruct H as (_ & H & _). apply advance_peers in H1. cbn in H1. rewrite H in H1. exact H1.
  - destruct H as ([s e] & H & Hx). inv Hx. repeat split; auto.
  - destruct H as ([s e] & H & Hx). inv Hx. repeat split; auto.
Qed.

(* ---- the window of every peer of a leader ---- *)
Definition maxinf (r : raft) : N := t_max_inflight (r_trk r).
Lemma maxinf_prim im r r' : prim im r r' -> maxinf r' = maxinf r.
Proof.
  intros H. unfold maxinf.
  destruct H as [r' Kp|r' Hl S|m Hm|t l Ht _|r' Hcd|r' Hcd|Hs|Hs|to lt ctx Hs Hlt Hz|Ht Hm Hz Hv Hu|r' Hs Hv Hb|
                 es r1 r' Hs Ht He Hf Ha|p p' Hs Ht Hr Hm Hg Hx Hy Hlr|r' b Hs Hcd|Hg Hm Hs|l last Ht Hm Hs Hcd Ha|
                 l Ht Hm Hs Hcd|l Ht Hm Hs Hcd Hmt Hct|r1 Ht Hm Hs Hr]; try reflexivity.
  - apply Kp.
  - apply S.
  - hide (become_follower t l r) r0 E0. apply become_follower_fields in E0. decompose [and] E0. assumption.
  - apply become_candidate_all in Hcd. decompose [and] Hcd. assumption.
  - apply become_pre_all in Hcd. decompose [and] Hcd. assumption.
  - unfold poll, trk_record_vote. cbn [fst]. destruct (mget _ _); reflexivity.
  - unfold poll, trk_record_vote. cbn [fst]. destruct (mget _ _); reflexivity.
  - apply become_leader_all in Hb. decompose [and] Hb. assumption.
  - pose proof (prop_fields _ _ _ _ _ Hf Ha) as X. decompose [and] X. assumption.
  - apply raft_commit_fields in Hcd. decompose [and] Hcd. congruence.
  - apply restore_inv in Hr; auto. destruct Hr as (_ & _ & _ & cp & pr & pr' & b & Hc & _ & Hg & Hu & ->). reflexivity.
Qed.
Lemma maxinf_aprs a b : aprs a b -> maxinf (snd b) = maxinf (snd a).
Proof.
  intros H. induction H as [|a b c H _ IH]; auto. rewrite IH. destruct H; try reflexivity.
  - cbn. eapply maxinf_prim; eauto.
  - cbn [snd]. apply append_entry_fields in H0. destruct H0 as (l1 & p & u' & ->). reflexivity.
Qed.

Definition winv (r : raft) : Prop := r_state r = RLeader ->
  forall to p, to <> r_id r -> trk_get to (r_trk r) = Some p -> pwin (maxinf r) p.
Lemma pwin_pact K p p' : pact p p' -> pwin K p -> pwin K p'.
Proof. intros [b ->] [[A Z] [q B]]. split; [split; [exact A|exact Z]|]. exists q. apply win_active; auto. Qed.
Lemma pwin_rin K m p p' : rin m p p' -> pwin K p -> pwin K p'.
Proof. intros H [[A Z] [q B]]. destruct (rin_win _ _ _ _ H B) as (C & q' & D & _). split; [split; [congruence|eapply nz_rin; eauto]|eauto]. Qed.
Lemma pwin_flow K to ms p p' : pflow to p ms p' -> (forall m, In m ms -> m_type m = MsgApp -> appgood m) -> pwin K p -> pwin K p'.
Proof. intros H Hg [[A Z] [q B]]. destruct (pflow_win _ _ _ _ H Hg _ B) as (C & q' & D & _). split; [split; [congruence|eapply nz_flow; eauto]|eauto]. Qed.
Lemma lfl_win m r r' : lfl m r r' -> lwf (r_log r') -> r_state r = RLeader -> winv r -> winv r'.
Proof.
  intros (r1 & new & T & F & M & Hs & Hlog & Hc & Hk & Hg) Hw Hl I _ to p Hto Hp. destruct T as [T1 T2 T3 T4 T5 T6 _].
  assert (Hid : r_id r' = r_id r) by (unfold r_id; congruence). unfold maxinf in *. rewrite Hk, T5.
  specialize (T6 to ltac:(congruence)). specialize (Hg to p Hp). specialize (I Hl to).
  destruct (trk_get to (r_trk r1)) as [p1|] eqn:G1; [|congruence]. clear Hg. destruct (F to p1 new G1 M) as (p' & G2 & P). assert (p' = p) by congruence. subst p'.
  destruct (trk_get to (r_trk r)) as [p0|] eqn:G0; [|contradiction]. specialize (I p0 ltac:(congruence) eq_refl).
  eapply pwin_flow; [exact P| |].
  - intros x Hx Ht. eapply smsg_app_good; [|apply Hs; [exact Hx|left; exact Ht]|exact Ht]. rewrite <- Hlog. auto.
  - destruct T6 as [T6|[_ T6]]; [eapply pwin_pact; eauto|eapply pwin_rin; eauto].
Qed.
Lemma lead_fresh r r' : become_leader r = Ok r' -> forall to p, to <> r_id r' -> trk_get to (r_trk r') = Some p ->
  exists b, p = new_progress (r_last r + 1) 0 (maxinf r) b false.
Proof.
  intros Hb. apply become_leader_inv in Hb. destruct Hb as (pr & r1 & u & _ & B1 & B2 & ->).
  intros id p Hn Hg. change (id <> r_id r1) in Hn. change (mget id (t_progress (r_trk r1)) = Some p) in Hg. clear B1.
  hide (reset (r_term r) r) r0 Er0. destruct (reset_more _ _ _ Er0) as (_&_&_&_&_&_&_&_&R&_).
  destruct (reset_fields _ _ _ Er0) as (R1&_). clear Er0.
  hide (lead_base pr r0) rb Erb. apply lead_base_fields in Erb. destruct Erb as (L1 & L2).
  pose proof B2 as B3. apply append_entry_fields in B3. destruct B3 as (l & q & u' & B3).
  assert (Hid : r_id r1 = r_id r). { rewrite B3. unfold r_id. cbn. congruence. }
  assert (Hid2 : r_id rb = r_id r /\ r_id r0 = r_id r) by (unfold r_id; split; congruence). clear B3. destruct Hid2 as [I1 I2].
  rewrite (append_peer _ _ _ id B2) in Hg by congruence. clear B2.
  rewrite L2, mget_mset in Hg. destruct (N.eqb_spec id (r_id r0)); [congruence|].
  rewrite R, mget_mmap in Hg. destruct (mget id (t_progress (r_trk r))) as [p0|]; [|discriminate]. cbn in Hg. inv Hg.
  destruct (N.eqb_spec id (r_id r)); [congruence|]. unfold maxinf. eauto.
Qed.
Lemma lead_winv r r' : become_leader r = Ok r' -> winv r'.
Proof.
  intros H _ to p Hto Hg. destruct (lead_fresh _ _ H _ _ Hto Hg) as [b ->].
  apply become_leader_all in H. destruct H as (_&_&_&_&_&_&_&_&_&HK). unfold maxinf. rewrite HK. apply new_win.
Qed.
Lemma sends_winv r r' : sends r r' -> lwf (r_log r') -> r_state r = RLeader -> winv r -> winv r'.
Proof. intros S. apply (lfl_win (new_msg MsgHup)). apply lflow_lfl, lflow_sends. auto. Qed.
Lemma switched_winv o r r0 : switched o r r0 -> r_state r0 = r_state r /\ (winv r -> winv r0).
Proof.
  intros [->|(cc & cp & b & op & -> & Ho & ->)]; auto. split; auto. intros I Hl to p Hto Hg. cbn in Hl, Hto. unfold maxinf. cbn.
  unfold trk_get in Hg. cbn in Hg. apply call_ev in Ho. destruct (Ho to p Hg) as [(q & x & Q1 & ->)|[x ->]]; [|apply new_win].
  specialize (I Hl to q Hto Q1). destruct I as [I1 [w I2]]. split; auto. exists w. apply win_learner; auto.
Qed.
Theorem n_step_winv o n n' out : nop_ok o n -> dinv n -> vself (rn_raft n) -> n_step o n = Ok (n', out) ->
  winv (rn_raft n) -> winv (rn_raft n').
Proof.
  intros Hk D V H I Hl. destruct (plain_dec o) as [Hp|Hp].
  - pose proof (ni_log _ (di_ninv _ (proj1 (n_step_dinv _ _ _ _ Hk H D)))) as LI. apply li_wf in LI. revert Hl.
    assert (C : (exists cc, o = NApplyCC cc) \/ forall cc, o <> NApplyCC cc) by (destruct o; try (right; discriminate); left; eauto).
    assert (Same : r_state (rn_raft n) = RLeader -> r_term (rn_raft n') = r_term (rn_raft n) -> r_state (rn_raft n') = RLeader -> winv (rn_raft n')).
    { intros L T L'. destruct (n_step_flow _ _ _ _ Hp (proj1 Hk) V H L L' T) as (r0 & m & im & S & _ & _ & F).
      destruct (switched_winv _ _ _ S) as [S1 S2]. eapply lfl_win; eauto. congruence. }
    destruct C as [[cc ->]|C].
    + intros Hl. revert Hl. assert (K : r_state (rn_raft n') = r_state (rn_raft n) /\ r_term (rn_raft n') = r_term (rn_raft n)).
      { destruct (n_step_qprs _ _ _ _ Hp (proj1 Hk) H) as (r0 & _ & _).
        cbn [n_step] in H. apply bind_ok in H. destruct H as ([n1 cs1] & H & Hx). inv Hx. unfold rn_apply_conf_change in H. apply bind_ok in H. destruct H as (v2 & _ & H).
        apply bind_ok in H. destruct H as ([r cs] & H & Hx). inv Hx. cbn in *.
        unfold raft_apply_conf_change in H. apply bind_ok in H. destruct H as ([cp|] & Hc & H); [|discriminate].
        clear - H. revert H. unfold switch_to_config. cbv zeta.
        match goal with |- context[set_r_learner ?b ?x] => set (r1 := set_r_learner b x) end.
        assert (A : r_state r1 = r_state (rn_raft n) /\ r_term r1 = r_term (rn_raft n)) by (split; reflexivity).
        clearbody r1. intros H. destruct (_ && is_leader r1) in H; [inv H; auto|]. destruct (_ || _) in H; [inv H; auto|].
        apply bind_ok in H. destruct H as (ra & H & Hx). inv Hx.
        unfold switch_leader in H. apply bind_ok in H. destruct H as ([r2 com] & H1 & H).
        apply raft_maybe_commit_state in H1. destruct H1 as [l ->]. apply bind_ok in H. destruct H as (r3 & H2 & H).
        assert (S : sends (set_r_log l r1) r3).
        { destruct com; [apply bcast_append_sends; auto|]. apply (mfold_inv _ sends) in H2; auto using sends_refl; [intros; eapply sends_trans; eauto|].
          intros a s s' _ Hs. apply bind_ok in Hs. destruct Hs as ([r5 b] & Hs & Hx). inv Hx. eapply maybe_send_append_sends; eauto. }
        pose proof (sd_same _ _ S) as []. cbn in *. destruct (_ && _) in H; inv H; cbn; split; destruct A; congruence. }
      destruct K as [K1 K2]. intros Hl. apply Same; auto. congruence.
    + intros Hl. destruct (n_step_leads _ _ _ _ Hp H C Hl) as [[L T]|(a & b & A1 & A2 & A3 & A4 & A5 & A6 & A7 & A8)]; [apply Same; auto|].
      assert (r_state b = RLeader) by (apply become_leader_all in A7; decompose [and] A7; auto).
      eapply sends_winv; eauto. eapply lead_winv; eauto.
  - destruct (not_plain_peers _ _ _ _ Hp H) as (P1 & P2 & P3 & P4 & P5). intros to p Hto Hg. unfold r_id in *. rewrite P3 in Hto. rewrite P5 in Hg by auto.
    unfold maxinf. rewrite P4. apply (I ltac:(congruence) to p); auto.
Qed.
End FlowRun.
