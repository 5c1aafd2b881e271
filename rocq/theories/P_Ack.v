(** A leader's Match values come from acknowledgements it received in its term. *)
From Verif Require Import Prelude Types M_Util M_Quorum M_Inflights M_Progress M_Tracker.
From Verif Require Import M_Storage M_Unstable M_Log M_ReadOnly M_ConfPb M_ConfChange M_Raft M_RawNode.
From Verif Require Import P_Inflights Spec_Log P_Lists P_Storage P_Log Spec_Storage Sys_Storage P_StorageSeq Spec_RaftLog Sys_RaftLog P_RaftLogSeq.
From Verif Require Import P_Frame P_Prim Sys_Node Sys_ConfChange P_Node P_Fields P_Vote Spec_Node P_Persist P_New P_NodeLog P_Handle P_NodeRun P_Emit.

Section Ack.
Context {E : Env}.

(* ---- configuration changes invent no acknowledgement ---- *)
Definition mfrom (a b : nmap progress) : Prop :=
  forall id p', mget id b = Some p' -> p_match p' = 0 \/ exists p, mget id a = Some p /\ p_match p' = p_match p.
Lemma mfrom_refl a : mfrom a a. Proof. intros id p H. right. eauto. Qed.
Lemma mfrom_trans a b c : mfrom a b -> mfrom b c -> mfrom a c.
Proof.
  intros H1 H2 id p H. destruct (H2 id p H) as [Z|(q & Q1 & Q2)]; auto.
  destruct (H1 id q Q1) as [Z|(s & S1 & S2)]; [left; congruence|right; exists s; split; auto; congruence].
Qed.
Lemma mfrom_set a b id p : mfrom a b -> (p_match p = 0 \/ exists q, mget id b = Some q /\ p_match p = p_match q) ->
  mfrom a (mset id p b).
Proof.
  intros H Hp. eapply mfrom_trans; [exact H|]. intros j q Hj. rewrite mget_mset in Hj. destruct (N.eqb_spec j id) as [->|]; [inv Hj; auto|].
  right. eauto.
Qed.
Lemma mfrom_del b id : mfrom b (mdel id b).
Proof. intros j q Hj. rewrite mget_mdel in Hj. destruct (N.eqb_spec j id); [discriminate|]. right; eauto. Qed.
Lemma init_from ch id b cp : mfrom (snd cp) (snd (init_progress ch id b cp)).
Proof. destruct cp as [c p]. cbn. apply mfrom_set; [apply mfrom_refl|]. left. reflexivity. Qed.
Lemma remove_from id cp : mfrom (snd cp) (snd (remove_node id cp)).
Proof.
  destruct cp as [c p]. unfold remove_node. destruct (mget id p); [|apply mfrom_refl]. cbn [snd].
  match goal with |- context[if ?b then _ else _] => destruct b end; [apply mfrom_refl|apply mfrom_del].
Qed.
Lemma voter_from ch id cp : mfrom (snd cp) (snd (make_voter ch id cp)).
Proof.
  destruct cp as [c p]. unfold make_voter. destruct (mget id p) as [q|] eqn:Hg; [|apply (init_from ch id false (c, p))].
  cbn. apply mfrom_set; [apply mfrom_refl|]. right. exists q. auto.
Qed.
Lemma learner_from ch id cp : mfrom (snd cp) (snd (make_learner ch id cp)).
Proof.
  destruct cp as [c p]. unfold make_learner. destruct (mget id p) as [q|] eqn:Hg; [|apply (init_from ch id true (c, p))].
  destruct (p_learner q); [apply mfrom_refl|]. pose proof (remove_from id (c, p)) as HR.
  destruct (remove_node id (c, p)) as [c' p'] eqn:Hr. cbn [snd] in *.
  assert (Hx : forall q', p_match q' = p_match q -> mfrom p (mset id q' p')).
  { intros q' Hq j x Hj. rewrite mget_mset in Hj. destruct (N.eqb_spec j id) as [->|]; [inv Hj; right; eauto|]. apply HR; auto. }
  destruct (smem id (tc_outgoing c')); cbn; apply Hx; auto.
Qed.
Lemma one_from ch cc cp : mfrom (snd cp) (snd (apply_one ch cc cp)).
Proof.
  unfold apply_one. destruct (cc_node cc =? 0); [apply mfrom_refl|]. destruct (cc_type cc);
    [apply voter_from|apply remove_from|apply mfrom_refl|apply learner_from].
Qed.
Lemma apply_from ch ccs cp cp' : ch_apply ch ccs cp = SOk cp' -> mfrom (snd cp) (snd cp').
Proof.
  unfold ch_apply. destruct (is_nil _); [discriminate|]. intros H; inv H.
  revert cp. induction ccs as [|cc t IH]; intros cp; [apply mfrom_refl|]. cbn [fold_left].
  eapply mfrom_trans; [apply one_from|apply IH].
Qed.
Lemma promote_from ids : forall cp cp', promote_next ids cp = Ok cp' -> mfrom (snd cp) (snd cp').
Proof.
  induction ids as [|id t IH]; intros [c p] cp' H; cbn in H; [inv H; apply mfrom_refl|].
  destruct (mget id p) as [q|] eqn:Hg; [|discriminate]. apply IH in H. cbn [snd] in *.
  eapply mfrom_trans; [|exact H]. apply mfrom_set; [apply mfrom_refl|]. right. exists q. auto.
Qed.
Lemma dels_from (f : N -> bool) ids : forall p, mfrom p (fold_left (fun acc id => if f id then mdel id acc else acc) ids p).
Proof.
  induction ids as [|id t IH]; intros p; [apply mfrom_refl|]. cbn [fold_left]. eapply mfrom_trans; [|apply IH].
  destruct (f id); [apply mfrom_del|apply mfrom_refl].
Qed.
Lemma cac_eq ch c p : check_and_copy ch = SOk (c, p) -> p = t_progress (ch_trk ch).
Proof. unfold check_and_copy, check_and_return. destruct (check_invariants _ _); [discriminate|]. intros H; inv H; auto. Qed.
Lemma car_eq cp cp' : check_and_return cp = SOk cp' -> cp' = cp.
Proof. unfold check_and_return. destruct (check_invariants _ _); [discriminate|]. intros H; inv H; auto. Qed.
Lemma call_from o ch cp : cc_call o ch = Ok (SOk cp) -> mfrom (t_progress (ch_trk ch)) (snd cp).
Proof.
  destruct o as [ccs|al ccs|]; cbn [cc_call]; intros H.
  - apply Ok_inj in H. unfold ch_simple in H. destruct (check_and_copy ch) as [[c p]|] eqn:H0; [|discriminate]. apply cac_eq in H0. subst p.
    destruct (tc_joint c); [discriminate|]. destruct (ch_apply ch ccs _) as [[c' p']|] eqn:H1; [|discriminate].
    destruct (_ <? _); [discriminate|]. apply car_eq in H. subst cp. apply apply_from in H1. exact H1.
  - apply Ok_inj in H. unfold ch_enter_joint in H. destruct (check_and_copy ch) as [[c p]|] eqn:H0; [|discriminate]. apply cac_eq in H0. subst p.
    destruct (tc_joint c); [discriminate|]. destruct (is_nil _); [discriminate|].
    destruct (ch_apply ch ccs _) as [[c' p']|] eqn:H1; [|discriminate].
    apply car_eq in H. subst cp. apply apply_from in H1. exact H1.
  - unfold ch_leave_joint in H. destruct (check_and_copy ch) as [[c p]|] eqn:H0; [|inv H]. apply cac_eq in H0. subst p.
    destruct (negb (tc_joint c)); [inv H|]. apply bind_ok in H. destruct H as ([c' p'] & H1 & H). apply Ok_inj in H.
    apply car_eq in H. subst cp. apply promote_from in H1. cbn [snd] in *.
    eapply mfrom_trans; [exact H1|]. exact (dels_from (fun id => negb (smem id (tc_incoming (set_tc_learners_next [] c'))) && negb (smem id (tc_learners (set_tc_learners_next [] c')))) _ _).
Qed.

(* ---- the invariant ---- *)
Section Inv.
Variable A : N -> N -> N -> Prop. (* in term t, id acknowledged i *)
Definition ackinv (r : raft) : Prop := r_state r = RLeader ->
  forall id p, id <> r_id r -> mget id (t_progress (r_trk r)) = Some p -> p_match p = 0 \/ A (r_term r) id (p_match p).

Lemma ackinv_eq r r' : r_cfg r' = r_cfg r -> r_term r' = r_term r -> r_state r' = r_state r ->
  (forall id, id <> r_id r -> option_map p_match (mget id (t_progress (r_trk r'))) = option_map p_match (mget id (t_progress (r_trk r)))) ->
  ackinv r -> ackinv r'.
Proof.
  intros H1 H2 H3 H4 H Hl id p Hn Hg. unfold ackinv, r_id in *. rewrite H1 in Hn. specialize (H4 id Hn). rewrite Hg in H4. cbn in H4.
  destruct (mget id (t_progress (r_trk r))) as [q|] eqn:Hq; [|discriminate]. cbn in H4. inversion H4 as [H5]. rewrite H2, H5.
  apply (H ltac:(congruence) id q); auto.
Qed.
Lemma ackinv_nl r : r_state r <> RLeader -> ackinv r. Proof. intros H X. tauto. Qed.

Lemma append_peers es r r' id : append_entry es r = Ok (Some r') -> id <> r_id r ->
  mget id (t_progress (r_trk r')) = mget id (t_progress (r_trk r)).
Proof.
  intros H Hn. apply append_entry_fields in H. destruct H as (l & p & u & ->). cbn. rewrite mget_mset.
  destruct (N.eqb_spec id (r_id r)); [tauto|auto].
Qed.
Lemma lead_base_fields pr r r' : r' = lead_base pr r -> r_cfg r' = r_cfg r /\
  t_progress (r_trk r') = mset (r_id r) (pr_become_replicate pr) (t_progress (r_trk r)).
Proof. intros ->. split; reflexivity. Qed.
Lemma lead_ack r r' : become_leader r = Ok r' -> ackinv r'.
Proof.
  intros Hb. apply become_leader_inv in Hb. destruct Hb as (pr & r1 & u & _ & B1 & B2 & ->).
  intros _ id p Hn Hg. left. change (id <> r_id r1) in Hn. change (mget id (t_progress (r_trk r1)) = Some p) in Hg. clear B1.
  hide (reset (r_term r) r) r0 Er0. destruct (reset_more _ _ _ Er0) as (_&_&_&_&_&_&_&_&R&_).
  destruct (reset_fields _ _ _ Er0) as (R1&_). clear Er0.
  hide (lead_base pr r0) rb Erb. apply lead_base_fields in Erb. destruct Erb as (L1 & L2).
  pose proof B2 as B3. apply append_entry_fields in B3. destruct B3 as (l & q & u' & B3).
  assert (Hid : r_id r1 = r_id r). { rewrite B3. unfold r_id. cbn. congruence. }
  assert (Hid2 : r_id rb = r_id r /\ r_id r0 = r_id r) by (unfold r_id; split; congruence). clear B3. destruct Hid2 as [I1 I2].
  rewrite (append_peers _ _ _ id B2) in Hg by congruence. clear B2.
  rewrite L2, mget_mset in Hg. destruct (N.eqb_spec id (r_id r0)); [congruence|]. rewrite R, mget_mmap in Hg.
  destruct (mget id (t_progress (r_trk r))); [|discriminate]. cbn in Hg. destruct (N.eqb_spec id (r_id r)); [congruence|]. inv Hg. reflexivity.
Qed.
Lemma prim_ack im r r' :
  (m_type im = MsgAppResp -> m_reject im = false -> A (m_term im) (m_from im) (m_index im)) ->
  ackinv r -> prim im r r' -> ackinv r'.
Proof.
  intros HA HI Hp. revert HI. destruct Hp as [r' HK|r' Hs HS|m Hm|t l Ht Hl|r' Hc|r' Hc|Hs|Hs|to lt ctx Hs Hlt Hz|Ht Hmt Hz Hv Hu|r' Hs Hw Hb|es r1 r' Hs Ht Hne Hf Ha|p p' Hs Ht Hr Hmt Hg H1 H2 H3 H4 H5|r' b Hs Hc|Ht Hmt Hs|l last Ht Hmt Hs Hc Ha|l Ht Hmt Hs Hc|l Ht Hmt Hs Hc Hm Hl|r1 Ht Hmt Hs Hr]; intros HI.
  - apply (ackinv_eq r); try apply HK; auto. intros id _. pose proof (kp_prs _ _ HK) as [_ X]. specialize (X id).
    destruct (mget id (t_progress (r_trk r))), (mget id (t_progress (r_trk r'))); try tauto. destruct X as [X _]. cbn. congruence.
  - apply (ackinv_eq r); try apply (sd_same _ _ HS); auto. intros id _. pose proof (sd_prs _ _ HS) as [_ X]. specialize (X id).
    destruct (mget id (t_progress (r_trk r))), (mget id (t_progress (r_trk r'))); try tauto. destruct X as [X _]. cbn. congruence.
  - exact HI.
  - apply ackinv_nl. unfold become_follower. cbn. discriminate.
  - apply ackinv_nl. apply become_candidate_fields in Hc. destruct Hc as [-> _]. discriminate.
  - apply ackinv_nl. apply become_pre_all in Hc. destruct Hc as (_&_&_&_&_&Hc&_). congruence.
  - apply ackinv_nl. rewrite poll_state. destruct Hs as [->|[-> _]]; discriminate.
  - apply ackinv_nl. rewrite poll_state. destruct Hs as [[-> _]|[-> _]]; discriminate.
  - exact HI.
  - exact HI.
  - eapply lead_ack; eauto.
  - apply filter_prop_fields in Hf. destruct Hf as [k ->]. destruct Ha as [Ha|[_ ->]]; [|exact HI].
    pose proof (append_entry_fields _ _ _ Ha) as (l & q & u & E0).
    apply (ackinv_eq r); try (rewrite E0; reflexivity); auto. intros id Hn. rewrite (append_peers _ _ _ id Ha); auto.
  - intros Hl id q Hn Hgq. cbn in Hn, Hgq |- *. rewrite mget_mset in Hgq. destruct (N.eqb_spec id (m_from im)) as [->|].
    + inv Hgq. right. rewrite H2, <- Hmt. apply HA; auto.
    + apply HI; auto.
  - apply raft_maybe_commit_state in Hc. destruct Hc as [l ->]. exact HI.
  - exact HI.
  - exact HI.
  - exact HI.
  - exact HI.
  - apply ackinv_nl. apply restore_fields in Hr; auto. cbn. destruct Hr as (_&_&_&_&X&_). congruence.
Qed.
Lemma qprs_ack (Q : msg -> Prop) a b : (forall im, Q im -> m_type im = MsgAppResp -> m_reject im = false -> A (m_term im) (m_from im) (m_index im)) ->
  ackinv a -> qprs Q a b -> ackinv b.
Proof. intros HA HI H. revert HI. apply (qprs_ind_inv Q ackinv); auto. intros. eapply prim_ack; eauto. Qed.
Lemma switched_ack o r r0 : switched o r r0 -> ackinv r -> ackinv r0.
Proof.
  intros [->|(cc & cp & b & op & _ & Hc & ->)] HI; auto. intros Hl id p Hn Hg. cbn in Hl, Hn, Hg |- *.
  apply call_from in Hc. destruct (Hc id p Hg) as [Z|(q & Q1 & Q2)]; auto. rewrite Q2. apply HI; auto.
Qed.
Lemma advance_ack n n' : rn_advance n = Ok n' -> ackinv (rn_raft n) -> ackinv (rn_raft n').
Proof.
  unfold rn_advance. destruct (rn_ready n) as [rd|]; [|discriminate]. intros H HI. apply bind_ok in H. destruct H as (ra & H & Hx). inv Hx. cbn [rn_raft].
  unfold raft_advance in H. destruct (reduce_uncommitted_fields (rd_committed rd) (rn_raft n)) as [u Hu]. rewrite Hu in H.
  apply bind_ok in H. destruct H as (r1 & H1 & H). apply bind_ok in H. destruct H as (r2 & H2 & H).
  assert (I1 : ackinv r1).
  { destruct (0 <? applied_cursor rd); [|inv H1; exact HI]. apply bind_ok in H1. destruct H1 as (l & _ & H1).
    unfold maybe_auto_leave in H1. match type of H1 with (if ?b then _ else _) = _ => destruct b end; [|inv H1; exact HI].
    apply bind_ok in H1. destruct H1 as ([r3|] & H3 & H1); [|discriminate]. inv H1.
    pose proof (append_entry_fields _ _ _ H3) as (l' & q & u' & E0).
    apply (ackinv_eq (rn_raft n)); try (rewrite E0; reflexivity); auto. intros id Hn. cbn. rewrite (append_peers _ _ _ id H3); auto. }
  assert (I2 : ackinv r2).
  { destruct (rev (rd_ents rd)); [inv H2; auto|]. apply bind_ok in H2. destruct H2 as (lx & _ & H2). inv H2. exact I1. }
  destruct (_ =? 0); inv H; exact I2.
Qed.
Theorem n_step_ack o n n' out : nop_wf o ->
  (forall m, o = NStep m -> m_type m = MsgAppResp -> m_reject m = false -> A (m_term m) (m_from m) (m_index m)) ->
  n_step o n = Ok (n', out) -> ackinv (rn_raft n) -> ackinv (rn_raft n').
Proof.
  intros Hw HA H HI. destruct (plain_dec o) as [Hp|Hp].
  - destruct (n_step_qprs _ _ _ _ Hp Hw H) as (r0 & S & Q). refine (qprs_ack _ _ _ _ (switched_ack _ _ _ S HI) Q).
    intros im Hc Ht Hr. assert (Hd : (exists m, o = NStep m) \/ forall m, o <> NStep m) by (destruct o; eauto; right; discriminate).
    destruct Hd as [[m ->]|Hd]; [cbn in Hc; subst; eauto|]. destruct (call_msg_local _ _ _ Hc Hd) as [_ L]. rewrite Ht in L. discriminate.
  - destruct o; try (exfalso; apply Hp; exact I); cbn [n_step] in H.
    + apply bind_ok in H. destruct H as ([n1 rd] & H & Hx). inv Hx. apply get_ready_inv in H. destruct H as (_ & -> & _). exact HI.
    + apply bind_ok in H. destruct H as (n1 & H & Hx). inv Hx. eapply advance_ack; eauto.
    + inv H. exact HI.
    + apply bind_ok in H. destruct H as ([n1 rd] & H & Hx). inv Hx. unfold n_handle in H.
      apply bind_ok in H. destruct H as ([n2 rd2] & H & H1). apply bind_ok in H1. destruct H1 as (s & _ & H1).
      apply bind_ok in H1. destruct H1 as (n3 & H1 & Hx). inv Hx. eapply advance_ack; [exact H1|].
      apply get_ready_inv in H. destruct H as (_ & H & _). cbn. rewrite H. exact HI.
    + apply bind_ok in H. destruct H as ([s e] & H & Hx). inv Hx. exact HI.
    + apply bind_ok in H. destruct H as ([s e] & H & Hx). inv Hx. exact HI.
Qed.
End Inv.
End Ack.
