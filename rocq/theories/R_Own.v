(** A leader sends nothing to itself, also when it applies a membership change that leaves the voters
    alone. *)
From Coq Require Import Permutation.
From Verif Require Import Prelude Types M_Util M_Quorum M_Inflights M_Progress M_Tracker.
From Verif Require Import M_Storage M_Unstable M_Log M_ReadOnly M_ConfPb M_ConfChange M_Raft M_RawNode.
From Verif Require Import Spec_Inflights P_Inflights Spec_Log P_Lists P_RaftLogSeq P_Log P_Frame P_Prim Sys_Node P_Node P_Fields P_Vote Spec_Node P_New P_NodeLog P_Time P_Handle P_NodeRun P_Emit P_Lead P_Transfer P_Ack P_Flow P_Window P_FlowRun.
From Verif Require Import Spec_ConfChange Sys_ConfChange P_ConfChange P_Conf Prop_ConfChange P_Commit Sys_Cluster R_Switch P_Self R_Elig R_Self.

Section ROwn.
Context {E : Env}.

Definition own (r : raft) : Prop := smn r /\ (r_state r = RLeader -> selfm r).

Lemma n_step_own o n n' out : nop_ok o n -> dinv n -> vself (rn_raft n) -> n_step o n = Ok (n', out) -> (forall cc, o <> NApplyCC cc) ->
  (forall m, o = NStep m -> kmsg m -> m_from m <> r_id (rn_raft n)) -> own (rn_raft n) -> own (rn_raft n').
Proof.
  intros Hk D V H C Hm [I1 I2]. split; [eapply n_step_smn; eauto|]. intros Hl.
  destruct (n_step_cm _ _ _ _ Hk D H Hl C) as [(A & B & N)|(_ & _ & S & _)]; auto. apply (nc_self _ _ _ N). auto.
Qed.

(** The call ApplyConfChange makes on the Changer. *)
Definition single (op : ccop) : Prop := match op with OpSimple ccs => exists c, ccs = [c] | _ => True end.
Lemma apply_call cc n n' c : rn_apply_conf_change cc n = Ok (n', c) ->
  exists cp op, single op /\ cc_call op (mkChanger (r_trk (rn_raft n)) (r_last (rn_raft n))) = Ok (SOk cp) /\
    switch_to_config cp (rn_raft n) = Ok (rn_raft n', c).
Proof.
  intros H. unfold rn_apply_conf_change in H. mon. destruct x0 as [r cs']. mon. cbn.
  unfold raft_apply_conf_change in Hm0. mon. destruct x0 as [cp|]; [|discriminate]. exists cp.
  unfold leave_joint, enter_joint in Hm1. destruct (is_nil (c2_changes x) && _) eqn:Hlj; [exists OpLeave; split; [exact Logic.I|auto]|].
  match type of Hm1 with (let '(_, _) := if ?b then _ else _ in _) = _ => destruct b eqn:Hj end.
  - exists (OpEnter (match c2_trans x with TrJointExplicit => false | _ => true end) (c2_changes x)). split; [exact Logic.I|].
    split; [cbn [cc_call]; destruct (c2_trans x); exact Hm1|exact Hm0].
  - exists (OpSimple (c2_changes x)). split; [|split; [exact Hm1|exact Hm0]]. cbn. destruct (c2_changes x) as [|a [|b t]]; [|eauto|].
    + destruct (c2_trans x); cbn in Hj, Hlj; discriminate.
    + rewrite !nlen_cons in Hj. apply orb_false_iff in Hj. destruct Hj as [_ Hj]. apply N.ltb_ge in Hj. lia.
Qed.

Lemma simple_kept ch c c' prs' id p : ch_wf ch -> ch_simple [c] ch = SOk (c', prs') -> In id (tc_incoming c') ->
  mget id (t_progress (ch_trk ch)) = Some p -> exists b, mget id prs' = Some (set_p_learner b p).
Proof.
  intros W H Hin Hp. destruct (C21_simple_change _ _ _ _ W H) as (_ & _ & [A _ _] & _ & K & _).
  apply A in Hin. destruct (last_change id [c]) as [t|] eqn:Hl.
  - subst t. unfold last_change in Hl. cbn in Hl. destruct (concerns id c) eqn:Hc; [|discriminate]. injection Hl as Ht.
    unfold concerns in Hc. apply andb_true_iff in Hc. destruct Hc as [Hc _]. apply andb_true_iff in Hc. destruct Hc as [H1 H2].
    apply N.eqb_eq in H1. apply negb_true_iff in H2.
    unfold ch_simple in H. destruct (check_and_copy ch) as [[c0 p0]|] eqn:H0; [|discriminate]. apply cac_eq in H0. subst p0.
    destruct (tc_joint c0); [discriminate|]. destruct (ch_apply ch [c] _) as [[c1 p1]|] eqn:Ha; [|discriminate].
    destruct (_ <? _); [discriminate|]. apply car_eq in H. injection H as -> ->.
    unfold ch_apply in Ha. cbn [fold_left] in Ha. unfold apply_one in Ha. rewrite H1, H2, Ht in Ha. unfold make_voter in Ha. rewrite Hp in Ha. cbn [fst] in Ha.
    destruct (is_nil _); [discriminate|]. injection Ha as <- <-. exists false. rewrite mget_mset, N.eqb_refl. reflexivity.
  - exists (p_learner p). rewrite (K _ Hl), Hp. f_equal. apply set_learner_same.
Qed.

Lemma msa_quiet to r r' b p : trk_get to (r_trk r) = Some p -> r_last r < p_next p -> maybe_send_append to false r = Ok (r', b) -> r' = r.
Proof.
  intros Hg Hn H. unfold maybe_send_append in H. rewrite Hg in H. destruct (pr_is_paused p); [inv H; auto|].
  apply bind_ok in H. destruct H as (t & _ & H). unfold log_entries in H.
  assert (X : log_last (r_log r) <? p_next p = true) by (apply N.ltb_lt; exact Hn). rewrite X in H. cbn in H. inv H. auto.
Qed.
Lemma own_last r p : own r -> r_state r = RLeader -> trk_get (r_id r) (r_trk r) = Some p -> r_last r < p_next p.
Proof. intros [A B] L G. specialize (A L _ G). specialize (B L _ G). lia. Qed.
Lemma sends_own r r' : sends r r' -> lwf (r_log r') -> r_state r = RLeader -> own r -> own r'.
Proof.
  intros S W L [A B]. split; [eapply sends_smn; eauto|]. intros _. eapply selfm_msame; [apply msame_sends; eauto|auto].
Qed.
Lemma visit_own im : forall l r r', mfold (fun id r => '(r', _) <- maybe_send_append id false r ;; Ok r') l r = Ok r' ->
  lwf (r_log r) -> r_state r = RLeader -> own r -> own r' /\ sf im r r'.
Proof.
  induction l as [|a l IH]; intros r r' H W L O; cbn [mfold] in H; [inv H; split; auto using sf_refl|].
  apply bind_ok in H. destruct H as (r1 & H1 & H). apply bind_ok in H1. destruct H1 as ([r2 b] & H1 & Hx). apply Ok_inj in Hx. subst r2.
  assert (S : sends r r1) by (eapply maybe_send_append_sends; eauto).
  assert (W1 : lwf (r_log r1)) by (rewrite (sm_log _ _ (sd_same _ _ S)); auto).
  assert (L1 : r_state r1 = RLeader) by (rewrite (sm_state _ _ (sd_same _ _ S)); auto).
  destruct (IH _ _ H W1 L1 (sends_own _ _ S W1 L O)) as [O' F]. split; auto. eapply sf_trans; [|exact F].
  destruct (N.eq_dec a (r_id r)) as [->|Hne]; [|eapply msa_sf; [left; exact Hne|exact H1]].
  destruct (trk_get (r_id r) (r_trk r)) as [p|] eqn:Hg; [|unfold maybe_send_append in H1; rewrite Hg in H1; discriminate].
  rewrite (msa_quiet _ _ _ _ _ Hg (own_last _ _ O L Hg) H1). apply sf_refl.
Qed.
Lemma switch_own im cp r r' c : switch_to_config cp r = Ok (r', c) -> lwf (r_log r) -> 0 < r_term r \/ r_state r <> RLeader ->
  (forall b, own (switched_to cp b r)) -> own r' /\ sf im r r'.
Proof.
  unfold switch_to_config. cbv zeta.
  match goal with |- context[set_r_learner ?b ?x] => set (b1 := b); change (set_r_learner b1 x) with (switched_to cp b1 r) end.
  intros H W T O. specialize (O b1).
  assert (S0 : sf im r (switched_to cp b1 r)) by (apply sf_eq; reflexivity).
  assert (W1 : lwf (r_log (switched_to cp b1 r))) by exact W.
  assert (T1 : 0 < r_term (switched_to cp b1 r) \/ r_state (switched_to cp b1 r) <> RLeader) by exact T.
  revert H. set (r1 := switched_to cp b1 r) in *. clearbody r1. clear W T.
  destruct (_ && is_leader r1); [intros H; inv H; auto|].
  destruct (negb (is_leader r1) || _) eqn:Hl; [intros H; inv H; auto|]. intros H. apply bind_ok in H. destruct H as (r2 & H & Hx). apply Ok_inj, pair_equal_spec in Hx. destruct Hx as [-> _].
  assert (L1 : r_state r1 = RLeader) by (unfold is_leader in Hl; destruct (r_state r1); cbn in Hl; try discriminate; auto).
  unfold switch_leader in H. apply bind_ok in H. destruct H as ([r2 cm] & H1 & H). apply bind_ok in H. destruct H as (r3 & H2 & H).
  assert (W2 : lwf (r_log r2)) by (destruct T1 as [T1|T1]; [|congruence]; destruct (commit_log_w _ _ _ W1 T1 H1) as (mci & _ & _ & _ & Q & _); exact Q).
  apply commit_last in H1. destruct H1 as [k E2].
  assert (L2 : r_state r2 = RLeader) by (rewrite E2; exact L1).
  assert (O2 : own r2) by (rewrite E2; destruct O as [O1 O2]; split; [exact O1|exact O2]).
  assert (S2 : sf im r r2) by (eapply sf_trans; [exact S0|]; rewrite E2; apply sf_eq; reflexivity).
  assert (X : own r3 /\ sf im r2 r3).
  { destruct cm.
    - assert (S : sends r2 r3) by (eapply bcast_append_sends; eauto). split; [|eapply bcast_append_sf; eauto].
      eapply sends_own; eauto. rewrite (sm_log _ _ (sd_same _ _ S)); auto.
    - eapply visit_own; eauto. }
  destruct X as [O3 S3].
  match type of H with (if ?x then _ else _) = _ => destruct x end; apply Ok_inj in H; subst r'.
  - split; [destruct O3; split; auto|]. eapply sf_trans; [exact S2|]. eapply sf_trans; [exact S3|]. apply sf_eq; reflexivity.
  - split; auto. eapply sf_trans; eauto.
Qed.

Lemma apply_own im cc n n' out : dinv n -> tok (rn_raft n) -> elig (rn_raft n) -> voters_kept (NApplyCC cc) n -> n_step (NApplyCC cc) n = Ok (n', out) ->
  own (rn_raft n) -> own (rn_raft n') /\ sf im (rn_raft n) (rn_raft n').
Proof.
  intros D T El K H O. cbn [n_step] in H. apply bind_ok in H. destruct H as ([n1 c] & H & Hx). apply Ok_inj, pair_equal_spec in Hx. destruct Hx as [<- _].
  cbn [voters_kept] in K. rewrite H in K. destruct (apply_call _ _ _ _ H) as (cp & op & Hs & Hc & Hw).
  destruct (switch_steps _ _ _ _ Hw) as (bb & _ & Ec & _). destruct K as [K1 K2]. rewrite Ec in K1, K2. cbn in K1, K2. clear Ec.
  eapply switch_own; eauto; [apply (ni_log _ (di_ninv _ D))| |].
  { destruct (r_state (rn_raft n)) eqn:Hst; try (right; discriminate). left. apply (ni_term _ (di_ninv _ D)). auto. }
  intros b. set (ch := mkChanger (r_trk (rn_raft n)) (r_last (rn_raft n))) in *.
  assert (W : ch_wf ch) by exact T.
  assert (G : forall p', r_state (rn_raft n) = RLeader -> mget (r_id (rn_raft n)) (snd cp) = Some p' ->
            exists p x, trk_get (r_id (rn_raft n)) (r_trk (rn_raft n)) = Some p /\ p' = set_p_learner x p).
  { intros p' L Hp'. destruct op as [ccs|al ccs|]; cbn in Hs, Hc.
    - destruct Hs as [x ->]. apply Ok_inj in Hc. destruct cp as [c' prs']. cbn [fst snd] in *.
      pose proof (C21_simple_change _ _ _ _ W Hc) as (Q1 & Q2 & _). cbv zeta in Q1. cbn in Q1.
      assert (V : voter_of (rn_raft n)) by (apply El; congruence). destruct V as [V|V]; [|rewrite Q1 in V; destruct V].
      assert (Tr : mget (r_id (rn_raft n)) (t_progress (r_trk (rn_raft n))) <> None) by (apply (cw_trk _ _ T); auto).
      destruct (mget (r_id (rn_raft n)) (t_progress (r_trk (rn_raft n)))) as [p|] eqn:Hp; [|congruence].
      destruct (simple_kept ch x c' prs' (r_id (rn_raft n)) p W Hc) as [z Hz]; [eapply Permutation_in; eauto|exact Hp|].
      exists p, z. split; [exact Hp|congruence].
    - apply Ok_inj in Hc. destruct cp as [c' prs']. cbn [fst snd] in *. pose proof (C22_enter_joint _ _ _ _ _ W Hc) as (Q1 & Q2 & Q3 & _). cbv zeta in Q1, Q2, Q3. cbn in Q1, Q2, Q3.
      exfalso. rewrite Q1, Q3 in K2. apply Permutation_nil in K2. auto.
    - destruct cp as [c' prs']. cbn [fst snd] in *. pose proof (C22_leave_joint _ _ _ W Hc) as (Q1 & _ & Q3 & _). cbv zeta in Q1, Q3. cbn in Q1.
      exfalso. rewrite Q3 in K2. apply Permutation_sym, Permutation_nil in K2. auto. }
  destruct O as [O1 O2]. split.
  - intros L p' Hp'. cbn in L, Hp'. destruct (G _ L Hp') as (p & x & Hp & ->). cbn. apply (O1 L); auto.
  - intros L p' Hp'. cbn in L, Hp'. destruct (G _ L Hp') as (p & x & Hp & ->). cbn. apply (O2 L); auto.
Qed.
End ROwn.
