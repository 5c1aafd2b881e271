(** Membership changes that leave the voters alone. *)
From Coq Require Import Permutation.
From Verif Require Import Prelude Types M_Util M_Quorum M_Inflights M_Progress M_Tracker.
From Verif Require Import M_Storage M_Unstable M_Log M_ReadOnly M_ConfPb M_ConfChange M_Raft M_RawNode.
From Verif Require Import Spec_Log P_Lists P_Log P_Frame P_Prim Spec_ConfChange Sys_ConfChange P_ConfChange P_Conf Sys_Node P_Node P_Fields P_New P_NodeLog P_Handle P_NodeRun P_Emit P_FlowRun Sys_Cluster.

Section Switch.
Context {E : Env}.
Definition switched_to (cp : cfgprs) (b : bool) (r : raft) : raft :=
  set_r_learner b (set_r_trk (set_t_progress (snd cp) (set_t_config (fst cp) (r_trk r))) r).
Lemma switch_steps cp r r' c : switch_to_config cp r = Ok (r', c) ->
  exists b, qprs (fun m => m = new_msg MsgHup) (switched_to cp b r) r' /\ c = trk_confstate (r_trk (switched_to cp b r)) /\ t_config (r_trk r') = fst cp.
Proof.
  unfold switch_to_config. cbv zeta.
  match goal with |- context[set_r_learner ?b ?x] => set (b1 := b); change (set_r_learner b1 x) with (switched_to cp b1 r) end.
  intros H. exists b1.
  change (trk_confstate (r_trk (set_r_trk (set_t_progress (snd cp) (set_t_config (fst cp) (r_trk r))) r))) with (trk_confstate (r_trk (switched_to cp b1 r))) in H.
  assert (G : t_config (r_trk (switched_to cp b1 r)) = fst cp) by reflexivity.
  set (r1 := switched_to cp b1 r) in *. clearbody r1. revert H.
  destruct (_ && is_leader r1); [intros H; inv H; split; [constructor|auto]|].
  destruct (_ || _) eqn:Hl; [intros H; inv H; split; [constructor|auto]|]. intros H. mon.
  unfold switch_leader in Hm. mon. destruct x as [r2 cm]. mon. rename x into r3.
  assert (L1 : r_state r1 = RLeader).
  { unfold is_leader in Hl. destruct (r_state r1); cbn in Hl; try discriminate; auto. }
  pose proof (raft_maybe_commit_state _ _ _ Hm0) as [l El].
  assert (L2 : r_state r2 = RLeader) by (rewrite El; auto).
  assert (S3 : sends r2 r3).
  { destruct cm; [eapply bcast_append_sends; eauto|].
    eapply (mfold_inv _ sends); [apply sends_refl|apply sends_trans| |exact Hm1].
    intros a s s' _ Hs. cbv beta in Hs. mon. destruct x. mon. eapply maybe_send_append_sends; eauto. }
  split; [|split; [reflexivity|]].
  - eapply qprs_prims; [reflexivity|]. eapply PsCons; [eapply PCommit; eauto|]. eapply PsCons.
    + apply PSends; [exact L2|exact S3].
    + destruct (_ && _); mon; [|constructor]. apply prims_one, PKeep.
      constructor; try reflexivity; try (left; reflexivity). split; [cbn; auto|intros id; cbn; destruct (mget id _); auto using pr_keep_refl].
  - assert (G3 : t_config (r_trk r3) = fst cp) by (destruct S3 as [[] _ _ _ _]; rewrite sm_tconf, El; exact G).
    match type of Hm with (if ?x then _ else _) = _ => destruct x end; apply Ok_inj in Hm; subst r'; exact G3.
Qed.
Lemma apply_steps cc n n' c : rn_apply_conf_change cc n = Ok (n', c) ->
  exists cp b op, cc_call op (mkChanger (r_trk (rn_raft n)) (r_last (rn_raft n))) = Ok (SOk cp) /\
    qprs (fun m => m = new_msg MsgHup) (switched_to cp b (rn_raft n)) (rn_raft n') /\ n' = set_rn_raft (rn_raft n') n /\
    cs_voters c = tc_incoming (fst cp) /\ cs_outgoing c = tc_outgoing (fst cp) /\ t_config (r_trk (rn_raft n')) = fst cp.
Proof.
  intros H. unfold rn_apply_conf_change in H. mon. destruct x0 as [r cs']. mon. cbn.
  unfold raft_apply_conf_change in Hm0. mon. destruct x0 as [cp|]; [|discriminate].
  assert (Ho : exists o, cc_call o (mkChanger (r_trk (rn_raft n)) (r_last (rn_raft n))) = Ok (SOk cp)).
  { destruct (leave_joint x); [exists OpLeave; auto|]. destruct (enter_joint x) as [al j]. destruct j.
    - exists (OpEnter al (c2_changes x)). auto.
    - exists (OpSimple (c2_changes x)). auto. }
  destruct Ho as [o Ho]. destruct (switch_steps _ _ _ _ Hm0) as (b & Q & -> & G). exists cp, b, o. repeat (split; auto).
Qed.
(** The call leaves the voters of the node's configuration alone. *)
Definition voters_kept (o : nop) (n : rawnode) : Prop :=
  match o with
  | NApplyCC cc => match rn_apply_conf_change cc n with Ok (_, c) => same_voters (trk_confstate (r_trk (rn_raft n))) c | _ => True end
  | _ => True
  end.
Lemma apply_kept cc n n' out : n_step (NApplyCC cc) n = Ok (n', out) -> voters_kept (NApplyCC cc) n -> tok (rn_raft n) ->
  exists cp b op, cc_call op (mkChanger (r_trk (rn_raft n)) (r_last (rn_raft n))) = Ok (SOk cp) /\
    qprs (fun m => m = new_msg MsgHup) (switched_to cp b (rn_raft n)) (rn_raft n') /\ n' = set_rn_raft (rn_raft n') n /\ out = no_out /\
    Permutation (tc_incoming (t_config (r_trk (rn_raft n)))) (tc_incoming (fst cp)) /\
    Permutation (tc_outgoing (t_config (r_trk (rn_raft n)))) (tc_outgoing (fst cp)) /\
    tok (switched_to cp b (rn_raft n)) /\ t_config (r_trk (rn_raft n')) = fst cp.
Proof.
  intros H K T. cbn [n_step] in H. apply bind_ok in H. destruct H as ([n1 c] & H & Hx). apply Ok_inj, pair_equal_spec in Hx. destruct Hx as [<- <-].
  cbn [voters_kept] in K. rewrite H in K. destruct (apply_steps _ _ _ _ H) as (cp & b & op & H1 & H2 & H3 & H4 & H5 & H6). destruct K as [K1 K2].
  rewrite H4 in K1. rewrite H5 in K2. assert (TT : tok (switched_to cp b (rn_raft n))) by (unfold tok; cbn; eapply cc_call_wf; [|exact H1]; exact T).
  exists cp, b, op. split; [exact H1|]. split; [exact H2|]. split; [exact H3|]. auto.
Qed.
End Switch.
