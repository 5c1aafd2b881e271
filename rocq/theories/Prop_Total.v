(** C57: no call the application may make, no delivery and no restart aborts or dereferences a null
    pointer. *)
From Coq Require Import Permutation.
From Verif Require Import Prelude Types M_Util M_Quorum M_Inflights M_Progress M_Tracker.
From Verif Require Import M_Storage M_Unstable M_Log M_ReadOnly M_ConfPb M_ConfChange M_Raft M_RawNode.
From Verif Require Import Spec_Log Spec_ConfChange Spec_Api Sys_Node Sys_Cluster Spec_Total.
From Verif Require Import Spec_Cluster P_Fields P_New A_Proto R_Sim R_Node R_Cluster P_Total P_Total2 P_Total6 R_Total R_Total2 Ex_Env Ex_Check Ex_Cluster.

Section Total.
Context {E : Env}.

Lemma act_cstep cs cl a cl' : act_ok cs cl a -> act_run cl a = Ok cl' -> cstep cs cl cl'.
Proof.
  destruct a as [id o|id m|id c tape]; cbn [act_ok act_run].
  - intros (n & Hn & Hc & _) H. rewrite Hn in H. apply bind_ok in H. destruct H as ([n' out] & Hs & H). apply Ok_inj in H. subst cl'. eapply CCall; eauto.
  - intros (Hi & Ht & Hn) H. destruct (mget id (cl_nodes cl)) as [n|] eqn:E1; [|congruence]. apply bind_ok in H. destruct H as ([n' out] & Hs & H). apply Ok_inj in H. subst cl'.
    eapply CDeliver; eauto.
  - intros (n & Hn & Hc & Hs & _) H. apply bind_ok in H. destruct H as (n' & Hr & H). apply Ok_inj in H. subst cl'. eapply CRestart; eauto.
Qed.
Lemma act_reach_reachable cs cl : act_reach cs cl -> reachable cs cl.
Proof. induction 1 as [cl [H _]|cl a cl' H IH Ha Hr]; [apply CrStart; auto|]. eapply CrStep; eauto. eapply act_cstep; eauto. Qed.

Definition allinv cs cl : Prop := cs_voters cs <> [] /\ exists t0 g F, R_Cluster.cinv cs t0 g F cl /\ R_Total2.linv F cl /\ tinv cl /\ R_Total2.oinv cl.

Lemma act_total cs cl a : allinv cs cl -> act_ok cs cl a -> total (act_run cl a).
Proof.
  intros [Hv (t0 & g & F & I & L & T & O)]. destruct a as [id o|id m|id c tape]; cbn [act_ok act_run].
  - intros (n & Hn & Hc & Hg). rewrite Hn. destruct (call_stat cs Hv t0 _ _ _ _ _ (ci_g _ _ _ _ _ I) (ci_node _ _ _ _ _ I _ _ Hn) (proj1 (ci_el _ _ _ _ _ I _ _ Hn)) Hc Hg) as (_ & Ho & _).
    destruct (call_total cs Hv t0 _ _ _ _ _ _ I T Hn Ho) as [[n' out] ->]. cbn. eexists. reflexivity.
  - intros (Hi & Ht & Hn). destruct (mget id (cl_nodes cl)) as [n|] eqn:E1; [|congruence].
    assert (Ho : op_good (NStep m) n).
    { cbn. eapply (deliver_good cs Hv t0); eauto; [apply I|eapply ci_node; eauto|apply (proj1 (Forall_forall _ _) (ci_net _ _ _ _ _ I)); auto|apply (proj1 (Forall_forall _ _) (proj2 T)); auto|].
      eapply (no_stray cs Hv t0); eauto. }
    destruct (call_total cs Hv t0 _ _ _ _ _ _ I T E1 Ho) as [[n' out] ->]. cbn. eexists. reflexivity.
  - intros (n & Hn & Hc & Hs & Hval & Ha). destruct (restart_total cs t0 _ _ _ _ _ c tape I T Hn Hs Hval Ha) as [n' ->]. cbn. eexists. reflexivity.
Qed.

Lemma start_allinv cs cl : good_start cs cl -> allinv cs cl.
Proof.
  intros [H K]. split; [apply H|]. destruct (start_inv cs cl H) as (t0 & g & F & I). exists t0, g, F. split; auto.
  destruct H as [H1 H2 H3 (i0 & t1 & Hz & H4)]. split.
  - apply linv_start; auto. intros id n Hn. destruct (H4 _ _ Hn) as (c & tape & s & _ & _ & _ & X). eauto.
  - split; [|intros id n Hn; destruct (H4 _ _ Hn) as (c & tape & s & _ & _ & _ & X); eapply own_new; eauto].
    split; [|rewrite H1; constructor]. intros id n Hn. destruct (H4 _ _ Hn) as (c & tape & s & Hc & Hs & Hss & Hr).
    assert (Hst : node_storage n = s).
    { apply rn_new_spec in Hr. destruct Hr as (r & Hr & ->). apply raft_new_spec in Hr. destruct Hr as (s' & cp & _ & Hs' & _ & _ & _ & _ & Fr).
      unfold node_storage. cbn [rn_raft]. rewrite (fr_log _ _ _ _ Fr). cbn. congruence. }
    eapply new_tnode; eauto.
    + intros X. destruct (ss_base _ _ _ _ Hss), (ss_snap _ _ _ _ Hss). congruence.
    + rewrite <- Hst. eauto.
Qed.
Lemma step_allinv cs cl a cl' : allinv cs cl -> act_ok cs cl a -> act_run cl a = Ok cl' -> allinv cs cl'.
Proof.
  intros [Hv (t0 & g & F & I & L & T & O)] Ha Hr. split; auto. pose proof (act_cstep _ _ _ _ Ha Hr) as C.
  destruct (cstep_inv cs Hv t0 g F _ _ I C) as (g' & F' & I' & Gr). exists t0, g', F'. split; auto. split.
  - pose proof (linv_step cs Hv t0 _ _ _ _ I L O C) as [X1 X2]. destruct Gr as [Gi _]. split; [intros; eapply lnode_mono; eauto|eapply lms_mono; eauto].
  - split; [|exact (oinv_step cs Hv t0 _ _ _ _ I L O C)]. destruct a as [id o|id m|id c tape]; cbn [act_ok act_run] in *.
    + destruct Ha as (n & Hn & Hc & Hg). rewrite Hn in Hr. apply bind_ok in Hr. destruct Hr as ([n' out] & Hs & Hr). apply Ok_inj in Hr. subst cl'.
      destruct (call_stat cs Hv t0 _ _ _ _ _ (ci_g _ _ _ _ _ I) (ci_node _ _ _ _ _ I _ _ Hn) (proj1 (ci_el _ _ _ _ _ I _ _ Hn)) Hc Hg) as (Hst & Ho & Hk). eapply tinv_step; eauto.
    + destruct Ha as (Hi & Ht & Hn). destruct (mget id (cl_nodes cl)) as [n|] eqn:E1; [|congruence]. apply bind_ok in Hr. destruct Hr as ([n' out] & Hs & Hr). apply Ok_inj in Hr. subst cl'.
      pose proof (proj1 (Forall_forall _ _) (ci_net _ _ _ _ _ I) _ Hi) as [M1 M2 M3].
      eapply (tinv_step cs t0 g F cl id (NStep m)); eauto; [split; cbn; auto|]. cbn. apply (proj1 (Forall_forall _ _) (proj2 T)); auto.
    + destruct Ha as (n & Hn & Hc & Hs & Hval & Hap). apply bind_ok in Hr. destruct Hr as (n' & Hr & Hx). apply Ok_inj in Hx. subst cl'.
      destruct T as [T1 T2]. split; cbn [cl_nodes cl_net]; auto. intros i x Hx. rewrite mget_mset in Hx. destruct (N.eqb_spec i id); [|eauto]. injection Hx as <-.
      destruct (T1 _ _ Hn) as [J _]. eapply new_tnode; eauto; apply J.
Qed.

Theorem C57_no_abort : forall cs cl a, act_reach cs cl -> act_ok cs cl a -> exists cl', act_run cl a = Ok cl'.
Proof.
  intros cs cl a H Ha. apply (act_total cs); auto. clear a Ha. induction H as [cl H|cl a cl' H IH Ha Hr]; [apply start_allinv; auto|eapply step_allinv; eauto].
Qed.
End Total.

(** The hypotheses are met along the run of Ex_Cluster: elections, replication, commits; there node
    1 can be restarted, and node 3 can be given any message addressed to it. *)
Section Example.
#[local] Existing Instance ex_env.
Definition simple (a : cact) : bool :=
  match a with
  | Ex_Cluster.ACall _ o => match o with NCompact _ | NCreateSnapshot _ _ _ | NProposeCC _ => false | _ => true end
  | Ex_Cluster.ADeliver _ => true
  | Ex_Cluster.ARestart _ _ _ => false
  end.
Lemma simple_act cs a cl cl' : simple a = true -> cact_step a cl = Some cl' -> exists b, act_ok cs cl b /\ act_run cl b = Ok cl'.
Proof.
  destruct a as [id o|k|id c tape]; cbn [simple cact_step]; [| |discriminate]; intros Hs.
  - destruct (mget id (cl_nodes cl)) as [n|] eqn:Hn; [|discriminate]. destruct (call_okb o n) eqn:Hc; [|discriminate].
    destruct (n_step o n) as [[n' out]| | |] eqn:Hst; try discriminate. intros H; injection H as <-. exists (Spec_Total.ACall id o). cbn [act_ok act_run]. split.
    + exists n. split; auto. destruct o; cbn in *; try discriminate; auto.
    + rewrite Hn, Hst. reflexivity.
  - destruct (nnth (cl_net cl) k) as [m|] eqn:Hk; [|discriminate]. destruct (mget (m_to m) (cl_nodes cl)) as [n|] eqn:Hn; [|discriminate].
    destruct (n_step (NStep m) n) as [[n' out]| | |] eqn:Hst; try discriminate. intros H; injection H as <-. exists (Spec_Total.ADeliver (m_to m) m). cbn [act_ok act_run]. split.
    + split; [unfold nnth in Hk; eapply nth_error_In; eauto|]. split; auto. congruence.
    + rewrite Hn, Hst. reflexivity.
Qed.
Lemma simple_acts cs l cl cl' : forallb simple l = true -> act_reach cs cl -> cacts l cl = Some cl' -> act_reach cs cl'.
Proof.
  revert cl. induction l as [|a l IH]; intros cl Hl Hr; cbn in *; [intros H; injection H as <-; auto|].
  apply andb_true_iff in Hl. destruct Hl as [Ha Hl]. destruct (cact_step a cl) as [c1|] eqn:E1; [|discriminate]. apply IH; auto.
  destruct (simple_act cs _ _ _ Ha E1) as (b & B1 & B2). eapply ArStep; eauto.
Qed.
Lemma exc_conf_ok : conf_ok exc_conf.
Proof.
  constructor; try (cbn; repeat constructor; cbn; intuition (try discriminate; lia)).
Qed.
Lemma exc_good_start : good_start exc_conf exc_start.
Proof.
  split; [apply exc_start_ok|].
  assert (H : List.map (fun p : N * rawnode => sn_conf (ms_snap (node_storage (snd p)))) (cl_nodes exc_start) = [exc_conf; exc_conf; exc_conf]) by (vm_compute; reflexivity).
  intros id n Hn. apply mget_In in Hn. apply (in_map (fun p : N * rawnode => sn_conf (ms_snap (node_storage (snd p))))) in Hn. rewrite H in Hn. cbn [snd] in Hn.
  assert (X : sn_conf (ms_snap (node_storage n)) = exc_conf) by (destruct Hn as [<-|[<-|[<-|[]]]]; reflexivity). rewrite X. apply exc_conf_ok.
Qed.
Definition exc_recfg (n : rawnode) : config := mkConfig 1 10 1 (Some (node_storage n)) 0 1000 1000 0 4 true false RoSafe false.
Example C57_nonvacuous : exists mid n m, act_reach exc_conf mid /\ leader_of mid 1 2 /\ mget 1 (cl_nodes mid) = Some n /\
  act_ok exc_conf mid (Spec_Total.ACall 1 (NPropose "y")) /\ act_ok exc_conf mid (Spec_Total.ACall 1 (NTransferLeader 3)) /\
  act_ok exc_conf mid (Spec_Total.ARestart 1 (exc_recfg n) []) /\
  m_type m = MsgApp /\ act_ok exc_conf mid (Spec_Total.ADeliver 3 m).
Proof.
  destruct exc_run as (mid & fin & _ & _ & _ & H1 & _).
  assert (R : act_reach exc_conf mid) by (eapply simple_acts; [| |exact H1]; [reflexivity|apply ArStart, exc_good_start]).
  assert (A : role_term mid 1 = Some (RLeader, 2)) by (apply (at_mid_eq (fun c => role_term c 1) mid (Some (RLeader, 2)) H1); vm_compute; reflexivity).
  apply role_term_leader in A. pose proof A as (n & Hn & _). unfold Spec_Cluster.runs in Hn.
  assert (B : nlen (filter (fun m => mtype_eqb (m_type m) MsgApp && (m_to m =? 3)) (cl_net mid)) = 1) by (apply (at_mid_eq (fun c => nlen (filter (fun m => mtype_eqb (m_type m) MsgApp && (m_to m =? 3)) (cl_net c))) mid 1 H1); vm_compute; reflexivity).
  assert (C : match mget 3 (cl_nodes mid) with Some _ => true | None => false end = true) by (eapply (at_mid_eq (fun c => match mget 3 (cl_nodes c) with Some _ => true | None => false end)); [exact H1|vm_compute; reflexivity]).
  destruct (filter _ (cl_net mid)) as [|m ms] eqn:Hf; [discriminate|].
  assert (Hm : In m (filter (fun m => mtype_eqb (m_type m) MsgApp && (m_to m =? 3)) (cl_net mid))) by (rewrite Hf; left; auto).
  apply filter_In in Hm. destruct Hm as [Hm1 Hm2]. apply andb_true_iff in Hm2. destruct Hm2 as [Hm2 Hm3]. apply N.eqb_eq in Hm3.
  exists mid, n, m. split; auto. split; auto. split; auto. cbn [act_ok].
  clear H1 R Hf B.
  split; [exists n; split; [exact Hn|split; exact I]|]. split; [exists n; split; [exact Hn|split; exact I]|].
  split; [exists n; split; [exact Hn|split; [reflexivity|split; [reflexivity|split; [|left; reflexivity]]]]; constructor; cbn; try discriminate; reflexivity|].
  split; [destruct (m_type m); cbn in Hm2; try discriminate; auto|]. split; auto. split; auto. destruct (mget 3 (cl_nodes mid)); [discriminate|discriminate].
Qed.
(** There the leader can apply the addition of a learner, and afterwards sends to it. *)
Definition add4 : cci := CCv1 (mkConfChange CcAddLearnerNode 4 EmptyString 0).
Definition lview (cl : cluster) :=
  match mget 1 (cl_nodes cl) with
  | Some n => match rn_apply_conf_change add4 n with
              | Ok (n', c) => Some (cs_voters c, cs_outgoing c, cs_learners c, trk_confstate (r_trk (rn_raft n)), 0 <? l_committed (r_log (rn_raft n)),
                                    existsb (fun m => (m_to m =? 4) && mtype_eqb (m_type m) MsgApp) (r_msgs (rn_raft n')))
              | _ => None
              end
  | None => None
  end.
Example C57_learner_nonvacuous : exists mid n n' cl', act_reach exc_conf mid /\ mget 1 (cl_nodes mid) = Some n /\
  act_ok exc_conf mid (Spec_Total.ACall 1 (NApplyCC add4)) /\ act_run mid (Spec_Total.ACall 1 (NApplyCC add4)) = Ok cl' /\ act_reach exc_conf cl' /\
  mget 1 (cl_nodes cl') = Some n' /\ cs_learners (trk_confstate (r_trk (rn_raft n))) = [] /\ cs_learners (trk_confstate (r_trk (rn_raft n'))) = [4] /\
  exists m, In m (r_msgs (rn_raft n')) /\ m_to m = 4 /\ m_type m = MsgApp.
Proof.
  destruct exc_run as (mid & fin & _ & _ & _ & H1 & _).
  assert (R : act_reach exc_conf mid) by (eapply simple_acts; [| |exact H1]; [reflexivity|apply ArStart, exc_good_start]).
  assert (A : lview mid = Some ([1;2;3], [], [4], exc_conf, true, true)) by (apply (at_mid_eq lview mid (Some ([1;2;3], [], [4], exc_conf, true, true)) H1); vm_compute; reflexivity).
  clear H1. unfold lview in A. destruct (mget 1 (cl_nodes mid)) as [n|] eqn:Hn; [|discriminate].
  destruct (rn_apply_conf_change add4 n) as [[n' c]| | |] eqn:Hc; try discriminate. injection A as A1 A2 A3 B1 B2 B3 B4 B5 A5 A6.
  assert (A4 : trk_confstate (r_trk (rn_raft n)) = exc_conf) by (unfold trk_confstate; rewrite B1, B2, B3, B4, B5; reflexivity). clear B1 B2 B3 B4 B5.
  assert (Ok1 : act_ok exc_conf mid (Spec_Total.ACall 1 (NApplyCC add4))).
  { cbn [act_ok]. exists n. split; [exact Hn|]. split; cbn [call_ok call_good].
    - rewrite Hc. split; [rewrite A1|rewrite A2]; apply Permutation_refl.
    - split; [|apply N.ltb_lt; exact A5]. split; [rewrite A4; reflexivity|]. exists (mkConfChangeV2 TrAuto [mkCC CcAddLearnerNode 4] EmptyString), (mkCC CcAddLearnerNode 4).
      split; [reflexivity|]. split; [reflexivity|]. split; [reflexivity|]. cbn [cc_type cc_node]. rewrite A4. cbn. intuition discriminate. }
  exists mid, n, n', (mkCluster (mset 1 n' (cl_nodes mid)) (cl_net mid ++ []) (cl_hist mid ++ [])).
  assert (Run : act_run mid (Spec_Total.ACall 1 (NApplyCC add4)) = Ok (mkCluster (mset 1 n' (cl_nodes mid)) (cl_net mid ++ []) (cl_hist mid ++ []))).
  { cbn [act_run]. rewrite Hn. cbn [n_step]. rewrite Hc. reflexivity. }
  split; [exact R|]. split; [exact Hn|]. split; [exact Ok1|]. split; [exact Run|]. split; [exact (ArStep _ _ _ _ R Ok1 Run)|].
  split; [cbn [cl_nodes]; rewrite mget_mset; reflexivity|]. split; [rewrite A4; reflexivity|]. split.
  - rewrite <- A3. destruct (R_Switch.apply_steps _ _ _ _ Hc) as (cp & b & op & _ & _ & _ & _ & _ & G).
    destruct (R_Own.apply_call _ _ _ _ Hc) as (cp2 & op2 & _ & _ & Hw). destruct (R_Switch.switch_steps _ _ _ _ Hw) as (b2 & _ & -> & G2).
    cbn. rewrite G2. reflexivity.
  - apply existsb_exists in A6. destruct A6 as (m & Hm & X). apply andb_true_iff in X. destruct X as [X1 X2]. exists m. split; [exact Hm|].
    split; [apply N.eqb_eq; exact X1|destruct (m_type m); cbn in X2; try discriminate; auto].
Qed.
End Example.

(** Outside the hypotheses (see DESIGN.md, findings). *)
Section Findings.
#[local] Existing Instance ex_env.
(** A ConfState that repeats an id makes New abort, although the configuration is valid. *)
Definition dup_storage : mstorage :=
  mkMS (mkHardState 1 0 5) (mkSnapshot 5 1 (mkConfState [1;1;2] [] [] [] false) EmptyString) (mkEntry 1 5 EntryNormal EmptyString) [].
Definition dup_cfg : config := mkConfig 1 10 1 (Some dup_storage) 0 1000 1000 0 4 true false RoSafe false.
Example C57_dup_conf_aborts : storage_ok dup_storage /\ config_valid dup_cfg /\ exists s, rn_new dup_cfg [3;4;5] = Fatal s.
Proof.
  split; [apply storage_okb_ok; vm_compute; reflexivity|]. split; [constructor; cbn; try discriminate; reflexivity|].
  eexists. vm_compute. reflexivity.
Qed.
(** Node 1 is elected with two uncommitted membership changes in its log: one removes node 1, the
    other enters a joint configuration that is left automatically.  The application takes the Ready
    in which both are committed, applies both, and calls Advance, as the API asks: AppendEntry
    dereferences the null Progress of the removed node 1. *)
Definition rm_storage : mstorage := mkMS (mkHardState 1 0 5) (mkSnapshot 5 1 exc_conf EmptyString) (mkEntry 1 5 EntryNormal EmptyString)
  [mkEntry 1 6 EntryConfChange "a"; mkEntry 1 7 EntryConfChangeV2 "b"].
Definition rm_cfg : config := mkConfig 1 10 1 (Some rm_storage) 0 1000 1000 0 4 true false RoSafe false.
Definition rm_msg (t : mtype) (i : N) : msg := mkMsg t 1 2 2 0 i [] 0 empty_snapshot false 0 EmptyString.
Definition rm_ops : list nop :=
  [NCampaign; NHandle; NStep (rm_msg MsgVoteResp 0); NHandle; NStep (rm_msg MsgAppResp 8); NReady;
   NApplyCC (CCv1 (mkConfChange CcRemoveNode 1 EmptyString 0));
   NApplyCC (CCv2 (mkConfChangeV2 TrAuto [mkCC CcAddNode 4; mkCC CcAddNode 5] EmptyString))].
Example C57_removed_leader_null_progress : storage_ok rm_storage /\ config_valid rm_cfg /\
  exists n0 n outs s, rn_new rm_cfg [3;4;5] = Ok n0 /\ n_run rm_ops n0 = Ok (n, outs) /\ n_step NAdvance n = UB s.
Proof.
  split; [apply storage_okb_ok; vm_compute; reflexivity|]. split; [constructor; cbn; try discriminate; reflexivity|].
  destruct (rn_new rm_cfg [3;4;5]) as [n0| | |] eqn:H0; [|vm_compute in H0; discriminate..].
  assert (X : match rn_new rm_cfg [3;4;5] with Ok n0 => match n_run rm_ops n0 with Ok (n, _) => match n_step NAdvance n with UB _ => true | _ => false end | _ => false end | _ => false end = true)
    by (vm_compute; reflexivity).
  rewrite H0 in X. destruct (n_run rm_ops n0) as [[n outs]| | |] eqn:H1; try discriminate. destruct (n_step NAdvance n) as [| |s|] eqn:H2; try discriminate.
  exists n0, n, outs, s. auto.
Qed.
End Findings.
