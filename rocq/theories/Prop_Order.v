(** C76: applying membership changes before Advance, as documented, or right after it. *)
From Coq Require Import Permutation.
From Verif Require Import Prelude Types M_Util M_Quorum M_Inflights M_Progress M_Tracker.
From Verif Require Import M_Storage M_Unstable M_Log M_ReadOnly M_ConfPb M_ConfChange M_Raft M_RawNode.
From Verif Require Import Spec_Log P_Lists P_Storage P_Log P_Frame P_Prim P_Fields P_NodeLog P_Handle P_NodeRun Sys_Node Spec_Node Sys_Loop Sys_Cluster Sys_Doc.
From Verif Require Import Spec_ConfChange Sys_ConfChange P_ConfChange P_Conf P_Vote P_Loop P_Order Spec_Leave R_Sim R_Switch R_Node R_Cluster Prop_Leave Spec_Cluster Ex_Env Ex_Node Ex_Check Ex_Case Ex_Cluster Prop_Cluster.

Section Theorems.
Context {E : Env}.
Lemma mset_twice {A} k (a b : A) m : mset k b (mset k a m) = mset k b m.
Proof.
  induction m as [|[i x] m IH]; cbn; [rewrite N.ltb_irrefl, N.eqb_refl; reflexivity|].
  destruct (k <? i) eqn:H2; cbn; [rewrite N.ltb_irrefl, N.eqb_refl; reflexivity|].
  destruct (k =? i) eqn:H1; cbn; [rewrite N.ltb_irrefl, N.eqb_refl; reflexivity|rewrite H1, H2, IH; reflexivity].
Qed.
Lemma autol_simple r : tok r -> tc_outgoing (t_config (r_trk r)) = [] -> autol r = false.
Proof. intros T H. exact (proj2 (cw_simple _ _ T H)). Qed.
Lemma awaits_autol n : ~ awaits_leave n -> autol (rn_raft n) = false.
Proof. unfold awaits_leave, autol. intros H. change (ns_config (rn_status n)) with (t_config (r_trk (rn_raft n))) in H. destruct (tc_auto_leave _); auto. destruct H; auto. Qed.

(** The iteration as documented leaves the node, byte for byte, in the state it is left in when its
    membership changes are applied right after Advance instead - provided the configuration it has
    before and the one it has after are not to be left automatically. *)
Theorem C76_order c n outs n' rd : looped c n outs -> n_loop n = Ok (n', rd) -> ~ awaits_leave n -> ~ awaits_leave n' ->
  exists n1, n_handle n = Ok (n1, rd) /\ apply_confs (rd_committed rd) n1 = Ok n'.
Proof. intros L H A1 A2. destruct (looped_inv _ _ _ L) as [[D _] _]. apply loop_order; auto using awaits_autol. Qed.

Lemma keep_simple cs es : cs_outgoing cs = [] -> forall n n', confs_keep cs es n -> apply_confs es n = Ok n' ->
  tc_outgoing (t_config (r_trk (rn_raft n))) = [] -> tc_outgoing (t_config (r_trk (rn_raft n'))) = [].
Proof.
  intros Hc. induction es as [|e es IH]; intros n n' K H O; cbn [apply_confs confs_keep] in *; [apply Ok_inj in H; subst; auto|].
  destruct (conf_of e) as [cc|]; [|eauto]. apply bind_ok in H. destruct H as ([n1 c] & H1 & H). rewrite H1 in K. destruct K as [[_ K1] K2].
  apply (IH n1); auto. destruct (apply_steps _ _ _ _ H1) as (cp & b & op & _ & _ & _ & _ & P & Q). rewrite Q, <- P. rewrite Hc in K1. apply Permutation_nil in K1. exact K1.
Qed.
Lemma run_confs cs u l0 ps ph id net hist N0 es : forall n n', q l0 (rn_raft n) -> confs_keep cs es n -> apply_confs es n = Ok n' ->
  csteps cs (mkCluster (mset id (subn u l0 ps ph None n) N0) net hist) (mkCluster (mset id (subn u l0 ps ph None n') N0) net hist).
Proof.
  induction es as [|e es IH]; intros n n' Q K H; cbn [apply_confs confs_keep] in *; [apply Ok_inj in H; subst; constructor|].
  destruct (conf_of e) as [cc|]; [|auto]. apply bind_ok in H. destruct H as ([n1 c] & H1 & H). rewrite H1 in K. destruct K as [K1 K2].
  destruct (rn_apply_sub u l0 ps ph None _ _ _ _ Q H1) as [X Q1].
  econstructor; [|apply (IH n1 n' Q1 K2 H)].
  assert (S : n_step (NApplyCC cc) (subn u l0 ps ph None n) = Ok (subn u l0 ps ph None n1, no_out)) by (cbn [n_step]; rewrite X; reflexivity).
  pose proof (CCall cs (mkCluster (mset id (subn u l0 ps ph None n) N0) net hist) id (NApplyCC cc) (subn u l0 ps ph None n) (subn u l0 ps ph None n1) no_out) as Y.
  cbn [cl_nodes cl_net cl_hist] in Y. unfold out_msgs, out_ents in Y. cbn [no_out o_ready] in Y. rewrite !app_nil_r, mset_twice in Y.
  apply Y; [apply mget_mset_same| |exact S]. cbn [call_ok]. rewrite X. exact K1.
Qed.
Lemma csteps_app cs a b c : csteps cs a b -> csteps cs b c -> csteps cs a c.
Proof. intros H. induction H; auto. intros. econstructor; eauto. Qed.
Lemma dstep_csteps cs cl cl' : cs_outgoing cs = [] -> reachable cs cl -> dstep cs cl cl' -> csteps cs cl cl'.
Proof.
  intros Ho R H. destruct H as [id o n n' out H1 _ _ H3 H4|id n n' rd Hn Hk Hl|id m n n' out H1 H2 H3 H4|id c tape n n' H1 H2 H3 H4].
  1,3,4: econstructor; [|constructor].
  - eapply CCall; eauto.
  - eapply CDeliver; eauto.
  - eapply CRestart; eauto.
  - destruct (reachable_inv _ _ R) as [Hv (t0 & g & F & I)]. pose proof (ci_node _ _ _ _ _ I _ _ Hn) as V. destruct (ci_el _ _ _ _ _ I _ _ Hn) as [T _].
    assert (On : tc_outgoing (t_config (r_trk (rn_raft n))) = []).
    { destruct (nv_run _ _ _ _ _ V) as (s' & O & _ & VR & _). destruct (v_conf _ _ _ _ _ VR) as [_ P]. rewrite Ho in P. apply Permutation_nil in P. exact P. }
    pose proof (nv_d _ _ _ _ _ V) as D. pose proof (autol_simple _ T On) as A1.
    destruct (loop_steps _ _ _ D Hl) as (m1 & s1 & m2 & Z1 & Z2 & Z3 & Z4).
    unfold loop_keeps in Hk. rewrite Z1, Z2 in Hk.
    assert (Om : tc_outgoing (t_config (r_trk (rn_raft (set_storage s1 m1)))) = []).
    { apply get_ready_inv in Z1. destruct Z1 as (_ & Hr & _). unfold set_storage, set_rn_raft. cbn [rn_raft r_trk set_r_log]. rewrite Hr. exact On. }
    assert (A2 : autol (rn_raft n') = false).
    { apply autol_simple; [eapply loop_tok; eauto|]. rewrite Z4. eapply keep_simple; eauto. }
    destruct (loop_sub _ _ _ D Hl A1 A2) as (n1 & s & n2 & u & l0 & ps & ph & G1 & G2 & G3 & Q & Hh & ->).
    rewrite Z1 in G1. apply Ok_inj, pair_equal_spec in G1. destruct G1 as [-> _]. rewrite Z2 in G2. apply Ok_inj in G2. subst s1.
    pose proof (run_confs cs u l0 ps ph id (cl_net cl ++ rd_msgs rd) (cl_hist cl ++ List.map (fun e => (id, e)) (rd_committed rd)) (cl_nodes cl) _ _ _ Q Hk G3) as X.
    econstructor; [|exact X].
    pose proof (CCall cs cl id NHandle n (subn u l0 ps ph None (set_storage s n1)) (mkOut None (Some rd)) Hn) as Y. cbn [call_ok out_msgs out_ents o_ready] in Y.
    apply Y; [exact Logic.I|]. cbn [n_step]. rewrite Hh. reflexivity.
Qed.
(** Every state of a cluster whose applications follow the documentation is a state of the cluster of
    C52-C56, C72-C75, so what those claim of every reachable cluster holds here as well. *)
Theorem C76_documented cs cl : documented cs cl -> cs_outgoing cs = [] -> reachable cs cl.
Proof.
  intros H Ho. induction H as [cl H|cl cl' H IH S]; [apply CrStart; auto|]. eapply Ex_Cluster.reachable_steps; [exact IH|]. eapply dstep_csteps; eauto.
Qed.
Theorem C76_documented_steps cs cl cl' : documented cs cl -> cs_outgoing cs = [] -> dsteps cs cl cl' -> csteps cs cl cl'.
Proof.
  intros H Ho S. induction S as [|a b c S1 S2 IH]; [constructor|]. eapply csteps_app; [eapply dstep_csteps; eauto; apply C76_documented; auto|]. apply IH. eapply DcStep; eauto.
Qed.
(** For instance: one leader per term, one entry per index. *)
Theorem C76_safe cs cl cl' : documented cs cl -> cs_outgoing cs = [] -> dsteps cs cl cl' ->
  (forall a b t, leader_of cl a t -> leader_of cl' b t -> a = b) /\
  (forall a b e e', delivered cl' a e -> delivered cl' b e' -> e_index e = e_index e' -> e = e').
Proof.
  intros D Ho S. pose proof (C76_documented _ _ D Ho) as R. pose proof (C76_documented_steps _ _ _ D Ho S) as S'. split.
  - intros a b t. eapply C52_election_safety; eauto.
  - intros a b e e'. eapply C55_state_machine_safety. eapply Ex_Cluster.reachable_steps; eauto.
Qed.
End Theorems.

(** An environment in which every serialised membership change is "add learner 4". *)
Definition ex_env_ln : Env := {|
  esize := fun e => N.of_nat (String.length (e_data e)) + 2;
  enc_cc := fun _ => "1"%string;
  enc_ccv2 := fun _ => "2"%string;
  dec_cc := fun _ => Some (mkConfChange CcAddLearnerNode 4 EmptyString 0);
  dec_ccv2 := fun _ => Some (mkConfChangeV2 TrAuto [mkCC CcAddLearnerNode 4] EmptyString)
|}.
Section Example_.
#[local] Existing Instance ex_env_ln.
Inductive dact := DaLoop (id : N) | DaCall (id : N) (o : nop) | DaMsg (k : N).
Definition same_votersb (cs c : confstate) : bool :=
  (if list_eq_dec N.eq_dec (cs_voters cs) (cs_voters c) then true else false) && (if list_eq_dec N.eq_dec (cs_outgoing cs) (cs_outgoing c) then true else false).
Fixpoint confs_keepb (cs : confstate) (es : list entry) (n : rawnode) : bool :=
  match es with
  | [] => true
  | e :: t => match conf_of e with
              | None => confs_keepb cs t n
              | Some cc => match rn_apply_conf_change cc n with Ok (n1, c) => same_votersb cs c && confs_keepb cs t n1 | _ => false end
              end
  end.
Definition loop_keepsb (cs : confstate) (n : rawnode) : bool :=
  match rn_get_ready n with
  | Ok (n1, rd) => match persist_ready rd (node_storage n1) with Ok s => confs_keepb cs (rd_committed rd) (set_storage s n1) | _ => false end
  | _ => false
  end.
Definition dact_step (cs : confstate) (a : dact) (cl : cluster) : option cluster :=
  match a with
  | DaLoop id =>
      match mget id (cl_nodes cl) with
      | Some n => if loop_keepsb cs n then
          match n_loop n with
          | Ok (n', rd) => Some (mkCluster (mset id n' (cl_nodes cl)) (cl_net cl ++ rd_msgs rd) (cl_hist cl ++ List.map (fun e => (id, e)) (rd_committed rd)))
          | _ => None
          end else None
      | None => None
      end
  | DaCall id o =>
      match o with
      | NCampaign | NPropose _ | NProposeCC _ | NTick =>
          match mget id (cl_nodes cl) with
          | Some n => match n_step o n with
                      | Ok (n', out) => Some (mkCluster (mset id n' (cl_nodes cl)) (cl_net cl ++ out_msgs out) (cl_hist cl ++ out_ents id out))
                      | _ => None
                      end
          | None => None
          end
      | _ => None
      end
  | DaMsg k =>
      match nnth (cl_net cl) k with
      | Some m =>
          match mget (m_to m) (cl_nodes cl) with
          | Some n => match n_step (NStep m) n with
                      | Ok (n', _) => Some (mkCluster (mset (m_to m) n' (cl_nodes cl)) (cl_net cl) (cl_hist cl))
                      | _ => None
                      end
          | None => None
          end
      | None => None
      end
  end.
Fixpoint dacts (cs : confstate) (l : list dact) (cl : cluster) : option cluster :=
  match l with [] => Some cl | a :: t => match dact_step cs a cl with Some c => dacts cs t c | None => None end end.
Lemma confs_keepb_ok cs es : forall n, confs_keepb cs es n = true -> confs_keep cs es n.
Proof.
  induction es as [|e es IH]; intros n H; cbn [confs_keepb confs_keep] in *; auto. destruct (conf_of e) as [cc|]; auto.
  destruct (rn_apply_conf_change cc n) as [[n1 c]| | |]; auto. apply andb_prop in H. destruct H as [H1 H2]. split; auto.
  unfold same_votersb in H1. destruct (list_eq_dec _ _ _) as [X|]; [|discriminate]. destruct (list_eq_dec _ _ _) as [Y|]; [|discriminate]. split; rewrite ?X, ?Y; apply Permutation_refl.
Qed.
Lemma dact_step_ok cs a cl cl' : dact_step cs a cl = Some cl' -> dstep cs cl cl'.
Proof.
  destruct a as [id|id o|k]; cbn [dact_step].
  - destruct (mget id (cl_nodes cl)) as [n|] eqn:Hn; [|discriminate]. destruct (loop_keepsb cs n) eqn:Hk; [|discriminate].
    destruct (n_loop n) as [[n' rd]| | |] eqn:Hl; try discriminate. intros X. injection X as <-. eapply DLoop; eauto.
    unfold loop_keepsb in Hk. unfold loop_keeps. destruct (rn_get_ready n) as [[n1 rd1]| | |]; auto. destruct (persist_ready rd1 _); auto. apply confs_keepb_ok; auto.
  - destruct o; try discriminate; (destruct (mget id (cl_nodes cl)) as [n|] eqn:Hn; [|discriminate]);
      match goal with |- context[n_step ?o n] => destruct (n_step o n) as [[n' out]| | |] eqn:Hs; try discriminate; intros X; injection X as <-; eapply (DCall cs cl id o); eauto; try discriminate; exact Logic.I end.
  - destruct (nnth (cl_net cl) k) as [m|] eqn:Hk; [|discriminate]. destruct (mget (m_to m) (cl_nodes cl)) as [n|] eqn:Hn; [|discriminate].
    destruct (n_step (NStep m) n) as [[n' out]| | |] eqn:Hs; try discriminate. intros X; injection X as <-. eapply DDeliver; eauto. unfold nnth in Hk. eapply nth_error_In; eauto.
Qed.
Lemma dacts_ok cs l : forall cl cl', dacts cs l cl = Some cl' -> dsteps cs cl cl'.
Proof.
  induction l as [|a l IH]; intros cl cl'; cbn; [intros H; injection H as <-; constructor|].
  destruct (dact_step cs a cl) as [c1|] eqn:Ha; [|discriminate]. intros H. econstructor; [eapply dact_step_ok; eauto|eauto].
Qed.
Lemma documented_steps cs a b : documented cs a -> dsteps cs a b -> documented cs b.
Proof. intros D S. induction S; auto. apply IHS. eapply DcStep; eauto. Qed.

Definition exd_tape : list N := [3; 4; 5; 6; 7; 3; 4; 5].
Definition three (x y z : res rawnode) : option cluster :=
  match x, y, z with Ok a, Ok b, Ok c => Some (mkCluster [(1, a); (2, b); (3, c)] [] []) | _, _, _ => None end.
Lemma three_ok x y z cl : three x y z = Some cl -> exists a b c, x = Ok a /\ y = Ok b /\ z = Ok c /\ cl = mkCluster [(1, a); (2, b); (3, c)] [] [].
Proof. destruct x, y, z; cbn; try discriminate. intros H. injection H as <-. eauto 10. Qed.
Lemma exd_start_ok cl : three (rn_new (exc_cfg 1) exd_tape) (rn_new (exc_cfg 2) exd_tape) (rn_new (exc_cfg 3) exd_tape) = Some cl -> cluster_start exc_conf cl.
Proof.
  intros H. apply three_ok in H. destruct H as (a & b & c & Ha & Hb & Hc & ->).
  constructor; cbn [cl_net cl_hist cl_nodes]; auto; [cbn; discriminate|].
  exists 5, 1. split; [discriminate|]. intros id n Hg.
  assert (Hs : start_storage exc_conf 5 1 exc_storage).
  { constructor.
    - apply Ex_Check.storage_okb_ok. vm_compute. reflexivity.
    - reflexivity.
    - split; reflexivity.
    - split; reflexivity.
    - split; apply Permutation_refl.
    - split; [reflexivity|vm_compute; discriminate]. }
  cbn [mget] in Hg.
  destruct (N.eqb_spec id 1) as [->|]; [injection Hg as <-; exists (exc_cfg 1), exd_tape, exc_storage; split; [reflexivity|split; [reflexivity|split; [exact Hs|exact Ha]]]|].
  destruct (N.eqb_spec id 2) as [->|]; [injection Hg as <-; exists (exc_cfg 2), exd_tape, exc_storage; split; [reflexivity|split; [reflexivity|split; [exact Hs|exact Hb]]]|].
  destruct (N.eqb_spec id 3) as [->|]; [injection Hg as <-; exists (exc_cfg 3), exd_tape, exc_storage; split; [reflexivity|split; [reflexivity|split; [exact Hs|exact Hc]]]|discriminate].
Qed.
Definition exd_acts : list dact :=
  [DaCall 1 NCampaign; DaLoop 1; DaMsg 0; DaLoop 2; DaMsg 2; DaLoop 1; DaMsg 3; DaLoop 2; DaMsg 5; DaLoop 1;
   DaCall 1 (NProposeCC (CCv1 (mkConfChange CcAddLearnerNode 4 EmptyString 0))); DaLoop 1; DaMsg 7; DaLoop 2; DaMsg 8; DaLoop 1; DaMsg 9; DaLoop 2].
Definition exd_look (cl : cluster) := List.map (fun p => (fst p, node_role (snd p), node_term (snd p), node_commit (snd p), tc_learners (t_config (r_trk (rn_raft (snd p)))))) (cl_nodes cl).
Definition exd_run (o : option cluster) := match o with Some s => dacts exc_conf exd_acts s | None => None end.
(** Node 1 is elected, proposes to add learner 4, commits that with node 2, and both apply it in the
    documented loop. *)
Example C76_example : exists cl, documented exc_conf cl /\ cs_outgoing exc_conf = [] /\
  exd_look cl = [(1, RLeader, 2, 7, [4]); (2, RFollower, 2, 7, [4]); (3, RFollower, 1, 5, [])].
Proof.
  set (st := three (rn_new (exc_cfg 1) exd_tape) (rn_new (exc_cfg 2) exd_tape) (rn_new (exc_cfg 3) exd_tape)).
  assert (X : option_map exd_look (exd_run st) = Some [(1, RLeader, 2, 7, [4]); (2, RFollower, 2, 7, [4]); (3, RFollower, 1, 5, [])]) by (vm_compute; reflexivity).
  pose proof exd_start_ok as S. fold st in S. clearbody st. destruct st as [s|]; [|discriminate X]. specialize (S s eq_refl).
  cbn [exd_run] in X. destruct (dacts exc_conf exd_acts s) as [cl|] eqn:H; [|discriminate X]. cbn [option_map] in X. injection X as X.
  exists cl. split; [|split; [reflexivity|exact X]]. eapply documented_steps; [apply DcStart; exact S|eapply dacts_ok; exact H].
Qed.
End Example_.

(** The hypotheses of C76_order met by an iteration that applies a change. *)
Section OrderExamples.
#[local] Existing Instance ex_env_ln.
Definition ex_ln : cci := CCv1 (mkConfChange CcAddLearnerNode 4 EmptyString 0).
Definition ex_ln_run : list lop := ex_l (ex_elect ++ [NHandle; NStep (ex_app_resp 2 3 8); NHandle; NProposeCC ex_ln; NHandle; NStep (ex_app_resp 2 3 9)]).
Example C76_example_order : exists n outs n' outs', looped (ex_cfg 1) n outs /\ none_dropped outs /\ l_run_ok [LLoop] n /\ l_run [LLoop] n = Ok (n', outs') /\ none_dropped outs' /\
  (negb (tc_auto_leave (ns_config (rn_status n))) && negb (tc_auto_leave (ns_config (rn_status n'))) && is_nil (tc_learners (ns_config (rn_status n))) && negb (is_nil (tc_learners (ns_config (rn_status n'))))) = true.
Proof. apply (loop_case_ok (ex_cfg 1) ex_tape ex_ln_run [LLoop] (fun n n' => negb (tc_auto_leave (ns_config (rn_status n))) && negb (tc_auto_leave (ns_config (rn_status n'))) && is_nil (tc_learners (ns_config (rn_status n))) && negb (is_nil (tc_learners (ns_config (rn_status n')))))%bool). vm_compute. reflexivity. Qed.
End OrderExamples.

(** With an automatic leave the order matters: applied before Advance, the change that enters the joint
    configuration is followed by entry 11, which leaves it (C67); applied right after Advance it is not,
    and the node stays at entry 10. *)
Section OrderMatters.
#[local] Existing Instance ex_env_jt.
Definition ex_matters (n n' : rawnode) : bool :=
  match n_loop n with
  | Ok (a, rd) => (node_last a =? 11) && tc_auto_leave (ns_config (rn_status a)) &&
      match n_handle n with
      | Ok (b, _) => match apply_confs (rd_committed rd) b with Ok b' => (node_last b' =? 10) && tc_auto_leave (ns_config (rn_status b')) | _ => false end
      | _ => false
      end
  | _ => false
  end.
Example C76_order_matters : exists n outs n' outs', looped (ex_cfg 1) n outs /\ none_dropped outs /\ l_run_ok [] n /\ l_run [] n = Ok (n', outs') /\ none_dropped outs' /\ ex_matters n n' = true.
Proof. apply (loop_case_ok (ex_cfg 1) ex_tape (ex_enter ++ [LCall (NStep (ex_app_resp 2 3 10))]) [] ex_matters). vm_compute. reflexivity. Qed.
End OrderMatters.
