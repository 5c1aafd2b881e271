(** C77: nor does the documented loop abort. *)
From Coq Require Import Permutation.
From Verif Require Import Prelude Types M_Util M_Quorum M_Inflights M_Progress M_Tracker.
From Verif Require Import M_Storage M_Unstable M_Log M_ReadOnly M_ConfPb M_ConfChange M_Raft M_RawNode.
From Verif Require Import Spec_Log P_Lists P_Storage P_Log P_Frame P_Prim P_Fields P_NodeLog P_Handle P_NodeRun Sys_Node Spec_Node Sys_Loop Sys_Cluster Sys_Doc.
From Verif Require Import Spec_ConfChange Sys_ConfChange P_ConfChange P_Conf P_Vote P_Loop P_Order P_Order2 P_New R_Sim R_Switch R_Node R_Cluster Spec_Total Spec_DocTotal P_Total R_Total R_Total2 Prop_Total Spec_Cluster.
From Verif Require Import Ex_Env Ex_Node Ex_Check Ex_Case Ex_Cluster Spec_Leave Prop_Leave Prop_Order.

Section Theorems.
Context {E : Env}.
Lemma good_keep cs es : forall n, confs_good cs es n -> confs_keep cs es n.
Proof.
  induction es as [|e es IH]; intros n H; cbn [confs_good confs_keep] in *; auto. destruct (conf_of e); auto.
  destruct H as [_ H]. destruct (rn_apply_conf_change c n) as [[n1 c1]| | |]; auto. destruct H; auto.
Qed.
Lemma confs_total cs id net hist N0 u l0 ps ph es : forall n, q l0 (rn_raft n) -> confs_good cs es n -> (es <> [] -> 0 < l_committed (r_log (rn_raft n))) ->
  lwf (r_log (rn_raft n)) -> (r_state (rn_raft n) = RLeader -> 0 < r_term (rn_raft n)) ->
  allinv cs (mkCluster (mset id (subn u l0 ps ph None n) N0) net hist) ->
  exists n', apply_confs es n = Ok n' /\ allinv cs (mkCluster (mset id (subn u l0 ps ph None n') N0) net hist).
Proof.
  induction es as [|e es IH]; intros n Q G Hpos W Ht V; cbn [apply_confs confs_good] in *; [eexists; split; [reflexivity|exact V]|].
  assert (Hp : 0 < l_committed (r_log (rn_raft n))) by (apply Hpos; discriminate). clear Hpos.
  destruct (conf_of e) as [cc|]; [|apply IH; auto]. destruct G as [G1 G2].
  set (cl := mkCluster (mset id (subn u l0 ps ph None n) N0) net hist) in *.
  assert (Hn : mget id (cl_nodes cl) = Some (subn u l0 ps ph None n)) by (unfold cl; cbn [cl_nodes]; apply mget_mset_same).
  assert (A : act_ok cs cl (Spec_Total.ACall id (NApplyCC cc))).
  { exists (subn u l0 ps ph None n). split; [exact Hn|]. split.
    - cbn [call_ok]. destruct (rn_apply_conf_change cc (subn u l0 ps ph None n)) as [[m c]| | |] eqn:Ha; auto.
      destruct (apply_back _ _ _ _ _ _ _ _ Q Ha) as (n1 & X & _ & _). rewrite X in G2. apply G2.
    - cbn [call_good]. split; [exact G1|exact Hp]. }
  destruct (act_total _ _ _ V A) as [cl' R]. pose proof (step_allinv _ _ _ _ V A R) as V'.
  cbn [act_run] in R. rewrite Hn in R. apply bind_ok in R. destruct R as ([m out] & R & R'). apply Ok_inj in R'. subst cl'.
  cbn [n_step] in R. apply bind_ok in R. destruct R as ([m1 c] & R & R'). apply Ok_inj, pair_equal_spec in R'. destruct R' as [-> <-].
  destruct (apply_back _ _ _ _ _ _ _ _ Q R) as (n1 & X & -> & Q1). rewrite X in G2. destruct G2 as [_ G2]. rewrite X. cbn [bind].
  destruct (rn_apply_confed _ _ _ _ W Ht X) as [C _]. pose proof (cf_log _ _ C) as (cm & Hc & Hlo & _).
  apply IH; auto.
  - intros _. rewrite Hc. cbn [l_committed set_l_committed]. lia.
  - eapply confed_wf; eauto.
  - rewrite (cf_state _ _ C), (cf_term _ _ C). exact Ht.
  - unfold out_msgs, out_ents in V'. cbn [no_out o_ready cl_net cl_hist cl_nodes cl] in V'. rewrite !app_nil_r, mset_twice in V'. exact V'.
Qed.
Lemma iter_total cs cl id n : cs_outgoing cs = [] -> allinv cs cl -> mget id (cl_nodes cl) = Some n -> loop_good cs n ->
  exists n' rd, n_loop n = Ok (n', rd) /\
    allinv cs (mkCluster (mset id n' (cl_nodes cl)) (cl_net cl ++ rd_msgs rd) (cl_hist cl ++ List.map (fun e => (id, e)) (rd_committed rd))).
Proof.
  intros Ho V Hn G.
  assert (D : dinv n /\ tok (rn_raft n) /\ tc_outgoing (t_config (r_trk (rn_raft n))) = []).
  { destruct V as [Hv (t0 & g & F & I & _)]. pose proof (ci_node _ _ _ _ _ I _ _ Hn) as X. destruct (ci_el _ _ _ _ _ I _ _ Hn) as [T _].
    split; [eapply nv_d; eauto|]. split; [exact T|]. destruct (nv_run _ _ _ _ _ X) as (s' & O & _ & VR & _). destruct (v_conf _ _ _ _ _ VR) as [_ P]. rewrite Ho in P. apply Permutation_nil in P. exact P. }
  destruct D as (D & T & On). pose proof (autol_simple _ T On) as A1.
  assert (A : act_ok cs cl (Spec_Total.ACall id NHandle)) by (exists n; split; [exact Hn|split; exact Logic.I]).
  destruct (act_total _ _ _ V A) as [cl' R]. pose proof (step_allinv _ _ _ _ V A R) as V'.
  cbn [act_run] in R. rewrite Hn in R. apply bind_ok in R. destruct R as ([m out] & R & R'). apply Ok_inj in R'. subst cl'.
  cbn [n_step] in R. apply bind_ok in R. destruct R as ([m1 rd] & Hh & R'). apply Ok_inj, pair_equal_spec in R'. destruct R' as [-> <-].
  cbn [out_msgs out_ents o_ready] in V'.
  destruct (handle_sub _ _ _ D Hh A1) as (n1 & s & u & l0 & ps & ph & H1 & H2 & Q & Hm & W & Ht & Htr & Hr & HA & Hpos).
  unfold loop_good in G. rewrite H1, H2 in G. rewrite Hm in V'.
  destruct (confs_total _ _ _ _ _ _ _ _ _ _ _ Q G Hpos W Ht V') as (n2 & H3 & V2).
  exists (subn u l0 ps ph None n2), rd. split; [|exact V2].
  pose proof (good_keep _ _ _ G) as K.
  assert (O2 : tc_outgoing (t_config (r_trk (rn_raft n2))) = []) by (eapply keep_simple; eauto; rewrite Htr; exact On).
  assert (A2 : autol (rn_raft n2) = false).
  { assert (T2 : tok (rn_raft (subn u l0 ps ph None n2))).
    { destruct V2 as [_ (t0 & g & F & I & _)]. apply (ci_el _ _ _ _ _ I id (subn u l0 ps ph None n2)). cbn [cl_nodes]. apply mget_mset_same. }
    exact (autol_simple _ T2 O2). }
  eapply loop_total; eauto.
Qed.
Lemma dact_allinv cs cl : cs_outgoing cs = [] -> dact_reach cs cl -> allinv cs cl.
Proof.
  intros Ho H. induction H as [cl H|cl [a|id] cl' H IH Ha Hr]; [apply start_allinv; auto|eapply step_allinv; eauto|].
  destruct Ha as (n & Hn & G). cbn [dact_run] in Hr. rewrite Hn in Hr. destruct (iter_total _ _ _ _ Ho IH Hn G) as (n' & rd & L & V). rewrite L in Hr. apply Ok_inj in Hr. subst cl'. exact V.
Qed.
(** No action of C57 and no iteration of the documented loop ends in an abort, a null dereference or
    a loop without end. *)
Theorem C77_no_abort cs cl a : dact_reach cs cl -> cs_outgoing cs = [] -> dact_ok cs cl a -> exists cl', dact_run cl a = Ok cl'.
Proof.
  intros H Ho Ha. pose proof (dact_allinv _ _ Ho H) as V. destruct a as [a|id]; [exact (act_total _ _ _ V Ha)|].
  destruct Ha as (n & Hn & G). destruct (iter_total _ _ _ _ Ho V Hn G) as (n' & rd & L & _). cbn [dact_run]. rewrite Hn, L. eexists. reflexivity.
Qed.
(** The converse of C76_order: when the Ready can be handled first and its changes applied afterwards,
    the documented order works too, and comes to the same. *)
Theorem C77_converse c n outs m rd n1 s n2 : looped c n outs -> ~ awaits_leave n -> n_handle n = Ok (m, rd) ->
  rn_get_ready n = Ok (n1, rd) -> persist_ready rd (node_storage n1) = Ok s ->
  apply_confs (rd_committed rd) (set_storage s n1) = Ok n2 -> ~ awaits_leave n2 ->
  exists n', n_loop n = Ok (n', rd) /\ apply_confs (rd_committed rd) m = Ok n'.
Proof.
  intros L A1 Hh H1 H2 H3 A2. destruct (looped_inv _ _ _ L) as [[D _] _]. apply awaits_autol in A1. apply awaits_autol in A2.
  destruct (handle_sub _ _ _ D Hh A1) as (n1' & s' & u & l0 & ps & ph & G1 & G2 & Q & Hm & W & Ht & Htr & Hr & HA & Hpos).
  rewrite H1 in G1. apply Ok_inj, pair_equal_spec in G1. destruct G1 as [<- _]. rewrite H2 in G2. apply Ok_inj in G2. subst s'.
  pose proof (loop_total _ _ _ _ _ _ _ _ ps ph D Hh A1 H1 H2 HA W Ht Hr Htr H3 A2 Hm Q) as X.
  eexists. split; [exact X|]. subst m. destruct (apply_confs_sub u l0 ps ph None _ _ _ Q H3) as [Y _]. exact Y.
Qed.
End Theorems.

(** The run of C76_example meets the hypotheses: node 1 is elected, proposes to add learner 4, commits
    that with node 2, and both apply it in the documented loop; then any of them may go on. *)
Section Example_.
#[local] Existing Instance ex_env_ln.
Definition learner_changeb (cc : cci) (n : rawnode) : bool :=
  let conf := trk_confstate (r_trk (rn_raft n)) in
  is_nil (cs_outgoing conf) &&
  match cc with
  | CCv1 c => match c1_type c with CcAddLearnerNode => negb (existsb (N.eqb (c1_node c)) (cs_voters conf)) | _ => false end
  | _ => false
  end.
Lemma learner_changeb_ok cc n : learner_changeb cc n = true -> learner_change cc n.
Proof.
  unfold learner_changeb, learner_change. cbv zeta. intros H. apply andb_prop in H. destruct H as [H1 H2].
  destruct cc as [|c|c]; try discriminate. destruct c as [ty nd cx i]. cbn [c1_type c1_node] in *. destruct ty; try discriminate. apply negb_true_iff in H2. split.
  - destruct (cs_outgoing _); [reflexivity|discriminate].
  - eexists _, (mkCC CcAddLearnerNode nd). split; [reflexivity|]. split; [reflexivity|]. split; [reflexivity|]. cbn [cc_type cc_node]. intros X.
    assert (Y : existsb (N.eqb nd) (cs_voters (trk_confstate (r_trk (rn_raft n)))) = true) by (apply existsb_exists; exists nd; split; [exact X|apply N.eqb_refl]). congruence.
Qed.
Fixpoint confs_goodb (cs : confstate) (es : list entry) (n : rawnode) : bool :=
  match es with
  | [] => true
  | e :: t => match conf_of e with
              | None => confs_goodb cs t n
              | Some cc => learner_changeb cc n && match rn_apply_conf_change cc n with Ok (n1, c) => same_votersb cs c && confs_goodb cs t n1 | _ => false end
              end
  end.
Lemma confs_goodb_ok cs es : forall n, confs_goodb cs es n = true -> confs_good cs es n.
Proof.
  induction es as [|e es IH]; intros n H; cbn [confs_goodb confs_good] in *; auto. destruct (conf_of e) as [cc|]; auto.
  apply andb_prop in H. destruct H as [H0 H]. split; [apply learner_changeb_ok; exact H0|].
  destruct (rn_apply_conf_change cc n) as [[n1 c]| | |]; auto. apply andb_prop in H. destruct H as [H1 H2]. split; auto.
  unfold same_votersb in H1. destruct (list_eq_dec _ _ _) as [X|]; [|discriminate]. destruct (list_eq_dec _ _ _) as [Y|]; [|discriminate]. split; rewrite ?X, ?Y; apply Permutation_refl.
Qed.
Definition loop_goodb (cs : confstate) (n : rawnode) : bool :=
  match rn_get_ready n with
  | Ok (n1, rd) => match persist_ready rd (node_storage n1) with Ok s => confs_goodb cs (rd_committed rd) (set_storage s n1) | _ => false end
  | _ => false
  end.
Lemma loop_goodb_ok cs n : loop_goodb cs n = true -> loop_good cs n.
Proof. unfold loop_goodb, loop_good. destruct (rn_get_ready n) as [[n1 rd]| | |]; auto. destruct (persist_ready rd _); auto. apply confs_goodb_ok. Qed.
(** Whether the action is one of those allowed, and what it is here. *)
Definition dact_goodb (cs : confstate) (a : Prop_Order.dact) (cl : cluster) : bool :=
  match a with
  | DaLoop id => match mget id (cl_nodes cl) with Some n => loop_goodb cs n | None => false end
  | DaCall _ (NProposeCC CCNull) => false
  | _ => true
  end.
Lemma dact_good cs a cl cl' : dact_goodb cs a cl = true -> dact_step cs a cl = Some cl' -> exists b, dact_ok cs cl b /\ dact_run cl b = Ok cl'.
Proof.
  destruct a as [id|id o|k]; cbn [dact_goodb dact_step].
  - destruct (mget id (cl_nodes cl)) as [n|] eqn:Hn; [|discriminate]. intros G. destruct (loop_keepsb cs n); [|discriminate]. destruct (n_loop n) as [[n' rd]| | |] eqn:Hl; try discriminate.
    intros X. injection X as <-. exists (DIter id). split; [exists n; split; [exact Hn|apply loop_goodb_ok; exact G]|]. cbn [dact_run]. rewrite Hn, Hl. reflexivity.
  - intros G. destruct o; try discriminate; (destruct (mget id (cl_nodes cl)) as [n|] eqn:Hn; [|discriminate]);
      match goal with |- context[n_step ?o n] => destruct (n_step o n) as [[n' out]| | |] eqn:Hs; try discriminate; intros X; injection X as <-; exists (DAct (Spec_Total.ACall id o)) end;
      (split; [exists n; split; [exact Hn|split; [exact Logic.I|]]|cbn [dact_run act_run]; rewrite Hn, Hs; reflexivity]); try exact Logic.I.
    destruct cc; cbn; try discriminate.
  - intros _. destruct (nnth (cl_net cl) k) as [m|] eqn:Hk; [|discriminate]. destruct (mget (m_to m) (cl_nodes cl)) as [n|] eqn:Hn; [|discriminate].
    destruct (n_step (NStep m) n) as [[n' out]| | |] eqn:Hs; try discriminate. intros X; injection X as <-. exists (DAct (Spec_Total.ADeliver (m_to m) m)). split.
    + split; [unfold nnth in Hk; eapply nth_error_In; eauto|]. split; auto. congruence.
    + cbn [dact_run act_run]. rewrite Hn, Hs. reflexivity.
Qed.
Fixpoint dacts_good (cs : confstate) (l : list Prop_Order.dact) (cl : cluster) : option cluster :=
  match l with
  | [] => Some cl
  | a :: t => if dact_goodb cs a cl then match dact_step cs a cl with Some c => dacts_good cs t c | None => None end else None
  end.
Lemma dacts_reach cs l : forall cl cl', dact_reach cs cl -> dacts_good cs l cl = Some cl' -> dact_reach cs cl'.
Proof.
  induction l as [|a l IH]; intros cl cl' R; cbn [dacts_good]; [intros H; injection H as <-; exact R|].
  destruct (dact_goodb cs a cl) eqn:G; [|discriminate]. destruct (dact_step cs a cl) as [c1|] eqn:Hs; [|discriminate]. apply IH.
  destruct (dact_good _ _ _ _ G Hs) as (b & B1 & B2). eapply DrStep; eauto.
Qed.
Lemma new_storage c tape n s : rn_new c tape = Ok n -> c_storage c = Some s -> node_storage n = s.
Proof.
  intros Hr Hs. apply rn_new_spec in Hr. destruct Hr as (r & Hr & ->). apply raft_new_spec in Hr. destruct Hr as (s' & cp & _ & Hs' & _ & _ & _ & _ & Fr).
  unfold node_storage. cbn [rn_raft]. rewrite (fr_log _ _ _ _ Fr). cbn. congruence.
Qed.
Lemma exd_good_start cl : three (rn_new (exc_cfg 1) exd_tape) (rn_new (exc_cfg 2) exd_tape) (rn_new (exc_cfg 3) exd_tape) = Some cl -> good_start exc_conf cl.
Proof.
  intros H. split; [apply exd_start_ok; exact H|]. apply three_ok in H. destruct H as (a & b & c & Ha & Hb & Hc & ->).
  intros id n Hg. cbn [cl_nodes mget] in Hg.
  assert (X : node_storage n = exc_storage).
  { destruct (id =? 1); [injection Hg as <-; eapply new_storage; [exact Ha|reflexivity]|].
    destruct (id =? 2); [injection Hg as <-; eapply new_storage; [exact Hb|reflexivity]|].
    destruct (id =? 3); [injection Hg as <-; eapply new_storage; [exact Hc|reflexivity]|discriminate]. }
  rewrite X. apply exc_conf_ok.
Qed.
Definition exd_good_run (o : option cluster) := match o with Some s => dacts_good exc_conf exd_acts s | None => None end.
Example C77_example : exists cl, dact_reach exc_conf cl /\ cs_outgoing exc_conf = [] /\
  exd_look cl = [(1, RLeader, 2, 7, [4]); (2, RFollower, 2, 7, [4]); (3, RFollower, 1, 5, [])] /\
  dact_ok exc_conf cl (DIter 1) /\ dact_ok exc_conf cl (DIter 3) /\ dact_ok exc_conf cl (DAct (Spec_Total.ACall 2 NCampaign)).
Proof.
  set (st := three (rn_new (exc_cfg 1) exd_tape) (rn_new (exc_cfg 2) exd_tape) (rn_new (exc_cfg 3) exd_tape)).
  assert (X : option_map (fun cl => (exd_look cl, dact_goodb exc_conf (DaLoop 1) cl, dact_goodb exc_conf (DaLoop 3) cl, match mget 2 (cl_nodes cl) with Some _ => true | None => false end)) (exd_good_run st) =
    Some ([(1, RLeader, 2, 7, [4]); (2, RFollower, 2, 7, [4]); (3, RFollower, 1, 5, [])], true, true, true)) by (vm_compute; reflexivity).
  pose proof exd_good_start as S. fold st in S. clearbody st. destruct st as [s|]; [|discriminate X]. specialize (S s eq_refl).
  cbn [exd_good_run] in X. destruct (dacts_good exc_conf exd_acts s) as [cl|] eqn:H; [|discriminate X]. cbn [option_map] in X. injection X as X1 X2 X3 X4.
  exists cl. split; [eapply dacts_reach; [apply DrStart; exact S|exact H]|]. split; [reflexivity|]. split; [exact X1|]. clear H S X1.
  split; [|split].
  - unfold dact_goodb in X2. destruct (mget 1 (cl_nodes cl)) as [n|] eqn:Hn; [|discriminate]. exists n. split; [exact Hn|apply loop_goodb_ok; exact X2].
  - unfold dact_goodb in X3. destruct (mget 3 (cl_nodes cl)) as [n|] eqn:Hn; [|discriminate]. exists n. split; [exact Hn|apply loop_goodb_ok; exact X3].
  - destruct (mget 2 (cl_nodes cl)) as [n|] eqn:Hn; [|discriminate]. exists n. split; [exact Hn|split; exact Logic.I].
Qed.
End Example_.
(** Those of C77_converse are met where those of C76_order are (C76_example_order): the change is applied
    by either order. *)
Section ConverseExample.
#[local] Existing Instance ex_env_ln.
Definition ex_converse (n n' : rawnode) : bool :=
  match n_handle n, rn_get_ready n with
  | Ok (m, rd), Ok (n1, rd') =>
      match persist_ready rd' (node_storage n1) with
      | Ok s => match apply_confs (rd_committed rd') (set_storage s n1), apply_confs (rd_committed rd) m with
                | Ok n2, Ok m2 => negb (tc_auto_leave (ns_config (rn_status n))) && negb (tc_auto_leave (ns_config (rn_status n2))) && is_nil (tc_learners (ns_config (rn_status n))) && negb (is_nil (tc_learners (ns_config (rn_status m2))))
                | _, _ => false
                end
      | _ => false
      end
  | _, _ => false
  end.
Example C77_converse_example : exists n outs n' outs', looped (ex_cfg 1) n outs /\ none_dropped outs /\ l_run_ok [] n /\ l_run [] n = Ok (n', outs') /\ none_dropped outs' /\ ex_converse n n' = true.
Proof. apply (loop_case_ok (ex_cfg 1) ex_tape ex_ln_run [] ex_converse). vm_compute. reflexivity. Qed.
End ConverseExample.
