(** No call aborts in a cluster: the invariant that keeps every node able to take every call. *)
From Coq Require Import Permutation.
From Verif Require Import Prelude Types M_Util M_Quorum M_Inflights M_Progress M_Tracker.
From Verif Require Import M_Storage M_Unstable M_Log M_ReadOnly M_ConfPb M_ConfChange M_Raft M_RawNode.
From Verif Require Import Spec_RaftLog Spec_Quorum P_Quorum P_Inflights Spec_Log P_Lists P_Storage P_Log P_RaftLogSeq P_Frame P_Prim Sys_Node P_Node P_Fields P_Vote Spec_Node P_New P_NodeLog P_Handle P_NodeRun P_Emit A_Proto Sys_Cluster R_Log R_Sim R_Elig P_Conf R_Node R_Cluster.
From Verif Require Import Spec_Inflights Spec_ReadOnly P_ReadOnly Spec_ConfChange P_ConfChange Prop_Api P_Total P_Total2 Spec_Total P_Total3 P_Total4 P_Total5 P_Total6 Spec_Api Sys_ConfChange Prop_ConfChange.

Section RTotal.
Context {E : Env}.
Variable cs : confstate.
Hypothesis cs_ne : cs_voters cs <> [].
Variable t0 : N.
Notation gi := (ginv (vquorum cs) t0).

(** The running state of a node, with the facts it will publish. *)
Lemma run_state g F id n : gi g F -> nodeinv cs id F (g id) n -> exists s O, gi (upd g id s) (O ++ F) /\ vrel cs id (O ++ F) s (rn_raft n) /\
  Forall (msg_ok cs (O ++ F)) (r_msgs (rn_raft n)).
Proof.
  intros G V. destruct (nv_run _ _ _ _ _ V) as (s & O & S1 & S2 & S3). exists s, O. split; [|auto].
  pose proof (lsteps_ginv _ (vquorum_meet cs cs_ne) (vmember cs) t0 [] _ _ _ S1 g G eq_refl) as G'. exact G'.
Qed.
Lemma live_of g F id n : gi g F -> nodeinv cs id F (g id) n -> tok (rn_raft n) -> elig (rn_raft n) -> jok (rn_raft n) -> rdok (rn_raft n) ->
  live (rn_raft n).
Proof.
  intros G V T L J R. destruct (run_state _ _ _ _ G V) as (s & O & G' & V' & _). pose proof (nv_d _ _ _ _ _ V) as D.
  pose proof (v_log _ _ _ _ _ V') as Lr. destruct J as [J1 J2 J3 J4 J5 J6]. constructor; auto; try apply D.
  - unfold a_term0, a_term. destruct (N.eqb_spec 0 (a_base (log_abs (r_log (rn_raft n))))) as [Hb|Hb].
    + rewrite <- (lr_bterm _ _ Lr), <- Hb, ntake_0. reflexivity.
    + unfold a_entry. destruct (N.ltb_spec (a_base (log_abs (r_log (rn_raft n)))) 0); [lia|reflexivity].
  - intros Hz. rewrite (lr_last _ _ Lr). destruct (N.eq_dec (nlen (an_log s)) 0) as [|Hne]; auto. exfalso.
    destruct (lastterm_nth (an_log s)) as (e & H1 & H2); [intros X; rewrite X in Hne; auto|].
    assert (B : e_term e <= 0).
    { pose proof (gi_bnd _ _ _ _ G' id) as B. rewrite upd_same in B. specialize (B _ _ H1). rewrite (v_term _ _ _ _ _ V'), Hz in B. exact B. }
    pose proof (ni_pos _ (di_ninv _ D)) as P. pose proof (lp_log _ P) as [P1 P2].
    pose proof (lr_base _ _ Lr) as Hb. destruct (N.eq_dec (a_base (log_abs (r_log (rn_raft n)))) (nlen (an_log s))) as [Eb|Nb].
    + pose proof (lr_bterm _ _ Lr) as Hbt. rewrite Eb, ntake_all in Hbt by lia. specialize (P2 ltac:(lia)). rewrite <- Hbt, H2 in P2. lia.
    + assert (Hi : In e (a_ents (log_abs (r_log (rn_raft n))))).
      { rewrite (lr_ents _ _ Lr). apply (nnth_In _ (nlen (an_log s) - 1 - a_base (log_abs (r_log (rn_raft n))))). rewrite nnth_ndrop.
        rewrite <- H1. f_equal. lia. }
      apply P1 in Hi. lia.
Qed.

(** Messages of the cluster are good where they arrive. *)
Definition stray (r : raft) (m : msg) : Prop := m_type m = MsgTransferLeader /\ m_term m = r_term r /\ r_state r = RFollower /\ r_lead r <> 0 /\ m_term m <> 0.
Lemma deliver_good g F id n m : gi g F -> nodeinv cs id F (g id) n -> msg_ok cs F m -> mstat m -> m_to m = id ->
  ~ stray (rn_raft n) m -> mgood (rn_raft n) m /\ wf_in m.
Proof.
  intros G V [Hw Hl Hf] Hst Hto Hns. split.
  - destruct Hw as [_ Hw]. unfold mgood, mstat, msg_fact, stray in *. destruct (m_type m) eqn:Ht; auto; try tauto.
    + destruct Hl as [Hl _]. auto.
    + destruct Hl as [_ Hl]. auto.
    + intros Hge. destruct (run_state _ _ _ _ G V) as (s & O & G' & V' & _).
      destruct Hf as [_ [->|(L & t & C & H1 & H2 & _)]]; [lia|]. rewrite Hto in H1.
      assert (H1' : In (FAck (m_term m) id L) (O ++ F)) by (apply in_or_app; auto).
      destruct (gi_ack _ _ _ _ G' _ _ _ H1') as [Ha _]. rewrite upd_same, (v_term _ _ _ _ _ V') in Ha.
      pose proof (gi_ret _ _ _ _ G' _ _ L L H1' (pre_refl _)) as X. rewrite upd_same, (v_term _ _ _ _ _ V') in X.
      rewrite (lr_last _ _ (v_log _ _ _ _ _ V')). apply pre_len in X; [lia|]. intros u l M _ Hu. lia.
    + destruct (N.eq_dec (m_term m) 0); [auto|]. right. intros (A & B & C). apply Hns. auto.
  - intros Hz. destruct Hw as [_ Hw]. destruct (Hw Hz) as [X|[X|X]]; rewrite X; reflexivity.
Qed.

Record tnode (n : rawnode) : Prop := { tn_j : jok (rn_raft n); tn_r : rdok (rn_raft n) }.
Definition tinv (cl : cluster) : Prop :=
  (forall id n, mget id (cl_nodes cl) = Some n -> tnode n) /\ Forall mstat (cl_net cl).

Lemma learner_applies cc n : tok (rn_raft n) -> tc_incoming (t_config (r_trk (rn_raft n))) <> [] -> learner_change cc n ->
  exists v2 cp, cci_as_v2 cc = Ok v2 /\ leave_joint v2 = false /\ enter_joint v2 = (false, false) /\
      ch_simple (c2_changes v2) (mkChanger (r_trk (rn_raft n)) (r_last (rn_raft n))) = SOk cp.
Proof.
  intros T Hne (Ho & v2 & c & H1 & H2 & H3 & H4). cbn in Ho. exists v2. unfold leave_joint, enter_joint. rewrite H2, H3. cbn.
  destruct (ch_simple [c] (mkChanger (r_trk (rn_raft n)) (r_last (rn_raft n)))) as [cp|e] eqn:Hc; [eauto 7|]. exfalso.
  assert (W : ch_wf (mkChanger (r_trk (rn_raft n)) (r_last (rn_raft n)))) by exact T.
  pose proof (C20_fails_only_if _ (OpSimple [c]) e W) as F. cbn [cc_call] in F. rewrite Hc in F. specialize (F eq_refl). cbn in F.
  assert (K : forall id, In id (tc_incoming (t_config (r_trk (rn_raft n)))) <-> voter_after (t_config (r_trk (rn_raft n))) [c] id).
  { intros id. unfold voter_after, last_change. cbn [fold_left]. destruct (concerns id c) eqn:Hcc; [|reflexivity].
    unfold concerns in Hcc. apply andb_true_iff in Hcc. destruct Hcc as [Hcc H5]. apply andb_true_iff in Hcc. destruct Hcc as [Hcc _].
    apply N.eqb_eq in Hcc. subst id. cbn in H4. destruct (cc_type c); split; intros; try discriminate; try contradiction; auto. }
  destruct F as [F|[F|(x & y & _ & F & _)]].
  - auto.
  - destruct (tc_incoming (t_config (r_trk (rn_raft n)))) as [|a t] eqn:Hi; [congruence|]. apply (F a). apply K. left. reflexivity.
  - apply F. apply K.
Qed.
Lemma call_stat g F id o n : gi g F -> nodeinv cs id F (g id) n -> tok (rn_raft n) -> call_ok cs o n -> call_good o n -> op_stat o n /\ op_good o n /\ nop_ok o n.
Proof.
  intros G V T. destruct o; cbn; try tauto; intros; repeat split; cbn; try tauto.
  all: assert (L : 1 <= r_last (rn_raft n)) by (pose proof (li_wf _ (ni_log _ (di_ninv _ (nv_d _ _ _ _ _ V)))) as W; pose proof (lwf_com _ W); unfold r_last; rewrite log_last_abs by (apply lwf_0; exact W); lia); auto.
  apply learner_applies; auto; [|tauto]. destruct (run_state _ _ _ _ G V) as (s & O & _ & R & _). destruct (v_conf _ _ _ _ _ R) as [P _].
  intros X. rewrite X in P. apply Permutation_sym, Permutation_nil in P. contradiction.
Qed.

Lemma new_tnode c tape n s : c_storage c = Some s -> rn_new c tape = Ok n -> cov s -> conf_ok (sn_conf (ms_snap s)) -> tnode n.
Proof.
  intros Hs Hn Hc Hk. apply C48_validate in Hn as V. apply rn_new_spec in Hn. destruct Hn as (r & Hr & ->). apply raft_new_spec in Hr.
  destruct Hr as (s' & cp & _ & Hs' & _ & _ & _ & _ & F). assert (s' = s) by congruence. subst s'. cbn [rn_raft].
  assert (Hst : l_st (r_log r) = s /\ u_snap (l_us (r_log r)) = None) by (rewrite (fr_log _ _ _ _ F); split; reflexivity). destruct Hst as [H1 H2].
  assert (Hm : 0 < Z.to_N (c_max_inflight c)) by (destruct V; lia).
  constructor; cbn [rn_raft]; constructor; rewrite ?H1; auto.
  - intros id p Hg. unfold trk_get in Hg. rewrite (fr_prs _ _ _ _ F) in Hg. destruct (mget id (snd cp)); [|discriminate]. cbn in Hg. injection Hg as <-.
    destruct (id =? c_id c); [apply pok_match|]; apply pok_new; auto; lia.
  - rewrite (fr_maxinf _ _ _ _ F). auto.
  - rewrite H2. discriminate.
  - rewrite (fr_msgs _ _ _ _ F). constructor.
  - rewrite (fr_pend _ _ _ _ F). constructor.
  - rewrite (fr_ro _ _ _ _ F). exists []. apply ro_rel_new.
Qed.
Lemma out_msgs_in o n n' out : n_step o n = Ok (n', out) -> forall m, In m (out_msgs out) -> In m (r_msgs (rn_raft n)).
Proof.
  intros H m Hm. unfold out_msgs in Hm. destruct o; cbn [n_step] in H; apply bind_ok in H || idtac.
  all: try (destruct H as ([? ?] & H & Hx); apply Ok_inj in Hx; injection Hx as <- <-; cbn in Hm; try contradiction).
  all: try (destruct H as (? & H & Hx); apply Ok_inj in Hx; injection Hx as <- <-; cbn in Hm; try contradiction).
  all: try (apply Ok_inj in H; injection H as <- <-; cbn in Hm; contradiction).
  - apply get_ready_inv in H. destruct H as (R & _). rewrite (ro_msgs _ _ R) in Hm. exact Hm.
  - unfold n_handle in H. apply bind_ok in H. destruct H as ([n1 rd] & H1 & H). apply bind_ok in H. destruct H as (s & _ & H).
    apply bind_ok in H. destruct H as (n2 & _ & H). apply Ok_inj in H. injection H as <- <-.
    apply get_ready_inv in H1. destruct H1 as (R & _). rewrite (ro_msgs _ _ R) in Hm. exact Hm.
Qed.

Lemma call_total g F cl id o n : R_Cluster.cinv cs t0 g F cl -> tinv cl -> mget id (cl_nodes cl) = Some n -> op_good o n -> total (n_step o n).
Proof.
  intros I [T _] Hn Hg. pose proof (ci_node _ _ _ _ _ I _ _ Hn) as V. destruct (T _ _ Hn) as [J R]. destruct (ci_el _ _ _ _ _ I _ _ Hn) as [T1 T2].
  apply n_step_total; auto; [apply V|]. eapply live_of; eauto. apply (ci_g _ _ _ _ _ I).
Qed.
Lemma restart_total g F cl id n c tape : R_Cluster.cinv cs t0 g F cl -> tinv cl -> mget id (cl_nodes cl) = Some n -> c_storage c = Some (node_storage n) ->
  config_valid c -> (c_applied c = 0 \/ e_index (ms_dummy (node_storage n)) <= c_applied c <= hs_commit (restart_hs (node_storage n))) ->
  total (rn_new c tape).
Proof.
  intros I [T _] Hn Hs Hv Ha. pose proof (ci_node _ _ _ _ _ I _ _ Hn) as V. destruct (T _ _ Hn) as [J R]. destruct (jk_conf _ J) as [K1 K2 K3 K4 K5].
  destruct (C50_restart c (node_storage n) tape) as (n' & H & _); auto; [|exists n'; auto]. apply (di_st _ (nv_d _ _ _ _ _ V)).
Qed.
Lemma tinv_step g F cl id o n n' out net hist : R_Cluster.cinv cs t0 g F cl -> tinv cl -> mget id (cl_nodes cl) = Some n -> nop_ok o n -> op_stat o n ->
  n_step o n = Ok (n', out) -> net = cl_net cl \/ net = cl_net cl ++ out_msgs out -> tinv (mkCluster (mset id n' (cl_nodes cl)) net hist).
Proof.
  intros I [T N] Hn Hk Hst Hs Hnet. pose proof (ci_node _ _ _ _ _ I _ _ Hn) as V. destruct (T _ _ Hn) as [J R]. split; cbn [cl_nodes cl_net].
  - intros i x Hx. rewrite mget_mset in Hx. destruct (N.eqb_spec i id); [|eauto]. injection Hx as <-. constructor.
    + eapply n_step_jok; eauto. apply V.
    + eapply n_step_rdok; eauto. apply Hk.
  - destruct Hnet as [-> | ->]; auto. apply Forall_app. split; auto. rewrite Forall_forall. intros m Hm.
    apply (proj1 (Forall_forall _ _) (jk_msgs _ J)). eapply out_msgs_in; eauto.
Qed.
End RTotal.
