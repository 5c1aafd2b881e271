(** C71: the applications of a cluster form one replicated state machine. *)
From Coq Require Import Permutation.
From Verif Require Import Prelude Types M_Util M_Quorum M_Inflights M_Progress M_Tracker.
From Verif Require Import M_Storage M_Unstable M_Log M_ReadOnly M_ConfPb M_ConfChange M_Raft M_RawNode.
From Verif Require Import Spec_RaftLog Spec_Quorum P_Quorum P_Inflights Spec_Log P_Lists P_Storage P_Log P_RaftLogSeq P_Frame P_Prim Sys_Node P_Node P_Fields P_Vote Spec_Node P_New P_NodeLog P_Handle P_NodeRun P_Emit A_Proto Sys_Cluster Spec_Cluster R_Log R_Sim R_Elig P_Conf R_Switch R_Node R_Cluster.
From Verif Require Import Prop_Deliver Prop_Cluster Sys_App Spec_App P_App Ex_Env Ex_Cluster Ex_App.

Section RSM.
Context {E : Env}.
Variable V : Type.
Variable apply : entry -> V -> V.
Variable enc : V -> string.
Variable dec : string -> V.
Variable v0 : V.
Hypothesis roundtrip : forall v, dec (enc v) = v.

Notation rstep := (rstep V apply enc dec v0).
Notation rreach := (rreach V apply enc dec v0).
Notation val := (replayed apply v0).

(** The cluster under the applications is a cluster. *)
Lemma rstep_cstep cs rc rc' : rstep cs rc rc' -> cstep cs (rc_cl rc) (rc_cl rc').
Proof. destruct 1; cbn [rc_cl]; [eapply CCall|eapply CDeliver|eapply CRestart]; eauto. Qed.
Lemma rreach_reachable i0 cs rc : rreach i0 cs rc -> reachable cs (rc_cl rc).
Proof. induction 1 as [rc H|rc rc' H IH Hs]; [apply CrStart, H|]. eapply CrStep; eauto using rstep_cstep. Qed.

Lemma val_mono i0 cl cl' i v : incl (cl_hist cl) (cl_hist cl') -> val i0 cl i v -> val i0 cl' i v.
Proof.
  intros H (es & A1 & A2 & A3). exists es. split; [auto|]. split; [auto|]. intros k e Hk. destruct (A3 _ _ Hk) as (B1 & id & B2).
  split; auto. exists id. apply H. auto.
Qed.
Lemma val_unique i0 cs cl i v w : reachable cs cl -> val i0 cl i v -> val i0 cl i w -> v = w.
Proof.
  intros R (es & A1 & -> & A3) (fs & B1 & -> & B3). f_equal. apply list_ext. intros k.
  destruct (nnth es k) as [e|] eqn:He; destruct (nnth fs k) as [f|] eqn:Hf; auto.
  - destruct (A3 _ _ He) as (X1 & a & X2). destruct (B3 _ _ Hf) as (Y1 & b & Y2). f_equal.
    eapply C55_state_machine_safety; eauto. congruence.
  - exfalso. apply nnth_Some_lt in He. assert (nnth fs k <> None); [|auto]. intros X. apply nnth_None in X. lia.
  - exfalso. apply nnth_Some_lt in Hf. assert (nnth es k <> None); [|auto]. intros X. apply nnth_None in X. lia.
Qed.

Definition good (i0 : N) (cl : cluster) (s : snapshot) : Prop :=
  (sn_index s = 0 -> i0 = 0) /\ (sn_index s <> 0 -> val i0 cl (sn_index s) (dec (sn_data s))).
Lemma good_mono i0 cl cl' s : incl (cl_hist cl) (cl_hist cl') -> good i0 cl s -> good i0 cl' s.
Proof. intros H [A B]. split; auto. intros. eapply val_mono; eauto. Qed.

Record rinv (i0 : N) (rc : rcluster V) : Prop := {
  ri_held : forall id a, In (id, a) (rc_held rc) -> val i0 (rc_cl rc) (fst a) (snd a);
  ri_app : forall id a, mget id (rc_app rc) = Some a -> In (id, a) (rc_held rc);
  ri_node : forall id n, mget id (cl_nodes (rc_cl rc)) = Some n ->
    exists a, mget id (rc_app rc) = Some a /\ fst a = node_applied n /\ sgood (good i0 (rc_cl rc)) (rn_raft n);
  ri_net : forall m, In m (cl_net (rc_cl rc)) -> m_type m = MsgSnap -> good i0 (rc_cl rc) (m_snap m)
}.

Lemma val_start i0 cl : val i0 cl i0 v0.
Proof. exists []. split; [nl|]. split; auto. intros k e H. apply nnth_In in H. destruct H. Qed.

Lemma rinv_start i0 cs rc : rstart V dec v0 i0 cs rc -> rinv i0 rc.
Proof.
  intros [[Hnet Hhist Hv (j0 & t0 & Hz & Hn)] Ha Ho Hh]. constructor.
  - intros id a Hin. apply Hh in Hin. subst a. apply val_start.
  - auto.
  - intros id n Hg. destruct (Ha _ _ Hg) as (A1 & A2 & A3). exists (i0, v0). split; auto.
    destruct (Hn _ _ Hg) as (c & tape & s & H1 & H2 & S & H3). destruct (dinv_new _ _ _ _ H2 (ss_ok _ _ _ _ S) H3) as (D & _ & Es).
    destruct (new_applied _ _ _ _ H2 (ss_ok _ _ _ _ S) H3) as [B1 B2]. rewrite Es in *. destruct S as [S1 S2 [S3 _] [S4 _] _ _].
    split; [|eapply new_sgood; eauto].
    + cbn [fst]. assert (Hc : hs_commit (restart_hs s) = i0).
      { pose proof (so_com _ S1) as Hc. unfold ms_last_index, ms_ents in Hc. rewrite S2 in Hc. unfold nlen in Hc. cbn [List.length] in Hc. lia. }
      assert (Hf : ms_first_index s = i0 + 1) by (rewrite ms_first_abs; unfold a_first; cbn; lia). lia.
    + split; intros X; [lia|]. rewrite A2, A3 by congruence. apply val_start.
  - rewrite Hnet. intros m [].
Qed.

(** Applying what a Ready hands over. *)
Lemma fold_apply_one : forall es (a : app V), fold_left (apply_one V apply) es a =
  (match rev es with e :: _ => e_index e | [] => fst a end, fold_left (fun v e => apply e v) es (snd a)).
Proof.
  induction es as [|e es IH]; intros [i v]; auto. cbn [fold_left]. rewrite IH. cbn [rev apply_one fst snd]. f_equal.
  destruct (rev es); auto.
Qed.
Lemma val_more i0 cl i v es : val i0 cl i v -> contig (i + 1) es -> (forall e, In e es -> exists id, delivered cl id e) ->
  val i0 cl (fst (fold_left (apply_one V apply) es (i, v))) (snd (fold_left (apply_one V apply) es (i, v))) /\
  fst (fold_left (apply_one V apply) es (i, v)) = i + nlen es.
Proof.
  intros (fs & A1 & A2 & A3) Hc Hd. rewrite fold_apply_one. cbn [fst snd].
  assert (Hi : match rev es with e :: _ => e_index e | [] => i end = i + nlen es).
  { destruct (rev es) as [|e t] eqn:Hr.
    - assert (Hn : es = []) by (rewrite <- (rev_involutive es), Hr; auto). rewrite Hn. nl.
    - pose proof (rev_contig _ _ _ _ Hc Hr). pose proof (rev_last _ _ _ Hr) as Hl.
      assert (0 < nlen es) by (rewrite Hl, nlen_app, nlen_cons; lia). lia. }
  split; auto. exists (fs ++ es). split; [rewrite Hi, nlen_app; lia|]. split; [rewrite fold_left_app, <- A2; auto|].
  intros k e Hk. destruct (N.ltb_spec k (nlen fs)).
  - rewrite nnth_app1 in Hk by auto. auto.
  - rewrite nnth_app2 in Hk by auto. split; [rewrite (Hc _ _ Hk); lia|]. apply Hd. eapply nnth_In; eauto.
Qed.

Lemma rinv_step i0 cs rc rc' : rreach i0 cs rc -> rinv i0 rc -> rstep cs rc rc' -> rinv i0 rc'.
Proof.
  intros R I H. pose proof (rreach_reachable _ _ _ R) as Rc. destruct (reachable_inv _ _ Rc) as [Hv (t0 & g & F & CI)].
  destruct H as [id o n n' out a Hn Ha Hc Hs Hsn|id m n n' out Hn Hin Hto Hs|id c tape n n' a Hn Hc Hst Hr Hrec Hap Hfi].
  - pose proof (ci_node _ _ _ _ _ CI _ _ Hn) as NV. assert (D : dinv n) by apply NV.
    assert (Hok : nop_ok o n). { destruct o; try (destruct Hc; fail); split; cbn; auto. apply Hc. }
    destruct (ri_node _ _ I _ _ Hn) as (a' & A1 & A2 & A3). assert (a' = a) by congruence. subst a'. clear A1.
    set (cl' := mkCluster (mset id n' (cl_nodes (rc_cl rc))) (cl_net (rc_cl rc) ++ out_msgs out) (cl_hist (rc_cl rc) ++ out_ents id out)).
    assert (Hinc : incl (cl_hist (rc_cl rc)) (cl_hist cl')) by (intros x Hx; apply in_or_app; auto).
    pose proof (ri_held _ _ I id a (ri_app _ _ I _ _ Ha)) as Va.
    assert (Hg : call_good (good i0 (rc_cl rc)) o n).
    { destruct o; try exact Logic.I; [destruct Hc|]. cbn. intros t k _. destruct (Hsn _ _ _ eq_refl) as (v & B1 & ->).
      pose proof (ri_held _ _ I _ _ B1) as Vv. cbn [fst snd] in Vv. split; cbn [sn_index sn_data].
      - intros X. destruct Vv as (es & X1 & _). lia.
      - intros _. rewrite roundtrip. auto. }
    destruct (n_step_sgood _ o n n' out Hok D Hs Hg A3) as (S1 & S2 & S3).
    pose proof (n_step_applied _ _ _ _ Hok D Hs) as Hsp.
    assert (Hva : val i0 cl' (fst (app_after V apply dec out a)) (snd (app_after V apply dec out a)) /\
                  fst (app_after V apply dec out a) = node_applied n').
    { unfold app_after. destruct (o_ready out) as [rd|] eqn:Ho; [|rewrite Hsp; split; auto; eapply val_mono; eauto].
      destruct Hsp as [_ Hh]. destruct (handle_delivery _ _ _ D Hh) as (B1 & B2 & B3 & _).
      unfold apply_ready. unfold resume in *.
      set (a1 := if sn_index (rd_snap rd) =? 0 then a else from_snap V dec (rd_snap rd)).
      assert (Hd : forall e, In e (rd_committed rd) -> exists id, delivered cl' id e).
      { intros e He. exists id. unfold delivered, cl', out_ents; cbn [cl_hist]. rewrite Ho. apply in_or_app. right. apply in_map. auto. }
      assert (V1 : val i0 cl' (fst a1) (snd a1) /\ fst a1 = if sn_index (rd_snap rd) =? 0 then node_applied n else sn_index (rd_snap rd)).
      { unfold a1. destruct (N.eqb_spec (sn_index (rd_snap rd)) 0); [split; auto; eapply val_mono; eauto|].
        split; auto. cbn [fst snd from_snap]. eapply val_mono; eauto. apply (S3 _ eq_refl); auto. }
      destruct V1 as [V1 V2]. rewrite <- V2 in *. destruct a1 as [i1 v1]. cbn [fst snd] in *.
      destruct (val_more _ _ _ _ _ V1 B2 Hd) as [C1 C2]. split; auto. congruence. }
    destruct Hva as [Hva Hai]. constructor; cbn [rc_cl rc_app rc_held].
    + intros i x [Hx|Hx]; [inv Hx; auto|]. eapply val_mono; [exact Hinc|]. eapply (ri_held _ _ I); eauto.
    + intros i x Hx. rewrite mget_mset in Hx. destruct (N.eqb_spec i id) as [->|Hne]; [inv Hx; left; auto|right]. apply (ri_app _ _ I); auto.
    + intros i x Hx. unfold cl' in Hx; cbn [cl_nodes] in Hx. rewrite mget_mset in Hx. rewrite mget_mset. destruct (N.eqb_spec i id) as [->|Hne].
      * inv Hx. eexists. split; [reflexivity|]. split; auto. eapply sgood_mono; [|exact S1]. intros s. apply good_mono. auto.
      * destruct (ri_node _ _ I _ _ Hx) as (b & B1 & B2 & B3). exists b. split; auto. split; auto.
        eapply sgood_mono; [|exact B3]. intros s. apply good_mono. auto.
    + unfold cl' at 1; cbn [cl_net]. intros m Hm Ht. apply (good_mono _ (rc_cl rc)); auto. apply in_app_or in Hm. destruct Hm as [Hm|Hm]; [apply (ri_net _ _ I); auto|].
      apply S2; auto.
  - pose proof (ci_node _ _ _ _ _ CI _ _ Hn) as NV. assert (D : dinv n) by apply NV.
    pose proof (proj1 (Forall_forall _ _) (ci_net _ _ _ _ _ CI) _ Hin) as Hm.
    assert (Hok : nop_ok (NStep m) n) by (split; cbn; apply Hm).
    destruct (ri_node _ _ I _ _ Hn) as (a & A1 & A2 & A3).
    assert (Hg : call_good (good i0 (rc_cl rc)) (NStep m) n) by (intros X; apply (ri_net _ _ I); auto).
    destruct (n_step_sgood _ (NStep m) n n' out Hok D Hs Hg A3) as (S1 & S2 & S3).
    pose proof (n_step_applied _ _ _ _ Hok D Hs) as Hsp.
    constructor; cbn [rc_cl rc_app rc_held cl_nodes cl_net]; try apply I.
    intros i x Hx. rewrite mget_mset in Hx. destruct (N.eqb_spec i id) as [->|Hne]; [|apply (ri_node _ _ I); auto].
    inv Hx. exists a. split; auto. split; auto. destruct (o_ready out); [destruct Hsp; discriminate|]. congruence.
  - pose proof (ci_node _ _ _ _ _ CI _ _ Hn) as NV. assert (D : dinv n) by apply NV.
    destruct (ri_node _ _ I _ _ Hn) as (b & A1 & A2 & A3).
    assert (Va : val i0 (rc_cl rc) (fst a) (snd a)).
    { destruct Hrec as [Hh| ->]; [eapply (ri_held _ _ I); eauto|]. pose proof (sg_st _ _ A3) as [G1 G2]. unfold node_storage.
      destruct (N.eqb_spec (sn_index (ms_snap (l_st (r_log (rn_raft n))))) 0) as [X|X]; [|cbn; auto].
      rewrite (G1 X). apply val_start. }
    destruct (new_applied _ _ _ _ Hst (di_st _ D) Hr) as [B1 _].
    constructor; cbn [rc_cl rc_app rc_held cl_nodes cl_net]; [| | |apply I].
    + intros i x [Hx|Hx]; [inv Hx; auto|]. apply (ri_held _ _ I i x Hx).
    + intros i x Hx. rewrite mget_mset in Hx. destruct (N.eqb_spec i id) as [->|Hne]; [inv Hx; left; auto|right]. apply (ri_app _ _ I); auto.
    + intros i x Hx. rewrite mget_mset in Hx. rewrite mget_mset. destruct (N.eqb_spec i id) as [->|Hne]; [|apply (ri_node _ _ I); auto].
      injection Hx as <-. exists a. split; auto. split; [lia|]. eapply new_sgood; eauto. apply (sg_st _ _ A3).
Qed.
Lemma rreach_inv i0 cs rc : rreach i0 cs rc -> rinv i0 rc.
Proof. induction 1 as [rc H|rc rc' H IH Hs]; [eapply rinv_start; eauto|eapply rinv_step; eauto]. Qed.

(** C71: two states that applications had for the same applied index, on the same or on different
    nodes, at the same or at different times, before or after crashes, are equal. *)
Theorem C71_replicas_agree i0 cs rc a b i v w :
  rreach i0 cs rc -> In (a, (i, v)) (rc_held rc) -> In (b, (i, w)) (rc_held rc) -> v = w.
Proof.
  intros R Ha Hb. pose proof (rreach_inv _ _ _ R) as I.
  eapply val_unique; [eapply rreach_reachable; eauto|exact (ri_held _ _ I _ _ Ha)|exact (ri_held _ _ I _ _ Hb)].
Qed.

(** C71: the state of an application is always the result of applying one gapless sequence of
    committed entries, and its applied index is the one its node reports. *)
Theorem C71_replay i0 cs rc id n :
  rreach i0 cs rc -> mget id (cl_nodes (rc_cl rc)) = Some n ->
  exists v, mget id (rc_app rc) = Some (node_applied n, v) /\ In (id, (node_applied n, v)) (rc_held rc) /\
    replayed apply v0 i0 (rc_cl rc) (node_applied n) v.
Proof.
  intros R Hn. pose proof (rreach_inv _ _ _ R) as I. destruct (ri_node _ _ I _ _ Hn) as ([i v] & A1 & A2 & _). cbn in A2. subst i.
  exists v. split; auto. pose proof (ri_app _ _ I _ _ A1) as Hin. split; auto. apply (ri_held _ _ I _ _ Hin).
Qed.

(** C71: states for different indices lie on one history: the later one is the earlier one with
    further committed entries applied. *)
Theorem C71_one_history i0 cs rc a b i j v w :
  rreach i0 cs rc -> In (a, (i, v)) (rc_held rc) -> In (b, (j, w)) (rc_held rc) -> i <= j ->
  replayed apply v i (rc_cl rc) j w.
Proof.
  intros R Ha Hb Hij. pose proof (rreach_inv _ _ _ R) as I. pose proof (rreach_reachable _ _ _ R) as Rc.
  destruct (ri_held _ _ I _ _ Ha) as (es & A1 & A2 & A3). destruct (ri_held _ _ I _ _ Hb) as (fs & B1 & B2 & B3). cbn [fst snd] in *.
  assert (Ev : val i0 (rc_cl rc) i (fold_left (fun v e => apply e v) (ntake (nlen es) fs) v0)).
  { exists (ntake (nlen es) fs). split; [rewrite nlen_ntake; lia|]. split; auto. intros k e Hk. rewrite nnth_ntake in Hk.
    destruct (k <? nlen es); [auto|discriminate]. }
  assert (Hv : v = fold_left (fun v e => apply e v) (ntake (nlen es) fs) v0).
  { eapply val_unique; [exact Rc| |exact Ev]. exact (ri_held _ _ I _ _ Ha). }
  exists (ndrop (nlen es) fs). split; [rewrite nlen_ndrop; lia|]. split.
  - rewrite Hv, <- fold_left_app, ntake_ndrop. auto.
  - intros k e Hk. rewrite nnth_ndrop in Hk. destruct (B3 _ _ Hk) as [X1 X2]. split; auto. lia.
Qed.

(** C71: a snapshot anywhere in the cluster holds the state every application had, or will have, at
    its index. *)
Theorem C71_snapshot i0 cs rc s :
  rreach i0 cs rc -> snapshot_in (rc_cl rc) s -> sn_index s <> 0 ->
  replayed apply v0 i0 (rc_cl rc) (sn_index s) (dec (sn_data s)) /\
  forall id v, In (id, (sn_index s, v)) (rc_held rc) -> v = dec (sn_data s).
Proof.
  intros R Hs Hz. pose proof (rreach_inv _ _ _ R) as I.
  assert (G : good i0 (rc_cl rc) s).
  { destruct Hs as [(id & n & Hn & ->)|(m & Hm & Ht & ->)]; [|apply (ri_net _ _ I); auto].
    destruct (ri_node _ _ I _ _ Hn) as (a & _ & _ & A). apply (sg_st _ _ A). }
  destruct G as [_ G]. split; auto. intros id v Hin.
  eapply val_unique; [eapply rreach_reachable; eauto|exact (ri_held _ _ I _ _ Hin)|auto].
Qed.
End RSM.

#[local] Existing Instance ex_env.
(** A concrete run of three replicas: two leaders, two crashes of node 1 (it comes back once with
    its own state and once with the snapshot node 2 took and sent), and a snapshot installed. *)
Example C71_case : exists rc, ex_rreach 5 exc_conf rc /\
  rc_app rc = [(1, (9, "xy"%string)); (2, (9, "xy"%string)); (3, (8, "x"%string))] /\
  In (2, (8, "x"%string)) (rc_held rc) /\ In (3, (8, "x"%string)) (rc_held rc) /\
  (exists m, In m (cl_net (rc_cl rc)) /\ m_type m = MsgSnap /\ sn_index (m_snap m) = 9 /\ sn_data (m_snap m) = "xy"%string) /\
  (exists n, mget 1 (cl_nodes (rc_cl rc)) = Some n /\ node_applied n = 9 /\ sn_index (ms_snap (node_storage n)) = 9).
Proof.
  destruct exv_run as (rc & R & H). exists rc. split; auto.
  split; [apply (exv_eq rc_app rc _ H); vm_compute; reflexivity|].
  split; [apply heldb_ok; apply (exv_eq (fun rc => heldb 2 8 "x" (rc_held rc)) rc _ H); vm_compute; reflexivity|].
  split; [apply heldb_ok; apply (exv_eq (fun rc => heldb 3 8 "x" (rc_held rc)) rc _ H); vm_compute; reflexivity|].
  split.
  - assert (X : existsb (fun m => match m_type m with MsgSnap => (sn_index (m_snap m) =? 9) && String.eqb (sn_data (m_snap m)) "xy" | _ => false end) (cl_net (rc_cl rc)) = true)
      by (apply (exv_eq (fun rc => existsb (fun m => match m_type m with MsgSnap => (sn_index (m_snap m) =? 9) && String.eqb (sn_data (m_snap m)) "xy" | _ => false end) (cl_net (rc_cl rc))) rc _ H); vm_compute; reflexivity).
    apply existsb_exists in X. destruct X as (m & Hin & Hb). exists m. destruct (m_type m); try discriminate Hb.
    apply andb_true_iff in Hb. destruct Hb as [B1 B2]. apply N.eqb_eq in B1. apply String.eqb_eq in B2. auto.
  - assert (X : option_map (fun n => (node_applied n, sn_index (ms_snap (node_storage n)))) (mget 1 (cl_nodes (rc_cl rc))) = Some (9, 9))
      by (apply (exv_eq (fun rc => option_map (fun n => (node_applied n, sn_index (ms_snap (node_storage n)))) (mget 1 (cl_nodes (rc_cl rc)))) rc _ H); vm_compute; reflexivity).
    destruct (mget 1 (cl_nodes (rc_cl rc))) as [n|]; [|discriminate]. injection X as X1 X2. eauto.
Qed.
