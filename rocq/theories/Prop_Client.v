(** C72: reads served from any replica after ReadIndex are linearizable. *)
From Coq Require Import Permutation.
From Verif Require Import Prelude Types M_Util M_Quorum M_Inflights M_Progress M_Tracker.
From Verif Require Import M_Storage M_Unstable M_Log M_ReadOnly M_ConfPb M_ConfChange M_Raft M_RawNode.
From Verif Require Import P_Inflights Spec_Log P_Lists P_Storage Sys_Node Spec_Node Sys_Cluster Spec_Cluster Sys_Trace Spec_Linear.
From Verif Require Import Prop_Cluster Prop_Linear Sys_App Spec_App Prop_App Ex_Env Ex_Cluster Ex_App.

Section Client.
Context {E : Env}.
Variable V : Type.
Variable apply : entry -> V -> V.
Variable enc : V -> string.
Variable dec : string -> V.
Variable v0 : V.
Hypothesis roundtrip : forall v, dec (enc v) = v.
Notation rtrace := (rtrace V apply enc dec v0).
Notation rreach := (rreach V apply enc dec v0).

Lemma rtrace_trace cs rc tr rc' : rtrace cs rc tr rc' -> trace cs (rc_cl rc) tr (rc_cl rc').
Proof. induction 1; econstructor; eauto. Qed.
Lemma rtrace_reach i0 cs rc tr rc' : rtrace cs rc tr rc' -> rreach i0 cs rc -> rreach i0 cs rc'.
Proof. induction 1; auto. intros R. apply IHrtrace. eapply RrStep; eauto. Qed.
Lemma rstep_held cs rc rc' : rstep V apply enc dec v0 cs rc rc' -> incl (rc_held rc) (rc_held rc').
Proof. destruct 1; cbn [rc_held]; intros x Hx; auto; right; auto. Qed.
Lemma rtrace_held cs rc tr rc' : rtrace cs rc tr rc' -> incl (rc_held rc) (rc_held rc').
Proof. induction 1; [apply incl_refl|]. eapply incl_tran; [eapply rstep_held; eauto|auto]. Qed.

(** C72: a read request is made after some application had the state [v] (whatever the node, whatever
    crashes since); when the read state comes back with index [i], the state [w] of every application
    that has applied up to [i] or further contains everything applied in [v]: it is [v] with further
    committed entries applied. *)
Theorem C72_linearizable_reads i0 cs rc0 tr1 rc1 tr2 rc2 c i a k v b j w :
  rstart V dec v0 i0 cs rc0 -> (forall id n, runs (rc_cl rc0) id n -> safe_mode n) ->
  rtrace cs rc0 tr1 rc1 -> rtrace cs rc1 tr2 rc2 ->
  (forall x, In x (tr1 ++ tr2) -> safe_event (fst x)) ->
  NoDup (flat_map put_to_leader (tr1 ++ tr2)) ->
  ~ issued tr1 c -> read_given tr2 i c ->
  In (a, (k, v)) (rc_held rc1) -> In (b, (j, w)) (rc_held rc2) -> i <= j ->
  replayed apply v k (rc_cl rc2) j w.
Proof.
  intros S0 Hsafe T1 T2 Hev Hnd Hni Hr Ha Hb Hij.
  pose proof (rtrace_reach i0 _ _ _ _ T1 (RrStart _ _ _ _ _ _ _ _ S0)) as R1. pose proof (rtrace_reach _ _ _ _ _ T2 R1) as R2.
  pose proof (rtrace_trace _ _ _ _ T1) as U1. pose proof (rtrace_trace _ _ _ _ T2) as U2.
  pose proof (rreach_inv _ _ _ _ _ roundtrip _ _ _ R1) as I1. pose proof (rreach_inv _ _ _ _ _ roundtrip _ _ _ R2) as I2.
  eapply (C71_one_history V apply enc dec v0 roundtrip); eauto; [eapply rtrace_held; eauto|].
  destruct (ri_held _ _ _ _ _ _ I1 _ _ Ha) as (es & A1 & _ & A3). destruct (ri_held _ _ _ _ _ _ I2 _ _ Hb) as (fs & B1 & _). cbn [fst snd] in *.
  destruct (N.eq_dec (nlen es) 0) as [Hz|Hz]; [lia|].
  destruct (nnth es (nlen es - 1)) as [e|] eqn:He; [|apply nnth_None in He; lia].
  destruct (A3 _ _ He) as (C1 & x & C2).
  pose proof (C56_linearizable_reads cs _ _ _ _ _ c i x e (rs_cl _ _ _ _ _ _ S0) Hsafe U1 U2 Hev Hnd Hni Hr C2). lia.
Qed.
End Client.

(** A concrete run: after the crash of node 1 and the election of node 2, a read asked for at node 3
    is served by node 3, which has caught up; node 1 had applied "x" before its crash. *)
#[local] Existing Instance ex_env.
Definition ract_ev (x : ract) (rc : exv_rc) : option event :=
  match x with
  | RA (ACall id o) => match mget id (cl_nodes (rc_cl rc)) with
                       | Some n => match n_step o n with Ok (_, out) => Some (ECall id o out) | _ => None end
                       | None => None end
  | RA (ADeliver k) => match nnth (cl_net (rc_cl rc)) k with Some m => Some (EDeliver (m_to m) m) | None => None end
  | RA (ARestart _ _ _) => None
  | RBack id own _ =>
      match mget id (cl_nodes (rc_cl rc)), mget id (rc_app rc) with
      | Some n, Some b =>
          let a := if own then b else if sn_index (ms_snap (node_storage n)) =? 0 then (0, EmptyString) else from_snap string exv_id (ms_snap (node_storage n)) in
          Some (ERestart id (set_applied (fst a) (node_storage n) (exc_cfg id)))
      | _, _ => None
      end
  end.
Lemma ract_ev_ok cs x rc rc' ev : ract_step x rc = Some rc' -> ract_ev x rc = Some ev -> estep cs (rc_cl rc) ev (rc_cl rc').
Proof.
  destruct x as [[id o|k|id c tape]|id own tape]; cbn [ract_step ract_ev]; [| |discriminate|].
  - destruct (mget id (cl_nodes (rc_cl rc))) as [n|] eqn:Hn; [|discriminate]. destruct (mget id (rc_app rc)) as [a|] eqn:Ha; [|discriminate].
    destruct (call_okb o n && snapb o id (rc_held rc)) eqn:Hc; [|discriminate]. apply andb_true_iff in Hc. destruct Hc as [Hc Hsn].
    destruct (n_step o n) as [[n' out]| | |] eqn:Hs; try discriminate. intros H; injection H as <-. intros H; injection H as <-. cbn [rc_cl].
    eapply ESCall; eauto. destruct o; cbn in Hc |- *; auto; try discriminate; try (apply N.leb_le; auto; fail).
    destruct cs0; [discriminate|]. split; auto. apply N.leb_le; auto.
  - destruct (nnth (cl_net (rc_cl rc)) k) as [m|] eqn:Hk; [|discriminate]. destruct (mget (m_to m) (cl_nodes (rc_cl rc))) as [n|] eqn:Hn; [|discriminate].
    destruct (n_step (NStep m) n) as [[n' out]| | |] eqn:Hs; try discriminate. intros H; injection H as <-. intros H; injection H as <-. cbn [rc_cl].
    eapply ESDeliver; eauto. unfold nnth in Hk. eapply nth_error_In; eauto.
  - destruct (mget id (cl_nodes (rc_cl rc))) as [n|] eqn:Hn; [|discriminate]. destruct (mget id (rc_app rc)) as [b|] eqn:Hb; [|discriminate].
    set (a := if own then b else if sn_index (ms_snap (node_storage n)) =? 0 then (0, EmptyString) else from_snap string exv_id (ms_snap (node_storage n))).
    cbv zeta. destruct (_ && _); [|discriminate].
    destruct (rn_new (set_applied (fst a) (node_storage n) (exc_cfg id)) tape) as [n'| | |] eqn:Hs; try discriminate. intros H; injection H as <-. intros H; injection H as <-.
    cbn [rc_cl]. eapply (ESRestart cs (rc_cl rc) id (set_applied (fst a) (node_storage n) (exc_cfg id)) tape n n' Hn eq_refl eq_refl Hs).
Qed.
Fixpoint rtr (l : list ract) (rc : exv_rc) : option (list (event * cluster) * exv_rc) :=
  match l with
  | [] => Some ([], rc)
  | x :: t => match ract_step x rc, ract_ev x rc with
              | Some rc1, Some ev => match rtr t rc1 with Some (tr, fin) => Some ((ev, rc_cl rc1) :: tr, fin) | None => None end
              | _, _ => None
              end
  end.
Lemma rtr_ok cs l : forall rc tr rc', rtr l rc = Some (tr, rc') -> rtrace string exv_apply exv_id exv_id EmptyString cs rc tr rc'.
Proof.
  induction l as [|x l IH]; intros rc tr rc'; cbn; [intros H; injection H as <- <-; constructor|].
  destruct (ract_step x rc) as [c1|] eqn:Ha; [|discriminate]. destruct (ract_ev x rc) as [ev|] eqn:Hev; [|discriminate].
  destruct (rtr l c1) as [[t f]|] eqn:Hf; [|discriminate]. intros H. injection H as <- <-.
  econstructor; [eapply ract_step_ok; eauto|eapply ract_ev_ok; eauto|eauto].
Qed.
Definition exr_first : list ract := exv_first ++ removelast (removelast exv_second).
Definition exr_second : list ract := List.map RA lin_reads.
Example C72_case : exists tr1 rc1 tr2 rc2,
  rtrace string exv_apply exv_id exv_id EmptyString exc_conf exv_start tr1 rc1 /\
  rtrace string exv_apply exv_id exv_id EmptyString exc_conf rc1 tr2 rc2 /\
  rstart string exv_id EmptyString 5 exc_conf exv_start /\ (forall id n, runs (rc_cl exv_start) id n -> safe_mode n) /\
  (forall x, In x (tr1 ++ tr2) -> safe_event (fst x)) /\ NoDup (flat_map put_to_leader (tr1 ++ tr2)) /\
  ~ issued tr1 "s" /\ read_given tr2 8 "s" /\
  In (1, (7, "x"%string)) (rc_held rc1) /\ ~ In (3, (8, "x"%string)) (rc_held rc1) /\ In (3, (8, "x"%string)) (rc_held rc2).
Proof.
  assert (H : match rtr exr_first exv_start with
              | Some (tr1, rc1) => match rtr exr_second rc1 with
                 | Some (tr2, rc2) => lin_b tr1 (rc_cl rc1) tr2 "s" 8 2 8 && nodupb (flat_map put_to_leader (tr1 ++ tr2)) &&
                     heldb 1 7 "x" (rc_held rc1) && negb (heldb 3 8 "x" (rc_held rc1)) && heldb 3 8 "x" (rc_held rc2)
                 | None => false end
              | None => false end = true) by (vm_compute; reflexivity).
  destruct (rtr exr_first exv_start) as [[tr1 rc1]|] eqn:H1; [|discriminate]. destruct (rtr exr_second rc1) as [[tr2 rc2]|] eqn:H2; [|discriminate].
  apply andb_prop in H. destruct H as [H A5]. apply andb_prop in H. destruct H as [H A4]. apply andb_prop in H. destruct H as [H A3]. apply andb_prop in H. destruct H as [A1 A2].
  apply (rtr_ok exc_conf) in H1, H2. exists tr1, rc1, tr2, rc2. split; auto. split; auto. split; [apply exv_start_ok|].
  pose proof (rtrace_trace _ _ _ _ _ _ _ _ _ H1) as U1. pose proof (rtrace_trace _ _ _ _ _ _ _ _ _ H2) as U2.
  destruct (lin_b_ok _ _ _ _ _ _ _ _ U1 U2 A1) as (B1 & B2 & B3 & B4 & B5 & B6 & B7 & _).
  split; [exact B2|]. split; [exact B5|]. split; [apply nodupb_ok; auto|]. split; [exact B6|]. split; [exact B7|].
  split; [apply heldb_ok; auto|]. split; [|apply heldb_ok; auto]. intros X. apply negb_true_iff in A4.
  assert (Y : heldb 3 8 "x" (rc_held rc1) = true); [|congruence]. unfold heldb. apply existsb_exists. eexists. split; [exact X|]. reflexivity.
Qed.
