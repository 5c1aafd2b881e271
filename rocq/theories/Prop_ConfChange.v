(** C20-C23: membership changes.  Specification: Spec_ConfChange.v; histories: Sys_ConfChange.v. *)
From Verif Require Import Prelude Types M_Quorum M_Inflights M_Progress M_Tracker M_ConfChange.
From Verif Require Import Spec_Quorum Spec_ConfChange Sys_ConfChange P_Quorum P_ConfChange.

Definition ch_wf (ch : changer) : Prop := conf_wf (t_config (ch_trk ch)) (t_progress (ch_trk ch)).

(** C20: every call on a well-formed configuration returns (no undefined behaviour), and a
    returned configuration is well formed and has a voter. *)
Theorem C20_call_well_formed : forall (ch : changer) (o : ccop), ch_wf ch ->
  exists r, cc_call o ch = Ok r /\
    match r with
    | SOk (c', prs') => conf_wf c' prs' /\
        (tc_incoming (t_config (ch_trk ch)) <> [] -> tc_incoming c' <> [])
    | SErr _ => True
    end.
Proof.
  intros ch o H. destruct o as [ccs|al ccs|]; cbn [cc_call].
  - eexists; split; [reflexivity|]. pose proof (ch_simple_spec ch ccs H) as S.
    destruct (ch_simple ccs ch) as [[c' prs']|]; [|auto]. destruct S as (_ & _ & ? & ? & _). auto.
  - eexists; split; [reflexivity|]. pose proof (ch_enter_joint_spec ch al ccs H) as S.
    destruct (ch_enter_joint al ccs ch) as [[c' prs']|]; [|auto]. destruct S as (_ & _ & _ & ? & _ & ? & _). auto.
  - pose proof (ch_leave_joint_spec ch H) as S.
    destruct (ch_leave_joint ch) as [[[c' prs']|]| | |]; try tauto; eexists; split; try reflexivity; auto.
    destruct S as (_ & E & _ & _ & _ & _ & ? & _). rewrite E. auto.
Qed.
Print Assumptions C20_call_well_formed.

(** C20, histories: after any sequence of calls, failed ones included, the configuration in force
    is well formed, with at least one voter. *)
Theorem C20_history_well_formed : forall (ops : list ccop) (ch : changer), ch_wf ch ->
  tc_incoming (t_config (ch_trk ch)) <> [] ->
  exists ch', cc_run ops ch = Ok ch' /\ ch_wf ch' /\ tc_incoming (t_config (ch_trk ch')) <> [].
Proof.
  induction ops as [|o ops IH]; intros ch H Hn; cbn; [eauto|].
  destruct (C20_call_well_formed ch o H) as (r & E & Hr).
  unfold cc_step. rewrite E. cbn. destruct r as [[c' prs']|e]; cbn.
  - apply IH; cbn; tauto.
  - apply IH; auto.
Qed.
Print Assumptions C20_history_well_formed.

(** C20, completeness: a call fails only for one of the documented reasons. *)
Theorem C20_fails_only_if : forall (ch : changer) (o : ccop) e, ch_wf ch -> cc_call o ch = Ok (SErr e) ->
  let c := t_config (ch_trk ch) in
  match o with
  | OpSimple ccs => tc_outgoing c <> [] \/ (forall id, ~ voter_after c ccs id) \/
      exists x y, x <> y /\ changes_voter c ccs x /\ changes_voter c ccs y
  | OpEnter _ ccs => tc_outgoing c <> [] \/ tc_incoming c = [] \/ (forall id, ~ voter_after c ccs id)
  | OpLeave => tc_outgoing c = []
  end.
Proof.
  intros ch o e H E. destruct o as [ccs|al ccs|]; cbn in *.
  - pose proof (ch_simple_spec ch ccs H) as S. injection E as E. rewrite E in S. exact S.
  - pose proof (ch_enter_joint_spec ch al ccs H) as S. injection E as E. rewrite E in S. exact S.
  - pose proof (ch_leave_joint_spec ch H) as S. rewrite E in S. exact S.
Qed.
Print Assumptions C20_fails_only_if.

(** C21: a successful simple change is made outside a joint configuration, gives exactly the
    requested voters and learners, changes at most one voter, keeps the progress of untouched
    peers, and any majority of the old voters shares a node with any majority of the new ones. *)
Theorem C21_simple_change : forall (ch : changer) ccs c' prs', ch_wf ch ->
  ch_simple ccs ch = SOk (c', prs') ->
  let c := t_config (ch_trk ch) in
  tc_outgoing c = [] /\ tc_outgoing c' = [] /\ applied c ccs c' /\
  (forall x y, ~ (In x (tc_incoming c) <-> In x (tc_incoming c')) ->
               ~ (In y (tc_incoming c) <-> In y (tc_incoming c')) -> x = y) /\
  (forall id, last_change id ccs = None -> mget id prs' = mget id (t_progress (ch_trk ch))) /\
  (tc_incoming c <> [] -> forall p q, majority (tc_incoming c) p -> majority (tc_incoming c') q ->
     exists id, In id (tc_incoming c) /\ In id (tc_incoming c') /\ p id = true /\ q id = true).
Proof.
  intros ch ccs c' prs' H E c. pose proof (ch_simple_spec ch ccs H) as S. rewrite E in S.
  fold c in S. destruct S as (H1 & H2 & H3 & H4 & H5 & H6 & H7).
  assert (Hd : ~ exists x y, x <> y /\ ~ (In x (tc_incoming c) <-> In x (tc_incoming c')) /\
                             ~ (In y (tc_incoming c) <-> In y (tc_incoming c'))).
  { intros (x & y & Hne & Hx & Hy). apply H6. exists x, y. unfold changes_voter, voter_after.
    rewrite <- (ap_in _ _ _ H5 x), <- (ap_in _ _ _ H5 y). auto. }
  split; [auto|]. split; [auto|]. split; [auto|].
  split; [intros x y Hx Hy; destruct (N.eq_dec x y); auto; exfalso; apply Hd; exists x, y; auto|].
  split; [auto|]. intros Hn p q. apply simple_majorities; auto; [apply H|apply H4].
Qed.
Print Assumptions C21_simple_change.

(** C22: EnterJoint keeps the old voters as the outgoing half and applies the changes to the
    incoming half. *)
Theorem C22_enter_joint : forall (ch : changer) al ccs c' prs', ch_wf ch ->
  ch_enter_joint al ccs ch = SOk (c', prs') ->
  let c := t_config (ch_trk ch) in
  tc_outgoing c = [] /\ tc_incoming c <> [] /\ tc_outgoing c' = tc_incoming c /\
  tc_incoming c' <> [] /\ tc_auto_leave c' = al /\ applied c ccs c' /\
  (forall id, last_change id ccs = None -> mget id prs' = mget id (t_progress (ch_trk ch))).
Proof.
  intros ch al ccs c' prs' H E c. pose proof (ch_enter_joint_spec ch al ccs H) as S. rewrite E in S.
  fold c in S. intuition.
Qed.
Print Assumptions C22_enter_joint.

(** C22: LeaveJoint yields exactly the incoming voters, demoted voters become learners, everyone
    else keeps its progress. *)
Theorem C22_leave_joint : forall (ch : changer) c' prs', ch_wf ch ->
  ch_leave_joint ch = Ok (SOk (c', prs')) ->
  let c := t_config (ch_trk ch) in
  tc_outgoing c <> [] /\ tc_incoming c' = tc_incoming c /\ tc_outgoing c' = [] /\
  tc_learners_next c' = [] /\ tc_auto_leave c' = false /\
  (forall id, In id (tc_learners c') <-> In id (tc_learners c) \/ In id (tc_learners_next c)) /\
  (forall id p', mget id prs' = Some p' -> exists p,
     mget id (t_progress (ch_trk ch)) = Some p /\ p' = set_p_learner (smem id (tc_learners c')) p).
Proof.
  intros ch c' prs' H E c. pose proof (ch_leave_joint_spec ch H) as S. rewrite E in S.
  fold c in S. intuition.
Qed.
Print Assumptions C22_leave_joint.

(** C22: the documented refusals (no well-formedness needed for the joint ones). *)
Theorem C22_errors : forall (ch : changer) al ccs,
  (tc_outgoing (t_config (ch_trk ch)) <> [] -> exists e, ch_enter_joint al ccs ch = SErr e) /\
  (tc_incoming (t_config (ch_trk ch)) = [] -> exists e, ch_enter_joint al ccs ch = SErr e) /\
  (tc_outgoing (t_config (ch_trk ch)) = [] -> exists e, ch_leave_joint ch = Ok (SErr e)) /\
  (tc_outgoing (t_config (ch_trk ch)) <> [] -> exists e, ch_simple ccs ch = SErr e).
Proof.
  intros ch al ccs.
  assert (G : forall x, check_and_copy ch = SOk x -> x = (t_config (ch_trk ch), t_progress (ch_trk ch)))
    by (intros x; apply check_and_return_eq).
  unfold ch_enter_joint, ch_leave_joint, ch_simple.
  destruct (check_and_copy ch) as [[c prs]|e]; [|repeat split; eauto].
  pose proof (G _ eq_refl) as X. inversion X; subst; clear X G.
  split; [|split; [|split]]; intros Hx.
  - apply tc_joint_true in Hx. rewrite Hx. eauto.
  - rewrite Hx. destruct (tc_joint _); cbn; eauto.
  - apply tc_joint_false in Hx. rewrite Hx. cbn. eauto.
  - apply tc_joint_true in Hx. rewrite Hx. eauto.
Qed.
Print Assumptions C22_errors.

(** A concrete walk: {1} -> {1,2} -> learner 4 -> joint {1,2,3}/{1,2} with 2 demoted -> leave. *)
Definition C20_start := mkChanger (set_t_config (mkTConfig [1] [] false [] [])
  (set_t_progress [(1, new_progress 5 3 8 false true)] (new_tracker 8))) 5.
Definition C20_ops := [OpSimple [mkCC CcAddNode 2]; OpSimple [mkCC CcAddLearnerNode 4];
  OpSimple [mkCC CcAddNode 7; mkCC CcAddNode 8]; OpSimple [mkCC CcRemoveNode 1; mkCC CcRemoveNode 2];
  OpLeave; OpEnter true [mkCC CcAddNode 3; mkCC CcAddLearnerNode 2; mkCC CcRemoveNode 9]].
Example C20_example : ch_wf C20_start /\
  (exists ch, cc_run C20_ops C20_start = Ok ch /\
     t_config (ch_trk ch) = mkTConfig [1; 3] [1; 2] true [4] [2] /\ keys (t_progress (ch_trk ch)) = [1; 2; 3; 4]) /\
  (exists ch, cc_run (C20_ops ++ [OpEnter true []; OpLeave]) C20_start = Ok ch /\
     t_config (ch_trk ch) = mkTConfig [1; 3] [] false [2; 4] [] /\ keys (t_progress (ch_trk ch)) = [1; 2; 3; 4]).
Proof.
  split; [|split; vm_compute; eexists; (split; [reflexivity|split; reflexivity])].
  constructor; cbn.
  1-5: repeat constructor.
  - intros id [].
  - intros id [].
  - intros id. destruct (N.eqb_spec id 1) as [->|]; split; try congruence; auto.
    intros [[|[]]|[[]|[]]]; congruence.
  - intros id p. destruct (N.eqb_spec id 1); [|discriminate]. intros E; inversion E; cbn. split; [discriminate|tauto].
  - auto.
Qed.

(** C23: Restore from any valid ConfState into a fresh tracker succeeds, and the configuration
    obtained is well formed and is the described one; every member starts with Match 0. *)
Theorem C23_restore : forall (max_inflight last : N) (cs : confstate), confstate_valid cs ->
  exists c prs, cc_restore (mkChanger (new_tracker max_inflight) last) cs = SOk (c, prs) /\
    conf_wf c prs /\ tc_incoming c <> [] /\ describes cs c /\
    (forall id p, mget id prs = Some p -> p_match p = 0 /\ p_next p = last /\ p_state p = StProbe).
Proof.
  intros mi last cs H. destruct (restore_ok mi last cs H) as (c & prs & E & Hw & Hn & Hd & Hf).
  exists c, prs. split; [auto|]. split; [auto|]. split; [auto|]. split; [auto|].
  intros id p Hp. destruct (Hf _ _ Hp) as (b & ->). auto.
Qed.
Print Assumptions C23_restore.

(** C23, round trip: the ConfState reported by a tracker with a well-formed configuration without
    node 0 restores to exactly that configuration. *)
Theorem C23_round_trip : forall (t : tracker) (max_inflight last : N),
  conf_wf (t_config t) (t_progress t) -> tc_incoming (t_config t) <> [] ->
  mget 0 (t_progress t) = None ->
  exists prs, cc_restore (mkChanger (new_tracker max_inflight) last) (trk_confstate t) = SOk (t_config t, prs) /\
    keys prs = keys (t_progress t).
Proof.
  intros t mi last H Hn Hz.
  assert (Z : ~ (In 0 (tc_incoming (t_config t)) \/ In 0 (tc_outgoing (t_config t)) \/ In 0 (tc_learners (t_config t)))).
  { rewrite <- (cw_trk _ _ H 0), Hz. congruence. }
  destruct (restore_ok mi last (trk_confstate t)) as (c & prs & E & Hw & _ & (D1 & D2 & D3 & D4 & D5) & _).
  { constructor; cbn; try apply H; auto. tauto. }
  cbn in *.
  assert (c = t_config t).
  { destruct c as [a b d e f] eqn:Ec. destruct (t_config t) as [a' b' d' e' f'] eqn:Et. cbn in *.
    destruct H, Hw; cbn in *. f_equal; try (symmetry; exact D5); try (apply sorted_ext; auto; intros x; symmetry; auto). }
  subst c. exists prs. split; auto.
  apply sorted_ext; [apply Hw|apply H|]. intros x. rewrite !mget_key, (cw_trk _ _ Hw), (cw_trk _ _ H). tauto.
Qed.
Print Assumptions C23_round_trip.
Example C23_example : confstate_valid (mkConfState [1; 3] [4] [1; 2] [2] true) /\
  match cc_restore (mkChanger (new_tracker 8) 10) (mkConfState [3; 1] [4] [2; 1] [2] true) with
  | SOk (c, prs) => c = mkTConfig [1; 3] [1; 2] true [4] [2] /\ keys prs = [1; 2; 3; 4]
  | SErr _ => False
  end.
Proof.
  split; [|vm_compute; auto].
  constructor; cbn; try discriminate.
  - repeat split; lia.
  - intros id [<-|[]]. lia.
  - intros id [<-|[]]. lia.
Qed.
