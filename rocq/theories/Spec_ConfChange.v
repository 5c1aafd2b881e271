(** What a membership configuration is, and what a list of changes means: specification only. *)
From Verif Require Import Prelude Types M_Quorum M_Progress M_Tracker Spec_Quorum.

(** The documented invariants of a configuration [c] with the tracked peers [prs]
    (src/tracker/tracker.h:42-118, src/confchange/confchange.h): *)
Record conf_wf (c : tconfig) (prs : nmap progress) : Prop := {
  cw_in : sorted (tc_incoming c);
  cw_out : sorted (tc_outgoing c);
  cw_lrn : sorted (tc_learners c);
  cw_nxt : sorted (tc_learners_next c);
  cw_prs : msorted prs;
  (** learners are no voters *)
  cw_disj : forall id, In id (tc_learners c) -> ~ In id (tc_incoming c) /\ ~ In id (tc_outgoing c);
  (** next learners are outgoing voters only *)
  cw_next : forall id, In id (tc_learners_next c) ->
                       In id (tc_outgoing c) /\ ~ In id (tc_incoming c);
  (** exactly the members are tracked *)
  cw_trk : forall id, mget id prs <> None <->
             In id (tc_incoming c) \/ In id (tc_outgoing c) \/ In id (tc_learners c);
  (** and exactly the learners are marked as such *)
  cw_mark : forall id p, mget id prs = Some p -> (p_learner p = true <-> In id (tc_learners c));
  (** outside a joint configuration there is nothing left to do *)
  cw_simple : tc_outgoing c = [] -> tc_learners_next c = [] /\ tc_auto_leave c = false
}.

(** The effect of a list of changes on node [id]: the last change that concerns it, if any.
    Changes of node 0 and updates have no effect. *)
Definition concerns (id : N) (cc : ccsingle) : bool :=
  (cc_node cc =? id) && negb (id =? 0) &&
  match cc_type cc with CcUpdateNode => false | _ => true end.
Definition last_change (id : N) (ccs : list ccsingle) : option cctype :=
  fold_left (fun acc cc => if concerns id cc then Some (cc_type cc) else acc) ccs None.

(** [c'] is [c] with the changes applied (the outgoing voters being those of [c']). *)
Record applied (c : tconfig) (ccs : list ccsingle) (c' : tconfig) : Prop := {
  ap_in : forall id, In id (tc_incoming c') <->
            match last_change id ccs with
            | None => In id (tc_incoming c)
            | Some t => t = CcAddNode
            end;
  ap_lrn : forall id, In id (tc_learners c') <->
            match last_change id ccs with
            | None => In id (tc_learners c)
            | Some t => t = CcAddLearnerNode /\ ~ In id (tc_outgoing c')
            end;
  ap_nxt : forall id, In id (tc_learners_next c') <->
            match last_change id ccs with
            | None => In id (tc_learners_next c)
            | Some t => t = CcAddLearnerNode /\ In id (tc_outgoing c')
            end
}.

(** Node [id] is a voter after the changes. *)
Definition voter_after (c : tconfig) (ccs : list ccsingle) (id : N) : Prop :=
  match last_change id ccs with
  | None => In id (tc_incoming c)
  | Some t => t = CcAddNode
  end.
(** Whether [id] is a voter is changed by [ccs]. *)
Definition changes_voter (c : tconfig) (ccs : list ccsingle) (id : N) : Prop :=
  ~ (In id (tc_incoming c) <-> voter_after c ccs id).

(** A ConfState that describes a configuration. *)
Record confstate_valid (cs : confstate) : Prop := {
  cv_voters : cs_voters cs <> [];
  cv_zero : ~ In 0 (cs_voters cs) /\ ~ In 0 (cs_learners cs) /\ ~ In 0 (cs_outgoing cs);
  cv_disj : forall id, In id (cs_learners cs) -> ~ In id (cs_voters cs) /\ ~ In id (cs_outgoing cs);
  cv_next : forall id, In id (cs_learners_next cs) ->
                       In id (cs_outgoing cs) /\ ~ In id (cs_voters cs);
  cv_simple : cs_outgoing cs = [] -> cs_learners_next cs = [] /\ cs_auto_leave cs = false
}.

Definition same_set (a b : list N) : Prop := forall x, In x a <-> In x b.
(** The configuration [c] is the one described by [cs]. *)
Definition describes (cs : confstate) (c : tconfig) : Prop :=
  same_set (cs_voters cs) (tc_incoming c) /\ same_set (cs_outgoing cs) (tc_outgoing c) /\
  same_set (cs_learners cs) (tc_learners c) /\
  same_set (cs_learners_next cs) (tc_learners_next c) /\
  cs_auto_leave cs = tc_auto_leave c.
