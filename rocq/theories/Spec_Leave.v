(** Words for the automatic leave of a joint configuration (C67). *)
From Verif Require Import Prelude Types M_Tracker M_ConfPb M_Raft M_RawNode Sys_Node Spec_Node Spec_Prop Sys_Loop.

Section WithEnv.
Context {E : Env}.
(** The node's configuration is joint and was entered with the instruction to leave it
    automatically. *)
Definition awaits_leave (n : rawnode) : Prop := tc_auto_leave (ns_config (rn_status n)) = true.
(** The entry asks to leave the joint configuration: a V2 membership change without changes (the
    serialisation of the empty change is the empty string). *)
Definition leaves (e : entry) : Prop :=
  e_type e = EntryConfChangeV2 /\ (e_data e = EmptyString \/ exists v, dec_ccv2 (e_data e) = Some v /\ c2_changes v = []).
(** No call of the run reported a dropped proposal. *)
Definition none_dropped (outs : list nout) : Prop := Forall (fun o => o_err o <> Some EDropped) outs.
(** [n'] has [n]'s log. *)
Definition log_kept (n n' : rawnode) : Prop :=
  node_last n' = node_last n /\ forall i e, holds_entry n' i e <-> holds_entry n i e.
(** [n'] has [n]'s log followed by one entry: the empty V2 membership change, of [n]'s term. *)
Definition leave_appended (n n' : rawnode) : Prop :=
  node_last n' = node_last n + 1 /\
  (forall i e, i <= node_last n -> (holds_entry n' i e <-> holds_entry n i e)) /\
  holds_entry n' (node_last n + 1) (mkEntry (node_term n) (node_last n + 1) EntryConfChangeV2 EmptyString).
(** The iteration hands out at least one entry or a snapshot. *)
Definition delivers (rd : ready) : Prop := rd_committed rd <> [] \/ sn_index (rd_snap rd) <> 0.
End WithEnv.
