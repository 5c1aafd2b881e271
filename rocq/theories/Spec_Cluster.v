(** What the cluster properties talk about. *)
From Verif Require Import Prelude Types M_RawNode M_Raft Sys_Node Sys_Cluster Spec_Node.

Section Spec.
Context {E : Env}.
(** Node [id] runs as [n] in the cluster. *)
Definition runs (cl : cluster) (id : N) (n : rawnode) : Prop := mget id (cl_nodes cl) = Some n.
(** Node [id] is leader of term [t] (as its Status reports). *)
Definition leader_of (cl : cluster) (id t : N) : Prop :=
  exists n, runs cl id n /\ node_role n = RLeader /\ node_term n = t.
(** The application on node [id] was handed entry [e] as committed, at this or any earlier time,
    before or after crashes of the node. *)
Definition delivered (cl : cluster) (id : N) (e : entry) : Prop := In (id, e) (cl_hist cl).
(** [e] is in the node's log, or was and has been compacted into a snapshot. *)
Definition has_entry (n : rawnode) (e : entry) : Prop := e_index e < node_first n \/ holds_entry n (e_index e) e.
End Spec.
