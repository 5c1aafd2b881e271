(** What a replicated state machine promises (C71). *)
From Verif Require Import Prelude Types M_Storage M_Unstable M_Log M_Raft M_RawNode Spec_Log Sys_Node Sys_Cluster Spec_Cluster Sys_App.

(** [v] is the result of applying, in order and without gap, the committed entries after [i0] up to
    [i] to the initial state; each of them was handed to some application. *)
Definition replayed {V} (apply : entry -> V -> V) (v0 : V) (i0 : N) (cl : cluster) (i : N) (v : V) : Prop :=
  exists es, i = i0 + nlen es /\ v = fold_left (fun v e => apply e v) es v0 /\
    forall k e, nnth es k = Some e -> e_index e = i0 + 1 + k /\ exists id, delivered cl id e.

(** A snapshot that is somewhere in the cluster: in a storage, or in a message sent. *)
Definition snapshot_in (cl : cluster) (s : snapshot) : Prop :=
  (exists id n, mget id (cl_nodes cl) = Some n /\ s = ms_snap (node_storage n)) \/
  exists m, In m (cl_net cl) /\ m_type m = MsgSnap /\ s = m_snap m.
