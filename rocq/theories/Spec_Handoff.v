(** Vocabulary for the progress of a leadership transfer (C69). *)
From Verif Require Import Prelude Types M_Progress M_Tracker M_Storage M_Unstable M_Log M_Raft M_RawNode Sys_Node Spec_Node Spec_Flow.

(** The call asks the node to hand its leadership to [id]: TransferLeader, or the request of [id]
    itself (forwarded by a follower), without a term or with the node's. *)
Definition asks_for (n : rawnode) (o : nop) (id : N) : Prop :=
  match o with
  | NTransferLeader i => i = id
  | NStep m => m_type m = MsgTransferLeader /\ m_from m = id /\ (m_term m = 0 \/ m_term m = node_term n)
  | _ => False
  end.
(** [x] tells [id] to campaign at once, in the name of the leader [n]. *)
Definition told (n : rawnode) (id : N) (x : msg) : Prop :=
  m_type x = MsgTimeoutNow /\ m_to x = id /\ m_from x = node_id n /\ m_term x = node_term n.
