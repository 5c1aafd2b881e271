(** Vocabulary for the statements about what a node answers and sends (C58-C64). *)
From Verif Require Import Prelude Types M_Progress M_Tracker M_Storage M_Unstable M_Log M_Raft M_RawNode Sys_Node Spec_Node.

(** What RaftLog::Term says about index [i]: the term of the entry there, 0 outside the log. *)
Definition shows {E : Env} (n : rawnode) (i t : N) : Prop := log_term i (r_log (rn_raft n)) = Ok (SOk t).
(** The node's log agrees with the append message [m] at the position before its entries. *)
Definition has_prev {E : Env} (n : rawnode) (m : msg) : Prop := shows n (m_index m) (m_logterm m).
(** [a] is an answer of node [id] to the message [m], in term [t]. *)
Definition answers (id t : N) (m a : msg) : Prop := m_to a = m_from m /\ m_from a = id /\ m_term a = t.
(** The node follows [lead] in term [t]. *)
Definition follows (n : rawnode) (lead t : N) : Prop := node_role n = RFollower /\ node_term n = t /\ node_lead n = lead.
