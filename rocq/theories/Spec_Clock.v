(** Vocabulary for the election clock as a user sees it (C70). *)
From Verif Require Import Prelude Types M_Progress M_Tracker M_Storage M_Unstable M_Log M_Raft M_RawNode Sys_Node Spec_Node Spec_Flow.

(** The node accepts a message of the leader of its (possibly new) term. *)
Definition hears (n : rawnode) (o : nop) (n1 : rawnode) : Prop := exists m, o = NStep m /\
  (m_type m = MsgApp \/ m_type m = MsgHeartbeat \/ m_type m = MsgSnap) /\ node_term n1 = m_term m /\
  (node_role n <> RLeader \/ node_term n < m_term m).
(** It grants a candidate its vote. *)
Definition grants {E : Env} (n : rawnode) (o : nop) (n1 : rawnode) : Prop := exists m x, o = NStep m /\ m_type m = MsgVote /\
  emits o n n1 x /\ m_type x = MsgVoteResp /\ m_reject x = false.
(** It starts to lead. *)
Definition takes_over (n n1 : rawnode) : Prop := node_role n <> RLeader /\ node_role n1 = RLeader.
(** A leader starts a new period of watching the members: somebody counted as active no longer is. *)
Definition starts_over (n : rawnode) (o : nop) (n1 : rawnode) : Prop := o = NTick /\ node_role n = RLeader /\ node_role n1 = RLeader /\
  exists id p p1, peer n id = Some p /\ p_active p = true /\ peer n1 id = Some p1 /\ p_active p1 = false.
(** Apart from its clock the node is as before. *)
Definition only_clock (n n1 : rawnode) : Prop := exists k, n1 = mkRN (set_r_el_elapsed k (rn_raft n)) (rn_prev_soft n) (rn_prev_hard n) (rn_ready n).
(** The members a leader counts as active. *)
Definition active (n : rawnode) (id : N) : option bool := option_map p_active (peer n id).
