(** Vocabulary for commit progress (C62). *)
From Verif Require Import Prelude Types M_Progress M_Tracker M_Storage M_Unstable M_Log M_Raft M_RawNode Sys_Node Spec_Node Spec_Flow.

(** The leader has a vote in its own configuration. *)
Definition votes_itself (n : rawnode) : Prop :=
  node_incoming n <> [] /\ (In (node_id n) (node_incoming n) \/ In (node_id n) (node_outgoing n)).
(** According to Status, member [id] holds the log up to [i]. *)
Definition reported (n : rawnode) (i id : N) : bool := match peer n id with Some p => i <=? p_match p | None => i =? 0 end.
(** From [i] on the log has entries of the node's own term only. *)
Definition own_from {E : Env} (n : rawnode) (i : N) : Prop := forall j e, i <= j -> holds_entry n j e -> e_term e = node_term n.
(** No call in [os] changes the configuration. *)
Definition fixed_config (os : list nop) : Prop := forall cc, ~ In (NApplyCC cc) os.
