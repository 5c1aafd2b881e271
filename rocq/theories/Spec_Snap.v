(** Vocabulary for the statements about snapshot messages. *)
From Verif Require Import Prelude Types M_Tracker M_Log M_Raft M_RawNode Sys_Node Spec_Node Spec_ConfChange.

(** The node takes messages of [m]'s term from a leader: not older than its own term, and not from
    the term it leads itself. *)
Definition listens (n : rawnode) (m : msg) : Prop :=
  node_term n <= m_term m /\ ~ (m_term m = node_term n /\ node_role n = RLeader).
(** The snapshot is worth something to the node: newer than its commit index, and for a
    configuration it belongs to. *)
Definition useful (n : rawnode) (s : snapshot) : Prop :=
  node_commit n < sn_index s /\
  (In (node_id n) (cs_voters (sn_conf s)) \/ In (node_id n) (cs_learners (sn_conf s)) \/
   In (node_id n) (cs_outgoing (sn_conf s))).
(** The node's log has the entry the snapshot ends with. *)
Definition has_last_of {E : Env} (n : rawnode) (s : snapshot) : Prop :=
  exists e, holds_entry n (sn_index s) e /\ e_term e = sn_term s.

Definition same_log {E : Env} (n n' : rawnode) : Prop :=
  node_first n' = node_first n /\ node_last n' = node_last n /\
  forall i e, holds_entry n' i e <-> holds_entry n i e.
Definition node_config (n : rawnode) : tconfig := ns_config (rn_status n).
(** The node's state is the snapshot's: empty log after it, its commit index, its configuration;
    and the next Ready tells the application to apply it. *)
Definition installed {E : Env} (n' : rawnode) (s : snapshot) : Prop :=
  node_first n' = sn_index s + 1 /\ node_last n' = sn_index s /\ node_commit n' = sn_index s /\
  (forall i e, ~ holds_entry n' i e) /\
  describes (sn_conf s) (node_config n') /\
  (forall rd, new_ready n' = Ok rd -> rd_snap rd = s).
