(** Vocabulary for catching a member up over a link (C74). *)
From Verif Require Import Prelude Types M_Progress M_Tracker M_Storage M_Unstable M_Log M_Raft M_RawNode Sys_Node Spec_Node Spec_Flow Spec_Snap Spec_Resp Spec_Probe.

(** A leader, a member, and the append and snapshot messages on their way from the one to the other,
    oldest first. *)
Record pair := mkPair { pa_lead : rawnode; pa_mem : rawnode; pa_wire : list msg }.
(** The append and snapshot messages for [to] among [ms]. *)
Definition link (to : N) (ms : list msg) : list msg :=
  List.filter (fun m => (m_to m =? to) && (mtype_eqb (m_type m) MsgApp || mtype_eqb (m_type m) MsgSnap)) ms.
(** One round trip: the member gets the oldest message and answers; the leader gets the answer and what
    it sends to the member then joins the others on the way. *)
Inductive exchange {E : Env} : pair -> pair -> Prop :=
| Exchange L F x q F' a L' out new :
    replies F x F' a ->
    nop_ok (NStep a) L -> n_step (NStep a) L = Ok (L', out) -> pending L' = pending L ++ new ->
    exchange (mkPair L F (x :: q)) (mkPair L' F' (q ++ link (node_id F) new)).
Inductive exchanges {E : Env} : pair -> pair -> Prop :=
| ExNone s : exchanges s s
| ExMore s s' s'' : exchange s s' -> exchanges s' s'' -> exchanges s s''.
(** The two logs have the same term at index [i], unless the leader has compacted it away. *)
Definition agree {E : Env} (L F : rawnode) (i : N) : Prop :=
  i + 1 < node_first L \/ (i <= node_last L /\ i <= node_last F /\ exists t, shows L i t /\ shows F i t).
(** What the leader believes of the member, and what the member has committed, is true. *)
Definition truthful {E : Env} (L F : rawnode) : Prop :=
  agree L F (node_commit F) /\
  forall p, peer L (node_id F) = Some p -> node_commit F < p_match p -> agree L F (p_match p).
(** The snapshot the leader would send now: the one to be saved, or that of its storage. *)
Definition node_snapshot {E : Env} (L : rawnode) : st snapshot := log_snapshot (r_log (rn_raft L)).
(** The snapshot fits the leader's log, joins on to what is left of it, and is for a configuration the
    member belongs to. *)
Definition vouches {E : Env} (L F : rawnode) (s : snapshot) : Prop :=
  node_first L <= sn_index s + 1 /\ sn_index s <= node_last L /\ shows L (sn_index s) (sn_term s) /\
  (In (node_id F) (cs_voters (sn_conf s)) \/ In (node_id F) (cs_learners (sn_conf s)) \/ In (node_id F) (cs_outgoing (sn_conf s))).
(** The append message [x] carries what the leader's log has after index [m_index x], and at least one
    entry if there is any. *)
Definition carries {E : Env} (L : rawnode) (x : msg) : Prop :=
  node_first L <= m_index x + 1 /\ has_prev L x /\
  (forall e, In e (m_entries x) -> holds_entry L (e_index e) e) /\ (m_index x < node_last L -> m_entries x <> []).
(** The member has the leader's log: the leader knows that it matches to the last index, and it does. *)
Definition caught_up {E : Env} (L F : rawnode) : Prop :=
  (exists p, peer L (node_id F) = Some p /\ p_match p = node_last L) /\
  node_last L <= node_last F /\ exists t, shows L (node_last L) t /\ shows F (node_last L) t.
(** The exchange starts: both logs are in order, the leader probes the member with [x], which carries
    what it has from there on, what it believes of the member is true, and the snapshot it has is good
    for the member. *)
Definition starts {E : Env} (L F : rawnode) (x : msg) : Prop :=
  ordered L /\ ordered F /\ probing L F x /\ carries L x /\ truthful L F /\
  (forall s, node_snapshot L = SOk s -> vouches L F s) /\
  exists p, peer L (node_id F) = Some p /\ p_match p <= m_index x.
