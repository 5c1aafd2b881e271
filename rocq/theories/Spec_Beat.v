(** Vocabulary for heartbeats (C61). *)
From Verif Require Import Prelude Types M_Progress M_Tracker M_Storage M_Unstable M_Log M_ReadOnly M_Raft M_RawNode Sys_Node Spec_Node Spec_Flow.

(** The number of Tick() calls in a history, and the configured heartbeat period. *)
Definition ticks (os : list nop) : N := nlen (filter (fun o => match o with NTick => true | _ => false end) os).
Definition heartbeat_period (c : config) : N := Z.to_N (c_heartbeat_tick c).
(** [m] is the heartbeat of the leader [n] for its member [to]: it carries the leader's term, no more
    than the part of the commit index [to] is known to hold, and the context of the newest read
    request waiting for confirmation. *)
Definition beat_of (n : rawnode) (to : N) (m : msg) : Prop :=
  exists p, peer n to = Some p /\
    m = mkMsg MsgHeartbeat to (node_id n) (node_term n) 0 0 [] (N.min (p_match p) (node_commit n)) empty_snapshot false 0
          (ro_last_ctx (r_ro (rn_raft n))).
(** The call added exactly one heartbeat for every other member, and nothing else. *)
Definition beats_all (n n' : rawnode) : Prop :=
  exists ids ms, NoDup ids /\ (forall id, In id ids <-> id <> node_id n /\ peer n id <> None) /\
    pending n' = pending n ++ ms /\ Forall2 (beat_of n) ids ms.
