(** Vocabulary for read-index requests at one node (C39). *)
From Verif Require Import Prelude Types M_Log M_ReadOnly M_Raft M_RawNode Sys_Node Spec_Node.

(** The call [o], made at the node [id], asks for a read index under the context [ctx].  The asker
    is 0 when it is the node's own application (ReadIndex), and the sending peer otherwise. *)
Definition asks (id : N) (o : nop) (asker : N) (ctx : string) : Prop :=
  match o with
  | NReadIndex c => asker = 0 /\ ctx = c
  | NStep m => m_type m = MsgReadIndex /\ asker = (if m_from m =? id then 0 else m_from m) /\
      exists e es, m_entries m = e :: es /\ e_data e = ctx
  | _ => False
  end.
(** The read states the next GetReady hands to the application. *)
Definition node_reads (n : rawnode) : list readstate := r_read_states (rn_raft n).

(** The call [o] made at a leader answers the asker with [idx]: a read state for its own
    application, a MsgReadIndexResp for a peer. *)
Definition answers {E : Env} (o : nop) (n n' : rawnode) (asker : N) (ctx : string) (idx : N) : Prop :=
  (exists out, n_step o n = Ok (n', out)) /\
  ((asker = 0 /\ node_role n' = RLeader /\
      exists rs, node_reads n' = node_reads n ++ rs /\ In (mkReadState idx ctx) rs) \/
   (asker <> 0 /\ exists ms x e es, pending n' = pending n ++ ms /\ In x ms /\ m_type x = MsgReadIndexResp /\
      m_to x = asker /\ m_index x = idx /\ m_entries x = e :: es /\ e_data e = ctx)).

(** The term of the node's log at [i], as its own Term(i) reports it (0 if it has none). *)
Definition node_term_at {E : Env} (n : rawnode) (i : N) : N :=
  match log_term i (r_log (rn_raft n)) with Ok (SOk t) => t | _ => 0 end.
(** The node leads and the entry at its commit index is of its own term. *)
Definition leads_committed {E : Env} (n : rawnode) : Prop :=
  node_role n = RLeader /\ node_term_at n (node_commit n) = node_term n.
Definition leads_uncommitted {E : Env} (n : rawnode) : Prop :=
  node_role n = RLeader /\ node_term_at n (node_commit n) <> node_term n.

(** [reached n0 os n]: the calls [os] took the node from [n0] to [n]. *)
Definition reached {E : Env} (n0 : rawnode) (os : list nop) (n : rawnode) : Prop :=
  exists outs, n_run os n0 = Ok (n, outs).
(** Somewhere in [os] the question was put while the node led but had committed nothing of its own
    term yet. *)
Definition postponed {E : Env} (n0 : rawnode) (os : list nop) (asker : N) (ctx : string) : Prop :=
  exists os1 o os2 n, os = os1 ++ o :: os2 /\ reached n0 (os1 ++ [o]) n /\ asks (node_id n0) o asker ctx /\ leads_uncommitted n.
(** In the calls [os], voter [v] acknowledged a heartbeat of term [t] carrying [ctx]. *)
Definition beat_acked (os : list nop) (t v : N) (ctx : string) : Prop :=
  exists m, In (NStep m) os /\ m_type m = MsgHeartbeatResp /\ m_from m = v /\ m_term m = t /\ m_ctx m = ctx.
