(** Vocabulary for the progress of read-index requests (C65). *)
From Verif Require Import Prelude Types M_Progress M_Tracker M_Log M_ReadOnly M_Raft M_RawNode Sys_Node Spec_Node Spec_Flow Spec_Read Spec_Quorum.

(** The call puts the question [ctx] of [asker] to the node [id] of term [t]. *)
Definition puts (id t : N) (o : nop) (asker : N) (ctx : string) : Prop :=
  asks id o asker ctx /\ match o with NStep m => m_term m = 0 \/ m_term m = t | _ => True end.
(** The node is the only voter. *)
Definition alone (n : rawnode) : Prop := (exists v, node_incoming n = [v]) /\ node_outgoing n = [].
(** The call sends every other member a heartbeat with the context. *)
Definition spreads {E : Env} (o : nop) (n n' : rawnode) (ctx : string) : Prop :=
  forall to, to <> node_id n -> peer n to <> None -> exists x, emits o n n' x /\ m_type x = MsgHeartbeat /\
    m_to x = to /\ m_from x = node_id n /\ m_term x = node_term n /\ m_ctx x = ctx.
(** One of the calls [os], made from [n] on, gives the answer [idx]. *)
Definition answered {E : Env} (n : rawnode) (os : list nop) (asker : N) (ctx : string) (idx : N) : Prop :=
  exists os1 o os2 n1 n2, os = os1 ++ o :: os2 /\ reached n os1 n1 /\ answers o n1 n2 asker ctx idx.
(** In the calls [os] enough voters of [n]'s configuration acknowledge heartbeats with the context:
    with the node itself they are a majority of the voters (of both halves of a joint configuration),
    and one of them is another voter. *)
Definition confirmed (os : list nop) (ctx : string) (n : rawnode) : Prop :=
  exists S : N -> bool, majority (node_incoming n) S /\ majority (node_outgoing n) S /\
    (exists v, S v = true /\ v <> node_id n /\ (In v (node_incoming n) \/ In v (node_outgoing n))) /\
    forall v, S v = true -> v = node_id n \/ beat_acked os (node_term n) v ctx.
(** No earlier question had this context. *)
Definition new_ctx (id : N) (os : list nop) (ctx : string) : Prop := forall o asker, In o os -> ~ asks id o asker ctx.
Definition leads_in (t : N) (n : rawnode) : Prop := node_role n = RLeader /\ node_term n = t.
(** The node has just been created. *)
Definition created {E : Env} (c : config) (n : rawnode) : Prop :=
  exists tape s, c_storage c = Some s /\ storage_ok s /\ rn_new c tape = Ok n.
