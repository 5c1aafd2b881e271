(** Vocabulary for flow control (C45). *)
From Verif Require Import Prelude Types M_Inflights M_Progress M_Tracker M_Storage M_Unstable M_Log M_Raft M_RawNode Sys_Node Spec_Node.

(** [n] was created with configuration [c] on a good storage and then used in any disciplined way. *)
Definition made {E : Env} (c : config) (n : rawnode) : Prop :=
  exists tape s n0 os outs, c_storage c = Some s /\ storage_ok s /\ rn_new c tape = Ok n0 /\
    n_run_ok os n0 /\ n_run os n0 = Ok (n, outs).
(** What Status reports about the follower [to] (only a leader reports any). *)
Definition peer (n : rawnode) (to : N) : option progress := mget to (ns_progress (rn_status n)).
Definition max_inflight (c : config) : N := Z.to_N (c_max_inflight c).
(** The follower must not be sent entries now: it is probed and the probe is out, its window of
    [K] append messages is full, or it is busy with a snapshot. *)
Definition paused (K : N) (p : progress) : Prop :=
  match p_state p with
  | StProbe => p_probe_sent p = true
  | StReplicate => i_count (p_infl p) = K
  | StSnapshot => True
  end.
(** The call brings news from or about [to], or changes the configuration. *)
Definition about (o : nop) (to : N) : Prop :=
  match o with
  | NStep m => m_from m = to
  | NReportUnreachable i | NReportSnapshot i _ => i = to
  | NApplyCC _ => True
  | _ => False
  end.
(** Leading in both states, in the same term. *)
Definition still_leads (n n' : rawnode) : Prop :=
  node_role n = RLeader /\ node_role n' = RLeader /\ node_term n' = node_term n.

(** The append messages to [to] among [ms] start at [next] and continue one another up to [next']. *)
Fixpoint pipelined (to next : N) (ms : list msg) (next' : N) : Prop :=
  match ms with
  | [] => next' = next
  | m :: t =>
      if mtype_eqb (m_type m) MsgApp && (m_to m =? to)
      then m_index m + 1 = next /\ pipelined to (next + nlen (m_entries m)) t next'
      else pipelined to next t next'
  end.

(** The messages emitted during a run with outputs [outs] are [ms]. *)
Definition emitted {E : Env} (n : rawnode) (outs : list nout) (n' : rawnode) (ms : list msg) : Prop :=
  pending n ++ ms = sent outs ++ pending n'.
(** [P] holds in every state the run [os] from [n] passes. *)
Fixpoint throughout {E : Env} (P : rawnode -> Prop) (os : list nop) (n : rawnode) : Prop :=
  P n /\ match os with [] => True | o :: t => forall n1 out, n_step o n = Ok (n1, out) -> throughout P t n1 end.
Definition replicates (t to : N) (n : rawnode) : Prop :=
  node_role n = RLeader /\ node_term n = t /\ exists p, peer n to = Some p /\ p_state p = StReplicate.
(** The call delivers [to]'s acknowledgement, in term [t], of index [i] or beyond; a heartbeat
    response of [to]. *)
Definition acks (t to i : N) (o : nop) : bool :=
  match o with
  | NStep m => mtype_eqb (m_type m) MsgAppResp && negb (m_reject m) && (m_term m =? t) && (m_from m =? to) && (i <=? m_index m)
  | _ => false
  end.
Definition beat_resp (t to : N) (o : nop) : bool :=
  match o with
  | NStep m => mtype_eqb (m_type m) MsgHeartbeatResp && (m_term m =? t) && (m_from m =? to)
  | _ => false
  end.
(** [m] is an append message with entries to [to] whose last entry nobody acknowledged in [os]. *)
Definition unacked (os : list nop) (t to : N) (m : msg) : bool :=
  mtype_eqb (m_type m) MsgApp && (m_to m =? to) &&
  match rev (m_entries m) with e :: _ => negb (existsb (acks t to (e_index e)) os) | [] => false end.
