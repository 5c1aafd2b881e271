(** Vocabulary for the statements about one node. *)
From Verif Require Import Prelude Types M_Progress M_Tracker M_Storage M_Unstable M_Log M_Raft M_RawNode Sys_Node.

(** (term, vote) of a HardState moves forward: the term grows, or it stays and the vote is kept or
    given for the first time. *)
Definition hs_forward (a b : hardstate) : Prop :=
  hs_term a < hs_term b \/
  (hs_term b = hs_term a /\ (hs_vote b = hs_vote a \/ hs_vote a = 0)).

(** [m] tells its receiver that it got this node's vote. *)
Definition grants (m : msg) : Prop := m_type m = MsgVoteResp /\ m_reject m = false.
(** Whoever starts from [h] can never grant a different vote in the term of [m]. *)
Definition records (h : hardstate) (m : msg) : Prop :=
  m_term m < hs_term h \/ (m_term m = hs_term h /\ hs_vote h = m_to m).

(** The HardState an application has durably stored after persisting these Readys. *)
Definition persisted (h0 : hardstate) (rds : list ready) : hardstate :=
  fold_left (fun h rd => if is_empty_hs (rd_hard rd) then h else rd_hard rd) rds h0.

Definition node_hard (n : rawnode) : hardstate := ns_hard (rn_status n).
Definition node_role (n : rawnode) : role := ss_state (ns_soft (rn_status n)).
Definition node_lead (n : rawnode) : N := ss_lead (ns_soft (rn_status n)).

(** A node's lives.  [lives ms h]: over some number of lives, each started by [rn_new] on a storage
    holding the HardState persisted before, each followed by any calls, the node handed out the
    messages [ms], and [h] is the HardState on disk now.  A crash may happen after any call. *)
Inductive lives {E : Env} : list msg -> hardstate -> Prop :=
| LivesFirst h : lives [] h
| LivesNext ms h c s tape n os n' outs :
    lives ms h -> c_storage c = Some s -> ms_hs s = h -> rn_new c tape = Ok n ->
    Forall nop_wf os -> n_run os n = Ok (n', outs) ->
    lives (ms ++ sent outs) (persisted h (readys outs)).

(** May stand for election: tracked by the configuration, not as a learner, no snapshot waiting to
    be applied. *)
Definition electable (n : rawnode) : Prop :=
  let r := rn_raft n in
  (exists p, mget (ns_id (rn_status n)) (t_progress (r_trk r)) = Some p /\ p_learner p = false) /\
  (forall s, u_snap (l_us (r_log r)) = Some s -> sn_index s = 0).

(** The log of a node as the library's own reads show it. *)
Definition node_applied (n : rawnode) : N := ns_applied (rn_status n).
Definition node_commit (n : rawnode) : N := hs_commit (node_hard n).
Definition node_first (n : rawnode) : N := log_first (r_log (rn_raft n)).
Definition node_last (n : rawnode) : N := log_last (r_log (rn_raft n)).
Definition holds_entry {E : Env} (n : rawnode) (i : N) (e : entry) : Prop :=
  log_slice i (i + 1) UINT64_MAX (r_log (rn_raft n)) = Ok (SOk [e]).

(** Where delivery stands after [rd]'s snapshot, if it carries one. *)
Definition resume (a : N) (rd : ready) : N :=
  if sn_index (rd_snap rd) =? 0 then a else sn_index (rd_snap rd).
(** Everything up to [a] was applied; the Readys [rds] continue without gap and without repetition:
    a snapshot only jumps forward, and committed entries continue right after it. *)
Fixpoint gapless (a : N) (rds : list ready) : Prop :=
  match rds with
  | [] => True
  | rd :: t =>
      (sn_index (rd_snap rd) = 0 \/ a < sn_index (rd_snap rd)) /\
      (forall k e, nnth (rd_committed rd) k = Some e -> e_index e = resume a rd + 1 + k) /\
      gapless (resume a rd + nlen (rd_committed rd)) t
  end.

(** The messages the next GetReady hands to the application, and the messages a call adds to them. *)
Definition pending (n : rawnode) : list msg := r_msgs (rn_raft n).
Definition emits {E : Env} (o : nop) (n n' : rawnode) (x : msg) : Prop :=
  exists out new, n_step o n = Ok (n', out) /\ pending n' = pending n ++ new /\ In x new.

(** Some call in [os] delivered an accepting MsgAppResp of term [t] in which [id] acknowledges at
    least index [i]. *)
Definition acknowledged (os : list nop) (t id i : N) : Prop :=
  exists m, In (NStep m) os /\ m_type m = MsgAppResp /\ m_reject m = false /\ m_term m = t /\
    m_from m = id /\ i <= m_index m.
(** The incoming and outgoing voters of the node's configuration. *)
Definition node_incoming (n : rawnode) : list N := tc_incoming (ns_config (rn_status n)).
Definition node_outgoing (n : rawnode) : list N := tc_outgoing (ns_config (rn_status n)).
Definition node_term (n : rawnode) : N := hs_term (node_hard n).
Definition node_id (n : rawnode) : N := ns_id (rn_status n).
