(** Vocabulary for catching members up (C63, C64). *)
From Verif Require Import Prelude Types M_Inflights M_Progress M_Tracker M_Storage M_Unstable M_Log M_Raft M_RawNode Sys_Node Spec_Node Spec_Flow.

(** The call makes the leader send [to] a message that takes it on from index [next]: an append
    message with the entries from there on (at least one if the log has any), or a snapshot if the
    leader's log no longer reaches back so far. *)
Definition sent_from {E : Env} (o : nop) (n n' : rawnode) (to next : N) : Prop :=
  exists x, emits o n n' x /\ m_to x = to /\ m_from x = node_id n /\ m_term x = node_term n /\
    ((m_type x = MsgApp /\ node_first n <= next /\ m_index x + 1 = next /\ (next <= node_last n' -> m_entries x <> [])) \/
     (m_type x = MsgSnap /\ next < node_first n)).
(** The index of the oldest append message in the window. *)
Definition oldest (w : inflights) : option N := if i_count w =? 0 then None else nnth (i_buf w) (i_start w).
(** The acknowledgement of index [i] ends the member's pause. *)
Definition resumes (K i : N) (p : progress) : Prop :=
  paused K p /\
  match p_state p with
  | StProbe => True
  | StReplicate => exists b, oldest (p_infl p) = Some b /\ b <= i
  | StSnapshot => p_pending p <= i
  end.
(** The rejection of an append message at index [i] is news: it answers the probe that is out, or it
    concerns entries not known to be held. *)
Definition news (i : N) (p : progress) : Prop :=
  match p_state p with StProbe => p_next p = i + 1 | StReplicate => p_match p < i | StSnapshot => False end.
(** Nothing more can be sent to the member now: it is paused, or it was sent the whole log, or it needs
    a snapshot. *)
Definition served (K : N) (n : rawnode) (p : progress) : Prop :=
  paused K p \/ node_last n < p_next p \/ p_next p < node_first n.
(** The member can be served at once: it is not paused and, if it needs a snapshot, it was active. *)
Definition ready_for (K : N) (n : rawnode) (p : progress) : Prop :=
  ~ paused K p /\ (node_first n <= p_next p \/ p_active p = true).
(** A member of the configuration: a voter (of either half of a joint one) or a learner. *)
Definition member (n : rawnode) (id : N) : Prop :=
  In id (node_incoming n) \/ In id (node_outgoing n) \/ In id (tc_learners (ns_config (rn_status n))).
