(** Vocabulary for idle leaders (C66). *)
From Verif Require Import Prelude Types M_Progress M_Tracker M_Log M_Raft M_RawNode Sys_Node Spec_Node Spec_Flow.

(** Every other member is known to hold the leader's whole log. *)
Definition caught_up (n : rawnode) : Prop :=
  forall to p, to <> node_id n -> peer n to = Some p -> node_last n <= p_match p.
(** What an idle leader of term [t], whose log ends at [last], hears: the clock, the Ready loop, and
    answers of others that report nothing beyond the log and confirm no read. *)
Definition idle_call (id t last : N) (o : nop) : Prop :=
  match o with
  | NTick | NTickQuiesced | NHandle => True
  | NStep m => m_term m = t /\ m_from m <> id /\
      ((m_type m = MsgHeartbeatResp /\ m_ctx m = EmptyString) \/
       (m_type m = MsgAppResp /\ m_reject m = false /\ m_index m <= last))
  | _ => False
  end.
Definition is_heartbeat (t id : N) (m : msg) : Prop := m_type m = MsgHeartbeat /\ m_from m = id /\ m_term m = t.
