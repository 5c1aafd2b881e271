(** Vocabulary for probing (C73): how a leader finds the place where a member's log agrees with its own. *)
From Verif Require Import Prelude Types M_Progress M_Tracker M_Storage M_Unstable M_Log M_Raft M_RawNode Sys_Node Spec_Node Spec_Flow Spec_Snap Spec_Resp.

(** The terms in the node's log never decrease, and index 0 has term 0. *)
Definition ordered {E : Env} (n : rawnode) : Prop :=
  shows n 0 0 /\ forall i j s t, i <= j -> j <= node_last n -> shows n i s -> shows n j t -> s <= t.
(** The leader [L] probes the member [F], and its append message [x] is the probe: it carries the index
    before Next and the term of the leader's own entry there. *)
Definition probing {E : Env} (L F : rawnode) (x : msg) : Prop :=
  node_role L = RLeader /\ node_id F <> node_id L /\
  (exists p, peer L (node_id F) = Some p /\ p_state p = StProbe /\ p_next p = m_index x + 1) /\
  m_type x = MsgApp /\ m_from x = node_id L /\ m_term x = node_term L /\ has_prev L x.
(** The member gets the message [x] and answers [a]. *)
Definition replies {E : Env} (F : rawnode) (x : msg) (F' : rawnode) (a : msg) : Prop :=
  nop_ok (NStep x) F /\ listens F x /\ exists out, n_step (NStep x) F = Ok (F', out) /\ pending F' = pending F ++ [a].
(** One refused probe: the member gets [x] and refuses, the leader gets the refusal and sends the
    append message [x'] instead. *)
Definition refusal {E : Env} (L F : rawnode) (x : msg) (L' F' : rawnode) (x' : msg) : Prop :=
  exists a, replies F x F' a /\ m_reject a = true /\ nop_ok (NStep a) L /\
    emits (NStep a) L L' x' /\ m_to x' = node_id F /\ m_type x' = MsgApp.
(** The terms of the refused probes in a row of round trips, starting with [x]. *)
Inductive refusals {E : Env} : rawnode -> rawnode -> msg -> list N -> Prop :=
| RefNone L F x : refusals L F x []
| RefMore L F x L' F' x' ts : refusal L F x L' F' x' -> refusals L' F' x' ts -> refusals L F x (m_logterm x :: ts).
