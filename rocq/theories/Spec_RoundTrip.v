(** Vocabulary for an election in one round of messages (C78). *)
From Verif Require Import Prelude Types M_Quorum M_Progress M_Tracker M_Storage M_Unstable M_Log M_Raft M_RawNode Sys_Node Spec_Node Spec_Quorum Spec_Progress Spec_Elect Spec_Flow Spec_Resp.

Section Spec.
Context {E : Env}.
(** The node [j] received the request for its vote from the candidate [n].  It is free to grant it:
    it is in an earlier term, or in the candidate's and has voted for it, or for nobody and knows no
    leader.  Nothing makes it ignore the request: it knows no leader whose lease it respects, or the
    request is the result of a leader transfer.  Its log is no more up-to-date than the candidate's.
    [a] is what it adds to the messages it wants to send. *)
Record answered_by (n : rawnode) (j : N) (a : msg) : Prop := {
  ab_case : exists c v v' out req lt,
    made c v /\ node_id v = j /\ asks RCandidate n j req /\ nop_ok (NStep req) v /\
    n_step (NStep req) v = Ok (v', out) /\ pending v' = pending v ++ [a] /\
    (node_term v < node_term n \/
       (node_term v = node_term n /\ (hs_vote (node_hard v) = node_id n \/ (hs_vote (node_hard v) = 0 /\ node_lead v = 0)))) /\
    (node_term v = node_term n \/ m_ctx req = "CampaignTransfer"%string \/ node_lead v = 0 \/ c_check_quorum c = false) /\
    shows v (node_last v) lt /\
    (lt < m_logterm req \/ (lt = m_logterm req /\ node_last v <= m_index req))
}.
(** The node itself or one of [voters]. *)
Definition backs (n : rawnode) (voters : list N) (j : N) : bool := (j =? node_id n) || existsb (N.eqb j) voters.
End Spec.
