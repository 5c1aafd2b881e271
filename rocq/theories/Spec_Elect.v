(** Vocabulary for the outcome of an election (C60). *)
From Verif Require Import Prelude Types M_Quorum M_Progress M_Tracker M_Storage M_Unstable M_Log M_Raft M_RawNode Sys_Node Spec_Node Spec_Quorum Spec_Progress.

(** The answer the call delivers to a candidate ([x] = RCandidate) or pre-candidate
    ([x] = RPreCandidate) of term [t]: who answered, and whether the vote was granted. *)
Definition ballot (x : role) (t : N) (o : nop) : list (N * bool) :=
  match o with
  | NStep m =>
      if match x with
         | RPreCandidate => mtype_eqb (m_type m) MsgPreVoteResp && (t <=? m_term m)
         | _ => mtype_eqb (m_type m) MsgVoteResp && (m_term m =? t)
         end
      then [(m_from m, negb (m_reject m))] else []
  | _ => []
  end.
(** Everybody's vote after the calls [os]: the node's own, and the first answer of each other. *)
Definition tally (x : role) (t self : N) (os : list nop) : N -> option bool :=
  first_vote ((self, true) :: flat_map (ballot x t) os).
(** The votes elect, cannot elect any more, or leave it open. *)
Definition elects (n : rawnode) (v : N -> option bool) : Prop :=
  majority (node_incoming n) (voted_yes v) /\ majority (node_outgoing n) (voted_yes v).
Definition hopeless (n : rawnode) (v : N -> option bool) : Prop :=
  forall w, extends v w -> ~ elects n w.

(** The call starts a campaign in role [x]. *)
Definition campaigns (x : role) (n n' : rawnode) : Prop :=
  node_role n' = x /\
  match x with RPreCandidate => node_role n <> RPreCandidate | _ => node_term n < node_term n' end.
(** The call may change who counts (a configuration change), or start over. *)
Definition disturbs (x : role) (o : nop) : Prop :=
  match o with
  | NApplyCC _ => True
  | NTick | NCampaign => x = RPreCandidate
  | _ => False
  end.
(** [m] asks [to] for its vote for the node's log as it is. *)
Definition asks {E : Env} (x : role) (n : rawnode) (to : N) (m : msg) : Prop :=
  m_type m = (match x with RPreCandidate => MsgPreVote | _ => MsgVote end) /\
  m_from m = node_id n /\ m_to m = to /\
  m_term m = (match x with RPreCandidate => node_term n + 1 | _ => node_term n end) /\
  m_index m = node_last n /\ log_term (node_last n) (r_log (rn_raft n)) = Ok (SOk (m_logterm m)).
