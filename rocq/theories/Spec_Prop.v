(** Vocabulary for the statements about proposals. *)
From Verif Require Import Prelude Types M_Util M_Storage M_Unstable M_Log M_ConfPb M_Raft M_RawNode Sys_Node Spec_Node.

(** The call [o] proposes the entries [es]: Propose, ProposeConfChange, or a proposal forwarded by
    a peer. *)
Definition carries {E : Env} (o : nop) (es : list entry) : Prop :=
  match o with
  | NPropose d => es = [mkEntry 0 0 EntryNormal d]
  | NProposeCC cc => exists t d, cci_marshal cc = Ok (t, d) /\ es = [mkEntry 0 0 t d]
  | NStep m => m_type m = MsgProp /\ es = m_entries m
  | _ => False
  end.
(** The same, without term: what this library forwards never carries one. *)
Definition proposes {E : Env} (o : nop) (es : list entry) : Prop :=
  carries o es /\ forall m, o = NStep m -> m_term m = 0.

(** A membership change entry, and the empty entry it may be replaced by. *)
Definition conf_change (e : entry) : Prop := e_type e <> EntryNormal.
Definition blank (e : entry) : Prop := e_type e = EntryNormal /\ e_data e = EmptyString.

(** A membership change fits the configuration: leaving the joint state iff it is joint. *)
Definition fits {E : Env} (n : rawnode) (e : entry) : Prop :=
  match e_type e with
  | EntryNormal => True
  | EntryConfChange => node_outgoing n = []
  | EntryConfChangeV2 => forall v, dec_ccv2 (e_data e) = Some v -> (c2_changes v = [] <-> node_outgoing n <> [])
  end.
(** [n'] leads the same term as [n] and its log is [n]'s log followed by [es], stamped with that
    term and the next indexes; a membership change may have been blanked. *)
Definition appended {E : Env} (n n' : rawnode) (es : list entry) : Prop :=
  node_role n = RLeader /\ node_role n' = RLeader /\ node_term n' = node_term n /\
  node_last n' = node_last n + nlen es /\
  (forall i e, i <= node_last n -> (holds_entry n' i e <-> holds_entry n i e)) /\
  (forall k x, nnth es k = Some x -> exists y,
     holds_entry n' (node_last n + 1 + k) y /\ e_index y = node_last n + 1 + k /\ e_term y = node_term n /\
     ((e_type y = e_type x /\ e_data y = e_data x /\ fits n x) \/ (conf_change x /\ blank y))).

(** [n'] is [n] with one more message to hand out: exactly [es], to the leader [n] knows. *)
Definition passed_on (n n' : rawnode) (es : list entry) : Prop :=
  node_role n = RFollower /\ node_lead n <> 0 /\
  exists m, m_type m = MsgProp /\ m_to m = node_lead n /\ m_entries m = es /\
    n' = set_rn_raft (set_r_msgs (pending n ++ [m]) (rn_raft n)) n.

(** The bytes of payload in [es]. *)
Fixpoint payload (es : list entry) : N :=
  match es with [] => 0 | e :: t => N.of_nat (String.length (e_data e)) + payload t end.

(** The entries [n] has in its log and has not applied yet, in order. *)
Definition unapplied_entries {E : Env} (n : rawnode) (us : list entry) : Prop :=
  let from := N.max (node_applied n + 1) (node_first n) in
  from + nlen us = node_last n + 1 /\ forall k x, nnth us k = Some x -> holds_entry n (from + k) x.
(** The size the node accounts as uncommitted, and its limit. *)
Definition tracked (n : rawnode) : N := r_uncommitted (rn_raft n).
Definition size_limit (c : config) : N := if c_max_uncommitted c =? 0 then UINT64_MAX else c_max_uncommitted c.
