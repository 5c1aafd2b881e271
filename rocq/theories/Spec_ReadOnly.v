(** Specification of the queue of pending read-index requests: a plain list of requests in arrival
    order; the context of a request is the data of its first entry. *)
From Verif Require Import Prelude Types M_ReadOnly.

Record rreq := mkRReq { rq_ctx : string; rq_msg : msg; rq_index : N; rq_acks : nmap bool }.

Inductive roop :=
| RoAdd (index : N) (m : msg)        (* AddRequest *)
| RoAck (from : N) (ctx : string)    (* RecvAck *)
| RoAdvance (ctx : string).          (* Advance *)

(** Observable answers. *)
Inductive roret := RrNone | RrAcks (a : nmap bool) | RrReleased (l : list ristatus).

Definition has_ctx (c : string) (q : list rreq) : bool := existsb (fun r => String.eqb (rq_ctx r) c) q.

(** The requests up to and including the one with context [c]. *)
Fixpoint upto (c : string) (q : list rreq) : list rreq :=
  match q with
  | [] => []
  | r :: t => if String.eqb (rq_ctx r) c then [r] else r :: upto c t
  end.
Fixpoint after (c : string) (q : list rreq) : list rreq :=
  match q with
  | [] => []
  | r :: t => if String.eqb (rq_ctx r) c then t else after c t
  end.
Definition ack_of (c : string) (q : list rreq) : nmap bool :=
  match find (fun r => String.eqb (rq_ctx r) c) q with Some r => rq_acks r | None => [] end.
Definition add_ack (from : N) (r : rreq) : rreq :=
  mkRReq (rq_ctx r) (rq_msg r) (rq_index r) (mset from true (rq_acks r)).
Definition released (r : rreq) : ristatus := mkRIS (rq_msg r) (rq_index r) (rq_acks r).

Definition rq_step (o : roop) (q : list rreq) : list rreq * roret :=
  match o with
  | RoAdd i m =>
      let c := match m_entries m with e :: _ => e_data e | [] => EmptyString end in
      (if has_ctx c q then q else q ++ [mkRReq c m i []], RrNone)
  | RoAck from c =>
      let q' := map (fun r => if String.eqb (rq_ctx r) c then add_ack from r else r) q in
      (q', RrAcks (ack_of c q'))
  | RoAdvance c =>
      if has_ctx c q then (after c q, RrReleased (map released (upto c q)))
      else (q, RrReleased [])
  end.
(** Requests carry their context in their first entry. *)
Definition roop_ok (o : roop) : Prop := match o with RoAdd _ m => m_entries m <> [] | _ => True end.

Fixpoint rq_run (ops : list roop) (q : list rreq) : list rreq * list roret :=
  match ops with
  | [] => (q, [])
  | o :: t => let '(q1, r) := rq_step o q in let '(q2, rs) := rq_run t q1 in (q2, r :: rs)
  end.
