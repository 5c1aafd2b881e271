(** Specification of a bounded FIFO window of message indexes. *)
From Verif Require Import Prelude.

Inductive iop := IAdd (v : N) | IFreeLE (to : N) | IFreeFirst | IReset.

(** Drop the longest prefix of elements <= to. *)
Fixpoint drop_le (to : N) (q : list N) : list N :=
  match q with
  | [] => []
  | x :: t => if x <=? to then drop_le to t else q
  end.

(** One operation on the abstract queue of capacity [cap]; None = fatal error (Add on a full one).
    Freeing the first element of an empty queue is not part of this specification ([allowed]). *)
Definition q_step (cap : N) (o : iop) (q : list N) : option (list N) :=
  match o with
  | IAdd v => if nlen q =? cap then None else Some (q ++ [v])
  | IFreeLE to => Some (drop_le to q)
  | IFreeFirst => match q with [] => Some [] | x :: _ => Some (drop_le x q) end
  | IReset => Some []
  end.
Definition allowed (o : iop) (q : list N) : Prop :=
  match o with IFreeFirst => q <> [] | _ => True end.

(** Outcome of a whole operation sequence: the final queue, or the fatal error. *)
Fixpoint q_run (cap : N) (os : list iop) (q : list N) : option (list N) :=
  match os with
  | [] => Some q
  | o :: t => match q_step cap o q with Some q' => q_run cap t q' | None => None end
  end.
Fixpoint q_allowed (cap : N) (os : list iop) (q : list N) : Prop :=
  match os with
  | [] => True
  | o :: t => allowed o q /\ match q_step cap o q with Some q' => q_allowed cap t q' | None => True end
  end.
