(** Specification of majorities (independent of the implementation). *)
From Verif Require Import Prelude.

(** Number of elements of [c] satisfying [p]. *)
Definition count (p : N -> bool) (c : list N) : N := nlen (filter p c).

(** [p] holds for more than half of the members of [c]; an empty [c] imposes nothing. *)
Definition majority (c : list N) (p : N -> bool) : Prop :=
  c = [] \/ nlen c < 2 * count p c.

(** Voter [id] has acknowledged at least [i]; a voter that reported nothing acknowledged 0. *)
Definition acked (l : N -> option N) (i : N) (id : N) : bool :=
  match l id with Some v => i <=? v | None => i =? 0 end.

Definition voted_yes (votes : N -> option bool) (id : N) : bool :=
  match votes id with Some b => b | None => false end.

(** [votes'] extends [votes]: votes already cast do not change. *)
Definition extends (votes votes' : N -> option bool) : Prop :=
  forall id b, votes id = Some b -> votes' id = Some b.
