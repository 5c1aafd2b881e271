(** The abstract log every log-like object of the library stands for: a window of consecutive
    entries after a base position (compaction point or snapshot) whose index and term are known. *)
From Verif Require Import Prelude Types.

Record alog := mkALog { a_base : N; a_bterm : N; a_ents : list entry }.

Definition a_first (a : alog) : N := a_base a + 1.
Definition a_last (a : alog) : N := a_base a + nlen (a_ents a).

(** The entry at index [i]. *)
Definition a_entry (a : alog) (i : N) : option entry :=
  if a_base a <? i then nnth (a_ents a) (i - a_base a - 1) else None.
(** The term at index [i], also known at the base. *)
Definition a_term (a : alog) (i : N) : option N :=
  if i =? a_base a then Some (a_bterm a) else option_map e_term (a_entry a i).
(** The entries with indexes lo .. hi-1. *)
Definition a_slice (a : alog) (lo hi : N) : list entry :=
  ntake (hi - lo) (ndrop (lo - a_base a - 1) (a_ents a)).
(** Keep everything before index [i], then continue with [es]. *)
Definition a_replace (a : alog) (i : N) (es : list entry) : alog :=
  mkALog (a_base a) (a_bterm a) (ntake (i - a_base a - 1) (a_ents a) ++ es).

(** [es] are consecutive entries starting at index [i]. *)
Definition contig (i : N) (es : list entry) : Prop :=
  forall k e, nnth es k = Some e -> e_index e = i + k.
Definition a_wf (a : alog) : Prop := contig (a_base a + 1) (a_ents a).

(** Total encoded size. *)
Fixpoint total_size {E : Env} (es : list entry) : N :=
  match es with [] => 0 | e :: t => esize e + total_size t end.
(** [p] is [es] cut to at most [max] bytes: the longest prefix within the limit, but never
    nothing. *)
Definition size_limited {E : Env} (es : list entry) (max : N) (p : list entry) : Prop :=
  exists rest, es = p ++ rest /\
    (es <> [] -> p <> []) /\
    (total_size p <= max \/ nlen p = 1) /\
    (forall q r, es = q ++ r -> total_size q <= max -> nlen q <= nlen p).
