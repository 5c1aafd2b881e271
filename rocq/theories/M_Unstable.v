(** Model of src/log_unstable.{h,cc}. *)
From Verif Require Import Prelude Types.

(** src/log_unstable.h:79-85 *)
Record unstable := mkUnstable {
  u_snap : option snapshot;
  u_ents : list entry;
  u_off : N
}.

(** src/log_unstable.cc:22-27 [MaybeFirstIndex] *)
Definition us_maybe_first (u : unstable) : option N :=
  match u_snap u with Some s => Some (sn_index s + 1) | None => None end.

(** src/log_unstable.cc:29-38 [MaybeLastIndex]; offset_ + size - 1 with size > 0 *)
Definition us_maybe_last (u : unstable) : option N :=
  match u_ents u with
  | _ :: _ => Some (u_off u + nlen (u_ents u) - 1)
  | [] => match u_snap u with Some s => Some (sn_index s) | None => None end
  end.

(** src/log_unstable.cc:40-57 [MaybeTerm] *)
Definition us_maybe_term (i : N) (u : unstable) : res (option N) :=
  if i <? u_off u then
    match u_snap u with
    | Some s => if sn_index s =? i then Ok (Some (sn_term s)) else Ok None
    | None => Ok None
    end
  else
    match us_maybe_last u with
    | None => Ok None
    | Some last =>
        if last <? i then Ok None
        else match nnth (u_ents u) (i - u_off u) with
             | Some e => Ok (Some (e_term e))
             | None => UB "entries_[i - offset_] out of range"
             end
    end.

(** src/log_unstable.cc:59-73 [StableTo] *)
Definition us_stable_to (i t : N) (u : unstable) : res unstable :=
  r <- us_maybe_term i u ;;
  match r with
  | None => Ok u
  | Some gt =>
      if (gt =? t) && (u_off u <=? i)
      then Ok (mkUnstable (u_snap u) (ndrop (i - u_off u + 1) (u_ents u)) (i + 1))
      else Ok u
  end.

(** src/log_unstable.cc:75-79 [StableSnapTo] *)
Definition us_stable_snap_to (i : N) (u : unstable) : unstable :=
  match u_snap u with
  | Some s => if sn_index s =? i then mkUnstable None (u_ents u) (u_off u) else u
  | None => u
  end.

(** src/log_unstable.cc:81-85 [Restore] *)
Definition us_restore (s : snapshot) (u : unstable) : unstable :=
  mkUnstable (Some s) [] (sn_index s + 1).

(** src/log_unstable.cc:87-107 [TruncateAndAppend]; ents[0] of an empty deque is UB, and so is
    erasing from past the end (a gap between the log and the new entries). *)
Definition us_truncate_and_append (ents : list entry) (u : unstable) : res unstable :=
  match ents with
  | [] => UB "ents[0] of an empty deque"
  | e0 :: _ =>
      let after := e_index e0 in
      if after =? u_off u + nlen (u_ents u) then
        Ok (mkUnstable (u_snap u) (u_ents u ++ ents) (u_off u))
      else if after <=? u_off u then
        Ok (mkUnstable (u_snap u) ents after)
      else if after - u_off u <=? nlen (u_ents u) then
        Ok (mkUnstable (u_snap u) (ntake (after - u_off u) (u_ents u) ++ ents) (u_off u))
      else UB "erase from past the end"
  end.

(** src/log_unstable.cc:109-129 [Slice] with [MustCheckOutOfBounds] *)
Definition us_slice (lo hi : N) (u : unstable) : res (list entry) :=
  if hi <? lo then Fatal "invalid unstable.slice"
  else if (lo <? u_off u) || (u_off u + nlen (u_ents u) <? hi)
  then Fatal "unstable.slice out of bound"
  else Ok (ntake (hi - lo) (ndrop (lo - u_off u) (u_ents u))).
