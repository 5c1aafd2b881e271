(** Model of src/tracker/inflights.{h,cc}.  int64_t/int32_t members are modelled as N; sizes of
    2^31 and more (where the int32_t locals would overflow) are not modelled. *)
From Verif Require Import Prelude.

(** src/tracker/inflights.h:84-94 *)
Record inflights := mkInf { i_start : N; i_count : N; i_size : N; i_buf : list N }.

(** src/tracker/inflights.h:33-34 *)
Definition new_inflights (size : N) : inflights := mkInf 0 0 size [].

(** src/tracker/inflights.h:57 *)
Definition inf_full (x : inflights) : bool := i_count x =? i_size x.

(** std::vector<uint64_t>::resize *)
Definition vresize (n : N) (l : list N) : list N :=
  if n <=? nlen l then ntake n l else l ++ repeat 0 (N.to_nat (n - nlen l)).

(** src/tracker/inflights.cc:68-76 [Grow]: the new buffer. *)
Definition inf_grow (x : inflights) : list N :=
  let new_size := nlen (i_buf x) * 2 in
  let new_size := if new_size =? 0 then 1
                  else if i_size x <? new_size then i_size x else new_size in
  vresize new_size (i_buf x).

(** buffer_[next] = v *)
Definition vset (l : list N) (i v : N) : option (list N) :=
  if i <? nlen l then Some (ntake i l ++ v :: ndrop (i + 1) l) else None.

(** src/tracker/inflights.cc:20-34 [Add] *)
Definition inf_add (v : N) (x : inflights) : res inflights :=
  if inf_full x then Fatal "cannot add into a Full inflights"
  else
    let next := i_start x + i_count x in
    let next := if i_size x <=? next then next - i_size x else next in
    let buf := if nlen (i_buf x) <=? next then inf_grow x else i_buf x in
    match vset buf next v with
    | Some buf' => Ok (mkInf (i_start x) (i_count x + 1) (i_size x) buf')
    | None => UB "buffer_[next] out of range"
    end.

(** src/tracker/inflights.cc:44-54: the loop of FreeLE; [fuel] = count_ - i. *)
Fixpoint free_loop (fuel : nat) (x : inflights) (to idx i : N) : res (N * N) :=
  match fuel with
  | O => Ok (idx, i)
  | S f =>
      match nnth (i_buf x) idx with
      | None => UB "buffer_[idx] out of range"
      | Some b =>
          if to <? b then Ok (idx, i)
          else
            let idx' := idx + 1 in
            let idx' := if i_size x <=? idx' then idx' - i_size x else idx' in
            free_loop f x to idx' (i + 1)
      end
  end.

(** src/tracker/inflights.cc:36-64 [FreeLE] *)
Definition inf_free_le (to : N) (x : inflights) : res inflights :=
  if i_count x =? 0 then Ok x
  else
    match nnth (i_buf x) (i_start x) with
    | None => UB "buffer_[start_] out of range"
    | Some b =>
        if to <? b then Ok x
        else
          '(idx, i) <- free_loop (N.to_nat (i_count x)) x to (i_start x) 0 ;;
          let count := i_count x - i in
          let start := if count =? 0 then 0 else idx in
          Ok (mkInf start count (i_size x) (i_buf x))
    end.

(** src/tracker/inflights.cc:66 [FreeFirstOne]: buffer_[start_] is evaluated unconditionally. *)
Definition inf_free_first_one (x : inflights) : res inflights :=
  match nnth (i_buf x) (i_start x) with
  | None => UB "buffer_[start_] out of range"
  | Some b => inf_free_le b x
  end.

(** src/tracker/inflights.h:63-66 [Reset] *)
Definition inf_reset (x : inflights) : inflights := mkInf 0 0 (i_size x) (i_buf x).
