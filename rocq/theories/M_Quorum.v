(** Model of src/quorum/majority.cc and src/quorum/joint.cc. *)
From Verif Require Import Prelude.

(** src/quorum/majority.cc:33-41 [insertionSort].  The sorted prefix arr[0..i) is kept reversed
    (its last element first); [rinsert] is the inner swap loop moving arr[i] to the left while it
    is smaller than its left neighbour. *)
Fixpoint rinsert (x : N) (rev_prefix : list N) : list N :=
  match rev_prefix with
  | [] => [x]
  | y :: t => if x <? y then y :: rinsert x t else x :: y :: t
  end.
Definition insertion_sort (l : list N) : list N :=
  rev (fold_left (fun acc x => rinsert x acc) l []).

(** src/quorum/quorum.h:27-31 [AckedIndexer::AckedIndex]: None = (0,false). *)
Definition acked_indexer := N -> option N.

(** src/quorum/majority.cc:73-80: the indexes reported, in config order. *)
Fixpoint acked_values (c : nset) (l : acked_indexer) : list N :=
  match c with
  | [] => []
  | id :: t => match l id with Some i => i :: acked_values t l | None => acked_values t l end
  end.

(** src/quorum/majority.cc:58-81: the array filled from the right, the rest zero.  The stack
    (n <= 7) and heap (n > 7) variants hold the same contents. *)
Definition fill (c : nset) (l : acked_indexer) : list N :=
  let a := acked_values c l in repeat 0 (List.length c - List.length a)%nat ++ rev a.

(** src/quorum/majority.cc:43-92 [MajorityConfig::CommittedIndex]. *)
Definition majority_committed_index (c : nset) (l : acked_indexer) : res N :=
  let n := nlen c in
  if n =? 0 then Ok UINT64_MAX
  else
    let srt := insertion_sort (fill c l) in
    let pos := n - (n / 2 + 1) in
    match nnth srt pos with
    | Some v => Ok v
    | None => UB "srt[pos] out of range"
    end.

(** src/quorum/quorum.h:53-61 *)
Inductive votestate := VotePending | VoteLost | VoteWon.
Definition votestate_eqb (a b : votestate) : bool :=
  match a, b with
  | VotePending, VotePending | VoteLost, VoteLost | VoteWon, VoteWon => true
  | _, _ => false
  end.

(** src/quorum/majority.cc:102-113: (yes votes, missing votes). *)
Fixpoint count_votes (c : nset) (votes : nmap bool) : N * N :=
  match c with
  | [] => (0, 0)
  | id :: t =>
      let '(yes, missing) := count_votes t votes in
      match mget id votes with
      | None => (yes, missing + 1)
      | Some true => (yes + 1, missing)
      | Some false => (yes, missing)
      end
  end.

(** src/quorum/majority.cc:94-123 [MajorityConfig::VoteResult] (int casts ignored). *)
Definition majority_vote_result (c : nset) (votes : nmap bool) : votestate :=
  match c with
  | [] => VoteWon
  | _ =>
      let '(voted_cnt, missing) := count_votes c votes in
      let q := nlen c / 2 + 1 in
      if q <=? voted_cnt then VoteWon
      else if q <=? voted_cnt + missing then VotePending
      else VoteLost
  end.

(** src/quorum/joint.cc:20-26 [JointConfig::IDs] and majority.cc:125-129. *)
Definition joint_ids (c0 c1 : nset) : nset :=
  fold_left (fun acc id => sadd id acc) c1 (fold_left (fun acc id => sadd id acc) c0 []).

(** src/quorum/joint.cc:28-32 [JointConfig::CommittedIndex]. *)
Definition joint_committed_index (c0 c1 : nset) (l : acked_indexer) : res N :=
  i0 <- majority_committed_index c0 l ;;
  i1 <- majority_committed_index c1 l ;;
  Ok (N.min i0 i1).

(** src/quorum/joint.cc:34-48 [JointConfig::VoteResult]. *)
Definition joint_vote_result (c0 c1 : nset) (votes : nmap bool) : votestate :=
  let r1 := majority_vote_result c0 votes in
  let r2 := majority_vote_result c1 votes in
  if votestate_eqb r1 r2 then r1
  else if votestate_eqb r1 VoteLost || votestate_eqb r2 VoteLost then VoteLost
  else VotePending.

(** src/quorum/joint.h:36-41 [JointConfig::At]: the bound compares against [sizeof(configs_)]
    (bytes, here the size of two std::set objects, 96 on LP64), so At(2..95) indexes past the
    two-element array. *)
Definition joint_at (sizeof_configs : N) (c0 c1 : nset) (i : N) : res nset :=
  if sizeof_configs <=? i then Ok c0
  else if i =? 0 then Ok c0
  else if i =? 1 then Ok c1
  else UB "configs_[i] out of range".
