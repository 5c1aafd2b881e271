(** Model of the pure helpers of src/util.{h,cc}. *)
From Verif Require Import Prelude Types.

Section Util.
Context {E : Env}.

(** src/util.cc:26-37, the loop of [LimitSize] past the first entry; [size] is the running sum
    (uint64 overflow of the sum of byte sizes is not modelled). *)
Fixpoint limit_go (size : N) (ents : list entry) (max_size : N) : list entry :=
  match ents with
  | [] => []
  | e :: t =>
      let size' := size + esize e in
      if max_size <? size' then [] else e :: limit_go size' t max_size
  end.

(** src/util.cc:20-38 [LimitSize] *)
Definition limit_size (ents : list entry) (max_size : N) : list entry :=
  match ents with
  | [] => []
  | e :: t => e :: limit_go (esize e) t max_size
  end.

End Util.

(** src/util.h:29-40 [VoteRespMsgType] *)
Definition vote_resp_type (t : mtype) : res mtype :=
  match t with
  | MsgVote => Ok MsgVoteResp
  | MsgPreVote => Ok MsgPreVoteResp
  | _ => Fatal "unexpect type"
  end.

(** src/util.h:52 [PayloadSize] *)
Definition payload_size (e : entry) : N := N.of_nat (String.length (e_data e)).

(** src/raft.cc:1816-1819 and 1838-1841: the sum of the payload sizes. *)
Definition payloads_size (es : list entry) : N :=
  fold_left (fun acc e => acc + payload_size e) es 0.

(** src/util.cc:89-95 [IsLocalMsg] *)
Definition is_local_msg (t : mtype) : bool :=
  match t with
  | MsgHup | MsgBeat | MsgUnreachable | MsgSnapStatus | MsgCheckQuorum => true
  | _ => false
  end.

(** src/util.cc:97-103 [IsResponseMsg] *)
Definition is_response_msg (t : mtype) : bool :=
  match t with
  | MsgAppResp | MsgVoteResp | MsgHeartbeatResp | MsgUnreachable | MsgPreVoteResp => true
  | _ => false
  end.

(** src/util.cc:68-79 [Split]: pieces between delimiters. *)
Fixpoint split_go (d : ascii) (s cur : string) : list string :=
  match s with
  | EmptyString => [cur]
  | String c t =>
      if Ascii.eqb c d then cur :: split_go d t EmptyString
      else split_go d t (cur ++ String c EmptyString)%string
  end.
Definition split (s : string) (d : ascii) : list string := split_go d s EmptyString.

(** src/util.cc:81-88 [Trim]: drop leading and trailing [c]. *)
Fixpoint drop_leading (c : ascii) (s : string) : string :=
  match s with
  | EmptyString => EmptyString
  | String a t => if Ascii.eqb a c then drop_leading c t else s
  end.
Fixpoint drop_trailing (c : ascii) (s : string) : string :=
  match s with
  | EmptyString => EmptyString
  | String a t =>
      match drop_trailing c t with
      | EmptyString => if Ascii.eqb a c then EmptyString else String a EmptyString
      | t' => String a t'
      end
  end.
Definition trim (s : string) (c : ascii) : string := drop_trailing c (drop_leading c s).
