(** Model of src/raftpb/confchange.{h,cc} and src/raftpb/confstate.cc. *)
From Coq Require Import DecimalString DecimalN DecimalNat.
From Verif Require Import Prelude Types M_Util.

(** src/raftpb/confchange.h:27-49 [ConfChangeI]: at most one of the two optionals is set by every
    constructor; [CCNull] is the default-constructed object. *)
Inductive cci := CCNull | CCv1 (c : confchange) | CCv2 (c : confchangev2).

(** src/raftpb/confchange.cc:23-33 [AsV2]; dereferencing the empty optional cc_ is UB *)
Definition cci_as_v2 (c : cci) : res confchangev2 :=
  match c with
  | CCNull => UB "dereference of an empty optional"
  | CCv1 cc => Ok (mkConfChangeV2 TrAuto [mkCC (c1_type cc) (c1_node cc)] (c1_ctx cc))
  | CCv2 cc => Ok cc
  end.

(** src/raftpb/confchange.cc:35-40 [AsV1] *)
Definition cci_as_v1 (c : cci) : option confchange :=
  match c with CCv1 cc => Some cc | _ => None end.

(** src/raftpb/confchange.cc:42-56 [Marshal] (protobuf serialisation never fails) *)
Definition cci_marshal {E : Env} (c : cci) : res (etype * string) :=
  match cci_as_v1 c with
  | Some cc => Ok (EntryConfChange, enc_cc cc)
  | None => c2 <- cci_as_v2 c ;; Ok (EntryConfChangeV2, enc_ccv2 c2)
  end.

(** src/raftpb/confchange.cc:58-83 [EnterJoint]: (auto_leave, use joint) *)
Definition enter_joint (c : confchangev2) : bool * bool :=
  let joint := match c2_trans c with TrAuto => false | _ => true end in
  if joint || (1 <? nlen (c2_changes c)) then
    (match c2_trans c with TrAuto | TrJointImplicit => true | TrJointExplicit => false end, true)
  else (false, false).

(** src/raftpb/confchange.cc:85-90 [LeaveJoint] (the context is cleared first) *)
Definition leave_joint (c : confchangev2) : bool :=
  is_nil (c2_changes c) && match c2_trans c with TrAuto => true | _ => false end.

(** Decimal digits. *)
Definition digit_of (c : ascii) : option N :=
  let n := N_of_ascii c in
  if (48 <=? n) && (n <=? 57) then Some (n - 48) else None.
(** isspace in the C locale *)
Definition is_space (c : ascii) : bool :=
  let n := N_of_ascii c in (n =? 32) || ((9 <=? n) && (n <=? 13)).
Fixpoint read_digits (s : string) (acc : N) : N :=
  match s with
  | EmptyString => acc
  | String c t => match digit_of c with Some d => read_digits t (acc * 10 + d) | None => acc end
  end.
Fixpoint skip_spaces (s : string) : string :=
  match s with
  | String c t => if is_space c then skip_spaces t else s
  | EmptyString => EmptyString
  end.
(** C strtoull(s, nullptr, 10): white space, optional sign, digits; saturates at ULLONG_MAX; never
    reports an error through an exception.  (src/raftpb/confchange.cc:116) *)
Definition strtoull (s : string) : N :=
  let s := skip_spaces s in
  let '(neg, s) := match s with
                   | String c t => if Ascii.eqb c "-" then (true, t)
                                   else if Ascii.eqb c "+" then (false, t) else (false, s)
                   | EmptyString => (false, s)
                   end in
  let v := read_digits s 0 in
  if UINT64_MAX <? v then UINT64_MAX else if neg then wsub 0 v mod U64 else v.

(** src/raftpb/confchange.cc:100-121: one token *)
Definition parse_token (tok : string) : option ccsingle :=
  match tok with
  | String c (String c' rest') =>
      let rest := String c' rest' in
      if Ascii.eqb c "v" then Some (mkCC CcAddNode (strtoull rest))
      else if Ascii.eqb c "l" then Some (mkCC CcAddLearnerNode (strtoull rest))
      else if Ascii.eqb c "r" then Some (mkCC CcRemoveNode (strtoull rest))
      else if Ascii.eqb c "u" then Some (mkCC CcUpdateNode (strtoull rest))
      else None
  | _ => None
  end.
Fixpoint parse_tokens (toks : list string) : option (list ccsingle) :=
  match toks with
  | [] => Some []
  | t :: r =>
      match parse_token t, parse_tokens r with
      | Some c, Some cs => Some (c :: cs)
      | _, _ => None
      end
  end.
(** src/raftpb/confchange.cc:92-125 [ConfChangesFromString]; None is any Status::Error *)
Definition cc_from_string (s : string) : option (list ccsingle) :=
  let toks := split (trim s " ") " " in
  let toks := match toks with
              | t :: _ => if String.eqb t EmptyString then [] else toks
              | [] => []
              end in
  parse_tokens toks.

(** operator<<(ostream, uint64_t): decimal without leading zeros *)
Definition dec_string (n : N) : string := NilZero.string_of_uint (N.to_uint n).
Definition cc_letter (t : cctype) : string :=
  match t with
  | CcAddNode => "v" | CcAddLearnerNode => "l" | CcRemoveNode => "r" | CcUpdateNode => "u"
  end.
Definition cc_token (c : ccsingle) : string := (cc_letter (cc_type c) ++ dec_string (cc_node c))%string.
(** src/raftpb/confchange.cc:127-147 [ConfChangesToString] *)
Definition cc_to_string (ccs : list ccsingle) : string := String.concat " " (map cc_token ccs).

(** std::sort on uint64, as insertion into a sorted list (any correct sort gives this list) *)
Fixpoint sort_insert (x : N) (l : list N) : list N :=
  match l with
  | [] => [x]
  | y :: t => if x <=? y then x :: l else y :: sort_insert x t
  end.
Definition nsort (l : list N) : list N := fold_right sort_insert [] l.
Fixpoint list_eqb (a b : list N) : bool :=
  match a, b with
  | [], [] => true
  | x :: a', y :: b' => (x =? y) && list_eqb a' b'
  | _, _ => false
  end.
(** src/raftpb/confstate.cc:18-42 [operator==] *)
Definition confstate_eqb (a b : confstate) : bool :=
  list_eqb (nsort (cs_voters a)) (nsort (cs_voters b)) &&
  list_eqb (nsort (cs_learners a)) (nsort (cs_learners b)) &&
  list_eqb (nsort (cs_outgoing a)) (nsort (cs_outgoing b)) &&
  list_eqb (nsort (cs_learners_next a)) (nsort (cs_learners_next b)) &&
  Bool.eqb (cs_auto_leave a) (cs_auto_leave b).
