(** Model of src/log.{h,cc}.  The Storage behind the log is a MemoryStorage ([l_st]).
    CRAFT_LOG_FATAL is [Fatal]; arguments of INFO/DEBUG/WARNING log calls are not evaluated. *)
From Verif Require Import Prelude Types M_Util M_Storage M_Unstable.

(** src/log.h:167-183 *)
Record rlog := mkLog {
  l_st : mstorage;
  l_us : unstable;
  l_committed : N;
  l_applied : N;
  l_maxnext : N
}.
Definition set_l_st (v : mstorage) (l : rlog) : rlog :=
  mkLog v (l_us l) (l_committed l) (l_applied l) (l_maxnext l).
Definition set_l_us (v : unstable) (l : rlog) : rlog :=
  mkLog (l_st l) v (l_committed l) (l_applied l) (l_maxnext l).
(** src/log.h:92 [SetCommitted] *)
Definition set_l_committed (v : N) (l : rlog) : rlog :=
  mkLog (l_st l) (l_us l) v (l_applied l) (l_maxnext l).
Definition set_l_applied (v : N) (l : rlog) : rlog :=
  mkLog (l_st l) (l_us l) (l_committed l) v (l_maxnext l).

(** src/log.cc:31-52 (constructor) *)
Definition new_log (s : mstorage) (max_next : N) : rlog :=
  mkLog s (mkUnstable None [] (ms_last_index s + 1))
        (ms_first_index s - 1) (ms_first_index s - 1) max_next.

(** src/log.cc:122-130 [FirstIndex] *)
Definition log_first (l : rlog) : N :=
  match us_maybe_first (l_us l) with Some i => i | None => ms_first_index (l_st l) end.

(** src/log.cc:132-140 [LastIndex] *)
Definition log_last (l : rlog) : N :=
  match us_maybe_last (l_us l) with Some i => i | None => ms_last_index (l_st l) end.

(** src/log.cc:173-197 [Term] (FirstIndex() - 1 cannot wrap: FirstIndex() >= 1) *)
Definition log_term (i : N) (l : rlog) : res (st N) :=
  let dummy := log_first l - 1 in
  if (i <? dummy) || (log_last l <? i) then Ok (SOk 0)
  else
    r <- us_maybe_term i (l_us l) ;;
    match r with
    | Some t => Ok (SOk t)
    | None => Ok (ms_term i (l_st l))
    end.

(** src/log.cc:165-171 [LastTerm] *)
Definition log_last_term (l : rlog) : res N :=
  r <- log_term (log_last l) l ;;
  match r with SOk t => Ok t | SErr _ => Fatal "unexpected error when getting the last term" end.

(** src/log.cc:222-228 [MatchTerm] *)
Definition log_match_term (i term : N) (l : rlog) : res bool :=
  r <- log_term i l ;;
  match r with SOk t => Ok (t =? term) | SErr _ => Ok false end.

(** src/log.cc:355-365 [ZeroTermOnErrCompacted] *)
Definition zero_term_on_compacted (r : st N) : res N :=
  match r with
  | SOk t => Ok t
  | SErr ECompacted => Ok 0
  | SErr _ => Fatal "unexpected error"
  end.

(** src/log.cc:218-220 [IsUpToData] *)
Definition log_is_up_to_date (lasti term : N) (l : rlog) : res bool :=
  lt <- log_last_term l ;;
  Ok ((lt <? term) || ((term =? lt) && (log_last l <=? lasti))).

(** src/log.cc:142-154 [CommitTo] *)
Definition log_commit_to (tocommit : N) (l : rlog) : res rlog :=
  if l_committed l <? tocommit then
    if log_last l <? tocommit then Fatal "tocommit is out of range"
    else Ok (set_l_committed tocommit l)
  else Ok l.

(** src/log.cc:156-163 [AppliedTo] *)
Definition log_applied_to (i : N) (l : rlog) : res rlog :=
  if i =? 0 then Ok l
  else if (l_committed l <? i) || (i <? l_applied l) then Fatal "applied is out of range"
  else Ok (set_l_applied i l).

(** src/log.cc:230-236 [MaybeCommit] *)
Definition log_maybe_commit (max_index term : N) (l : rlog) : res (rlog * bool) :=
  if l_committed l <? max_index then
    r <- log_term max_index l ;;
    t <- zero_term_on_compacted r ;;
    if t =? term then l' <- log_commit_to max_index l ;; Ok (l', true)
    else Ok (l, false)
  else Ok (l, false).

(** src/log.cc:238-243 [Restore] *)
Definition log_restore (s : snapshot) (l : rlog) : rlog :=
  mkLog (l_st l) (us_restore s (l_us l)) (sn_index s) (l_applied l) (l_maxnext l).

(** src/log.cc:245-258 [Append] *)
Definition log_append (ents : list entry) (l : rlog) : res (rlog * N) :=
  match ents with
  | [] => Ok (l, log_last l)
  | e0 :: _ =>
      let after := wsub (e_index e0) 1 in
      if after <? l_committed l then Fatal "after is out of range [committed]"
      else
        u <- us_truncate_and_append ents (l_us l) ;;
        let l' := set_l_us u l in Ok (l', log_last l')
  end.

(** src/log.cc:260-274 [FindConflict] *)
Fixpoint log_find_conflict (ents : list entry) (l : rlog) : res N :=
  match ents with
  | [] => Ok 0
  | e :: t =>
      m <- log_match_term (e_index e) (e_term e) l ;;
      if m then log_find_conflict t l else Ok (e_index e)
  end.

(** src/log.cc:54-78 [MaybeAppend]; None = (0,false) *)
Definition log_maybe_append (index log_term_ committed : N) (ents : list entry) (l : rlog)
  : res (rlog * option N) :=
  m <- log_match_term index log_term_ l ;;
  if m then
    let lastnewi := index + nlen ents in
    ci <- log_find_conflict ents l ;;
    l1 <- (if ci =? 0 then Ok l
           else if ci <=? l_committed l then Fatal "entry conflict with committed entry"
           else
             let offset := index + 1 in
             if nlen ents <? wsub ci offset then Fatal "index is out of range"
             else '(l', _) <- log_append (ndrop (wsub ci offset) ents) l ;; Ok l') ;;
    l2 <- log_commit_to (N.min committed lastnewi) l1 ;;
    Ok (l2, Some lastnewi)
  else Ok (l, None).

(** src/log.cc:291-298, the loop of [FindConflictByTerm] *)
Fixpoint fcbt_loop (fuel : nat) (index term : N) (l : rlog) : res N :=
  match fuel with
  | O => NoFuel
  | S f =>
      r <- log_term index l ;;
      match r with
      | SErr _ => Ok index
      | SOk lt => if lt <=? term then Ok index else fcbt_loop f (wsub index 1) term l
      end
  end.
(** src/log.cc:276-300 [FindConflictByTerm] *)
Definition log_find_conflict_by_term (index term : N) (l : rlog) : res N :=
  if log_last l <? index then Ok index
  else fcbt_loop (S (S (N.to_nat index))) index term l.

(** src/log.cc:340-353 [MustCheckOutOfBounds]; fi + (LastIndex() + 1 - fi) is LastIndex() + 1
    modulo 2^64 *)
Definition log_must_check (lo hi : N) (l : rlog) : res (option err) :=
  if hi <? lo then Fatal "invalid slice"
  else if lo <? log_first l then Ok (Some ECompacted)
  else if log_last l + 1 <? hi then Fatal "slice out of bound"
  else Ok None.

Section Slice.
Context {E : Env}.

(** src/log.cc:302-338 [Slice] *)
Definition log_slice (lo hi max_size : N) (l : rlog) : res (st (list entry)) :=
  chk <- log_must_check lo hi l ;;
  match chk with
  | Some e => Ok (SErr e)
  | None =>
      if lo =? hi then Ok (SOk [])
      else
        let off := u_off (l_us l) in
        (* Some early result, or the stored part *)
        part <- (if lo <? off then
                   r <- ms_entries lo (N.min hi off) max_size (l_st l) ;;
                   match r with
                   | SErr ECompacted => Ok (inl (SErr ECompacted))
                   | SErr _ => Fatal "entries is unavailable from storage"
                   | SOk stored =>
                       if nlen stored <? N.min hi off - lo then Ok (inl (SOk stored))
                       else Ok (inr stored)
                   end
                 else Ok (inr [])) ;;
        match part with
        | inl early => Ok early
        | inr ents =>
            ents' <- (if off <? hi then
                        un <- us_slice (N.max lo off) hi (l_us l) ;; Ok (ents ++ un)
                      else Ok ents) ;;
            Ok (SOk (limit_size ents' max_size))
        end
  end.

(** src/log.cc:199-204 [Entries] *)
Definition log_entries (i maxsize : N) (l : rlog) : res (st (list entry)) :=
  if log_last l <? i then Ok (SOk [])
  else log_slice i (log_last l + 1) maxsize l.

(** src/log.cc:87-100 [NextEnts] *)
Definition log_next_ents (l : rlog) : res (list entry) :=
  let off := N.max (l_applied l + 1) (log_first l) in
  if off <? l_committed l + 1 then
    r <- log_slice off (l_committed l + 1) (l_maxnext l) l ;;
    match r with
    | SOk es => Ok es
    | SErr _ => Fatal "unexpected error when getting unapplied entries"
    end
  else Ok [].
End Slice.

(** src/log.cc:102-105 [HasNextEnts] *)
Definition log_has_next_ents (l : rlog) : bool :=
  N.max (l_applied l + 1) (log_first l) <? l_committed l + 1.

(** src/log.cc:107-110 [HasPendingSnapshot] *)
Definition log_has_pending_snapshot (l : rlog) : bool :=
  match u_snap (l_us l) with Some s => negb (sn_index s =? 0) | None => false end.

(** src/log.cc:115-120 [Snapshot] *)
Definition log_snapshot (l : rlog) : st snapshot :=
  match u_snap (l_us l) with Some s => SOk s | None => ms_snapshot (l_st l) end.

(** src/log.cc:80-85 [UnstableEntries] *)
Definition log_unstable_entries (l : rlog) : list entry := u_ents (l_us l).

(** src/log.h:102-104 [StableTo], [StableSnapTo] *)
Definition log_stable_to (i t : N) (l : rlog) : res rlog :=
  u <- us_stable_to i t (l_us l) ;; Ok (set_l_us u l).
Definition log_stable_snap_to (i : N) (l : rlog) : rlog :=
  set_l_us (us_stable_snap_to i (l_us l)) l.
