(** Model of MemoryStorage, src/storage.{h,cc}.
    Locks are not modelled (each call is atomic).  [ignore_size_] (a test hook) is false, and the
    other test hooks (SetEntries) are not modelled. *)
From Verif Require Import Prelude Types M_Util.

(** src/storage.h:146-164.  ents_ is the sequence [ms_dummy :: ms_tail]: the constructor makes it
    non-empty and every operation below that could empty it has an explicit [UB] branch, so the
    [assert(!ents_.empty())] of the C++ hold by construction. *)
Record mstorage := mkMS {
  ms_hs : hardstate;
  ms_snap : snapshot;
  ms_dummy : entry;
  ms_tail : list entry
}.
Definition ms_ents (s : mstorage) : list entry := ms_dummy s :: ms_tail s.
Definition set_ms_hs (v : hardstate) (s : mstorage) : mstorage :=
  mkMS v (ms_snap s) (ms_dummy s) (ms_tail s).
Definition set_ms_snap (v : snapshot) (s : mstorage) : mstorage :=
  mkMS (ms_hs s) v (ms_dummy s) (ms_tail s).
Definition set_ms_ents (l : list entry) (s : mstorage) : res mstorage :=
  match l with
  | [] => UB "ents_ became empty"
  | d :: t => Ok (mkMS (ms_hs s) (ms_snap s) d t)
  end.

(** src/storage.cc:26-38 *)
Definition new_storage : mstorage := mkMS empty_hardstate empty_snapshot empty_entry [].

(** src/storage.cc:229-232 [LastIndexUnSafe] (and LastIndex, 102-105) *)
Definition ms_last_index (s : mstorage) : N := e_index (ms_dummy s) + nlen (ms_ents s) - 1.
(** src/storage.cc:234-237 [FirstIndexUnSafe] (and FirstIndex, 107-110) *)
Definition ms_first_index (s : mstorage) : N := e_index (ms_dummy s) + 1.

(** src/storage.cc:40-43 [InitialState] *)
Definition ms_initial_state (s : mstorage) : hardstate * confstate :=
  (ms_hs s, sn_conf (ms_snap s)).

(** src/storage.cc:45-49 [SetHardState] *)
Definition ms_set_hard_state (h : hardstate) (s : mstorage) : mstorage := set_ms_hs h s.

(** the sub-range [a,b) of a deque, a <= b <= size *)
Definition nslice {A} (l : list A) (a b : N) : list A := ntake (b - a) (ndrop a l).

(** src/storage.cc:51-80 [Entries] *)
Definition ms_entries {E : Env} (lo hi max_size : N) (s : mstorage) : res (st (list entry)) :=
  let offset := e_index (ms_dummy s) in
  if lo <=? offset then Ok (SErr ECompacted)
  else if ms_last_index s + 1 <? hi then Fatal "entries' hi is out of bound lastindex"
  else if nlen (ms_ents s) =? 1 then Ok (SErr EUnavailable)
  else if hi <? lo then UB "inverted iterator range"
  else Ok (SOk (limit_size (nslice (ms_ents s) (lo - offset) (hi - offset)) max_size)).

(** src/storage.cc:82-100 [Term] *)
Definition ms_term (i : N) (s : mstorage) : st N :=
  let offset := e_index (ms_dummy s) in
  if i <? offset then SErr ECompacted
  else match nnth (ms_ents s) (i - offset) with
       | None => SErr EUnavailable
       | Some e => SOk (e_term e)
       end.

(** src/storage.cc:112-115 [SnapShot] *)
Definition ms_snapshot (s : mstorage) : st snapshot := SOk (ms_snap s).

(** src/storage.cc:117-135 [ApplySnapshot] (pointer sharing: see M_StorageHeap.v) *)
Definition ms_apply_snapshot (sn : snapshot) (s : mstorage) : mstorage * option err :=
  if sn_index sn <=? sn_index (ms_snap s) then (s, Some ESnapOutOfDate)
  else (mkMS (ms_hs s) sn (mkEntry (sn_term sn) (sn_index sn) EntryNormal EmptyString) [], None).

(** src/storage.cc:137-161 [CreateSnapshot] (in-place mutation: see M_StorageHeap.v) *)
Definition ms_create_snapshot (i : N) (cs : option confstate) (data : string) (s : mstorage)
  : res (mstorage * st snapshot) :=
  if i <=? sn_index (ms_snap s) then Ok (s, SErr ESnapOutOfDate)
  else if ms_last_index s <? i then Fatal "snapshot is out of bound lastindex"
  else if i <? e_index (ms_dummy s) then UB "ents_[i - offset] out of range"
  else match nnth (ms_ents s) (i - e_index (ms_dummy s)) with
       | None => UB "ents_[i - offset] out of range"
       | Some e =>
           let conf := match cs with Some c => c | None => sn_conf (ms_snap s) end in
           let sn := mkSnapshot i (e_term e) conf data in
           Ok (set_ms_snap sn s, SOk sn)
       end.

(** src/storage.cc:163-183 [Compact] *)
Definition ms_compact (ci : N) (s : mstorage) : res (mstorage * option err) :=
  let offset := e_index (ms_dummy s) in
  if ci <=? offset then Ok (s, Some ECompacted)
  else if ms_last_index s <? ci then Fatal "compact is out of bound lastindex"
  else s' <- set_ms_ents (ndrop (ci - offset) (ms_ents s)) s ;; Ok (s', None).

(** src/storage.cc:185-227 [Append] *)
Definition ms_append (entries : list entry) (s : mstorage) : res mstorage :=
  match entries with
  | [] => Ok s
  | e0 :: _ =>
      let first := ms_first_index s in
      let last := e_index e0 + nlen entries - 1 in
      if last <? first then Ok s
      else
        let entries := if e_index e0 <? first then ndrop (first - e_index e0) entries
                       else entries in
        match entries with
        | [] => UB "entries[0] of an empty deque"
        | e1 :: _ =>
            let offset := wsub (e_index e1) (e_index (ms_dummy s)) in
            let size := nlen (ms_ents s) in
            if offset <? size then set_ms_ents (ntake offset (ms_ents s) ++ entries) s
            else if offset =? size then set_ms_ents (ms_ents s ++ entries) s
            else Fatal "missing log entry"
        end
  end.
