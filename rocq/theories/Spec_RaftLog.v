(** Specification of RaftLog (together with the storage behind it) as one abstract log with a
    commit and an applied mark. *)
From Verif Require Import Prelude Types Spec_Log.

Record alstate := mkAL { al : alog; ac : N; aa : N }.

(** Calls on the log, and what the application does with the storage behind it. *)
Inductive lop :=
| LAppend (es : list entry)
| LMaybeAppend (index term committed : N) (es : list entry)
| LCommitTo (i : N)
| LMaybeCommit (i term : N)
| LAppliedTo (i : N)
| LRestore (sn : snapshot)
| LPersist                (* persist the unstable snapshot and entries, then StableTo/StableSnapTo *)
| LStaleStable (i term : N) (* StableTo for an entry the unstable part does not hold *)
| LCompact (i : N)        (* Storage::Compact *)
| LCreateSnapshot (i : N) (cs : option confstate) (data : string). (* Storage::CreateSnapshot *)

Inductive lres := RNone | RIndex (i : N) | RReject | RBool (b : bool).

(** How many of the entries are already in the log (same index, same term). *)
Fixpoint match_len (a : alog) (es : list entry) : N :=
  match es with
  | [] => 0
  | e :: t => match a_term a (e_index e) with
              | Some x => if x =? e_term e then 1 + match_len a t else 0
              | None => 0
              end
  end.

Definition opt_eqb (o : option N) (t : N) : bool := match o with Some x => x =? t | None => false end.

(** Effect of a call: the new state and its result, or a fatal error (None). *)
Definition al_step (o : lop) (s : alstate) : option (alstate * lres) :=
  let a := al s in
  match o with
  | LAppend es =>
      match es with
      | [] => Some (s, RIndex (a_last a))
      | e0 :: _ => if e_index e0 <=? ac s then None
                   else Some (mkAL (a_replace a (e_index e0) es) (ac s) (aa s), RIndex (e_index e0 + nlen es - 1))
      end
  | LMaybeAppend index term committed es =>
      if opt_eqb (a_term a index) term then
        let k := match_len a es in
        let last := index + nlen es in
        if (k <? nlen es) && (index + 1 + k <=? ac s) then None
        else Some (mkAL (if k <? nlen es then a_replace a (index + 1 + k) (ndrop k es) else a)
                        (N.max (ac s) (N.min committed last)) (aa s), RIndex last)
      else Some (s, RReject)
  | LCommitTo i => if a_last a <? i then None else Some (mkAL a (N.max (ac s) i) (aa s), RNone)
  | LMaybeCommit i t =>
      if (ac s <? i) && opt_eqb (a_term a i) t then Some (mkAL a i (aa s), RBool true)
      else Some (s, RBool false)
  | LAppliedTo i =>
      if i =? 0 then Some (s, RNone)
      else if (ac s <? i) || (i <? aa s) then None else Some (mkAL a (ac s) i, RNone)
  | LRestore sn => Some (mkAL (mkALog (sn_index sn) (sn_term sn) []) (sn_index sn) (aa s), RNone)
  | LPersist => Some (s, RNone)
  | LStaleStable i t => Some (s, RNone)
  | LCompact i =>
      if i <=? a_base a then Some (s, RBool false)
      else match a_term a i with
           | Some t => Some (mkAL (mkALog i t (ndrop (i - a_base a) (a_ents a))) (ac s) (aa s), RBool true)
           | None => None
           end
  | LCreateSnapshot i cs d => Some (s, RNone)
  end.

(** Preconditions (what the protocol / the documentation guarantees):
    - appended entries are consecutive, leave no gap and carry non-zero terms;
    - a probe position carrying term 0 is not past the end;
    - a snapshot is restored only if it is newer than the commit index;
    - only applied positions are compacted / snapshotted. *)
Definition lop_ok (pending : bool) (o : lop) (s : alstate) : Prop :=
  let a := al s in
  match o with
  | LAppend es => match es with [] => True | e0 :: _ =>
                    1 <= e_index e0 /\ contig (e_index e0) es /\ e_index e0 <= a_last a + 1 end
  | LMaybeAppend index term committed es =>
      contig (index + 1) es /\ (forall e, In e es -> 0 < e_term e) /\
      (term = 0 -> a_term a index <> None)
  | LMaybeCommit i t => 0 < t
  | LRestore sn => ac s < sn_index sn
  | LAppliedTo i => pending = false
  | LStaleStable i t => pending = false /\ (a_term a i <> Some t)
  | LCompact i => pending = false /\ i <= aa s
  | LCreateSnapshot i cs d => pending = false /\ a_base a <= i <= aa s
  | _ => True
  end.

Fixpoint al_run (os : list lop) (s : alstate) : option (alstate * list lres) :=
  match os with
  | [] => Some (s, [])
  | o :: t => match al_step o s with
              | None => None
              | Some (s', r) => match al_run t s' with Some (s'', rs) => Some (s'', r :: rs) | None => None end
              end
  end.
