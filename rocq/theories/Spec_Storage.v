(** Specification of MemoryStorage as one abstract log plus the latest snapshot and hard state. *)
From Verif Require Import Prelude Types Spec_Log.

(** The mutating calls of MemoryStorage (src/storage.h). *)
Inductive sop :=
| OSetHardState (h : hardstate)
| OApplySnapshot (sn : snapshot)
| OCreateSnapshot (i : N) (cs : option confstate) (data : string)
| OCompact (i : N)
| OAppend (es : list entry).

Record astore := mkAS { as_log : alog; as_hs : hardstate; as_snap : snapshot }.

(** What a call does: the new state and the reported error, or a fatal error (None). *)
Definition as_step (o : sop) (s : astore) : option (astore * option err) :=
  let a := as_log s in
  match o with
  | OSetHardState h => Some (mkAS a h (as_snap s), None)
  | OApplySnapshot sn =>
      if sn_index sn <=? sn_index (as_snap s) then Some (s, Some ESnapOutOfDate)
      else Some (mkAS (mkALog (sn_index sn) (sn_term sn) []) (as_hs s) sn, None)
  | OCreateSnapshot i cs data =>
      if i <=? sn_index (as_snap s) then Some (s, Some ESnapOutOfDate)
      else match a_term a i with
           | None => None
           | Some t =>
               Some (mkAS a (as_hs s)
                 (mkSnapshot i t (match cs with Some c => c | None => sn_conf (as_snap s) end) data),
                 None)
           end
  | OCompact i =>
      if i <=? a_base a then Some (s, Some ECompacted)
      else match a_term a i with
           | None => None
           | Some t => Some (mkAS (mkALog i t (ndrop (i - a_base a) (a_ents a))) (as_hs s) (as_snap s),
                             None)
           end
  | OAppend es =>
      match es with
      | [] => Some (s, None)
      | e0 :: _ =>
          let i := e_index e0 in
          if a_last a + 1 <? i then None
          else if i + nlen es <=? a_first a then Some (s, None)
          else Some (mkAS (a_replace a (N.max i (a_first a)) (ndrop (a_first a - i) es))
                          (as_hs s) (as_snap s), None)
      end
  end.

(** Calls the documentation allows: appended entries are consecutive, from index 1 on; a snapshot
    is not created at an index already compacted away. *)
Definition sop_ok (o : sop) (s : astore) : Prop :=
  match o with
  | OAppend es => match es with [] => True | e0 :: _ => 1 <= e_index e0 /\ contig (e_index e0) es end
  | OCreateSnapshot i _ _ => sn_index (as_snap s) < i -> a_base (as_log s) <= i
  | _ => True
  end.

Fixpoint as_run (os : list sop) (s : astore) : option (astore * list (option err)) :=
  match os with
  | [] => Some (s, [])
  | o :: t =>
      match as_step o s with
      | None => None
      | Some (s', r) => match as_run t s' with Some (s'', rs) => Some (s'', r :: rs) | None => None end
      end
  end.
Fixpoint sops_ok (os : list sop) (s : astore) : Prop :=
  match os with
  | [] => True
  | o :: t => sop_ok o s /\
      match as_step o s with None => True | Some (s', _) => sops_ok t s' end
  end.

(** The empty storage. *)
Definition as_empty : astore := mkAS (mkALog 0 0 []) empty_hardstate empty_snapshot.
