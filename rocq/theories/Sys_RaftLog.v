(** Sequences of calls on the modelled RaftLog and the storage behind it. *)
From Verif Require Import Prelude Types M_Util M_Storage M_Unstable M_Log.
From Verif Require Import Spec_Log Spec_Storage Sys_Storage Spec_RaftLog.

(** What an application does with a Ready (README order corrected: snapshot, then entries), and what
    RawNode::Advance does with it (src/raft.cc:383-390). *)
Definition log_persist (l : rlog) : res rlog :=
  let st1 := match u_snap (l_us l) with Some s => fst (ms_apply_snapshot s (l_st l)) | None => l_st l end in
  st2 <- ms_append (u_ents (l_us l)) st1 ;;
  let l1 := set_l_st st2 l in
  l2 <- match rev (u_ents (l_us l)) with
        | [] => Ok l1
        | e :: _ => log_stable_to (e_index e) (e_term e) l1
        end ;;
  Ok (match u_snap (l_us l) with Some s => log_stable_snap_to (sn_index s) l2 | None => l2 end).

Definition l_step (o : lop) (l : rlog) : res (rlog * lres) :=
  match o with
  | LAppend es => '(l', i) <- log_append es l ;; Ok (l', RIndex i)
  | LMaybeAppend index t c es =>
      '(l', r) <- log_maybe_append index t c es l ;;
      Ok (l', match r with Some i => RIndex i | None => RReject end)
  | LCommitTo i => l' <- log_commit_to i l ;; Ok (l', RNone)
  | LMaybeCommit i t => '(l', b) <- log_maybe_commit i t l ;; Ok (l', RBool b)
  | LAppliedTo i => l' <- log_applied_to i l ;; Ok (l', RNone)
  | LRestore sn => Ok (log_restore sn l, RNone)
  | LPersist => l' <- log_persist l ;; Ok (l', RNone)
  | LStaleStable i t => l' <- log_stable_to i t l ;; Ok (l', RNone)
  | LCompact i => '(s, e) <- ms_compact i (l_st l) ;;
                  Ok (set_l_st s l, RBool (match e with None => true | Some _ => false end))
  | LCreateSnapshot i cs d => '(s, _) <- ms_create_snapshot i cs d (l_st l) ;; Ok (set_l_st s l, RNone)
  end.
Fixpoint l_run (os : list lop) (l : rlog) : res (rlog * list lres) :=
  match os with
  | [] => Ok (l, [])
  | o :: t => '(l', r) <- l_step o l ;; '(l'', rs) <- l_run t l' ;; Ok (l'', r :: rs)
  end.

Definition pending (l : rlog) : bool := match u_snap (l_us l) with Some _ => true | None => false end.

(** Preconditions along a run; LAppliedTo needs everything up to it persisted. *)
Fixpoint l_run_ok (os : list lop) (l : rlog) (s : alstate) : Prop :=
  match os with
  | [] => True
  | o :: t => lop_ok (pending l) o s /\
      (match o with LAppliedTo i => i < u_off (l_us l) | _ => True end) /\
      match l_step o l, al_step o s with
      | Ok (l', _), Some (s', _) => l_run_ok t l' s'
      | _, _ => True
      end
  end.

(** [log_at l s]: the log [l] was created on a storage with any history and then used in any way
    allowed by [l_run_ok]; [s] is what the specification says it must stand for. *)
Definition log_at (l : rlog) (s : alstate) : Prop :=
  exists (sops : list sop) (lops : list lop) (ms : mstorage) (s0 : astore) errs rs (mx : N),
    sops_ok sops as_empty /\ as_run sops as_empty = Some (s0, errs) /\
    s_run sops new_storage = Ok (ms, errs) /\
    sn_index (as_snap s0) <= a_base (as_log s0) /\
    (let init := mkAL (as_log s0) (a_base (as_log s0)) (a_base (as_log s0)) in
     l_run_ok lops (new_log ms mx) init /\
     l_run lops (new_log ms mx) = Ok (l, rs) /\ al_run lops init = Some (s, rs)).
