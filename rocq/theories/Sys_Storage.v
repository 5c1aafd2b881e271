(** Sequences of calls on the modelled MemoryStorage. *)
From Verif Require Import Prelude Types M_Storage Spec_Log Spec_Storage.

Definition s_step (o : sop) (s : mstorage) : res (mstorage * option err) :=
  match o with
  | OSetHardState h => Ok (ms_set_hard_state h s, None)
  | OApplySnapshot sn => Ok (ms_apply_snapshot sn s)
  | OCreateSnapshot i cs d =>
      '(s', r) <- ms_create_snapshot i cs d s ;;
      Ok (s', match r with SOk _ => None | SErr e => Some e end)
  | OCompact i => ms_compact i s
  | OAppend es => s' <- ms_append es s ;; Ok (s', None)
  end.
Fixpoint s_run (os : list sop) (s : mstorage) : res (mstorage * list (option err)) :=
  match os with
  | [] => Ok (s, [])
  | o :: t => '(s', r) <- s_step o s ;; '(s'', rs) <- s_run t s' ;; Ok (s'', r :: rs)
  end.
