(** Call sequences on the ReadOnly model. *)
From Verif Require Import Prelude Types M_ReadOnly Spec_ReadOnly.

Definition ro_step (o : roop) (ro : readonly) : res (readonly * roret) :=
  match o with
  | RoAdd i m => ro' <- ro_add_request i m ro ;; Ok (ro', RrNone)
  | RoAck from c => let '(ro', a) := ro_recv_ack from c ro in Ok (ro', RrAcks a)
  | RoAdvance c => '(ro', l) <- ro_advance c ro ;; Ok (ro', RrReleased l)
  end.
Fixpoint ro_run (ops : list roop) (ro : readonly) : res (readonly * list roret) :=
  match ops with
  | [] => Ok (ro, [])
  | o :: t => '(ro1, r) <- ro_step o ro ;; '(ro2, rs) <- ro_run t ro1 ;; Ok (ro2, r :: rs)
  end.
