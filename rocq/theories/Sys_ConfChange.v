(** Histories of configuration changes: each call is applied to the tracker's current
    configuration and, only when it succeeds, replaces it
    (as Raft::ApplyConfChange / SwitchToConfig do, src/raft.cc:1706-1789). *)
From Verif Require Import Prelude Types M_Quorum M_Progress M_Tracker M_ConfChange.

Inductive ccop := OpSimple (ccs : list ccsingle) | OpEnter (auto : bool) (ccs : list ccsingle) | OpLeave.

Definition cc_call (o : ccop) (ch : changer) : res (st cfgprs) :=
  match o with
  | OpSimple ccs => Ok (ch_simple ccs ch)
  | OpEnter al ccs => Ok (ch_enter_joint al ccs ch)
  | OpLeave => ch_leave_joint ch
  end.

Definition cc_step (o : ccop) (ch : changer) : res changer :=
  r <- cc_call o ch ;;
  match r with SOk cp => Ok (ch_with ch cp) | SErr _ => Ok ch end.

Fixpoint cc_run (ops : list ccop) (ch : changer) : res changer :=
  match ops with
  | [] => Ok ch
  | o :: t => ch' <- cc_step o ch ;; cc_run t ch'
  end.
