(** The application loop with membership changes in the documented place: each committed
    configuration entry of a Ready is applied before Advance (src/rawnode.h:118-125, 134-141;
    example/multi_mem_node.cc:133-156). *)
From Verif Require Import Prelude Types M_Util M_Quorum M_Inflights M_Progress M_Tracker.
From Verif Require Import M_Storage M_Unstable M_Log M_ReadOnly M_ConfPb M_ConfChange M_Raft M_RawNode.
From Verif Require Import Spec_Log Sys_Node.

Section WithEnv.
Context {E : Env}.
(** The membership change an entry asks for (the application parses the entry's data; data that does
    not parse is skipped). *)
Definition conf_of (e : entry) : option cci :=
  match e_type e with
  | EntryNormal => None
  | EntryConfChange => option_map CCv1 (dec_cc (e_data e))
  | EntryConfChangeV2 => option_map CCv2 (dec_ccv2 (e_data e))
  end.
Fixpoint apply_confs (es : list entry) (n : rawnode) : res rawnode :=
  match es with
  | [] => Ok n
  | e :: t => match conf_of e with
              | None => apply_confs t n
              | Some cc => '(n1, _) <- rn_apply_conf_change cc n ;; apply_confs t n1
              end
  end.
Definition n_loop (n : rawnode) : res (rawnode * ready) :=
  '(n1, rd) <- rn_get_ready n ;;
  s <- persist_ready rd (node_storage n1) ;;
  n2 <- apply_confs (rd_committed rd) (set_storage s n1) ;;
  n3 <- rn_advance n2 ;;
  Ok (n3, rd).

Inductive lop := LCall (o : nop) | LLoop.
Definition l_step (o : lop) (n : rawnode) : res (rawnode * nout) :=
  match o with
  | LCall o => n_step o n
  | LLoop => '(n', rd) <- n_loop n ;; Ok (n', mkOut None (Some rd))
  end.
Fixpoint l_run (os : list lop) (n : rawnode) : res (rawnode * list nout) :=
  match os with
  | [] => Ok (n, [])
  | o :: t => '(n1, out) <- l_step o n ;; '(n2, outs) <- l_run t n1 ;; Ok (n2, out :: outs)
  end.
(** Membership changes and Readys only go through the loop. *)
Definition lop_ok (o : lop) (n : rawnode) : Prop :=
  match o with
  | LCall NHandle | LCall (NApplyCC _) => False
  | LCall o => nop_ok o n
  | LLoop => True
  end.
Fixpoint l_run_ok (os : list lop) (n : rawnode) : Prop :=
  match os with
  | [] => True
  | o :: t => lop_ok o n /\ match l_step o n with Ok (n', _) => l_run_ok t n' | _ => True end
  end.
(** [n] was created with configuration [c] on a good storage and then driven by the documented loop,
    with outputs [outs]. *)
Definition looped (c : config) (n : rawnode) (outs : list nout) : Prop :=
  exists tape s n0 os, c_storage c = Some s /\ storage_ok s /\ rn_new c tape = Ok n0 /\
    l_run_ok os n0 /\ l_run os n0 = Ok (n, outs).
End WithEnv.
