(** Concrete nodes for the non-vacuity examples. *)
From Verif Require Import Prelude Types M_Util M_Quorum M_Inflights M_Progress M_Tracker.
From Verif Require Import M_Storage M_Unstable M_Log M_ReadOnly M_ConfPb M_ConfChange M_Raft M_RawNode.
From Verif Require Import Sys_Node Ex_Env.

Definition ex_conf : confstate := mkConfState [1;2;3] [] [] [] false.
(** A storage holding an (index 5, term 1) snapshot and two more entries. *)
Definition ex_storage : mstorage :=
  mkMS (mkHardState 2 0 6) (mkSnapshot 5 1 ex_conf EmptyString) (mkEntry 1 5 EntryNormal EmptyString)
    [mkEntry 1 6 EntryNormal "a"; mkEntry 2 7 EntryNormal "b"].
Definition ex_cfg (id : N) : config :=
  mkConfig id 10 1 (Some ex_storage) 0 1000 1000 0 4 false false RoSafe false.
Definition ex_cfg_cq (id : N) : config :=
  mkConfig id 10 1 (Some ex_storage) 0 1000 1000 0 4 true true RoSafe false.
Definition ex_new (c : config) : res rawnode := @rn_new ex_env c [3; 4; 5; 6; 7].
Definition ex_run (c : config) (os : list nop) : res (rawnode * list nout) :=
  n <- ex_new c ;; @n_run ex_env os n.

Definition ex_vote (from term : N) : msg := 
  mkMsg MsgVote 1 from term 2 7 [] 0 empty_snapshot false 0 EmptyString.
Definition ex_vote_resp (from term : N) (rej : bool) : msg := 
  mkMsg MsgVoteResp 1 from term 0 0 [] 0 empty_snapshot rej 0 EmptyString.
Definition ex_app_resp (from term index : N) : msg := 
  mkMsg MsgAppResp 1 from term 0 index [] 0 empty_snapshot false 0 EmptyString.

(** Node 1 becomes leader of term 3. *)
Definition ex_elect : list nop := [NCampaign; NHandle; NStep (ex_vote_resp 2 3 false); NHandle].

Definition run_ok {A} (x : res A) (P : A -> Prop) : Prop := match x with Ok a => P a | _ => False end.
