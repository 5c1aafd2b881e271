(** A cluster of nodes: any number of RawNodes with the application loop around each, a network
    that may lose, delay, duplicate and reorder messages, and crashes.  The voters are fixed: every
    node starts from a common snapshot position with the same voters and applies only membership
    changes that leave them alone, such as adding and removing learners (proposing any is allowed). *)
From Coq Require Import Permutation.
From Verif Require Import Prelude Types M_Util M_Quorum M_Inflights M_Progress M_Tracker.
From Verif Require Import M_Storage M_Unstable M_Log M_ReadOnly M_ConfPb M_ConfChange M_Raft M_RawNode.
From Verif Require Import Spec_Log Sys_Node.

(** [cl_net]: every message handed to the application for sending so far (so any of them may be
    delivered at any time, any number of times, or never).  [cl_hist]: every committed entry handed
    to an application so far, with the node it belongs to. *)
Record cluster := mkCluster {
  cl_nodes : nmap rawnode;
  cl_net : list msg;
  cl_hist : list (N * entry)
}.

(** The same voters (incoming and outgoing). *)
Definition same_voters (a b : confstate) : Prop :=
  Permutation (cs_voters a) (cs_voters b) /\ Permutation (cs_outgoing a) (cs_outgoing b).

Definition out_msgs (out : nout) : list msg := match o_ready out with Some rd => rd_msgs rd | None => [] end.
Definition out_ents (id : N) (out : nout) : list (N * entry) :=
  match o_ready out with Some rd => List.map (fun e => (id, e)) (rd_committed rd) | None => [] end.

Section WithEnv.
Context {E : Env}.

(** Calls an application makes on its own node; messages arrive by delivery.  A membership change is
    one the ConfState returned by ApplyConfChange shows to leave the voters alone: learners come and
    go at any node at any time. *)
Definition call_ok (cs : confstate) (o : nop) (n : rawnode) : Prop :=
  match o with
  | NStep _ | NReady | NAdvance | NStorage _ => False
  | NApplyCC cc => match rn_apply_conf_change cc n with Ok (_, c) => same_voters cs c | _ => True end
  | NCompact i => i <= l_applied (r_log (rn_raft n))
  | NCreateSnapshot i c _ => i <= l_applied (r_log (rn_raft n)) /\
      match c with Some cs' => same_voters cs cs' | None => True end
  | _ => True
  end.

Inductive cstep (cs : confstate) (cl : cluster) : cluster -> Prop :=
| CCall id o n n' out :
    mget id (cl_nodes cl) = Some n -> call_ok cs o n -> n_step o n = Ok (n', out) ->
    cstep cs cl (mkCluster (mset id n' (cl_nodes cl)) (cl_net cl ++ out_msgs out) (cl_hist cl ++ out_ents id out))
| CDeliver id m n n' out :
    mget id (cl_nodes cl) = Some n -> In m (cl_net cl) -> m_to m = id -> n_step (NStep m) n = Ok (n', out) ->
    cstep cs cl (mkCluster (mset id n' (cl_nodes cl)) (cl_net cl) (cl_hist cl))
| CRestart id c tape n n' :
    (* crash: everything but the storage is lost; the new process may be configured differently *)
    mget id (cl_nodes cl) = Some n -> c_id c = id -> c_storage c = Some (node_storage n) -> rn_new c tape = Ok n' ->
    cstep cs cl (mkCluster (mset id n' (cl_nodes cl)) (cl_net cl) (cl_hist cl)).

(** The common beginning: a snapshot of index [i0] and term [t0] and nothing after it. *)
Record start_storage (cs : confstate) (i0 t0 : N) (s : mstorage) : Prop := {
  ss_ok : storage_ok s;
  ss_tail : ms_tail s = [];
  ss_base : e_index (ms_dummy s) = i0 /\ e_term (ms_dummy s) = t0;
  ss_snap : sn_index (ms_snap s) = i0 /\ sn_term (ms_snap s) = t0;
  ss_conf : same_voters cs (sn_conf (ms_snap s));
  ss_hs : hs_vote (restart_hs s) = 0 /\ t0 <= hs_term (restart_hs s)
}.
Record cluster_start (cs : confstate) (cl : cluster) : Prop := {
  ct_net : cl_net cl = [];
  ct_hist : cl_hist cl = [];
  ct_voters : cs_voters cs <> [];
  ct_nodes : exists i0 t0, (i0 = 0 -> t0 = 0) /\
    forall id n, mget id (cl_nodes cl) = Some n ->
      exists c tape s, c_id c = id /\ c_storage c = Some s /\ start_storage cs i0 t0 s /\ rn_new c tape = Ok n
}.

(** Later states. *)
Inductive csteps (cs : confstate) : cluster -> cluster -> Prop :=
| CsNil cl : csteps cs cl cl
| CsCons a b c : cstep cs a b -> csteps cs b c -> csteps cs a c.

Inductive reachable (cs : confstate) : cluster -> Prop :=
| CrStart cl : cluster_start cs cl -> reachable cs cl
| CrStep cl cl' : reachable cs cl -> cstep cs cl cl' -> reachable cs cl'.
End WithEnv.
