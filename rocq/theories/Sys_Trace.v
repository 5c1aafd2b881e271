(** Runs of a cluster with what happened in each step. *)
From Verif Require Import Prelude Types M_Util M_Storage M_Log M_Raft M_RawNode Sys_Node Sys_Cluster.

Inductive event :=
| ECall (id : N) (o : nop) (out : nout)   (* the application on node [id] makes the call [o] and gets [out] *)
| EDeliver (id : N) (m : msg)             (* node [id] is handed the message [m] *)
| ERestart (id : N) (c : config).         (* node [id] crashes and is created again with [c] *)

Section WithEnv.
Context {E : Env}.
(** The steps of [cstep] (Sys_Cluster.v), labelled. *)
Inductive estep (cs : confstate) (cl : cluster) : event -> cluster -> Prop :=
| ESCall id o n n' out :
    mget id (cl_nodes cl) = Some n -> call_ok cs o n -> n_step o n = Ok (n', out) ->
    estep cs cl (ECall id o out) (mkCluster (mset id n' (cl_nodes cl)) (cl_net cl ++ out_msgs out) (cl_hist cl ++ out_ents id out))
| ESDeliver id m n n' out :
    mget id (cl_nodes cl) = Some n -> In m (cl_net cl) -> m_to m = id -> n_step (NStep m) n = Ok (n', out) ->
    estep cs cl (EDeliver id m) (mkCluster (mset id n' (cl_nodes cl)) (cl_net cl) (cl_hist cl))
| ESRestart id c tape n n' :
    mget id (cl_nodes cl) = Some n -> c_id c = id -> c_storage c = Some (node_storage n) -> rn_new c tape = Ok n' ->
    estep cs cl (ERestart id c) (mkCluster (mset id n' (cl_nodes cl)) (cl_net cl) (cl_hist cl)).

(** A run: the events in order, each with the cluster it led to. *)
Inductive trace (cs : confstate) (cl : cluster) : list (event * cluster) -> cluster -> Prop :=
| TrNil : trace cs cl [] cl
| TrCons ev cl1 tr cl2 : estep cs cl ev cl1 -> trace cs cl1 tr cl2 -> trace cs cl ((ev, cl1) :: tr) cl2.

Lemma estep_cstep cs cl ev cl' : estep cs cl ev cl' -> cstep cs cl cl'.
Proof. destruct 1; [eapply CCall|eapply CDeliver|eapply CRestart]; eauto. Qed.
Lemma cstep_estep cs cl cl' : cstep cs cl cl' -> exists ev, estep cs cl ev cl'.
Proof. destruct 1; eexists; [eapply ESCall|eapply ESDeliver|eapply ESRestart]; eauto. Qed.
End WithEnv.
