(** The cluster of Sys_Cluster.v whose applications apply the membership changes of each Ready in the
    documented place: before Advance (src/rawnode.h:118-125, 134-141; example/multi_mem_node.cc:133-156,
    Sys_Loop.v). *)
From Verif Require Import Prelude Types M_Util M_Quorum M_Inflights M_Progress M_Tracker.
From Verif Require Import M_Storage M_Unstable M_Log M_ReadOnly M_ConfPb M_ConfChange M_Raft M_RawNode.
From Verif Require Import Spec_Log Sys_Node Sys_Loop Sys_Cluster.

Section WithEnv.
Context {E : Env}.
(** Applied one after the other to [n], the membership changes of [es] leave the voters alone (as the
    ConfState returned by each ApplyConfChange shows). *)
Fixpoint confs_keep (cs : confstate) (es : list entry) (n : rawnode) : Prop :=
  match es with
  | [] => True
  | e :: t =>
      match conf_of e with
      | None => confs_keep cs t n
      | Some cc => match rn_apply_conf_change cc n with
                   | Ok (n1, c) => same_voters cs c /\ confs_keep cs t n1
                   | _ => True
                   end
      end
  end.
(** The membership changes in the Ready that the next iteration of the loop would handle. *)
Definition loop_keeps (cs : confstate) (n : rawnode) : Prop :=
  match rn_get_ready n with
  | Ok (n1, rd) =>
      match persist_ready rd (node_storage n1) with
      | Ok s => confs_keep cs (rd_committed rd) (set_storage s n1)
      | _ => True
      end
  | _ => True
  end.
(** As [cstep], with the documented iteration [DLoop] in place of the handling of a Ready and the
    application of membership changes at any time. *)
Inductive dstep (cs : confstate) (cl : cluster) : cluster -> Prop :=
| DCall id o n n' out :
    mget id (cl_nodes cl) = Some n -> o <> NHandle -> (forall cc, o <> NApplyCC cc) -> call_ok cs o n ->
    n_step o n = Ok (n', out) ->
    dstep cs cl (mkCluster (mset id n' (cl_nodes cl)) (cl_net cl ++ out_msgs out) (cl_hist cl ++ out_ents id out))
| DLoop id n n' rd :
    mget id (cl_nodes cl) = Some n -> loop_keeps cs n -> n_loop n = Ok (n', rd) ->
    dstep cs cl (mkCluster (mset id n' (cl_nodes cl)) (cl_net cl ++ rd_msgs rd)
                   (cl_hist cl ++ List.map (fun e => (id, e)) (rd_committed rd)))
| DDeliver id m n n' out :
    mget id (cl_nodes cl) = Some n -> In m (cl_net cl) -> m_to m = id -> n_step (NStep m) n = Ok (n', out) ->
    dstep cs cl (mkCluster (mset id n' (cl_nodes cl)) (cl_net cl) (cl_hist cl))
| DRestart id c tape n n' :
    mget id (cl_nodes cl) = Some n -> c_id c = id -> c_storage c = Some (node_storage n) -> rn_new c tape = Ok n' ->
    dstep cs cl (mkCluster (mset id n' (cl_nodes cl)) (cl_net cl) (cl_hist cl)).
Inductive documented (cs : confstate) : cluster -> Prop :=
| DcStart cl : cluster_start cs cl -> documented cs cl
| DcStep cl cl' : documented cs cl -> dstep cs cl cl' -> documented cs cl'.
Inductive dsteps (cs : confstate) : cluster -> cluster -> Prop :=
| DsNil cl : dsteps cs cl cl
| DsCons a b c : dstep cs a b -> dsteps cs b c -> dsteps cs a c.
End WithEnv.
