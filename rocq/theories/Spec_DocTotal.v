(** The runs of Spec_Total.v in which an application may also handle a Ready the documented way:
    applying the membership changes it holds before Advance (src/rawnode.h:118-125, 134-141;
    example/multi_mem_node.cc:133-156, Sys_Loop.v). *)
From Verif Require Import Prelude Types M_Util M_Quorum M_Inflights M_Progress M_Tracker.
From Verif Require Import M_Storage M_Unstable M_Log M_ReadOnly M_ConfPb M_ConfChange M_Raft M_RawNode.
From Verif Require Import Spec_Log Sys_Node Sys_Loop Sys_Cluster Sys_Doc Spec_Total.

Section WithEnv.
Context {E : Env}.
(** Applied one after the other to [n], the membership changes of [es] are learner changes, and the
    ConfStates they return have the voters of [cs]. *)
Fixpoint confs_good (cs : confstate) (es : list entry) (n : rawnode) : Prop :=
  match es with
  | [] => True
  | e :: t =>
      match conf_of e with
      | None => confs_good cs t n
      | Some cc => learner_change cc n /\
                   match rn_apply_conf_change cc n with
                   | Ok (n1, c) => same_voters cs c /\ confs_good cs t n1
                   | _ => True
                   end
      end
  end.
(** That, of the Ready that the next iteration of the loop would handle. *)
Definition loop_good (cs : confstate) (n : rawnode) : Prop :=
  match rn_get_ready n with
  | Ok (n1, rd) =>
      match persist_ready rd (node_storage n1) with
      | Ok s => confs_good cs (rd_committed rd) (set_storage s n1)
      | _ => True
      end
  | _ => True
  end.
Inductive dact := DAct (a : act) | DIter (id : N).
Definition dact_ok (cs : confstate) (cl : cluster) (a : dact) : Prop :=
  match a with
  | DAct a => act_ok cs cl a
  | DIter id => exists n, mget id (cl_nodes cl) = Some n /\ loop_good cs n
  end.
Definition dact_run (cl : cluster) (a : dact) : res cluster :=
  match a with
  | DAct a => act_run cl a
  | DIter id =>
      match mget id (cl_nodes cl) with
      | None => Ok cl
      | Some n => '(n', rd) <- n_loop n ;;
          Ok (mkCluster (mset id n' (cl_nodes cl)) (cl_net cl ++ rd_msgs rd) (cl_hist cl ++ List.map (fun e => (id, e)) (rd_committed rd)))
      end
  end.
Inductive dact_reach (cs : confstate) : cluster -> Prop :=
| DrStart cl : good_start cs cl -> dact_reach cs cl
| DrStep cl a cl' : dact_reach cs cl -> dact_ok cs cl a -> dact_run cl a = Ok cl' -> dact_reach cs cl'.
End WithEnv.
