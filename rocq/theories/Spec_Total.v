(** What the application and the environment owe the library so that no call aborts, and runs of a
    cluster in which every action is attempted rather than assumed to succeed. *)
From Verif Require Import Prelude Types M_Util M_Quorum M_Inflights M_Progress M_Tracker.
From Verif Require Import M_Storage M_Unstable M_Log M_ReadOnly M_ConfPb M_ConfChange M_Raft M_RawNode.
From Verif Require Import Spec_Log Spec_ConfChange Spec_Api Sys_Node Sys_Cluster.

(** A ConfState without repeated ids that a configuration can have. *)
Record conf_ok (cs : confstate) : Prop := {
  co_valid : confstate_valid cs;
  co_v : NoDup (cs_voters cs); co_l : NoDup (cs_learners cs); co_o : NoDup (cs_outgoing cs); co_n : NoDup (cs_learners_next cs)
}.

Section WithEnv.
Context {E : Env}.

(** The encoding of a proposed configuration change can be decoded again (protobuf is outside the
    model, so this is asked of each proposed change); a null change is not proposed. *)
Definition cc_decodable (cc : cci) : Prop :=
  match cc with CCv1 c => dec_cc (enc_cc c) <> None | CCv2 c => dec_ccv2 (enc_ccv2 c) <> None | CCNull => False end.

(** A single change that the node can apply and that leaves its voters alone: the node is not in a
    joint configuration, and the change adds or removes somebody who is no voter (as a learner), adds
    a voter again, or updates a node. *)
Definition learner_change (cc : cci) (n : rawnode) : Prop :=
  let conf := trk_confstate (r_trk (rn_raft n)) in
  cs_outgoing conf = [] /\
  exists v2 c, cci_as_v2 cc = Ok v2 /\ c2_trans v2 = TrAuto /\ c2_changes v2 = [c] /\
    match cc_type c with
    | CcAddNode => In (cc_node c) (cs_voters conf)
    | CcAddLearnerNode | CcRemoveNode => ~ In (cc_node c) (cs_voters conf)
    | CcUpdateNode => True
    end.

(** What a caller owes beyond [call_ok]: compact only a log that has a snapshot, do not snapshot
    below what was compacted, give a meaningful ConfState, and apply a learner change only after
    something was committed (it is applied because its entry was). *)
Definition call_good (o : nop) (n : rawnode) : Prop :=
  match o with
  | NProposeCC cc => cc_decodable cc
  | NApplyCC cc => learner_change cc n /\ 0 < l_committed (r_log (rn_raft n))
  | NCompact i => sn_index (ms_snap (node_storage n)) <> 0
  | NCreateSnapshot i c _ =>
      (i <= sn_index (ms_snap (node_storage n)) \/ e_index (ms_dummy (node_storage n)) <= i) /\
      match c with Some c => conf_ok c | None => True end
  | _ => True
  end.

(** What can be attempted. *)
Inductive act := ACall (id : N) (o : nop) | ADeliver (id : N) (m : msg) | ARestart (id : N) (c : config) (tape : list N).
Definition act_ok (cs : confstate) (cl : cluster) (a : act) : Prop :=
  match a with
  | ACall id o => exists n, mget id (cl_nodes cl) = Some n /\ call_ok cs o n /\ call_good o n
  | ADeliver id m => In m (cl_net cl) /\ m_to m = id /\ mget id (cl_nodes cl) <> None
  | ARestart id c _ => exists n, mget id (cl_nodes cl) = Some n /\ c_id c = id /\ c_storage c = Some (node_storage n) /\
      config_valid c /\
      (c_applied c = 0 \/ e_index (ms_dummy (node_storage n)) <= c_applied c <= hs_commit (restart_hs (node_storage n)))
  end.
(** What it does: [Ok] with the next cluster, or whatever the library does instead. *)
Definition act_run (cl : cluster) (a : act) : res cluster :=
  match a with
  | ACall id o =>
      match mget id (cl_nodes cl) with
      | None => Ok cl
      | Some n => '(n', out) <- n_step o n ;;
          Ok (mkCluster (mset id n' (cl_nodes cl)) (cl_net cl ++ out_msgs out) (cl_hist cl ++ out_ents id out))
      end
  | ADeliver id m =>
      match mget id (cl_nodes cl) with
      | None => Ok cl
      | Some n => '(n', _) <- n_step (NStep m) n ;; Ok (mkCluster (mset id n' (cl_nodes cl)) (cl_net cl) (cl_hist cl))
      end
  | ARestart id c tape => n' <- rn_new c tape ;; Ok (mkCluster (mset id n' (cl_nodes cl)) (cl_net cl) (cl_hist cl))
  end.

(** Clusters reached by such actions from a common beginning in which every node's ConfState is
    meaningful. *)
Definition good_start (cs : confstate) (cl : cluster) : Prop :=
  cluster_start cs cl /\ forall id n, mget id (cl_nodes cl) = Some n -> conf_ok (sn_conf (ms_snap (node_storage n))).
Inductive act_reach (cs : confstate) : cluster -> Prop :=
| ArStart cl : good_start cs cl -> act_reach cs cl
| ArStep cl a cl' : act_reach cs cl -> act_ok cs cl a -> act_run cl a = Ok cl' -> act_reach cs cl'.
End WithEnv.
