(** What is proved of one node holds of every node of a cluster (C75). *)
From Verif Require Import Prelude Types M_Util M_Quorum M_Inflights M_Progress M_Tracker.
From Verif Require Import M_Storage M_Unstable M_Log M_ReadOnly M_ConfPb M_ConfChange M_Raft M_RawNode.
From Verif Require Import P_Inflights Spec_Log P_Lists P_Storage P_Log Spec_Storage Sys_Storage P_StorageSeq Spec_RaftLog Sys_RaftLog P_RaftLogSeq.
From Verif Require Import Sys_Node P_Node P_Fields P_Vote Spec_Node P_Persist P_New P_Time P_NodeLog P_Handle P_NodeRun.
From Verif Require Import Prop_Vote Prop_Deliver Prop_Beat Spec_Flow Sys_Cluster Spec_Cluster A_Proto R_Log R_Sim R_Node R_Cluster Prop_Cluster Ex_Env Ex_Node Ex_Cluster.

Section Props.
Context {E : Env}.
(** C75: every message on the network is one any node may be given. *)
Theorem C75_message_ok cs cl m n : reachable cs cl -> In m (cl_net cl) -> nop_ok (NStep m) n.
Proof.
  intros R Hin. destruct (reachable_inv _ _ R) as [Hv (t0 & g & F & I)].
  pose proof (proj1 (Forall_forall _ _) (ci_net _ _ _ _ _ I) _ Hin) as Hm. split; cbn; apply Hm.
Qed.
(** C75: every node of a reachable cluster was created under its own id, with some configuration, on a
    good storage, and has been used as documented since. *)
Theorem C75_made cs cl id n : reachable cs cl -> runs cl id n -> exists c, c_id c = id /\ made c n.
Proof.
  intros R. revert id n. induction R as [cl S|cl cl' R IH H]; intros i x Hx; unfold runs in *.
  - destruct (ct_nodes _ _ S) as (i0 & t0 & _ & N). destruct (N _ _ Hx) as (c & tape & s & C1 & C2 & C3 & C4).
    exists c. split; [exact C1|]. exists tape, s, x, [], []. split; [exact C2|]. split; [apply C3|]. split; [exact C4|]. cbn. auto.
  - destruct H as [id o n n' out Hn Hc Hs|id m n n' out Hn Hin Hto Hs|id c tape n n' Hn Hc Hst Hr]; cbn [cl_nodes] in Hx; rewrite mget_mset in Hx;
      (destruct (N.eqb_spec i id) as [->|Hne]; [injection Hx as <-|apply (IH _ _ Hx)]).
    + destruct (IH _ _ Hn) as (c & C1 & C2). exists c. split; [exact C1|]. eapply made_step; [exact C2| |exact Hs].
      destruct o; try (destruct Hc; fail); split; cbn; auto. apply Hc.
    + destruct (IH _ _ Hn) as (c & C1 & C2). exists c. split; [exact C1|]. eapply made_step; [exact C2|eapply C75_message_ok; eassumption|exact Hs].
    + exists c. split; [exact Hc|]. exists tape, (node_storage n), n', [], []. split; [exact Hst|]. split; [|split; [exact Hr|cbn; auto]].
      destruct (reachable_inv _ _ R) as [Hv (t0 & g & F & I)]. exact (di_st _ (nv_d _ _ _ _ _ (ci_node _ _ _ _ _ I _ _ Hn))).
Qed.
End Props.

(** A concrete case: after an election, a commit, a crash and a second election (Ex_Cluster) node 2 leads
    term 3; it is a node made with a configuration of its own. *)
Example C75_example : exists cl n c, reachable (E := ex_env) exc_conf cl /\ runs cl 2 n /\ node_role n = RLeader /\ node_term n = 3 /\
  c_id c = 2 /\ @made ex_env c n.
Proof.
  destruct C52_case as (mid & fin & R & S & _ & (n & Hn & H1 & H2) & _). pose proof (reachable_steps _ _ _ R S) as R2.
  destruct (C75_made _ _ _ _ R2 Hn) as (c & C1 & C2). exists fin, n, c. auto 10.
Qed.
