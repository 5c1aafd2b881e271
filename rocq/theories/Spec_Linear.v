(** Vocabulary for linearizable reads over a cluster (C56). *)
From Verif Require Import Prelude Types M_ReadOnly M_Raft M_RawNode Sys_Node Spec_Node Sys_Cluster Spec_Cluster Sys_Trace.

(** The node was created with ReadOnlyOption kReadOnlySafe. *)
Definition safe_mode (n : rawnode) : Prop := ro_option (r_ro (rn_raft n)) = RoSafe.
Definition safe_event (ev : event) : Prop := match ev with ERestart _ c => c_ro c = RoSafe | _ => True end.

Definition leads (cl : cluster) (id : N) : bool :=
  match mget id (cl_nodes cl) with
  | Some n => match node_role n with RLeader => true | _ => false end
  | None => false
  end.
(** The read requests put to a leader by an event: which leader, and under which context. *)
Definition put_to_leader (x : event * cluster) : list (N * string) :=
  match x with
  | (ECall id (NReadIndex c) _, cl) => if leads cl id then [(id, c)] else []
  | (EDeliver id m, cl) =>
      match m_type m, m_entries m with
      | MsgReadIndex, e :: _ => if leads cl id then [(id, e_data e)] else []
      | _, _ => []
      end
  | _ => []
  end.
(** Some application asked for a read index under the context [c]. *)
Definition issued (tr : list (event * cluster)) (c : string) : Prop :=
  exists id out cl, In (ECall id (NReadIndex c) out, cl) tr.
(** Some application was handed the read state ([i], [c]). *)
Definition read_given (tr : list (event * cluster)) (i : N) (c : string) : Prop :=
  exists id o out cl rd, In (ECall id o out, cl) tr /\ o_ready out = Some rd /\ In (mkReadState i c) (rd_reads rd).
