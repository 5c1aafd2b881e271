(** Vocabulary for the statements about the RawNode API (C43, C47-C50): specification only. *)
From Verif Require Import Prelude Types M_Storage M_Log M_ReadOnly M_Raft M_RawNode.

(** A Ready that asks the application to do something. *)
Definition ready_nonempty (rd : ready) : Prop :=
  rd_soft rd <> None \/ rd_hard rd <> empty_hardstate \/ rd_reads rd <> [] \/ rd_ents rd <> [] \/
  sn_index (rd_snap rd) <> 0 \/ rd_committed rd <> [] \/ rd_msgs rd <> [].

(** Messages only the node itself may produce, and answers to this node's own messages. *)
Definition local_only (t : mtype) : Prop :=
  t = MsgHup \/ t = MsgBeat \/ t = MsgUnreachable \/ t = MsgSnapStatus \/ t = MsgCheckQuorum.
Definition an_answer (t : mtype) : Prop :=
  t = MsgAppResp \/ t = MsgVoteResp \/ t = MsgHeartbeatResp \/ t = MsgPreVoteResp.

(** The documented constraints on a configuration (src/raft.h, Config). *)
Record config_valid (c : config) : Prop := {
  vc_id : c_id c <> 0;
  vc_hb : (0 < c_heartbeat_tick c)%Z;
  vc_el : (c_heartbeat_tick c < c_election_tick c)%Z;
  vc_st : c_storage c <> None;
  vc_inf : (0 < c_max_inflight c)%Z;
  vc_ro : c_ro c = RoLeaseBased -> c_check_quorum c = true
}.

(** A new MemoryStorage. *)
Definition storage_empty (s : mstorage) : Prop :=
  ms_hs s = empty_hardstate /\ ms_snap s = empty_snapshot /\
  e_index (ms_dummy s) = 0 /\ e_term (ms_dummy s) = 0 /\ ms_tail s = [].
