(** Protobuf records and the other plain data types of the library.
    The [set_*] functions are mechanical record updates (no C++ counterpart besides
    the protobuf / member setters). *)
From Verif Require Import Prelude.

(** src/raftpb/raft.proto:4-8 *)
Inductive etype := EntryNormal | EntryConfChange | EntryConfChangeV2.

(** src/raftpb/raft.proto:30-50 *)
Inductive mtype :=
| MsgHup | MsgBeat | MsgProp | MsgApp | MsgAppResp | MsgVote | MsgVoteResp | MsgSnap
| MsgHeartbeat | MsgHeartbeatResp | MsgUnreachable | MsgSnapStatus | MsgCheckQuorum
| MsgTransferLeader | MsgTimeoutNow | MsgReadIndex | MsgReadIndexResp | MsgPreVote
| MsgPreVoteResp.

Definition etype_eqb (a b : etype) : bool :=
  match a, b with
  | EntryNormal, EntryNormal | EntryConfChange, EntryConfChange
  | EntryConfChangeV2, EntryConfChangeV2 => true
  | _, _ => false
  end.

Definition mtype_code (t : mtype) : N :=
  match t with
  | MsgHup => 0 | MsgBeat => 1 | MsgProp => 2 | MsgApp => 3 | MsgAppResp => 4
  | MsgVote => 5 | MsgVoteResp => 6 | MsgSnap => 7 | MsgHeartbeat => 8
  | MsgHeartbeatResp => 9 | MsgUnreachable => 10 | MsgSnapStatus => 11
  | MsgCheckQuorum => 12 | MsgTransferLeader => 13 | MsgTimeoutNow => 14
  | MsgReadIndex => 15 | MsgReadIndexResp => 16 | MsgPreVote => 17
  | MsgPreVoteResp => 18
  end.
Definition mtype_eqb (a b : mtype) : bool := mtype_code a =? mtype_code b.
Lemma mtype_eqb_eq a b : mtype_eqb a b = true <-> a = b.
Proof. split; [destruct a, b; cbn; intros H; try reflexivity; discriminate H|intros ->; apply N.eqb_refl]. Qed.

(** src/raftpb/raft.proto:10-15.  Unset optional fields read as their default in C++, so the
    record is total. *)
Record entry := mkEntry {
  e_term : N;
  e_index : N;
  e_type : etype;
  e_data : string
}.
Definition set_e_term (v : N) (x : entry) : entry :=
  mkEntry v (e_index x) (e_type x) (e_data x).
Definition set_e_index (v : N) (x : entry) : entry :=
  mkEntry (e_term x) v (e_type x) (e_data x).
Definition set_e_type (v : etype) (x : entry) : entry :=
  mkEntry (e_term x) (e_index x) v (e_data x).
Definition set_e_data (v : string) (x : entry) : entry :=
  mkEntry (e_term x) (e_index x) (e_type x) v.

(** A default-constructed raftpb::Entry. *)
Definition empty_entry : entry := mkEntry 0 0 EntryNormal EmptyString.

(** src/raftpb/raft.proto:93-108 *)
Record confstate := mkConfState {
  cs_voters : list N;
  cs_learners : list N;
  cs_outgoing : list N;
  cs_learners_next : list N;
  cs_auto_leave : bool
}.
Definition set_cs_voters (v : list N) (x : confstate) : confstate :=
  mkConfState v (cs_learners x) (cs_outgoing x) (cs_learners_next x) (cs_auto_leave x).
Definition set_cs_learners (v : list N) (x : confstate) : confstate :=
  mkConfState (cs_voters x) v (cs_outgoing x) (cs_learners_next x) (cs_auto_leave x).
Definition set_cs_outgoing (v : list N) (x : confstate) : confstate :=
  mkConfState (cs_voters x) (cs_learners x) v (cs_learners_next x) (cs_auto_leave x).
Definition set_cs_learners_next (v : list N) (x : confstate) : confstate :=
  mkConfState (cs_voters x) (cs_learners x) (cs_outgoing x) v (cs_auto_leave x).
Definition set_cs_auto_leave (v : bool) (x : confstate) : confstate :=
  mkConfState (cs_voters x) (cs_learners x) (cs_outgoing x) (cs_learners_next x) v.
Definition empty_confstate : confstate := mkConfState [] [] [] [] false.

(** src/raftpb/raft.proto:17-26 (Snapshot and its metadata flattened). *)
Record snapshot := mkSnapshot {
  sn_index : N;
  sn_term : N;
  sn_conf : confstate;
  sn_data : string
}.
Definition set_sn_index (v : N) (x : snapshot) : snapshot :=
  mkSnapshot v (sn_term x) (sn_conf x) (sn_data x).
Definition set_sn_term (v : N) (x : snapshot) : snapshot :=
  mkSnapshot (sn_index x) v (sn_conf x) (sn_data x).
Definition set_sn_conf (v : confstate) (x : snapshot) : snapshot :=
  mkSnapshot (sn_index x) (sn_term x) v (sn_data x).
Definition set_sn_data (v : string) (x : snapshot) : snapshot :=
  mkSnapshot (sn_index x) (sn_term x) (sn_conf x) v.
Definition empty_snapshot : snapshot := mkSnapshot 0 0 empty_confstate EmptyString.

(** src/raftpb/raft.proto:67-71 *)
Record hardstate := mkHardState {
  hs_term : N;
  hs_vote : N;
  hs_commit : N
}.
Definition set_hs_term (v : N) (x : hardstate) : hardstate :=
  mkHardState v (hs_vote x) (hs_commit x).
Definition set_hs_vote (v : N) (x : hardstate) : hardstate :=
  mkHardState (hs_term x) v (hs_commit x).
Definition set_hs_commit (v : N) (x : hardstate) : hardstate :=
  mkHardState (hs_term x) (hs_vote x) v.
Definition empty_hardstate : hardstate := mkHardState 0 0 0.

(** src/raftpb/raft.proto:52-65; [m_snap] of a message without snapshot is the default one. *)
Record msg := mkMsg {
  m_type : mtype;
  m_to : N;
  m_from : N;
  m_term : N;
  m_logterm : N;
  m_index : N;
  m_entries : list entry;
  m_commit : N;
  m_snap : snapshot;
  m_reject : bool;
  m_hint : N;
  m_ctx : string
}.
Definition set_m_type (v : mtype) (x : msg) : msg :=
  mkMsg v (m_to x) (m_from x) (m_term x) (m_logterm x) (m_index x) (m_entries x) (m_commit x) (m_snap x) (m_reject x) (m_hint x) (m_ctx x).
Definition set_m_to (v : N) (x : msg) : msg :=
  mkMsg (m_type x) v (m_from x) (m_term x) (m_logterm x) (m_index x) (m_entries x) (m_commit x) (m_snap x) (m_reject x) (m_hint x) (m_ctx x).
Definition set_m_from (v : N) (x : msg) : msg :=
  mkMsg (m_type x) (m_to x) v (m_term x) (m_logterm x) (m_index x) (m_entries x) (m_commit x) (m_snap x) (m_reject x) (m_hint x) (m_ctx x).
Definition set_m_term (v : N) (x : msg) : msg :=
  mkMsg (m_type x) (m_to x) (m_from x) v (m_logterm x) (m_index x) (m_entries x) (m_commit x) (m_snap x) (m_reject x) (m_hint x) (m_ctx x).
Definition set_m_logterm (v : N) (x : msg) : msg :=
  mkMsg (m_type x) (m_to x) (m_from x) (m_term x) v (m_index x) (m_entries x) (m_commit x) (m_snap x) (m_reject x) (m_hint x) (m_ctx x).
Definition set_m_index (v : N) (x : msg) : msg :=
  mkMsg (m_type x) (m_to x) (m_from x) (m_term x) (m_logterm x) v (m_entries x) (m_commit x) (m_snap x) (m_reject x) (m_hint x) (m_ctx x).
Definition set_m_entries (v : list entry) (x : msg) : msg :=
  mkMsg (m_type x) (m_to x) (m_from x) (m_term x) (m_logterm x) (m_index x) v (m_commit x) (m_snap x) (m_reject x) (m_hint x) (m_ctx x).
Definition set_m_commit (v : N) (x : msg) : msg :=
  mkMsg (m_type x) (m_to x) (m_from x) (m_term x) (m_logterm x) (m_index x) (m_entries x) v (m_snap x) (m_reject x) (m_hint x) (m_ctx x).
Definition set_m_snap (v : snapshot) (x : msg) : msg :=
  mkMsg (m_type x) (m_to x) (m_from x) (m_term x) (m_logterm x) (m_index x) (m_entries x) (m_commit x) v (m_reject x) (m_hint x) (m_ctx x).
Definition set_m_reject (v : bool) (x : msg) : msg :=
  mkMsg (m_type x) (m_to x) (m_from x) (m_term x) (m_logterm x) (m_index x) (m_entries x) (m_commit x) (m_snap x) v (m_hint x) (m_ctx x).
Definition set_m_hint (v : N) (x : msg) : msg :=
  mkMsg (m_type x) (m_to x) (m_from x) (m_term x) (m_logterm x) (m_index x) (m_entries x) (m_commit x) (m_snap x) (m_reject x) v (m_ctx x).
Definition set_m_ctx (v : string) (x : msg) : msg :=
  mkMsg (m_type x) (m_to x) (m_from x) (m_term x) (m_logterm x) (m_index x) (m_entries x) (m_commit x) (m_snap x) (m_reject x) (m_hint x) v.

(** A default-constructed raftpb::Message with the given type. *)
Definition new_msg (t : mtype) : msg :=
  mkMsg t 0 0 0 0 0 [] 0 empty_snapshot false 0 EmptyString.

(** src/raftpb/raft.proto:75-91 *)
Inductive transition := TrAuto | TrJointImplicit | TrJointExplicit.
(** src/raftpb/raft.proto:110-115 *)
Inductive cctype := CcAddNode | CcRemoveNode | CcUpdateNode | CcAddLearnerNode.
(** src/raftpb/raft.proto:130-133 *)
Record ccsingle := mkCC { cc_type : cctype; cc_node : N }.
(** src/raftpb/raft.proto:117-126 *)
Record confchange := mkConfChange { c1_type : cctype; c1_node : N; c1_ctx : string; c1_id : N }.
(** src/raftpb/raft.proto:167-171 *)
Record confchangev2 := mkConfChangeV2 { c2_trans : transition; c2_changes : list ccsingle; c2_ctx : string }.

(** Error statuses the library distinguishes (src/storage.h:33-48, src/raft.h:115,
    src/rawnode.h:37-41); every other Status::Error is [EOther]. *)
Inductive err :=
| ECompacted | EUnavailable | ESnapOutOfDate | ESnapTemp | EDropped | EStepLocal
| EPeerNotFound | EOther (s : string).

(** std::tuple<A, Status> *)
Inductive st (A : Type) : Type := SOk (a : A) | SErr (e : err).
Arguments SOk {A} a.
Arguments SErr {A} e.

(** The parts of protobuf the code uses but we do not model: [ByteSizeLong] of an entry and the
    (de)serialisation of conf changes.  All theorems quantify over this environment. *)
Class Env := {
  esize : entry -> N;                         (* Entry::ByteSizeLong *)
  enc_cc : confchange -> string;              (* ConfChange::SerializeAsString *)
  enc_ccv2 : confchangev2 -> string;          (* ConfChangeV2::AppendToString *)
  dec_cc : string -> option confchange;       (* ConfChange::ParseFromString *)
  dec_ccv2 : string -> option confchangev2    (* ConfChangeV2::ParseFromString *)
}.
