(** One node and the application around it: every call the RawNode API offers, and what the
    application does with the storage behind it. *)
From Verif Require Import Prelude Types M_Util M_Quorum M_Inflights M_Progress M_Tracker.
From Verif Require Import M_Storage M_Unstable M_Log M_ReadOnly M_ConfPb M_ConfChange M_Raft M_RawNode.
From Verif Require Import Spec_Log.

Inductive nop :=
| NTick | NTickQuiesced
| NCampaign
| NPropose (data : string)
| NProposeCC (cc : cci)
| NApplyCC (cc : cci)
| NStep (m : msg)
| NReady                      (* GetReady *)
| NAdvance                    (* Advance *)
| NStorage (s : mstorage)     (* the application changes the storage in any way it likes *)
| NHandle                     (* the documented loop body: GetReady, persist, Advance *)
| NCompact (i : N)            (* Storage::Compact *)
| NCreateSnapshot (i : N) (cs : option confstate) (data : string) (* Storage::CreateSnapshot *)
| NReportUnreachable (id : N)
| NReportSnapshot (id : N) (failure : bool)
| NTransferLeader (id : N)
| NReadIndex (ctx : string).

(** What a call returns. *)
Record nout := mkOut { o_err : option err; o_ready : option ready }.
Definition no_out : nout := mkOut None None.

Definition set_storage (s : mstorage) (n : rawnode) : rawnode :=
  set_rn_raft (set_r_log (set_l_st s (r_log (rn_raft n))) (rn_raft n)) n.
Definition node_storage (n : rawnode) : mstorage := l_st (r_log (rn_raft n)).

Section WithEnv.
Context {E : Env}.

(** The application persists a Ready: snapshot, then entries, then HardState (the order the
    MemoryStorage needs; see README.md "Usage" for the documented loop). *)
Definition persist_ready (rd : ready) (s : mstorage) : res mstorage :=
  let s1 := if sn_index (rd_snap rd) =? 0 then s else fst (ms_apply_snapshot (rd_snap rd) s) in
  s2 <- ms_append (rd_ents rd) s1 ;;
  Ok (if is_empty_hs (rd_hard rd) then s2 else ms_set_hard_state (rd_hard rd) s2).

Definition n_handle (n : rawnode) : res (rawnode * ready) :=
  '(n1, rd) <- rn_get_ready n ;;
  s <- persist_ready rd (node_storage n1) ;;
  n2 <- rn_advance (set_storage s n1) ;;
  Ok (n2, rd).

Definition n_step (o : nop) (n : rawnode) : res (rawnode * nout) :=
  match o with
  | NTick => n' <- rn_tick n ;; Ok (n', no_out)
  | NTickQuiesced => Ok (rn_tick_quiesced n, no_out)
  | NCampaign => '(n', e) <- rn_campaign n ;; Ok (n', mkOut e None)
  | NPropose d => '(n', e) <- rn_propose d n ;; Ok (n', mkOut e None)
  | NProposeCC cc => '(n', e) <- rn_propose_conf_change cc n ;; Ok (n', mkOut e None)
  | NApplyCC cc => '(n', _) <- rn_apply_conf_change cc n ;; Ok (n', no_out)
  | NStep m => '(n', e) <- rn_step m n ;; Ok (n', mkOut e None)
  | NReady => '(n', rd) <- rn_get_ready n ;; Ok (n', mkOut None (Some rd))
  | NAdvance => n' <- rn_advance n ;; Ok (n', no_out)
  | NStorage s => Ok (set_storage s n, no_out)
  | NHandle => '(n', rd) <- n_handle n ;; Ok (n', mkOut None (Some rd))
  | NCompact i => '(s, e) <- ms_compact i (node_storage n) ;; Ok (set_storage s n, mkOut e None)
  | NCreateSnapshot i cs d =>
      '(s, r) <- ms_create_snapshot i cs d (node_storage n) ;; Ok (set_storage s n, no_out)
  | NReportUnreachable id => n' <- rn_report_unreachable id n ;; Ok (n', no_out)
  | NReportSnapshot id f => n' <- rn_report_snapshot id f n ;; Ok (n', no_out)
  | NTransferLeader id => n' <- rn_transfer_leader id n ;; Ok (n', no_out)
  | NReadIndex c => n' <- rn_read_index c n ;; Ok (n', no_out)
  end.

Fixpoint n_run (os : list nop) (n : rawnode) : res (rawnode * list nout) :=
  match os with
  | [] => Ok (n, [])
  | o :: t => '(n1, out) <- n_step o n ;; '(n2, outs) <- n_run t n1 ;; Ok (n2, out :: outs)
  end.

(** All Readys handed to the application, and all messages in them. *)
Definition readys (outs : list nout) : list ready :=
  flat_map (fun o => match o_ready o with Some rd => [rd] | None => [] end) outs.
Definition sent (outs : list nout) : list msg := flat_map rd_msgs (readys outs).

End WithEnv.

(** Well-formed calls: messages from peers carry a sender and, unless they are forwarded local
    requests, a non-zero term (what Raft::Send guarantees, C44). *)
Definition peer_msg_wf (m : msg) : Prop :=
  m_from m <> 0 /\
  (m_term m = 0 -> m_type m = MsgProp \/ m_type m = MsgReadIndex \/ m_type m = MsgTransferLeader).
Definition nop_wf (o : nop) : Prop := match o with NStep m => peer_msg_wf m | _ => True end.

(** Append messages carry consecutive entries with non-zero terms, and a zero LogTerm only for the
    empty prefix; snapshots carry a non-zero term. *)
Definition app_wf (m : msg) : Prop :=
  contig (m_index m + 1) (m_entries m) /\ (forall e, In e (m_entries m) -> 0 < e_term e) /\
  (m_logterm m = 0 -> m_index m = 0).
Definition log_msg_wf (m : msg) : Prop :=
  (m_type m = MsgApp -> app_wf m) /\
  (m_type m = MsgSnap -> sn_index (m_snap m) <> 0 -> 0 < sn_term (m_snap m)).

(** The documented discipline: GetReady, persist, Advance run as one iteration ([NHandle]); the
    application compacts and snapshots no further than it has applied. *)
Definition nop_ok (o : nop) (n : rawnode) : Prop :=
  nop_wf o /\
  match o with
  | NStep m => log_msg_wf m
  | NReady | NAdvance | NStorage _ => False
  | NCompact i | NCreateSnapshot i _ _ => i <= l_applied (r_log (rn_raft n))
  | _ => True
  end.
Fixpoint n_run_ok {E : Env} (os : list nop) (n : rawnode) : Prop :=
  match os with
  | [] => True
  | o :: t => nop_ok o n /\ match n_step o n with Ok (n', _) => n_run_ok t n' | _ => True end
  end.

(** The HardState a node created on [s] starts with (src/raft.cc:178-196). *)
Definition restart_hs (s : mstorage) : hardstate :=
  if is_empty_hs (ms_hs s) then mkHardState 0 0 (ms_first_index s - 1) else ms_hs s.
(** A storage fit to start a node: consecutive entries after the dummy, non-zero terms, the commit
    index inside the log, and the snapshot not ahead of it. *)
Record storage_ok (s : mstorage) : Prop := {
  so_contig : contig (e_index (ms_dummy s) + 1) (ms_tail s);
  so_terms : forall e, In e (ms_tail s) -> 0 < e_term e;
  so_base : e_index (ms_dummy s) <> 0 -> 0 < e_term (ms_dummy s);
  so_snapterm : sn_index (ms_snap s) <> 0 -> 0 < sn_term (ms_snap s);
  so_snap : sn_index (ms_snap s) <= hs_commit (restart_hs s);
  so_com : e_index (ms_dummy s) <= hs_commit (restart_hs s) <= ms_last_index s
}.
(** [node_at n outs]: the node was created on some good storage and then used in any disciplined
    way, producing [outs]. *)
Definition node_at {E : Env} (n : rawnode) : Prop :=
  exists c tape s n0 os outs, c_storage c = Some s /\ storage_ok s /\ rn_new c tape = Ok n0 /\
    n_run_ok os n0 /\ n_run os n0 = Ok (n, outs).
