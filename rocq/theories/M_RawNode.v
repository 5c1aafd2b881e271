(** Model of src/rawnode.{h,cc}.  The application's side (persisting a Ready into the
    MemoryStorage) is not part of the library and lives in Sys_Node.v. *)
From Verif Require Import Prelude Types M_Util M_Quorum M_Inflights M_Progress M_Tracker.
From Verif Require Import M_Storage M_Unstable M_Log M_ReadOnly M_ConfPb M_ConfChange M_Raft.

(** src/rawnode.h:178-184 *)
Record rawnode := mkRN {
  rn_raft : raft;
  rn_prev_soft : softstate;
  rn_prev_hard : hardstate;
  rn_ready : option ready
}.
Definition set_rn_raft (v : raft) (n : rawnode) : rawnode :=
  mkRN v (rn_prev_soft n) (rn_prev_hard n) (rn_ready n).

(** src/rawnode.h:60-63 *)
Record peer := mkPeer { pe_id : N; pe_ctx : string }.

(** src/rawnode.cc:46-48 operator== on HardState *)
Definition hardstate_eqb (a b : hardstate) : bool :=
  (hs_term a =? hs_term b) && (hs_vote a =? hs_vote b) && (hs_commit a =? hs_commit b).

(** src/rawnode.cc:36-44 [MustSync] *)
Definition must_sync (h prev : hardstate) (entsnum : N) : bool :=
  negb (entsnum =? 0) || negb (hs_vote h =? hs_vote prev) || negb (hs_term h =? hs_term prev).

Section WithEnv.
Context {E : Env}.

(** src/rawnode.cc:50-54 [New] and src/rawnode.h:84-87 (constructor) *)
Definition rn_new (c : config) (tape : list N) : res rawnode :=
  r <- raft_new c tape ;;
  Ok (mkRN r (soft_state r) (hard_state r) None).

(** src/rawnode.cc:72-86: the bootstrap entries from index [i] *)
Fixpoint bootstrap_ents (i : N) (ps : list peer) : list entry :=
  match ps with
  | [] => []
  | p :: t =>
      mkEntry 1 i EntryConfChange (enc_cc (mkConfChange CcAddNode (pe_id p) (pe_ctx p) 0))
        :: bootstrap_ents (i + 1) t
  end.
(** src/rawnode.cc:103-108: apply AddNode for each peer *)
Definition bootstrap_apply (p : peer) (r : raft) : res raft :=
  cc <- cci_as_v2 (CCv1 (mkConfChange CcAddNode (pe_id p) EmptyString 0)) ;;
  '(r', _) <- raft_apply_conf_change cc r ;; Ok r'.

(** src/rawnode.cc:56-110 [Bootstrap] (MemoryStorage::LastIndex never fails) *)
Definition rn_bootstrap (ps : list peer) (n : rawnode) : res (rawnode * option err) :=
  if is_nil ps then Ok (n, Some (EOther "must provide at least one peer to Bootstrap"))
  else
    let r := become_follower 1 0 (rn_raft n) in
    let ents := bootstrap_ents 1 ps in
    '(l, _) <- log_append ents (r_log r) ;;
    let r := set_r_log (set_l_committed (nlen ents) l) r in
    r <- mfold bootstrap_apply ps r ;;
    Ok (mkRN r (rn_prev_soft n) empty_hardstate (rn_ready n), None).

(** src/rawnode.h:75-79 [Start] *)
Definition rn_start (c : config) (tape : list N) (ps : list peer) : res rawnode :=
  n <- rn_new c tape ;; '(n', _) <- rn_bootstrap ps n ;; Ok n'.

(** src/rawnode.cc:112-118 *)
Definition rn_tick (n : rawnode) : res rawnode :=
  r <- tick (rn_raft n) ;; Ok (set_rn_raft r n).
Definition rn_tick_quiesced (n : rawnode) : rawnode :=
  set_rn_raft (tick_quiesced (rn_raft n)) n.

Definition rn_raft_step (m : msg) (n : rawnode) : res (rawnode * option err) :=
  '(r, e) <- step m (rn_raft n) ;; Ok (set_rn_raft r n, e).

(** src/rawnode.cc:120-124 [Campaign] *)
Definition rn_campaign (n : rawnode) : res (rawnode * option err) :=
  rn_raft_step (new_msg MsgHup) n.

(** src/rawnode.cc:126-133 [Propose] *)
Definition propose_msg (id : N) (data : string) : msg :=
  set_m_entries [mkEntry 0 0 EntryNormal data] (set_m_from id (new_msg MsgProp)).
Definition rn_propose (data : string) (n : rawnode) : res (rawnode * option err) :=
  rn_raft_step (propose_msg (r_id (rn_raft n)) data) n.

(** src/rawnode.cc:21-32 [ConfChangeToMsg], 135-141 [ProposeConfChange] *)
Definition rn_propose_conf_change (cc : cci) (n : rawnode) : res (rawnode * option err) :=
  '(t, d) <- cci_marshal cc ;;
  rn_raft_step (set_m_entries [mkEntry 0 0 t d] (new_msg MsgProp)) n.

(** src/rawnode.cc:143-145 [ApplyConfChange] *)
Definition rn_apply_conf_change (cc : cci) (n : rawnode) : res (rawnode * confstate) :=
  c <- cci_as_v2 cc ;;
  '(r, cs) <- raft_apply_conf_change c (rn_raft n) ;; Ok (set_rn_raft r n, cs).

(** src/rawnode.cc:147-157 [Step] *)
Definition rn_step (m : msg) (n : rawnode) : res (rawnode * option err) :=
  if is_local_msg (m_type m) then Ok (n, Some EStepLocal)
  else
    let tracked := match trk_get (m_from m) (r_trk (rn_raft n)) with
                   | Some _ => true | None => false end in
    if tracked || negb (is_response_msg (m_type m)) then rn_raft_step m n
    else Ok (n, Some EPeerNotFound).

(** src/rawnode.cc:267-302 [NewReady], 165-167 [ReadyWithoutAccept] *)
Definition new_ready (n : rawnode) : res ready :=
  let r := rn_raft n in
  committed <- log_next_ents (r_log r) ;;
  Ok (mkReady
        (if softstate_eqb (soft_state r) (rn_prev_soft n) then None else Some (soft_state r))
        (if hardstate_eqb (hard_state r) (rn_prev_hard n) then empty_hardstate else hard_state r)
        (r_read_states r)
        (log_unstable_entries (r_log r))
        (match u_snap (l_us (r_log r)) with Some s => s | None => empty_snapshot end)
        committed
        (r_msgs r)
        (must_sync (hard_state r) (rn_prev_hard n) (nlen (log_unstable_entries (r_log r))))).

(** src/rawnode.cc:169-177 [AcceptReady] *)
Definition accept_ready (rd : ready) (n : rawnode) : rawnode :=
  let soft := match rd_soft rd with Some s => s | None => rn_prev_soft n end in
  let r := if is_nil (rd_reads rd) then rn_raft n else set_r_read_states [] (rn_raft n) in
  mkRN (set_r_msgs [] r) soft (rn_prev_hard n) (rn_ready n).

(** src/rawnode.cc:159-163 [GetReady] *)
Definition rn_get_ready (n : rawnode) : res (rawnode * ready) :=
  rd <- new_ready n ;;
  let n' := accept_ready rd n in
  Ok (mkRN (rn_raft n') (rn_prev_soft n') (rn_prev_hard n') (Some rd), rd).

(** src/rawnode.cc:179-200 [HasReady] *)
Definition rn_has_ready (n : rawnode) : bool :=
  let r := rn_raft n in
  negb (softstate_eqb (soft_state r) (rn_prev_soft n))
  || (negb (is_empty_hs (hard_state r)) && negb (hardstate_eqb (hard_state r) (rn_prev_hard n)))
  || log_has_pending_snapshot (r_log r)
  || (negb (is_nil (r_msgs r)) || negb (is_nil (log_unstable_entries (r_log r)))
      || log_has_next_ents (r_log r))
  || negb (is_nil (r_read_states r)).

(** src/rawnode.cc:202-208 [Advance] *)
Definition rn_advance (n : rawnode) : res rawnode :=
  match rn_ready n with
  | None => UB "null ready_ in Advance"
  | Some rd =>
      let prev := if is_empty_hs (rd_hard rd) then rn_prev_hard n else rd_hard rd in
      r <- raft_advance rd (rn_raft n) ;;
      Ok (mkRN r (rn_prev_soft n) prev None)
  end.

(** src/rawnode.cc:210-230 [GetStatus], [GetBasicStatus] (fields of the structs as a tuple:
    id, hard state, soft state, applied, transferee, configuration, progress) *)
Record nodestatus := mkStatus {
  ns_id : N; ns_hard : hardstate; ns_soft : softstate; ns_applied : N; ns_transferee : N;
  ns_config : tconfig; ns_progress : nmap progress
}.
Definition rn_status (n : rawnode) : nodestatus :=
  let r := rn_raft n in
  mkStatus (r_id r) (hard_state r) (soft_state r) (l_applied (r_log r)) (r_transferee r)
    (t_config (r_trk r)) (if is_leader r then t_progress (r_trk r) else []).

(** src/rawnode.cc:232-264: reports, transfer, read index *)
Definition rn_report_unreachable (id : N) (n : rawnode) : res rawnode :=
  '(n', _) <- rn_raft_step (set_m_from id (new_msg MsgUnreachable)) n ;; Ok n'.
Definition rn_report_snapshot (id : N) (failure : bool) (n : rawnode) : res rawnode :=
  '(n', _) <- rn_raft_step (set_m_reject failure (set_m_from id (new_msg MsgSnapStatus))) n ;;
  Ok n'.
Definition rn_transfer_leader (transferee : N) (n : rawnode) : res rawnode :=
  '(n', _) <- rn_raft_step (set_m_from transferee (new_msg MsgTransferLeader)) n ;; Ok n'.
Definition read_index_msg (rctx : string) : msg :=
  set_m_entries [mkEntry 0 0 EntryNormal rctx] (new_msg MsgReadIndex).
Definition rn_read_index (rctx : string) (n : rawnode) : res rawnode :=
  '(n', _) <- rn_raft_step (read_index_msg rctx) n ;; Ok n'.

End WithEnv.
