(** Model of src/raft.{h,cc}.
    Conventions: CRAFT_LOG_FATAL and failed asserts are [Fatal]; dereferencing a null Progress is
    [UB]; arguments of INFO/DEBUG/WARNING log calls are not evaluated; std::function members step_
    and tick_ are dispatched on state_ (each Become* sets them together with state_); shared_ptr
    messages and entries are values.  Randomness: [r_tape] is the sequence of numbers the random
    generator will return. *)
From Verif Require Import Prelude Types M_Util M_Quorum M_Inflights M_Progress M_Tracker.
From Verif Require Import M_Storage M_Unstable M_Log M_ReadOnly M_ConfPb M_ConfChange.

(** src/raft.h:32-38 *)
Inductive role := RFollower | RCandidate | RLeader | RPreCandidate.
Definition role_eqb (a b : role) : bool :=
  match a, b with
  | RFollower, RFollower | RCandidate, RCandidate | RLeader, RLeader
  | RPreCandidate, RPreCandidate => true
  | _, _ => false
  end.
(** src/raft.h:40-50 *)
Inductive campaign_type := CPreElection | CElection | CTransfer.

(** src/raft.h:130-222 [Config] (the logger is not modelled) *)
Record config := mkConfig {
  c_id : N;
  c_election_tick : Z;
  c_heartbeat_tick : Z;
  c_storage : option mstorage;
  c_applied : N;
  c_max_size : N;
  c_max_committed : N;
  c_max_uncommitted : N;
  c_max_inflight : Z;
  c_check_quorum : bool;
  c_pre_vote : bool;
  c_ro : roption;
  c_disable_fwd : bool
}.

(** The members of Raft fixed at construction (src/raft.h:404-516). *)
Record rcfg := mkRCfg {
  k_id : N;
  k_max_msg_size : N;
  k_max_uncommitted : N;
  k_check_quorum : bool;
  k_pre_vote : bool;
  k_hb_timeout : N;
  k_el_timeout : N;
  k_disable_fwd : bool
}.

(** src/raft.h:404-519 *)
Record raft := mkRaft {
  r_cfg : rcfg;
  r_term : N;
  r_vote : N;
  r_read_states : list readstate;
  r_log : rlog;
  r_trk : tracker;
  r_state : role;
  r_learner : bool;
  r_msgs : list msg;
  r_lead : N;
  r_transferee : N;
  r_pending_conf : N;
  r_uncommitted : N;
  r_ro : readonly;
  r_el_elapsed : N;
  r_hb_elapsed : N;
  r_rand_timeout : N;
  r_pend_reads : list msg;
  r_tape : list N
}.
Definition set_r_cfg (v : rcfg) (x : raft) : raft :=
  mkRaft v (r_term x) (r_vote x) (r_read_states x) (r_log x) (r_trk x) (r_state x) (r_learner x) (r_msgs x) (r_lead x) (r_transferee x) (r_pending_conf x) (r_uncommitted x) (r_ro x) (r_el_elapsed x) (r_hb_elapsed x) (r_rand_timeout x) (r_pend_reads x) (r_tape x).
Definition set_r_term (v : N) (x : raft) : raft :=
  mkRaft (r_cfg x) v (r_vote x) (r_read_states x) (r_log x) (r_trk x) (r_state x) (r_learner x) (r_msgs x) (r_lead x) (r_transferee x) (r_pending_conf x) (r_uncommitted x) (r_ro x) (r_el_elapsed x) (r_hb_elapsed x) (r_rand_timeout x) (r_pend_reads x) (r_tape x).
Definition set_r_vote (v : N) (x : raft) : raft :=
  mkRaft (r_cfg x) (r_term x) v (r_read_states x) (r_log x) (r_trk x) (r_state x) (r_learner x) (r_msgs x) (r_lead x) (r_transferee x) (r_pending_conf x) (r_uncommitted x) (r_ro x) (r_el_elapsed x) (r_hb_elapsed x) (r_rand_timeout x) (r_pend_reads x) (r_tape x).
Definition set_r_read_states (v : list readstate) (x : raft) : raft :=
  mkRaft (r_cfg x) (r_term x) (r_vote x) v (r_log x) (r_trk x) (r_state x) (r_learner x) (r_msgs x) (r_lead x) (r_transferee x) (r_pending_conf x) (r_uncommitted x) (r_ro x) (r_el_elapsed x) (r_hb_elapsed x) (r_rand_timeout x) (r_pend_reads x) (r_tape x).
Definition set_r_log (v : rlog) (x : raft) : raft :=
  mkRaft (r_cfg x) (r_term x) (r_vote x) (r_read_states x) v (r_trk x) (r_state x) (r_learner x) (r_msgs x) (r_lead x) (r_transferee x) (r_pending_conf x) (r_uncommitted x) (r_ro x) (r_el_elapsed x) (r_hb_elapsed x) (r_rand_timeout x) (r_pend_reads x) (r_tape x).
Definition set_r_trk (v : tracker) (x : raft) : raft :=
  mkRaft (r_cfg x) (r_term x) (r_vote x) (r_read_states x) (r_log x) v (r_state x) (r_learner x) (r_msgs x) (r_lead x) (r_transferee x) (r_pending_conf x) (r_uncommitted x) (r_ro x) (r_el_elapsed x) (r_hb_elapsed x) (r_rand_timeout x) (r_pend_reads x) (r_tape x).
Definition set_r_state (v : role) (x : raft) : raft :=
  mkRaft (r_cfg x) (r_term x) (r_vote x) (r_read_states x) (r_log x) (r_trk x) v (r_learner x) (r_msgs x) (r_lead x) (r_transferee x) (r_pending_conf x) (r_uncommitted x) (r_ro x) (r_el_elapsed x) (r_hb_elapsed x) (r_rand_timeout x) (r_pend_reads x) (r_tape x).
Definition set_r_learner (v : bool) (x : raft) : raft :=
  mkRaft (r_cfg x) (r_term x) (r_vote x) (r_read_states x) (r_log x) (r_trk x) (r_state x) v (r_msgs x) (r_lead x) (r_transferee x) (r_pending_conf x) (r_uncommitted x) (r_ro x) (r_el_elapsed x) (r_hb_elapsed x) (r_rand_timeout x) (r_pend_reads x) (r_tape x).
Definition set_r_msgs (v : list msg) (x : raft) : raft :=
  mkRaft (r_cfg x) (r_term x) (r_vote x) (r_read_states x) (r_log x) (r_trk x) (r_state x) (r_learner x) v (r_lead x) (r_transferee x) (r_pending_conf x) (r_uncommitted x) (r_ro x) (r_el_elapsed x) (r_hb_elapsed x) (r_rand_timeout x) (r_pend_reads x) (r_tape x).
Definition set_r_lead (v : N) (x : raft) : raft :=
  mkRaft (r_cfg x) (r_term x) (r_vote x) (r_read_states x) (r_log x) (r_trk x) (r_state x) (r_learner x) (r_msgs x) v (r_transferee x) (r_pending_conf x) (r_uncommitted x) (r_ro x) (r_el_elapsed x) (r_hb_elapsed x) (r_rand_timeout x) (r_pend_reads x) (r_tape x).
Definition set_r_transferee (v : N) (x : raft) : raft :=
  mkRaft (r_cfg x) (r_term x) (r_vote x) (r_read_states x) (r_log x) (r_trk x) (r_state x) (r_learner x) (r_msgs x) (r_lead x) v (r_pending_conf x) (r_uncommitted x) (r_ro x) (r_el_elapsed x) (r_hb_elapsed x) (r_rand_timeout x) (r_pend_reads x) (r_tape x).
Definition set_r_pending_conf (v : N) (x : raft) : raft :=
  mkRaft (r_cfg x) (r_term x) (r_vote x) (r_read_states x) (r_log x) (r_trk x) (r_state x) (r_learner x) (r_msgs x) (r_lead x) (r_transferee x) v (r_uncommitted x) (r_ro x) (r_el_elapsed x) (r_hb_elapsed x) (r_rand_timeout x) (r_pend_reads x) (r_tape x).
Definition set_r_uncommitted (v : N) (x : raft) : raft :=
  mkRaft (r_cfg x) (r_term x) (r_vote x) (r_read_states x) (r_log x) (r_trk x) (r_state x) (r_learner x) (r_msgs x) (r_lead x) (r_transferee x) (r_pending_conf x) v (r_ro x) (r_el_elapsed x) (r_hb_elapsed x) (r_rand_timeout x) (r_pend_reads x) (r_tape x).
Definition set_r_ro (v : readonly) (x : raft) : raft :=
  mkRaft (r_cfg x) (r_term x) (r_vote x) (r_read_states x) (r_log x) (r_trk x) (r_state x) (r_learner x) (r_msgs x) (r_lead x) (r_transferee x) (r_pending_conf x) (r_uncommitted x) v (r_el_elapsed x) (r_hb_elapsed x) (r_rand_timeout x) (r_pend_reads x) (r_tape x).
Definition set_r_el_elapsed (v : N) (x : raft) : raft :=
  mkRaft (r_cfg x) (r_term x) (r_vote x) (r_read_states x) (r_log x) (r_trk x) (r_state x) (r_learner x) (r_msgs x) (r_lead x) (r_transferee x) (r_pending_conf x) (r_uncommitted x) (r_ro x) v (r_hb_elapsed x) (r_rand_timeout x) (r_pend_reads x) (r_tape x).
Definition set_r_hb_elapsed (v : N) (x : raft) : raft :=
  mkRaft (r_cfg x) (r_term x) (r_vote x) (r_read_states x) (r_log x) (r_trk x) (r_state x) (r_learner x) (r_msgs x) (r_lead x) (r_transferee x) (r_pending_conf x) (r_uncommitted x) (r_ro x) (r_el_elapsed x) v (r_rand_timeout x) (r_pend_reads x) (r_tape x).
Definition set_r_rand_timeout (v : N) (x : raft) : raft :=
  mkRaft (r_cfg x) (r_term x) (r_vote x) (r_read_states x) (r_log x) (r_trk x) (r_state x) (r_learner x) (r_msgs x) (r_lead x) (r_transferee x) (r_pending_conf x) (r_uncommitted x) (r_ro x) (r_el_elapsed x) (r_hb_elapsed x) v (r_pend_reads x) (r_tape x).
Definition set_r_pend_reads (v : list msg) (x : raft) : raft :=
  mkRaft (r_cfg x) (r_term x) (r_vote x) (r_read_states x) (r_log x) (r_trk x) (r_state x) (r_learner x) (r_msgs x) (r_lead x) (r_transferee x) (r_pending_conf x) (r_uncommitted x) (r_ro x) (r_el_elapsed x) (r_hb_elapsed x) (r_rand_timeout x) v (r_tape x).
Definition set_r_tape (v : list N) (x : raft) : raft :=
  mkRaft (r_cfg x) (r_term x) (r_vote x) (r_read_states x) (r_log x) (r_trk x) (r_state x) (r_learner x) (r_msgs x) (r_lead x) (r_transferee x) (r_pending_conf x) (r_uncommitted x) (r_ro x) (r_el_elapsed x) (r_hb_elapsed x) (r_rand_timeout x) (r_pend_reads x) v.

Definition r_id (r : raft) : N := k_id (r_cfg r).
Definition r_last (r : raft) : N := log_last (r_log r).
Definition is_leader (r : raft) : bool := role_eqb (r_state r) RLeader.

(** Visit: run [f] over the elements in order. *)
Fixpoint mfold {A S} (f : A -> S -> res S) (l : list A) (s : S) : res S :=
  match l with
  | [] => Ok s
  | a :: t => s' <- f a s ;; mfold f t s'
  end.

(** src/raft.cc:163-200 [Config::Validate]: the (possibly defaulted) config and the status *)
Definition validate (c : config) : config * option err :=
  if c_id c =? 0 then (c, Some (EOther "cannot use none as id"))
  else if (c_heartbeat_tick c <=? 0)%Z then (c, Some (EOther "heartbeat tick must be greater than 0"))
  else if (c_election_tick c <=? c_heartbeat_tick c)%Z
  then (c, Some (EOther "election tick must be greater than heartbeat tick"))
  else match c_storage c with
  | None => (c, Some (EOther "storage cannot be null"))
  | Some _ =>
      let unc := if c_max_uncommitted c =? 0 then UINT64_MAX else c_max_uncommitted c in
      let com := if c_max_committed c =? 0 then c_max_size c else c_max_committed c in
      let c' := mkConfig (c_id c) (c_election_tick c) (c_heartbeat_tick c) (c_storage c)
                  (c_applied c) (c_max_size c) com unc (c_max_inflight c) (c_check_quorum c)
                  (c_pre_vote c) (c_ro c) (c_disable_fwd c) in
      if (c_max_inflight c <=? 0)%Z
      then (c', Some (EOther "max inflight messafes must be greater than 0"))
      else if roption_eqb (c_ro c) RoLeaseBased && negb (c_check_quorum c)
      then (c', Some (EOther "check_quorum_ must be enabled when read_only_options_ is kLeaseBased"))
      else (c', None)
  end.

(** src/raft.cc:69-73 [IsEmptyHardState] *)
Definition is_empty_hs (h : hardstate) : bool :=
  (hs_term h =? 0) && (hs_vote h =? 0) && (hs_commit h =? 0).

(** src/raft.h:232-234 [GetSoftState] *)
Record softstate := mkSoft { ss_lead : N; ss_state : role }.
Definition softstate_eqb (a b : softstate) : bool :=
  (ss_lead a =? ss_lead b) && role_eqb (ss_state a) (ss_state b).
Definition soft_state (r : raft) : softstate := mkSoft (r_lead r) (r_state r).
(** src/raft.h:236-242 [GetHardState] *)
Definition hard_state (r : raft) : hardstate :=
  mkHardState (r_term r) (r_vote r) (l_committed (r_log r)).

(** The context string of a transfer campaign, src/raft.cc:37 *)
Definition campaign_transfer_ctx : string := "CampaignTransfer".

(** src/raft.cc:281-320 [Send] *)
Definition is_vote_family (t : mtype) : bool :=
  match t with MsgVote | MsgVoteResp | MsgPreVote | MsgPreVoteResp => true | _ => false end.
Definition send (m : msg) (r : raft) : res raft :=
  let m := if m_from m =? 0 then set_m_from (r_id r) m else m in
  if is_vote_family (m_type m) then
    if m_term m =? 0 then Fatal "term should be set when sending"
    else Ok (set_r_msgs (r_msgs r ++ [m]) r)
  else
    if negb (m_term m =? 0) then Fatal "term should not be set when sending"
    else
      let m := match m_type m with
               | MsgProp | MsgReadIndex => m
               | _ => set_m_term (r_term r) m
               end in
      Ok (set_r_msgs (r_msgs r ++ [m]) r).

Definition put_progress (id : N) (p : progress) (r : raft) : raft :=
  set_r_trk (trk_put id p (r_trk r)) r.

Section WithEnv.
Context {E : Env}.

(** src/raft.cc:357-377: the MsgApp branch of [MaybeSendAppend] *)
Definition send_app_msg (to : N) (pr : progress) (term : N) (ents : list entry) (r : raft)
  : res raft :=
  let m := set_m_commit (l_committed (r_log r))
           (set_m_entries ents
           (set_m_logterm term
           (set_m_index (wsub (p_next pr) 1)
           (set_m_to to (new_msg MsgApp))))) in
  match rev ents with
  | [] => send m r
  | last :: _ =>
      match p_state pr with
      | StReplicate =>
          let pr1 := pr_optimistic_update (e_index last) pr in
          inf <- inf_add (e_index last) (p_infl pr1) ;;
          send m (put_progress to (set_p_infl inf pr1) r)
      | StProbe => send m (put_progress to (set_p_probe_sent true pr) r)
      | StSnapshot => Fatal "sending append in unhandled state"
      end
  end.

(** src/raft.cc:333-356: the MsgSnap branch of [MaybeSendAppend] *)
Definition send_snap_msg (to : N) (pr : progress) (r : raft) : res (raft * bool) :=
  if negb (p_active pr) then Ok (r, false)
  else match log_snapshot (r_log r) with
  | SErr ESnapTemp => Ok (r, false)
  | SErr _ => Fatal "unexpected state!!!"
  | SOk sn =>
      if sn_index sn =? 0 then Fatal "need non-empty snapshot"
      else
        let m := set_m_snap sn (set_m_to to (new_msg MsgSnap)) in
        r1 <- send m (put_progress to (pr_become_snapshot (sn_index sn) pr) r) ;;
        Ok (r1, true)
  end.

(** src/raft.cc:324-381 [MaybeSendAppend] *)
Definition maybe_send_append (to : N) (send_if_empty : bool) (r : raft) : res (raft * bool) :=
  match trk_get to (r_trk r) with
  | None => UB "null Progress in MaybeSendAppend"
  | Some pr =>
      if pr_is_paused pr then Ok (r, false)
      else
        t <- log_term (wsub (p_next pr) 1) (r_log r) ;;
        es <- log_entries (p_next pr) (k_max_msg_size (r_cfg r)) (r_log r) ;;
        let ents := match es with SOk l => l | SErr _ => [] end in
        if is_nil ents && negb send_if_empty then Ok (r, false)
        else match t, es with
             | SOk term, SOk _ =>
                 r1 <- send_app_msg to pr term ents r ;; Ok (r1, true)
             | _, _ => send_snap_msg to pr r
             end
  end.

(** src/raft.cc:322 [SendAppend] *)
Definition send_append (to : N) (r : raft) : res raft :=
  '(r1, _) <- maybe_send_append to true r ;; Ok r1.

(** src/raft.cc:383-397 [SendHeartbeat] *)
Definition send_heartbeat (ctx : string) (to : N) (r : raft) : res raft :=
  match trk_get to (r_trk r) with
  | None => UB "null Progress in SendHeartbeat"
  | Some pr =>
      let commit := N.min (p_match pr) (l_committed (r_log r)) in
      send (set_m_ctx ctx (set_m_commit commit (set_m_to to (new_msg MsgHeartbeat)))) r
  end.

(** The ids Visit goes through, without the local one. *)
Definition peer_ids (r : raft) : list N :=
  filter (fun id => negb (id =? r_id r)) (keys (t_progress (r_trk r))).

(** src/raft.cc:399-406 [BcastAppend] *)
Definition bcast_append (r : raft) : res raft := mfold send_append (peer_ids r) r.

(** src/raft.cc:413-420 [BcastHeartbeatWithCtx] *)
Definition bcast_heartbeat_ctx (ctx : string) (r : raft) : res raft :=
  mfold (send_heartbeat ctx) (peer_ids r) r.
(** src/raft.cc:408-411 [BcastHeartbeat] *)
Definition bcast_heartbeat (r : raft) : res raft :=
  bcast_heartbeat_ctx (ro_last_ctx (r_ro r)) r.

(** src/raft.cc:473-476 [MaybeCommit] *)
Definition raft_maybe_commit (r : raft) : res (raft * bool) :=
  mci <- trk_committed (r_trk r) ;;
  '(l, ok) <- log_maybe_commit mci (r_term r) (r_log r) ;;
  Ok (set_r_log l r, ok).

(** src/raft.cc:1784-1787 [ResetRandomizedElectionTimeout]: Random(0, election_timeout_-1) *)
Definition reset_rand (r : raft) : raft :=
  let et := k_el_timeout (r_cfg r) in
  let x := match r_tape r with [] => 0 | n :: _ => n end in
  set_r_tape (tl (r_tape r)) (set_r_rand_timeout (et + x mod et) r).

(** src/raft.cc:478-505 [Reset] *)
Definition reset (term : N) (r : raft) : raft :=
  let r := if r_term r =? term then r else set_r_vote 0 (set_r_term term r) in
  let r := set_r_hb_elapsed 0 (set_r_el_elapsed 0 (set_r_lead 0 r)) in
  let r := reset_rand r in
  let r := set_r_transferee 0 r in
  let trk := trk_reset_votes (r_trk r) in
  let last := r_last r in
  let fresh := fun id pr =>
    let p := new_progress (last + 1) 0 (t_max_inflight trk) (p_learner pr) false in
    if id =? r_id r then set_p_match last p else p in
  let r := set_r_trk (set_t_progress (mmap fresh (t_progress trk)) trk) r in
  let r := set_r_uncommitted 0 (set_r_pending_conf 0 r) in
  set_r_ro (new_readonly (ro_option (r_ro r))) r.

(** src/raft.cc:1814-1836 [IncreaseUncommittedSize]; None = refused *)
Definition increase_uncommitted (es : list entry) (r : raft) : option raft :=
  let s := payloads_size es in
  if (0 <? r_uncommitted r) && (0 <? s) && (k_max_uncommitted (r_cfg r) <? r_uncommitted r + s)
  then None
  else Some (set_r_uncommitted (r_uncommitted r + s) r).

(** src/raft.cc:1838-1853 [ReduceUncommittedSize] *)
Definition reduce_uncommitted (es : list entry) (r : raft) : raft :=
  if r_uncommitted r =? 0 then r
  else
    let s := payloads_size es in
    if r_uncommitted r <? s then set_r_uncommitted 0 r
    else set_r_uncommitted (r_uncommitted r - s) r.

(** src/raft.cc:512-517: stamp the entries *)
Fixpoint stamp (term index : N) (es : list entry) : list entry :=
  match es with
  | [] => []
  | e :: t => set_e_index index (set_e_term term e) :: stamp term (index + 1) t
  end.

(** src/raft.cc:512-534 [AppendEntry]; None = refused.  (The entries of a refused proposal have
    been stamped too, but they are unreachable afterwards.) *)
Definition append_entry (es : list entry) (r : raft) : res (option raft) :=
  let es := stamp (r_term r) (r_last r + 1) es in
  match increase_uncommitted es r with
  | None => Ok None
  | Some r1 =>
      '(l, li) <- log_append es (r_log r1) ;;
      let r2 := set_r_log l r1 in
      match trk_get (r_id r2) (r_trk r2) with
      | None => UB "null Progress in AppendEntry"
      | Some pr =>
          let '(pr', _) := pr_maybe_update li pr in
          '(r3, _) <- raft_maybe_commit (put_progress (r_id r2) pr' r2) ;;
          Ok (Some r3)
      end
  end.

(** src/raft.cc:588-595 [BecomeFollower] *)
Definition become_follower (term lead : N) (r : raft) : raft :=
  set_r_state RFollower (set_r_lead lead (reset term r)).

(** src/raft.cc:597-608 [BecomeCandidate] *)
Definition become_candidate (r : raft) : res raft :=
  if is_leader r then Fatal "invalid transition [leader -> candidate]"
  else
    let r := reset (r_term r + 1) r in
    Ok (set_r_state RCandidate (set_r_vote (r_id r) r)).

(** src/raft.cc:610-624 [BecomePreCandidate] *)
Definition become_pre_candidate (r : raft) : res raft :=
  if is_leader r then Fatal "invalid transition [leader -> pre-candidate]"
  else
    let r := set_r_trk (trk_reset_votes (r_trk r)) r in
    Ok (set_r_state RPreCandidate (set_r_lead 0 r)).

(** src/raft.cc:626-664 [BecomeLeader] *)
Definition lead_base (pr : progress) (r : raft) : raft :=
  let r := set_r_state RLeader (set_r_lead (r_id r) r) in
  let r := put_progress (r_id r) (pr_become_replicate pr) r in
  set_r_pending_conf (r_last r) r.
Definition become_leader_reset (r : raft) : res raft :=
  match trk_get (r_id r) (r_trk r) with
  | None => UB "null Progress in BecomeLeader"
  | Some pr =>
      o <- append_entry [empty_entry] (lead_base pr r) ;;
      match o with
      | None => Fatal "empty entry was dropped"
      | Some r' => Ok (reduce_uncommitted [empty_entry] r')
      end
  end.
Definition become_leader (r : raft) : res raft :=
  if role_eqb (r_state r) RFollower then Fatal "invalid transition [follower -> leader]"
  else become_leader_reset (reset (r_term r) r).

(** src/raft.cc:1655-1658 [Promotable] *)
Definition promotable (r : raft) : bool :=
  match trk_get (r_id r) (r_trk r) with
  | None => false
  | Some pr => negb (p_learner pr) && negb (log_has_pending_snapshot (r_log r))
  end.

(** src/raft.cc:1855-1864 [NumOfPendingConf] *)
Definition is_conf_entry (e : entry) : bool :=
  match e_type e with EntryNormal => false | _ => true end.
Definition num_pending_conf (es : list entry) : N := nlen (filter is_conf_entry es).

(** src/raft.cc:741-755 [Poll] *)
Definition poll (id : N) (v : bool) (r : raft) : raft * votestate :=
  let trk := trk_record_vote id v (r_trk r) in
  (set_r_trk trk r, snd (trk_tally_votes trk)).

(** src/raft.cc:716-738: send the vote requests of [Campaign] *)
Definition send_vote_req (t : mtype) (term : N) (transfer : bool) (to : N) (r : raft) : res raft :=
  lt <- log_last_term (r_log r) ;;
  let m := set_m_logterm lt (set_m_index (r_last r) (set_m_to to (set_m_term term (new_msg t)))) in
  send (if transfer then set_m_ctx campaign_transfer_ctx m else m) r.
Definition other_voters (r : raft) : list N :=
  filter (fun id => negb (id =? r_id r)) (trk_voter_nodes (r_trk r)).

(** src/raft.cc:691-739 [Campaign] for kElection and kTransfer *)
Definition campaign_real (transfer : bool) (r : raft) : res raft :=
  r1 <- become_candidate r ;;
  let '(r2, res_) := poll (r_id r1) true r1 in
  match res_ with
  | VoteWon => become_leader r2
  | _ => mfold (send_vote_req MsgVote (r_term r2) transfer) (other_voters r2) r2
  end.
(** src/raft.cc:691-739 [Campaign]; the recursion kPreElection -> kElection is unrolled *)
Definition campaign (t : campaign_type) (r : raft) : res raft :=
  match t with
  | CPreElection =>
      r1 <- become_pre_candidate r ;;
      let term := r_term r1 + 1 in
      let '(r2, res_) := poll (r_id r1) true r1 in
      match res_ with
      | VoteWon => campaign_real false r2
      | _ => mfold (send_vote_req MsgPreVote term false) (other_voters r2) r2
      end
  | CElection => campaign_real false r
  | CTransfer => campaign_real true r
  end.

(** src/raft.cc:666-689 [Hup] *)
Definition hup (t : campaign_type) (r : raft) : res raft :=
  if is_leader r then Ok r
  else if negb (promotable r) then Ok r
  else
    s <- log_slice (l_applied (r_log r) + 1) (l_committed (r_log r) + 1) UINT64_MAX (r_log r) ;;
    match s with
    | SErr _ => Fatal "unexpected error getting unapplied entries"
    | SOk ents =>
        if negb (num_pending_conf ents =? 0) && (l_applied (r_log r) <? l_committed (r_log r))
        then Ok r
        else campaign t r
    end.

(** src/raft.cc:1796-1799 [CommittedEntryinCurrentTerm] *)
Definition committed_entry_in_current_term (r : raft) : res bool :=
  t <- log_term (l_committed (r_log r)) (r_log r) ;;
  z <- zero_term_on_compacted t ;;
  Ok (z =? r_term r).

(** src/raft.cc:1801-1813 [ResponseToReadIndexReq] followed by the callers'
    "if (resp->to() != kNone) Send(resp)" *)
Definition response_to_read_index (req : msg) (read_index : N) (r : raft) : res raft :=
  if (m_from req =? 0) || (m_from req =? r_id r) then
    d <- entry0_data req ;;
    Ok (set_r_read_states (r_read_states r ++ [mkReadState read_index d]) r)
  else
    send (set_m_entries (m_entries req) (set_m_index read_index
           (set_m_to (m_from req) (new_msg MsgReadIndexResp)))) r.

(** src/raft.cc:1880-1896 [SendMsgReadIndexResponse] *)
Definition send_read_index_response (m : msg) (r : raft) : res raft :=
  match ro_option (r_ro r) with
  | RoSafe =>
      ro <- ro_add_request (l_committed (r_log r)) m (r_ro r) ;;
      d <- entry0_data m ;;
      let '(ro, _) := ro_recv_ack (r_id r) d ro in
      bcast_heartbeat_ctx d (set_r_ro ro r)
  | RoLeaseBased => response_to_read_index m (l_committed (r_log r)) r
  end.

(** src/raft.cc:1866-1878 [ReleasePendingReadIndexMessages] *)
Definition release_pending_reads (r : raft) : res raft :=
  ok <- committed_entry_in_current_term r ;;
  if ok then mfold send_read_index_response (r_pend_reads r) (set_r_pend_reads [] r)
  else Ok r.

(** src/raft.cc:1789-1794 [SendTimeoutNow] *)
Definition send_timeout_now (to : N) (r : raft) : res raft :=
  send (set_m_to to (new_msg MsgTimeoutNow)) r.

(** src/raft.cc:1222, the loop [while (MaybeSendAppend(m->from(), false))] *)
Fixpoint send_all (fuel : nat) (to : N) (r : raft) : res raft :=
  match fuel with
  | O => NoFuel
  | S f =>
      '(r1, sent) <- maybe_send_append to false r ;;
      if sent then send_all f to r1 else Ok r1
  end.
Definition send_all_fuel (r : raft) : nat := S (S (N.to_nat (r_last r))).

(** The result of Step: the new state and the Status (None = OK). *)
Definition stepres := res (raft * option err).
Definition okr (m : res raft) : stepres := r <- m ;; Ok (r, None).

(** src/raft.cc:994-1031: the conf-change filter over the entries of a proposal *)
Definition entry_cc (e : entry) : res (option confchangev2) :=
  match e_type e with
  | EntryNormal => Ok None
  | EntryConfChange =>
      match dec_cc (e_data e) with
      | None => Fatal "parse confchange error"
      | Some c => v <- cci_as_v2 (CCv1 c) ;; Ok (Some v)
      end
  | EntryConfChangeV2 =>
      match dec_ccv2 (e_data e) with
      | None => Fatal "parse confchange error"
      | Some c => Ok (Some c)
      end
  end.
Definition cc_refused (cc : confchangev2) (pending_conf : N) (r : raft) : bool :=
  let already_pending := l_applied (r_log r) <? pending_conf in
  let already_joint := tc_joint (t_config (r_trk r)) in
  let wants_leave_joint := is_nil (c2_changes cc) in
  already_pending || (already_joint && negb wants_leave_joint)
  || (negb already_joint && wants_leave_joint).
Fixpoint filter_prop (i : N) (es : list entry) (r : raft) : res (list entry * raft) :=
  match es with
  | [] => Ok ([], r)
  | e :: t =>
      o <- entry_cc e ;;
      let '(e', r') :=
        match o with
        | None => (e, r)
        | Some cc =>
            if cc_refused cc (r_pending_conf r) r then (empty_entry, r)
            else (e, set_r_pending_conf (r_last r + i + 1) r)
        end in
      '(t', r'') <- filter_prop (i + 1) t r' ;;
      Ok (e' :: t', r'')
  end.

(** src/raft.cc:973-1038: StepLeader, MsgProp *)
Definition leader_prop (m : msg) (r : raft) : stepres :=
  if is_nil (m_entries m) then Fatal "stepped empty MsgProp"
  else match trk_get (r_id r) (r_trk r) with
  | None => Ok (r, Some EDropped)
  | Some _ =>
      if negb (r_transferee r =? 0) then Ok (r, Some EDropped)
      else
        '(es, r1) <- filter_prop 0 (m_entries m) r ;;
        o <- append_entry es r1 ;;
        match o with
        | None => Ok (r1, Some EDropped)
        | Some r2 => okr (bcast_append r2)
        end
  end.

(** src/raft.cc:1039-1062: StepLeader, MsgReadIndex *)
Definition leader_read_index (m : msg) (r : raft) : res raft :=
  if trk_is_singleton (r_trk r) then response_to_read_index m (l_committed (r_log r)) r
  else
    ok <- committed_entry_in_current_term r ;;
    if ok then send_read_index_response m r
    else Ok (set_r_pend_reads (r_pend_reads r ++ [m]) r).

(** src/raft.cc:947-972: StepLeader, MsgCheckQuorum *)
Definition leader_check_quorum (r : raft) : raft :=
  let r := match trk_get (r_id r) (r_trk r) with
           | Some pr => put_progress (r_id r) (set_p_active true pr) r
           | None => r
           end in
  let r := if trk_quorum_active (r_trk r) then r else become_follower (r_term r) 0 r in
  let deact := fun id pr => if id =? r_id r then pr else set_p_active false pr in
  set_r_trk (set_t_progress (mmap deact (t_progress (r_trk r))) (r_trk r)) r.

(** src/raft.cc:1076-1192: StepLeader, rejected MsgAppResp ([pr] already marked active) *)
Definition leader_app_resp_reject (m : msg) (pr : progress) (r : raft) : res raft :=
  probe <- (if 0 <? m_logterm m
            then log_find_conflict_by_term (m_hint m) (m_logterm m) (r_log r)
            else Ok (m_hint m)) ;;
  let '(pr1, ok) := pr_maybe_decr_to (m_index m) probe pr in
  if ok then
    let pr2 := if pstate_eqb (p_state pr1) StReplicate then pr_become_probe pr1 else pr1 in
    send_append (m_from m) (put_progress (m_from m) pr2 r)
  else Ok (put_progress (m_from m) pr1 r).

(** src/raft.cc:1196-1205: the new Progress after an accepted MsgAppResp *)
Definition ack_progress (index : N) (pr : progress) : res progress :=
  match p_state pr with
  | StProbe => Ok (pr_become_replicate pr)
  | StSnapshot =>
      if p_pending pr <=? p_match pr then Ok (pr_become_replicate (pr_become_probe pr)) else Ok pr
  | StReplicate => inf <- inf_free_le index (p_infl pr) ;; Ok (set_p_infl inf pr)
  end.

(** src/raft.cc:1193-1234: StepLeader, accepted MsgAppResp ([pr] already marked active) *)
Definition leader_app_resp_accept (m : msg) (pr : progress) (r : raft) : res raft :=
  let old_paused := pr_is_paused pr in
  let '(pr1, updated) := pr_maybe_update (m_index m) pr in
  if updated then
    pr2 <- ack_progress (m_index m) pr1 ;;
    '(r2, committed) <- raft_maybe_commit (put_progress (m_from m) pr2 r) ;;
    r3 <- (if committed then r' <- release_pending_reads r2 ;; bcast_append r'
           else if old_paused then send_append (m_from m) r2
           else Ok r2) ;;
    r4 <- send_all (send_all_fuel r3) (m_from m) r3 ;;
    if (m_from m =? r_transferee r4) && (p_match pr1 =? r_last r4)
    then send_timeout_now (m_from m) r4 else Ok r4
  else Ok (put_progress (m_from m) pr1 r).

(** src/raft.cc:1073-1236: StepLeader, MsgAppResp *)
Definition leader_app_resp (m : msg) (pr : progress) (r : raft) : res raft :=
  let pr := set_p_active true pr in
  if m_reject m then leader_app_resp_reject m pr r else leader_app_resp_accept m pr r.

(** src/raft.cc:1237-1270: StepLeader, MsgHeartbeatResp *)
Definition leader_heartbeat_resp (m : msg) (pr : progress) (r : raft) : res raft :=
  let pr := set_p_probe_sent false (set_p_active true pr) in
  pr1 <- (if pstate_eqb (p_state pr) StReplicate && inf_full (p_infl pr)
          then inf <- inf_free_first_one (p_infl pr) ;; Ok (set_p_infl inf pr)
          else Ok pr) ;;
  let r1 := put_progress (m_from m) pr1 r in
  r2 <- (if p_match pr1 <? r_last r1 then send_append (m_from m) r1 else Ok r1) ;;
  if negb (roption_eqb (ro_option (r_ro r2)) RoSafe) || String.eqb (m_ctx m) EmptyString then Ok r2
  else
    let '(ro, acks) := ro_recv_ack (m_from m) (m_ctx m) (r_ro r2) in
    let r3 := set_r_ro ro r2 in
    match tc_vote_result (t_config (r_trk r3)) acks with
    | VoteWon =>
        '(ro', rss) <- ro_advance (m_ctx m) (r_ro r3) ;;
        mfold (fun rs r => response_to_read_index (ris_req rs) (ris_index rs) r) rss
              (set_r_ro ro' r3)
    | _ => Ok r3
    end.

(** src/raft.cc:1271-1300: StepLeader, MsgSnapStatus *)
Definition leader_snap_status (m : msg) (pr : progress) (r : raft) : raft :=
  match p_state pr with
  | StSnapshot =>
      let pr1 := if m_reject m then pr_become_probe (set_p_pending 0 pr) else pr_become_probe pr in
      put_progress (m_from m) (set_p_probe_sent true pr1) r
  | _ => r
  end.

(** src/raft.cc:1301-1311: StepLeader, MsgUnreachable *)
Definition leader_unreachable (m : msg) (pr : progress) (r : raft) : raft :=
  if pstate_eqb (p_state pr) StReplicate then put_progress (m_from m) (pr_become_probe pr) r else r.

(** src/raft.cc:1312-1353: StepLeader, MsgTransferLeader *)
Definition leader_transfer (m : msg) (pr : progress) (r : raft) : res raft :=
  if p_learner pr then Ok r
  else
    let target := m_from m in
    if negb (r_transferee r =? 0) && (r_transferee r =? target) then Ok r
    else
      let r := if negb (r_transferee r =? 0) then set_r_transferee 0 r else r in
      if target =? r_id r then Ok r
      else
        let r := set_r_transferee target (set_r_el_elapsed 0 r) in
        if p_match pr =? r_last r then send_timeout_now target r
        else send_append target r.

(** src/raft.cc:938-1359 [StepLeader] *)
Definition step_leader (m : msg) (r : raft) : stepres :=
  match m_type m with
  | MsgBeat => okr (bcast_heartbeat r)
  | MsgCheckQuorum => Ok (leader_check_quorum r, None)
  | MsgProp => leader_prop m r
  | MsgReadIndex => okr (leader_read_index m r)
  | _ =>
      match trk_get (m_from m) (r_trk r) with
      | None => Ok (r, None)
      | Some pr =>
          match m_type m with
          | MsgAppResp => okr (leader_app_resp m pr r)
          | MsgHeartbeatResp => okr (leader_heartbeat_resp m pr r)
          | MsgSnapStatus => Ok (leader_snap_status m pr r, None)
          | MsgUnreachable => Ok (leader_unreachable m pr r, None)
          | MsgTransferLeader => okr (leader_transfer m pr r)
          | _ => Ok (r, None)
          end
      end
  end.

(** src/raft.cc:1507-1559 [HandleAppendEntries] *)
Definition handle_append_entries (m : msg) (r : raft) : res raft :=
  let resp := set_m_to (m_from m) (new_msg MsgAppResp) in
  if m_index m <? l_committed (r_log r) then
    send (set_m_index (l_committed (r_log r)) resp) r
  else
    '(l, o) <- log_maybe_append (m_index m) (m_logterm m) (m_commit m) (m_entries m) (r_log r) ;;
    let r := set_r_log l r in
    match o with
    | Some last => send (set_m_index last resp) r
    | None =>
        let h := N.min (m_index m) (r_last r) in
        h <- log_find_conflict_by_term h (m_logterm m) (r_log r) ;;
        t <- log_term h (r_log r) ;;
        match t with
        | SErr _ => Fatal "term must be valid"
        | SOk ht =>
            send (set_m_logterm ht (set_m_hint h (set_m_reject true (set_m_index (m_index m) resp))))
                 r
        end
    end.

(** src/raft.cc:1561-1568 [HandleHearbeat] *)
Definition handle_heartbeat (m : msg) (r : raft) : res raft :=
  l <- log_commit_to (m_commit m) (r_log r) ;;
  send (set_m_ctx (m_ctx m) (set_m_to (m_from m) (new_msg MsgHeartbeatResp))) (set_r_log l r).

(** src/raft.cc:1757-1769: the part of [SwitchToConfig] run by a leader with voters; the Visit
    includes the local id *)
Definition switch_leader (r : raft) : res raft :=
  '(r1, committed) <- raft_maybe_commit r ;;
  r2 <- (if committed then bcast_append r1
         else mfold (fun id r => '(r', _) <- maybe_send_append id false r ;; Ok r')
                    (keys (t_progress (r_trk r1))) r1) ;;
  let ids := joint_ids (tc_incoming (t_config (r_trk r2))) (tc_outgoing (t_config (r_trk r2))) in
  if negb (smem (r_transferee r2) ids) && negb (r_transferee r2 =? 0)
  then Ok (set_r_transferee 0 r2) else Ok r2.

(** src/raft.cc:1684-1769 [SwitchToConfig] *)
Definition switch_to_config (cp : cfgprs) (r : raft) : res (raft * confstate) :=
  let r := set_r_trk (set_t_progress (snd cp) (set_t_config (fst cp) (r_trk r))) r in
  let cs := trk_confstate (r_trk r) in
  let learner := match trk_get (r_id r) (r_trk r) with Some p => p_learner p | None => false end in
  let tracked := match trk_get (r_id r) (r_trk r) with Some _ => true | None => false end in
  let r := set_r_learner learner r in
  if (negb tracked || learner) && is_leader r then Ok (r, cs)
  else if negb (is_leader r) || is_nil (cs_voters cs) then Ok (r, cs)
  else r' <- switch_leader r ;; Ok (r', cs).

(** src/raft.cc:1592-1653 [Restore]; the bool is the C++ return value *)
Definition raft_restore (s : snapshot) (r : raft) : res (raft * bool) :=
  if sn_index s <=? l_committed (r_log r) then Ok (r, false)
  else if negb (role_eqb (r_state r) RFollower) then Ok (become_follower (r_term r + 1) 0 r, false)
  else
    let cs := sn_conf s in
    if negb (smem (r_id r) (cs_voters cs) || smem (r_id r) (cs_learners cs)
             || smem (r_id r) (cs_outgoing cs)) then Ok (r, false)
    else
      m <- log_match_term (sn_index s) (sn_term s) (r_log r) ;;
      if m then l <- log_commit_to (sn_index s) (r_log r) ;; Ok (set_r_log l r, false)
      else
        let r := set_r_log (log_restore s (r_log r)) r in
        let r := set_r_trk (new_tracker (t_max_inflight (r_trk r))) r in
        match cc_restore (mkChanger (r_trk r) (r_last r)) cs with
        | SErr _ => Fatal "unable to restore config"
        | SOk cp =>
            '(r, cs2) <- switch_to_config cp r ;;
            if negb (confstate_eqb cs cs2) then Fatal "assert(cs == cs2)"
            else match trk_get (r_id r) (r_trk r) with
                 | None => UB "null Progress in Restore"
                 | Some pr =>
                     let '(pr', _) := pr_maybe_update (wsub (p_next pr) 1) pr in
                     Ok (put_progress (r_id r) pr' r, true)
                 end
        end.

(** src/raft.cc:1570-1590 [HandleSnapshot] *)
Definition handle_snapshot (m : msg) (r : raft) : res raft :=
  '(r, restored) <- raft_restore (m_snap m) r ;;
  let resp := set_m_to (m_from m) (new_msg MsgAppResp) in
  send (set_m_index (if restored then r_last r else l_committed (r_log r)) resp) r.

(** src/raft.cc:1361-1415 [StepCandidate] *)
Definition step_candidate (m : msg) (r : raft) : stepres :=
  let my_resp := match r_state r with RPreCandidate => MsgPreVoteResp | _ => MsgVoteResp end in
  match m_type m with
  | MsgProp => Ok (r, Some EDropped)
  | MsgApp => okr (handle_append_entries m (become_follower (m_term m) (m_from m) r))
  | MsgHeartbeat => okr (handle_heartbeat m (become_follower (m_term m) (m_from m) r))
  | MsgSnap => okr (handle_snapshot m (become_follower (m_term m) (m_from m) r))
  | t =>
      if mtype_eqb t my_resp then
        let '(r1, res_) := poll (m_from m) (negb (m_reject m)) r in
        match res_ with
        | VoteWon =>
            if role_eqb (r_state r1) RPreCandidate then okr (campaign CElection r1)
            else okr (r2 <- become_leader r1 ;; bcast_append r2)
        | VoteLost => Ok (become_follower (r_term r1) 0 r1, None)
        | VotePending => Ok (r1, None)
        end
      else Ok (r, None)
  end.

(** src/raft.cc:1417-1505 [StepFollower] *)
Definition step_follower (m : msg) (r : raft) : stepres :=
  let heard := set_r_lead (m_from m) (set_r_el_elapsed 0 r) in
  match m_type m with
  | MsgProp =>
      if r_lead r =? 0 then Ok (r, Some EDropped)
      else if k_disable_fwd (r_cfg r) then Ok (r, Some EDropped)
      else okr (send (set_m_to (r_lead r) m) r)
  | MsgApp => okr (handle_append_entries m heard)
  | MsgHeartbeat => okr (handle_heartbeat m heard)
  | MsgSnap => okr (handle_snapshot m heard)
  | MsgTransferLeader | MsgReadIndex =>
      if r_lead r =? 0 then Ok (r, None) else okr (send (set_m_to (r_lead r) m) r)
  | MsgTimeoutNow => okr (hup CTransfer r)
  | MsgReadIndexResp =>
      match m_entries m with
      | [e] => Ok (set_r_read_states (r_read_states r ++ [mkReadState (m_index m) (e_data e)]) r,
                   None)
      | _ => Ok (r, None)
      end
  | _ => Ok (r, None)
  end.

(** src/raft.cc:844-930: the vote and pre-vote requests *)
Definition step_vote (m : msg) (r : raft) : res raft :=
  let can_vote := (r_vote r =? m_from m)
                  || ((r_vote r =? 0) && (r_lead r =? 0))
                  || (mtype_eqb (m_type m) MsgPreVote && (r_term r <? m_term m)) in
  up <- (if can_vote then log_is_up_to_date (m_index m) (m_logterm m) (r_log r) else Ok false) ;;
  rt <- vote_resp_type (m_type m) ;;
  if up then
    r1 <- send (set_m_term (m_term m) (set_m_to (m_from m) (new_msg rt))) r ;;
    if mtype_eqb (m_type m) MsgVote
    then Ok (set_r_vote (m_from m) (set_r_el_elapsed 0 r1)) else Ok r1
  else
    send (set_m_reject true (set_m_term (r_term r) (set_m_to (m_from m) (new_msg rt)))) r.

(** src/raft.cc:838-936: Step after the term check *)
Definition step_dispatch (m : msg) (r : raft) : stepres :=
  match m_type m with
  | MsgHup => okr (hup (if k_pre_vote (r_cfg r) then CPreElection else CElection) r)
  | MsgVote | MsgPreVote => okr (step_vote m r)
  | _ =>
      match r_state r with
      | RLeader => step_leader m r
      | RCandidate | RPreCandidate => step_candidate m r
      | RFollower => step_follower m r
      end
  end.

(** src/raft.cc:763-767: the leader lease *)
Definition in_lease (r : raft) : bool :=
  k_check_quorum (r_cfg r) && negb (r_lead r =? 0) && (r_el_elapsed r <? k_el_timeout (r_cfg r)).

(** src/raft.cc:757-936 [Step] *)
Definition step (m : msg) (r : raft) : stepres :=
  if m_term m =? 0 then step_dispatch m r
  else if r_term r <? m_term m then
    let is_req := mtype_eqb (m_type m) MsgVote || mtype_eqb (m_type m) MsgPreVote in
    let force := String.eqb (m_ctx m) campaign_transfer_ctx in
    if is_req && negb force && in_lease r then Ok (r, None)
    else
      let r :=
        match m_type m with
        | MsgPreVote => r
        | MsgPreVoteResp => if m_reject m then become_follower (m_term m) 0 r else r
        | MsgApp | MsgHeartbeat | MsgSnap => become_follower (m_term m) (m_from m) r
        | _ => become_follower (m_term m) 0 r
        end in
      step_dispatch m r
  else if m_term m <? r_term r then
    if (k_check_quorum (r_cfg r) || k_pre_vote (r_cfg r)) &&
       (mtype_eqb (m_type m) MsgHeartbeat || mtype_eqb (m_type m) MsgApp) then
      okr (send (set_m_to (m_from m) (new_msg MsgAppResp)) r)
    else if mtype_eqb (m_type m) MsgPreVote then
      okr (send (set_m_reject true (set_m_term (r_term r)
             (set_m_to (m_from m) (new_msg MsgPreVoteResp)))) r)
    else Ok (r, None)
  else step_dispatch m r.

(** src/raft.cc:1780-1782 [PastElectionTimeout] *)
Definition past_election_timeout (r : raft) : bool := r_rand_timeout r <=? r_el_elapsed r.

(** src/raft.cc:537-549 [TickElection] *)
Definition tick_election (r : raft) : res raft :=
  let r := set_r_el_elapsed (r_el_elapsed r + 1) r in
  if promotable r && past_election_timeout r then
    '(r', _) <- step (set_m_from (r_id r) (new_msg MsgHup)) (set_r_el_elapsed 0 r) ;; Ok r'
  else Ok r.

(** src/raft.cc:551-586 [TickHeartbeat] *)
Definition tick_heartbeat (r : raft) : res raft :=
  let r := set_r_el_elapsed (r_el_elapsed r + 1) (set_r_hb_elapsed (r_hb_elapsed r + 1) r) in
  r <- (if k_el_timeout (r_cfg r) <=? r_el_elapsed r then
          let r := set_r_el_elapsed 0 r in
          r <- (if k_check_quorum (r_cfg r) then
                  '(r', _) <- step (set_m_from (r_id r) (new_msg MsgCheckQuorum)) r ;; Ok r'
                else Ok r) ;;
          if is_leader r && negb (r_transferee r =? 0) then Ok (set_r_transferee 0 r) else Ok r
        else Ok r) ;;
  if negb (is_leader r) then Ok r
  else if k_hb_timeout (r_cfg r) <=? r_hb_elapsed r then
    '(r', _) <- step (set_m_from (r_id r) (new_msg MsgBeat)) (set_r_hb_elapsed 0 r) ;; Ok r'
  else Ok r.

(** src/raft.h:283 [Tick] *)
Definition tick (r : raft) : res raft :=
  match r_state r with RLeader => tick_heartbeat r | _ => tick_election r end.
(** src/raft.h:284 [TickQuiesced] *)
Definition tick_quiesced (r : raft) : raft := set_r_el_elapsed (r_el_elapsed r + 1) r.

(** src/raft.cc:1660-1682 [ApplyConfChange] *)
Definition raft_apply_conf_change (cc : confchangev2) (r : raft) : res (raft * confstate) :=
  let ch := mkChanger (r_trk r) (r_last r) in
  s <- (if leave_joint cc then ch_leave_joint ch
        else
          let '(auto_leave, joint) := enter_joint cc in
          if joint then Ok (ch_enter_joint auto_leave (c2_changes cc) ch)
          else Ok (ch_simple (c2_changes cc) ch)) ;;
  match s with
  | SErr _ => Fatal "unexpected conf change error"
  | SOk cp => switch_to_config cp r
  end.

(** src/raft.cc:1771-1778 [LoadState] *)
Definition load_state (h : hardstate) (r : raft) : res raft :=
  if (hs_commit h <? l_committed (r_log r)) || (r_last r <? hs_commit h)
  then Fatal "state.commit is out of range"
  else Ok (set_r_vote (hs_vote h) (set_r_term (hs_term h)
             (set_r_log (set_l_committed (hs_commit h) (r_log r)) r))).

(** src/raft.cc:202-256 [New] and 258-279 (constructor); [tape] is the random tape *)
Definition raft_new (c : config) (tape : list N) : res raft :=
  match validate c with
  | (_, Some _) => Fatal "config is invalied"
  | (c, None) =>
      match c_storage c with
      | None => UB "null storage"
      | Some s =>
          let log := new_log s (c_max_committed c) in
          let '(hs, cs) := ms_initial_state s in
          let k := mkRCfg (c_id c) (c_max_size c) (c_max_uncommitted c) (c_check_quorum c)
                     (c_pre_vote c) (Z.to_N (c_heartbeat_tick c)) (Z.to_N (c_election_tick c))
                     (c_disable_fwd c) in
          let r := mkRaft k 0 0 [] log (new_tracker (Z.to_N (c_max_inflight c))) RFollower false
                     [] 0 0 0 0 (new_readonly (c_ro c)) 0 0 0 [] tape in
          match cc_restore (mkChanger (r_trk r) (log_last log)) cs with
          | SErr _ => Fatal "restore error"
          | SOk cp =>
              '(r, cs2) <- switch_to_config cp r ;;
              if negb (confstate_eqb cs cs2) then Fatal "assert(cs == cs2)"
              else
                r <- (if is_empty_hs hs then Ok r else load_state hs r) ;;
                r <- (if 0 <? c_applied c then
                        l <- log_applied_to (c_applied c) (r_log r) ;; Ok (set_r_log l r)
                      else Ok r) ;;
                Ok (become_follower (r_term r) 0 r)
          end
      end
  end.

(** src/raft.h:58-108 [Ready]; [rd_snap] is the (possibly empty) snapshot NewReady always sets *)
Record ready := mkReady {
  rd_soft : option softstate;
  rd_hard : hardstate;
  rd_reads : list readstate;
  rd_ents : list entry;
  rd_snap : snapshot;
  rd_committed : list entry;
  rd_msgs : list msg;
  rd_must_sync : bool
}.

(** src/raft.cc:79-89 [Ready::AppliedCursor] *)
Definition applied_cursor (rd : ready) : N :=
  match rev (rd_committed rd) with
  | e :: _ => e_index e
  | [] => sn_index (rd_snap rd)
  end.

(** src/raft.cc:444-460: initiate the automatic transition out of a joint configuration *)
Definition auto_leave_entry : entry := mkEntry 0 0 EntryConfChangeV2 EmptyString.
Definition maybe_auto_leave (old_applied new_applied : N) (r : raft) : res raft :=
  if tc_auto_leave (t_config (r_trk r)) && (old_applied <=? r_pending_conf r)
     && (r_pending_conf r <=? new_applied) && is_leader r then
    o <- append_entry [auto_leave_entry] r ;;
    match o with
    | None => Fatal "refused un-refusable auto-leaving ConfChangeV2"
    | Some r' => Ok (set_r_pending_conf (r_last r') r')
    end
  else Ok r.

(** src/raft.cc:422-471 [Advance] *)
Definition raft_advance (rd : ready) (r : raft) : res raft :=
  let r := reduce_uncommitted (rd_committed rd) r in
  let new_applied := applied_cursor rd in
  r <- (if 0 <? new_applied then
          let old_applied := l_applied (r_log r) in
          l <- log_applied_to new_applied (r_log r) ;;
          maybe_auto_leave old_applied new_applied (set_r_log l r)
        else Ok r) ;;
  r <- (match rev (rd_ents rd) with
        | e :: _ => l <- log_stable_to (e_index e) (e_term e) (r_log r) ;; Ok (set_r_log l r)
        | [] => Ok r
        end) ;;
  if sn_index (rd_snap rd) =? 0 then Ok r
  else Ok (set_r_log (log_stable_snap_to (sn_index (rd_snap rd)) (r_log r)) r).

End WithEnv.
