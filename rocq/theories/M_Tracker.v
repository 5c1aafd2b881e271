(** Model of src/tracker/tracker.{h,cc}. *)
From Verif Require Import Prelude Types M_Quorum M_Progress.

(** src/tracker/tracker.h:42-118 [ProgressTracker::Config]; voters = (incoming, outgoing). *)
Record tconfig := mkTConfig {
  tc_incoming : nset;
  tc_outgoing : nset;
  tc_auto_leave : bool;
  tc_learners : nset;
  tc_learners_next : nset
}.
Definition set_tc_incoming (v : nset) (x : tconfig) : tconfig :=
  mkTConfig v (tc_outgoing x) (tc_auto_leave x) (tc_learners x) (tc_learners_next x).
Definition set_tc_outgoing (v : nset) (x : tconfig) : tconfig :=
  mkTConfig (tc_incoming x) v (tc_auto_leave x) (tc_learners x) (tc_learners_next x).
Definition set_tc_auto_leave (v : bool) (x : tconfig) : tconfig :=
  mkTConfig (tc_incoming x) (tc_outgoing x) v (tc_learners x) (tc_learners_next x).
Definition set_tc_learners (v : nset) (x : tconfig) : tconfig :=
  mkTConfig (tc_incoming x) (tc_outgoing x) (tc_auto_leave x) v (tc_learners_next x).
Definition set_tc_learners_next (v : nset) (x : tconfig) : tconfig :=
  mkTConfig (tc_incoming x) (tc_outgoing x) (tc_auto_leave x) (tc_learners x) v.

Definition empty_tconfig : tconfig := mkTConfig [] [] false [] [].

(** src/tracker/tracker.h:188-193 *)
Record tracker := mkTracker {
  t_config : tconfig;
  t_progress : nmap progress;
  t_votes : nmap bool;
  t_max_inflight : N
}.
Definition set_t_config (v : tconfig) (x : tracker) : tracker :=
  mkTracker v (t_progress x) (t_votes x) (t_max_inflight x).
Definition set_t_progress (v : nmap progress) (x : tracker) : tracker :=
  mkTracker (t_config x) v (t_votes x) (t_max_inflight x).
Definition set_t_votes (v : nmap bool) (x : tracker) : tracker :=
  mkTracker (t_config x) (t_progress x) v (t_max_inflight x).
Definition set_t_max_inflight (v : N) (x : tracker) : tracker :=
  mkTracker (t_config x) (t_progress x) (t_votes x) v.

(** src/tracker/tracker.h:122 *)
Definition new_tracker (max_inflight : N) : tracker := mkTracker empty_tconfig [] [] max_inflight.

(** src/tracker/tracker.h:102 [Config::Joint] *)
Definition tc_joint (c : tconfig) : bool := negb (is_nil (tc_outgoing c)).

(** src/tracker/tracker.cc:55-79 [ConfState] (Slice of a std::set is its sorted sequence) *)
Definition trk_confstate (t : tracker) : confstate :=
  let c := t_config t in
  mkConfState (tc_incoming c) (tc_learners c) (tc_outgoing c) (tc_learners_next c)
              (tc_auto_leave c).

(** src/tracker/tracker.h:129-132 [IsSingleton] *)
Definition trk_is_singleton (t : tracker) : bool :=
  (nlen (tc_incoming (t_config t)) =? 1) && (nlen (tc_outgoing (t_config t)) =? 0).

(** src/tracker/tracker.cc:22-37 [MatchAckIndexer] *)
Definition match_acked (prs : nmap progress) : acked_indexer :=
  fun id => option_map p_match (mget id prs).

(** src/tracker/tracker.cc:81-83 [Committed] *)
Definition trk_committed (t : tracker) : res N :=
  joint_committed_index (tc_incoming (t_config t)) (tc_outgoing (t_config t))
                        (match_acked (t_progress t)).

(** src/quorum/joint.cc:34-48 on the tracker's voters *)
Definition tc_vote_result (c : tconfig) (votes : nmap bool) : votestate :=
  joint_vote_result (tc_incoming c) (tc_outgoing c) votes.

(** src/tracker/tracker.cc:91-101 [QuorumActive]: the votes map it builds *)
Definition active_votes (prs : nmap progress) : nmap bool :=
  fold_left (fun acc kv => if p_learner (snd kv) then acc
                           else mset (fst kv) (p_active (snd kv)) acc) prs [].
Definition trk_quorum_active (t : tracker) : bool :=
  votestate_eqb (tc_vote_result (t_config t) (active_votes (t_progress t))) VoteWon.

(** src/tracker/tracker.cc:103-110 [VoterNodes] *)
Definition trk_voter_nodes (t : tracker) : list N :=
  joint_ids (tc_incoming (t_config t)) (tc_outgoing (t_config t)).

(** src/tracker/tracker.cc:112-122 [LearnerNodes] *)
Definition trk_learner_nodes (t : tracker) : list N := tc_learners (t_config t).

(** src/tracker/tracker.h:153 [ResetVotes] *)
Definition trk_reset_votes (t : tracker) : tracker := set_t_votes [] t.

(** src/tracker/tracker.cc:124-129 [RecordVote] *)
Definition trk_record_vote (id : N) (v : bool) (t : tracker) : tracker :=
  match mget id (t_votes t) with
  | None => set_t_votes (mset id v (t_votes t)) t
  | Some _ => t
  end.

(** src/tracker/tracker.cc:131-153 [TallyVotes] *)
Definition tally_counts (prs : nmap progress) (votes : nmap bool) : N * N :=
  fold_left (fun acc kv =>
    let '(g, r) := acc in
    if p_learner (snd kv) then (g, r)
    else match mget (fst kv) votes with
         | None => (g, r)
         | Some true => (g + 1, r)
         | Some false => (g, r + 1)
         end) prs (0, 0).
Definition trk_tally_votes (t : tracker) : N * N * votestate :=
  (tally_counts (t_progress t) (t_votes t), tc_vote_result (t_config t) (t_votes t)).

(** src/tracker/tracker.cc:155-157 [GetProgress] *)
Definition trk_get (id : N) (t : tracker) : option progress := mget id (t_progress t).
(** Writing through a Progress pointer obtained for [id]. *)
Definition trk_put (id : N) (p : progress) (t : tracker) : tracker :=
  set_t_progress (mset id p (t_progress t)) t.
