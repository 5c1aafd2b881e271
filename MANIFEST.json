{
 "claims": [
  {
   "property": "C01",
   "status": "proved",
   "theorems": [
    "C01_majority_committed_index_exact"
   ],
   "note": ""
  },
  {
   "property": "C02",
   "status": "proved",
   "theorems": [
    "C02_joint_committed_index_exact"
   ],
   "note": ""
  },
  {
   "property": "C03",
   "status": "proved",
   "theorems": [
    "C03_vote_result_exact"
   ],
   "note": ""
  },
  {
   "property": "C04",
   "status": "proved",
   "theorems": [
    "C04_quorums_intersect"
   ],
   "note": ""
  },
  {
   "property": "C05",
   "status": "proved",
   "theorems": [
    "C05_inflights_fifo"
   ],
   "note": ""
  },
  {
   "property": "C06",
   "status": "partial",
   "theorems": [
    "C06_free_first_one_empty_refuted",
    "C06_free_first_one_noop_partial"
   ],
   "note": "the documented no-op fails on a never-used window (refuted); proved for a window used before"
  },
  {
   "property": "C07",
   "status": "partial",
   "theorems": [
    "C07_progress_monotone_partial",
    "C07_next_above_match_refuted"
   ],
   "note": "monotonicity of Match and staleness proved in full; 'Next stays above Match' is false for a duplicated stale rejection in Probe state (refuted) and proved when rejections concern indexes above Match"
  },
  {
   "property": "C08",
   "status": "proved",
   "theorems": [
    "C08_rejections"
   ],
   "note": ""
  },
  {
   "property": "C09",
   "status": "proved",
   "theorems": [
    "C09_first_vote_counts"
   ],
   "note": ""
  },
  {
   "property": "C10",
   "status": "proved",
   "theorems": [
    "C10_memory_storage_one_log"
   ],
   "note": ""
  },
  {
   "property": "C11",
   "status": "partial",
   "theorems": [
    "C11_snapshot_immutable_refuted",
    "C11_snapshot_immutable_partial"
   ],
   "note": "refuted: CreateSnapshot mutates the shared snapshot object in place; the proved part says which objects are unaffected"
  },
  {
   "property": "C12",
   "status": "proved",
   "theorems": [
    "C12_limit_size"
   ],
   "note": ""
  },
  {
   "property": "C13",
   "status": "proved",
   "theorems": [
    "C13_log_is_one_log"
   ],
   "note": ""
  },
  {
   "property": "C14",
   "status": "proved",
   "theorems": [
    "C14_truncate_and_stable"
   ],
   "note": ""
  },
  {
   "property": "C15",
   "status": "proved",
   "theorems": [
    "C15_maybe_append"
   ],
   "note": ""
  },
  {
   "property": "C16",
   "status": "proved",
   "theorems": [
    "C16_commit_applied_monotone"
   ],
   "note": ""
  },
  {
   "property": "C17",
   "status": "proved",
   "theorems": [
    "C17_find_conflict_by_term"
   ],
   "note": ""
  },
  {
   "property": "C18",
   "status": "proved",
   "theorems": [
    "C18_is_up_to_date"
   ],
   "note": ""
  },
  {
   "property": "C19",
   "status": "proved",
   "theorems": [
    "C19_gapless_delivery",
    "C19_batch",
    "C19_committed_stable"
   ],
   "note": "For every disciplined run (Ready handled atomically: persist snapshot/entries/hard state, apply, send, Advance). Interleavings of Step between GetReady and Advance are not covered."
  },
  {
   "property": "C20",
   "status": "proved",
   "theorems": [
    "C20_call_well_formed",
    "C20_history_well_formed",
    "C20_fails_only_if"
   ],
   "note": "Every Simple/EnterJoint/LeaveJoint call on a well-formed configuration returns without UB; results well formed; histories of calls; failures only for the documented reasons. Copies are deep in the code, so the input is a value in the model."
  },
  {
   "property": "C21",
   "status": "proved",
   "theorems": [
    "C21_simple_change"
   ],
   "note": "Exact voter/learner sets after a simple change, at most one voter changed, majorities of old and new voters intersect, untouched progress kept."
  },
  {
   "property": "C22",
   "status": "proved",
   "theorems": [
    "C22_enter_joint",
    "C22_leave_joint",
    "C22_errors"
   ],
   "note": "EnterJoint / LeaveJoint exact effect and refusals."
  },
  {
   "property": "C23",
   "status": "proved",
   "theorems": [
    "C23_restore",
    "C23_round_trip"
   ],
   "note": "Restore of every valid ConfState succeeds and describes it; exact round trip of trk_confstate."
  },
  {
   "property": "C24",
   "status": "proved",
   "theorems": [
    "C24_confstate_eq"
   ],
   "note": ""
  },
  {
   "property": "C25",
   "status": "proved",
   "theorems": [
    "C25_string_round_trip"
   ],
   "note": "For node ids < 2^64."
  },
  {
   "property": "C26",
   "status": "partial",
   "theorems": [
    "C26_malformed_rejected_refuted",
    "C26_bad_head_rejected_partial"
   ],
   "note": "Refuted as stated: strtoull does not throw, \"vx\" is accepted as node 0. Proved: rejection iff a token is too short or has an unknown letter."
  },
  {
   "property": "C27",
   "status": "proved",
   "theorems": [
    "C27_enter_joint",
    "C27_leave_joint",
    "C27_v1_is_simple",
    "C27_marshal"
   ],
   "note": ""
  },
  {
   "property": "C28",
   "status": "proved",
   "theorems": [
    "C28_term_monotone"
   ],
   "note": "For messages that are well formed as peers send them (term-carrying types have a non-zero term); C28_zero_term exhibits the forged term-0 heartbeat that lowers the term."
  },
  {
   "property": "C29",
   "status": "proved",
   "theorems": [
    "C29_one_vote_per_term",
    "C29_vote_persisted",
    "C29_across_restarts"
   ],
   "note": "Single life, persistence in the same or an earlier Ready, and across any sequence of crash/restarts."
  },
  {
   "property": "C30",
   "status": "proved",
   "theorems": [
    "C30_up_to_date"
   ],
   "note": "For every call on every reachable node: a non-rejecting (pre-)vote response is emitted only while handling the request and only if the candidate log is at least as up to date."
  },
  {
   "property": "C31",
   "status": "proved",
   "theorems": [
    "C31_prevote_no_side_effects",
    "C31_precandidate_keeps_term"
   ],
   "note": ""
  },
  {
   "property": "C32",
   "status": "proved",
   "theorems": [
    "C32_lease_state",
    "C32_leader_lease"
   ],
   "note": "Leader-lease: after hearing from a leader, fewer than election_tick ticks, no vote request changes term/vote or is answered."
  },
  {
   "property": "C33",
   "status": "proved",
   "theorems": [
    "C33_leader_append_only"
   ],
   "note": "For every reachable node, every call sequence: two moments at which the node leads the same term; entries kept (unless compacted), new ones have that term."
  },
  {
   "property": "C34",
   "status": "proved",
   "theorems": [
    "C34_commit_rule"
   ],
   "note": "Every reachable node, every call that moves a leader's commit index: the entry is of the leader's term and majorities of both halves of the configuration acknowledged it (or are the leader) by MsgAppResp of that term delivered in this node's history."
  },
  {
   "property": "C35",
   "status": "proved",
   "theorems": [
    "C35_one_change_in_flight",
    "C35_accepted"
   ],
   "note": "For every reachable node: of two membership changes in a leader's log, the later proposed in this reign, the earlier is applied (C35_one_change_in_flight); an accepted change is kept only if every earlier one is applied and it fits the joint state (C35_accepted)."
  },
  {
   "property": "C36",
   "status": "proved",
   "theorems": [
    "C36_tracked_size",
    "C36_refusal",
    "C36_exact"
   ],
   "note": "Tracked size within the limit up to the excess of one proposal admitted when nothing was tracked; never above the real unapplied payload; refusal reasons; exact refusal condition."
  },
  {
   "property": "C37",
   "status": "partial",
   "theorems": [
    "C37_proposals_partial",
    "C37_dropped_changes_nothing_refuted"
   ],
   "note": "Proved: acceptance means appended or forwarded, refusal reports EDropped and leaves the node equal up to the pending-change mark. Refuted: that mark is observable (a retried membership change is silently blanked)."
  },
  {
   "property": "C38",
   "status": "proved",
   "theorems": [
    "C38_heartbeat_commit"
   ],
   "note": "Every heartbeat emitted by a reachable node; acknowledgement is an accepting MsgAppResp delivered earlier in the same term."
  },
  {
   "property": "C39",
   "status": "proved",
   "theorems": [
    "C39_safe_read_index"
   ],
   "note": "One node, any calls (including configuration changes and any interleaving of GetReady/Advance/storage), RoSafe. Order of answers within the queue is C40; duplicates and reused contexts matter only cluster-wide (C56)."
  },
  {
   "property": "C40",
   "status": "proved",
   "theorems": [
    "C40_read_only_queue",
    "C40_advance_prefix",
    "C40_duplicate_ignored"
   ],
   "note": "Refinement of the abstract queue for every call sequence."
  },
  {
   "property": "C41",
   "status": "proved",
   "theorems": [
    "C41_check_quorum"
   ],
   "note": ""
  },
  {
   "property": "C42",
   "status": "proved",
   "theorems": [
    "C42_timeout_range",
    "C42_campaign_exactly_at_timeout",
    "C42_non_promotable_never_campaigns",
    "C42_fresh_node",
    "C42_campaign_effect"
   ],
   "note": ""
  },
  {
   "property": "C43",
   "status": "proved",
   "theorems": [
    "C43_has_ready",
    "C43_must_sync"
   ],
   "note": "Every reachable node."
  },
  {
   "property": "C44",
   "status": "proved",
   "theorems": [
    "C44_pending_is_sent",
    "C44_stamped"
   ],
   "note": "Sender, term and term bound of every message any call on any reachable node adds to the outbox. Requests forwarded to the leader keep their origin as sender."
  },
  {
   "property": "C45",
   "status": "proved",
   "theorems": [
    "C45_window",
    "C45_paused_silent",
    "C45_append_content",
    "C45_pipelined",
    "C45_unacked"
   ],
   "note": "Window bound, silence towards paused followers, contents of append messages, pipelining per call, and the bound on unacknowledged appends over whole runs in which the follower keeps replicating. The literal bound max_inflight is exceeded by one per heartbeat response (C45_example_beats), which the statement says."
  },
  {
   "property": "C46",
   "status": "proved",
   "theorems": [
    "C46_snapshot"
   ],
   "note": "Snapshot installation through RawNode::Step(MsgSnap): for every reachable node that listens (current-or-higher term, not a leader of it) the snapshot is installed iff it is ahead of commit, contains the node, and does not match the log; otherwise the log is kept (commit may jump); the reply carries the resulting index. Creation via RawNode::New (not Start)."
  },
  {
   "property": "C47",
   "status": "proved",
   "theorems": [
    "C47_step_filter",
    "C47_step_passes"
   ],
   "note": "Every node state and message, reachable or not."
  },
  {
   "property": "C48",
   "status": "proved",
   "theorems": [
    "C48_validate",
    "C48_invalid_aborts"
   ],
   "note": "Every configuration; invalid ones abort (the library's Fatal)."
  },
  {
   "property": "C49",
   "status": "partial",
   "theorems": [
    "C49_bootstrap",
    "C49_no_peers",
    "C49_nonempty_storage_refuted"
   ],
   "note": "Proved for empty storages and for the empty peer list; the documented error for a non-empty storage is refuted by a concrete run (the code has no such check)."
  },
  {
   "property": "C50",
   "status": "proved",
   "theorems": [
    "C50_restart"
   ],
   "note": "Every good storage whose ConfState is valid and duplicate-free."
  },
  {
   "property": "C51",
   "status": "proved",
   "theorems": [
    "C51_proposals_dropped",
    "C51_timeout_now",
    "C51_aborted"
   ],
   "note": "Proposals refused unchanged while a transfer is pending; MsgTimeoutNow only from a leader to its transferee when Status shows it fully caught up; transfer forgotten (or leadership lost) after an election timeout of ticks with no new request. Vote requests forged with the leader's own id are excluded (they reset the clock)."
  },
  {
   "property": "C52",
   "status": "proved",
   "theorems": [
    "C52_election_safety"
   ],
   "note": "Covers two leaders of one term at the same or different times. Any number of nodes; the network may lose, delay, duplicate and reorder every message; crashes after any call lose everything but the storage; voters fixed (any conf change may be proposed; a node may apply any conf change that leaves its voters alone, i.e. add, remove or re-add learners, at any time and independently of the others), all nodes start from a common snapshot position with an empty log tail; each Ready is handled as one step (persist, then release messages)."
  },
  {
   "property": "C53",
   "status": "proved",
   "theorems": [
    "C53_log_matching"
   ],
   "note": "Any number of nodes; the network may lose, delay, duplicate and reorder every message; crashes after any call lose everything but the storage; voters fixed (any conf change may be proposed; a node may apply any conf change that leaves its voters alone, i.e. add, remove or re-add learners, at any time and independently of the others), all nodes start from a common snapshot position with an empty log tail; each Ready is handled as one step (persist, then release messages)."
  },
  {
   "property": "C54",
   "status": "proved",
   "theorems": [
    "C54_leader_completeness",
    "C54_delivered_never_lost"
   ],
   "note": "In-state version for the in-memory commit index, and over time for delivered entries. Any number of nodes; the network may lose, delay, duplicate and reorder every message; crashes after any call lose everything but the storage; voters fixed (any conf change may be proposed; a node may apply any conf change that leaves its voters alone, i.e. add, remove or re-add learners, at any time and independently of the others), all nodes start from a common snapshot position with an empty log tail; each Ready is handled as one step (persist, then release messages)."
  },
  {
   "property": "C55",
   "status": "proved",
   "theorems": [
    "C55_state_machine_safety"
   ],
   "note": "Any number of nodes; the network may lose, delay, duplicate and reorder every message; crashes after any call lose everything but the storage; voters fixed (any conf change may be proposed; a node may apply any conf change that leaves its voters alone, i.e. add, remove or re-add learners, at any time and independently of the others), all nodes start from a common snapshot position with an empty log tail; each Ready is handled as one step (persist, then release messages)."
  },
  {
   "property": "C56",
   "status": "proved",
   "theorems": [
    "C56_linearizable_reads"
   ],
   "note": "proved for every cluster execution with fixed voters and changing learners under the stated proviso; C56_repeated_request shows a concrete stale read when a duplicate of an answered MsgReadIndex and of its heartbeat response reach a deposed leader"
  },
  {
   "property": "C57",
   "status": "proved",
   "theorems": [
    "C57_no_abort"
   ],
   "note": "proved for every reachable state of the cluster model, for every call, delivery and restart allowed by act_ok, including ApplyConfChange of learner changes; C57_dup_conf_aborts and C57_removed_leader_null_progress show what happens outside (repeated ids in a ConfState; applying the removal of the leader and an auto-leave joint change in one Ready)"
  },
  {
   "property": "C58",
   "status": "proved",
   "theorems": [
    "C58_heartbeat_answered",
    "C58_append_answered",
    "C58_stale_leader_told"
   ],
   "note": "proved for every node reached by any sequence of calls"
  },
  {
   "property": "C59",
   "status": "proved",
   "theorems": [
    "C59_vote_answered",
    "C59_pre_vote_answered",
    "C59_old_candidate_ignored"
   ],
   "note": "proved for every node reached by any sequence of calls"
  },
  {
   "property": "C60",
   "status": "proved",
   "theorems": [
    "C60_asks_every_voter",
    "C60_outcome",
    "C60_campaign"
   ],
   "note": "C60_asks_every_voter (the requests of a campaign), C60_outcome (the role after any history of answers is the one the tally gives), C60_campaign (what Campaign() does). Examples: an election won, one lost, and a pre-election leading to a real one."
  },
  {
   "property": "C61",
   "status": "proved",
   "theorems": [
    "C61_period",
    "C61_every_period"
   ],
   "note": "C61_period (which ticks send heartbeats, to whom and with which content), C61_every_period (no member is left without a heartbeat for a whole period)."
  },
  {
   "property": "C62",
   "status": "proved",
   "theorems": [
    "C62_quorum_committed",
    "C62_ack_counts",
    "C62_acked_committed"
   ],
   "note": "C62_quorum_committed (invariant of resting leaders, configuration changes included), C62_ack_counts (match index monotone, an acknowledgement counts at once), C62_acked_committed (history form)."
  },
  {
   "property": "C63",
   "status": "proved",
   "theorems": [
    "C63_beat_resp_resumes",
    "C63_reject_retries",
    "C63_ack_continues",
    "C63_ack_resumes",
    "C63_unreachable_probes",
    "C63_snapshot_report"
   ],
   "note": "On nodes reachable by disciplined use (GetReady/persist/Advance as one iteration). The heartbeat response of a member with a full window frees one slot only."
  },
  {
   "property": "C64",
   "status": "proved",
   "theorems": [
    "C64_broadcast",
    "C64_new_leader",
    "C64_new_member"
   ],
   "note": "Not claimed (and not true of the code): the empty entry that ends a joint configuration, appended in Advance, and the first entry of a single-voter leader are not broadcast by that call; learners of such a leader get them with the next message."
  },
  {
   "property": "C65",
   "status": "proved",
   "theorems": [
    "C65_taken_up",
    "C65_answered",
    "C65_postponed",
    "C65_alone",
    "C65_forwarded",
    "C65_delivered"
   ],
   "note": "Contexts must be non-empty and not used before (an empty context is never confirmed); at least one voter other than the leader must acknowledge even if the leader alone is a quorum of a joint configuration; a commit that advances through ApplyConfChange does not release waiting requests."
  },
  {
   "property": "C66",
   "status": "proved",
   "theorems": [
    "C66_old_ack_silent",
    "C66_old_rejection_silent",
    "C66_beat_resp_silent",
    "C66_idle_run"
   ],
   "note": "C66_idle_run by induction over the run; silent-answer theorems are per call. A rejection is covered for members in probe or replicate state and indexes below 2^64-1."
  },
  {
   "property": "C67",
   "status": "proved",
   "theorems": [
    "C67_never_idle",
    "C67_leave_in_flight",
    "C67_iteration"
   ],
   "note": "The documented loop (Sys_Loop.v). Hypothesis: no call reported a dropped proposal (a dropped membership change still moves the pending index past the log). With ApplyConfChange after Advance the property fails: C67_order_matters(_later)."
  },
  {
   "property": "C68",
   "status": "proved",
   "theorems": [
    "C68_entries_first",
    "C68_snapshot_without_hardstate",
    "C68_hardstate_without_snapshot",
    "C68_no_safe_order",
    "C68_documented_order",
    "C68_hardstate_first_unsafe",
    "C68_hardstate_before_snapshot_unsafe"
   ],
   "note": "The disk is the modelled MemoryStorage; each write is atomic (one call on the storage), a crash falls between two writes. C68_hardstate_first_unsafe and C68_hardstate_before_snapshot_unsafe are proved counterexamples to the other orders."
  },
  {
   "property": "C69",
   "status": "proved",
   "theorems": [
    "C69_request",
    "C69_caught_up",
    "C69_timeout_now",
    "C69_lease_bypassed",
    "C69_reconfigured",
    "C69_patience"
   ],
   "note": "C69_request, C69_caught_up, C69_timeout_now, C69_lease_bypassed, C69_reconfigured; complements C51 (safety of transfers)."
  },
  {
   "property": "C70",
   "status": "proved",
   "theorems": [
    "C70_no_campaign",
    "C70_check_not_early",
    "C70_check_due"
   ],
   "note": "Unlike C32, C41 and C42 the hypotheses do not mention the election clock: they speak of the event seen and of the ticks since. A transfer request restarts the leader's clock (C69), so repeated requests postpone the quorum check: the exact statement excludes them."
  },
  {
   "property": "C71",
   "status": "proved",
   "theorems": [
    "C71_replicas_agree",
    "C71_replay",
    "C71_one_history",
    "C71_snapshot"
   ],
   "note": "The application is a parameter of the theorem. Snapshots are values: the aliasing of C11 (the storage hands out and mutates one shared snapshot object) is outside this model. Voters are fixed as in C52-C55."
  },
  {
   "property": "C72",
   "status": "proved",
   "theorems": [
    "C72_linearizable_reads"
   ],
   "note": "Composes C56 (the read index covers everything delivered before) with C71 (one history of states). The hypothesis on repeated requests is needed: C56_repeated_request."
  },
  {
   "property": "C73",
   "status": "proved",
   "theorems": [
    "C73_refused_probe",
    "C73_one_refusal_per_term",
    "C73_refusals_bounded",
    "C73_found",
    "C73_terms_ordered"
   ],
   "note": "Node-level theorems for one leader and one follower exchanging probe and refusal; the ordered-terms hypothesis is discharged for reachable clusters by C73_terms_ordered. A probe that needs a snapshot (index compacted at the leader) ends the row of append probes."
  },
  {
   "property": "C74",
   "status": "proved",
   "theorems": [
    "C74_ends",
    "C74_caught_up",
    "C74_truthful",
    "C74_whole_log",
    "C74_snapshot",
    "C74_cluster"
   ],
   "note": "C74_ends is stated as accessibility: no infinite exchange starts from such a state. C74_caught_up: every exchange that has nothing left on the way has caught the member up. C74_cluster discharges the assumptions in every reachable cluster (C73_terms_ordered, C74_truthful, C74_snapshot, C75_made); C74_whole_log gives the entry-by-entry conclusion there. The hypothesis that the leader has not compacted its log past the snapshot it has is needed: C74_stale_snapshot runs a case where the member, sent an older snapshot twice, stays behind. C74_example runs a leader and a member with different logs through two refusals to the end; C74_example_snapshot runs one through a refusal, a snapshot and the entries after it."
  },
  {
   "property": "C75",
   "status": "proved",
   "theorems": [
    "C75_message_ok",
    "C75_made"
   ],
   "note": "The conditions are `made` (Spec_Flow: a RawNode from a consistent storage, run by valid operations) and `nop_ok` (Sys_Node). C75_example: the node leading after an election, a commit, a crash and a second election."
  },
  {
   "property": "C76",
   "status": "proved",
   "theorems": [
    "C76_order",
    "C76_documented",
    "C76_documented_steps",
    "C76_safe"
   ],
   "note": "C76_documented: every state of Sys_Doc's cluster is `reachable` (Sys_Cluster), so C52-C56 and C72-C75 apply to it; C76_safe spells out two of them. C76_order_matters: with an automatic leave pending the orders differ (applied after Advance, the leaving entry is never appended), which is why the theorem excludes it. Examples: C76_example (three nodes add a learner in the loop), C76_example_order."
  },
  {
   "property": "C77",
   "status": "proved",
   "theorems": [
    "C77_no_abort",
    "C77_converse"
   ],
   "note": "C77_no_abort extends C57_no_abort with the iteration DIter of Spec_DocTotal.v; C77_converse is the converse of C76_order. Examples: C77_example (three nodes add a learner in the loop; further iterations are allowed there), C77_converse_example."
  },
  {
   "property": "C78",
   "status": "proved",
   "theorems": [
    "C78_one_round_trip"
   ],
   "note": "C78_one_round_trip composes both sides (answered_by of Spec_RoundTrip.v: the voter's Step on the request, the candidate's Step on the answer). That the answers can be handed over without an abort is a hypothesis here (n_run = Ok); C57/C77 show it for clusters. Example: C78_example (node 1 of three, node 2 answers)."
  }
 ]
}