{"id": "C01", "title": "Commit index of a majority config is exact", "statement": "MajorityConfig::CommittedIndex returns the largest index i such that strictly more than half of the voters have acknowledged an index >= i (a voter that has not reported counts as 0); for the empty config it returns UINT64_MAX.", "quantifier": "every voter set, every acknowledgement map", "why_tests_cant": "Voter sets and acked indexes are unbounded; the n<=7 stack path / n>7 heap path, the sort and the position arithmetic must be right for every n and every permutation of acks.", "anchors": ["src/quorum/majority.cc: MajorityConfig::CommittedIndex, insertionSort", "src/quorum/quorum.h: AckedIndexer"]}
{"id": "C02", "title": "Joint commit index", "statement": "JointConfig::CommittedIndex is the largest index acknowledged by a majority of the incoming voters and also by a majority of the outgoing voters; with an empty half it equals the commit index of the other half.", "quantifier": "every pair of voter sets, every acknowledgement map", "why_tests_cant": "Same unbounded domain as C01 on both halves, including overlapping and empty halves.", "anchors": ["src/quorum/joint.cc: JointConfig::CommittedIndex"]}
{"id": "C03", "title": "Vote result is exact", "statement": "VoteResult (majority and joint) returns Won iff every non-empty half has a majority of yes votes, Lost iff some half can no longer reach a majority of yes votes whatever the missing voters answer, and Pending otherwise. In particular Won and Lost are stable: no further votes from missing voters can change them.", "quantifier": "every voter set pair, every partial vote map, every completion of it", "why_tests_cant": "Claims about all future votes; exponential in the number of voters.", "anchors": ["src/quorum/majority.cc: MajorityConfig::VoteResult", "src/quorum/joint.cc: JointConfig::VoteResult"]}
{"id": "C04", "title": "Quorums intersect", "statement": "Two vote maps that both win under the same (joint) configuration have a voter that said yes in both; an index committed under a configuration is acknowledged by at least one yes-voter of any election won under it.", "quantifier": "every (joint) configuration with a non-empty half, every pair of winning vote maps / ack maps", "why_tests_cant": "Safety of Raft rests on this for all sizes; tests enumerate only tiny configs.", "anchors": ["src/quorum/majority.cc", "src/quorum/joint.cc"]}
{"id": "C05", "title": "Inflights is a bounded FIFO window", "statement": "From an empty Inflights of capacity n>0, any sequence of Add (when not Full), FreeLE, FreeFirstOne (when non-empty) and Reset behaves like a bounded queue: Count never exceeds n, Full iff n messages are in flight, FreeLE(to) drops exactly the longest prefix of indexes <= to (in insertion order), and no buffer access is ever out of range; Add when Full is a fatal error.", "quantifier": "every capacity, every operation sequence, every index value", "why_tests_cant": "The ring buffer wraps, grows lazily and rotates; only an invariant covers all start/count/buffer-size combinations.", "anchors": ["src/tracker/inflights.h", "src/tracker/inflights.cc"]}
{"id": "C06", "title": "Inflights::FreeFirstOne on an empty window", "statement": "Documented: 'FreeFirstOne releases the first inflight. This is a no-op if nothing is inflight.'", "quantifier": "every Inflights state with nothing in flight", "why_tests_cant": "The failing state is memory-unsafe (index into an empty vector), which a test may silently survive.", "anchors": ["src/tracker/inflights.h: FreeFirstOne", "src/tracker/inflights.cc: FreeFirstOne"]}
{"id": "C07", "title": "Follower progress is monotone and ignores stale acks", "statement": "For every sequence of progress events (MaybeUpdate, MaybeDecrTo, OptimisticUpdate, BecomeProbe/Replicate/Snapshot), the acknowledged index never decreases, and with Next>Match initially (and optimistic updates not below Match) Next stays greater than Match; a MaybeUpdate with an index at or below Match reports stale and leaves Match unchanged.", "quantifier": "every progress state, every event sequence", "why_tests_cant": "Orders of duplicated, reordered acks/rejections are unbounded.", "anchors": ["src/tracker/progress.cc"]}
{"id": "C08", "title": "Rejections: stale ignored, genuine ones make progress", "statement": "MaybeDecrTo(rejected, hint) returns false without changing anything when the rejection is stale (Replicate: rejected <= Match; otherwise rejected != Next-1); when genuine, Next strictly decreases unless it was already 1 (non-Replicate) or becomes Match+1 (Replicate), stays >= 1, and probing is un-paused.", "quantifier": "every progress state, rejected index and hint", "why_tests_cant": "All numeric combinations including boundary 0/1 and the unsigned wrap of Next-1.", "anchors": ["src/tracker/progress.cc: MaybeDecrTo"]}
{"id": "C09", "title": "First vote counts; tally agrees with recorded votes", "statement": "RecordVote keeps the first vote of every peer for the election; TallyVotes reports granted/rejected counts over tracked non-learners and the exact VoteResult of the recorded votes; a duplicated or contradicting later vote never changes the outcome.", "quantifier": "every tracker, every sequence of RecordVote calls", "why_tests_cant": "Duplicated/reordered vote responses are unbounded.", "anchors": ["src/tracker/tracker.cc: RecordVote, TallyVotes"]}
{"id": "C10", "title": "MemoryStorage behaves as one contiguous log", "statement": "After any sequence of SetHardState, ApplySnapshot, CreateSnapshot, Compact and Append calls that do not fail fatally, MemoryStorage is a contiguous log: Entries(lo,hi) returns exactly the stored entries with indexes lo..hi-1 in order (cut by max size but never to nothing), Term(i) agrees with it, FirstIndex = compaction point+1, LastIndex = last stored index; requests below FirstIndex give Compacted, above LastIndex give Unavailable/fatal; Append replaces exactly the suffix from its first new index and never the compacted prefix.", "quantifier": "every operation sequence, every query", "why_tests_cant": "Truncate/overlap/compaction offsets arithmetic over unbounded logs.", "anchors": ["src/storage.h", "src/storage.cc: MemoryStorage"]}
{"id": "C11", "title": "A snapshot handed out by the storage never changes", "statement": "A snapshot returned by Storage::GetSnapshot / CreateSnapshot (and e.g. put into an outgoing message) keeps its index, term and data whatever is done to the storage afterwards.", "quantifier": "every storage history after the snapshot was returned", "why_tests_cant": "Requires every later history; aliasing through shared_ptr.", "anchors": ["src/storage.cc: MemoryStorage::CreateSnapshot, GetSnapshot, ApplySnapshot"]}
{"id": "C12", "title": "Size limiting", "statement": "LimitSize(entries, max) returns the longest prefix whose total encoded size is <= max, but always at least the first entry if there is one.", "quantifier": "every entry list and limit", "why_tests_cant": "All lists/limits, boundary at equality and zero.", "anchors": ["src/util.cc: Util::LimitSize"]}
{"id": "C13", "title": "Unstable + storage form one log", "statement": "In every well-formed state RaftLog's FirstIndex, LastIndex, Term, Slice, Entries agree with a single contiguous logical log obtained by overlaying the unstable entries/snapshot on the storage: Term(i) of every index in [dummy, last] and Slice(lo,hi,max) = the logical entries lo..hi-1 (limited by size), across the storage/unstable boundary.", "quantifier": "every log state (any offset, overlap, pending snapshot), every range and size limit", "why_tests_cant": "Boundary cases between stable and unstable parts, partial storage reads.", "anchors": ["src/log.cc: RaftLog::Slice, Term, LastIndex, FirstIndex", "src/log_unstable.cc"]}
{"id": "C14", "title": "TruncateAndAppend / StableTo preserve the logical log", "statement": "Unstable::TruncateAndAppend(ents) makes the logical log = old log before ents[0].index ++ ents; StableTo(i,t) and StableSnapTo only move the boundary between unstable and stable and never lose an entry that is not the acknowledged one (a stale acknowledgement whose term mismatches is ignored).", "quantifier": "every unstable state, every entry batch, every acknowledgement", "why_tests_cant": "Three overlap cases, stale acks after truncation, all offsets.", "anchors": ["src/log_unstable.cc: TruncateAndAppend, StableTo, StableSnapTo"]}
{"id": "C15", "title": "MaybeAppend is Raft's AppendEntries rule", "statement": "MaybeAppend(index,logTerm,committed,ents) succeeds iff the log has an entry (or dummy) at index with that term; then the resulting log contains the leader's entries at index+1.., entries already present are kept (nothing after the last matching new entry is truncated unless a conflict is found, so stale/duplicate appends are no-ops), no entry at or below commit is ever changed (attempting to is fatal), and commit becomes max(commit, min(committed, index+len)). On failure nothing changes.", "quantifier": "every log, every message", "why_tests_cant": "Arbitrary overlap/conflict positions and duplicated, reordered appends.", "anchors": ["src/log.cc: RaftLog::MaybeAppend, FindConflict, Append, CommitTo"]}
{"id": "C16", "title": "committed/applied only move forward and stay ordered", "statement": "On the log API, committed never decreases, applied never decreases, and applied <= committed <= last index always holds; requests that would break this are fatal errors and not silently performed.", "quantifier": "every log API call sequence", "why_tests_cant": "Arbitrary call sequences.", "anchors": ["src/log.cc: CommitTo, AppliedTo, MaybeCommit, Restore"]}
{"id": "C17", "title": "Conflict hint search", "statement": "FindConflictByTerm(index, term) returns the largest index <= the given index whose term is <= the given term (or the first index whose term is unknown/compacted), terminates, and returns the index unchanged when beyond the end of the log.", "quantifier": "every log with non-decreasing terms, every (index, term)", "why_tests_cant": "Backward scan over unbounded logs; termination.", "anchors": ["src/log.cc: RaftLog::FindConflictByTerm"]}
{"id": "C18", "title": "Up-to-date comparison is a total preorder used for votes", "statement": "IsUpToDate(lasti, term) is true iff (term, lasti) is lexicographically >= the local (last term, last index).", "quantifier": "every log and candidate position", "why_tests_cant": "All values.", "anchors": ["src/log.cc: RaftLog::IsUpToData"]}
{"id": "C19", "title": "Committed entries are handed to the application exactly once, in order, without gaps", "statement": "Across any history of Ready handling (GetReady, persist, Advance), interleaved with any Step/Tick/Propose/Compact/CreateSnapshot calls, the concatenation of the committed entries and snapshots returned by Ready is gap-free and duplicate-free: each batch starts at the index right after the previous one (or the last snapshot's index), and entries are those of the log.", "quantifier": "every history of calls, every size limit", "why_tests_cant": "Unbounded histories and interleavings of truncation, snapshots, pagination.", "anchors": ["src/log.cc: NextEnts, HasNextEnts", "src/rawnode.cc: GetReady, Advance, AcceptReady"]}
{"id": "C20", "title": "Configuration changes keep the configuration well formed, all-or-nothing", "statement": "Changer::Simple, EnterJoint and LeaveJoint either return an error or a (config, progress) pair satisfying the documented invariants (voters and learners disjoint, learners_next only of outgoing voters and not yet learners, every member tracked, every tracked peer a member, non-joint implies no outgoing/learners_next/auto_leave, at least one voter); the input configuration is never modified.", "quantifier": "every well-formed configuration, every list of changes", "why_tests_cant": "Arbitrary change lists (duplicates, contradictory changes, zero ids).", "anchors": ["src/confchange/confchange.cc"]}
{"id": "C21", "title": "A simple change keeps quorums overlapping", "statement": "When Changer::Simple succeeds, the new voter set differs from the old one by at most one node and hence every majority of the old config intersects every majority of the new one; it never operates on a joint configuration.", "quantifier": "every configuration, every change list", "why_tests_cant": "All sets.", "anchors": ["src/confchange/confchange.cc: Simple, Symdiff"]}
{"id": "C22", "title": "Joint transition", "statement": "EnterJoint keeps the old voters as outgoing half (so old and new quorums both needed) and applies the changes to the incoming half; LeaveJoint then yields exactly the incoming voters, with demoted voters turned into learners; EnterJoint of a joint config, LeaveJoint of a non-joint config and zero voters give errors.", "quantifier": "every configuration and change list", "why_tests_cant": "All sets and change sequences.", "anchors": ["src/confchange/confchange.cc: EnterJoint, LeaveJoint"]}
{"id": "C23", "title": "Restoring a ConfState reproduces the configuration", "statement": "For every ConfState describing a valid configuration, confchange::Restore on an empty tracker succeeds and the resulting tracker reports an equivalent ConfState (so a snapshot or restart reproduces the membership exactly, joint states included).", "quantifier": "every well-formed ConfState", "why_tests_cant": "Restoration replays a synthetic list of changes; all sets must round-trip.", "anchors": ["src/confchange/restore.cc: Restore, ToConfChangeSingle", "src/tracker/tracker.cc: ConfState"]}
{"id": "C24", "title": "ConfState comparison is set equality", "statement": "operator== on ConfState is true iff voters, learners, outgoing voters and next learners are equal as collections irrespective of order (multiplicity respected) and auto_leave is equal.", "quantifier": "every pair of ConfStates", "why_tests_cant": "All permutations.", "anchors": ["src/raftpb/confstate.cc"]}
{"id": "C25", "title": "Conf change string round trip", "statement": "ConfChangesFromString(ConfChangesToString(l)) = l for every list of changes with known change types.", "quantifier": "every list", "why_tests_cant": "Codec over unbounded ids and lists.", "anchors": ["src/raftpb/confchange.cc: ConfChangesToString, ConfChangesFromString"]}
{"id": "C26", "title": "Malformed conf change strings are rejected", "statement": "ConfChangesFromString reports failure for any token that is not v|l|r|u followed by a decimal number.", "quantifier": "every string", "why_tests_cant": "All strings.", "anchors": ["src/raftpb/confchange.cc: ConfChangesFromString"]}
{"id": "C27", "title": "V1/V2 conf change classification", "statement": "EnterJoint on a V2 change says 'use joint consensus' iff the transition is explicit/implicit or there is more than one change, with auto-leave exactly for auto/implicit transitions; LeaveJoint iff the change is empty (context ignored); V1 changes converted by AsV2 are simple changes of the same operation.", "quantifier": "every conf change", "why_tests_cant": "All field combinations/lists.", "anchors": ["src/raftpb/confchange.cc: EnterJoint, LeaveJoint, ConfChangeI::AsV2"]}
{"id": "C28", "title": "Term never decreases", "statement": "Whatever sequence of well-formed Steps (peer messages carrying a non-zero term), local messages, Ticks, Proposes and Ready/Advance happens, a node's term never decreases; its vote changes only together with a term increase or from none to a candidate.", "quantifier": "every node state reachable, every call sequence", "why_tests_cant": "Unbounded interleavings.", "anchors": ["src/raft.cc: Raft::Step, BecomeFollower, BecomeCandidate, Reset"]}
{"id": "C29", "title": "At most one vote per term, persisted with the term", "statement": "In one term a node grants its (real) vote to at most one candidate, and a granted MsgVoteResp is only produced in a state where the node's HardState carries that term and that vote; so any persisted HardState with the Ready that sends the response records it.", "quantifier": "every reachable state and message sequence", "why_tests_cant": "Unbounded interleavings, duplicates.", "anchors": ["src/raft.cc: Raft::Step (MsgVote), Send; src/rawnode.cc: GetReady"]}
{"id": "C30", "title": "Votes only for up-to-date candidates", "statement": "A node answers MsgVote/MsgPreVote positively only if the candidate's (last term, last index) is at least as up to date as its own log.", "quantifier": "every state and message", "why_tests_cant": "All logs and messages.", "anchors": ["src/raft.cc: Raft::Step"]}
{"id": "C31", "title": "PreVote has no side effects on term and vote", "statement": "Handling MsgPreVote never changes a node's term, vote, role or leader knowledge, and becoming a pre-candidate never changes term or vote.", "quantifier": "every state and message", "why_tests_cant": "All states.", "anchors": ["src/raft.cc: Raft::Step, BecomePreCandidate"]}
{"id": "C32", "title": "Leader lease protection", "statement": "With CheckQuorum enabled, a node that heard from a leader within an election timeout ignores MsgVote/MsgPreVote of higher terms entirely (no state change except none, no message) unless it is a leadership transfer.", "quantifier": "every state and message", "why_tests_cant": "All states and messages.", "anchors": ["src/raft.cc: Raft::Step (inLease)"]}
{"id": "C33", "title": "A leader never overwrites or deletes its own entries", "statement": "While a node stays leader in the same term, its logical log only grows by appending.", "quantifier": "every sequence of calls during the leadership", "why_tests_cant": "Unbounded interleavings.", "anchors": ["src/raft.cc: StepLeader, AppendEntry"]}
{"id": "C34", "title": "A leader only commits entries of its own term by counting acks of a quorum", "statement": "When a leader advances its commit index to i through acknowledgements, the entry at i has the leader's current term and a quorum (both halves when joint) of voters has acknowledged at least i.", "quantifier": "every leader state", "why_tests_cant": "All configurations and acknowledgement histories.", "anchors": ["src/raft.cc: MaybeCommit", "src/log.cc: MaybeCommit", "src/tracker/tracker.cc: Committed"]}
{"id": "C35", "title": "At most one unapplied membership change", "statement": "A leader accepts a configuration change proposal only if no earlier one may still be unapplied (pending index <= applied) and it fits the joint state; otherwise it is replaced by an empty normal entry; hence between applied and the end of a leader's log there is at most one conf change proposed by it.", "quantifier": "every proposal sequence", "why_tests_cant": "Unbounded sequences.", "anchors": ["src/raft.cc: StepLeader (MsgProp)"]}
{"id": "C36", "title": "Uncommitted size limit", "statement": "The tracked uncommitted size never exceeds max(limit, one over-sized proposal), a proposal is refused only if the limit is exceeded and something is already uncommitted and the proposal is non-empty, and the refused proposal leaves the log unchanged.", "quantifier": "every proposal/apply sequence", "why_tests_cant": "Unbounded sequences.", "anchors": ["src/raft.cc: IncreaseUncommittedSize, ReduceUncommittedSize, AppendEntry"]}
{"id": "C37", "title": "Proposals are never silently lost on acceptance", "statement": "Propose returns OK only if the node is leader and appended the entries in order to its log with its term, or it is a follower that enqueued a MsgProp with exactly these entries to its known leader; otherwise it returns an error (dropped) and changes nothing.", "quantifier": "every state and proposal", "why_tests_cant": "All states.", "anchors": ["src/raft.cc: StepLeader, StepFollower, StepCandidate (MsgProp)", "src/rawnode.cc: Propose"]}
{"id": "C38", "title": "Heartbeats never commit beyond what the follower acknowledged", "statement": "Every MsgHeartbeat a leader emits carries commit <= min(acknowledged index of the receiver, leader's commit).", "quantifier": "every leader state", "why_tests_cant": "All progress maps.", "anchors": ["src/raft.cc: SendHeartbeat, BcastHeartbeatWithCtx"]}
{"id": "C39", "title": "Read index requests", "statement": "In safe mode a leader that is not alone in its configuration answers a ReadIndex with the commit index it had when it took the request up (on arrival, or, if it had then committed nothing of its own term, on the acknowledgement by which it did), at a moment when the entry at that index was of its own term, and only after a quorum of its configuration acknowledged, after that moment, heartbeats of its term carrying the context of this request or of a later one. A leader alone in its configuration answers with its current commit index.", "quantifier": "every created node, every sequence of calls, every answer", "why_tests_cant": "Unbounded queues and interleavings.", "anchors": ["src/read_only.cc", "src/raft.cc: StepLeader (MsgReadIndex, MsgHeartbeatResp)"]}
{"id": "C40", "title": "ReadOnly queue", "statement": "ReadOnly's queue and pending map stay in bijection, a duplicate context is ignored, Advance(ctx) returns exactly the requests up to and including ctx in arrival order and removes exactly these.", "quantifier": "every sequence of AddRequest/RecvAck/Advance", "why_tests_cant": "Unbounded sequences.", "anchors": ["src/read_only.cc"]}
{"id": "C41", "title": "CheckQuorum", "statement": "With CheckQuorum, a leader that did not hear from a quorum during an election timeout steps down to follower in the same term; otherwise it stays leader and the activity flags are reset.", "quantifier": "every leader state", "why_tests_cant": "All configurations/activity patterns.", "anchors": ["src/raft.cc: StepLeader (MsgCheckQuorum), TickHeartbeat", "src/tracker/tracker.cc: QuorumActive"]}
{"id": "C42", "title": "Election timeout", "statement": "The randomized election timeout always lies in [election_tick, 2*election_tick-1]; a promotable follower that hears nothing starts a campaign after exactly that many ticks, and never earlier; a non-promotable node never does.", "quantifier": "every state, random source and number of ticks", "why_tests_cant": "All random values and tick counts.", "anchors": ["src/raft.cc: ResetRandomizedElectionTimeout, TickElection, Promotable, Hup"]}
{"id": "C43", "title": "HasReady agrees with Ready; MustSync", "statement": "HasReady is true iff GetReady would return something non-empty; must_sync is set iff there are new entries or the term or vote changed since the last persisted HardState.", "quantifier": "every node state", "why_tests_cant": "All states.", "anchors": ["src/rawnode.cc: HasReady, GetReady", "src/rawnode.cc: MustSync"]}
{"id": "C44", "title": "Outgoing messages are stamped", "statement": "Every message a node emits carries its own id as sender and a non-zero term, except forwarded proposals, read-index and transfer requests, which keep their original sender (and term 0); (pre)vote messages carry the term of the campaign; no message is emitted with a term above the node's term except pre-vote requests and granted pre-vote responses.", "quantifier": "every call sequence", "why_tests_cant": "All paths through the state machine.", "anchors": ["src/raft.cc: Raft::Send"]}
{"id": "C45", "title": "Flow control", "statement": "While a leader replicates to a follower, of the append messages with entries it sent it at most max_inflight are unacknowledged - plus at most one more for every heartbeat response received from it (the library deliberately frees one slot of a full window then); the reported window never exceeds max_inflight. A paused follower (probe outstanding, window full, or snapshot in progress) is sent neither entries nor snapshots until the leader hears from or about it. Each append message carries consecutive entries of the leader's log, starting where the previous one to that follower ended, with the matching previous term, the leader's commit index, at most max_size bytes (or one entry), and at least one entry if there is any.", "quantifier": "every leader state reachable by any sequence of API calls", "why_tests_cant": "Unbounded.", "anchors": ["src/raft.cc: MaybeSendAppend, SendAppend", "src/tracker/progress.cc: IsPaused"]}
{"id": "C46", "title": "Snapshot installation", "statement": "A follower installs a snapshot only if it is newer than its commit index and contains itself in the configuration; if its log already matches the snapshot's last entry it only fast-forwards the commit index and keeps the log; after installation log, commit and configuration equal the snapshot's, and commit never decreases.", "quantifier": "every state and snapshot", "why_tests_cant": "All logs and snapshots.", "anchors": ["src/raft.cc: Restore, HandleSnapshot", "src/log.cc: Restore"]}
{"id": "C47", "title": "RawNode::Step filters", "statement": "RawNode::Step rejects local message types and responses from unknown peers with an error and leaves the node unchanged.", "quantifier": "every node state and message", "why_tests_cant": "All message types/states.", "anchors": ["src/rawnode.cc: RawNode::Step", "src/util.cc: IsLocalMsg, IsResponseMsg"]}
{"id": "C48", "title": "Configuration validation", "statement": "Raft creation succeeds only for configurations satisfying the documented constraints (id != 0, heartbeat > 0, election > heartbeat, storage present, inflight > 0, lease reads require CheckQuorum).", "quantifier": "every configuration", "why_tests_cant": "All values.", "anchors": ["src/raft.cc: Raft::Config::Validate"]}
{"id": "C49", "title": "Bootstrap", "statement": "Bootstrap on an empty storage creates exactly one conf-change entry per peer, committed, at term 1, making the peers voters; it reports an error for an empty peer list and - as documented - for a non-empty storage.", "quantifier": "every peer list and storage", "why_tests_cant": "All peer lists.", "anchors": ["src/rawnode.cc: RawNode::Bootstrap"]}
{"id": "C50", "title": "Restart restores the durable state", "statement": "Creating a node from a storage with HardState, entries, snapshot and a valid ConfState yields a follower with exactly that term, vote, commit, log and membership.", "quantifier": "every well-formed storage", "why_tests_cant": "All storages.", "anchors": ["src/raft.cc: Raft constructor, LoadState", "src/confchange/restore.cc"]}
{"id": "C51", "title": "Leader transfer", "statement": "While a leadership transfer is pending the leader drops proposals; a MsgTimeoutNow is sent only to the transferee and only when its acknowledged index equals the leader's last index; the transfer is aborted after an election timeout.", "quantifier": "every leader state/call sequence", "why_tests_cant": "Unbounded interleavings.", "anchors": ["src/raft.cc: StepLeader (MsgTransferLeader), TickHeartbeat, AbortLeaderTransfer"]}
{"id": "C52", "title": "Election safety", "statement": "In a cluster of nodes running this code, started from a common snapshot, whose voters stay the same (learners may be added and removed through ApplyConfChange by any node at any time, and the nodes need not agree about them), over a network that may drop, duplicate, delay and reorder messages, with nodes crashing and restarting from what they persisted, at most one node ever is leader in a given term.", "quantifier": "every execution, every cluster size", "why_tests_cant": "All schedules and crash points.", "anchors": ["src/raft.cc", "src/rawnode.cc", "src/quorum/"]}
{"id": "C53", "title": "Log matching", "statement": "In every such execution, if two nodes' logs contain entries with the same index and term, the logs are identical in all entries up to that index.", "quantifier": "every execution", "why_tests_cant": "All schedules and crash points.", "anchors": ["src/raft.cc", "src/log.cc"]}
{"id": "C54", "title": "Leader completeness", "statement": "In every such execution, every entry committed in some term is present in the log of every leader of a later term.", "quantifier": "every execution", "why_tests_cant": "All schedules and crash points.", "anchors": ["src/raft.cc", "src/log.cc"]}
{"id": "C55", "title": "State machine safety", "statement": "In every such execution no two nodes ever hand different entries at the same index to the application, across crashes and restarts.", "quantifier": "every execution", "why_tests_cant": "All schedules and crash points.", "anchors": ["src/raft.cc", "src/log.cc", "src/rawnode.cc"]}
{"id": "C56", "title": "Linearizable reads in a cluster", "statement": "In every execution of a cluster with fixed voters (learners may come and go) whose nodes all use kReadOnlySafe (any elections, crashes, message loss, delay, reordering; duplication of everything except read requests presented to a leader): if no application had called ReadIndex with a context before some moment, every ReadState later handed to any application for that context (on the leader or, for forwarded requests, on the follower) carries an index at least as large as that of every entry that any application of the cluster had been handed as committed before that moment. If a leader is presented the same request twice the guarantee is lost: a deposed leader can then answer with an index below an entry already applied elsewhere.", "quantifier": "every cluster start, every split of every execution into a before and an after, every context, node, entry and read state", "why_tests_cant": "A stale read needs a particular interleaving of an election among other nodes, a request at the deposed leader and old heartbeat responses; tests run a handful of schedules.", "anchors": ["src/raft.cc (StepLeader MsgReadIndex, MsgHeartbeatResp; StepFollower MsgReadIndex, MsgReadIndexResp)", "src/read_only.cc", "src/rawnode.cc ReadIndex"]}
{"id": "C57", "title": "No call aborts", "statement": "In a cluster of nodes with fixed voters started from a common snapshot whose ConfState has no repeated ids, none of the following ever aborts the process, dereferences a null pointer or reaches undefined behaviour: any application call (Tick, Campaign, Propose, ProposeConfChange of an encodable change, ApplyConfChange of a single change that leaves the voters alone, such as adding or removing a learner, on a node that has committed something, TransferLeader, ReadIndex, ReportUnreachable, ReportSnapshot, handling a Ready, compaction up to the applied index once a snapshot exists, snapshot creation at an applied index that was not compacted away), the delivery of any message any node of the cluster ever sent to the node it is addressed to (in any order, any number of times, at any later moment), and restarting any node from its storage with any valid Config.", "quantifier": "every reachable cluster state, every such call, delivery or restart", "why_tests_cant": "The library aborts on dozens of internal checks; whether one can be reached depends on the whole history of the cluster.", "anchors": ["src/raft.cc:Step,Send,MaybeSendAppend,BecomeLeader,AppendEntry,Restore,LoadState", "src/log.cc", "src/log_unstable.cc", "src/storage.cc", "src/tracker/inflights.cc", "src/rawnode.cc"]}
{"id": "C58", "title": "Every message of a leader is answered", "statement": "Every MsgApp and MsgHeartbeat a node accepts (its term is the node's or higher, and the node is not itself leader of that term) makes the node follow the sender in that term and is answered by exactly one message to the sender in that term. A heartbeat: MsgHeartbeatResp with the same context, commit index raised to the message's, log unchanged. An append whose previous entry matches: a non-rejecting MsgAppResp carrying the last appended index, after which the log holds an entry with the sent term at every sent index and is unchanged up to the previous index, with the commit index raised to min(message commit, that index). An append below the commit index: acknowledged at the commit index. Any other append: a rejection with the log unchanged and a hint at a position where the logs may still agree, skipping only positions whose term is above the leader's. With CheckQuorum or PreVote a leader of an older term is told the current term; otherwise its message has no effect.", "quantifier": "every node reached by any call history, every such message", "why_tests_cant": "Depends on every combination of log, commit index, role, term and message contents.", "anchors": ["src/raft.cc:Step,StepFollower,StepCandidate,HandleAppendEntries,HandleHeartbeat", "src/log.cc:MaybeAppend,FindConflictByTerm,CommitTo"]}
{"id": "C59", "title": "Every vote request is answered, and granted exactly when it may be", "statement": "Every MsgVote of the node's term or a higher one, and every MsgPreVote, that is not ignored because of the leader lease is answered by exactly one response to the sender. A vote is granted exactly when the node's vote is free in that term (higher term, or already given to the same candidate, or no vote and no known leader) and the candidate's last entry is at least as up to date as the node's; then it is recorded in the hard state, otherwise the recorded vote is that of the term (0 for a new term). A pre-vote never changes the node and is granted under the same log condition. A MsgVote of an older term is ignored without effect.", "quantifier": "every node reached by any call history, every request", "why_tests_cant": "Ranges over all combinations of role, term, vote, leader, log and request.", "anchors": ["src/raft.cc:Step"]}
{"id": "C60", "title": "Elections ask every voter and end as the votes say", "statement": "A node that starts a (pre-)campaign sends, in that call, exactly one vote request of the right type and term, carrying the index and term of its last entry, to every other voter of both configurations, and its log is unchanged. From then on the outcome is that of the votes (its own, and the first answer of each id): while neither side has won it keeps asking; once the grants form a majority of both configurations it is leader of that term (a pre-candidate starts the real election at the next term); once no majority is possible any more it is a follower without leader; and it is never leader of that term otherwise. Campaign() does nothing on a leader, a node that may not be elected or one with a committed but unapplied configuration change; otherwise it starts the campaign.", "quantifier": "every node reached by any call history, every later history in the term without configuration change, every order, duplication and loss of answers", "why_tests_cant": "All interleavings of answers, duplicates, configurations and other calls.", "anchors": ["src/raft.cc:Hup", "src/raft.cc:Campaign", "src/raft.cc:Poll", "src/raft.cc:StepCandidate"]}
{"id": "C61", "title": "A leader sends heartbeats exactly at the configured period", "statement": "Counting Tick() calls from the call that made the node leader, exactly every heartbeat_tick-th one sends one MsgHeartbeat to every other member of the current configuration and nothing else, and the other ticks send nothing, whatever other calls happen in between, as long as the node leads. The heartbeat carries the leader's term, a commit index of at most what the member is known to hold and what is committed, and the context of the newest read waiting for confirmation. Hence leading for heartbeat_tick ticks means that every lasting member was sent a heartbeat of the term.", "quantifier": "every leader reached by any call history, every history of calls while it leads, configuration changes included", "why_tests_cant": "All interleavings of ticks with proposals, responses, reads and configuration changes, at every phase of the election timer.", "anchors": ["src/raft.cc:TickHeartbeat", "src/raft.cc:BcastHeartbeat", "src/raft.cc:SendHeartbeat", "src/raft.cc:Reset"]}
{"id": "C62", "title": "What a majority has acknowledged is committed at once", "statement": "A leader that has a vote commits as soon as it can: whenever it is at rest, every index i which, according to Status, is held by a majority of the voters (of both halves of a joint configuration) is committed, provided the leader's log has only entries of its own term from i on and no member claims to hold more than the leader. While it leads, what it knows of a member's log never goes back, and an accepting MsgAppResp of the term from a member counts in the very call that delivers it. Hence, from the call that made the node leader on, as long as the configuration stays, every index beyond the log it was elected with that a majority (itself included) has acknowledged in this term is committed.", "quantifier": "every leader reached by any call history with any configuration; every history of calls while it leads", "why_tests_cant": "All orders of acknowledgements, rejections, reports, proposals, ticks and configuration changes, and all configurations; a commit missed after one of them shows only in particular orders.", "anchors": ["src/raft.cc:MaybeCommit", "src/raft.cc:StepLeader", "src/raft.cc:AppendEntry", "src/raft.cc:SwitchToConfig", "src/tracker/tracker.cc:Committed"]}
{"id": "C63", "title": "A leader resumes, retries and continues", "statement": "A leader does not forget a lagging member. A MsgHeartbeatResp of the leader's term from a member that is not receiving a snapshot and lacks entries makes the leader send it, in the same call, a MsgApp starting at the member's next index (with at least one entry if the log has any from there) or, if the log is compacted beyond that, a MsgSnap - whatever paused the member before. A rejecting MsgAppResp that is not outdated is answered in the same call by a message from an index no greater than the rejected one (for a replicating member: the first entry it is not known to hold). After an accepting MsgAppResp with news the member has been sent all it can take: it is paused, or was sent the whole log, or needs a snapshot; and if the acknowledgement ended a pause, a message with the rest goes out at once. ReportUnreachable turns a replicating member into a probed, unpaused one; ReportSnapshot ends the snapshot state.", "quantifier": "all configurations, good storages and disciplined call histories of a RawNode, all members and all responses", "why_tests_cant": "The states of the flow control (window contents, probe flags, snapshot state) at the time a response arrives depend on the whole history of sends, losses and responses.", "anchors": ["src/raft.cc StepLeader (MsgAppResp, MsgHeartbeatResp, MsgSnapStatus, MsgUnreachable), MaybeSendAppend", "src/tracker/progress.cc", "src/tracker/inflights.cc"]}
{"id": "C64", "title": "Growth of log and commit index is broadcast at once", "statement": "When a proposal or a received message makes the log or the commit index of a leader grow, the same call emits, for every other member that is not paused (and, if it needs a snapshot, was recently active), a MsgApp starting at the member's next index or a MsgSnap. A candidate that wins on a MsgVoteResp emits, for every other member, a MsgApp carrying exactly the first entry of its term. A member added by ApplyConfChange to the configuration of a leader that votes itself is sent a MsgApp with entries in that call, unless the log is compacted to its end.", "quantifier": "all configurations, good storages and disciplined call histories of a RawNode, all members and all proposals, messages and configuration changes", "why_tests_cant": "Which members are paused or need a snapshot when the log grows depends on the whole history; a member silently left out would only show as unbounded lag in some schedules.", "anchors": ["src/raft.cc BcastAppend, StepLeader, StepCandidate, SwitchToConfig, MaybeSendAppend"]}
{"id": "C65", "title": "Read-index requests make progress", "statement": "A leader that has committed an entry of its term and is not the only voter takes up every read-index request put to it by sending a heartbeat with the request's context to every other member; once a quorum has acknowledged heartbeats with that context while it still leads the same term and the configuration is unchanged, the asker has been given (a ReadState or a MsgReadIndexResp) the commit index of the moment of the request. A request put earlier in the term waits, the MsgAppResp by which the leader commits an entry of its term spreads its context, and from then on a quorum of acknowledgements answers it with the commit index of that moment. A leader that is the only voter answers at once. A follower that knows a leader forwards its application's request there, and hands the leader's answer to the application.", "quantifier": "all configurations in safe mode, good storages and disciplined call histories of a RawNode, all fresh contexts, all interleavings of other requests, proposals, acknowledgements and messages between the request and its confirmation, in simple and joint configurations", "why_tests_cant": "Any call between the request and its confirmation - another request, a duplicate, an acknowledgement releasing a prefix of the queue, a lost and regained commit - could drop the request; that none does must hold for every interleaving.", "anchors": ["src/raft.cc StepLeader, SendMsgReadIndexResponse, ReleasePendingReadIndexMessages, ResponseToReadIndexReq, StepFollower", "src/read_only.cc"]}
{"id": "C66", "title": "An idle leader is quiet", "statement": "While nothing is proposed, no read is requested and the configuration is not joint, a leader whose members have all acknowledged its whole log emits nothing but heartbeats of its term, appends nothing to its log, and its members stay caught up, whatever ticks, Ready loops and repeated or late acknowledgements and heartbeat responses (even from non-members) arrive. In particular: an acknowledgement that reports nothing new, a rejection of a message the leader does not have outstanding, and a heartbeat response of a member that holds the whole log and confirms no read cause no message at all.", "quantifier": "every configuration, every reachable leader state whose members are caught up, every run of ticks, quiesced ticks, Ready loops and answers of any origin that report nothing beyond the log, as long as it keeps leading", "why_tests_cant": "a message storm (a leader answering an old acknowledgement or a heartbeat response with another append) shows only in particular interleavings of late answers; absence of messages is a claim about every history", "anchors": ["src/raft.cc: Raft::StepLeader (MsgAppResp, MsgHeartbeatResp)", "src/raft.cc: Raft::TickHeartbeat", "src/tracker/progress.cc: Progress::MaybeUpdate, MaybeDecrTo", "src/rawnode.cc: RawNode::Tick, TickQuiesced, Step, GetReady, Advance"]}
{"id": "C67", "title": "A joint configuration is left automatically", "statement": "In an application that follows the documented loop (GetReady, persist, ApplyConfChange for every committed membership entry, Advance) and whose proposals are not dropped: a leader whose joint configuration is to be left automatically always has a log entry it has not applied yet; once it has applied everything it had in its log at some moment of its reign, and its configuration still awaits the automatic leave, an entry of its own term that leaves the joint configuration is in its log, waiting to be applied. One iteration of the loop changes the log only by appending exactly one empty V2 membership change of the leader's term, and it does so exactly when the configuration awaits the leave, something was delivered and the applied index has just reached the index up to which membership changes can be in the log; on a node that does not lead it never changes the log.", "quantifier": "every creation on a good storage, every history of calls and loop iterations, every moment of a reign, every encoding of membership changes", "why_tests_cant": "whether the leave entry is proposed depends on how entries are batched into Readys, on which membership changes earlier terms left in the log, on compactions and on the interleaving of proposals; tests try a few batchings.", "anchors": ["src/raft.cc: Raft::Advance (auto-leave), StepLeader MsgProp", "src/rawnode.cc: RawNode::ApplyConfChange, Advance", "src/tracker/tracker.h: auto_leave", "example/multi_mem_node.cc: the Ready loop"]}
{"id": "C68", "title": "Crashes while a Ready is being persisted", "statement": "If the entries of a Ready without a snapshot are written to the storage before its HardState, the application may crash before, between or after these writes: a node can be created again on what is on the disk; its HardState is the old or (after both writes) the new one, so its term, vote and commit index do not go back; every entry delivered before the crash and every entry committed according to the disk is still in its log, unchanged, and once the entries are written the whole log is. Writing the HardState first is unsafe: a crash in between can put an entry that was never committed in the place of a committed one. If the Ready carries a snapshot beyond the log on the disk, then whatever the order of the writes there is a crash point after which no node can be created on the storage (unless the storage had no HardState yet); a snapshot on the disk without its HardState always does that. In the documented order (entries, HardState, snapshot) the entries that follow a snapshot in the same Ready are refused by an abort or deleted again by the write of the snapshot, and a crash before the snapshot is written can turn an entry that conflicts with the snapshot into a committed one.", "quantifier": "every creation on a good storage, every disciplined history of calls, every Ready handed out, every crash point and every order of the writes", "why_tests_cant": "tests persist a Ready in one piece on an in-memory storage and never stop between two writes; the outcome depends on the history that produced the Ready and on what older entries the disk holds.", "anchors": ["README.md:172 (order of persisting a Ready)", "example/multi_mem_node.cc (the Ready loop)", "src/storage.cc: MemoryStorage::Append, ApplySnapshot, SetHardState, InitialState", "src/raft.cc: Raft::LoadState, Raft::New", "src/rawnode.cc: RawNode::GetReady"]}
{"id": "C69", "title": "A leadership transfer makes progress", "statement": "A leader asked (by TransferLeader, or by a forwarded MsgTransferLeader) to hand over to a voter other than itself reports that voter as the lead transferee and acts at once: if the voter has acknowledged the leader's last entry it is sent MsgTimeoutNow, otherwise, if it can be served, it is sent the entries (or a snapshot) it lacks. A request naming a learner, a stranger or the current transferee changes nothing, one naming the leader cancels a pending transfer, one naming another voter replaces it. When the transferee's acknowledgement reaches the leader's last entry it is sent MsgTimeoutNow. A follower that receives MsgTimeoutNow of its term, may be elected and has no committed but unapplied configuration change enters the next term at once, voting for itself, with or without PreVote, and asks every other voter for its vote with the CampaignTransfer mark (or leads at once if its own vote suffices). A voter of a lower term answers such a request even while it hears from a live leader with CheckQuorum on, and grants it exactly when the candidate's log is at least as up-to-date. A configuration change that ends the transferee's membership as a voter ends the transfer; any other leaves it pending. A transfer just requested stays pending until an election timeout's worth of ticks has passed, as long as the node leads its term and nobody asks for another transfer or changes the membership.", "quantifier": "every reachable leader, follower and voter, every target and progress of it, every configuration (simple or joint), every acknowledgement and every configuration change", "why_tests_cant": "depends on the member's progress, on a transfer already pending, on unapplied configuration changes, the lease and the shape of the configuration; tests try a few of the combinations", "anchors": ["src/raft.cc: Raft::StepLeader (MsgTransferLeader, MsgAppResp)", "src/raft.cc: Raft::StepFollower (MsgTimeoutNow)", "src/raft.cc: Raft::Hup, Raft::Campaign, Raft::SwitchToConfig, Raft::Step", "src/rawnode.h: RawNode::TransferLeader"]}
{"id": "C70", "title": "Election timeouts and quorum checks count from what the node last saw", "statement": "A node that has just accepted a message of its leader, granted its vote or entered a new term does not campaign by itself before election_tick ticks have passed: whatever else it is given to do meanwhile, each earlier tick changes nothing but its clock, as long as it is not leader. A node that just took over, or just started a new period of watching its members, neither steps down by itself nor forgets which members were active at any tick before election_tick ticks have passed. With CheckQuorum, and unless a transfer is requested meanwhile, the tick that completes the election timeout makes a leader that counts no majority as active step down in its term, and any other leader starts a new period in which nobody but itself counts as active.", "quantifier": "every reachable node, every restarting event, every sequence of calls in between (ticks, messages, proposals, configuration changes, Ready handling), every configuration", "why_tests_cant": "the claim ranges over every interleaving of calls between the event and the tick, and every random timeout", "anchors": ["src/raft.cc: Raft::TickElection, Raft::TickHeartbeat, Raft::PastElectionTimeout, Raft::Reset, Raft::StepFollower, Raft::Step, Raft::StepLeader (MsgCheckQuorum)"]}
{"id": "C71", "title": "One replicated state machine", "statement": "When every application of a cluster applies what its node hands it - the state in a snapshot, then the committed entries in order - to a deterministic state machine, and puts encodings of its own states into the snapshots it takes, then any two states applications ever had for the same applied index are equal, on whatever nodes and at whatever times, before or after crashes. Each such state is the result of applying one gapless sequence of committed entries to the initial state, states for different indices lie on one history, the applied index is the one the node reports, and every snapshot in a storage or in a message holds exactly the state of its index.", "quantifier": "every deterministic state machine and encoding, every cluster with fixed voters, every schedule of calls, deliveries (lost, duplicated, reordered), snapshots, compactions and restarts with any state the application once had or with the stored snapshot", "why_tests_cant": "agreement must hold for every interleaving of elections, crashes, snapshot transfers and compactions of every node", "anchors": ["src/rawnode.cc: RawNode::GetReady, RawNode::Advance", "src/raft.cc: Raft::HandleSnapshot, Raft::Restore, Raft::MaybeSendAppend", "src/storage.cc: MemoryStorage::CreateSnapshot, MemoryStorage::ApplySnapshot, MemoryStorage::Compact", "src/log.cc: RaftLog::NextEnts, RaftLog::Snapshot", "example/multi_mem_node.cc: onReady"]}
{"id": "C72", "title": "Reads served by any replica after ReadIndex are linearizable", "statement": "With kReadOnlySafe: let an application ask for a read index under a fresh context after some application, on any node, had the state v. When the read state for that context is handed out with index i, the state of every application that has applied up to i or further is v with further committed entries applied: nothing any replica had applied before the request was made is missing from what the read sees, on whatever node it is served and whatever crashes and elections lie between.", "quantifier": "every deterministic state machine, every cluster with fixed voters, every run in which no request reaches the same leader twice under one context, every replica serving the read", "why_tests_cant": "a stale read needs a particular interleaving of leader changes, delayed heartbeat responses and applications lagging behind", "anchors": ["src/raft.cc: Raft::StepLeader (MsgReadIndex, MsgHeartbeatResp), Raft::SendMsgReadIndexResponse", "src/read_only.cc: ReadOnly::RecvAck, ReadOnly::Advance", "src/rawnode.cc: RawNode::ReadIndex, RawNode::GetReady"]}
{"id": "C73", "title": "A leader finds the common prefix with at most one refused probe per term", "statement": "While a leader probes a follower, each refused append message is followed by one at a strictly lower index; and unless that one also carries a strictly lower term, the follower does not refuse it. Hence in any row of consecutive refusals the terms of the refused messages strictly decrease and are terms of entries in the leader's log, so there are never more refusals than different terms in the leader's log, however long the two logs and wherever they diverge. The first answer that is not a refusal acknowledges at least the probed index and makes the leader record it and send all it can. The only assumption, that the terms in the leader's log never decrease, holds for every node of every reachable cluster.", "quantifier": "every leader and follower reached by any disciplined calls, every pair of logs, every number of round trips; for the ordering: every reachable cluster", "why_tests_cant": "The bound must hold for every pair of diverging logs and compaction points; a test shows it for the logs it builds.", "anchors": ["src/raft.cc Raft::HandleAppendEntries", "src/raft.cc Raft::StepLeader (MsgAppResp, reject)", "src/log.cc RaftLog::FindConflictByTerm", "src/tracker/progress.cc Progress::MaybeDecrTo"]}
{"id": "C74", "title": "A member catches up over a link in finitely many messages", "statement": "A leader probes a member whose log may disagree with its own in any way: it has sent it one append message, carrying what the leader has after the index before Next. From then on the member gets the append and snapshot messages the leader sends it, in the order they were sent, answers each, and the leader gets each answer before the next one. Then this exchange ends, whatever the two logs are: the refusals come to an end, if need be with a snapshot, and so do the messages that follow the first acceptance. And when no append or snapshot message is left on the way, the member has the leader's log up to the leader's last index, and the leader's record of the member (Match in Status) says so. The assumptions are that both logs have non-decreasing terms, that what the leader believes of the member is true (the logs agree at Match if that is above the member's commit index, and at the member's commit index), and that the leader's snapshot fits its log, is for a configuration the member belongs to, and is not older than what the leader's log starts with. The first two, and the third but for the last clause, hold in every reachable cluster with fixed voters for a leader and a voter whose term is not above the leader's; there the two logs then agree entry by entry.", "quantifier": "every leader and every member made by running a RawNode from any stored state by any valid calls, every pair of logs, every configuration (message size limits, window sizes), every point reached by any number of round trips", "why_tests_cant": "Termination and the final state hold for every pair of logs and every configuration; a bug shows only for a particular shape of the two logs (a hint that jumps below Match, a window that never drains, a last entry that is never sent).", "anchors": ["src/raft.cc: Raft::StepLeader (MsgAppResp), Raft::HandleAppendEntries, Raft::HandleSnapshot, Raft::MaybeSendAppend", "src/tracker/progress.cc: Progress::MaybeUpdate, Progress::MaybeDecrTo, Progress::BecomeReplicate, Progress::BecomeSnapshot", "src/log.cc: RaftLog::FindConflictByTerm, RaftLog::MaybeAppend, RaftLog::Restore"]}
{"id": "C75", "title": "Every node of a cluster meets the conditions of the guarantees for one node", "statement": "In every cluster of nodes with fixed voters, after any calls, deliveries (late, repeated, reordered, never), Readys handled, compactions, snapshots, learner changes, crashes and restarts under any configuration, every node is one that was created with a valid configuration under its own id on a consistent storage and has since been used as documented; and every message sent so far is one that any node may be given. So whatever is guaranteed of one node under those conditions (terms, votes, flow control, answers, timeouts, progress) holds of every node of every such cluster.", "quantifier": "every reachable cluster state, every node in it, every message on the network", "why_tests_cant": "Whether nodes keep their stored state fit for a restart and keep their messages well-formed for the others has to hold after every history of the whole cluster.", "anchors": ["src/rawnode.cc: RawNode::New, RawNode::Step, RawNode::GetReady, RawNode::Advance", "src/raft.cc: Raft::New, Raft::Step", "src/storage.cc: MemoryStorage"]}
{"id": "C76", "title": "Membership changes applied before Advance, as documented, or right after it: the same node, the same cluster", "statement": "One iteration of the documented loop (GetReady, persist, ApplyConfChange for every committed membership change of the Ready, Advance) succeeds only if the iteration that calls Advance first and then ApplyConfChange for the same entries succeeds, and leaves the RawNode in exactly the same state with the same Ready - provided neither the configuration before nor the one after is joint and to be left automatically. Therefore a cluster whose applications follow the documented loop, with any delays, losses, duplicates, crashes, compactions and with learners coming and going, only reaches states of the cluster in which changes are applied at any time; so at most one leader per term and one delivered entry per index, and all else guaranteed of that cluster, hold in it.", "quantifier": "every node driven by the documented loop, every iteration; every cluster following it (fixed voters, not joint), every state and every later state", "why_tests_cant": "Both orders are used in practice and whether the difference can be observed depends on the log, on what is persisted and on what a leader sends while the configuration switches; it has to agree in every state.", "anchors": ["src/rawnode.cc: RawNode::Advance, RawNode::ApplyConfChange, RawNode::GetReady", "src/raft.cc: Raft::Advance, Raft::SwitchToConfig, Raft::MaybeSendAppend", "src/log.cc: RaftLog::StableTo, RaftLog::Entries, RaftLog::Term"]}
{"id": "C77", "title": "The documented loop never aborts", "statement": "In a cluster (fixed voters, not joint; learners may come and go) whose applications call only what the API allows, a node may take one iteration of the documented loop - GetReady, persist, ApplyConfChange for each membership change the Ready holds, Advance - at any moment, and the iteration completes: no abort, no null dereference, no endless loop, and the resulting cluster is again one where every allowed call, delivery, restart or iteration completes. Conversely to C76: for a single node driven by the loop, if a Ready can be handled (GetReady, persist, Advance) and its membership changes can be applied before Advance, then the whole iteration succeeds, and applying the changes after Advance succeeds with the same result - provided neither configuration is to be left automatically.", "quantifier": "every such cluster, every reachable state, every node and every action; for the converse every node driven by the loop", "why_tests_cant": "Advance after a change of configuration asserts on cursors that the change itself may have moved (a smaller quorum or a new learner can move the commit index between GetReady and Advance); a panic needs one particular interleaving.", "anchors": ["src/rawnode.cc: RawNode::Advance, RawNode::GetReady, RawNode::ApplyConfChange", "src/raft.cc: Raft::Advance, Raft::SwitchToConfig", "src/log.cc: RaftLog::AppliedTo, RaftLog::StableTo", "example/multi_mem_node.cc"]}
{"id": "C78", "title": "An election takes one exchange of messages", "statement": "A node that starts a campaign for a term becomes the leader of that term as soon as its vote requests have reached a willing majority and their answers have come back: if every voter in some set is free to vote for it (it has an earlier term, or the same term and has voted for this candidate or for nobody while knowing no leader), is not kept by a leader's lease from considering the request, and has a log no more up-to-date than the candidate's, then each of them answers its request with a granted vote, and if the candidate together with that set is a majority of the voters (of both halves of a joint configuration), then after the answers have been handed to Step, in any order and with repetitions, the node is leader of the term it campaigned for. Once leader, late answers do not unseat it.", "quantifier": "every node and configuration, every campaign (also by timeout, Campaign or MsgTimeoutNow), every set of voters and their states, every order of the answers", "why_tests_cant": "Tests elect leaders in fixed groups of three or five with fixed logs; the claim is about every majority, every joint configuration, every voter state and every order of answers.", "anchors": ["src/raft.cc: Raft::Campaign, Raft::Step, Raft::StepCandidate, Raft::StepLeader, Raft::Poll", "src/tracker/tracker.cc: ProgressTracker::RecordVote, ProgressTracker::TallyVotes", "src/quorum/joint.cc: JointConfig::VoteResult", "src/rawnode.cc: RawNode::Step, RawNode::Campaign"]}
