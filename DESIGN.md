# Formal model of ImSjt/raft-cpp in Rocq (Coq 8.16.1)

## 1. What is modelled and how

* Every modelled C++ function is a total, computable Gallina function in `rocq/theories/M_*.v`;
  the comment on each definition cites file and lines in /repo and says what was simplified.
* `uint64_t` is `N` with unbounded addition (no index or term reaches 2^64 in practice: an
  assumption).  Subtractions that can underflow in the code are `wsub` (explicit wrap mod 2^64);
  `UINT64_MAX` is the literal constant.
* Outcomes: `res A := Ok a | Fatal | UB | NoFuel`.  `Fatal` = CRAFT_LOG_FATAL / assert (the console
  logger aborts); `UB` = null dereference, out-of-range vector access, inverted iterator range;
  `NoFuel` = a loop of the model ran out of fuel.
* `std::map` / `std::set` keyed by uint64 = strictly sorted association lists / sorted lists, so that
  iteration order is the code's.  Pointers to `Progress` = entries of the map.
* protobuf: messages are records; `ByteSizeLong` and the (de)serialisation of ConfChange payloads
  are the fields of an environment record `Env`, universally quantified in theorems (no laws assumed
  unless a theorem states them).
* `rand()` = a tape of numbers carried in the node state, universally quantified.
* `step_`/`tick_` function pointers = dispatch on the role.
* A moved-from container is empty.

### Layers

| files | content |
|---|---|
| `Prelude`, `Types` | result monad, lists/maps over `N`, protobuf records |
| `M_*` | the model, one file per source file (`M_StorageHeap` = storage with shared snapshot objects) |
| `Spec_*` | small independent specifications: the vocabulary of the theorem statements |
| `Sys_*` | transition systems: a storage, a log, a node driven by its application (`Sys_Node`; `Sys_Loop` with membership changes applied between persisting and Advance), a cluster with a network and crashes (`Sys_Cluster`, `Sys_Trace`), the same with changes applied in the documented place (`Sys_Doc`), the same with a state machine applied next to every node (`Sys_App`, after `example/*.cc` onReady) |
| `P_*` | lemmas about the model, invariants, refinements |
| `A_Proto` | an abstract Raft protocol (facts: requests, votes, leaders, acks, commits) and its invariants |
| `R_*` | simulation: every step of the concrete cluster is a sequence of abstract steps |
| `Ex_*` | executable checkers and concrete runs for the examples |
| `Prop_*` | the theorems `Cnn_...` and, beside each, an example meeting its hypotheses |

### Code coverage

| source | modelled | not modelled |
|---|---|---|
| `quorum/majority.cc`, `joint.cc`, `quorum.h` | CommittedIndex, VoteResult, IDs, At | Describe / String |
| `tracker/inflights.cc` | all | |
| `tracker/progress.cc`, `state.cc` | all state changes | String |
| `tracker/tracker.cc` | all but Visit callbacks (folded into callers) | String |
| `storage.cc` | MemoryStorage: all methods | the mutex (InitialState takes none) |
| `log_unstable.cc`, `log.cc` | all | String |
| `confchange/confchange.cc`, `restore.cc` | all | Describe |
| `raftpb/confchange.cc`, `confstate.cc` | all | protobuf wire format (`Env`) |
| `read_only.cc` | all | |
| `raft.cc` | all of Raft (Step in all roles, Tick, Send*, Become*, Campaign, Restore, ApplyConfChange, Advance, Config::Validate, ...) | String methods, log output; `step_`/`tick_` pointers replaced by the role |
| `rawnode.cc` | New/Start/Bootstrap, Tick, Campaign, Propose, ProposeConfChange, ApplyConfChange, Step, GetReady, HasReady, Advance, Report*, TransferLeader, ReadIndex, basic Status | WithProgress callback, Status JSON |
| `util.cc` | LimitSize, message classification, payload size, split/trim | Describe* |
| `status.cc`, `logger.cc`, `define.h`, tests, `example/` | status codes as `err` | the rest (see findings on example/) |

What cannot be expressed: real threads (the library is otherwise single threaded), memory
exhaustion, the protobuf wire format, log output text, time beyond tick counts, a user Logger that
does not abort on Fatal.

## 2. How each property is proved

| id | theorem file | technique |
|----|-----------|-----------------|
| C01-C04 | Prop_Quorum | exact characterisation by counting; insertion sort = sorted permutation; pigeonhole |
| C05-C06 | Prop_Tracker | refinement of the ring buffer to a list queue; C06 refuted by witness on a never-used window |
| C07-C09 | Prop_Tracker | case analysis; invariant over event lists; induction on recorded votes |
| C10-C12 | Prop_Storage | refinement to an abstract log; C11 on the heap-aware model, refuted by witness |
| C13-C18 | Prop_Log | abstraction to one logical log (base position + entries); refinement over call sequences |
| C19 | Prop_Deliver | invariant over call sequences with the delivered history |
| C20-C23 | Prop_ConfChange | invariants over change lists; round trip by induction |
| C24-C27 | Prop_ConfPb | permutation of sorted lists; string codec induction; C26 refuted by witness |
| C28-C32 | Prop_Vote | every call decomposes into primitive moves (`P_Prim`), invariants over them |
| C33-C34 | Prop_Leader | primitive moves on the log; history of acknowledgements |
| C35-C37 | Prop_Prop | invariant on unapplied configuration entries and the uncommitted size |
| C38, C44 | Prop_Msg | decomposition of everything a call emits |
| C39 | Prop_Read | decomposition of every call into steps on the read queue (`P_Read*`) |
| C40 | Prop_ReadOnly | refinement to a queue of requests |
| C41-C42 | Prop_Time | tick-level invariants |
| C43, C47-C50 | Prop_Api, Prop_Deliver, Prop_Time | direct / invariants over lives of a node |
| C45 | Prop_Flow | per-peer event semantics of the progress, window invariant |
| C46 | Prop_Snap | case analysis of restore on the log refinement |
| C51 | Prop_Transfer | decomposition of what a call does to the transfer target |
| C52-C55 | Prop_Cluster | abstract protocol `A_Proto` + forward simulation `R_*`; fixed voters, changing learners (`R_Switch`) |
| C56 | Prop_Linear | read requests in the simulated cluster, relative to an arbitrary earlier moment |
| C57 | Prop_Total | node and network invariants under which every branch that aborts is excluded (`P_Total*`, `P_Self`, `R_Self`, `R_Own`, `R_Total*`); the abort results `Fatal`/`UB` are explicit in the model |
| C58 | Prop_Answer | vocabulary in Spec_Resp; the step is inverted to its handler, whose effect on the log is read off the `P_Log` lemmas |
| C59 | Prop_Ballot | step inversion; up-to-date check by `log_is_up_to_date_abs`; lease exclusion stated by `must_answer` |
| C60 | Prop_Elect | the campaign's messages from the vote loop; a candidate invariant relating the recorded votes to the tally of the delivered answers, by induction on the call history; won/lost/pending read off the quorum arithmetic of C03 |
| C61 | Prop_Beat | the heartbeat clock is 0 when leadership starts, kept by every call but Tick() and advanced modulo the period by Tick(): induction over the history of leading; the broadcast loop gives the messages |
| C62 | Prop_Commit | invariant: the commit index of the tracker, if of the leader's term, is not above the commit index; kept by every primitive update because each call that raises a match index or changes the configuration ends with MaybeCommit; n_step_cm over all calls, made_qmax by induction over the history |
| C63 | Prop_Feed | raft-level lemmas P_Feed (what MaybeSendAppend emits; HeartbeatResp/AppResp handlers), window invariant of C45, lifted to the API |
| C64 | Prop_Feed | P_Bcast: every path of Step on which a leader's log changes ends in BcastAppend, which reaches every unpaused member |
| C65 | Prop_ReadLive | P_ReadLive: the request stays in the queue with its acknowledgements through every call of the reign (waiting), so a quorum of them contradicts its still being there; a postponed one stays in the waiting list until the releasing acknowledgement |
| C66 | Prop_Quiet | per call only match indexes and log survive unchanged (touched, tick_keeps, hs_stay), then induction over the run; emitted messages identified by the emission ledger |
| C67 | Prop_Leave | the loop with ApplyConfChange between persisting and Advance (Sys_Loop.v), its effect (P_Loop.v: lspec) and an invariant of leaders along every run: all membership changes in the log are at or below the pending index, which is in the log, the one beyond the leader's first own entry is unique and, while the configuration awaits the leave, leaves it (P_Leave.v) |
| C68 | Prop_Crash | `Spec_Crash.writes` performs any list of the three writes on the storage; safe order by the invariant that disk and node agree up to the persisted commit index (P_Crash.agree, every n_step) and C50_restart; unusable storages by the commit-index check of creation; unsafe orders by reachable witnesses |
| C69 | Prop_Handoff | case analysis of the request, of the acknowledgement (sends keep log and transferee) and of the campaign with the transfer mark; the lease part from C59 |
| C70 | Prop_Clock, P_Clock, Spec_Clock | every call but a tick leaves the election clock alone or lowers it (P_Clock, all handlers), events set it to 0, the random timeout is at least election_tick (C42); for leaders the clock counts exactly while no transfer is requested |
| C71 | Prop_App, Sys_App, P_App, Spec_App | Sys_App (cluster + applications), P_App (where a node's snapshots come from: one lemma per primitive transition), Prop_App (induction over runs; uniqueness of states from C55, contiguity from C19) |
| C72 | Prop_Client, Sys_App | labelled runs of the replicated state machine project to cluster traces (C56) and to reachable replicated state machines (C71) |
| C73 | Prop_Probe, Spec_Probe | exact specification of the leader's retry index (FindConflictByTerm on the hint) and of the follower's hint (C58); term ordering argument; induction over the row of refusals; cluster-level invariant gi_sort for the ordering |
| C74 | Prop_Link, Spec_Link | invariant over the exchange: while probing, the retry index never falls to or below an index where the logs are known to agree, and strictly decreases (C73); a snapshot sent instead is above Match and its acceptance is news; after the first acceptance the messages on the way form a chain from Match to Next (no snapshot among them, since Next is in the leader's log), each acceptance either raises Match or shortens the chain; well-founded on (last - Match, length); assumptions from the cluster invariant (acknowledgements are retained within the term, leader completeness, snapshots are of committed prefixes) |
| C75 | Prop_Made | induction over the cluster's steps: messages are well-formed by the network invariant, the storage a node restarts from is consistent by the node invariant |
| C76 | Prop_Order, P_Order, Sys_Doc | logs that answer alike (same abstract log, same snapshot) are interchangeable in ApplyConfChange, and Advance only moves the applied index, the unstable part and the uncommitted size; each documented iteration is then simulated by NHandle and one NApplyCC per change |
| C77 | Prop_DocTotal, P_Order2, Spec_DocTotal | NHandle and each NApplyCC complete (C57's invariants); the simulation of C76 is run backwards (substituting the old log back) to obtain the changes applied before Advance, and Advance after them completes because only the commit index moved, upwards |
| C78 | Prop_RoundTrip, Spec_RoundTrip | C59 gives each voter's granted answer; an invariant over the answers says the node leads the term or is a candidate whose tally is exactly the granted votes so far and still open (granted votes are never hopeless); a majority contradicts open |

### The cluster (C52-C57)

Any number of nodes, each with its own configuration (PreVote, CheckQuorum, sizes, ... may differ),
started from storages that hold the same snapshot position and the same voters (possibly a joint
configuration; learners may differ) and an empty log after it.  Steps: an application call on a node
(Tick, Campaign, Propose, ProposeConfChange, ReadIndex, TransferLeader, Report*, compaction, snapshot
creation, ApplyConfChange of any change that leaves the node's voters alone (learners come and go, on
each node independently), or handling a Ready: GetReady, persist, Advance, then its messages are on the
network and its committed entries with the application); delivery of any message ever sent (so loss, delay,
reordering and duplication); a crash and restart of a node from its storage at any point between
those.  Persisting one Ready is atomic (a crash before it equals a crash before GetReady, a crash after it
equals handling the Ready with the messages lost).  Not in the cluster model: *applying* changes of
the voters (they can be proposed, committed and delivered, but the voters stay), calls between GetReady and Advance
(except that C76 shows the documented place of ApplyConfChange, before Advance, to lead to the same states), a Ready persisted only partly.  At the level of one node (C28-C51), ApplyConfChange is covered, with any change.

## 3. Trusted base

* Coq 8.16.1's kernel, and `vm_compute` for the concrete examples (and nothing else).
* `Print Assumptions` on every theorem in MANIFEST.json: "Closed under the global context".  No axiom
  is declared or used.  (Loading `Lia`/`ssreflect` parts of the standard library makes some tools
  list `Coq.ssr.ssrunder.Under_rel.*`: these come from a module type inside the standard library; no
  theorem here depends on them.)
* Only the Coq standard library is used.
* That `M_*.v` describes the C++ code (by the cited lines) and that `Spec_*`/`Sys_*` say what the
  English properties say.
* The simplifications of section 1.

## 4. Findings

Defects or surprises in the code found while modelling and proving; those marked with a theorem are proved on the model.

* `FreeFirstOne` on a never-used window indexes an empty vector (C06, refuted).
* A duplicated stale rejection in Probe state can drop Next to Match or below (C07, refuted).
* `MemoryStorage::CreateSnapshot` changes the shared snapshot object in place, so a snapshot handed out earlier changes under its
  holder (C11, refuted); `ents_[i - offset]` wraps when `i` was compacted away.
* `ConfChangesFromString` accepts malformed tokens such as "vx" and "v1x" (C26, refuted): strtoull never throws.
* A dropped configuration-change proposal leaves `pending_conf_index_` raised, so later changes are refused until it is reached (C37, refuted).
* `Bootstrap` on a non-empty storage does not return the documented error and lowers the term (C49, refuted).
* Safe-mode reads are not linearizable if the network duplicates messages: a duplicate of an answered
  MsgReadIndex re-registers at a deposed leader behind a new request and an old heartbeat response then releases both with a stale
  index (`C56_repeated_request`); contexts must be unique and requests must not be duplicated.
* MsgReadIndex with an empty context is not answered by heartbeat responses; a MsgReadIndex without entries is undefined behaviour when registered.
* `pending_read_index_messages_` is not cleared when leadership is lost; a commit that advances through
  `SwitchToConfig` does not release it.
* MsgApp/MsgHeartbeat/MsgSnap of term 0 make a candidate fall back to term 0 (`C28_zero_term`); MsgVote of term 0 aborts; a MsgVoteResp of
  term 0 is counted by any candidate.
* A follower that receives a forwarded MsgTransferLeader (which carries a term) and forwards it again aborts in `Send`.
* `MatchTerm` is true for an index beyond the log with term 0, so a MsgApp with such a previous position reaches undefined behaviour in
  `TruncateAndAppend`.
* A heartbeat response frees a slot of a full window, so up to one more MsgApp per heartbeat response is in flight (C45).
* `JointConfig::At` checks its bound against a byte size; `Ready::String` dereferences a null snapshot; several log calls have mismatched formats.
* A leader that applies its own removal and an auto-leave joint change from the same Ready dereferences a null Progress in
  Advance (`C57_removed_leader_null_progress`).
* Null progress is dereferenced in BecomeLeader/AppendEntry/SendHeartbeat when the node does not track itself; winning a pre-vote does not re-check
  that the node may campaign.
* README's order "entries, hard state, snapshot" breaks MemoryStorage for a Ready with both a snapshot and entries
  (`C68_documented_order`): the append aborts or the snapshot deletes the entries again. A crash between the HardState and the snapshot can make a
  conflicting entry committed (`C68_hardstate_before_snapshot_unsafe`), and a snapshot on the disk without its HardState cannot be started from
  (`C68_snapshot_without_hardstate`), so the three writes must be made durable together (`C68_no_safe_order`). The example skips entries with
  empty data, so the automatic leave of a joint configuration is never applied.
* The automatic leave depends on where the application calls ApplyConfChange: called after Advance, with a later entry in the same Ready, the
  leave entry is never proposed (`C67_order_matters`, `C67_order_matters_later`); called after the Advance of the Ready that carries the leave entry
  itself, a second leave entry is proposed, and applying that one aborts. A dropped membership change (its data over the uncommitted-size limit)
  raises the pending index beyond the log and can delay the leave in the same way.
* A storage with a snapshot and an empty HardState starts at term 0, below its log's term; entries persisted without their HardState leave the same state.
* If the application has compacted its storage past its latest snapshot (the documentation of `Compact` only forbids compacting what is not
  applied), a leader sends that snapshot, and again when the member reports it installed; the second answer is no news, and the member stays
  behind in StSnapshot (`C74_stale_snapshot`).
* A ConfState with duplicated ids aborts creation of the node (`C57_dup_conf_aborts`).
* A voter set that is empty "wins" elections by convention.
