(** Model of src/tracker/progress.{h,cc} and src/tracker/state.h. *)
From Verif Require Import Prelude M_Inflights.

(** src/tracker/state.h:22-36 *)
Inductive pstate := StProbe | StReplicate | StSnapshot.
Definition pstate_eqb (a b : pstate) : bool :=
  match a, b with
  | StProbe, StProbe | StReplicate, StReplicate | StSnapshot, StSnapshot => true
  | _, _ => false
  end.

(** src/tracker/progress.h:126-175 (inflights_ is never null for a tracked peer). *)
Record progress := mkPr {
  p_match : N;
  p_next : N;
  p_state : pstate;
  p_pending : N;
  p_active : bool;
  p_probe_sent : bool;
  p_infl : inflights;
  p_learner : bool
}.
Definition set_p_match (v : N) (x : progress) : progress :=
  mkPr v (p_next x) (p_state x) (p_pending x) (p_active x) (p_probe_sent x) (p_infl x) (p_learner x).
Definition set_p_next (v : N) (x : progress) : progress :=
  mkPr (p_match x) v (p_state x) (p_pending x) (p_active x) (p_probe_sent x) (p_infl x) (p_learner x).
Definition set_p_state (v : pstate) (x : progress) : progress :=
  mkPr (p_match x) (p_next x) v (p_pending x) (p_active x) (p_probe_sent x) (p_infl x) (p_learner x).
Definition set_p_pending (v : N) (x : progress) : progress :=
  mkPr (p_match x) (p_next x) (p_state x) v (p_active x) (p_probe_sent x) (p_infl x) (p_learner x).
Definition set_p_active (v : bool) (x : progress) : progress :=
  mkPr (p_match x) (p_next x) (p_state x) (p_pending x) v (p_probe_sent x) (p_infl x) (p_learner x).
Definition set_p_probe_sent (v : bool) (x : progress) : progress :=
  mkPr (p_match x) (p_next x) (p_state x) (p_pending x) (p_active x) v (p_infl x) (p_learner x).
Definition set_p_infl (v : inflights) (x : progress) : progress :=
  mkPr (p_match x) (p_next x) (p_state x) (p_pending x) (p_active x) (p_probe_sent x) v (p_learner x).
Definition set_p_learner (v : bool) (x : progress) : progress :=
  mkPr (p_match x) (p_next x) (p_state x) (p_pending x) (p_active x) (p_probe_sent x) (p_infl x) v.

(** src/tracker/progress.cc:35-44 *)
Definition new_progress (next match_ max_inflight : N) (is_learner active : bool) : progress :=
  mkPr match_ next StProbe 0 active false (new_inflights max_inflight) is_learner.

(** src/tracker/progress.cc:46-52 [ResetState] *)
Definition pr_reset_state (s : pstate) (p : progress) : progress :=
  mkPr (p_match p) (p_next p) s 0 (p_active p) false (inf_reset (p_infl p)) (p_learner p).

(** src/tracker/progress.cc:54-66 [BecomeProbe] *)
Definition pr_become_probe (p : progress) : progress :=
  match p_state p with
  | StSnapshot =>
      let pending := p_pending p in
      let p1 := pr_reset_state StProbe p in
      set_p_next (N.max (p_match p1 + 1) (pending + 1)) p1
  | _ =>
      let p1 := pr_reset_state StProbe p in
      set_p_next (p_match p1 + 1) p1
  end.

(** src/tracker/progress.cc:68-71 [BecomeReplicate] *)
Definition pr_become_replicate (p : progress) : progress :=
  let p1 := pr_reset_state StReplicate p in set_p_next (p_match p1 + 1) p1.

(** src/tracker/progress.cc:73-76 [BecomeSnapshot] *)
Definition pr_become_snapshot (i : N) (p : progress) : progress :=
  set_p_pending i (pr_reset_state StSnapshot p).

(** src/tracker/progress.cc:78-87 [MaybeUpdate] (with ProbeAcked, progress.h:40) *)
Definition pr_maybe_update (n : N) (p : progress) : progress * bool :=
  let '(p1, updated) :=
    if p_match p <? n then (set_p_probe_sent false (set_p_match n p), true) else (p, false) in
  (set_p_next (N.max (p_next p1) (n + 1)) p1, updated).

(** src/tracker/progress.h:62 [OptimisticUpdate] *)
Definition pr_optimistic_update (n : N) (p : progress) : progress := set_p_next (n + 1) p.

(** src/tracker/progress.cc:89-113 [MaybeDecrTo] *)
Definition pr_maybe_decr_to (rejected match_hint : N) (p : progress) : progress * bool :=
  match p_state p with
  | StReplicate =>
      if rejected <=? p_match p then (p, false)
      else (set_p_next (p_match p + 1) p, true)
  | _ =>
      if negb (wsub (p_next p) 1 =? rejected) then (p, false)
      else (set_p_probe_sent false
              (set_p_next (N.max (N.min rejected (match_hint + 1)) 1) p), true)
  end.

(** src/tracker/progress.cc:115-128 [IsPaused] *)
Definition pr_is_paused (p : progress) : bool :=
  match p_state p with
  | StProbe => p_probe_sent p
  | StReplicate => inf_full (p_infl p)
  | StSnapshot => true
  end.
