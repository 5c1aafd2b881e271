(** Event sequences on a follower's Progress, and first votes. *)
From Verif Require Import Prelude M_Inflights M_Progress.

(** The public mutators of Progress (src/tracker/progress.h:44-80). *)
Inductive pev :=
| EvUpdate (n : N) | EvDecr (rejected hint : N) | EvOptimistic (n : N)
| EvProbe | EvReplicate | EvSnapshot (i : N).
Definition pev_step (p : progress) (e : pev) : progress :=
  match e with
  | EvUpdate n => fst (pr_maybe_update n p)
  | EvDecr r h => fst (pr_maybe_decr_to r h p)
  | EvOptimistic n => pr_optimistic_update n p
  | EvProbe => pr_become_probe p
  | EvReplicate => pr_become_replicate p
  | EvSnapshot i => pr_become_snapshot i p
  end.
Definition pev_run (p : progress) (es : list pev) : progress := fold_left pev_step es p.

(** A condition on each event given the Progress it hits. *)
Fixpoint pev_all (ok : progress -> pev -> Prop) (p : progress) (es : list pev) : Prop :=
  match es with
  | [] => True
  | e :: t => ok p e /\ pev_all ok (pev_step p e) t
  end.

(** Optimistic updates do not go below Match. *)
Definition opt_ok (p : progress) (e : pev) : Prop :=
  match e with EvOptimistic n => p_match p <= n | _ => True end.
(** Moreover no rejection concerns indexes already acknowledged. *)
Definition ev_ok (p : progress) (e : pev) : Prop :=
  match e with
  | EvOptimistic n => p_match p <= n
  | EvDecr r h => p_match p < r /\ p_match p <= h
  | _ => True
  end.

(** The first vote of [id] in a sequence of (voter, answer) pairs. *)
Fixpoint first_vote (l : list (N * bool)) (id : N) : option bool :=
  match l with
  | [] => None
  | (i, b) :: t => if i =? id then Some b else first_vote t id
  end.
