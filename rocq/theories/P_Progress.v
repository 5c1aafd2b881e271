(** Proofs about src/tracker/progress.cc and the vote part of src/tracker/tracker.cc. *)
From Verif Require Import Prelude Types M_Inflights M_Progress M_Quorum M_Tracker.
From Verif Require Import Spec_Quorum P_Quorum Spec_Progress.

Ltac ifs := repeat match goal with
  | |- context[if ?b then _ else _] => destruct b eqn:?
  | H : context[if ?b then _ else _] |- _ => destruct b eqn:?
  end.

Lemma pev_match_mono p e : p_match p <= p_match (pev_step p e).
Proof.
  destruct e; cbn [pev_step].
  - unfold pr_maybe_update. destruct (N.ltb_spec (p_match p) n); cbn; lia.
  - unfold pr_maybe_decr_to. destruct (p_state p); ifs; cbn; lia.
  - cbn; lia.
  - unfold pr_become_probe; destruct (p_state p); cbn; lia.
  - cbn; lia.
  - cbn; lia.
Qed.

Lemma pev_run_match_mono es : forall p, p_match p <= p_match (pev_run p es).
Proof.
  induction es as [|e es IH]; intros p; cbn; [lia|].
  specialize (IH (pev_step p e)). pose proof (pev_match_mono p e). unfold pev_run in IH. lia.
Qed.

Lemma pev_next p e : p_match p < p_next p -> ev_ok p e -> p_match (pev_step p e) < p_next (pev_step p e).
Proof.
  intros H Hok. destruct e; cbn [pev_step ev_ok] in *.
  - unfold pr_maybe_update. destruct (N.ltb_spec (p_match p) n); cbn; lia.
  - unfold pr_maybe_decr_to. destruct (p_state p); ifs; cbn; lia.
  - cbn; lia.
  - unfold pr_become_probe; destruct (p_state p); cbn; lia.
  - cbn; lia.
  - cbn; lia.
Qed.

Lemma pev_run_next es : forall p, p_match p < p_next p -> pev_all ev_ok p es ->
  p_match (pev_run p es) < p_next (pev_run p es).
Proof.
  induction es as [|e es IH]; intros p H Hok; cbn; auto.
  destruct Hok. apply IH; auto. apply pev_next; auto.
Qed.

Lemma update_stale n p : n <= p_match p -> exists p', pr_maybe_update n p = (p', false) /\ p_match p' = p_match p.
Proof.
  intros H. unfold pr_maybe_update. destruct (N.ltb_spec (p_match p) n); [lia|].
  eexists; split; [reflexivity|]. reflexivity.
Qed.
Lemma update_fresh n p : p_match p < n ->
  exists p', pr_maybe_update n p = (p', true) /\ p_match p' = n /\ p_next p' = N.max (p_next p) (n + 1)
             /\ p_probe_sent p' = false.
Proof.
  intros H. unfold pr_maybe_update. destruct (N.ltb_spec (p_match p) n); [|lia].
  eexists; split; [reflexivity|]. cbn; auto.
Qed.

(** When a rejection is stale. *)
Definition stale (p : progress) (rejected : N) : Prop :=
  match p_state p with StReplicate => rejected <= p_match p | _ => rejected + 1 <> p_next p end.

Lemma decr_stale p r h : 1 <= p_next p -> stale p r -> pr_maybe_decr_to r h p = (p, false).
Proof.
  unfold stale, pr_maybe_decr_to, wsub. intros Hn. destruct (p_state p); intros H; ifs; auto; lia.
Qed.
Lemma decr_genuine p r h : 1 <= p_next p -> ~ stale p r ->
  exists p', pr_maybe_decr_to r h p = (p', true) /\ p_match p' = p_match p /\ 1 <= p_next p' /\
    match p_state p with
    | StReplicate => p_next p' = p_match p + 1
    | _ => p_probe_sent p' = false /\ (p_next p' < p_next p \/ (p_next p = 1 /\ p_next p' = 1))
    end.
Proof.
  unfold stale, pr_maybe_decr_to, wsub. intros Hn.
  destruct (p_state p); intros H; ifs; try lia; eexists; (split; [reflexivity|]); cbn; lia.
Qed.

(* ---------- votes ---------- *)
Definition record_all (l : list (N * bool)) (t : tracker) : tracker :=
  fold_left (fun acc v => trk_record_vote (fst v) (snd v) acc) l t.

Lemma record_vote_get id v t x :
  mget x (t_votes (trk_record_vote id v t)) =
  match mget x (t_votes t) with Some b => Some b | None => if id =? x then Some v else None end.
Proof.
  unfold trk_record_vote. destruct (mget id (t_votes t)) eqn:E; cbn.
  - destruct (mget x (t_votes t)) eqn:E2; auto. destruct (N.eqb_spec id x); auto. congruence.
  - rewrite mget_mset. destruct (N.eqb_spec x id) as [->|].
    + rewrite E, N.eqb_refl; auto.
    + destruct (mget x (t_votes t)); auto. destruct (N.eqb_spec id x); auto; congruence.
Qed.
Lemma record_all_get l : forall t x,
  mget x (t_votes (record_all l t)) =
  match mget x (t_votes t) with Some b => Some b | None => first_vote l x end.
Proof.
  induction l as [|[i b] l IH]; intros t x; cbn [record_all fold_left first_vote].
  - destruct (mget x (t_votes t)); auto.
  - unfold record_all in IH. rewrite IH. cbn [fst snd]. rewrite record_vote_get.
    destruct (mget x (t_votes t)); auto. destruct (i =? x); auto.
Qed.
Lemma record_all_cfg l : forall t,
  t_config (record_all l t) = t_config t /\ t_progress (record_all l t) = t_progress t.
Proof.
  induction l as [|[i b] l IH]; intros t; cbn; auto. unfold record_all in IH.
  destruct (IH (trk_record_vote i b t)) as [-> ->]. unfold trk_record_vote.
  destruct (mget i (t_votes t)); cbn; auto.
Qed.

Definition is_some_b (v : bool) (o : option bool) : bool :=
  match o with Some b => Bool.eqb b v | None => false end.
Lemma tally_counts_spec prs votes :
  tally_counts prs votes =
  (nlen (filter (fun kv => negb (p_learner (snd kv)) && is_some_b true (mget (fst kv) votes)) prs),
   nlen (filter (fun kv => negb (p_learner (snd kv)) && is_some_b false (mget (fst kv) votes)) prs)).
Proof.
  unfold tally_counts.
  assert (H : forall prs g r,
    fold_left (fun acc kv => let '(g, r) := acc in
      if p_learner (snd kv) then (g, r)
      else match mget (fst kv) votes with
         | None => (g, r) | Some true => (g + 1, r) | Some false => (g, r + 1) end) prs (g, r) =
    (g + nlen (filter (fun kv : N * progress => negb (p_learner (snd kv)) && is_some_b true (mget (fst kv) votes)) prs),
     r + nlen (filter (fun kv : N * progress => negb (p_learner (snd kv)) && is_some_b false (mget (fst kv) votes)) prs))).
  { induction prs0 as [|[k p] t IH]; intros g r.
    - cbn. rewrite !N.add_0_r. auto.
    - cbn [fold_left filter fst snd]. destruct (p_learner p); cbn [negb andb]; [apply IH|].
      destruct (mget k votes) as [[]|]; cbn [is_some_b Bool.eqb]; rewrite IH, ?nlen_cons; f_equal; lia. }
  rewrite H. f_equal; lia.
Qed.
