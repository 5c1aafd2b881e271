(** C05-C09: inflight windows, follower progress, votes.
    Specifications: Spec_Inflights.v, Spec_Progress.v, Spec_Quorum.v. *)
From Verif Require Import Prelude Types M_Inflights M_Progress M_Quorum M_Tracker.
From Verif Require Import Spec_Quorum P_Quorum Spec_Inflights P_Inflights Spec_Progress P_Progress.

(** C05: over every sequence of calls the window is the bounded FIFO queue of Spec_Inflights:
    Count and Full are the queue's, nothing is ever out of range, Add on a full window is fatal. *)
Theorem C05_inflights_fifo : forall (cap : N) (ops : list iop),
  q_allowed cap ops [] ->
  match q_run cap ops [] with
  | Some q => exists x, i_run ops (new_inflights cap) = Ok x /\
                i_count x = nlen q /\ nlen q <= cap /\ inf_full x = (nlen q =? cap) /\
                (forall k v, nnth q k = Some v -> nnth (i_buf x) (ring_pos x k) = Some v)
  | None => exists w, i_run ops (new_inflights cap) = Fatal w
  end.
Proof.
  intros cap ops Ha. pose proof (run_ok ops (new_inflights cap) [] (iwf_new cap) (holds_new cap) Ha) as H.
  cbn [new_inflights i_size] in H. destruct (q_run cap ops []) as [q|] eqn:E; auto.
  destruct H as (x & H1 & H2 & [H3 H4] & H5). exists x. split; auto. split; auto.
  split; [eapply q_run_bound; [|eassumption]; nl|]. split; [unfold inf_full; rewrite H3, H5; auto|].
  intros k v Hk. rewrite H4; auto. eapply nnth_Some_lt; eauto.
Qed.
Print Assumptions C05_inflights_fifo.
Definition C05_ops := [IAdd 3; IAdd 4; IFreeLE 3; IAdd 7; IAdd 9; IFreeFirst; IAdd 10].
Example C05_example : q_allowed 3 C05_ops [] /\ q_run 3 C05_ops [] = Some [7; 9; 10] /\
  q_run 3 (C05_ops ++ [IAdd 11]) [] = None.
Proof. cbn. repeat split; discriminate. Qed.

(** C06: documented as a no-op on an empty window; the code reads buffer_[0] of an empty vector. *)
Theorem C06_free_first_one_empty_refuted :
  exists cap w, 0 < cap /\ inf_free_first_one (new_inflights cap) = UB w.
Proof. exists 3. eexists. split; [lia|reflexivity]. Qed.
Print Assumptions C06_free_first_one_empty_refuted.
(** It is a no-op on an empty window whose buffer was allocated before. *)
Theorem C06_free_first_one_noop_partial : forall x b,
  i_count x = 0 -> nnth (i_buf x) (i_start x) = Some b -> inf_free_first_one x = Ok x.
Proof. intros x b H1 H2. unfold inf_free_first_one, inf_free_le. rewrite H2, H1. reflexivity. Qed.
Print Assumptions C06_free_first_one_noop_partial.
Example C06_example : exists x, i_run [IAdd 3; IFreeLE 3] (new_inflights 2) = Ok x /\ i_count x = 0 /\
  nnth (i_buf x) (i_start x) = Some 3.
Proof. eexists; repeat split. Qed.

(** C07: over every sequence of events the acknowledged index never decreases; a stale
    acknowledgement reports so and leaves it unchanged, a fresh one raises it; and Next stays above
    Match as long as no rejection of an acknowledged index is processed. *)
Theorem C07_progress_monotone_partial : forall (p : progress) (evs : list pev),
  p_match p <= p_match (pev_run p evs) /\
  (p_match p < p_next p -> pev_all ev_ok p evs -> p_match (pev_run p evs) < p_next (pev_run p evs)) /\
  (forall n, n <= p_match p -> exists p', pr_maybe_update n p = (p', false) /\ p_match p' = p_match p) /\
  (forall n, p_match p < n -> exists p', pr_maybe_update n p = (p', true) /\ p_match p' = n /\
     p_next p' = N.max (p_next p) (n + 1)).
Proof.
  intros p evs. split; [apply pev_run_match_mono|]. split; [apply pev_run_next|].
  split; [intros; apply update_stale; auto|].
  intros n Hn. destruct (update_fresh n p Hn) as (p' & H1 & H2 & H3 & _). eauto.
Qed.
Print Assumptions C07_progress_monotone_partial.
Definition C07_p := new_progress 6 5 8 false true.
Definition C07_evs := [EvUpdate 7; EvReplicate; EvOptimistic 12; EvDecr 9 8; EvUpdate 6; EvProbe; EvDecr 7 7; EvSnapshot 20; EvProbe].
Example C07_example : p_match C07_p < p_next C07_p /\ pev_all ev_ok C07_p (firstn 6 C07_evs) /\
  p_match (pev_run C07_p C07_evs) = 7 /\ p_next (pev_run C07_p C07_evs) = 21.
Proof. repeat split; vm_compute; reflexivity || (intros; discriminate). Qed.
(** The unconditional claim "Next stays above Match" fails: a duplicated, stale rejection that
    happens to hit the current probe position moves Next back below Match. *)
Theorem C07_next_above_match_refuted :
  exists (p : progress) (evs : list pev),
    p_match p < p_next p /\ pev_all opt_ok p evs /\ p_next (pev_run p evs) < p_match (pev_run p evs).
Proof.
  exists (new_progress 6 5 8 false true), [EvDecr 5 2]. vm_compute. repeat split.
Qed.
Print Assumptions C07_next_above_match_refuted.

(** C08: stale rejections are ignored entirely; genuine ones move Next. *)
Theorem C08_rejections : forall (p : progress) (rejected hint : N), 1 <= p_next p ->
  let is_stale := match p_state p with
                  | StReplicate => rejected <= p_match p
                  | _ => rejected + 1 <> p_next p
                  end in
  (is_stale -> pr_maybe_decr_to rejected hint p = (p, false)) /\
  (~ is_stale -> exists p', pr_maybe_decr_to rejected hint p = (p', true) /\
     p_match p' = p_match p /\ 1 <= p_next p' /\
     match p_state p with
     | StReplicate => p_next p' = p_match p + 1
     | _ => p_probe_sent p' = false /\ (p_next p' < p_next p \/ (p_next p = 1 /\ p_next p' = 1))
     end).
Proof.
  intros p r h Hn. split; intros H; [apply decr_stale; auto|apply decr_genuine; auto].
Qed.
Print Assumptions C08_rejections.
Example C08_example : pr_maybe_decr_to 9 4 (new_progress 10 3 8 false true) =
   (set_p_next 5 (new_progress 10 3 8 false true), true) /\
  pr_maybe_decr_to 8 4 (new_progress 10 3 8 false true) = (new_progress 10 3 8 false true, false).
Proof. split; reflexivity. Qed.

(** C09: whatever sequence of (voter, answer) pairs is recorded after ResetVotes, every voter's
    first answer counts; TallyVotes counts them over the tracked non-learners, and its result is the
    vote result of the first answers.  Hence later answers change nothing. *)
Theorem C09_first_vote_counts : forall (t : tracker) (vs : list (N * bool)),
  t_votes t = [] ->
  let t' := record_all vs t in
  (forall id, mget id (t_votes t') = first_vote vs id) /\
  (let '(granted, rejected, r) := trk_tally_votes t' in
     granted = nlen (filter (fun kv => negb (p_learner (snd kv)) && is_some_b true (first_vote vs (fst kv))) (t_progress t)) /\
     rejected = nlen (filter (fun kv => negb (p_learner (snd kv)) && is_some_b false (first_vote vs (fst kv))) (t_progress t)) /\
     (r = VoteWon <-> majority (tc_incoming (t_config t)) (voted_yes (first_vote vs)) /\
                      majority (tc_outgoing (t_config t)) (voted_yes (first_vote vs))) /\
     (r = VoteLost <-> forall w, extends (first_vote vs) w ->
        ~ (majority (tc_incoming (t_config t)) (voted_yes w) /\ majority (tc_outgoing (t_config t)) (voted_yes w)))).
Proof.
  intros t vs Hv t'. assert (H1 : forall id, mget id (t_votes t') = first_vote vs id).
  { intros id. unfold t'. rewrite record_all_get, Hv. reflexivity. }
  split; auto. unfold trk_tally_votes. rewrite tally_counts_spec.
  destruct (record_all_cfg vs t) as [Hc Hp]. fold t' in Hc, Hp. rewrite Hc, Hp.
  split; [f_equal; apply filter_ext; intros; rewrite H1; auto|].
  split; [f_equal; apply filter_ext; intros; rewrite H1; auto|].
  unfold tc_vote_result.
  assert (Hy : forall c, majority c (voted_yes (vget (t_votes t'))) <-> majority c (voted_yes (first_vote vs))).
  { intros c; split; apply majority_mono; intros x _; unfold voted_yes, vget; rewrite H1; auto. }
  split.
  - rewrite joint_won, !Hy. tauto.
  - rewrite joint_lost_ext. unfold extends, vget. split; intros H w Hw; apply H; intros id b Hb; apply Hw.
    + rewrite <- H1; auto.
    + rewrite H1; auto.
Qed.
Print Assumptions C09_first_vote_counts.
Definition C09_t := mkTracker (mkTConfig [1; 2; 3] [] false [4] [])
  [(1, new_progress 1 0 1 false false); (2, new_progress 1 0 1 false false); (3, new_progress 1 0 1 false false);
   (4, new_progress 1 0 1 true false)] [] 1.
Example C09_example : trk_tally_votes (record_all [(1, true); (2, false); (2, true); (4, true); (3, true)] C09_t)
  = (2, 1, VoteWon).
Proof. reflexivity. Qed.
