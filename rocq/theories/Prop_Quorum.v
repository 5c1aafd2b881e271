(** C01-C04: quorum arithmetic.  Specification: Spec_Quorum.v. *)
From Verif Require Import Prelude M_Quorum Spec_Quorum P_Quorum.

(** C01: the commit index of a majority config never fails and is the largest index acknowledged
    by more than half of the voters ([UINT64_MAX] for no voters); [l id] is what voter [id] reported. *)
Theorem C01_majority_committed_index_exact : forall (c : nset) (l : N -> option N),
  (forall id v, l id = Some v -> v <= UINT64_MAX) ->
  exists ci, majority_committed_index c l = Ok ci /\
    majority c (acked l ci) /\
    (forall i, i <= UINT64_MAX -> majority c (acked l i) -> i <= ci) /\
    (c = [] -> ci = UINT64_MAX).
Proof.
  intros c l Hl. destruct (majority_ci_spec c l) as (ci & H1 & H2). exists ci. split; auto.
  assert (Hb : ci <= UINT64_MAX).
  { destruct (N.leb_spec ci UINT64_MAX) as [|Hgt]; auto. exfalso.
    unfold majority_committed_index in H1. destruct (nlen c =? 0) eqn:Hz; [inv H1; lia|].
    destruct (nnth (insertion_sort (fill c l)) (nlen c - (nlen c / 2 + 1))) eqn:Hn; inv H1.
    unfold nnth in Hn. apply nth_error_In in Hn. unfold insertion_sort in Hn. apply in_rev in Hn.
    destruct (isort_fold (fill c l) []) as [_ Hp]; [constructor|].
    apply (Permutation_in _ Hp) in Hn. cbn in Hn. unfold fill in Hn. apply in_app_or in Hn.
    destruct Hn as [Hn|Hn]; [apply repeat_spec in Hn; subst; discriminate|].
    apply in_rev in Hn.
    assert (Hex : forall c, In ci (acked_values c l) -> exists id, l id = Some ci).
    { induction c0 as [|id t IH]; cbn; [tauto|]. destruct (l id) eqn:E; cbn; auto.
      intros [->|H]; eauto. }
    destruct (Hex c Hn) as [id Hid]. apply Hl in Hid. lia. }
  split; [apply H2; lia|]. split; [intros i Hi Hm; apply H2; auto|].
  intros ->. cbn in H1. inv H1. auto.
Qed.
Print Assumptions C01_majority_committed_index_exact.

Example C01_example : majority_committed_index [1; 2; 3; 4; 5]
  (fun id => mget id [(1, 12); (2, 5); (4, 7)]) = Ok 5.
Proof. reflexivity. Qed.

(** C02: joint configuration: the largest index acknowledged by both halves. *)
Theorem C02_joint_committed_index_exact : forall (c0 c1 : nset) (l : N -> option N),
  (forall id v, l id = Some v -> v <= UINT64_MAX) ->
  exists ci, joint_committed_index c0 c1 l = Ok ci /\
    (majority c0 (acked l ci) /\ majority c1 (acked l ci)) /\
    (forall i, i <= UINT64_MAX -> majority c0 (acked l i) -> majority c1 (acked l i) -> i <= ci) /\
    (c1 = [] -> majority_committed_index c0 l = Ok ci) /\
    (c0 = [] -> majority_committed_index c1 l = Ok ci).
Proof.
  intros c0 c1 l Hl.
  destruct (C01_majority_committed_index_exact c0 l Hl) as (a & A1 & A2 & A3 & A4).
  destruct (C01_majority_committed_index_exact c1 l Hl) as (b & B1 & B2 & B3 & B4).
  destruct (joint_ci_spec c0 c1 l) as (ci & J1 & J2). exists ci. split; auto.
  assert (Hm : forall c, majority_committed_index c l = Ok UINT64_MAX \/ forall v, majority_committed_index c l = Ok v -> v <= UINT64_MAX).
  { intros c. destruct (C01_majority_committed_index_exact c l Hl) as (v & V1 & V2 & V3 & V4).
    destruct (N.leb_spec v UINT64_MAX); [right; intros v' Hv'; congruence|].
    exfalso. assert (Hx : exists w, majority_committed_index c l = Ok w /\ w <= UINT64_MAX).
    { clear - Hl. unfold majority_committed_index. destruct (nlen c =? 0) eqn:Hz; [exists UINT64_MAX; split; auto; lia|].
      destruct (majority_ci_spec c l) as (w & W1 & W2). unfold majority_committed_index in W1. rewrite Hz in W1.
      exists w. split; auto. destruct (N.leb_spec w UINT64_MAX); auto. exfalso.
      destruct (nnth (insertion_sort (fill c l)) (nlen c - (nlen c / 2 + 1))) eqn:Hn; inv W1.
      unfold nnth in Hn. apply nth_error_In in Hn. unfold insertion_sort in Hn. apply in_rev in Hn.
      destruct (isort_fold (fill c l) []) as [_ Hp]; [constructor|].
      apply (Permutation_in _ Hp) in Hn. cbn in Hn. unfold fill in Hn. apply in_app_or in Hn.
      destruct Hn as [Hn|Hn]; [apply repeat_spec in Hn; subst; discriminate|].
      apply in_rev in Hn.
      assert (Hex : forall c, In w (acked_values c l) -> exists id, l id = Some w).
      { induction c0 as [|id t IH]; cbn; [tauto|]. destruct (l id) eqn:E; cbn; auto.
        intros [->|Hh]; eauto. }
      destruct (Hex c Hn) as [id Hid]. apply Hl in Hid. lia. }
    destruct Hx as (w & W1 & W2). rewrite V1 in W1. inv W1. lia. }
  assert (Ha : a <= UINT64_MAX) by (destruct (Hm c0) as [E|E]; [rewrite A1 in E; inv E; lia|auto]).
  assert (Hb : b <= UINT64_MAX) by (destruct (Hm c1) as [E|E]; [rewrite B1 in E; inv E; lia|auto]).
  unfold joint_committed_index in J1. rewrite A1, B1 in J1. cbn in J1. injection J1 as J1.
  split; [apply J2; lia|]. split; [intros i Hi H0 H1; apply J2; auto|].
  split; intros ->.
  - rewrite A1. f_equal. rewrite B4 in J1 by auto. lia.
  - rewrite B1. f_equal. rewrite A4 in J1 by auto. lia.
Qed.
Print Assumptions C02_joint_committed_index_exact.
Example C02_example : joint_committed_index [1; 2; 3] [3; 4; 5]
  (fun id => mget id [(1, 9); (2, 8); (3, 4); (4, 6)]) = Ok 4.
Proof. reflexivity. Qed.

(** C03: vote results are exact and final. *)
Theorem C03_vote_result_exact : forall (c0 c1 : nset) (votes : nmap bool),
  (joint_vote_result c0 c1 votes = VoteWon <->
     majority c0 (voted_yes (fun id => mget id votes)) /\ majority c1 (voted_yes (fun id => mget id votes))) /\
  (joint_vote_result c0 c1 votes = VoteLost <->
     forall w, extends (fun id => mget id votes) w ->
       ~ (majority c0 (voted_yes w) /\ majority c1 (voted_yes w))) /\
  (forall votes', extends (fun id => mget id votes) (fun id => mget id votes') ->
     joint_vote_result c0 c1 votes <> VotePending ->
     joint_vote_result c0 c1 votes' = joint_vote_result c0 c1 votes) /\
  (joint_vote_result c0 [] votes = majority_vote_result c0 votes).
Proof.
  intros c0 c1 votes. split; [apply joint_won|]. split; [apply joint_lost_ext|]. split.
  - intros votes' He Hp. destruct (joint_vote_result c0 c1 votes) eqn:Hv; [congruence| |].
    + apply joint_lost_ext. intros w Hw. apply (proj1 (joint_lost_ext c0 c1 votes) Hv).
      intros id b Hb. apply Hw. apply He. auto.
    + apply joint_won. apply joint_won in Hv.
      destruct Hv as [V1 V2]. split; (eapply majority_mono; [|eassumption]); cbn; intros x _;
      unfold voted_yes, vget; specialize (He x); cbn in He; destruct (mget x votes) as [b|]; try discriminate;
      intros ->; rewrite (He true eq_refl); auto.
  - unfold joint_vote_result. cbn. destruct (majority_vote_result c0 votes); reflexivity.
Qed.
Print Assumptions C03_vote_result_exact.
Example C03_example_won : joint_vote_result [1; 2; 3] [3; 4; 5] [(1, true); (3, true); (4, true)] = VoteWon.
Proof. reflexivity. Qed.
Example C03_example_lost : joint_vote_result [1; 2; 3] [3; 4; 5] [(1, true); (3, true); (4, false); (5, false)] = VoteLost.
Proof. reflexivity. Qed.
Example C03_example_pending : joint_vote_result [1; 2; 3] [3; 4; 5] [(1, true); (3, true); (4, false)] = VotePending.
Proof. reflexivity. Qed.

(** C04: two elections won under one configuration share a yes voter; an index committed under a
    configuration is acknowledged by a yes voter of every election won under it. *)
Theorem C04_quorums_intersect : forall (c0 c1 : nset) (v1 v2 : nmap bool) (l : N -> option N) (ci i : N),
  c0 <> [] ->
  joint_vote_result c0 c1 v1 = VoteWon ->
  (joint_vote_result c0 c1 v2 = VoteWon ->
     exists id, In id c0 /\ mget id v1 = Some true /\ mget id v2 = Some true) /\
  (joint_committed_index c0 c1 l = Ok ci -> 0 < i -> i <= ci -> i <= UINT64_MAX ->
     exists id v, In id c0 /\ mget id v1 = Some true /\ l id = Some v /\ i <= v).
Proof.
  intros c0 c1 v1 v2 l ci i Hne H1. apply joint_won in H1. destruct H1 as [H1 _]. split.
  - intros H2. apply joint_won in H2. destruct H2 as [H2 _].
    destruct (majority_intersect c0 _ _ Hne H1 H2) as (id & Hi & Ha & Hb).
    unfold voted_yes, vget in *. exists id. split; auto.
    destruct (mget id v1) as [[]|], (mget id v2) as [[]|]; try discriminate; auto.
  - intros Hc H0 Hi Hm. destruct (joint_ci_spec c0 c1 l) as (ci' & J1 & J2).
    rewrite Hc in J1. inv J1. apply J2 in Hi; auto. destruct Hi as [Hi _].
    destruct (majority_intersect c0 _ _ Hne H1 Hi) as (id & Hin & Ha & Hb).
    unfold voted_yes, vget, acked in *. destruct (mget id v1) as [[]|] eqn:E; try discriminate.
    destruct (l id) as [v|] eqn:El; [|lia]. exists id, v. repeat split; auto; lia.
Qed.
Print Assumptions C04_quorums_intersect.
Example C04_example : joint_vote_result [1; 2; 3] [] [(1, true); (2, true)] = VoteWon /\
  joint_vote_result [1; 2; 3] [] [(2, true); (3, true)] = VoteWon /\
  joint_committed_index [1; 2; 3] [] (fun id => mget id [(1, 9); (3, 8)]) = Ok 8.
Proof. repeat split. Qed.
