(** Proofs about src/quorum. *)
From Verif Require Import Prelude M_Quorum Spec_Quorum.
Ltac Zify.zify_post_hook ::= Z.div_mod_to_equations.

(* ---------- count ---------- *)
Lemma count_nil p : count p [] = 0. Proof. reflexivity. Qed.
Lemma count_cons p x c : count p (x :: c) = (if p x then 1 else 0) + count p c.
Proof. unfold count; cbn; destruct (p x); rewrite ?nlen_cons; lia. Qed.
Lemma count_app p a b : count p (a ++ b) = count p a + count p b.
Proof. unfold count; rewrite filter_app, nlen_app; lia. Qed.
Lemma count_le p c : count p c <= nlen c.
Proof. induction c; rewrite ?count_cons, ?nlen_cons; [reflexivity|destruct (p a); lia]. Qed.
Lemma count_mono p q c : (forall x, In x c -> p x = true -> q x = true) -> count p c <= count q c.
Proof.
  induction c; intros H; [reflexivity|]. rewrite !count_cons.
  assert (count p c <= count q c) by (apply IHc; intros; apply H; cbn; auto).
  specialize (H a (or_introl eq_refl)). destruct (p a), (q a); lia.
Qed.
Lemma count_ext p q c : (forall x, In x c -> p x = q x) -> count p c = count q c.
Proof. intros H; apply N.le_antisymm; apply count_mono; intros; rewrite ?H in *; auto; rewrite <- ?H; auto. Qed.
Lemma count_rev p c : count p (rev c) = count p c.
Proof. induction c; cbn; auto. rewrite count_app, count_cons, IHc, count_cons, count_nil; lia. Qed.
Lemma count_repeat p x n : count p (repeat x n) = if p x then N.of_nat n else 0.
Proof.
  induction n; cbn [repeat]; [destruct (p x); reflexivity|].
  rewrite count_cons, IHn; destruct (p x); lia.
Qed.
Lemma count_perm p a b : Permutation a b -> count p a = count p b.
Proof. induction 1; rewrite ?count_cons in *; lia. Qed.
Lemma count_both p q c : count p c + count q c <= nlen c + count (fun x => p x && q x) c.
Proof.
  induction c; [reflexivity|]. rewrite !count_cons, nlen_cons. destruct (p a), (q a); cbn; lia.
Qed.
Lemma count_pos p c : 0 < count p c -> exists x, In x c /\ p x = true.
Proof.
  induction c; [cbn; intros H; inv H|]. rewrite count_cons. destruct (p a) eqn:Hp.
  - exists a; cbn; auto.
  - intros H. destruct IHc as (x & ? & ?); [lia|]. exists x; cbn; auto.
Qed.

(** Pigeonhole: two majorities of a non-empty set share a member. *)
Lemma majority_intersect c p q :
  c <> [] -> majority c p -> majority c q -> exists id, In id c /\ p id = true /\ q id = true.
Proof.
  intros Hne [H|Hp]; [congruence|]; intros [H|Hq]; [congruence|].
  pose proof (count_both p q c). destruct (count_pos (fun x => p x && q x) c) as (x & Hx & Hb).
  - lia.
  - apply andb_true_iff in Hb. exists x; tauto.
Qed.

(* ---------- insertion sort ---------- *)
Definition rsorted := StronglySorted (fun a b : N => b <= a).
Lemma rinsert_perm x l : Permutation (rinsert x l) (x :: l).
Proof.
  induction l as [|y t IH]; cbn; auto. destruct (x <? y); auto.
  rewrite IH. apply perm_swap.
Qed.
Lemma rinsert_sorted x l : rsorted l -> rsorted (rinsert x l).
Proof.
  unfold rsorted; induction 1 as [|y t Hs IH Hf]; cbn; [repeat constructor|].
  destruct (N.ltb_spec x y).
  - constructor; auto. apply Forall_forall; intros z Hz.
    apply (Permutation_in _ (rinsert_perm x t)) in Hz. destruct Hz as [<-|Hz]; [lia|].
    rewrite Forall_forall in Hf; auto.
  - constructor; [constructor; auto|]. constructor; auto.
    eapply Forall_impl; [|eassumption]. cbn; intros; lia.
Qed.
Lemma isort_fold l : forall acc, rsorted acc ->
  rsorted (fold_left (fun acc x => rinsert x acc) l acc) /\
  Permutation (fold_left (fun acc x => rinsert x acc) l acc) (acc ++ l).
Proof.
  induction l as [|x t IH]; cbn; intros acc Hs; [rewrite app_nil_r; auto|].
  destruct (IH (rinsert x acc) (rinsert_sorted _ _ Hs)) as [H1 H2]. split; auto.
  rewrite H2, rinsert_perm. cbn. apply Permutation_middle.
Qed.

(** In a descending list the elements >= i are a prefix. *)
Lemma rsorted_nth l : rsorted l -> forall k v i, nth_error l k = Some v ->
  (i <= v <-> N.of_nat k < count (fun x => i <=? x) l).
Proof.
  unfold rsorted; induction 1 as [|y t Hs IH Hf]; intros k v i Hk; [destruct k; discriminate|].
  rewrite count_cons. destruct k; cbn in Hk.
  - inv Hk. destruct (N.leb_spec i v); [split; intros; lia|].
    split; [lia|]. intros Hc. exfalso.
    destruct (count_pos (fun x => i <=? x) t) as (z & Hz & Hi); [lia|].
    rewrite Forall_forall in Hf. specialize (Hf z Hz). lia.
  - specialize (IH k v i Hk). destruct (N.leb_spec i y); [lia|].
    rewrite Forall_forall in Hf. specialize (Hf v (nth_error_In _ _ Hk)).
    split; [lia|]. intros Hc. apply IH; lia.
Qed.

Lemma fill_len c l : List.length (fill c l) = List.length c.
Proof.
  unfold fill; rewrite app_length, repeat_length, rev_length.
  assert (List.length (acked_values c l) <= List.length c)%nat; [|lia].
  induction c as [|id t IH]; cbn; auto. destruct (l id); cbn; lia.
Qed.
Lemma acked_values_len c l : (List.length (acked_values c l) <= List.length c)%nat.
Proof. induction c as [|id t IH]; cbn; auto. destruct (l id); cbn; lia. Qed.
Lemma fill_count c l i : count (fun x => i <=? x) (fill c l) = count (acked l i) c.
Proof.
  unfold fill. rewrite count_app, count_repeat, count_rev.
  assert (H : forall c, count (fun x => i <=? x) (acked_values c l)
            + (if i =? 0 then N.of_nat (List.length c - List.length (acked_values c l)) else 0)
            = count (acked l i) c).
  { induction c0 as [|id t IH]; [destruct (i =? 0); reflexivity|].
    pose proof (acked_values_len t l).
    cbn [acked_values]. rewrite (count_cons (acked l i)). unfold acked at 1.
    destruct (l id) as [v|]; cbn [List.length]; rewrite ?count_cons; cbn [List.length] in *;
      destruct (i =? 0) eqn:?; try destruct (i <=? v) eqn:?; lia. }
  rewrite <- (H c). destruct (N.eqb_spec i 0); destruct (N.leb_spec i 0); lia.
Qed.

Lemma majority_ci_spec c l :
  exists ci, majority_committed_index c l = Ok ci /\
    forall i, i <= UINT64_MAX -> (i <= ci <-> majority c (acked l i)).
Proof.
  unfold majority_committed_index.
  destruct (N.eqb_spec (nlen c) 0) as [Hz|Hz].
  { apply nlen_0 in Hz; subst. eexists; split; eauto. intros. split; intros; auto. left; auto. }
  destruct (isort_fold (fill c l) []) as [Hs Hp]; [constructor|]. cbn in Hp.
  set (srt := fold_left (fun acc x => rinsert x acc) (fill c l) []) in *.
  assert (Hlen : List.length srt = List.length c)
    by (rewrite (Permutation_length Hp); apply fill_len).
  assert (Hq : nlen c - (nlen c / 2 + 1) < nlen c) by lia.
  unfold nnth. unfold insertion_sort. fold srt.
  set (pos := nlen c - (nlen c / 2 + 1)) in *.
  destruct (nth_error (rev srt) (N.to_nat pos)) as [v|] eqn:Hv.
  2:{ apply nth_error_None in Hv. rewrite rev_length, Hlen in Hv. unfold nlen in *. lia. }
  exists v; split; auto. intros i Hi.
  assert (Hv' : nth_error srt (List.length c - 1 - N.to_nat pos) = Some v).
  { clear -Hv Hlen Hq. 
    assert (HH : (N.to_nat pos < List.length srt)%nat) by (unfold nlen in *; lia).
    pose proof (nth_error_nth' (rev srt) 0 (n := N.to_nat pos)) as H1.
    rewrite rev_length in H1. specialize (H1 HH). rewrite H1 in Hv. inv Hv.
    rewrite rev_nth by auto.
    rewrite (nth_error_nth' srt 0) by lia. f_equal. f_equal. lia. }
  rewrite (rsorted_nth _ Hs _ _ i Hv').
  rewrite (count_perm _ _ _ Hp), fill_count.
  unfold majority. unfold pos, nlen in *. split; intros H.
  - right. lia.
  - destruct H as [->|H]; [cbn in Hz; lia|]. lia.
Qed.

Lemma joint_ci_spec c0 c1 l :
  exists ci, joint_committed_index c0 c1 l = Ok ci /\
    forall i, i <= UINT64_MAX ->
      (i <= ci <-> majority c0 (acked l i) /\ majority c1 (acked l i)).
Proof.
  unfold joint_committed_index.
  destruct (majority_ci_spec c0 l) as (a & -> & Ha), (majority_ci_spec c1 l) as (b & -> & Hb).
  cbn. eexists; split; eauto. intros i Hi. rewrite <- Ha, <- Hb by auto. lia.
Qed.

(* ---------- votes ---------- *)
Definition vget (votes : nmap bool) : N -> option bool := fun id => mget id votes.

Lemma count_votes_spec c votes :
  count_votes c votes =
    (count (voted_yes (vget votes)) c,
     count (fun id => match mget id votes with None => true | _ => false end) c).
Proof.
  induction c as [|id t IH]; [reflexivity|]. cbn [count_votes]. rewrite IH, !count_cons.
  unfold voted_yes, vget. destruct (mget id votes) as [[]|]; f_equal; lia.
Qed.

Lemma majority_won c votes :
  majority_vote_result c votes = VoteWon <-> majority c (voted_yes (vget votes)).
Proof.
  unfold majority_vote_result. destruct c as [|x c]; [split; auto; left; auto|].
  rewrite count_votes_spec. unfold majority.
  match goal with |- context[?a <=? count ?p ?l] => generalize (count p l) as y; intros y end.
  generalize (count (fun id => match mget id votes with None => true | _ => false end) (x :: c)) as m; intros m.
  destruct (N.leb_spec (nlen (x :: c) / 2 + 1) y).
  - split; auto. right; lia.
  - destruct (N.leb_spec (nlen (x :: c) / 2 + 1) (y + m)); split; try discriminate;
      intros [?|?]; try discriminate; lia.
Qed.

(** A lost vote: even if every missing voter votes yes there is no majority. *)
Lemma majority_lost c votes :
  majority_vote_result c votes = VoteLost <->
  ~ majority c (fun id => match mget id votes with Some b => b | None => true end).
Proof.
  unfold majority_vote_result. destruct c as [|x c]; [split; [discriminate|intros H; exfalso; apply H; left; auto]|].
  rewrite count_votes_spec. unfold majority.
  assert (Hs : forall c, count (fun id => match mget id votes with Some b => b | None => true end) c
    = count (voted_yes (vget votes)) c
      + count (fun id => match mget id votes with None => true | _ => false end) c).
  { induction c0; [reflexivity|]. rewrite !count_cons, IHc0. unfold voted_yes, vget.
    destruct (mget a votes) as [[]|]; lia. }
  rewrite Hs.
  match goal with |- context[?a <=? count ?p ?l] => generalize (count p l) as y; intros y end.
  generalize (count (fun id => match mget id votes with None => true | _ => false end) (x :: c)) as m; intros m.
  destruct (N.leb_spec (nlen (x :: c) / 2 + 1) y).
  - split; [discriminate|]. intros H1; exfalso; apply H1; right; lia.
  - destruct (N.leb_spec (nlen (x :: c) / 2 + 1) (y + m)).
    + split; [discriminate|]. intros H1; exfalso; apply H1; right; lia.
    + split; auto. intros _ [?|?]; [discriminate|lia].
Qed.

Lemma joint_won c0 c1 votes :
  joint_vote_result c0 c1 votes = VoteWon <->
  majority c0 (voted_yes (vget votes)) /\ majority c1 (voted_yes (vget votes)).
Proof.
  rewrite <- !majority_won. unfold joint_vote_result.
  destruct (majority_vote_result c0 votes), (majority_vote_result c1 votes); cbn;
    split; try tauto; try discriminate; intros []; discriminate.
Qed.

Lemma joint_lost c0 c1 votes :
  joint_vote_result c0 c1 votes = VoteLost <->
  ~ majority c0 (fun id => match mget id votes with Some b => b | None => true end) \/
  ~ majority c1 (fun id => match mget id votes with Some b => b | None => true end).
Proof.
  rewrite <- !majority_lost. unfold joint_vote_result.
  destruct (majority_vote_result c0 votes), (majority_vote_result c1 votes); cbn;
    split; try tauto; try discriminate; intros []; discriminate.
Qed.

Lemma majority_mono c p q : (forall x, In x c -> p x = true -> q x = true) ->
  majority c p -> majority c q.
Proof. intros H [->|Hm]; [left; auto|right]. pose proof (count_mono p q c H). lia. Qed.

(** Lost iff no way of completing the vote wins. *)
Lemma joint_lost_ext c0 c1 votes :
  joint_vote_result c0 c1 votes = VoteLost <->
  forall w, extends (vget votes) w ->
    ~ (majority c0 (voted_yes w) /\ majority c1 (voted_yes w)).
Proof.
  rewrite joint_lost. split.
  - intros H w Hw [H0 H1].
    assert (Hm : forall x, voted_yes w x = true ->
              match mget x votes with Some b => b | None => true end = true).
    { unfold voted_yes. intros x. specialize (Hw x). unfold vget in Hw.
      destruct (mget x votes); auto. rewrite (Hw b eq_refl). auto. }
    destruct H as [H|H]; apply H; eapply majority_mono; try eassumption; auto.
  - intros H.
    set (w := fun id => Some (match mget id votes with Some b => b | None => true end)).
    assert (Hw : extends (vget votes) w) by (intros id b; unfold vget, w; intros ->; auto).
    specialize (H w Hw).
    destruct (majority_vote_result c0 votes) eqn:R0.
    2:{ apply majority_lost in R0; auto. }
    + destruct (majority_vote_result c1 votes) eqn:R1.
      2:{ apply majority_lost in R1; auto. }
      all: exfalso; apply H; split.
      all: match goal with |- majority ?c _ =>
        assert (majority_vote_result c votes <> VoteLost) by congruence end.
      all: rewrite majority_lost in *.
      all: match goal with H : ~ ~ majority ?c _ |- majority ?c _ => 
        unfold majority in *; unfold voted_yes, w end.
      all: match goal with |- ?c = [] \/ _ => destruct c; [left; reflexivity|right] end.
      all: match goal with |- ?a < ?b => destruct (N.ltb_spec a b); [assumption|exfalso] end.
      all: match goal with H : ~ ~ _ |- _ => apply H end; intros [?|?]; [discriminate|lia].
    + destruct (majority_vote_result c1 votes) eqn:R1.
      2:{ apply majority_lost in R1; auto. }
      all: exfalso; apply H; split.
      all: match goal with |- majority ?c _ =>
        assert (majority_vote_result c votes <> VoteLost) by congruence end.
      all: rewrite majority_lost in *.
      all: match goal with H : ~ ~ majority ?c _ |- majority ?c _ => 
        unfold majority in *; unfold voted_yes, w end.
      all: match goal with |- ?c = [] \/ _ => destruct c; [left; reflexivity|right] end.
      all: match goal with |- ?a < ?b => destruct (N.ltb_spec a b); [assumption|exfalso] end.
      all: match goal with H : ~ ~ _ |- _ => apply H end; intros [?|?]; [discriminate|lia].
Qed.
