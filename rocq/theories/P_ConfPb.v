(** Proofs about ConfState equality and the textual form of conf changes. *)
From Coq Require Import DecimalString DecimalN DecimalNat Decimal.
From Verif Require Import Prelude Types M_Util M_ConfPb.

(* ---------- sorting ---------- *)
Lemma sort_insert_perm x l : Permutation (x :: l) (sort_insert x l).
Proof.
  induction l as [|y l IH]; cbn; auto. destruct (x <=? y); auto.
  rewrite perm_swap. constructor. auto.
Qed.
Lemma nsort_perm l : Permutation l (nsort l).
Proof. induction l as [|x l IH]; cbn; auto. rewrite <- sort_insert_perm. constructor; auto. Qed.
Lemma sort_insert_sorted x l : StronglySorted N.le l -> StronglySorted N.le (sort_insert x l).
Proof.
  induction 1 as [|y l Hs IH Hf]; cbn; [constructor; constructor|].
  destruct (N.leb_spec x y).
  - constructor; [constructor; auto|]. constructor; auto.
    eapply Forall_impl; [|exact Hf]. cbn; intros; lia.
  - constructor; auto. rewrite Forall_forall in *. intros z Hz.
    apply (Permutation_in z (Permutation_sym (sort_insert_perm x l))) in Hz. destruct Hz as [<-|Hz]; [lia|auto].
Qed.
Lemma nsort_sorted l : StronglySorted N.le (nsort l).
Proof. induction l as [|x l IH]; cbn; [constructor|]. apply sort_insert_sorted; auto. Qed.

Lemma sorted_perm_eq a : StronglySorted N.le a -> forall b, StronglySorted N.le b -> Permutation a b -> a = b.
Proof.
  induction 1 as [|x a Ha IH Hf]; intros b Hb P.
  - apply Permutation_nil in P. auto.
  - destruct Hb as [|y b Hb Hg]; [apply Permutation_sym, Permutation_nil in P; discriminate|].
    assert (x = y).
    { rewrite Forall_forall in *.
      assert (Hx : In x (y :: b)) by (eapply Permutation_in; [exact P|cbn; auto]).
      assert (Hy : In y (x :: a)) by (eapply Permutation_in; [apply Permutation_sym, P|cbn; auto]).
      destruct Hx as [|Hx]; auto. destruct Hy as [|Hy]; auto.
      specialize (Hf _ Hy). specialize (Hg _ Hx). lia. }
    subst y. f_equal. apply IH; auto. eapply Permutation_cons_inv; eauto.
Qed.

Lemma nsort_eq a b : nsort a = nsort b <-> Permutation a b.
Proof.
  split; intros H.
  - rewrite (nsort_perm a), H. symmetry. apply nsort_perm.
  - apply sorted_perm_eq; auto using nsort_sorted. rewrite <- !nsort_perm. auto.
Qed.
Lemma list_eqb_eq a : forall b, list_eqb a b = true <-> a = b.
Proof.
  induction a as [|x a IH]; intros [|y b]; cbn; split; intros H; auto; try discriminate.
  - apply andb_true_iff in H. destruct H as [H1 H2]. apply N.eqb_eq in H1. apply IH in H2. congruence.
  - inv H. rewrite N.eqb_refl. cbn. apply IH; auto.
Qed.

(* ---------- strings ---------- *)
Local Open Scope string_scope.
Fixpoint all_char (p : ascii -> bool) (s : string) : bool :=
  match s with EmptyString => true | String c t => p c && all_char p t end.
Lemma all_char_app p a b : all_char p (a ++ b) = (all_char p a && all_char p b)%bool.
Proof. induction a; cbn; auto. rewrite IHa, andb_assoc. auto. Qed.
Lemma sapp_nil (s : string) : s ++ "" = s.
Proof. induction s; cbn; congruence. Qed.
Lemma sapp_assoc (a b c : string) : (a ++ b) ++ c = a ++ (b ++ c).
Proof. induction a; cbn; congruence. Qed.

Definition nosp (s : string) : bool := all_char (fun c => negb (Ascii.eqb c " ")) s.

Lemma split_go_nosp s : forall cur, nosp s = true -> split_go " " s cur = [cur ++ s].
Proof.
  induction s as [|c s IH]; intros cur H; cbn in *; [rewrite sapp_nil; auto|].
  apply andb_true_iff in H. destruct H as [H1 H2]. apply negb_true_iff in H1. rewrite H1.
  rewrite IH by exact H2. rewrite sapp_assoc. reflexivity.
Qed.
Lemma split_go_sep t s : forall cur, nosp t = true ->
  split_go " " (t ++ String " " s) cur = (cur ++ t) :: split_go " " s "".
Proof.
  induction t as [|c t IH]; intros cur H; cbn in *; [rewrite sapp_nil; auto|].
  apply andb_true_iff in H. destruct H as [H1 H2]. apply negb_true_iff in H1. rewrite H1.
  rewrite IH by exact H2. rewrite sapp_assoc. reflexivity.
Qed.
Lemma split_concat toks : forall t0, Forall (fun t => nosp t = true) (t0 :: toks) ->
  split (String.concat " " (t0 :: toks)) " " = t0 :: toks.
Proof.
  unfold split. induction toks as [|t1 toks IH]; intros t0 H; inv H.
  - cbn. rewrite split_go_nosp; auto.
  - change (String.concat " " (t0 :: t1 :: toks)) with (t0 ++ String " " (String.concat " " (t1 :: toks))).
    rewrite split_go_sep by auto. cbn [String.append]. f_equal. apply IH; auto.
Qed.

Fixpoint last_char (s : string) : option ascii :=
  match s with EmptyString => None | String c EmptyString => Some c | String _ t => last_char t end.
Lemma last_char_app a b : b <> "" -> last_char (a ++ b) = last_char b.
Proof.
  intros Hb. induction a as [|c a IH]; cbn; auto.
  destruct (a ++ b) eqn:E; [|auto]. destruct a; cbn in E; [congruence|discriminate].
Qed.
Lemma drop_trailing_id s : last_char s <> Some " "%char -> drop_trailing " " s = s.
Proof.
  induction s as [|c s IH]; cbn; auto. intros H. destruct s as [|c' s].
  - cbn. destruct (Ascii.eqb_spec c " "); [subst; congruence|auto].
  - rewrite IH by auto. auto.
Qed.
Lemma nosp_last s : nosp s = true -> last_char s <> Some " "%char.
Proof.
  induction s as [|c s IH]; cbn; [discriminate|]. intros H. apply andb_true_iff in H. destruct H as [H1 H2].
  destruct s; [|auto]. intros E. inv E. discriminate.
Qed.

(* ---------- decimal ---------- *)
Lemma read_digits_acc d : forall p, read_digits (NilEmpty.string_of_uint d) (Npos p) = Npos (Pos.of_uint_acc d p).
Proof.
  induction d; intros p; auto; cbn [NilEmpty.string_of_uint read_digits];
  match goal with |- context[digit_of ?c] => let v := eval vm_compute in (digit_of c) in change (digit_of c) with v end;
  cbv beta iota; cbn [Pos.of_uint_acc];
  rewrite <- IHd; f_equal; lia.
Qed.
Lemma read_digits_0 d : read_digits (NilEmpty.string_of_uint d) 0 = N.of_uint d.
Proof.
  induction d; auto; cbn [NilEmpty.string_of_uint read_digits];
  match goal with |- context[digit_of ?c] => let v := eval vm_compute in (digit_of c) in change (digit_of c) with v end;
  cbv beta iota; unfold N.of_uint; cbn [Pos.of_uint];
  match goal with |- context[0 * 10 + ?k] => change (0 * 10 + k) with k end; apply read_digits_acc.
Qed.
Definition is_digit (c : ascii) : bool := match digit_of c with Some _ => true | None => false end.
Lemma uint_digits d : all_char is_digit (NilEmpty.string_of_uint d) = true.
Proof. induction d; cbn [NilEmpty.string_of_uint all_char]; auto; rewrite IHd; reflexivity. Qed.
Lemma dec_string_digits n : all_char is_digit (dec_string n) = true /\ dec_string n <> "" /\ read_digits (dec_string n) 0 = n.
Proof.
  unfold dec_string. pose proof (DecimalN.Unsigned.of_to n) as H. destruct (N.to_uint n) eqn:E;
    cbn [NilZero.string_of_uint].
  1: { cbn in H. subst n. split; [reflexivity|]. split; [discriminate|reflexivity]. }
  all: split; [apply uint_digits|split; [cbn; discriminate|]].
  all: rewrite read_digits_0; auto.
Qed.

Lemma digit_not_space c : is_digit c = true -> is_space c = false /\ Ascii.eqb c " " = false /\
  Ascii.eqb c "-" = false /\ Ascii.eqb c "+" = false.
Proof.
  unfold is_digit, digit_of, is_space.
  assert (Hn : forall d, Ascii.eqb c d = true -> N_of_ascii c = N_of_ascii d)
    by (intros d H; apply Ascii.eqb_eq in H; congruence).
  destruct (andb (48 <=? N_of_ascii c)%N (N_of_ascii c <=? 57)%N) eqn:E; [intros _|discriminate].
  apply andb_true_iff in E. destruct E as [E1 E2]. apply N.leb_le in E1, E2.
  split; [lia|].
  assert (G : forall d, (N_of_ascii d < 48)%N -> Ascii.eqb c d = false).
  { intros d Hd. destruct (Ascii.eqb c d) eqn:X; auto. apply Hn in X. lia. }
  split; [|split]; apply G; vm_compute; reflexivity.
Qed.

Lemma strtoull_digits s : all_char is_digit s = true -> s <> "" -> (read_digits s 0 < U64)%N ->
  strtoull s = read_digits s 0.
Proof.
  intros H Hne Hlt. destruct s as [|c s]; [congruence|]. cbn [all_char] in H.
  apply andb_true_iff in H. destruct H as [Hc _].
  destruct (digit_not_space c Hc) as (H1 & _ & H2 & H3).
  unfold strtoull. cbn [skip_spaces]. rewrite H1. rewrite H2, H3.
  unfold UINT64_MAX, U64 in *. destruct (N.ltb_spec 18446744073709551615 (read_digits (String c s) 0)); auto. lia.
Qed.

Lemma digits_nosp s : all_char is_digit s = true -> nosp s = true.
Proof.
  unfold nosp. induction s as [|c s IH]; cbn; auto. intros H. apply andb_true_iff in H. destruct H as [H1 H2].
  destruct (digit_not_space c H1) as (_ & -> & _). cbn. auto.
Qed.

Lemma parse_cc_token c : (cc_node c < U64)%N -> parse_token (cc_token c) = Some c.
Proof.
  intros Hlt. destruct c as [t n]; cbn in Hlt.
  destruct (dec_string_digits n) as (H1 & H2 & H3).
  assert (Hs : strtoull (dec_string n) = n) by (rewrite strtoull_digits; auto; rewrite H3; auto).
  unfold cc_token; cbn [cc_type cc_node]. destruct (dec_string n) as [|d s] eqn:E; [congruence|].
  destruct t; cbn [cc_letter String.append parse_token]; rewrite Hs; reflexivity.
Qed.
Lemma cc_token_nosp c : nosp (cc_token c) = true.
Proof.
  unfold cc_token. destruct (dec_string_digits (cc_node c)) as (H1 & _).
  pose proof (digits_nosp _ H1) as H2. unfold nosp in *. rewrite all_char_app, H2.
  destruct (cc_type c); reflexivity.
Qed.
Lemma cc_token_ne c : exists a s, cc_token c = String a s /\ Ascii.eqb a " " = false.
Proof. unfold cc_token. destruct (cc_type c); cbn; eexists _, _; split; reflexivity. Qed.

Lemma concat_last t0 toks : Forall (fun t => nosp t = true /\ t <> "") (t0 :: toks) ->
  last_char (String.concat " " (t0 :: toks)) <> Some " "%char /\ String.concat " " (t0 :: toks) <> "".
Proof.
  revert t0; induction toks as [|t1 toks IH]; intros t0 H; inv H.
  - cbn. split; [apply nosp_last|]; apply H2.
  - change (String.concat " " (t0 :: t1 :: toks)) with (t0 ++ (" " ++ String.concat " " (t1 :: toks))).
    destruct (IH t1 H3) as [A B]. split.
    + rewrite !last_char_app; auto. cbn; discriminate.
    + destruct t0; cbn; discriminate.
Qed.

Lemma parse_tokens_all ccs : Forall (fun c => (cc_node c < U64)%N) ccs ->
  parse_tokens (map cc_token ccs) = Some ccs.
Proof.
  induction 1 as [|c ccs H _ IH]; cbn; auto. rewrite parse_cc_token, IH by auto. auto.
Qed.

Lemma cc_round_trip ccs : Forall (fun c => (cc_node c < U64)%N) ccs ->
  cc_from_string (cc_to_string ccs) = Some ccs.
Proof.
  intros H. unfold cc_from_string, cc_to_string. destruct ccs as [|c0 ccs]; [reflexivity|].
  cbn [map]. destruct (cc_token_ne c0) as (a & s & E & Ha).
  assert (HF : Forall (fun t => nosp t = true /\ t <> "") (cc_token c0 :: map cc_token ccs)).
  { change (cc_token c0 :: map cc_token ccs) with (map cc_token (c0 :: ccs)). apply Forall_forall.
    intros t Ht. apply in_map_iff in Ht. destruct Ht as (c & <- & _). split; [apply cc_token_nosp|].
    destruct (cc_token_ne c) as (a' & s' & -> & _). discriminate. }
  destruct (concat_last _ _ HF) as [HL HN].
  unfold trim.
  assert (HD : drop_leading " " (String.concat " " (cc_token c0 :: map cc_token ccs)) =
               String.concat " " (cc_token c0 :: map cc_token ccs)).
  { rewrite E. destruct (map cc_token ccs); cbn; rewrite Ha; auto. }
  rewrite HD, drop_trailing_id by auto.
  rewrite split_concat by (eapply Forall_impl; [|exact HF]; cbn; tauto).
  rewrite E at 1. cbn [String.eqb]. change (cc_token c0 :: map cc_token ccs) with (map cc_token (c0 :: ccs)).
  apply parse_tokens_all; auto.
Qed.
