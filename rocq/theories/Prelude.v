(** Common prelude: imports, the outcome monad, sorted maps and sets over N. *)
From Coq Require Export List Bool NArith ZArith Lia String Ascii Permutation Sorted.
From Coq Require Export ZifyBool ZifyNat ZifyN.
Export ListNotations.
#[export] Set Warnings "-notation-overridden".
Open Scope N_scope.
(* keep [nat] out of the way: list lengths are converted with [nlen] *)

Arguments N.add : simpl never.
Arguments N.sub : simpl never.
Arguments N.mul : simpl never.
Arguments N.div : simpl never.
Arguments N.modulo : simpl never.
Arguments N.eqb : simpl never.
Arguments N.leb : simpl never.
Arguments N.ltb : simpl never.
Arguments N.max : simpl never.
Arguments N.min : simpl never.
Arguments N.to_nat : simpl never.
Arguments N.of_nat : simpl never.

(** Outcome of a C++ call.
    [Fatal]: CRAFT_LOG_FATAL / assert failure (ConsoleLogger aborts, src/logger.cc).
    [UB]: undefined behaviour (null dereference, out-of-range index, inverted range).
    [NoFuel]: a loop of the model ran out of fuel; never a C++ outcome by itself. *)
Inductive res (A : Type) : Type :=
| Ok (a : A)
| Fatal (why : string)
| UB (why : string)
| NoFuel.
Arguments Ok {A} a.
Arguments Fatal {A} why.
Arguments UB {A} why.
Arguments NoFuel {A}.

Definition bind {A B} (m : res A) (f : A -> res B) : res B :=
  match m with
  | Ok a => f a
  | Fatal w => Fatal w
  | UB w => UB w
  | NoFuel => NoFuel
  end.

Declare Scope res_scope.
Delimit Scope res_scope with res.
Notation "x <- m ;; k" := (bind m (fun x => k))
  (at level 61, m at next level, right associativity) : res_scope.
Notation "' p <- m ;; k" := (bind m (fun p => k))
  (at level 61, p pattern, m at next level, right associativity) : res_scope.
Open Scope res_scope.

Lemma bind_ok {A B} (m : res A) (f : A -> res B) b :
  bind m f = Ok b <-> exists a, m = Ok a /\ f a = Ok b.
Proof.
  destruct m; cbn; split; intros H; try discriminate; eauto.
  - destruct H as (x & H1 & H2); inversion H1; subst; auto.
  - destruct H as (x & H1 & H2); discriminate.
  - destruct H as (x & H1 & H2); discriminate.
  - destruct H as (x & H1 & H2); discriminate.
Qed.

Ltac inv H := inversion H; subst; clear H.

(** Decompose hypotheses [bind m f = Ok r]. *)
Ltac mon :=
  repeat match goal with
  | H : bind _ _ = Ok _ |- _ =>
      let x := fresh "x" in let H1 := fresh "Hm" in
      apply bind_ok in H; destruct H as (x & H1 & H)
  | H : Ok _ = Ok _ |- _ => inv H
  | H : Fatal _ = Ok _ |- _ => discriminate H
  | H : UB _ = Ok _ |- _ => discriminate H
  | H : NoFuel = Ok _ |- _ => discriminate H
  end.

(** uint64 constants and wrapping subtraction. *)
Definition U64 : N := 18446744073709551616.
Definition UINT64_MAX : N := 18446744073709551615.
(** C++ unsigned subtraction [a - b] on values < 2^64. *)
Definition wsub (a b : N) : N := if b <=? a then a - b else U64 + a - b.

Definition nlen {A} (l : list A) : N := N.of_nat (List.length l).
Definition ntake {A} (n : N) (l : list A) : list A := firstn (N.to_nat n) l.
Definition ndrop {A} (n : N) (l : list A) : list A := skipn (N.to_nat n) l.
Definition nnth {A} (l : list A) (n : N) : option A := nth_error l (N.to_nat n).

Definition is_nil {A} (l : list A) : bool := match l with [] => true | _ => false end.

(** std::map<uint64_t, A>: association list kept sorted by key (iteration order). *)
Definition nmap (A : Type) := list (N * A).

Fixpoint mget {A} (k : N) (m : nmap A) : option A :=
  match m with
  | [] => None
  | (k', v) :: t => if k =? k' then Some v else mget k t
  end.

Fixpoint mset {A} (k : N) (v : A) (m : nmap A) : nmap A :=
  match m with
  | [] => [(k, v)]
  | (k', v') :: t =>
      if k <? k' then (k, v) :: m
      else if k =? k' then (k, v) :: t
      else (k', v') :: mset k v t
  end.

Fixpoint mdel {A} (k : N) (m : nmap A) : nmap A :=
  match m with
  | [] => []
  | (k', v') :: t => if k =? k' then mdel k t else (k', v') :: mdel k t
  end.

Definition mmap {A B} (f : N -> A -> B) (m : nmap A) : nmap B :=
  List.map (fun p => (fst p, f (fst p) (snd p))) m.

Definition keys {A} (m : nmap A) : list N := List.map fst m.

(** std::set<uint64_t>: sorted list. *)
Definition nset := list N.
Definition smem (k : N) (s : nset) : bool := existsb (N.eqb k) s.
Fixpoint sadd (k : N) (s : nset) : nset :=
  match s with
  | [] => [k]
  | k' :: t => if k <? k' then k :: s else if k =? k' then s else k' :: sadd k t
  end.
Fixpoint sdel (k : N) (s : nset) : nset :=
  match s with
  | [] => []
  | k' :: t => if k =? k' then sdel k t else k' :: sdel k t
  end.

(** Well-formedness: strictly increasing keys (what std::set/std::map guarantee). *)
Definition sorted (s : nset) : Prop := StronglySorted N.lt s.
Definition msorted {A} (m : nmap A) : Prop := sorted (keys m).

(* ---------- lemmas ---------- *)
Lemma nlen_nil {A} : nlen (@nil A) = 0. Proof. reflexivity. Qed.
(** Normalise lengths, then linear arithmetic. *)
Ltac nl := repeat match goal with
  | |- context[@nlen ?A (@nil ?A)] => change (@nlen A (@nil A)) with 0
  | H : context[@nlen ?A (@nil ?A)] |- _ => change (@nlen A (@nil A)) with 0 in H
  end; try lia.
Lemma nlen_cons {A} (a : A) l : nlen (a :: l) = 1 + nlen l.
Proof. unfold nlen; cbn [List.length]; lia. Qed.
Lemma nlen_app {A} (l1 l2 : list A) : nlen (l1 ++ l2) = nlen l1 + nlen l2.
Proof. unfold nlen; rewrite app_length; lia. Qed.
Lemma nlen_map {A B} (f : A -> B) l : nlen (List.map f l) = nlen l.
Proof. unfold nlen; rewrite map_length; lia. Qed.
Lemma nlen_0 {A} (l : list A) : nlen l = 0 <-> l = [].
Proof. destruct l; unfold nlen; cbn [List.length]; split; intros; auto; try discriminate; lia. Qed.
Lemma nlen_ntake {A} n (l : list A) : nlen (ntake n l) = N.min n (nlen l).
Proof. unfold nlen, ntake; rewrite firstn_length; lia. Qed.
Lemma nlen_ndrop {A} n (l : list A) : nlen (ndrop n l) = nlen l - n.
Proof. unfold nlen, ndrop; rewrite skipn_length; lia. Qed.

Lemma mget_mset_same {A} k (v : A) m : mget k (mset k v m) = Some v.
Proof.
  induction m as [|[k' v'] t IH]; cbn.
  - rewrite N.eqb_refl; auto.
  - destruct (N.ltb_spec k k'); cbn; [rewrite N.eqb_refl; auto|].
    destruct (N.eqb_spec k k'); cbn; [rewrite N.eqb_refl; auto|].
    destruct (N.eqb_spec k k'); [lia|auto].
Qed.

Lemma mget_mset_other {A} k k2 (v : A) m : k2 <> k -> mget k2 (mset k v m) = mget k2 m.
Proof.
  intros Hne; induction m as [|[k' v'] t IH]; cbn.
  - destruct (N.eqb_spec k2 k); [lia|auto].
  - destruct (N.ltb_spec k k'); cbn.
    + destruct (N.eqb_spec k2 k); [lia|auto].
    + destruct (N.eqb_spec k k'); cbn.
      * destruct (N.eqb_spec k2 k); [lia|]. destruct (N.eqb_spec k2 k'); [lia|auto].
      * destruct (N.eqb_spec k2 k'); auto.
Qed.

Lemma mget_mset {A} k k2 (v : A) m :
  mget k2 (mset k v m) = if k2 =? k then Some v else mget k2 m.
Proof.
  destruct (N.eqb_spec k2 k); [subst; apply mget_mset_same|apply mget_mset_other; auto].
Qed.

Lemma mget_mdel {A} k k2 (m : nmap A) :
  mget k2 (mdel k m) = if k2 =? k then None else mget k2 m.
Proof.
  induction m as [|[k' v'] t IH]; cbn.
  - destruct (k2 =? k); auto.
  - destruct (N.eqb_spec k k'); cbn.
    + rewrite IH. destruct (N.eqb_spec k2 k); auto. destruct (N.eqb_spec k2 k'); [lia|auto].
    + rewrite IH. destruct (N.eqb_spec k2 k); destruct (N.eqb_spec k2 k'); try lia; auto.
Qed.

Lemma mget_mmap {A B} (f : N -> A -> B) k m :
  mget k (mmap f m) = option_map (f k) (mget k m).
Proof.
  induction m as [|[k' v'] t IH]; cbn; auto.
  destruct (N.eqb_spec k k'); [subst; auto|auto].
Qed.

Lemma mget_In {A} k (v : A) m : mget k m = Some v -> In (k, v) m.
Proof.
  induction m as [|[k' v'] t IH]; cbn; [discriminate|].
  destruct (N.eqb_spec k k'); intros H; [inv H; auto|auto].
Qed.

Lemma mget_key {A} k (m : nmap A) : In k (keys m) <-> mget k m <> None.
Proof.
  induction m as [|[k' v'] t IH]; cbn; [split; [tauto|congruence]|].
  destruct (N.eqb_spec k k').
  - split; [congruence|auto].
  - rewrite <- IH. split; [intros [?|?]; [congruence|auto]|auto].
Qed.

Lemma keys_mmap {A B} (f : N -> A -> B) m : keys (mmap f m) = keys m.
Proof. unfold keys, mmap; rewrite map_map; cbn; reflexivity. Qed.

Lemma In_mset {A} k (v : A) m p : In p (mset k v m) -> p = (k, v) \/ In p m.
Proof.
  induction m as [|[k' v'] t IH]; cbn; [intros [H|[]]; auto|].
  destruct (k <? k'); cbn; [intros [H|[H|H]]; auto|].
  destruct (k =? k'); cbn; [intros [H|H]; auto|].
  intros [H|H]; auto. destruct (IH H); auto.
Qed.

Lemma keys_mset_present {A} k (v : A) m :
  msorted m -> In k (keys m) -> keys (mset k v m) = keys m.
Proof.
  unfold msorted, sorted; induction m as [|[k' v'] t IH]; cbn; [tauto|].
  intros Hs Hin. inv Hs.
  destruct (N.ltb_spec k k').
  - destruct Hin as [->|Hin]; [lia|].
    rewrite Forall_forall in H2. specialize (H2 _ Hin). lia.
  - destruct (N.eqb_spec k k'); cbn; [subst; auto|].
    destruct Hin as [->|Hin]; [lia|]. f_equal. apply IH; auto.
Qed.

Lemma In_keys_mset {A} k (v : A) m x : In x (keys (mset k v m)) <-> x = k \/ In x (keys m).
Proof.
  rewrite !mget_key, mget_mset. destruct (N.eqb_spec x k); split; intros; auto; try congruence.
  destruct H; [congruence|auto].
Qed.

Lemma sorted_cons_lt k s : sorted (k :: s) -> forall x, In x s -> k < x.
Proof. intros H; inv H. rewrite Forall_forall in H3. auto. Qed.

Lemma msorted_mset {A} k (v : A) m : msorted m -> msorted (mset k v m).
Proof.
  unfold msorted, sorted; induction m as [|[k' v'] t IH]; cbn; intros H.
  - constructor; auto; constructor.
  - destruct (N.ltb_spec k k'); cbn.
    + constructor; auto. inv H. constructor; auto.
      eapply Forall_impl; [|eassumption]. cbn; intros; lia.
    + destruct (N.eqb_spec k k'); cbn; [subst; auto|].
      inv H. constructor; auto.
      apply Forall_forall; intros x Hx.
      apply In_keys_mset in Hx. destruct Hx as [->|Hx]; [lia|].
      rewrite Forall_forall in H4; auto.
Qed.

Lemma msorted_mmap {A B} (f : N -> A -> B) m : msorted m -> msorted (mmap f m).
Proof. unfold msorted; rewrite keys_mmap; auto. Qed.

Lemma In_keys_mdel {A} k (m : nmap A) x : In x (keys (mdel k m)) <-> x <> k /\ In x (keys m).
Proof.
  rewrite !mget_key, mget_mdel. destruct (N.eqb_spec x k); split; intros; auto; try tauto.
Qed.

Lemma msorted_mdel {A} k (m : nmap A) : msorted m -> msorted (mdel k m).
Proof.
  unfold msorted, sorted; induction m as [|[k' v'] t IH]; cbn; intros H; auto.
  inv H. destruct (k =? k'); auto. cbn. constructor; auto.
  apply Forall_forall; intros x Hx. apply In_keys_mdel in Hx.
  rewrite Forall_forall in H3; apply H3; tauto.
Qed.

Lemma smem_In k s : smem k s = true <-> In k s.
Proof.
  unfold smem; rewrite existsb_exists; split.
  - intros (x & Hx & He). apply N.eqb_eq in He; subst; auto.
  - intros H; exists k; split; auto; apply N.eqb_refl.
Qed.
Lemma smem_not_In k s : smem k s = false <-> ~ In k s.
Proof. rewrite <- smem_In; destruct (smem k s); split; congruence. Qed.

Lemma In_sadd k s x : In x (sadd k s) <-> x = k \/ In x s.
Proof.
  induction s as [|k' t IH]; cbn; [intuition|].
  destruct (N.ltb_spec k k'); cbn; [intuition|].
  destruct (N.eqb_spec k k'); cbn; [subst; intuition|].
  rewrite IH; intuition.
Qed.

Lemma In_sdel k s x : In x (sdel k s) <-> x <> k /\ In x s.
Proof.
  induction s as [|k' t IH]; cbn; [tauto|].
  destruct (N.eqb_spec k k') as [->|Hne]; cbn; rewrite IH.
  - split; [tauto|]. intros [H1 [H2|H2]]; [congruence|tauto].
  - split; [intros [->|H]; intuition|tauto].
Qed.

Lemma sorted_sadd k s : sorted s -> sorted (sadd k s).
Proof.
  unfold sorted; induction s as [|k' t IH]; cbn; intros H; [constructor; auto; constructor|].
  destruct (N.ltb_spec k k').
  - constructor; auto. inv H. constructor; auto.
    eapply Forall_impl; [|eassumption]. cbn; intros; lia.
  - destruct (N.eqb_spec k k'); [subst; auto|].
    inv H; constructor; auto.
    apply Forall_forall; intros x Hx. apply In_sadd in Hx. destruct Hx as [->|Hx]; [lia|].
    rewrite Forall_forall in H4; auto.
Qed.

Lemma sorted_sdel k s : sorted s -> sorted (sdel k s).
Proof.
  unfold sorted; induction s as [|k' t IH]; cbn; intros H; auto.
  inv H. destruct (k =? k'); auto. constructor; auto.
  apply Forall_forall; intros x Hx. apply In_sdel in Hx.
  rewrite Forall_forall in H3; apply H3; tauto.
Qed.

Lemma sorted_NoDup s : sorted s -> NoDup s.
Proof.
  unfold sorted; induction 1 as [|a l Hs IH Hf]; constructor; auto.
  intros Hin. rewrite Forall_forall in Hf. specialize (Hf _ Hin). lia.
Qed.

Lemma sorted_ext s1 s2 : sorted s1 -> sorted s2 -> (forall x, In x s1 <-> In x s2) -> s1 = s2.
Proof.
  intros H1; revert s2; induction H1 as [|a l Hs IH Hf]; intros s2 H2 Heq.
  - destruct s2 as [|b s2]; auto. exfalso. apply (Heq b); left; auto.
  - destruct s2 as [|b s2]; [exfalso; apply (Heq a); left; auto|].
    pose proof (sorted_cons_lt _ _ H2) as Hb. inv H2.
    rewrite Forall_forall in Hf.
    assert (a = b).
    { destruct (proj1 (Heq a) (or_introl eq_refl)) as [->|Ha]; auto.
      destruct (proj2 (Heq b) (or_introl eq_refl)) as [->|Hb']; auto.
      specialize (Hf _ Hb'). specialize (Hb _ Ha). lia. }
    subst b. f_equal. apply IH; auto. intros x; split; intros Hx.
    + destruct (proj1 (Heq x) (or_intror Hx)) as [->|]; auto. specialize (Hf _ Hx); lia.
    + destruct (proj2 (Heq x) (or_intror Hx)) as [->|]; auto. specialize (Hb _ Hx); lia.
Qed.
