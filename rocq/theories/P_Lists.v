(** List lemmas over N-indexed operations. *)
From Verif Require Import Prelude Types P_Inflights Spec_Log.

Lemma ntake_all {A} n (l : list A) : nlen l <= n -> ntake n l = l.
Proof. unfold ntake, nlen; intros; apply firstn_all2; lia. Qed.
Lemma ntake_0 {A} (l : list A) : ntake 0 l = [].
Proof. reflexivity. Qed.
Lemma ndrop_0 {A} (l : list A) : ndrop 0 l = l.
Proof. reflexivity. Qed.
Lemma ndrop_all {A} n (l : list A) : nlen l <= n -> ndrop n l = [].
Proof. unfold ndrop, nlen; intros; apply skipn_all2; lia. Qed.
Lemma ntake_ndrop {A} n (l : list A) : ntake n l ++ ndrop n l = l.
Proof. apply firstn_skipn. Qed.
Lemma ntake_app {A} n (l1 l2 : list A) : ntake n (l1 ++ l2) = ntake n l1 ++ ntake (n - nlen l1) l2.
Proof. unfold ntake, nlen. rewrite firstn_app. do 2 f_equal. lia. Qed.
Lemma ndrop_app {A} n (l1 l2 : list A) : ndrop n (l1 ++ l2) = ndrop n l1 ++ ndrop (n - nlen l1) l2.
Proof. unfold ndrop, nlen. rewrite skipn_app. do 2 f_equal. lia. Qed.
Lemma ntake_ntake {A} a b (l : list A) : ntake a (ntake b l) = ntake (N.min a b) l.
Proof. unfold ntake. rewrite firstn_firstn. f_equal. lia. Qed.
Lemma skipn_skipn' {A} a b (l : list A) : skipn a (skipn b l) = skipn (b + a) l.
Proof. revert l; induction b; intros [|x l]; cbn; auto; destruct a; auto. Qed.
Lemma ndrop_ndrop {A} a b (l : list A) : ndrop a (ndrop b l) = ndrop (b + a) l.
Proof. unfold ndrop. rewrite skipn_skipn'. f_equal; lia. Qed.
Lemma ntake_ndrop_comm {A} a b (l : list A) : ntake a (ndrop b l) = ndrop b (ntake (b + a) l).
Proof. unfold ntake, ndrop. rewrite firstn_skipn_comm. do 2 f_equal. lia. Qed.
Lemma list_ext {A} (l1 l2 : list A) : (forall k, nnth l1 k = nnth l2 k) -> l1 = l2.
Proof.
  intros H. assert (H' : forall k, nth_error l1 k = nth_error l2 k).
  { intros k. specialize (H (N.of_nat k)). unfold nnth in H. rewrite !Nat2N.id in H. auto. }
  clear H. revert l2 H'; induction l1 as [|a l1 IH]; intros [|b l2] H; auto.
  - specialize (H 0%nat); discriminate.
  - specialize (H 0%nat); discriminate.
  - pose proof (H 0%nat) as H0. cbn in H0; inv H0. f_equal. apply IH. intros k. apply (H (S k)).
Qed.
Lemma nnth_In {A} (l : list A) k a : nnth l k = Some a -> In a l.
Proof. unfold nnth; apply nth_error_In. Qed.
Lemma In_nnth {A} (l : list A) a : In a l -> exists k, nnth l k = Some a.
Proof. intros H. apply In_nth_error in H. destruct H as [k H]. exists (N.of_nat k). unfold nnth. rewrite Nat2N.id; auto. Qed.
Lemma rev_last {A} (l : list A) a t : rev l = a :: t -> l = rev t ++ [a].
Proof. intros H. rewrite <- (rev_involutive l), H. reflexivity. Qed.

Lemma contig_nil i : contig i [].
Proof. intros k e H. destruct (N.to_nat k) eqn:E; unfold nnth in H; rewrite E in H; discriminate. Qed.
Lemma contig_cons i e es : contig i (e :: es) <-> e_index e = i /\ contig (i + 1) es.
Proof.
  split.
  - intros H. split.
    + specialize (H 0 e eq_refl). lia.
    + intros k x Hx. specialize (H (k + 1) x). rewrite nnth_consS in H by lia.
      replace (k + 1 - 1) with k in H by lia. specialize (H Hx). lia.
  - intros [H1 H2] k x Hx. destruct (N.eqb_spec k 0) as [->|].
    + cbn in Hx. rewrite nnth_cons0 in Hx. inv Hx. lia.
    + rewrite nnth_consS in Hx by lia. specialize (H2 _ _ Hx). lia.
Qed.
Lemma contig_app i a b : contig i (a ++ b) <-> contig i a /\ contig (i + nlen a) b.
Proof.
  split.
  - intros H; split; intros k e Hk.
    + apply H. rewrite nnth_app1; auto. eapply nnth_Some_lt; eauto.
    + specialize (H (nlen a + k) e). rewrite nnth_app2 in H by lia.
      replace (nlen a + k - nlen a) with k in H by lia. specialize (H Hk). lia.
  - intros [H1 H2] k e Hk. destruct (N.ltb_spec k (nlen a)).
    + rewrite nnth_app1 in Hk by auto. auto.
    + rewrite nnth_app2 in Hk by auto. specialize (H2 _ _ Hk). lia.
Qed.
Lemma contig_ntake i n es : contig i es -> contig i (ntake n es).
Proof. intros H k e Hk. rewrite nnth_ntake in Hk. destruct (k <? n); [auto|discriminate]. Qed.
Lemma contig_ndrop i n es : contig i es -> contig (i + n) (ndrop n es).
Proof. intros H k e Hk. rewrite nnth_ndrop in Hk. specialize (H _ _ Hk). lia. Qed.

Fixpoint contigb (i : N) (es : list entry) : bool :=
  match es with [] => true | e :: t => (e_index e =? i) && contigb (i + 1) t end.
Lemma contigb_contig es : forall i, contigb i es = true -> contig i es.
Proof.
  induction es as [|e es IH]; intros i H; [apply contig_nil|]. cbn in H. apply andb_true_iff in H.
  destruct H as [H1 H2]. apply contig_cons. split; [lia|auto].
Qed.
