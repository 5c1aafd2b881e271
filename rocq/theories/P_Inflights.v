(** Proofs about src/tracker/inflights.cc. *)
From Verif Require Import Prelude M_Inflights Spec_Inflights.

Definition i_step (o : iop) (x : inflights) : res inflights :=
  match o with
  | IAdd v => inf_add v x
  | IFreeLE to => inf_free_le to x
  | IFreeFirst => inf_free_first_one x
  | IReset => Ok (inf_reset x)
  end.
Fixpoint i_run (os : list iop) (x : inflights) : res inflights :=
  match os with [] => Ok x | o :: t => x' <- i_step o x ;; i_run t x' end.

(** Ring position of the k-th message in flight. *)
Definition ring_pos (x : inflights) (k : N) : N :=
  let p := i_start x + k in if i_size x <=? p then p - i_size x else p.

(** The window holds exactly the sequence [q], oldest first. *)
Definition holds (x : inflights) (q : list N) : Prop :=
  i_count x = nlen q /\ forall k, k < nlen q -> nnth (i_buf x) (ring_pos x k) = nnth q k.

Definition iwf (x : inflights) : Prop :=
  i_count x <= i_size x /\ nlen (i_buf x) <= i_size x /\
  ((i_start x = 0 \/ i_start x < i_size x) /\
   (i_start x + i_count x <= nlen (i_buf x) \/ (nlen (i_buf x) = i_size x /\ i_start x < i_size x))).

Lemma nnth_Some_lt {A} (l : list A) n a : nnth l n = Some a -> n < nlen l.
Proof. unfold nnth, nlen; intros H. assert (nth_error l (N.to_nat n) <> None) by congruence.
  apply nth_error_Some in H0. lia. Qed.
Lemma nnth_lt_Some {A} (l : list A) n : n < nlen l -> exists a, nnth l n = Some a.
Proof. unfold nnth, nlen; intros H. destruct (nth_error l (N.to_nat n)) eqn:E; eauto.
  apply nth_error_None in E. lia. Qed.
Lemma nnth_None {A} (l : list A) n : nnth l n = None <-> nlen l <= n.
Proof. unfold nnth, nlen. rewrite nth_error_None. lia. Qed.
Lemma nnth_app1 {A} (l l' : list A) n : n < nlen l -> nnth (l ++ l') n = nnth l n.
Proof. unfold nnth, nlen; intros; apply nth_error_app1; lia. Qed.
Lemma nnth_app2 {A} (l l' : list A) n : nlen l <= n -> nnth (l ++ l') n = nnth l' (n - nlen l).
Proof. unfold nnth, nlen; intros. rewrite nth_error_app2 by lia. f_equal. lia. Qed.
Lemma nnth_cons0 {A} (a : A) l : nnth (a :: l) 0 = Some a. Proof. reflexivity. Qed.
Lemma nnth_consS {A} (a : A) l n : 0 < n -> nnth (a :: l) n = nnth l (n - 1).
Proof. unfold nnth; intros. destruct (N.to_nat n) eqn:E; [lia|]. cbn. f_equal; lia. Qed.
Lemma nnth_ntake {A} (l : list A) n k : nnth (ntake n l) k = if k <? n then nnth l k else None.
Proof.
  unfold nnth, ntake. destruct (N.ltb_spec k n).
  - assert (N.to_nat k < N.to_nat n)%nat by lia. revert H0. generalize (N.to_nat k), (N.to_nat n).
    clear. intros k n; revert k l; induction n; intros [|k] [|a l] Hk; cbn; auto; try lia.
    apply IHn; lia.
  - apply nth_error_None. rewrite firstn_length. lia.
Qed.
Lemma nth_error_skipn' {A} (l : list A) n k : nth_error (skipn n l) k = nth_error l (n + k).
Proof. revert l; induction n; intros [|a l]; cbn; auto. destruct k; auto. Qed.
Lemma nnth_ndrop {A} (l : list A) n k : nnth (ndrop n l) k = nnth l (n + k).
Proof. unfold nnth, ndrop. rewrite nth_error_skipn'. f_equal; lia. Qed.

Lemma nnth_vset l i v l' k : vset l i v = Some l' ->
  nnth l' k = if k =? i then Some v else nnth l k.
Proof.
  unfold vset. destruct (N.ltb_spec i (nlen l)); [|discriminate]. intros H1; inv H1.
  destruct (N.ltb_spec k i).
  - rewrite nnth_app1 by (rewrite nlen_ntake; lia). rewrite nnth_ntake.
    destruct (N.ltb_spec k i), (N.eqb_spec k i); try lia; auto.
  - rewrite nnth_app2 by (rewrite nlen_ntake; lia). rewrite nlen_ntake.
    destruct (N.eqb_spec k i).
    + replace (k - N.min i (nlen l)) with 0 by lia. auto.
    + rewrite nnth_consS by lia. rewrite nnth_ndrop. f_equal. lia.
Qed.
Lemma vset_len l i v l' : vset l i v = Some l' -> nlen l' = nlen l.
Proof.
  unfold vset. destruct (N.ltb_spec i (nlen l)); [|discriminate]. intros H1; inv H1.
  rewrite nlen_app, nlen_ntake, nlen_cons, nlen_ndrop. lia.
Qed.
Lemma nlen_repeat {A} (a : A) n : nlen (repeat a n) = N.of_nat n.
Proof. unfold nlen; rewrite repeat_length; auto. Qed.
Lemma vresize_len n l : nlen (vresize n l) = n.
Proof.
  unfold vresize. destruct (N.leb_spec n (nlen l)).
  - rewrite nlen_ntake; lia.
  - rewrite nlen_app, nlen_repeat. lia.
Qed.
Lemma vresize_nth n l k : k < nlen l -> nlen l <= n -> nnth (vresize n l) k = nnth l k.
Proof.
  unfold vresize. intros. destruct (N.leb_spec n (nlen l)).
  - rewrite nnth_ntake. destruct (N.ltb_spec k n); auto; lia.
  - rewrite nnth_app1 by lia. auto.
Qed.

Lemma iwf_new size : iwf (new_inflights size).
Proof. unfold iwf, new_inflights; cbn. rewrite (@nlen_nil N). lia. Qed.
Lemma holds_new size : holds (new_inflights size) [].
Proof. split; [reflexivity|]. intros k; rewrite (@nlen_nil N); lia. Qed.

Lemma add_ok v x q : iwf x -> holds x q -> nlen q <> i_size x ->
  exists x', inf_add v x = Ok x' /\ iwf x' /\ holds x' (q ++ [v]) /\ i_size x' = i_size x.
Proof.
  intros (Hc & Hb & Hs) (Hn & Hq) Hf. unfold inf_add, inf_full.
  destruct (N.eqb_spec (i_count x) (i_size x)); [lia|].
  set (next := if i_size x <=? i_start x + i_count x then i_start x + i_count x - i_size x
               else i_start x + i_count x).
  assert (Hnext : next = ring_pos x (nlen q)) by (unfold next, ring_pos; rewrite Hn; auto).
  set (buf := if nlen (i_buf x) <=? next then inf_grow x else i_buf x).
  assert (Hbuf : nlen (i_buf x) <= nlen buf <= i_size x /\ next < nlen buf /\
                 (forall k, k < nlen (i_buf x) -> nnth buf k = nnth (i_buf x) k) /\
                 (i_start x + i_count x + 1 <= nlen buf \/ (nlen buf = i_size x /\ i_start x < i_size x))).
  { unfold buf. destruct (N.leb_spec (nlen (i_buf x)) next).
    - assert (i_start x + i_count x <= nlen (i_buf x) /\ nlen (i_buf x) < i_size x /\ next = nlen (i_buf x)).
      { revert H. unfold next. destruct (N.leb_spec (i_size x) (i_start x + i_count x)); lia. }
      unfold inf_grow.
      set (ns := nlen (i_buf x) * 2).
      set (ns' := if ns =? 0 then 1 else if i_size x <? ns then i_size x else ns).
      assert (nlen (i_buf x) < ns' <= i_size x).
      { unfold ns', ns. destruct (N.eqb_spec (nlen (i_buf x) * 2) 0); [lia|].
        destruct (N.ltb_spec (i_size x) (nlen (i_buf x) * 2)); lia. }
      rewrite vresize_len. repeat split; try lia.
      intros k Hk. apply vresize_nth; lia.
    - repeat split; auto; try lia. revert H. unfold next.
      destruct (N.leb_spec (i_size x) (i_start x + i_count x)); lia. }
  destruct Hbuf as (Hb1 & Hb2 & Hb3 & Hb4).
  destruct (vset buf next v) as [buf'|] eqn:Hv.
  2:{ unfold vset in Hv. destruct (N.ltb_spec next (nlen buf)); [discriminate|lia]. }
  eexists; split; [reflexivity|]. pose proof (vset_len _ _ _ _ Hv).
  split; [|split; [|reflexivity]].
  - unfold iwf; cbn. lia.
  - split; cbn.
    + rewrite nlen_app, nlen_cons, nlen_nil. lia.
    + intros k Hk. rewrite nlen_app, nlen_cons, nlen_nil in Hk.
      change (ring_pos _ k) with (ring_pos x k).
      rewrite (nnth_vset _ _ _ _ _ Hv).
      destruct (N.ltb_spec k (nlen q)).
      * rewrite nnth_app1 by auto. rewrite <- Hq by auto.
        destruct (N.eqb_spec (ring_pos x k) next).
        { rewrite Hnext in e. unfold ring_pos in e.
          destruct (N.leb_spec (i_size x) (i_start x + k)), (N.leb_spec (i_size x) (i_start x + nlen q)); lia. }
        apply Hb3. unfold ring_pos.
        destruct (N.leb_spec (i_size x) (i_start x + k)); lia.
      * rewrite nnth_app2 by auto. replace k with (nlen q) by lia.
        rewrite <- Hnext. rewrite N.eqb_refl, N.sub_diag. reflexivity.
Qed.

Lemma add_full v x q : holds x q -> nlen q = i_size x -> exists w, inf_add v x = Fatal w.
Proof.
  intros [Hn _] Hf. unfold inf_add, inf_full. rewrite Hn, Hf, N.eqb_refl. eauto.
Qed.

(** Length of the prefix FreeLE frees. *)
Lemma drop_le_split to q : exists p, q = p ++ drop_le to q /\ (forall y, In y p -> y <= to) /\
  match drop_le to q with [] => True | y :: _ => to < y end.
Proof.
  induction q as [|y t IH]; cbn; [exists []; cbn; repeat split; auto; tauto|].
  destruct (N.leb_spec y to).
  - destruct IH as (p & Hp & H1 & H2). exists (y :: p). cbn.
    split; [rewrite <- Hp; auto|]. split; auto. intros z [<-|Hz]; auto.
  - exists []; cbn. repeat split; auto; try tauto.
Qed.

Lemma ring_pos_succ x k : i_start x < i_size x \/ i_start x + k + 1 < i_size x -> k + 1 <= i_size x ->
  ring_pos x (k + 1) =
  let i := ring_pos x k + 1 in if i_size x <=? i then i - i_size x else i.
Proof.
  unfold ring_pos; cbn. intros.
  destruct (N.leb_spec (i_size x) (i_start x + (k + 1))), (N.leb_spec (i_size x) (i_start x + k));
   repeat match goal with |- context[?a <=? ?b] => destruct (N.leb_spec a b) end; lia.
Qed.

Lemma free_loop_spec x to q : iwf x -> holds x q ->
  forall p r, q = p ++ r -> forall fuel, N.of_nat fuel = nlen r ->
  free_loop fuel x to (ring_pos x (nlen p)) (nlen p) =
  Ok (ring_pos x (nlen q - nlen (drop_le to r)), nlen q - nlen (drop_le to r)).
Proof.
  intros (Hc & Hb & Hs) (Hn & Hq) p r; revert p.
  induction r as [|y r IH]; intros p Hpr fuel Hf.
  - rewrite nlen_nil in Hf. destruct fuel; [|lia]. subst q. rewrite app_nil_r in *. cbn [free_loop drop_le].
    rewrite nlen_nil, N.sub_0_r. auto.
  - rewrite nlen_cons in Hf. destruct fuel; [lia|]. cbn [free_loop].
    assert (Hlen : nlen q = nlen p + 1 + nlen r) by (subst q; rewrite nlen_app, nlen_cons; lia).
    rewrite Hq by lia. subst q. rewrite nnth_app2 by lia. rewrite N.sub_diag, nnth_cons0.
    cbn [drop_le]. destruct (N.ltb_spec to y), (N.leb_spec y to); try lia.
    + rewrite nlen_cons. f_equal. replace (nlen (p ++ y :: r) - (1 + nlen r)) with (nlen p) by lia. auto.
    + specialize (IH (p ++ [y])). rewrite <- app_assoc in IH. cbn [app] in IH.
      specialize (IH eq_refl fuel). rewrite nlen_app, nlen_cons, nlen_nil in IH.
      replace (nlen p + (1 + 0)) with (nlen p + 1) in IH by lia.
      rewrite <- IH by lia. rewrite ring_pos_succ by lia. cbn. auto.
Qed.

Lemma free_le_ok to x q : iwf x -> holds x q ->
  exists x', inf_free_le to x = Ok x' /\ iwf x' /\ holds x' (drop_le to q) /\ i_size x' = i_size x.
Proof.
  intros Hw Hh. pose proof Hw as (Hc & Hb & Hs). pose proof Hh as (Hn & Hq). unfold inf_free_le.
  destruct (N.eqb_spec (i_count x) 0).
  { destruct q; [|rewrite nlen_cons in *; lia]. exists x; auto. }
  destruct q as [|y q]; [rewrite nlen_nil in *; lia|]. rewrite nlen_cons in *.
  assert (Hst : i_start x < i_size x).
  { destruct Hs; lia. }
  assert (H0 : ring_pos x 0 = i_start x).
  { unfold ring_pos. rewrite N.add_0_r. destruct (N.leb_spec (i_size x) (i_start x)); lia. }
  pose proof (Hq 0 ltac:(lia)) as Hy. rewrite H0, nnth_cons0 in Hy. rewrite Hy.
  destruct (N.ltb_spec to y).
  { exists x. cbn [drop_le]. destruct (N.leb_spec y to); [lia|]. auto. }
  pose proof (free_loop_spec x to (y :: q) Hw Hh [] (y :: q) eq_refl (N.to_nat (i_count x))) as Hl.
  rewrite nlen_nil, H0 in Hl. rewrite Hl by (rewrite nlen_cons; lia). cbn [bind].
  destruct (drop_le_split to (y :: q)) as (p & Hp & Hp1 & Hp2).
  set (d := drop_le to (y :: q)) in *.
  assert (Hlen : nlen (y :: q) = nlen p + nlen d) by (rewrite Hp at 1; rewrite nlen_app; auto).
  rewrite Hlen. replace (nlen p + nlen d - nlen d) with (nlen p) by lia.
  assert (Hcd : i_count x - nlen p = nlen d) by (rewrite nlen_cons in Hlen; lia).
  rewrite Hcd. eexists; split; [reflexivity|]. rewrite nlen_cons in Hlen.
  assert (0 < nlen p).
  { destruct p; [|rewrite nlen_cons; lia]. change (y :: q = d) in Hp. rewrite <- Hp in Hp2. lia. }
  split; [|split; [|reflexivity]].
  - unfold iwf; cbn [i_count i_size i_buf i_start]. clearbody d. clear Hl. split; [lia|]. split; [lia|].
    destruct (N.eqb_spec (nlen d) 0); [lia|].
    unfold ring_pos. destruct (N.leb_spec (i_size x) (i_start x + nlen p)); lia.
  - clearbody d. clear Hl. split; cbn [i_count i_size i_buf i_start]; auto. intros k Hk. destruct (N.eqb_spec (nlen d) 0); [lia|].
    specialize (Hq (nlen p + k) ltac:(lia)). rewrite Hp in Hq.
    rewrite nnth_app2 in Hq by lia. replace (nlen p + k - nlen p) with k in Hq by lia.
    rewrite <- Hq. f_equal. unfold ring_pos; cbn.
    destruct (N.leb_spec (i_size x) (i_start x + nlen p)), (N.leb_spec (i_size x) (i_start x + (nlen p + k)));
    repeat match goal with |- context[?a <=? ?b] => destruct (N.leb_spec a b) end; lia.
Qed.

Lemma step_ok o x q : iwf x -> holds x q -> allowed o q ->
  match q_step (i_size x) o q with
  | Some q' => exists x', i_step o x = Ok x' /\ iwf x' /\ holds x' q' /\ i_size x' = i_size x
  | None => exists w, i_step o x = Fatal w
  end.
Proof.
  intros Hw Hh Ha. destruct o as [v|to| |]; cbn [q_step i_step].
  - destruct (N.eqb_spec (nlen q) (i_size x)); [eapply add_full; eauto|eapply add_ok; eauto].
  - apply free_le_ok; auto.
  - destruct q as [|y q]; [cbn in Ha; congruence|]. unfold inf_free_first_one.
    pose proof Hh as (Hn & Hq). pose proof Hw as (Hc & Hb & Hs). rewrite nlen_cons in *.
    assert (H0 : ring_pos x 0 = i_start x).
    { unfold ring_pos. rewrite N.add_0_r. destruct (N.leb_spec (i_size x) (i_start x)); lia. }
    pose proof (Hq 0 ltac:(lia)) as Hy. rewrite H0, nnth_cons0 in Hy. rewrite Hy.
    apply free_le_ok; auto.
  - eexists; split; [reflexivity|]. destruct Hw as (Hc & Hb & Hs).
    split; [unfold iwf; cbn; lia|]. split; [|reflexivity].
    split; [reflexivity|]. intros k; rewrite (@nlen_nil N); lia.
Qed.

Lemma run_ok os : forall x q, iwf x -> holds x q -> q_allowed (i_size x) os q ->
  match q_run (i_size x) os q with
  | Some q' => exists x', i_run os x = Ok x' /\ iwf x' /\ holds x' q' /\ i_size x' = i_size x
  | None => exists w, i_run os x = Fatal w
  end.
Proof.
  induction os as [|o os IH]; intros x q Hw Hh Ha; cbn [q_run i_run].
  - eauto.
  - destruct Ha as [Ha1 Ha2]. pose proof (step_ok o x q Hw Hh Ha1) as Hs.
    destruct (q_step (i_size x) o q) as [q'|].
    + destruct Hs as (x' & -> & Hw' & Hh' & Hsz). cbn [bind]. rewrite <- Hsz in *. apply IH; auto.
    + destruct Hs as (w & ->). cbn. eauto.
Qed.

Lemma drop_le_len to q : nlen (drop_le to q) <= nlen q.
Proof. induction q; cbn; [lia|]. destruct (a <=? to); rewrite ?nlen_cons in *; lia. Qed.
Lemma q_run_bound cap os : forall q q', nlen q <= cap -> q_run cap os q = Some q' -> nlen q' <= cap.
Proof.
  induction os as [|o os IH]; cbn [q_run]; intros q q' Hq H; [inv H; auto|].
  destruct (q_step cap o q) as [q1|] eqn:E; [|discriminate]. eapply IH; [|eassumption].
  destruct o; cbn in E.
  - destruct (N.eqb_spec (nlen q) cap); [discriminate|]. inv E.
    rewrite nlen_app, nlen_cons, nlen_nil; lia.
  - inv E. pose proof (drop_le_len to q); lia.
  - destruct q; inv E; [lia|]. pose proof (drop_le_len n (n :: q)). cbn in H0. lia.
  - inv E. rewrite nlen_nil; lia.
Qed.
