(** Proofs about src/storage.cc and LimitSize. *)
From Verif Require Import Prelude Types M_Util M_Storage P_Inflights Spec_Log P_Lists.

Section Limit.
Context {E : Env}.

Lemma total_size_app a b : total_size (a ++ b) = total_size a + total_size b.
Proof. induction a; cbn; [lia|rewrite IHa; lia]. Qed.

Lemma limit_go_spec max es : forall size,
  exists rest, es = limit_go size es max ++ rest /\
    (size + total_size (limit_go size es max) <= max \/ limit_go size es max = []) /\
    (forall q r, es = q ++ r -> size + total_size q <= max -> nlen q <= nlen (limit_go size es max)).
Proof.
  induction es as [|e es IH]; intros size; cbn [limit_go].
  - exists []. repeat split; auto. intros q r Hq _. destruct q; [nl|discriminate].
  - destruct (N.ltb_spec max (size + esize e)).
    + exists (e :: es). repeat split; auto. intros q r Hq Ht.
      destruct q as [|e' q]; [nl|]. cbn in Hq; inv Hq. cbn in Ht. lia.
    + destruct (IH (size + esize e)) as (rest & H1 & H2 & H3). exists rest.
      split; [cbn; f_equal; auto|]. split.
      * left. cbn. destruct H2 as [H2| ->]; [lia|cbn; lia].
      * intros q r Hq Ht. destruct q as [|e' q]; [nl|]. injection Hq as <- Hq. cbn in Ht.
        rewrite !nlen_cons. specialize (H3 q r Hq ltac:(lia)). lia.
Qed.

Lemma limit_size_spec es max : size_limited es max (limit_size es max).
Proof.
  unfold size_limited, limit_size. destruct es as [|e es].
  { exists []. repeat split; auto. left; cbn; lia. intros q r Hq _. destruct q; [nl|discriminate]. }
  destruct (limit_go_spec max es (esize e)) as (rest & H1 & H2 & H3). exists rest.
  split; [cbn; f_equal; auto|]. split; [discriminate|]. split.
  - destruct H2 as [H2| ->]; [left; cbn; lia|right; reflexivity].
  - intros q r Hq Ht. destruct q as [|e' q]; [nl|]. injection Hq as <- Hq. cbn in Ht.
    rewrite !nlen_cons. specialize (H3 q r Hq ltac:(lia)). lia.
Qed.

Lemma size_limited_unique es max p q : size_limited es max p -> size_limited es max q -> p = q.
Proof.
  assert (W : forall p q, size_limited es max p -> size_limited es max q -> nlen p <= nlen q).
  { intros p0 q0 (r1 & H1 & H2 & H3 & H4) (r2 & G1 & G2 & G3 & G4).
    destruct H3 as [H3|H3]; [eapply G4; eauto|]. rewrite H3.
    destruct q0; [|rewrite nlen_cons; lia]. exfalso. apply G2; auto. intros Hes.
    subst es. destruct p0; [nl|discriminate Hes]. }
  intros Hp Hq. pose proof (W _ _ Hp Hq). pose proof (W _ _ Hq Hp).
  destruct Hp as (r1 & H1 & _), Hq as (r2 & H2 & _).
  assert (ntake (nlen p) es = p) by (rewrite H1, ntake_app, ntake_all, N.sub_diag, ntake_0, app_nil_r by lia; auto).
  assert (ntake (nlen q) es = q) by (rewrite H2, ntake_app, ntake_all, N.sub_diag, ntake_0, app_nil_r by lia; auto).
  replace (nlen q) with (nlen p) in * by lia. congruence.
Qed.

Lemma limit_size_prefix es max : exists rest, es = limit_size es max ++ rest.
Proof. destruct (limit_size_spec es max) as (r & H & _); eauto. Qed.
Lemma limit_size_len es max : nlen (limit_size es max) <= nlen es.
Proof. destruct (limit_size_prefix es max) as (r & H). rewrite H at 2. rewrite nlen_app; lia. Qed.
Lemma limit_size_full es max : nlen es <= nlen (limit_size es max) -> limit_size es max = es.
Proof.
  destruct (limit_size_prefix es max) as (r & H). intros Hl.
  assert (r = []). { apply nlen_0. assert (nlen es = nlen (limit_size es max ++ r)) by congruence.
    rewrite nlen_app in H0. lia. }
  subst r. rewrite app_nil_r in H. congruence.
Qed.
(** Limiting a part first does not matter. *)
Lemma limit_size_cut a b max : nlen (limit_size a max) < nlen a ->
  limit_size (a ++ b) max = limit_size a max.
Proof.
  intros Hl. apply (size_limited_unique (a ++ b) max); [apply limit_size_spec|].
  destruct (limit_size_spec a max) as (r & H1 & H2 & H3 & H4).
  exists (r ++ b). rewrite app_assoc, <- H1. repeat split; auto.
  - intros _. apply H2. intros ->. nl.
  - intros q s Hq Ht.
    destruct (N.leb_spec (nlen q) (nlen a)) as [Hle|Hle].
    + apply (H4 q (ndrop (nlen q) a)); auto.
      rewrite <- (ntake_ndrop (nlen q) a) at 1. f_equal.
      transitivity (ntake (nlen q) (a ++ b)).
      * rewrite ntake_app. replace (nlen q - nlen a) with 0 by lia. rewrite ntake_0, app_nil_r; auto.
      * rewrite Hq, ntake_app, ntake_all, N.sub_diag, ntake_0, app_nil_r by lia; auto.
    + exfalso. assert (q = a ++ ntake (nlen q - nlen a) b).
      { transitivity (ntake (nlen q) (a ++ b)).
        - rewrite Hq, ntake_app, ntake_all, N.sub_diag, ntake_0, app_nil_r by lia; auto.
        - rewrite ntake_app, ntake_all by lia. auto. }
      rewrite H in Ht. rewrite total_size_app in Ht.
      specialize (H4 a [] (eq_sym (app_nil_r a)) ltac:(lia)). lia.
Qed.
Lemma limit_size_nil max : limit_size [] max = [].
Proof. reflexivity. Qed.
Lemma limit_size_nonnil es max : es <> [] -> limit_size es max <> [].
Proof. destruct es; cbn; [congruence|discriminate]. Qed.
End Limit.

(* ---------- MemoryStorage ---------- *)
Definition ms_abs (s : mstorage) : alog := mkALog (e_index (ms_dummy s)) (e_term (ms_dummy s)) (ms_tail s).
Definition swf (s : mstorage) : Prop := a_wf (ms_abs s).

Lemma ms_last_abs s : ms_last_index s = a_last (ms_abs s).
Proof. unfold ms_last_index, ms_ents, a_last; cbn. rewrite nlen_cons. lia. Qed.
Lemma ms_first_abs s : ms_first_index s = a_first (ms_abs s).
Proof. reflexivity. Qed.
Lemma ms_term_abs s i :
  ms_term i s = if i <? a_base (ms_abs s) then SErr ECompacted
                else match a_term (ms_abs s) i with Some t => SOk t | None => SErr EUnavailable end.
Proof.
  unfold ms_term, a_term, a_entry, ms_ents; cbn.
  destruct (N.ltb_spec i (e_index (ms_dummy s))); auto.
  destruct (N.eqb_spec i (e_index (ms_dummy s))) as [->|].
  - rewrite N.sub_diag, nnth_cons0; auto.
  - destruct (N.ltb_spec (e_index (ms_dummy s)) i); [|lia]. rewrite nnth_consS by lia.
    destruct (nnth (ms_tail s) (i - e_index (ms_dummy s) - 1)); auto.
Qed.

Lemma ms_entries_abs {E : Env} s lo hi max :
  a_first (ms_abs s) <= lo -> lo <= hi -> hi <= a_last (ms_abs s) + 1 -> a_ents (ms_abs s) <> [] ->
  ms_entries lo hi max s = Ok (SOk (limit_size (a_slice (ms_abs s) lo hi) max)).
Proof.
  unfold ms_entries, a_first. rewrite ms_last_abs. cbn. intros H1 H2 H3 H4.
  destruct (N.leb_spec lo (e_index (ms_dummy s))); [lia|].
  destruct (N.ltb_spec (a_last (ms_abs s) + 1) hi); [lia|].
  unfold ms_ents. rewrite nlen_cons.
  destruct (N.eqb_spec (1 + nlen (ms_tail s)) 1). { exfalso; apply H4, nlen_0. lia. }
  destruct (N.ltb_spec hi lo); [lia|]. do 3 f_equal.
  unfold nslice, a_slice; cbn.
  replace (hi - e_index (ms_dummy s) - (lo - e_index (ms_dummy s))) with (hi - lo) by lia.
  f_equal. replace (lo - e_index (ms_dummy s)) with (1 + (lo - e_index (ms_dummy s) - 1)) by lia.
  rewrite <- ndrop_ndrop. f_equal. lia.
Qed.
Lemma ms_entries_compacted {E : Env} s lo hi max : lo <= a_base (ms_abs s) ->
  ms_entries lo hi max s = Ok (SErr ECompacted).
Proof. intros H. unfold ms_entries. cbn in H. destruct (N.leb_spec lo (e_index (ms_dummy s))); [auto|lia]. Qed.

(** Append of consecutive entries. *)
Lemma ms_append_abs s es i :
  swf s -> contig i es -> es <> [] -> 1 <= i ->
  if a_last (ms_abs s) + 1 <? i then exists w, ms_append es s = Fatal w
  else exists s', ms_append es s = Ok s' /\ swf s' /\ ms_hs s' = ms_hs s /\ ms_snap s' = ms_snap s /\
    ms_abs s' =
      if i + nlen es <=? a_first (ms_abs s) then ms_abs s
      else a_replace (ms_abs s) (N.max i (a_first (ms_abs s)))
                     (ndrop (a_first (ms_abs s) - i) es).
Proof.
  intros Hw Hc Hne Hi. unfold ms_append. destruct es as [|e0 es]; [congruence|].
  pose proof Hc as Hc0. apply contig_cons in Hc. destruct Hc as [H0 Hc].
  rewrite H0. rewrite ms_first_abs. set (f := a_first (ms_abs s)).
  assert (Hf : f = e_index (ms_dummy s) + 1) by reflexivity.
  destruct (N.ltb_spec (i + nlen (e0 :: es) - 1) f).
  { rewrite nlen_cons in *. destruct (N.ltb_spec (a_last (ms_abs s) + 1) i).
    - unfold a_last, f, a_first in *. lia.
    - exists s. destruct (N.leb_spec (i + (1 + nlen es)) f); [auto 6|lia]. }
  set (es' := if i <? f then ndrop (f - i) (e0 :: es) else e0 :: es).
  assert (He' : es' = ndrop (f - i) (e0 :: es)).
  { unfold es'. destruct (N.ltb_spec i f); auto. replace (f - i) with 0 by lia. auto. }
  assert (Hc' : contig (N.max i f) es').
  { rewrite He'. replace (N.max i f) with (i + (f - i)) by lia. apply contig_ndrop; auto. }
  assert (Hn' : nlen es' = i + nlen (e0 :: es) - N.max i f).
  { rewrite He', nlen_ndrop. rewrite nlen_cons in *. lia. }
  assert (Hne' : es' <> []).
  { intros ->. rewrite nlen_cons in *. nl. }
  rewrite <- He'. clearbody es'. destruct es' as [|e1 es']; [congruence|].
  assert (H1 : e_index e1 = N.max i f) by (apply contig_cons in Hc'; tauto).
  rewrite H1. unfold wsub. destruct (N.leb_spec (e_index (ms_dummy s)) (N.max i f)); [|lia].
  assert (Hlast : a_last (ms_abs s) = e_index (ms_dummy s) + nlen (ms_tail s)) by reflexivity.
  unfold ms_ents. rewrite nlen_cons.
  destruct (N.leb_spec (i + nlen (e0 :: es)) f); [rewrite nlen_cons in *; lia|].
  set (off := N.max i f - e_index (ms_dummy s)).
  assert (Htk : forall n (d : entry) l, 0 < n -> ntake n (d :: l) = d :: ntake (n - 1) l).
  { intros n d l Hnn. unfold ntake. destruct (N.to_nat n) eqn:En; [lia|]. cbn. do 2 f_equal. lia. }
  destruct (N.ltb_spec off (1 + nlen (ms_tail s))).
  - destruct (N.ltb_spec (a_last (ms_abs s) + 1) i); [lia|].
    rewrite Htk by lia. cbn [app set_ms_ents]. eexists; split; [reflexivity|].
    assert (Habs : ms_abs (mkMS (ms_hs s) (ms_snap s) (ms_dummy s) (ntake (off - 1) (ms_tail s) ++ e1 :: es'))
       = a_replace (ms_abs s) (N.max i f) (e1 :: es')).
    { unfold ms_abs, a_replace; cbn. repeat f_equal. }
    split; [|auto]. unfold swf. rewrite Habs. unfold a_wf, a_replace; cbn.
    apply contig_app. split; [apply contig_ntake, Hw|].
    rewrite nlen_ntake. replace (e_index (ms_dummy s) + 1 + N.min (N.max i f - e_index (ms_dummy s) - 1) (nlen (ms_tail s))) with (N.max i f) by lia. auto.
  - destruct (N.eqb_spec off (1 + nlen (ms_tail s))).
    + destruct (N.ltb_spec (a_last (ms_abs s) + 1) i); [lia|].
      cbn [app set_ms_ents]. eexists; split; [reflexivity|].
      assert (Habs : ms_abs (mkMS (ms_hs s) (ms_snap s) (ms_dummy s) (ms_tail s ++ e1 :: es'))
         = a_replace (ms_abs s) (N.max i f) (e1 :: es')).
      { unfold ms_abs, a_replace; cbn. rewrite ntake_all by lia. auto. }
      split; [|auto]. unfold swf. rewrite Habs. unfold a_wf, a_replace; cbn.
      apply contig_app. split; [apply contig_ntake, Hw|].
      rewrite nlen_ntake. replace (e_index (ms_dummy s) + 1 + N.min (N.max i f - e_index (ms_dummy s) - 1) (nlen (ms_tail s))) with (N.max i f) by lia. auto.
    + destruct (N.ltb_spec (a_last (ms_abs s) + 1) i); [eauto|lia].
Qed.

Lemma ms_compact_abs s ci : swf s ->
  if ci <=? a_base (ms_abs s) then ms_compact ci s = Ok (s, Some ECompacted)
  else if a_last (ms_abs s) <? ci then exists w, ms_compact ci s = Fatal w
  else exists s' t, ms_compact ci s = Ok (s', None) /\ swf s' /\ ms_hs s' = ms_hs s /\ ms_snap s' = ms_snap s /\
     a_term (ms_abs s) ci = Some t /\
     ms_abs s' = mkALog ci t (ndrop (ci - a_base (ms_abs s)) (a_ents (ms_abs s))).
Proof.
  intros Hw. unfold ms_compact. rewrite ms_last_abs. cbn [ms_abs a_base a_ents].
  destruct (N.leb_spec ci (e_index (ms_dummy s))); auto.
  destruct (N.ltb_spec (a_last (ms_abs s)) ci); [eauto|].
  unfold ms_ents.
  assert (Hlast : a_last (ms_abs s) = e_index (ms_dummy s) + nlen (ms_tail s)) by reflexivity.
  destruct (nnth_lt_Some (ms_tail s) (ci - e_index (ms_dummy s) - 1)) as [e He]; [lia|].
  assert (Hd : ndrop (ci - e_index (ms_dummy s)) (ms_dummy s :: ms_tail s) =
               e :: ndrop (ci - e_index (ms_dummy s)) (ms_tail s)).
  { apply list_ext. intros k. rewrite nnth_ndrop. rewrite nnth_consS by lia.
    destruct (N.eqb_spec k 0) as [->|].
    - rewrite nnth_cons0, <- He. f_equal. lia.
    - rewrite nnth_consS, nnth_ndrop by lia. f_equal. lia. }
  rewrite Hd. cbn [set_ms_ents bind]. do 2 eexists. split; [reflexivity|].
  pose proof (Hw _ _ He) as Hei. cbn in Hei.
  split.
  { unfold swf, a_wf; cbn. rewrite Hei.
    replace (e_index (ms_dummy s) + 1 + (ci - e_index (ms_dummy s) - 1) + 1)
      with (e_index (ms_dummy s) + 1 + (ci - e_index (ms_dummy s))) by lia.
    apply contig_ndrop, Hw. }
  split; auto. split; auto. split.
  - unfold a_term, a_entry; cbn. destruct (N.eqb_spec ci (e_index (ms_dummy s))); [lia|].
    destruct (N.ltb_spec (e_index (ms_dummy s)) ci); [|lia]. rewrite He. reflexivity.
  - unfold ms_abs; cbn. f_equal. lia.
Qed.
