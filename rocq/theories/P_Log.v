(** Proofs about src/log_unstable.cc and src/log.cc: the RaftLog refines one abstract log. *)
From Verif Require Import Prelude Types M_Util M_Storage M_Unstable M_Log.
From Verif Require Import P_Inflights Spec_Log P_Lists P_Storage.

(** The logical log: unstable snapshot/entries overlaid on the storage. *)
Definition log_abs (l : rlog) : alog :=
  let u := l_us l in
  match u_snap u with
  | Some s => mkALog (sn_index s) (sn_term s) (u_ents u)
  | None => let a := ms_abs (l_st l) in
            mkALog (a_base a) (a_bterm a) (ntake (u_off u - a_first a) (a_ents a) ++ u_ents u)
  end.

(** Well-formed logs: storage and unstable entries are consecutive and meet at [u_off]. *)
Record lwf (l : rlog) : Prop := mk_lwf {
  lwf_st : swf (l_st l);
  lwf_us : contig (u_off (l_us l)) (u_ents (l_us l));
  lwf_off : match u_snap (l_us l) with
            | Some s => u_off (l_us l) = sn_index s + 1
            | None => a_first (ms_abs (l_st l)) <= u_off (l_us l) <= a_last (ms_abs (l_st l)) + 1 /\
                      (u_ents (l_us l) = [] -> u_off (l_us l) = a_last (ms_abs (l_st l)) + 1)
            end;
  lwf_com : a_base (log_abs l) <= l_committed l <= a_last (log_abs l);
  lwf_app : l_applied l <= l_committed l
}.

Definition lwf0 (l : rlog) : Prop :=
  swf (l_st l) /\ contig (u_off (l_us l)) (u_ents (l_us l)) /\
  match u_snap (l_us l) with
            | Some s => u_off (l_us l) = sn_index s + 1
            | None => a_first (ms_abs (l_st l)) <= u_off (l_us l) <= a_last (ms_abs (l_st l)) + 1 /\
                      (u_ents (l_us l) = [] -> u_off (l_us l) = a_last (ms_abs (l_st l)) + 1)
            end.
Lemma lwf_0 l : lwf l -> lwf0 l.
Proof. intros []; unfold lwf0; auto. Qed.

Lemma log_abs_eq st us c1 a1 m1 c2 a2 m2 :
  log_abs (mkLog st us c1 a1 m1) = log_abs (mkLog st us c2 a2 m2).
Proof. reflexivity. Qed.
Lemma log_abs_committed c l : log_abs (set_l_committed c l) = log_abs l.
Proof. reflexivity. Qed.
Lemma log_abs_applied c l : log_abs (set_l_applied c l) = log_abs l.
Proof. reflexivity. Qed.

Lemma log_abs_wf l : lwf0 l -> a_wf (log_abs l).
Proof.
  intros (H1 & H2 & H3). unfold a_wf, log_abs. destruct (u_snap (l_us l)); cbn.
  - rewrite <- H3. auto.
  - apply contig_app. split; [apply contig_ntake, H1|].
    rewrite nlen_ntake. unfold a_first, a_last in H3; cbn in *.
    match goal with |- contig ?x _ => replace x with (u_off (l_us l)) end; [exact H2|].
    unfold a_first; cbn. lia.
Qed.

Lemma log_first_abs l : log_first l = a_first (log_abs l).
Proof. unfold log_first, us_maybe_first, log_abs. destruct (u_snap (l_us l)); reflexivity. Qed.

Lemma log_off_abs l : lwf0 l -> u_off (l_us l) + nlen (u_ents (l_us l)) = a_last (log_abs l) + 1
   /\ a_first (log_abs l) <= u_off (l_us l).
Proof.
  intros (H1 & H2 & H3). unfold log_abs, a_last, a_first in *.
  destruct (u_snap (l_us l)); cbn in *; [lia|].
  rewrite nlen_app, nlen_ntake. lia.
Qed.

Lemma log_last_abs l : lwf0 l -> log_last l = a_last (log_abs l).
Proof.
  intros Hw. pose proof (log_off_abs l Hw) as [H _]. destruct Hw as (H1 & H2 & H3).
  unfold log_last, us_maybe_last. destruct (u_ents (l_us l)) as [|e es] eqn:He.
  - nl. destruct (u_snap (l_us l)) eqn:Hs; [lia|].
    rewrite ms_last_abs. destruct H3 as [_ H3]. specialize (H3 eq_refl). lia.
  - lia.
Qed.

Lemma nnth_in_range {A} (l : list A) k : k < nlen l -> nnth l k <> None.
Proof. intros H. destruct (nnth_lt_Some l k H) as [a ->]. discriminate. Qed.

(** Term agrees with the abstract log everywhere; outside the window it reports 0 (no error). *)
Lemma log_term_abs i l : lwf0 l ->
  log_term i l = Ok (SOk (match a_term (log_abs l) i with Some t => t | None => 0 end)).
Proof.
  intros Hw. pose proof (log_off_abs l Hw) as [Ho Hf]. pose proof (log_last_abs l Hw) as Hl.
  unfold log_term. rewrite Hl, log_first_abs.
  assert (Hfb : a_first (log_abs l) - 1 = a_base (log_abs l)) by (unfold a_first; lia). rewrite Hfb.
  destruct ((i <? a_base (log_abs l)) || (a_last (log_abs l) <? i)) eqn:Hr.
  { do 2 f_equal. unfold a_term, a_entry, a_last in *.
    destruct (N.eqb_spec i (a_base (log_abs l))); [lia|].
    destruct (N.ltb_spec (a_base (log_abs l)) i); auto.
    assert (Hn : nnth (a_ents (log_abs l)) (i - a_base (log_abs l) - 1) = None) by (apply nnth_None; lia).
    rewrite Hn; auto. }
  assert (Hi : a_base (log_abs l) <= i <= a_last (log_abs l)) by lia. clear Hr.
  pose proof Hw as (H1 & H2 & H3).
  unfold us_maybe_term.
  destruct (N.ltb_spec i (u_off (l_us l))) as [Hio|Hio].
  - destruct (u_snap (l_us l)) as [s|] eqn:Hs.
    + unfold log_abs in *; rewrite Hs in *; cbn in *.
      destruct (N.eqb_spec (sn_index s) i) as [->|]; [|lia]. cbn.
      unfold a_term; cbn. rewrite N.eqb_refl. auto.
    + cbn [bind]. rewrite ms_term_abs. unfold log_abs in *; rewrite Hs in *; cbn in *.
      unfold a_first, a_last in *; cbn in *.
      destruct (N.ltb_spec i (e_index (ms_dummy (l_st l)))); [lia|].
      unfold a_term, a_entry; cbn. destruct (N.eqb_spec i (e_index (ms_dummy (l_st l)))); auto.
      destruct (N.ltb_spec (e_index (ms_dummy (l_st l))) i); [|lia].
      rewrite nlen_app, nlen_ntake in *.
      rewrite nnth_app1 by (rewrite nlen_ntake; lia). rewrite nnth_ntake.
      destruct (N.ltb_spec (i - e_index (ms_dummy (l_st l)) - 1) (u_off (l_us l) - (e_index (ms_dummy (l_st l)) + 1))); [|lia].
      destruct (nnth_lt_Some (ms_tail (l_st l)) (i - e_index (ms_dummy (l_st l)) - 1)) as [e ->]; [lia|]. auto.
  - assert (Hne : nlen (u_ents (l_us l)) <> 0) by lia.
    unfold us_maybe_last. destruct (u_ents (l_us l)) as [|e0 es0] eqn:He; [nl|].
    rewrite <- He in *.
    destruct (N.ltb_spec (u_off (l_us l) + nlen (u_ents (l_us l)) - 1) i); [lia|].
    destruct (nnth_lt_Some (u_ents (l_us l)) (i - u_off (l_us l))) as [e Hn]; [lia|].
    rewrite Hn. cbn. do 2 f_equal.
    assert (Ha : a_entry (log_abs l) i = Some e).
    { rewrite <- Hn. unfold a_entry. destruct (N.ltb_spec (a_base (log_abs l)) i); [|unfold a_first in Hf; lia].
      unfold log_abs in *. destruct (u_snap (l_us l)) as [s|] eqn:Hs; cbn in *.
      - f_equal. lia.
      - unfold a_first, a_last in *; cbn in *. rewrite nnth_app2 by (rewrite nlen_ntake; lia).
        rewrite nlen_ntake. f_equal. lia. }
    unfold a_term. rewrite Ha. cbn. destruct (N.eqb_spec i (a_base (log_abs l))); auto.
    unfold a_first in Hf; lia.
Qed.

Lemma a_term_range a i t : a_term a i = Some t -> a_base a <= i <= a_last a.
Proof.
  unfold a_term, a_entry, a_last. destruct (N.eqb_spec i (a_base a)); [lia|].
  destruct (N.ltb_spec (a_base a) i); [|discriminate].
  destruct (nnth (a_ents a) (i - a_base a - 1)) eqn:E; [|discriminate].
  apply nnth_Some_lt in E. lia.
Qed.
Lemma a_term_in a i : a_base a <= i <= a_last a -> exists t, a_term a i = Some t.
Proof.
  unfold a_term, a_entry, a_last. destruct (N.eqb_spec i (a_base a)); [eauto|]. intros.
  destruct (N.ltb_spec (a_base a) i); [|lia].
  destruct (nnth_lt_Some (a_ents a) (i - a_base a - 1)) as [e ->]; [lia|]. cbn; eauto.
Qed.
Lemma a_term_out a i : ~ (a_base a <= i <= a_last a) -> a_term a i = None.
Proof.
  intros H. destruct (a_term a i) eqn:E; auto. apply a_term_range in E. contradiction.
Qed.

Lemma log_last_term_abs l : lwf0 l ->
  exists t, a_term (log_abs l) (a_last (log_abs l)) = Some t /\ log_last_term l = Ok t.
Proof.
  intros Hw. unfold log_last_term. rewrite log_last_abs, log_term_abs by auto. cbn.
  destruct (a_term_in (log_abs l) (a_last (log_abs l))) as [t Ht].
  { unfold a_last; lia. }
  exists t; rewrite Ht; auto.
Qed.

(** MatchTerm: out-of-window positions count as having term 0. *)
Definition a_term0 (a : alog) (i : N) : N := match a_term a i with Some t => t | None => 0 end.
Lemma log_match_term_abs i t l : lwf0 l ->
  log_match_term i t l = Ok (a_term0 (log_abs l) i =? t).
Proof. intros Hw. unfold log_match_term. rewrite log_term_abs by auto. reflexivity. Qed.

Lemma log_is_up_to_date_abs lasti t l : lwf0 l ->
  exists lt, a_term (log_abs l) (a_last (log_abs l)) = Some lt /\
    log_is_up_to_date lasti t l =
    Ok ((lt <? t) || ((t =? lt) && (a_last (log_abs l) <=? lasti))).
Proof.
  intros Hw. destruct (log_last_term_abs l Hw) as (lt & H1 & H2). exists lt. split; auto.
  unfold log_is_up_to_date. rewrite H2. cbn. rewrite log_last_abs by auto. auto.
Qed.

(* ---------- Slice ---------- *)
Lemma nnth_slice a lo hi k : nnth (a_slice a lo hi) k =
  if k <? hi - lo then nnth (a_ents a) (lo - a_base a - 1 + k) else None.
Proof. unfold a_slice. rewrite nnth_ntake. destruct (k <? hi - lo); auto. apply nnth_ndrop. Qed.
Lemma nlen_slice a lo hi : a_first a <= lo -> lo <= hi -> hi <= a_last a + 1 ->
  nlen (a_slice a lo hi) = hi - lo.
Proof. unfold a_slice, a_first, a_last. intros. rewrite nlen_ntake, nlen_ndrop. lia. Qed.
Lemma slice_split a lo mid hi : a_first a <= lo -> lo <= mid -> mid <= hi -> hi <= a_last a + 1 ->
  a_slice a lo hi = a_slice a lo mid ++ a_slice a mid hi.
Proof.
  intros. apply list_ext. intros k. pose proof (nlen_slice a lo mid ltac:(auto) ltac:(auto) ltac:(lia)).
  destruct (N.ltb_spec k (mid - lo)).
  - rewrite nnth_app1 by lia. rewrite !nnth_slice.
    destruct (N.ltb_spec k (hi - lo)), (N.ltb_spec k (mid - lo)); auto; lia.
  - rewrite nnth_app2 by lia. rewrite !nnth_slice, H3.
    destruct (N.ltb_spec k (hi - lo)), (N.ltb_spec (k - (mid - lo)) (hi - mid)); auto; try lia.
    f_equal. unfold a_first in *. lia.
Qed.
Lemma slice_nil a lo : a_slice a lo lo = [].
Proof. unfold a_slice. rewrite N.sub_diag. apply ntake_0. Qed.

Section SliceP.
Context {E : Env}.

Lemma log_slice_abs lo hi max l : lwf0 l ->
  a_first (log_abs l) <= lo -> lo <= hi -> hi <= a_last (log_abs l) + 1 ->
  log_slice lo hi max l = Ok (SOk (limit_size (a_slice (log_abs l) lo hi) max)).
Proof.
  intros Hw Hlo Hlh Hhi. pose proof (log_off_abs l Hw) as [Ho Hf].
  unfold log_slice, log_must_check. rewrite log_first_abs, log_last_abs by auto.
  destruct (N.ltb_spec hi lo); [lia|]. destruct (N.ltb_spec lo (a_first (log_abs l))); [lia|].
  destruct (N.ltb_spec (a_last (log_abs l) + 1) hi); [lia|]. cbn [bind].
  destruct (N.eqb_spec lo hi) as [->|Hne]; [rewrite slice_nil; auto|].
  pose proof Hw as (H2 & H3 & H4).
  assert (Hun : forall a b, (u_off (l_us l)) <= a -> a <= b -> b <= a_last (log_abs l) + 1 ->
            us_slice a b (l_us l) = Ok (a_slice (log_abs l) a b)).
  { intros a b Ha Hab Hb. unfold us_slice.
    destruct (N.ltb_spec b a); [lia|].
    destruct ((a <? (u_off (l_us l))) || ((u_off (l_us l)) + nlen (u_ents (l_us l)) <? b)) eqn:Hr; [lia|].
    f_equal. apply list_ext. intros k. rewrite nnth_ntake, nnth_slice.
    destruct (N.ltb_spec k (b - a)); auto. rewrite nnth_ndrop.
    unfold log_abs in *. destruct (u_snap (l_us l)) as [s|]; cbn in *.
    - f_equal. lia.
    - unfold a_first, a_last in *; cbn in *. rewrite nnth_app2 by (rewrite nlen_ntake; lia).
      rewrite nlen_ntake. f_equal. lia. }
  destruct (N.ltb_spec lo (u_off (l_us l))) as [Hlo'|Hlo'].
  - assert (Hs : u_snap (l_us l) = None).
    { destruct (u_snap (l_us l)) as [s|] eqn:Hs; auto. unfold log_abs, a_first in Hlo; rewrite Hs in Hlo; cbn in *; lia. }
    rewrite Hs in H4.
    assert (Hb : a_base (ms_abs (l_st l)) = a_base (log_abs l)) by (unfold log_abs; rewrite Hs; auto).
    assert (Hst : a_slice (ms_abs (l_st l)) lo (N.min hi (u_off (l_us l))) = a_slice (log_abs l) lo (N.min hi (u_off (l_us l)))).
    { apply list_ext. intros k. rewrite !nnth_slice. destruct (N.ltb_spec k (N.min hi (u_off (l_us l)) - lo)); auto.
      rewrite Hb. unfold log_abs in *; rewrite Hs in *; cbn in *. unfold a_first, a_last in *; cbn in *.
      rewrite nnth_app1 by (rewrite nlen_ntake; lia). rewrite nnth_ntake.
      destruct (N.ltb_spec (lo - e_index (ms_dummy (l_st l)) - 1 + k) ((u_off (l_us l)) - (e_index (ms_dummy (l_st l)) + 1))); auto. clear Hun. lia. }
    rewrite ms_entries_abs; [| | |lia|].
    2:{ unfold a_first in *. lia. }
    2: lia.
    2:{ intros Hz. unfold a_last in H4. rewrite Hz in H4. unfold a_first in *. nl. }
    cbn [bind]. rewrite Hst.
    pose proof (nlen_slice (log_abs l) lo (N.min hi (u_off (l_us l))) Hlo ltac:(lia) ltac:(lia)) as HA.
    rewrite (slice_split (log_abs l) lo (N.min hi (u_off (l_us l))) hi) by lia.
    set (A := a_slice (log_abs l) lo (N.min hi (u_off (l_us l)))) in *.
    destruct (N.ltb_spec (nlen (limit_size A max)) (N.min hi (u_off (l_us l)) - lo)) as [Hc|Hc]; cbn [bind].
    + rewrite limit_size_cut by lia. auto.
    + rewrite (limit_size_full A max) by lia.
      destruct (N.ltb_spec (u_off (l_us l)) hi) as [Hoh|Hoh].
      * replace (N.max lo (u_off (l_us l))) with (u_off (l_us l)) by lia. rewrite Hun by lia. cbn [bind].
        replace (N.min hi (u_off (l_us l))) with (u_off (l_us l)) by lia. auto.
      * replace (N.min hi (u_off (l_us l))) with hi by lia. rewrite slice_nil, app_nil_r. auto.
  - cbn [bind]. destruct (N.ltb_spec (u_off (l_us l)) hi); [|lia].
    replace (N.max lo (u_off (l_us l))) with lo by lia. rewrite Hun by lia. reflexivity.
Qed.
Lemma log_slice_compacted lo hi max l : lo <= hi -> lo < a_first (log_abs l) ->
  log_slice lo hi max l = Ok (SErr ECompacted).
Proof.
  intros H1 H2. unfold log_slice, log_must_check. rewrite log_first_abs.
  destruct (N.ltb_spec hi lo); [lia|]. destruct (N.ltb_spec lo (a_first (log_abs l))); [auto|lia].
Qed.
Lemma log_slice_fatal lo hi max l : lwf0 l -> a_first (log_abs l) <= lo ->
  (hi < lo \/ a_last (log_abs l) + 1 < hi) -> exists w, log_slice lo hi max l = Fatal w.
Proof.
  intros Hw H1 H2. unfold log_slice, log_must_check. rewrite log_first_abs, log_last_abs by auto.
  destruct (N.ltb_spec hi lo); [cbn; eauto|]. destruct (N.ltb_spec lo (a_first (log_abs l))); [lia|].
  destruct (N.ltb_spec (a_last (log_abs l) + 1) hi); [cbn; eauto|lia].
Qed.

Lemma log_entries_abs i max l : lwf0 l -> a_first (log_abs l) <= i ->
  log_entries i max l = Ok (SOk (limit_size (ndrop (i - a_first (log_abs l)) (a_ents (log_abs l))) max)).
Proof.
  intros Hw Hi. unfold log_entries. rewrite log_last_abs by auto.
  destruct (N.ltb_spec (a_last (log_abs l)) i).
  - rewrite ndrop_all; [reflexivity|]. unfold a_last, a_first in *. lia.
  - rewrite log_slice_abs by (auto; lia). do 3 f_equal. unfold a_slice.
    rewrite ntake_all; [f_equal; unfold a_first; lia|]. rewrite nlen_ndrop. unfold a_last, a_first in *. lia.
Qed.
Lemma log_entries_compacted i max l : lwf0 l -> i < a_first (log_abs l) ->
  log_entries i max l = if a_last (log_abs l) <? i then Ok (SOk []) else Ok (SErr ECompacted).
Proof.
  intros Hw Hi. unfold log_entries. rewrite log_last_abs by auto.
  destruct (N.ltb_spec (a_last (log_abs l)) i); auto.
  apply log_slice_compacted; lia.
Qed.

(** The entries handed out for application. *)
Lemma log_next_ents_abs l : lwf l ->
  log_next_ents l =
    Ok (let off := N.max (l_applied l + 1) (a_first (log_abs l)) in
        if off <? l_committed l + 1
        then limit_size (a_slice (log_abs l) off (l_committed l + 1)) (l_maxnext l) else []).
Proof.
  intros Hw. pose proof (lwf_0 l Hw) as Hw0. unfold log_next_ents. rewrite log_first_abs.
  destruct Hw as [_ _ _ Hc Ha]. cbn zeta.
  destruct (N.ltb_spec (N.max (l_applied l + 1) (a_first (log_abs l))) (l_committed l + 1)); auto.
  rewrite log_slice_abs by (auto; lia). reflexivity.
Qed.
End SliceP.

(* ---------- Append ---------- *)
Lemma log_append_abs es i l : lwf l -> contig i es -> es <> [] -> 1 <= i ->
  if i - 1 <? l_committed l then exists w, log_append es l = Fatal w
  else if a_last (log_abs l) + 1 <? i then exists w, log_append es l = UB w
  else exists l', log_append es l = Ok (l', i + nlen es - 1) /\ lwf l' /\
     log_abs l' = a_replace (log_abs l) i es /\
     l_st l' = l_st l /\ l_committed l' = l_committed l /\ l_applied l' = l_applied l /\
     l_maxnext l' = l_maxnext l /\ u_snap (l_us l') = u_snap (l_us l).
Proof.
  intros Hw Hc Hne Hi. pose proof (lwf_0 l Hw) as Hw0. pose proof (log_off_abs l Hw0) as [Ho Hf].
  destruct es as [|e0 es]; [congruence|]. pose proof Hc as Hc'. apply contig_cons in Hc'. destruct Hc' as [H0 _].
  unfold log_append. rewrite H0. unfold wsub. destruct (N.leb_spec 1 i); [|lia].
  destruct (N.ltb_spec (i - 1) (l_committed l)); [eauto|].
  set (ents := e0 :: es) in *.
  assert (Hlen : 0 < nlen ents) by (unfold ents; rewrite nlen_cons; lia).
  pose proof Hw as [W1 W2 W3 W4 W5].
  assert (Hib : a_first (log_abs l) <= i) by (unfold a_first; lia).
  assert (HU : us_truncate_and_append ents (l_us l) = if i =? u_off (l_us l) + nlen (u_ents (l_us l)) then
        Ok (mkUnstable (u_snap (l_us l)) (u_ents (l_us l) ++ ents) (u_off (l_us l)))
      else if i <=? u_off (l_us l) then Ok (mkUnstable (u_snap (l_us l)) ents i)
      else if i - u_off (l_us l) <=? nlen (u_ents (l_us l)) then
        Ok (mkUnstable (u_snap (l_us l)) (ntake (i - u_off (l_us l)) (u_ents (l_us l)) ++ ents) (u_off (l_us l)))
      else UB "erase from past the end"%string).
  { unfold us_truncate_and_append, ents. rewrite H0. reflexivity. }
  rewrite HU; clear HU. assert (Hents : ents <> []) by (congruence). clearbody ents.
  assert (Hfin : forall u, u_snap u = u_snap (l_us l) -> contig (u_off u) (u_ents u) -> u_ents u <> [] ->
     (u_off u <= u_off (l_us l) /\ (u_snap u = None -> a_first (log_abs l) <= u_off u) /\ 
       (u_snap u <> None -> u_off u = u_off (l_us l))) ->
     log_abs (set_l_us u l) = a_replace (log_abs l) i ents ->
     a_last (log_abs l) + 1 >= i ->
     exists l', Ok (set_l_us u l, log_last (set_l_us u l)) = Ok (l', i + nlen ents - 1) /\ lwf l' /\
     log_abs l' = a_replace (log_abs l) i ents /\
     l_st l' = l_st l /\ l_committed l' = l_committed l /\ l_applied l' = l_applied l /\
     l_maxnext l' = l_maxnext l /\ u_snap (l_us l') = u_snap (l_us l)).
  { intros u Hs Hcu Hneu Hou Habs Hlast.
    assert (Hw' : lwf0 (set_l_us u l)).
    { split; [auto|]. split; [auto|]. cbn. rewrite Hs. destruct (u_snap (l_us l)) eqn:Es.
      - rewrite <- W3. apply Hou. congruence.
      - unfold log_abs in Hou; rewrite Es in Hou; unfold a_first in *; cbn in *. specialize (proj1 (proj2 Hou) Hs).
        split; [lia|congruence]. }
    exists (set_l_us u l). rewrite log_last_abs, Habs by auto.
    assert (HL : a_last (a_replace (log_abs l) i ents) = i + nlen ents - 1).
    { unfold a_last, a_replace; cbn. rewrite nlen_app, nlen_ntake. unfold a_last, a_first in *. lia. }
    rewrite HL. split; auto. split; [|cbn; auto 7].
    destruct Hw' as (Q1 & Q2 & Q3). constructor; auto. rewrite Habs, HL. cbn. lia. }
  destruct (N.eqb_spec i (u_off (l_us l) + nlen (u_ents (l_us l)))) as [He|He].
  - cbn [bind]. destruct (N.ltb_spec (a_last (log_abs l) + 1) i); [lia|].
    apply Hfin; cbn; auto; try lia.
    + apply contig_app; split; auto. rewrite <- He; auto.
    + destruct (u_ents (l_us l)); [cbn; congruence|discriminate].
    + unfold log_abs, a_replace; cbn. destruct (u_snap (l_us l)) eqn:Hs; cbn.
      * f_equal. rewrite ntake_all; auto. unfold log_abs, a_last in Ho; rewrite Hs in Ho; cbn in Ho. lia.
      * f_equal. rewrite (ntake_all (i - _ - 1)). rewrite app_assoc; auto.
        rewrite nlen_app, nlen_ntake. unfold log_abs, a_last, a_first in *; rewrite Hs in *; cbn in *. lia.
  - destruct (N.leb_spec i (u_off (l_us l))) as [Hle|Hle].
    + cbn [bind]. destruct (N.ltb_spec (a_last (log_abs l) + 1) i); [lia|].
      apply Hfin; cbn; auto; try lia.
      * split; [lia|split; [lia|]]. intros Hs. destruct (u_snap (l_us l)) eqn:Es; [|congruence].
        unfold log_abs in Hib; rewrite Es in Hib; unfold a_first in Hib; cbn in *; lia.
      * unfold log_abs, a_replace; cbn. destruct (u_snap (l_us l)) eqn:Hs; cbn.
        { f_equal. unfold log_abs in Hib; rewrite Hs in Hib; unfold a_first in Hib; cbn in *.
          replace (i - sn_index s - 1) with 0 by lia. auto. }
        { f_equal. unfold log_abs, a_last, a_first in *; rewrite Hs in *; cbn in *.
          rewrite ntake_app, ntake_ntake, nlen_ntake. f_equal.
          match goal with |- _ = _ ++ ntake ?n ?x => replace n with 0 by lia end.
          rewrite ntake_0, app_nil_r. f_equal. lia. }
    + destruct (N.leb_spec (i - u_off (l_us l)) (nlen (u_ents (l_us l)))) as [Hin|Hin].
      * cbn [bind]. destruct (N.ltb_spec (a_last (log_abs l) + 1) i); [lia|].
        apply Hfin; cbn; auto; try lia.
        { apply contig_app; split; [apply contig_ntake; auto|]. rewrite nlen_ntake.
          replace (u_off (l_us l) + N.min (i - u_off (l_us l)) (nlen (u_ents (l_us l)))) with i by lia. auto. }
        { destruct (ntake (i - u_off (l_us l)) (u_ents (l_us l))); [cbn; congruence|discriminate]. }
        { unfold log_abs, a_replace; cbn. destruct (u_snap (l_us l)) eqn:Hs; cbn.
          - f_equal. f_equal. f_equal. lia.
          - f_equal. unfold log_abs, a_last, a_first in *; rewrite Hs in *; cbn in *.
            rewrite ntake_app. rewrite ntake_ntake, nlen_ntake. rewrite <- app_assoc. f_equal.
            + f_equal. lia.
            + f_equal. f_equal. lia. }
      * destruct (N.ltb_spec (a_last (log_abs l) + 1) i); [cbn; eauto|lia].
Qed.

(* ---------- commit / applied ---------- *)
Lemma log_commit_to_abs c l : lwf l ->
  if a_last (log_abs l) <? c then exists w, log_commit_to c l = Fatal w
  else log_commit_to c l = Ok (set_l_committed (N.max (l_committed l) c) l) /\
       lwf (set_l_committed (N.max (l_committed l) c) l).
Proof.
  intros Hw. pose proof (lwf_0 l Hw) as Hw0. destruct Hw as [W1 W2 W3 W4 W5].
  unfold log_commit_to. rewrite log_last_abs by auto.
  destruct (N.ltb_spec (a_last (log_abs l)) c).
  - destruct (N.ltb_spec (l_committed l) c); [eauto|lia].
  - split.
    + destruct (N.ltb_spec (l_committed l) c).
      * do 2 f_equal. lia.
      * f_equal. replace (N.max (l_committed l) c) with (l_committed l) by lia. destruct l; auto.
    + constructor; auto; cbn; [rewrite log_abs_committed|]; lia.
Qed.

Lemma log_applied_to_abs i l : lwf l ->
  if i =? 0 then log_applied_to i l = Ok l
  else if (l_committed l <? i) || (i <? l_applied l) then exists w, log_applied_to i l = Fatal w
  else log_applied_to i l = Ok (set_l_applied i l) /\ lwf (set_l_applied i l).
Proof.
  intros Hw. unfold log_applied_to. destruct (N.eqb_spec i 0); auto.
  destruct ((l_committed l <? i) || (i <? l_applied l)) eqn:Hr; [eauto|].
  split; auto. destruct Hw. constructor; auto. cbn. lia.
Qed.

Lemma log_maybe_commit_abs mi t l : lwf l -> 0 < t ->
  if (l_committed l <? mi) && (a_term0 (log_abs l) mi =? t) then
     a_term (log_abs l) mi = Some t /\
     log_maybe_commit mi t l = Ok (set_l_committed mi l, true) /\ lwf (set_l_committed mi l)
  else log_maybe_commit mi t l = Ok (l, false).
Proof.
  intros Hw Ht. pose proof (lwf_0 l Hw) as Hw0. unfold log_maybe_commit. rewrite log_term_abs by auto.
  fold (a_term0 (log_abs l) mi). cbn [bind zero_term_on_compacted].
  destruct (N.ltb_spec (l_committed l) mi); cbn [andb]; auto.
  destruct (N.eqb_spec (a_term0 (log_abs l) mi) t) as [He|]; auto.
  assert (Hs : a_term (log_abs l) mi = Some t).
  { unfold a_term0 in He. destruct (a_term (log_abs l) mi); [congruence|lia]. }
  split; auto. pose proof (a_term_range _ _ _ Hs) as Hr.
  pose proof (log_commit_to_abs mi l Hw) as Hct.
  destruct (N.ltb_spec (a_last (log_abs l)) mi); [lia|].
  replace (N.max (l_committed l) mi) with mi in Hct by lia. destruct Hct as [-> Hw']. auto.
Qed.

(* ---------- FindConflict / MaybeAppend ---------- *)
(** [k] entries of [es] match the log's terms, and the next one (if any) does not. *)
Definition conflict_at (a : alog) (es : list entry) (k : N) : Prop :=
  k <= nlen es /\
  (forall j e, j < k -> nnth es j = Some e -> a_term a (e_index e) = Some (e_term e)) /\
  (forall e, nnth es k = Some e -> a_term a (e_index e) <> Some (e_term e)).

Lemma log_find_conflict_abs l : lwf0 l -> forall es i, contig i es -> 1 <= i ->
  (forall e, In e es -> 0 < e_term e) ->
  exists k, conflict_at (log_abs l) es k /\
    log_find_conflict es l = Ok (if k <? nlen es then i + k else 0).
Proof.
  intros Hw. induction es as [|e es IH]; intros i Hc Hi Ht.
  - exists 0. split; [|reflexivity]. split; [nl|]. split; [intros; lia|discriminate].
  - cbn [log_find_conflict]. rewrite log_match_term_abs by auto. cbn [bind].
    apply contig_cons in Hc. destruct Hc as [He Hc].
    assert (Hp : 0 < e_term e) by (apply Ht; left; auto).
    destruct (N.eqb_spec (a_term0 (log_abs l) (e_index e)) (e_term e)) as [Hm|Hm].
    + destruct (IH (i + 1) Hc ltac:(lia)) as (k & (K1 & K2 & K3) & Hk); [intros; apply Ht; right; auto|].
      exists (k + 1). split.
      * split; [|split].
        -- rewrite nlen_cons. lia.
        -- intros j x Hj Hx. destruct (N.eqb_spec j 0) as [->|].
           ++ rewrite nnth_cons0 in Hx. inv Hx. unfold a_term0 in Hm.
              destruct (a_term (log_abs l) (e_index x)); [congruence|lia].
           ++ rewrite nnth_consS in Hx by lia. eapply K2; [|eauto]. lia.
        -- intros x Hx. rewrite nnth_consS in Hx by lia. apply K3.
           replace (k + 1 - 1) with k in Hx by lia. auto.
      * rewrite Hk, nlen_cons. f_equal.
        destruct (N.ltb_spec k (nlen es)), (N.ltb_spec (k + 1) (1 + nlen es)); lia.
    + exists 0. split.
      * split; [lia|]. split; [intros; lia|]. intros x Hx. rewrite nnth_cons0 in Hx. inv Hx.
        intros Hs. unfold a_term0 in Hm. rewrite Hs in Hm. congruence.
      * rewrite nlen_cons. destruct (N.ltb_spec 0 (1 + nlen es)); [|lia]. f_equal. lia.
Qed.

Lemma a_last_replace a i es : a_first a <= i -> i <= a_last a + 1 ->
  a_last (a_replace a i es) = i + nlen es - 1.
Proof. unfold a_last, a_first, a_replace; cbn. intros. rewrite nlen_app, nlen_ntake. lia. Qed.

Lemma log_maybe_append_match index lt com es l :
  lwf l -> contig (index + 1) es -> (forall e, In e es -> 0 < e_term e) ->
  a_term (log_abs l) index = Some lt ->
  exists k, conflict_at (log_abs l) es k /\
    if (k <? nlen es) && (index + 1 + k <=? l_committed l)
    then exists w, log_maybe_append index lt com es l = Fatal w
    else exists l', log_maybe_append index lt com es l = Ok (l', Some (index + nlen es)) /\ lwf l' /\
      log_abs l' = (if k <? nlen es then a_replace (log_abs l) (index + 1 + k) (ndrop k es)
                    else log_abs l) /\
      l_committed l' = N.max (l_committed l) (N.min com (index + nlen es)) /\
      l_applied l' = l_applied l /\ l_st l' = l_st l /\ l_maxnext l' = l_maxnext l /\
      u_snap (l_us l') = u_snap (l_us l).
Proof.
  intros Hw Hc Ht Hm. pose proof (lwf_0 l Hw) as Hw0.
  destruct (log_find_conflict_abs l Hw0 es (index + 1) Hc ltac:(lia) Ht) as (k & HK & Hfc).
  exists k. split; auto. unfold log_maybe_append. rewrite log_match_term_abs by auto. cbn [bind].
  assert (Hm0 : (a_term0 (log_abs l) index =? lt) = true) by (unfold a_term0; rewrite Hm; apply N.eqb_refl).
  rewrite Hm0. rewrite Hfc. cbn [bind]. clear Hfc.
  pose proof (a_term_range _ _ _ Hm) as Hr. destruct HK as (K1 & K2 & K3).
  destruct (N.ltb_spec k (nlen es)) as [Hk|Hk]; cbn [andb].
  - destruct (N.eqb_spec (index + 1 + k) 0); [lia|].
    destruct (N.leb_spec (index + 1 + k) (l_committed l)) as [Hcc|Hcc]; [cbn; eauto|].
    unfold wsub. destruct (N.leb_spec (index + 1) (index + 1 + k)); [|lia].
    replace (index + 1 + k - (index + 1)) with k by lia.
    destruct (N.ltb_spec (nlen es) k); [lia|].
    assert (Hc' : contig (index + 1 + k) (ndrop k es)) by (apply contig_ndrop; auto).
    assert (Hn' : nlen (ndrop k es) = nlen es - k) by apply nlen_ndrop.
    pose proof (log_append_abs (ndrop k es) (index + 1 + k) l Hw Hc') as HA.
    assert (Hne : ndrop k es <> []) by (intros Hz; rewrite Hz in Hn'; nl).
    specialize (HA Hne ltac:(lia)).
    destruct (N.ltb_spec (index + 1 + k - 1) (l_committed l)); [lia|].
    assert (Hkl : index + k <= a_last (log_abs l)).
    { destruct (N.eqb_spec k 0); [lia|]. destruct (nnth_lt_Some es (k - 1)) as [e He]; [lia|].
      pose proof (Hc _ _ He) as Hi. pose proof (K2 (k - 1) e ltac:(lia) He) as Hte.
      apply a_term_range in Hte. lia. }
    destruct (N.ltb_spec (a_last (log_abs l) + 1) (index + 1 + k)); [lia|].
    destruct HA as (l1 & -> & Hw1 & Habs & A1 & A2 & A3 & A4 & A5). cbn [bind].
    assert (HL : a_last (log_abs l1) = index + nlen es).
    { rewrite Habs, a_last_replace; unfold a_first; lia. }
    pose proof (log_commit_to_abs (N.min com (index + nlen es)) l1 Hw1) as HC.
    destruct (N.ltb_spec (a_last (log_abs l1)) (N.min com (index + nlen es))); [lia|].
    destruct HC as [-> Hw2]. cbn [bind]. eexists; split; [reflexivity|]. split; auto.
    rewrite log_abs_committed. rewrite A2. cbn. auto 8.
  - rewrite N.eqb_refl. cbn [bind].
    assert (Hkl : index + nlen es <= a_last (log_abs l)).
    { destruct (N.eqb_spec k 0); [lia|]. destruct (nnth_lt_Some es (k - 1)) as [e He]; [lia|].
      pose proof (Hc _ _ He) as Hi. pose proof (K2 (k - 1) e ltac:(lia) He) as Hte.
      apply a_term_range in Hte. lia. }
    pose proof (log_commit_to_abs (N.min com (index + nlen es)) l Hw) as HC.
    destruct (N.ltb_spec (a_last (log_abs l)) (N.min com (index + nlen es))); [lia|].
    destruct HC as [-> Hw2]. cbn [bind]. eexists; split; [reflexivity|]. split; auto.
    rewrite log_abs_committed. cbn. auto 8.
Qed.

Lemma log_maybe_append_mismatch index lt com es l : lwf0 l -> a_term0 (log_abs l) index <> lt ->
  log_maybe_append index lt com es l = Ok (l, None).
Proof.
  intros Hw Hm. unfold log_maybe_append. rewrite log_match_term_abs by auto. cbn [bind].
  destruct (N.eqb_spec (a_term0 (log_abs l) index) lt); [contradiction|auto].
Qed.

(* ---------- FindConflictByTerm ---------- *)
Lemma fcbt_loop_abs l t : lwf0 l -> a_term0 (log_abs l) 0 = 0 ->
  forall fuel i, (N.to_nat i < fuel)%nat ->
  exists r, fcbt_loop fuel i t l = Ok r /\ r <= i /\ a_term0 (log_abs l) r <= t /\
    forall j, r < j -> j <= i -> t < a_term0 (log_abs l) j.
Proof.
  intros Hw Hz. induction fuel as [|f IH]; intros i Hi; [lia|].
  cbn [fcbt_loop]. rewrite log_term_abs by auto. cbn [bind]. fold (a_term0 (log_abs l) i).
  destruct (N.leb_spec (a_term0 (log_abs l) i) t).
  - exists i. repeat split; auto; intros; lia.
  - destruct (N.eqb_spec i 0) as [->|]; [lia|].
    unfold wsub. destruct (N.leb_spec 1 i); [|lia].
    destruct (IH (i - 1) ltac:(lia)) as (r & -> & R1 & R2 & R3). exists r. repeat split; auto; [lia|].
    intros j Hj Hji. destruct (N.eqb_spec j i) as [->|]; [auto|]. apply R3; lia.
Qed.
Lemma log_fcbt_abs index t l : lwf0 l -> a_term0 (log_abs l) 0 = 0 ->
  exists r, log_find_conflict_by_term index t l = Ok r /\
    (a_last (log_abs l) < index -> r = index) /\
    (index <= a_last (log_abs l) -> r <= index /\ a_term0 (log_abs l) r <= t /\
      forall j, r < j -> j <= index -> t < a_term0 (log_abs l) j).
Proof.
  intros Hw Hz. unfold log_find_conflict_by_term. rewrite log_last_abs by auto.
  destruct (N.ltb_spec (a_last (log_abs l)) index).
  - exists index. repeat split; auto; lia.
  - destruct (fcbt_loop_abs l t Hw Hz (S (S (N.to_nat index))) index ltac:(lia)) as (r & H1 & H2).
    exists r. split; auto. split; [lia|auto].
Qed.

(* ---------- Restore / StableTo / StableSnapTo ---------- *)
Lemma log_restore_abs s l : lwf l -> l_applied l <= sn_index s ->
  lwf (log_restore s l) /\ log_abs (log_restore s l) = mkALog (sn_index s) (sn_term s) [].
Proof.
  intros [W1 W2 W3 W4 W5] Ha. split; [|reflexivity].
  constructor; cbn; auto. apply contig_nil. unfold a_last; cbn. nl.
Qed.

(** The storage holds exactly the logical log up to index [i]. *)
Definition stored_to (i : N) (l : rlog) : Prop :=
  ms_abs (l_st l) = mkALog (a_base (log_abs l)) (a_bterm (log_abs l))
                           (ntake (i - a_base (log_abs l)) (a_ents (log_abs l))).

Lemma log_stable_abs i l : lwf l -> stored_to i l ->
  u_off (l_us l) <= i + 1 -> i <= a_last (log_abs l) ->
  let l' := set_l_us (mkUnstable None (ndrop (i + 1 - u_off (l_us l)) (u_ents (l_us l))) (i + 1)) l in
  lwf l' /\ log_abs l' = log_abs l.
Proof.
  intros Hw Hst Ho Hi l'. pose proof (lwf_0 l Hw) as Hw0. pose proof (log_off_abs l Hw0) as [Hol Hof].
  pose proof Hw as [W1 W2 W3 W4 W5].
  assert (Hlast : a_last (ms_abs (l_st l)) = i).
  { rewrite Hst. unfold a_last in *; cbn. rewrite nlen_ntake. unfold a_first in *. lia. }
  assert (Hents : u_ents (l_us l) = ndrop (u_off (l_us l) - a_base (log_abs l) - 1) (a_ents (log_abs l))).
  { unfold log_abs in *. destruct (u_snap (l_us l)); cbn in *.
    - replace (u_off (l_us l) - sn_index s - 1) with 0 by lia. auto.
    - unfold a_first, a_last in *; cbn in *. rewrite ndrop_app. rewrite ndrop_all by (rewrite nlen_ntake; lia).
      cbn. rewrite nlen_ntake. match goal with |- _ = ndrop ?n _ => replace n with 0 by lia end. auto. }
  assert (Habs : log_abs l' = log_abs l).
  { unfold l'. unfold log_abs at 1. cbn [u_snap l_us set_l_us u_off u_ents l_st]. rewrite Hst. cbn.
    unfold a_first; cbn. rewrite Hents, ndrop_ndrop, ntake_ntake.
    destruct (log_abs l) as [b bt es]; cbn in *. f_equal.
    rewrite <- (ntake_ndrop (i - b) es) at 3. unfold a_first in *; cbn in *. f_equal; f_equal; lia. }
  split; auto. constructor; cbn; auto.
  - replace (i + 1) with (u_off (l_us l) + (i + 1 - u_off (l_us l))) at 1 by lia. apply contig_ndrop; auto.
  - rewrite Hlast. assert (a_first (ms_abs (l_st l)) = a_first (log_abs l)) by (rewrite Hst; reflexivity).
    split; [lia|auto].
  - change (a_base (log_abs l') <= l_committed l <= a_last (log_abs l')). rewrite Habs. auto.
Qed.

Lemma us_maybe_term_abs i l : lwf0 l -> u_snap (l_us l) = None ->
  us_maybe_term i (l_us l) =
     Ok (if (u_off (l_us l) <=? i) && (i <=? a_last (log_abs l)) then a_term (log_abs l) i else None).
Proof.
  intros Hw0 Hs. pose proof (log_off_abs l Hw0) as [Hol Hof].
  unfold us_maybe_term. rewrite Hs.
    destruct (N.ltb_spec i (u_off (l_us l))).
    - destruct (N.leb_spec (u_off (l_us l)) i); [lia|auto].
    - destruct (N.leb_spec (u_off (l_us l)) i); [|lia]. cbn.
      pose proof (log_term_abs i l Hw0) as HT. unfold log_term in HT. rewrite log_last_abs in HT by auto.
      unfold us_maybe_last. destruct (u_ents (l_us l)) as [|x xs] eqn:He.
      + rewrite Hs. nl. destruct (N.leb_spec i (a_last (log_abs l))); [lia|auto].
      + rewrite <- He in *. destruct (N.ltb_spec (u_off (l_us l) + nlen (u_ents (l_us l)) - 1) i);
          destruct (N.leb_spec i (a_last (log_abs l))); try lia; auto.
        rewrite log_first_abs in HT. unfold a_first in *.
        destruct (N.ltb_spec i (a_base (log_abs l) + 1 - 1)); [lia|].
        destruct (N.ltb_spec (a_last (log_abs l)) i); [lia|]. cbn [orb] in HT.
        unfold us_maybe_term in HT. destruct (N.ltb_spec i (u_off (l_us l))); [lia|].
        unfold us_maybe_last in HT. rewrite He in HT. rewrite <- He in HT.
        destruct (N.ltb_spec (u_off (l_us l) + nlen (u_ents (l_us l)) - 1) i); [lia|].
        destruct (nnth_lt_Some (u_ents (l_us l)) (i - u_off (l_us l))) as [e Hn]; [lia|].
        rewrite Hn in *. cbn in HT. injection HT as HT.
        destruct (a_term_in (log_abs l) i) as [tt Htt]; [unfold a_first in *; lia|]. rewrite Htt in *. congruence.
Qed.

(** StableTo alone (no pending snapshot). *)
Lemma log_stable_to_abs i t l : lwf l -> u_snap (l_us l) = None ->
  stored_to i l -> 
  exists l', log_stable_to i t l = Ok l' /\ lwf l' /\ log_abs l' = log_abs l /\
    l_st l' = l_st l /\ l_committed l' = l_committed l /\ l_applied l' = l_applied l /\
    l_maxnext l' = l_maxnext l /\ u_snap (l_us l') = None /\
    (u_off (l_us l) <= i -> i <= a_last (log_abs l) -> a_term (log_abs l) i = Some t ->
     u_ents (l_us l') = ndrop (i + 1 - u_off (l_us l)) (u_ents (l_us l)) /\ u_off (l_us l') = i + 1).
Proof.
  intros Hw Hs Hst. pose proof (lwf_0 l Hw) as Hw0. pose proof (log_off_abs l Hw0) as [Hol Hof].
  unfold log_stable_to, us_stable_to.
  pose proof (us_maybe_term_abs i l Hw0 Hs) as Hmt.
  rewrite Hmt. cbn [bind].
  destruct ((u_off (l_us l) <=? i) && (i <=? a_last (log_abs l))) eqn:Hr.
  - destruct (a_term_in (log_abs l) i) as [tt Htt]; [unfold a_first in *; lia|]. rewrite Htt.
    destruct (N.leb_spec (u_off (l_us l)) i); [|discriminate]. rewrite andb_true_r.
    destruct (N.eqb_spec tt t) as [->|Hne]; cbn [bind].
    + rewrite Hs. replace (i - u_off (l_us l) + 1) with (i + 1 - u_off (l_us l)) by lia.
      destruct (log_stable_abs i l Hw Hst ltac:(lia) ltac:(lia)) as [Q1 Q2].
      eexists; split; [reflexivity|]. cbn. auto 10.
    + exists l. split; [destruct l; auto|]. do 7 (split; auto). intros _ _ Hx. congruence.
  - exists l. split; [destruct l; auto|]. do 7 (split; auto). intros Hx Hy. lia.
Qed.
