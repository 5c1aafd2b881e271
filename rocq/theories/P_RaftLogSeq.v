(** RaftLog refines the abstract log over every sequence of calls. *)
From Verif Require Import Prelude Types M_Util M_Storage M_Unstable M_Log.
From Verif Require Import P_Inflights Spec_Log P_Lists P_Storage P_Log Spec_Storage Sys_Storage P_StorageSeq Spec_RaftLog Sys_RaftLog.

Definition al_abs (l : rlog) : alstate := mkAL (log_abs l) (l_committed l) (l_applied l).

Record linv (l : rlog) : Prop := mk_linv {
  li_wf : lwf l;
  li_app : l_applied l < u_off (l_us l);
  li_snap : match u_snap (l_us l) with
            | Some s => sn_index (ms_snap (l_st l)) < sn_index s
            | None => sn_index (ms_snap (l_st l)) <= l_committed l
            end
}.

Lemma match_len_spec a es : conflict_at a es (match_len a es).
Proof.
  induction es as [|e es IH]; cbn [match_len].
  - split; [nl|]. split; [intros; lia|discriminate].
  - destruct (a_term a (e_index e)) as [x|] eqn:Hx.
    + destruct (N.eqb_spec x (e_term e)) as [->|Hne].
      * destruct IH as (K1 & K2 & K3). split; [rewrite nlen_cons; lia|]. split.
        -- intros j y Hj Hy. destruct (N.eqb_spec j 0) as [->|].
           ++ rewrite nnth_cons0 in Hy. inv Hy. auto.
           ++ rewrite nnth_consS in Hy by lia. eapply K2; [|eauto]. lia.
        -- intros y Hy. rewrite nnth_consS in Hy by lia. apply K3. rewrite <- Hy. f_equal. lia.
      * split; [lia|]. split; [intros; lia|]. intros y Hy. rewrite nnth_cons0 in Hy. inv Hy. congruence.
    + split; [lia|]. split; [intros; lia|]. intros y Hy. rewrite nnth_cons0 in Hy. inv Hy. congruence.
Qed.
Lemma conflict_at_unique a es k1 k2 : conflict_at a es k1 -> conflict_at a es k2 -> k1 = k2.
Proof.
  assert (H : forall k1 k2, conflict_at a es k1 -> conflict_at a es k2 -> k1 < k2 -> False).
  { intros x y (X1 & X2 & X3) (Y1 & Y2 & Y3) Hlt.
    destruct (nnth_lt_Some es x) as [e He]; [lia|]. apply (X3 e He). eapply Y2; eauto. }
  intros H1 H2. destruct (N.lt_trichotomy k1 k2) as [Hl|[He|Hl]]; auto; exfalso; eauto.
Qed.

(** Persisting: the whole log is in the storage afterwards and the logical log is unchanged. *)
Lemma rev_contig i es e t : contig i es -> rev es = e :: t -> e_index e + 1 = i + nlen es.
Proof.
  intros Hc Hr. apply rev_last in Hr. subst es.
  specialize (Hc (nlen (rev t)) e). rewrite nnth_app2, N.sub_diag, nnth_cons0 in Hc by lia.
  specialize (Hc eq_refl). rewrite nlen_app, nlen_cons. nl.
Qed.

Lemma log_persist_ok l : linv l -> a_base (log_abs l) + 1 <= a_last (log_abs l) + 1 ->
  exists l', log_persist l = Ok l' /\ linv l' /\ log_abs l' = log_abs l /\
    l_committed l' = l_committed l /\ l_applied l' = l_applied l /\ l_maxnext l' = l_maxnext l /\
    u_snap (l_us l') = None /\ u_ents (l_us l') = [] /\ u_off (l_us l') = a_last (log_abs l) + 1 /\
    ms_abs (l_st l') = log_abs l /\ ms_hs (l_st l') = ms_hs (l_st l).
Proof.
  intros [Hw Ha Hsn] _. pose proof (lwf_0 l Hw) as Hw0. pose proof (log_off_abs l Hw0) as [Ho Hf].
  pose proof Hw as [W1 W2 W3 W4 W5]. unfold log_persist.
  set (st1 := match u_snap (l_us l) with Some s => fst (ms_apply_snapshot s (l_st l)) | None => l_st l end).
  assert (H1 : swf st1 /\ ms_hs st1 = ms_hs (l_st l) /\ 
    a_base (ms_abs st1) = a_base (log_abs l) /\ a_bterm (ms_abs st1) = a_bterm (log_abs l) /\
    sn_index (ms_snap st1) <= l_committed l /\
    u_off (l_us l) <= a_last (ms_abs st1) + 1 /\ a_first (ms_abs st1) <= u_off (l_us l) /\
    log_abs l = mkALog (a_base (ms_abs st1)) (a_bterm (ms_abs st1))
       (ntake (u_off (l_us l) - a_first (ms_abs st1)) (a_ents (ms_abs st1)) ++ u_ents (l_us l)) /\
    (u_ents (l_us l) = [] -> u_off (l_us l) = a_last (ms_abs st1) + 1)).
  { unfold st1, log_abs, ms_apply_snapshot in *. destruct (u_snap (l_us l)) as [s|] eqn:Hs.
    - destruct (N.leb_spec (sn_index s) (sn_index (ms_snap (l_st l)))); [lia|]. cbn in *.
      unfold a_last, a_first in *; cbn in *. nl. unfold swf, a_wf; cbn.
      split; [apply contig_nil|]. rewrite W3. replace (sn_index s + 1 - (sn_index s + 1)) with 0 by lia.
      rewrite ntake_0. cbn. repeat split; auto; lia.
    - cbn in *. destruct W3 as [W3a W3b]. repeat split; auto; lia. }
  clearbody st1. destruct H1 as (Q1 & Q2 & Q3 & Q4 & Q5 & Q6 & Q7 & Q8 & Q9).
  assert (H2 : exists st2, ms_append (u_ents (l_us l)) st1 = Ok st2 /\ swf st2 /\ ms_hs st2 = ms_hs st1 /\
     ms_snap st2 = ms_snap st1 /\ ms_abs st2 = log_abs l).
  { destruct (u_ents (l_us l)) as [|e0 es0] eqn:He.
    - exists st1. split; auto. split; auto. split; auto. split; auto.
      rewrite Q8, app_nil_r. rewrite ntake_all; [destruct (ms_abs st1); auto|].
      rewrite Q9 by auto. unfold a_last, a_first. lia.
    - rewrite <- He in *. pose proof (ms_append_abs st1 (u_ents (l_us l)) (u_off (l_us l)) Q1 W2) as HA.
      assert (Hl : 0 < nlen (u_ents (l_us l))) by (rewrite He, nlen_cons; lia).
      specialize (HA ltac:(rewrite He; discriminate)). unfold a_first in *.
      specialize (HA ltac:(lia)).
      destruct (N.ltb_spec (a_last (ms_abs st1) + 1) (u_off (l_us l))); [lia|].
      destruct HA as (st2 & A1 & A2 & A3 & A4 & A5). exists st2. repeat (split; [auto|]).
      destruct (N.leb_spec (u_off (l_us l) + nlen (u_ents (l_us l))) (a_base (ms_abs st1) + 1)); [lia|].
      rewrite A5, Q8. unfold a_replace. f_equal. f_equal.
      + f_equal. lia.
      + replace (a_base (ms_abs st1) + 1 - u_off (l_us l)) with 0 by lia. apply ndrop_0. }
  destruct H2 as (st2 & -> & R1 & R2 & R3 & R4). cbn [bind].
  set (l1 := set_l_st st2 l).
  assert (Hgoal : forall l', l' = set_l_us (mkUnstable None [] (a_last (log_abs l) + 1)) l1 ->
    linv l' /\ log_abs l' = log_abs l /\
    l_committed l' = l_committed l /\ l_applied l' = l_applied l /\ l_maxnext l' = l_maxnext l /\
    u_snap (l_us l') = None /\ u_ents (l_us l') = [] /\ u_off (l_us l') = a_last (log_abs l) + 1 /\
    ms_abs (l_st l') = log_abs l /\ ms_hs (l_st l') = ms_hs (l_st l)).
  { intros l' ->. 
    assert (Habs : log_abs (set_l_us (mkUnstable None [] (a_last (log_abs l) + 1)) l1) = log_abs l).
    { unfold log_abs at 1. cbn [l1 set_l_us set_l_st l_us l_st u_snap u_off u_ents]. rewrite R4.
      rewrite app_nil_r, ntake_all; [destruct (log_abs l); auto|].
      unfold a_last, a_first. lia. }
    split; [|repeat split; cbn; auto; congruence].
    constructor.
    - constructor; auto.
      + apply contig_nil.
      + cbn. rewrite R4. unfold a_first, a_last. split; [lia|auto].
      + rewrite Habs. cbn. auto.
    - cbn. lia.
    - cbn. rewrite R3. auto. }
  assert (Hlast : a_last (log_abs l) + 1 = u_off (l_us l) + nlen (u_ents (l_us l))) by lia.
  destruct (rev (u_ents (l_us l))) as [|e t] eqn:Hr.
  - assert (Hn : u_ents (l_us l) = []) by (rewrite <- (rev_involutive (u_ents (l_us l))), Hr; auto).
    cbn [bind]. eexists; split; [reflexivity|]. apply Hgoal. rewrite Hn in Hlast. nl.
    destruct (u_snap (l_us l)) as [s|] eqn:Hs.
    + unfold l1, log_stable_snap_to, us_stable_snap_to, set_l_us, set_l_st; cbn. rewrite Hs, N.eqb_refl.
      cbn. rewrite Hn. do 2 f_equal. lia.
    + unfold l1, set_l_us, set_l_st; cbn. f_equal. destruct (l_us l) as [a b c]; cbn in *. subst. f_equal. lia.
  - pose proof (rev_contig _ _ _ _ W2 Hr) as He.
    assert (Hst : log_stable_to (e_index e) (e_term e) l1 =
       Ok (set_l_us (mkUnstable (u_snap (l_us l)) [] (e_index e + 1)) l1)).
    { assert (Hlen : 0 < nlen (u_ents (l_us l))).
      { apply rev_last in Hr. rewrite Hr, nlen_app, nlen_cons. lia. }
      unfold log_stable_to, us_stable_to, us_maybe_term. cbn [l1 set_l_st l_us].
      destruct (N.ltb_spec (e_index e) (u_off (l_us l))); [lia|].
      unfold us_maybe_last. destruct (u_ents (l_us l)) as [|x xs] eqn:Hx; [nl|]. rewrite <- Hx in *.
      destruct (N.ltb_spec (u_off (l_us l) + nlen (u_ents (l_us l)) - 1) (e_index e)); [lia|].
      assert (Hn : nnth (u_ents (l_us l)) (e_index e - u_off (l_us l)) = Some e).
      { pose proof (rev_last _ _ _ Hr) as Hl. rewrite Hl in *. rewrite nlen_app, nlen_cons in *. nl.
        rewrite nnth_app2 by lia. replace (e_index e - u_off (l_us l) - nlen (rev t)) with 0 by lia. auto. }
      rewrite Hn. cbn [bind]. rewrite N.eqb_refl. destruct (N.leb_spec (u_off (l_us l)) (e_index e)); [|lia].
      cbn [andb bind]. rewrite ndrop_all by lia. reflexivity. }
    rewrite Hst. cbn [bind]. eexists; split; [reflexivity|]. apply Hgoal.
    destruct (u_snap (l_us l)) as [s|] eqn:Hs.
    + unfold log_stable_snap_to, us_stable_snap_to, set_l_us; cbn. rewrite N.eqb_refl. cbn. do 2 f_equal. lia.
    + unfold set_l_us; cbn. do 2 f_equal. lia.
Qed.

Lemma opt_eqb_true o t : opt_eqb o t = true <-> o = Some t.
Proof. destruct o as [x|]; cbn; [|split; discriminate]. destruct (N.eqb_spec x t); split; congruence. Qed.

Lemma log_compact_ok i l : linv l -> u_snap (l_us l) = None -> i <= l_applied l ->
  (i <= a_base (log_abs l) -> ms_compact i (l_st l) = Ok (l_st l, Some ECompacted)) /\
  (a_base (log_abs l) < i -> exists st' t, ms_compact i (l_st l) = Ok (st', None) /\
     a_term (log_abs l) i = Some t /\ linv (set_l_st st' l) /\
     ms_hs st' = ms_hs (l_st l) /\ ms_snap st' = ms_snap (l_st l) /\
     log_abs (set_l_st st' l) = mkALog i t (ndrop (i - a_base (log_abs l)) (a_ents (log_abs l)))).
Proof.
  intros [Hw Ha Hsn] Hs Hi. pose proof (lwf_0 l Hw) as Hw0. pose proof (log_off_abs l Hw0) as [Ho Hf].
  pose proof Hw as [W1 W2 W3 W4 W5]. rewrite Hs in W3. destruct W3 as [W3a W3b].
  assert (Hb : a_base (log_abs l) = a_base (ms_abs (l_st l))) by (unfold log_abs; rewrite Hs; auto).
  pose proof (ms_compact_abs (l_st l) i W1) as HC. rewrite Hb.
  split; intros Hib.
  - destruct (N.leb_spec i (a_base (ms_abs (l_st l)))); [auto|lia].
  - destruct (N.leb_spec i (a_base (ms_abs (l_st l)))); [lia|].
    destruct (N.ltb_spec (a_last (ms_abs (l_st l))) i); [lia|].
    destruct HC as (st' & t & C1 & C2 & C3 & C4 & C5 & C6). exists st', t. split; auto.
    assert (Ht : a_term (log_abs l) i = Some t).
    { rewrite <- C5. unfold a_term, a_entry. rewrite Hb.
      destruct (N.eqb_spec i (a_base (ms_abs (l_st l)))); [lia|].
      destruct (N.ltb_spec (a_base (ms_abs (l_st l))) i); [|lia]. f_equal.
      unfold log_abs; rewrite Hs; cbn [a_ents]. unfold a_first, a_last in *.
      rewrite nnth_app1, nnth_ntake by (rewrite nlen_ntake; lia).
      destruct (N.ltb_spec (i - a_base (ms_abs (l_st l)) - 1) (u_off (l_us l) - (a_base (ms_abs (l_st l)) + 1))); auto; lia. }
    split; auto.
    assert (Habs : log_abs (set_l_st st' l) = mkALog i t (ndrop (i - a_base (ms_abs (l_st l))) (a_ents (log_abs l)))).
    { unfold log_abs. cbn [set_l_st l_us l_st]. rewrite Hs, C6. cbn [a_base a_bterm a_ents a_first]. f_equal.
      rewrite ndrop_app, nlen_ntake. unfold a_first, a_last in *; cbn [a_base].
      replace (i - a_base (ms_abs (l_st l)) - N.min (u_off (l_us l) - (a_base (ms_abs (l_st l)) + 1)) (nlen (a_ents (ms_abs (l_st l))))) with 0 by lia.
      rewrite ndrop_0. f_equal. rewrite ntake_ndrop_comm. f_equal. f_equal. lia. }
    split; [|auto].
    constructor; cbn; auto; [|rewrite Hs; rewrite Hs in Hsn; congruence].
    constructor; auto.
    + cbn [set_l_st l_us l_st]. rewrite Hs, C6. unfold a_first, a_last in *; cbn [a_base a_ents].
      rewrite nlen_ndrop. split; [lia|]. intros Hz. specialize (W3b Hz). lia.
    + rewrite Habs. cbn [a_base set_l_st l_committed]. split; [lia|]. unfold a_last; cbn [a_base a_ents]. rewrite nlen_ndrop.
      unfold a_last in W4. lia.
Qed.

Lemma log_append_off es l l' i : log_append es l = Ok (l', i) -> (forall e, In e es -> 1 <= e_index e) ->
  u_off (l_us l') = u_off (l_us l) \/ l_committed l < u_off (l_us l').
Proof.
  unfold log_append. destruct es as [|e0 es]; intros H Hp; [inv H; auto|].
  specialize (Hp e0 (or_introl eq_refl)).
  destruct (N.ltb_spec (wsub (e_index e0) 1) (l_committed l)) as [|Hc]; [discriminate|].
  unfold wsub in Hc. destruct (N.leb_spec 1 (e_index e0)); [|lia].
  apply bind_ok in H. destruct H as (u & Hu & H). inv H. unfold us_truncate_and_append in Hu.
  repeat match type of Hu with context[if ?b then _ else _] => destruct b eqn:? end; inv Hu; cbn; lia.
Qed.
Lemma log_commit_to_us c l l' : log_commit_to c l = Ok l' -> l_us l' = l_us l.
Proof.
  unfold log_commit_to. destruct (l_committed l <? c); [|intros H; inv H; auto].
  destruct (log_last l <? c); intros H; inv H; auto.
Qed.
Lemma log_maybe_append_off index t com es l l' r : log_maybe_append index t com es l = Ok (l', r) ->
  (forall e, In e es -> 1 <= e_index e) ->
  u_off (l_us l') = u_off (l_us l) \/ l_committed l < u_off (l_us l').
Proof.
  unfold log_maybe_append. intros H Hp. apply bind_ok in H. destruct H as (b & _ & H).
  destruct b; [|inv H; auto]. apply bind_ok in H. destruct H as (ci & _ & H).
  apply bind_ok in H. destruct H as (l1 & H1 & H). apply bind_ok in H. destruct H as (l2 & H2 & H). inv H.
  rewrite (log_commit_to_us _ _ _ H2).
  destruct (ci =? 0); [inv H1; auto|]. destruct (ci <=? l_committed l); [discriminate|]. cbn in H1.
  destruct (nlen es <? wsub ci (index + 1)); [discriminate|].
  apply bind_ok in H1. destruct H1 as ([l3 j] & H3 & H1). inv H1.
  eapply log_append_off; [exact H3|]. intros e He. apply Hp.
  rewrite <- (ntake_ndrop (wsub ci (index + 1)) es). apply in_or_app; auto.
Qed.

Lemma l_step_ok o l : linv l -> lop_ok (pending l) o (al_abs l) ->
  (match o with LAppliedTo i => i < u_off (l_us l) | _ => True end) ->
  match al_step o (al_abs l) with
  | Some (s', r) => exists l', l_step o l = Ok (l', r) /\ linv l' /\ al_abs l' = s' /\ l_maxnext l' = l_maxnext l
  | None => exists w, l_step o l = Fatal w
  end.
Proof.
  intros Hinv Hok Hx. pose proof Hinv as [Hw Ha Hsn]. pose proof (lwf_0 l Hw) as Hw0.
  pose proof (log_off_abs l Hw0) as [Ho Hf]. pose proof Hw as [W1 W2 W3 W4 W5].
  assert (Hoff : forall l', lwf l' -> l_applied l' = l_applied l -> l_st l' = l_st l -> u_snap (l_us l') = u_snap (l_us l) ->
     l_committed l <= l_committed l' -> l_applied l < u_off (l_us l') -> linv l').
  { intros l' H1 H2 H3 H4 H5 H6. constructor; auto; [lia|]. rewrite H4, H3. destruct (u_snap (l_us l)); [auto|lia]. }
  destruct o as [es|index term com es|i|i t|i|sn| |i t|i|i cs d]; cbn [al_step l_step al_abs al ac aa].
  - destruct es as [|e0 es].
    { cbn. rewrite log_last_abs by auto. eauto 6. }
    cbn in Hok. destruct Hok as (K1 & K2 & K3).
    pose proof (log_append_abs (e0 :: es) (e_index e0) l Hw K2 ltac:(discriminate) K1) as HA.
    destruct (N.leb_spec (e_index e0) (l_committed l)).
    + destruct (N.ltb_spec (e_index e0 - 1) (l_committed l)); [|lia]. destruct HA as [w ->]. cbn; eauto.
    + destruct (N.ltb_spec (e_index e0 - 1) (l_committed l)); [lia|].
      destruct (N.ltb_spec (a_last (log_abs l) + 1) (e_index e0)); [lia|].
      destruct HA as (l' & A1 & A2 & A3 & A4 & A5 & A6 & A7 & A8). rewrite A1. cbn [bind].
      exists l'. split; auto. split; [|split; [unfold al_abs; congruence|auto]].
      apply Hoff; auto; [lia|].
      destruct (log_append_off _ _ _ _ A1); try lia.
      intros e He. apply In_nnth in He. destruct He as [j Hj]. specialize (K2 _ _ Hj). lia.
  - cbn in Hok. destruct Hok as (K1 & K2 & K3).
    destruct (opt_eqb (a_term (log_abs l) index) term) eqn:Hm.
    + apply opt_eqb_true in Hm.
      destruct (log_maybe_append_match index term com es l Hw K1 K2 Hm) as (k & HK & HA).
      rewrite <- (conflict_at_unique _ _ _ _ HK (match_len_spec _ _)).
      destruct ((k <? nlen es) && (index + 1 + k <=? l_committed l)) eqn:Hc.
      * destruct HA as [w ->]. cbn; eauto.
      * destruct HA as (l' & A1 & A2 & A3 & A4 & A5 & A6 & A7 & A8). rewrite A1. cbn [bind].
        exists l'. split; auto. split; [|split; [unfold al_abs; congruence|auto]].
        apply Hoff; auto; [lia|].
        destruct (log_maybe_append_off _ _ _ _ _ _ _ A1); try lia.
        intros e He. apply In_nnth in He. destruct He as [j Hj]. specialize (K1 _ _ Hj). lia.
    + assert (Hne : a_term0 (log_abs l) index <> term).
      { unfold a_term0. intros Hz. destruct (a_term (log_abs l) index) as [x|] eqn:Hxx.
        - subst. cbn in Hm. rewrite N.eqb_refl in Hm. discriminate.
        - apply K3; auto. }
      rewrite log_maybe_append_mismatch by auto. cbn. eauto 6.
  - pose proof (log_commit_to_abs i l Hw) as HC. destruct (a_last (log_abs l) <? i).
    + destruct HC as [w ->]; cbn; eauto.
    + destruct HC as [-> HC]. cbn. eexists; split; [reflexivity|]. split; [|split; auto].
      apply Hoff; auto. cbn. lia.
  - cbn in Hok. pose proof (log_maybe_commit_abs i t l Hw Hok) as HC.
    assert (Hq : (a_term0 (log_abs l) i =? t) = opt_eqb (a_term (log_abs l) i) t).
    { unfold a_term0. destruct (a_term (log_abs l) i); cbn; auto. destruct (N.eqb_spec 0 t); auto; lia. }
    rewrite Hq in HC. destruct ((l_committed l <? i) && opt_eqb (a_term (log_abs l) i) t) eqn:Hb.
    + destruct HC as (C1 & -> & C2). cbn. eexists; split; [reflexivity|]. split; [|split; auto].
      apply Hoff; auto. cbn. lia.
    + rewrite HC. cbn. eauto 6.
  - cbn in Hok. unfold pending in Hok. destruct (u_snap (l_us l)) eqn:Hs; [discriminate|].
    pose proof (log_applied_to_abs i l Hw) as HC. destruct (i =? 0); [rewrite HC; cbn; eauto 6|].
    destruct ((l_committed l <? i) || (i <? l_applied l)) eqn:Hb; [destruct HC as [w ->]; cbn; eauto|].
    destruct HC as [-> HC]. cbn. eexists; split; [reflexivity|]. split; [|split; auto].
    constructor; auto. cbn. rewrite Hs. auto.
  - cbn in Hok. destruct (log_restore_abs sn l Hw ltac:(lia)) as [R1 R2].
    eexists; split; [reflexivity|]. split; [|split; [unfold al_abs; rewrite R2; reflexivity|reflexivity]].
    constructor; auto; cbn; [lia|]. destruct (u_snap (l_us l)) as [s|] eqn:Hs; [|lia].
    unfold log_abs in W4; rewrite Hs in W4; cbn in W4. lia.
  - destruct (log_persist_ok l Hinv ltac:(unfold a_last; lia)) as (l' & P1 & P2 & P3 & P4 & P5 & P6 & _).
    rewrite P1. cbn. exists l'. split; auto. split; auto. split; [unfold al_abs; congruence|auto].
  - cbn in Hok. destruct Hok as [Hp Ht]. unfold pending in Hp. destruct (u_snap (l_us l)) eqn:Hs; [discriminate|].
    exists l. split; [|auto]. unfold log_stable_to, us_stable_to. rewrite us_maybe_term_abs by auto. cbn [bind].
    destruct ((u_off (l_us l) <=? i) && (i <=? a_last (log_abs l))).
    + destruct (a_term (log_abs l) i) as [x|]; [|destruct l; auto].
      destruct (N.eqb_spec x t); [congruence|]. destruct l; auto.
    + destruct l; auto.
  - cbn in Hok. destruct Hok as [Hp Hi]. unfold pending in Hp. destruct (u_snap (l_us l)) eqn:Hs; [discriminate|].
    destruct (log_compact_ok i l Hinv Hs Hi) as [C1 C2].
    destruct (N.leb_spec i (a_base (log_abs l))).
    + rewrite C1 by auto. cbn. exists l. split; [destruct l; auto|auto].
    + destruct C2 as (st' & t & -> & Ht & Hl' & _ & _ & Habs); auto. rewrite Ht. cbn.
      eexists; split; [reflexivity|]. split; auto. split; [unfold al_abs; rewrite Habs; reflexivity|reflexivity].
  - cbn in Hok. destruct Hok as [Hp Hi]. unfold pending in Hp. destruct (u_snap (l_us l)) eqn:Hs; [discriminate|].
    destruct W3 as [W3a W3b].
    assert (Hb : a_base (log_abs l) = a_base (ms_abs (l_st l))) by (unfold log_abs; rewrite Hs; auto).
    assert (Hok' : sop_ok (OCreateSnapshot i cs d) (as_abs (l_st l))) by (cbn in *; intros; lia).
    pose proof (s_step_ok _ _ W1 Hok') as HC. cbn [as_step s_step as_abs as_log as_snap as_hs] in HC.
    assert (Hfin : forall s' r, ms_create_snapshot i cs d (l_st l) = Ok (s', r) -> swf s' ->
       ms_abs s' = ms_abs (l_st l) -> sn_index (ms_snap s') <= l_committed l ->
       exists l', ('(s, _) <- ms_create_snapshot i cs d (l_st l) ;; Ok (set_l_st s l, RNone)) = Ok (l', RNone) /\
         linv l' /\ al_abs l' = al_abs l /\ l_maxnext l' = l_maxnext l).
    { intros s' r -> Hw' H1 H2. cbn. eexists; split; [reflexivity|].
      assert (Habs : log_abs (set_l_st s' l) = log_abs l) by (unfold log_abs; cbn [set_l_st l_us l_st]; rewrite Hs, H1; auto).
      split; [|split; [unfold al_abs; cbn [l_committed l_applied set_l_st]; congruence|reflexivity]].
      constructor; cbn [set_l_st l_us l_st l_applied l_committed]; auto; [|rewrite Hs in *; auto].
      constructor; auto; cbn [set_l_st l_us l_st l_committed]; rewrite ?Hs, ?H1; auto. rewrite Habs. auto. }
    destruct (N.leb_spec i (sn_index (ms_snap (l_st l)))).
    + destruct HC as (s' & HC1 & HC2 & HC3). mon. destruct x as [s1 r1]. cbn in HC1. inv HC1.
      pose proof (f_equal as_log HC3) as E1. pose proof (f_equal as_snap HC3) as E2. cbn [as_abs as_log as_snap] in *.
      apply (Hfin s' r1); auto. rewrite E2. auto.
    + destruct (a_term_in (ms_abs (l_st l)) i) as [t Ht]; [lia|]. rewrite Ht in HC.
      destruct HC as (s' & HC1 & HC2 & HC3). mon. destruct x as [s1 r1]. cbn in HC1. inv HC1.
      pose proof (f_equal as_log HC3) as E1. pose proof (f_equal as_snap HC3) as E2. cbn [as_abs as_log as_snap] in *.
      apply (Hfin s' r1); auto. rewrite E2. cbn. lia.
Qed.

Lemma l_run_refines os : forall l, linv l -> l_run_ok os l (al_abs l) ->
  match al_run os (al_abs l) with
  | Some (s', rs) => exists l', l_run os l = Ok (l', rs) /\ linv l' /\ al_abs l' = s' /\ l_maxnext l' = l_maxnext l
  | None => exists w, l_run os l = Fatal w
  end.
Proof.
  induction os as [|o os IH]; intros l Hi Hok; cbn [al_run l_run].
  - eauto 6.
  - destruct Hok as (H1 & H2 & H3). pose proof (l_step_ok o l Hi H1 H2) as Hs.
    destruct (al_step o (al_abs l)) as [[s' r]|].
    + destruct Hs as (l' & Hl & Hi' & <- & Hmx). rewrite Hl in *. cbn [bind]. specialize (IH l' Hi' H3).
      destruct (al_run os (al_abs l')) as [[s'' rs]|].
      * destruct IH as (l'' & -> & ? & ? & ?). cbn. eexists; split; [reflexivity|]. rewrite <- Hmx. auto.
      * destruct IH as [w ->]. cbn. eauto.
    + destruct Hs as [w ->]. cbn. eauto.
Qed.

Lemma linv_new s mx : swf s -> sn_index (ms_snap s) <= a_base (ms_abs s) ->
  linv (new_log s mx) /\ log_abs (new_log s mx) = ms_abs s.
Proof.
  intros Hw Hs. unfold new_log. rewrite ms_last_abs, ms_first_abs.
  assert (Habs : log_abs (mkLog s (mkUnstable None [] (a_last (ms_abs s) + 1)) (a_first (ms_abs s) - 1)
     (a_first (ms_abs s) - 1) mx) = ms_abs s).
  { unfold log_abs. cbn [l_us u_snap l_st u_off u_ents]. rewrite app_nil_r, ntake_all; [destruct (ms_abs s); auto|].
    unfold a_last, a_first. lia. }
  split; auto. constructor; cbn [l_applied l_us u_off u_snap l_st l_committed]; [|unfold a_first, a_last; lia|unfold a_first; lia].
  constructor; auto.
  - apply contig_nil.
  - cbn [l_us l_st u_snap u_off u_ents]. unfold a_first, a_last. split; [lia|auto].
  - rewrite Habs. cbn [l_committed]. unfold a_first, a_last. lia.
  - cbn. lia.
Qed.

Lemma init_storage sops ms s0 errs : sops_ok sops as_empty -> as_run sops as_empty = Some (s0, errs) ->
  s_run sops new_storage = Ok (ms, errs) -> swf ms /\ as_abs ms = s0.
Proof.
  intros H1 H2 H3. pose proof (s_run_ok sops new_storage swf_new H1) as H.
  change (as_abs new_storage) with as_empty in H. rewrite H2 in H. destruct H as (ms' & E1 & E2 & E3).
  rewrite H3 in E1. inv E1. auto.
Qed.
Lemma log_at_inv l s : log_at l s -> linv l /\ al_abs l = s.
Proof.
  intros (sops & lops & ms & s0 & errs & rs & mx & H1 & H2 & H3 & H4 & H5 & H6 & H7).
  destruct (init_storage _ _ _ _ H1 H2 H3) as [Hw He].
  assert (Hl : as_log s0 = ms_abs ms) by (rewrite <- He; auto).
  assert (Hn : as_snap s0 = ms_snap ms) by (rewrite <- He; auto).
  rewrite Hl, Hn in *. destruct (linv_new ms mx Hw H4) as [Hi Ha].
  assert (Hai : al_abs (new_log ms mx) = mkAL (ms_abs ms) (a_base (ms_abs ms)) (a_base (ms_abs ms))).
  { unfold al_abs. rewrite Ha. unfold new_log; cbn [l_committed l_applied]. rewrite ms_first_abs.
    unfold a_first. f_equal; lia. }
  pose proof (l_run_refines lops (new_log ms mx) Hi) as H. rewrite Hai in H. specialize (H H5). rewrite H7 in H.
  destruct H as (l' & E1 & E2 & E3 & _). rewrite H6 in E1. inv E1. auto.
Qed.
