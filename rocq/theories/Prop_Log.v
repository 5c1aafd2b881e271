(** C13-C18: RaftLog.  Specifications: Spec_Log.v, Spec_Storage.v, Spec_RaftLog.v;
    [log_at l s] (Sys_RaftLog.v): the RaftLog [l] was reached by any allowed sequence of calls, and
    [s] is the abstract log the specification computes for that sequence. *)
From Verif Require Import Prelude Types M_Util M_Storage M_Unstable M_Log.
From Verif Require Import P_Inflights Spec_Log P_Lists P_Storage P_Log Spec_Storage Sys_Storage P_StorageSeq.
From Verif Require Import Spec_RaftLog Sys_RaftLog P_RaftLogSeq Ex_Env.

(** C13: over every sequence of calls RaftLog (unstable part and storage together) gives exactly
    the results of the abstract log, is fatal exactly when it is, and every query reads the one
    abstract log, across the storage/unstable boundary. *)
Theorem C13_log_is_one_log : forall {E : Env} (sops : list sop) (lops : list lop)
    (ms : mstorage) (s0 : astore) errs (mx : N),
  sops_ok sops as_empty -> as_run sops as_empty = Some (s0, errs) ->
  s_run sops new_storage = Ok (ms, errs) ->
  sn_index (as_snap s0) <= a_base (as_log s0) ->
  let init := mkAL (as_log s0) (a_base (as_log s0)) (a_base (as_log s0)) in
  l_run_ok lops (new_log ms mx) init ->
  match al_run lops init with
  | None => exists w, l_run lops (new_log ms mx) = Fatal w
  | Some (s, rs) => exists l, l_run lops (new_log ms mx) = Ok (l, rs) /\
      let a := al s in
      a_wf a /\ log_first l = a_first a /\ log_last l = a_last a /\
      l_committed l = ac s /\ l_applied l = aa s /\
      (forall i, log_term i l = Ok (SOk (match a_term a i with Some t => t | None => 0 end))) /\
      (forall lo hi max, lo <= hi ->
         if lo <? a_first a then log_slice lo hi max l = Ok (SErr ECompacted)
         else if a_last a + 1 <? hi then exists w, log_slice lo hi max l = Fatal w
         else exists es, log_slice lo hi max l = Ok (SOk es) /\ size_limited (a_slice a lo hi) max es) /\
      (forall i max, a_first a <= i -> exists es, log_entries i max l = Ok (SOk es) /\
         size_limited (a_slice a i (a_last a + 1)) max es) /\
      (exists t, a_term a (a_last a) = Some t /\ log_last_term l = Ok t)
  end.
Proof.
  intros E sops lops ms s0 errs mx H1 H2 H3 H4 init H5.
  destruct (init_storage _ _ _ _ H1 H2 H3) as [Hw He].
  assert (Hl : as_log s0 = ms_abs ms) by (rewrite <- He; auto).
  assert (Hn : as_snap s0 = ms_snap ms) by (rewrite <- He; auto).
  unfold init in *. rewrite Hl, Hn in *. destruct (linv_new ms mx Hw H4) as [Hi Ha].
  assert (Hai : al_abs (new_log ms mx) = mkAL (ms_abs ms) (a_base (ms_abs ms)) (a_base (ms_abs ms))).
  { unfold al_abs. rewrite Ha. unfold new_log; cbn [l_committed l_applied]. rewrite ms_first_abs.
    unfold a_first. f_equal; lia. }
  pose proof (l_run_refines lops (new_log ms mx) Hi) as H. rewrite Hai in H. specialize (H H5).
  destruct (al_run lops (mkAL (ms_abs ms) (a_base (ms_abs ms)) (a_base (ms_abs ms)))) as [[s rs]|]; auto.
  destruct H as (l & E1 & E2 & E3 & _). exists l. split; auto.
  pose proof (li_wf l E2) as Hwl. pose proof (lwf_0 l Hwl) as Hw0. subst s. cbn [al al_abs ac aa]. cbv zeta.
  split; [apply log_abs_wf; auto|]. split; [apply log_first_abs|]. split; [apply log_last_abs; auto|].
  split; auto. split; auto. split; [intros; apply log_term_abs; auto|].
  split; [|split].
  - intros lo hi max Hlh. destruct (N.ltb_spec lo (a_first (log_abs l))).
    + apply log_slice_compacted; auto.
    + destruct (N.ltb_spec (a_last (log_abs l) + 1) hi).
      * apply log_slice_fatal; auto.
      * rewrite log_slice_abs by (auto; lia). eexists; split; [reflexivity|apply limit_size_spec].
  - intros i max Hfi. rewrite log_entries_abs by auto. eexists; split; [reflexivity|].
    replace (a_slice (log_abs l) i (a_last (log_abs l) + 1))
      with (ndrop (i - a_first (log_abs l)) (a_ents (log_abs l))); [apply limit_size_spec|].
    unfold a_slice. rewrite ntake_all; [f_equal; unfold a_first; lia|].
    rewrite nlen_ndrop. unfold a_last, a_first in *. lia.
  - apply log_last_term_abs; auto.
Qed.
Print Assumptions C13_log_is_one_log.

Definition C13_e (i t : N) := mkEntry t i EntryNormal EmptyString.
Definition C13_sops : list sop := [OAppend [C13_e 1 1; C13_e 2 1; C13_e 3 1]].
Definition C13_lops : list lop :=
  [LCommitTo 2; LMaybeAppend 2 1 3 [C13_e 3 2; C13_e 4 2]; LMaybeAppend 3 1 9 [C13_e 4 3]; LPersist;
   LAppliedTo 3; LCompact 2; LMaybeAppend 3 2 3 [C13_e 4 2; C13_e 5 2]; LMaybeCommit 5 2;
   LRestore (mkSnapshot 9 3 empty_confstate EmptyString); LAppend [C13_e 10 4]; LPersist].
Definition C13_init := mkAL (mkALog 0 0 [C13_e 1 1; C13_e 2 1; C13_e 3 1]) 0 0.
Definition C13_ms := mkMS empty_hardstate empty_snapshot empty_entry [C13_e 1 1; C13_e 2 1; C13_e 3 1].
Example C13_example :
  sops_ok C13_sops as_empty /\ s_run C13_sops new_storage = Ok (C13_ms, [None]) /\
  l_run_ok C13_lops (new_log C13_ms 1000) C13_init /\
  al_run C13_lops C13_init = Some (mkAL (mkALog 9 3 [C13_e 10 4]) 9 3,
    [RNone; RIndex 4; RReject; RNone; RNone; RBool true; RIndex 5; RBool true; RNone; RIndex 10; RNone]).
Proof.
  split; [|split; [|split]]; try (vm_compute; reflexivity).
  - cbn. split; [|exact I]. split; [lia|apply contigb_contig; reflexivity].
  - assert (Hin : forall (P : entry -> Prop) l, Forall P l -> forall e, In e l -> P e).
    { intros P l H. apply Forall_forall. exact H. }
    unfold C13_lops.
    repeat (split; [cbn [lop_ok]; cbv zeta|split; [vm_compute; try reflexivity; exact I|
       lazymatch goal with |- match ?a with _ => _ end => let v := eval vm_compute in a in change a with v end; cbv beta iota;
       lazymatch goal with |- match ?a with _ => _ end => let v := eval vm_compute in a in change a with v | |- _ => idtac end; cbv beta iota]]);
    try exact I;
    repeat match goal with
    | |- _ /\ _ => split
    | |- contig _ _ => apply contigb_contig; reflexivity
    | |- forall e, In e _ -> _ => apply Hin; repeat constructor
    | |- _ -> _ => intros; discriminate
    | |- _ => vm_compute; reflexivity || discriminate
    end.
Qed.

(** C14: Unstable::TruncateAndAppend (through RaftLog::Append) replaces exactly the suffix from the first new
    index; StableTo / StableSnapTo after persisting, and StableTo for an entry whose term does not
    match, leave the logical log unchanged. *)
Theorem C14_truncate_and_stable : forall l s, log_at l s ->
  (forall e0 es, 1 <= e_index e0 -> contig (e_index e0) (e0 :: es) ->
     ac s < e_index e0 <= a_last (al s) + 1 ->
     exists l', log_append (e0 :: es) l = Ok (l', e_index e0 + nlen es) /\
       forall i, log_term i l' = Ok (SOk (if i <? e_index e0
          then match a_term (al s) i with Some t => t | None => 0 end
          else match nnth (e0 :: es) (i - e_index e0) with Some e => e_term e | None => 0 end)) /\
       (forall (E : Env) lo hi, a_first (al s) <= lo -> lo <= hi -> hi <= e_index e0 + nlen es + 1 ->
          forall max, exists p, log_slice lo hi max l' = Ok (SOk p) /\
            size_limited (a_slice (a_replace (al s) (e_index e0) (e0 :: es)) lo hi) max p)) /\
  (exists l', log_persist l = Ok l' /\ u_snap (l_us l') = None /\ u_ents (l_us l') = [] /\
     log_first l' = log_first l /\ log_last l' = log_last l /\
     (forall i, log_term i l' = log_term i l) /\ ms_abs (l_st l') = al s) /\
  (forall i t, u_snap (l_us l) = None -> a_term (al s) i <> Some t -> log_stable_to i t l = Ok l).
Proof.
  intros l s Hat. destruct (log_at_inv l s Hat) as [Hi <-]. cbn [al ac aa al_abs].
  pose proof (li_wf l Hi) as Hw. pose proof (lwf_0 l Hw) as Hw0. split; [|split].
  - intros e0 es H1 H2 H3.
    pose proof (log_append_abs (e0 :: es) (e_index e0) l Hw H2 ltac:(discriminate) H1) as HA.
    destruct (N.ltb_spec (e_index e0 - 1) (l_committed l)); [lia|].
    destruct (N.ltb_spec (a_last (log_abs l) + 1) (e_index e0)); [lia|].
    destruct HA as (l' & A1 & A2 & A3 & _). exists l'. split.
    { rewrite A1. rewrite nlen_cons. do 2 f_equal. lia. }
    pose proof (lwf_0 l' A2) as Hw0'. pose proof (lwf_com l Hw) as Hc. intros i. split.
    + rewrite log_term_abs by auto. rewrite A3. do 2 f_equal.
      unfold a_term, a_entry, a_replace; cbn [a_base a_bterm a_ents].
      destruct (N.ltb_spec i (e_index e0)).
      * destruct (N.eqb_spec i (a_base (log_abs l))); auto.
        destruct (N.ltb_spec (a_base (log_abs l)) i); auto. unfold a_last in *.
        rewrite nnth_app1, nnth_ntake by (rewrite nlen_ntake; lia).
        destruct (N.ltb_spec (i - a_base (log_abs l) - 1) (e_index e0 - a_base (log_abs l) - 1)); [auto|lia].
      * destruct (N.eqb_spec i (a_base (log_abs l))); [lia|].
        destruct (N.ltb_spec (a_base (log_abs l)) i); [|lia]. unfold a_last in *.
        rewrite nnth_app2 by (rewrite nlen_ntake; lia). rewrite nlen_ntake.
        replace (i - a_base (log_abs l) - 1 - N.min (e_index e0 - a_base (log_abs l) - 1) (nlen (a_ents (log_abs l))))
          with (i - e_index e0) by lia.
        destruct (nnth (e0 :: es) (i - e_index e0)); auto.
    + intros E lo hi L1 L2 L3 max. rewrite log_slice_abs; auto.
      * rewrite A3. eexists; split; [reflexivity|apply limit_size_spec].
      * rewrite A3. exact L1.
      * rewrite A3, a_last_replace, nlen_cons; unfold a_first; lia.
  - destruct (log_persist_ok l Hi ltac:(unfold a_last; lia)) as (l' & P1 & P2 & P3 & P4 & P5 & P6 & P7 & P8 & P9 & P10 & P11).
    pose proof (lwf_0 l' (li_wf l' P2)) as Hw0'.
    exists l'. split; auto. split; auto. split; auto. split; [rewrite !log_first_abs, P3; auto|].
    split; [rewrite !log_last_abs, P3; auto|]. split; auto.
    intros i. rewrite !log_term_abs, P3; auto.
  - intros i t Hs Ht. unfold log_stable_to, us_stable_to. rewrite us_maybe_term_abs by auto. cbn [bind].
    destruct ((u_off (l_us l) <=? i) && (i <=? a_last (log_abs l))).
    + destruct (a_term (log_abs l) i) as [x|]; [|destruct l; auto].
      destruct (N.eqb_spec x t); [congruence|]. destruct l; auto.
    + destruct l; auto.
Qed.
Print Assumptions C14_truncate_and_stable.

(** C15: MaybeAppend.  [k] = how many of the new entries are already there. *)
Theorem C15_maybe_append : forall l s index lt com es, log_at l s ->
  contig (index + 1) es -> (forall e, In e es -> 0 < e_term e) ->
  (lt = 0 -> index <= a_last (al s) /\ a_base (al s) <= index) ->
  if opt_eqb (a_term (al s) index) lt then
    exists k, k <= nlen es /\
      (forall j e, j < k -> nnth es j = Some e -> a_term (al s) (e_index e) = Some (e_term e)) /\
      (forall e, nnth es k = Some e -> a_term (al s) (e_index e) <> Some (e_term e)) /\
      (* a conflict at or below the commit index is fatal *)
      if (k <? nlen es) && (index + 1 + k <=? ac s)
      then exists w, log_maybe_append index lt com es l = Fatal w
      else exists l', log_maybe_append index lt com es l = Ok (l', Some (index + nlen es)) /\
        l_committed l' = N.max (ac s) (N.min com (index + nlen es)) /\ l_applied l' = aa s /\
        (* the leader's entries are there *)
        (forall e, In e es -> log_term (e_index e) l' = Ok (SOk (e_term e))) /\
        (* without a conflict nothing changes; with one, exactly the suffix from it is replaced *)
        (k = nlen es -> forall i, log_term i l' = log_term i l /\ log_last l' = log_last l) /\
        (k < nlen es -> log_last l' = index + nlen es /\
           forall i, i <= index + k -> log_term i l' = log_term i l) /\
        (* committed entries keep their terms *)
        (forall i, i <= ac s -> log_term i l' = log_term i l)
  else log_maybe_append index lt com es l = Ok (l, None).
Proof.
  intros l s index lt com es Hat Hc Ht Hz. destruct (log_at_inv l s Hat) as [Hi <-]. cbn [al ac aa al_abs] in *.
  pose proof (li_wf l Hi) as Hw. pose proof (lwf_0 l Hw) as Hw0.
  destruct (opt_eqb (a_term (log_abs l) index) lt) eqn:Hm.
  - apply opt_eqb_true in Hm.
    destruct (log_maybe_append_match index lt com es l Hw Hc Ht Hm) as (k & (K1 & K2 & K3) & HA).
    exists k. split; auto. split; auto. split; auto.
    destruct ((k <? nlen es) && (index + 1 + k <=? l_committed l)) eqn:Hcc; auto.
    destruct HA as (l' & A1 & A2 & A3 & A4 & A5 & _). exists l'. split; auto. split; auto. split; auto.
    pose proof (lwf_0 l' A2) as Hw0'. pose proof (a_term_range _ _ _ Hm) as Hr.
    pose proof (lwf_com l Hw) as Hlc.
    assert (Hkl : index + k <= a_last (log_abs l)).
    { destruct (N.eqb_spec k 0); [lia|]. destruct (nnth_lt_Some es (k - 1)) as [e He]; [lia|].
      pose proof (Hc _ _ He) as Hie. pose proof (K2 (k - 1) e ltac:(lia) He) as Hte.
      apply a_term_range in Hte. lia. }
    assert (Hterm : k < nlen es -> forall i, a_term (log_abs l') i =
       if i <=? index + k then a_term (log_abs l) i
       else option_map e_term (nnth es (i - index - 1))).
    { intros Hk i. destruct (N.ltb_spec k (nlen es)); [|lia]. rewrite A3.
      unfold a_term, a_entry, a_replace; cbn [a_base a_bterm a_ents]. unfold a_last in *.
      destruct (N.leb_spec i (index + k)).
      - destruct (N.eqb_spec i (a_base (log_abs l))); auto.
        destruct (N.ltb_spec (a_base (log_abs l)) i); auto.
        rewrite nnth_app1, nnth_ntake by (rewrite nlen_ntake; lia).
        destruct (N.ltb_spec (i - a_base (log_abs l) - 1) (index + 1 + k - a_base (log_abs l) - 1)); [auto|lia].
      - destruct (N.eqb_spec i (a_base (log_abs l))); [lia|].
        destruct (N.ltb_spec (a_base (log_abs l)) i); [|lia].
        rewrite nnth_app2 by (rewrite nlen_ntake; lia). rewrite nlen_ntake, nnth_ndrop. f_equal. f_equal. lia. }
    split; [|split; [|split]].
    + intros e He. apply In_nnth in He. destruct He as [j Hj]. pose proof (Hc _ _ Hj) as Hie.
      rewrite log_term_abs by auto. do 2 f_equal.
      destruct (N.ltb_spec k (nlen es)) as [Hk|Hk].
      * rewrite Hterm by auto. destruct (N.leb_spec (e_index e) (index + k)).
        -- rewrite (K2 j e) by (auto; lia). auto.
        -- replace (e_index e - index - 1) with j by lia. rewrite Hj. auto.
      * rewrite A3. rewrite (K2 j e); auto. apply nnth_Some_lt in Hj. lia.
    + intros -> i. destruct (N.ltb_spec (nlen es) (nlen es)); [lia|].
      rewrite !log_term_abs, !log_last_abs, A3; auto.
    + intros Hk. split.
      * rewrite log_last_abs, A3 by auto. destruct (N.ltb_spec k (nlen es)); [|lia].
        rewrite a_last_replace, nlen_ndrop; unfold a_first; lia.
      * intros i Hik. rewrite !log_term_abs, Hterm by auto. destruct (N.leb_spec i (index + k)); [auto|lia].
    + intros i Hic. rewrite !log_term_abs by auto. destruct (N.ltb_spec k (nlen es)) as [Hk|Hk].
      * rewrite Hterm by auto. destruct (N.leb_spec i (index + k)); [auto|lia].
      * rewrite A3. auto.
  - apply log_maybe_append_mismatch; auto. unfold a_term0. intros Hx.
    destruct (a_term (log_abs l) index) as [x|] eqn:Hxx.
    + subst. cbn in Hm. rewrite N.eqb_refl in Hm. discriminate.
    + destruct (Hz (eq_sym Hx)) as [Z1 Z2]. destruct (a_term_in (log_abs l) index) as [y Hy]; [lia|congruence].
Qed.
Print Assumptions C15_maybe_append.

(** C16: along every call, commit and applied never move backwards (except that Restore sets the
    commit to a newer snapshot's index) and applied <= commit <= last; calls that would break this
    are fatal. *)
Theorem C16_commit_applied_monotone : forall l s, log_at l s ->
  aa s <= ac s <= a_last (al s) /\ l_committed l = ac s /\ l_applied l = aa s /\
  forall o, lop_ok (pending l) o s ->
    (match o with LAppliedTo i => i < u_off (l_us l) | _ => True end) ->
    match l_step o l with
    | Ok (l', _) => l_committed l <= l_committed l' /\ l_applied l <= l_applied l' /\
                    l_applied l' <= l_committed l' <= log_last l'
    | Fatal _ =>
        match o with
        | LCommitTo i => log_last l < i
        | LAppliedTo i => l_committed l < i \/ i < l_applied l
        | LAppend es => exists e0 t, es = e0 :: t /\ e_index e0 <= l_committed l
        | LMaybeAppend _ _ _ es => exists e, In e es /\ e_index e <= l_committed l /\
             a_term (al s) (e_index e) <> Some (e_term e)
        | _ => False
        end
    | _ => False
    end.
Proof.
  intros l s Hat. destruct (log_at_inv l s Hat) as [Hi <-]. cbn [al ac aa al_abs] in *.
  pose proof (li_wf l Hi) as Hw. pose proof (lwf_0 l Hw) as Hw0. pose proof (lwf_com l Hw) as Hc.
  pose proof (lwf_app l Hw) as Ha. split; [lia|]. split; auto. split; auto.
  intros o Hok Hx. pose proof (l_step_ok o l Hi Hok Hx) as H.
  destruct (al_step o (al_abs l)) as [[s' r]|] eqn:Hs.
  - destruct H as (l' & -> & Hi' & <- & _). pose proof (li_wf l' Hi') as Hw'.
    pose proof (lwf_com l' Hw') as Hc'. pose proof (lwf_app l' Hw') as Ha'.
    rewrite log_last_abs by (apply lwf_0; auto).
    enough (l_committed l <= l_committed l' /\ l_applied l <= l_applied l') by lia.
    assert (G : ac (al_abs l) <= ac (al_abs l') /\ aa (al_abs l) <= aa (al_abs l')); [|exact G].
    revert Hs Hok. generalize (al_abs l') as s2. intros s2. cbn [al_abs].
    destruct o; cbn [al_step al ac aa lop_ok];
      repeat match goal with
      | |- context[match ?x with _ => _ end] => destruct x eqn:?
      end; intros Hs Hok; inv Hs; cbn [ac aa al_abs al] in *; lia.
  - destruct H as [w ->].
    destruct o; cbn [al_step al ac aa al_abs] in Hs.
    + destruct es as [|e0 t]; [discriminate|]. destruct (N.leb_spec (e_index e0) (l_committed l)); [|discriminate].
      exists e0, t. auto.
    + destruct (opt_eqb (a_term (log_abs l) index) term) eqn:Hm; [|discriminate].
      destruct (N.ltb_spec (match_len (log_abs l) es) (nlen es)) as [Hk|Hk]; cbn [andb] in Hs; [|discriminate].
      destruct (N.leb_spec (index + 1 + match_len (log_abs l) es) (l_committed l)); [|discriminate].
      destruct (match_len_spec (log_abs l) es) as (M1 & M2 & M3).
      destruct (nnth_lt_Some es (match_len (log_abs l) es) Hk) as [e He].
      exists e. split; [eapply nnth_In; eauto|]. cbn in Hok. destruct Hok as (K1 & _).
      pose proof (K1 _ _ He). split; [lia|]. apply M3; auto.
    + rewrite log_last_abs by auto. destruct (N.ltb_spec (a_last (log_abs l)) i); [auto|discriminate].
    + destruct ((l_committed l <? i) && opt_eqb (a_term (log_abs l) i) term); discriminate.
    + destruct (i =? 0); [discriminate|].
      destruct ((l_committed l <? i) || (i <? l_applied l)) eqn:Hb; [lia|discriminate].
    + discriminate.
    + discriminate.
    + discriminate.
    + cbn in Hok. destruct Hok as [Hp Hia]. destruct (N.leb_spec i (a_base (log_abs l))); [discriminate|].
      destruct (a_term_in (log_abs l) i) as [t Htt]; [lia|]. rewrite Htt in Hs. discriminate.
    + discriminate.
Qed.
Print Assumptions C16_commit_applied_monotone.

(** C17: FindConflictByTerm finds the largest position at or before [index] whose term is at most
    [t] (positions outside the log count as term 0); past the end it returns [index]. *)
Theorem C17_find_conflict_by_term : forall l s index t, log_at l s ->
  (a_base (al s) = 0 -> a_bterm (al s) = 0) ->
  let term_at i := match a_term (al s) i with Some x => x | None => 0 end in
  exists r, log_find_conflict_by_term index t l = Ok r /\
    (a_last (al s) < index -> r = index) /\
    (index <= a_last (al s) -> r <= index /\ term_at r <= t /\
       forall j, r < j -> j <= index -> t < term_at j).
Proof.
  intros l s index t Hat Hz. destruct (log_at_inv l s Hat) as [Hi <-]. cbn [al al_abs] in *.
  apply log_fcbt_abs; [apply lwf_0, li_wf; auto|].
  unfold a_term0, a_term, a_entry. destruct (N.eqb_spec 0 (a_base (log_abs l))); [auto|].
  destruct (N.ltb_spec (a_base (log_abs l)) 0); [lia|auto].
Qed.
Print Assumptions C17_find_conflict_by_term.

(** C18: the up-to-date check is the lexicographic comparison with the local last entry. *)
Theorem C18_is_up_to_date : forall l s lasti term, log_at l s ->
  exists lt, a_term (al s) (a_last (al s)) = Some lt /\
    exists b, log_is_up_to_date lasti term l = Ok b /\
      (b = true <-> lt < term \/ (lt = term /\ a_last (al s) <= lasti)).
Proof.
  intros l s lasti term Hat. destruct (log_at_inv l s Hat) as [Hi <-]. cbn [al al_abs] in *.
  destruct (log_is_up_to_date_abs lasti term l (lwf_0 _ (li_wf _ Hi))) as (lt & H1 & H2).
  exists lt. split; auto. eexists; split; [exact H2|]. lia.
Qed.
Print Assumptions C18_is_up_to_date.

(** Non-vacuity: a reached log for C14-C18. *)
Example C14_C18_example : exists l s, log_at l s /\
  al s = mkALog 2 1 [C13_e 3 2; C13_e 4 2; C13_e 5 2] /\ ac s = 5 /\ aa s = 3 /\ u_ents (l_us l) = [C13_e 5 2] /\
  log_maybe_append 4 2 9 [C13_e 5 2; C13_e 6 3] l <> Ok (l, None) /\
  log_find_conflict_by_term 5 1 l = Ok 2 /\ log_is_up_to_date 4 2 l = Ok false.
Proof.
  assert (Hl : exists l rs, l_run (firstn 8 C13_lops) (new_log C13_ms 1000) = Ok (l, rs)) by (do 2 eexists; reflexivity).
  destruct Hl as (l & rs & Hl). exists l.
  assert (Hs : exists s, al_run (firstn 8 C13_lops) C13_init = Some (s, rs)).
  { vm_compute in Hl. inv Hl. eexists. vm_compute. reflexivity. }
  destruct Hs as (s & Hs). exists s. split.
  - exists C13_sops, (firstn 8 C13_lops), C13_ms, (mkAS (al C13_init) empty_hardstate empty_snapshot), [None], rs, 1000.
    destruct C13_example as (E1 & E2 & E3 & E4).
    split; [exact E1|]. split; [reflexivity|]. split; [exact E2|]. split; [cbn; lia|].
    cbv zeta. split; [|split; [exact Hl|exact Hs]].
    assert (Hpre : forall a b l s, l_run_ok (a ++ b) l s -> l_run_ok a l s).
    { induction a as [|o a IH]; intros b l0 s0 H; [exact I|]. cbn [app l_run_ok] in *.
      destruct H as (P1 & P2 & P3). split; auto. split; auto.
      destruct (l_step o l0) as [[? ?]| | |]; auto. destruct (al_step o s0) as [[? ?]|]; eauto. }
    apply (Hpre _ (skipn 8 C13_lops)). exact E3.
  - vm_compute in Hl. inv Hl. vm_compute in Hs. inv Hs. vm_compute.
    repeat split. discriminate.
Qed.
