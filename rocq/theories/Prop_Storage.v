(** C10-C12: MemoryStorage and LimitSize.  Specifications: Spec_Log.v, Spec_Storage.v. *)
From Verif Require Import Prelude Types M_Util M_Storage M_StorageHeap.
From Verif Require Import P_Inflights Spec_Log P_Lists P_Storage P_Log Spec_Storage Sys_Storage P_StorageSeq Ex_Env.

(** C10: after any sequence of calls a new MemoryStorage is exactly the abstract storage (same
    errors, fatal exactly when the abstract storage is), and its queries read the abstract log. *)
Theorem C10_memory_storage_one_log : forall {E : Env} (ops : list sop),
  sops_ok ops as_empty ->
  match as_run ops as_empty with
  | None => exists w, s_run ops new_storage = Fatal w
  | Some (s', errs) => exists ms, s_run ops new_storage = Ok (ms, errs) /\
      let a := as_log s' in
      a_wf a /\ ms_initial_state ms = (as_hs s', sn_conf (as_snap s')) /\
      ms_snapshot ms = SOk (as_snap s') /\
      ms_first_index ms = a_first a /\ ms_last_index ms = a_last a /\
      (forall i, ms_term i ms = if i <? a_base a then SErr ECompacted else
         match a_term a i with Some t => SOk t | None => SErr EUnavailable end) /\
      (forall lo hi max, lo <= hi ->
         if lo <? a_first a then ms_entries lo hi max ms = Ok (SErr ECompacted)
         else if a_last a + 1 <? hi then exists w, ms_entries lo hi max ms = Fatal w
         else if is_nil (a_ents a) then ms_entries lo hi max ms = Ok (SErr EUnavailable)
         else exists es, ms_entries lo hi max ms = Ok (SOk es) /\ size_limited (a_slice a lo hi) max es)
  end.
Proof.
  intros E ops Hok. pose proof (s_run_ok ops new_storage swf_new Hok) as H.
  change (as_abs new_storage) with as_empty in H.
  destruct (as_run ops as_empty) as [[s' errs]|]; auto.
  destruct H as (ms & H1 & H2 & H3). exists ms. split; auto.
  assert (Hl : as_log s' = ms_abs ms) by (rewrite <- H3; auto).
  assert (Hh : as_hs s' = ms_hs ms) by (rewrite <- H3; auto).
  assert (Hn : as_snap s' = ms_snap ms) by (rewrite <- H3; auto).
  rewrite Hl, Hh, Hn. cbv zeta.
  split; [auto|]. split; [reflexivity|]. split; [reflexivity|].
  split; [apply ms_first_abs|]. split; [apply ms_last_abs|]. split; [apply ms_term_abs|].
  intros lo hi max Hlh. destruct (N.ltb_spec lo (a_first (ms_abs ms))).
  { apply ms_entries_compacted. unfold a_first in *. lia. }
  destruct (N.ltb_spec (a_last (ms_abs ms) + 1) hi).
  { unfold ms_entries. unfold a_first in *. cbn [ms_abs a_base] in *.
    destruct (N.leb_spec lo (e_index (ms_dummy ms))); [lia|]. rewrite ms_last_abs.
    destruct (N.ltb_spec (a_last (ms_abs ms) + 1) hi); [eauto|unfold ms_abs in *; lia]. }
  destruct (a_ents (ms_abs ms)) as [|e0 es0] eqn:He; cbn [is_nil].
  { unfold ms_entries. unfold a_first in *. rewrite ms_last_abs. cbn [ms_abs a_base a_ents] in *.
    destruct (N.leb_spec lo (e_index (ms_dummy ms))); [lia|].
    destruct (N.ltb_spec (a_last (ms_abs ms) + 1) hi); [unfold ms_abs in *; lia|].
    unfold ms_ents. rewrite He. reflexivity. }
  rewrite ms_entries_abs by (auto; rewrite He; discriminate).
  eexists; split; [reflexivity|]. apply limit_size_spec.
Qed.
Print Assumptions C10_memory_storage_one_log.
Definition C10_e (i t : N) := mkEntry t i EntryNormal EmptyString.
Definition C10_ops : list sop :=
  [OAppend [C10_e 1 1; C10_e 2 1; C10_e 3 2]; OCompact 2; OCreateSnapshot 3 None EmptyString;
   OAppend [C10_e 2 1; C10_e 3 3; C10_e 4 3]; OCompact 1; OApplySnapshot (mkSnapshot 9 4 empty_confstate EmptyString);
   OAppend [C10_e 10 5]].
Example C10_example : sops_ok C10_ops as_empty /\
  as_run C10_ops as_empty = Some (mkAS (mkALog 9 4 [C10_e 10 5]) empty_hardstate
     (mkSnapshot 9 4 empty_confstate EmptyString), [None; None; None; None; Some ECompacted; None; None]).
Proof.
  split; [|reflexivity]. unfold C10_ops.
  repeat (split; [cbn; try (split; [lia|apply contigb_contig; reflexivity]); try (intros; lia); exact I|
    cbn [as_step as_empty as_log as_snap as_hs]]). exact I.
Qed.

(** C12: LimitSize is the longest prefix within the limit, but at least one entry; this determines
    it uniquely. *)
Theorem C12_limit_size : forall {E : Env} (es : list entry) (max : N),
  size_limited es max (limit_size es max) /\
  forall p, size_limited es max p -> p = limit_size es max.
Proof.
  intros E es max. split; [apply limit_size_spec|]. intros p Hp. eapply size_limited_unique; [exact Hp|].
  apply limit_size_spec.
Qed.
Print Assumptions C12_limit_size.
Example C12_example :
  @limit_size ex_env [C10_e 1 1; C10_e 2 1; C10_e 3 2] 5 = [C10_e 1 1; C10_e 2 1] /\
  @limit_size ex_env [C10_e 1 1; C10_e 2 1; C10_e 3 2] 0 = [C10_e 1 1].
Proof. split; reflexivity. Qed.

(** C11: a snapshot handed out by the storage does change: CreateSnapshot writes into the very
    object handed out before ([h], [s]: heap of snapshot objects and storage of M_StorageHeap.v). *)
Theorem C11_snapshot_immutable_refuted :
  exists (h h1 h2 : heap) (s : hstorage) (p : ptr) (sn : snapshot),
    (* p is handed out by CreateSnapshot(2), pointing to a snapshot at index 2 *)
    hcreate_snapshot 2 None "a" s h = Ok (h1, SOk p) /\ hderef p h1 = Ok sn /\ sn_index sn = 2 /\
    (* after CreateSnapshot(3) the same object says index 3 *)
    hcreate_snapshot 3 None "b" s h1 = Ok (h2, SOk p) /\ hderef p h2 <> Ok sn.
Proof.
  pose (ms := mkMS empty_hardstate empty_snapshot empty_entry [C10_e 1 1; C10_e 2 1; C10_e 3 2]).
  exists (mkHeap 1 [(0, empty_snapshot)]).
  exists (mkHeap 1 [(0, mkSnapshot 2 1 empty_confstate "a")]).
  exists (mkHeap 1 [(0, mkSnapshot 3 2 empty_confstate "b")]).
  exists (mkHS ms 0), 0, (mkSnapshot 2 1 empty_confstate "a").
  repeat split; try reflexivity. cbn. discriminate.
Qed.
Print Assumptions C11_snapshot_immutable_refuted.
(** What holds: objects other than the storage's current one are never written, ApplySnapshot
    writes nothing (it has no heap effect in the model), and a successful CreateSnapshot returns an
    object describing exactly the requested position. *)
Theorem C11_snapshot_immutable_partial :
  forall i cs d s h h' r q,
    hcreate_snapshot i cs d s h = Ok (h', r) ->
    (q <> hs_ptr s -> hderef q h' = hderef q h) /\
    (forall e, r = SErr e -> h' = h) /\
    (forall p, r = SOk p -> exists sn e, hderef p h' = Ok sn /\ sn_index sn = i /\ sn_data sn = d /\
       nnth (ms_ents (hs_st s)) (i - e_index (ms_dummy (hs_st s))) = Some e /\ sn_term sn = e_term e).
Proof.
  intros i cs d s h h' r q H. unfold hcreate_snapshot in H. mon.
  destruct (i <=? sn_index x).
  { inv H. repeat split; auto. intros; discriminate. }
  destruct (ms_last_index (hs_st s) <? i); [discriminate|].
  destruct (i <? e_index (ms_dummy (hs_st s))); [discriminate|].
  destruct (nnth (ms_ents (hs_st s)) (i - e_index (ms_dummy (hs_st s)))) as [e|]; [|discriminate]. inv H.
  split; [|split].
  - intros Hq. unfold hderef. cbn. rewrite mget_mset_other; auto.
  - intros; discriminate.
  - intros p Hp. inv Hp. do 2 eexists. unfold hderef; cbn. rewrite mget_mset_same. repeat split.
Qed.
Print Assumptions C11_snapshot_immutable_partial.
