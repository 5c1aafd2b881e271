(** MemoryStorage refines the abstract storage over every sequence of calls. *)
From Verif Require Import Prelude Types M_Util M_Storage.
From Verif Require Import P_Inflights Spec_Log P_Lists P_Storage P_Log Spec_Storage Sys_Storage.

Definition as_abs (s : mstorage) : astore := mkAS (ms_abs s) (ms_hs s) (ms_snap s).

Lemma s_step_ok o s : swf s -> sop_ok o (as_abs s) ->
  match as_step o (as_abs s) with
  | Some (a', r) => exists s', s_step o s = Ok (s', r) /\ swf s' /\ as_abs s' = a'
  | None => exists w, s_step o s = Fatal w
  end.
Proof.
  intros Hw Hok. destruct o as [h|sn|i cs d|i|es]; cbn [as_step s_step].
  - eexists; split; [reflexivity|]. split; auto.
  - unfold ms_apply_snapshot. cbn. destruct (sn_index sn <=? sn_index (ms_snap s)).
    + exists s; auto.
    + eexists; split; [reflexivity|]. split; auto. intros k e Hk. cbn in Hk.
      destruct (N.to_nat k) eqn:E; unfold nnth in Hk; rewrite E in Hk; discriminate.
  - cbn in Hok. unfold ms_create_snapshot. cbn [as_abs as_snap as_log as_hs].
    destruct (N.leb_spec i (sn_index (ms_snap s))); [exists s; auto|].
    specialize (Hok ltac:(lia)). cbn in Hok. rewrite ms_last_abs.
    destruct (N.ltb_spec (a_last (ms_abs s)) i).
    + rewrite a_term_out by lia. cbn; eauto.
    + destruct (N.ltb_spec i (e_index (ms_dummy s))); [lia|].
      pose proof (ms_term_abs s i) as HT. unfold ms_term in HT.
      destruct (a_term_in (ms_abs s) i) as [t Ht]; [cbn in *; lia|].
      cbn [ms_abs a_base] in HT.
      destruct (N.ltb_spec i (e_index (ms_dummy s))); [lia|].
      unfold ms_abs in Ht at 1. unfold ms_abs in HT at 1. rewrite Ht in *.
      destruct (nnth (ms_ents s) (i - e_index (ms_dummy s))) as [e|]; [|discriminate]. injection HT as HT.
      change (mkALog (e_index (ms_dummy s)) (e_term (ms_dummy s)) (ms_tail s)) with (ms_abs s) in Ht.
      rewrite Ht. cbn. rewrite HT.
      eexists; split; [reflexivity|]. split; auto.
  - cbn [as_abs as_snap as_log as_hs]. pose proof (ms_compact_abs s i Hw) as H.
    destruct (i <=? a_base (ms_abs s)) eqn:Hle; [exists s; auto|].
    destruct (N.ltb_spec (a_last (ms_abs s)) i).
    + rewrite a_term_out by lia. auto.
    + destruct H as (s' & t & H1 & H2 & H3 & H4 & H5 & H6). rewrite H5.
      exists s'; split; auto. split; auto. unfold as_abs. congruence.
  - destruct es as [|e0 es]; [exists s; auto|]. cbn in Hok. destruct Hok as [Hi Hc].
    cbn [as_abs as_snap as_log as_hs]. pose proof (ms_append_abs s (e0 :: es) (e_index e0) Hw Hc) as H.
    specialize (H ltac:(discriminate) Hi).
    destruct (a_last (ms_abs s) + 1 <? e_index e0).
    { destruct H as [w ->]. cbn; eauto. }
    destruct H as (s' & H1 & H2 & H3 & H4 & H5).
    destruct (e_index e0 + nlen (e0 :: es) <=? a_first (ms_abs s));
      (exists s'; split; [rewrite H1; auto|]; split; auto; unfold as_abs; congruence).
Qed.

Lemma s_run_ok os : forall s, swf s -> sops_ok os (as_abs s) ->
  match as_run os (as_abs s) with
  | Some (a', rs) => exists s', s_run os s = Ok (s', rs) /\ swf s' /\ as_abs s' = a'
  | None => exists w, s_run os s = Fatal w
  end.
Proof.
  induction os as [|o os IH]; intros s Hw Hok; cbn [as_run s_run].
  - eauto.
  - destruct Hok as [H1 H2]. pose proof (s_step_ok o s Hw H1) as Hs.
    destruct (as_step o (as_abs s)) as [[a' r]|].
    + destruct Hs as (s' & -> & Hw' & <-). cbn [bind]. specialize (IH s' Hw' H2).
      destruct (as_run os (as_abs s')) as [[a'' rs]|].
      * destruct IH as (s'' & -> & ? & ?). cbn. eauto.
      * destruct IH as [w ->]. cbn. eauto.
    + destruct Hs as [w ->]. cbn. eauto.
Qed.

Lemma swf_new : swf new_storage.
Proof. apply contig_nil. Qed.
