(** The concrete log of a node as a window on an abstract log, and the messages that carry parts
    of it. *)
From Coq Require Import Permutation.
From Verif Require Import Prelude Types M_Util M_Quorum M_Inflights M_Progress M_Tracker.
From Verif Require Import M_Storage M_Unstable M_Log M_ReadOnly M_ConfPb M_ConfChange M_Raft M_RawNode.
From Verif Require Import Spec_Quorum P_Quorum P_Inflights Spec_Log P_Lists P_Storage P_Log P_RaftLogSeq P_Frame P_Prim Sys_Node P_NodeLog A_Proto Sys_Cluster.

Record logrel (a : alog) (L : list entry) : Prop := {
  lr_base : a_base a <= nlen L;
  lr_ents : a_ents a = ndrop (a_base a) L;
  lr_bterm : lastterm (ntake (a_base a) L) = a_bterm a
}.

Lemma lr_last a L : logrel a L -> a_last a = nlen L.
Proof. intros [H1 H2 H3]. unfold a_last. rewrite H2, nlen_ndrop. lia. Qed.
Lemma nnth_ndrop {A} k (l : list A) j : nnth (ndrop k l) j = nnth l (k + j).
Proof.
  unfold nnth, ndrop. rewrite N2Nat.inj_add. revert l. induction (N.to_nat k) as [|k' IH]; intros l; auto.
  destruct l; [|apply IH]. cbn. destruct (N.to_nat j); auto.
Qed.
Lemma lr_entry a L i e : logrel a L -> a_entry a i = Some e -> 0 < i /\ nnth L (i - 1) = Some e.
Proof.
  intros [H1 H2 H3]. unfold a_entry. destruct (N.ltb_spec (a_base a) i); [|discriminate]. rewrite H2, nnth_ndrop.
  intros H4. split; [lia|]. rewrite <- H4. f_equal. lia.
Qed.
Lemma lr_term_eq a L i : logrel a L -> a_base a <= i <= nlen L -> a_term a i = Some (lastterm (ntake i L)).
Proof.
  intros H Hi. unfold a_term. destruct (N.eqb_spec i (a_base a)) as [->|Hn]; [f_equal; symmetry; apply H|].
  unfold a_entry. destruct (N.ltb_spec (a_base a) i); [|lia]. destruct H as [H1 H2 H3]. rewrite H2, nnth_ndrop.
  replace (a_base a + (i - a_base a - 1)) with (i - 1) by lia.
  destruct (nnth_len_some L (i - 1)) as [e He]; [lia|]. rewrite He. cbn. f_equal.
  rewrite <- (lastterm_take L (i - 1) e He). f_equal. f_equal. lia.
Qed.
Lemma lr_term a L i t : logrel a L -> a_term a i = Some t -> a_base a <= i <= nlen L /\ t = lastterm (ntake i L).
Proof.
  intros H Ht. pose proof (a_term_range _ _ _ Ht) as Hr. rewrite (lr_last _ _ H) in Hr. split; auto.
  rewrite (lr_term_eq _ _ _ H Hr) in Ht. congruence.
Qed.
Lemma lr_app a L es : logrel a L -> logrel (a_app a es) (L ++ es).
Proof.
  intros [H1 H2 H3]. constructor; cbn.
  - rewrite nlen_app. lia.
  - rewrite H2, ndrop_app. replace (a_base a - nlen L) with 0 by lia. rewrite ndrop_0. auto.
  - rewrite ntake_app. replace (a_base a - nlen L) with 0 by lia. rewrite ntake_0, app_nil_r. auto.
Qed.
(** Dropping a prefix of the window. *)
Lemma lr_compact a L i t : logrel a L -> a_base a <= i -> a_term a i = Some t ->
  logrel (mkALog i t (ndrop (i - a_base a) (a_ents a))) L.
Proof.
  intros H Hi Ht. destruct (lr_term _ _ _ _ H Ht) as [R ->]. destruct H as [H1 H2 H3]. constructor; cbn; auto; try lia.
  rewrite H2, ndrop_ndrop. f_equal. lia.
Qed.
Lemma lr_snap L i : i <= nlen L -> logrel (mkALog i (lastterm (ntake i L)) []) (ntake i L).
Proof.
  intros Hi. constructor; cbn.
  - rewrite nlen_ntake. lia.
  - rewrite ndrop_all; auto. rewrite nlen_ntake. lia.
  - rewrite ntake_ntake. rewrite N.min_id. auto.
Qed.

Section Match.
Variables (quorum : list N -> Prop) (t0 : N) (g : N -> anode) (F : list fact).
Hypothesis G : ginv quorum t0 g F.

Lemma good_lead t l L : In (FLead t l L) F -> good F L.
Proof. intros H. apply (gi_lead _ _ _ _ G _ _ _ H). Qed.

(** Two good logs whose prefixes of length [i] end in the same term have the same prefixes. *)
Lemma prefix_match X Y i : good F X -> good F Y -> i <= nlen X -> i <= nlen Y ->
  lastterm (ntake i X) = lastterm (ntake i Y) -> ntake i X = ntake i Y.
Proof.
  intros GX GY HX HY Ht. destruct (N.eq_dec i 0) as [->|Hi]; [rewrite !ntake_0; auto|].
  destruct (nnth_len_some X (i - 1)) as [a Ha]; [lia|]. destruct (nnth_len_some Y (i - 1)) as [b Hb]; [lia|].
  pose proof (lastterm_take _ _ _ Ha) as Ta. pose proof (lastterm_take _ _ _ Hb) as Tb.
  replace (i - 1 + 1) with i in * by lia.
  pose proof (matching _ _ _ _ X Y (i - 1) a b G GX GY Ha Hb ltac:(congruence)) as M.
  replace (i - 1 + 1) with i in M by lia. auto.
Qed.

(** Appending a slice [es] of the log [Y] after position [idx]. *)
Lemma append_match a X Y idx n es k : good F X -> good F Y -> logrel a X ->
  es = ntake n (ndrop idx Y) -> idx + n <= nlen Y -> contig (idx + 1) es ->
  a_term a idx = Some (lastterm (ntake idx Y)) -> conflict_at a es k ->
  (k = n -> ntake (idx + n) X = ntake (idx + n) Y /\ idx + n <= nlen X) /\
  (k < n -> ntake (idx + n) X <> ntake (idx + n) Y /\
     logrel (a_replace a (idx + 1 + k) (ndrop k es)) (ntake (idx + n) Y)).
Proof.
  intros GX GY HR He Hn Hc Ht (K1 & K2 & K3).
  assert (Hlen : nlen es = n). { rewrite He, nlen_ntake, nlen_ndrop. lia. }
  destruct (lr_term _ _ _ _ HR Ht) as [[R1 R2] R3].
  assert (P0 : ntake idx X = ntake idx Y) by (apply prefix_match; auto; lia).
  assert (Hes : forall j, j < n -> nnth es j = nnth Y (idx + j)).
  { intros j Hj. rewrite He, nnth_ntake', nnth_ndrop. destruct (N.ltb_spec j n); auto; lia. }
  assert (Pk : ntake (idx + k) X = ntake (idx + k) Y /\ idx + k <= nlen X).
  { destruct (N.eq_dec k 0) as [->|Hk]; [rewrite N.add_0_r; auto|].
    destruct (nnth_len_some Y (idx + (k - 1))) as [e Hy]; [lia|].
    pose proof (Hes (k - 1) ltac:(lia)) as Hx. rewrite Hy in Hx.
    specialize (K2 (k - 1) e ltac:(lia) Hx). rewrite (Hc _ _ Hx) in K2.
    destruct (lr_term _ _ _ _ HR K2) as [[Q1 Q2] Q3].
    replace (idx + 1 + (k - 1)) with (idx + k) in * by lia. split; auto.
    apply prefix_match; auto; try lia. rewrite <- Q3. rewrite <- (lastterm_take _ _ _ Hy). f_equal. f_equal. lia. }
  destruct Pk as [Pk Pl]. split.
  - intros ->. auto.
  - intros Hk. destruct (nnth_len_some Y (idx + k)) as [e Hy]; [lia|].
    pose proof (Hes k Hk) as Hx. rewrite Hy in Hx. specialize (K3 e Hx). rewrite (Hc _ _ Hx) in K3. split.
    + intros Heq. apply K3.
      assert (HX : nnth X (idx + k) = Some e).
      { rewrite <- Hy. transitivity (nnth (ntake (idx + n) X) (idx + k)).
        - rewrite nnth_ntake'. destruct (N.ltb_spec (idx + k) (idx + n)); auto; lia.
        - rewrite Heq, nnth_ntake'. destruct (N.ltb_spec (idx + k) (idx + n)); auto; lia. }
      pose proof (nnth_some_len _ _ _ HX). rewrite (lr_term_eq a X); auto; [|lia].
      f_equal. rewrite <- (lastterm_take _ _ _ HX). f_equal. f_equal. lia.
    + destruct HR as [H1 H2 H3]. unfold a_replace. set (Z := ntake (idx + n) Y).
      assert (HZ : nlen Z = idx + n) by (unfold Z; rewrite nlen_ntake; lia).
      assert (Ek : ntake (idx + k) X = ntake (idx + k) Z).
      { unfold Z. rewrite ntake_ntake. rewrite N.min_l by lia. auto. }
      constructor; cbn [a_base a_bterm a_ents].
      * lia.
      * rewrite H2. replace (idx + 1 + k - a_base a - 1) with (idx + k - a_base a) by lia.
        rewrite ntake_ndrop_comm. replace (a_base a + (idx + k - a_base a)) with (idx + k) by lia. rewrite Ek.
        assert (E2 : ndrop k es = ndrop (idx + k) Z).
        { rewrite He. unfold Z. rewrite ntake_ndrop_comm, ndrop_ndrop. auto. }
        rewrite E2. rewrite <- (ntake_ndrop (idx + k) Z) at 3. rewrite ndrop_app.
        replace (a_base a - nlen (ntake (idx + k) Z)) with 0 by (rewrite nlen_ntake; lia). rewrite ndrop_0. auto.
      * rewrite <- H3. f_equal. transitivity (ntake (a_base a) (ntake (idx + k) Z)).
        -- rewrite ntake_ntake. f_equal. lia.
        -- rewrite <- Ek, ntake_ntake. f_equal. lia.
Qed.

(** The committed prefix of a node is part of some log of the leader of its term. *)
Lemma com_kept n l L : In (FLead (an_term (g n)) l L) F ->
  exists l' M, In (FLead (an_term (g n)) l' M) F /\ pre (ntake (an_com (g n)) (an_log (g n))) M.
Proof.
  intros H. destruct (gi_com _ _ _ _ G n) as (_ & t & C & H1 & H2 & H3).
  destruct (N.eq_dec t (an_term (g n))) as [->|Hn].
  - destruct (gi_fcom _ _ _ _ G _ _ H1) as (_ & (l' & M & H4 & H5) & _). exists l', M. split; auto. eapply pre_trans; eauto.
  - exists l, L. split; auto. eapply pre_trans; [exact H3|]. eapply (gi_lc _ _ _ _ G); eauto. lia.
Qed.

(** Everything acknowledged in the term of a leader is in the leader's log. *)
Lemma ack_in_lead n v L : an_role (g n) = ALead -> In (FAck (an_term (g n)) v L) F -> pre L (an_log (g n)).
Proof.
  intros HL H. destruct (gi_ack _ _ _ _ G _ _ _ H) as (_ & l & M & H1 & H2).
  destruct (gi_top _ _ _ _ G n HL) as (_ & _ & H3). eapply pre_trans; eauto.
Qed.
(** What a node has acknowledged in its current term it still has. *)
Lemma ack_held n L : In (FAck (an_term (g n)) n L) F -> pre L (an_log (g n)).
Proof.
  intros H. apply (gi_ret _ _ _ _ G _ _ _ L H); [apply pre_refl|]. intros u l M HM Hu. lia.
Qed.
End Match.
