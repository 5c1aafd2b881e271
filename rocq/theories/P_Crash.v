(** Lemmas about crashes while a Ready is persisted (C68). *)
From Verif Require Import Prelude Types M_Util M_Quorum M_Inflights M_Progress M_Tracker.
From Verif Require Import M_Storage M_Unstable M_Log M_ReadOnly M_ConfPb M_ConfChange M_Raft M_RawNode.
From Verif Require Import P_Inflights Spec_Log P_Lists P_Storage P_Log Spec_Storage Sys_Storage P_StorageSeq Spec_RaftLog Sys_RaftLog P_RaftLogSeq.
From Verif Require Import P_Frame P_Prim Sys_Node P_Node P_Fields P_Vote Spec_Node Spec_Api P_New P_NodeLog P_Handle P_NodeRun.
From Verif Require Import Spec_Crash.

Section Crash.
Context {E : Env}.

(** [Sys_Node.persist_ready] is the order snapshot, entries, HardState. *)
Lemma persist_writes rd s : persist_ready rd s = writes [PSnap; PEnts; PHard] rd s.
Proof. unfold persist_ready. cbn [writes write_one bind]. destruct (ms_append _ _); reflexivity. Qed.

(** What the disk holds up to the persisted commit index is what the node holds. *)
Definition agree (n : rawnode) : Prop := forall i,
  a_base (ms_abs (node_storage n)) < i -> a_base (log_abs (r_log (rn_raft n))) < i -> i <= hs_commit (rn_prev_hard n) ->
  a_entry (ms_abs (node_storage n)) i = a_entry (log_abs (r_log (rn_raft n))) i.

Lemma agree_step o n n' out : nop_ok o n -> n_step o n = Ok (n', out) -> dinv n -> agree n -> agree n'.
Proof.
  intros Hok H D A. pose proof (n_step_dinv o n n' out Hok H D) as [D' X].
  pose proof (n_step_cfix o n n' out Hok H D) as [X1 X2 X3].
  assert (Hp : plain o \/ ~ plain o) by (destruct o; cbn; tauto). destruct Hp as [Hp|Hp].
  - destruct (n_step_nprs o n n' out Hp Hok H) as (A1 & A2 & _). destruct (nprs_ninv _ _ A1 (di_ninv _ D)) as [_ B].
    intros i H1 H2 H3. rewrite A2 in H3. pose proof (di_com _ D). assert (Est : node_storage n' = node_storage n) by (unfold node_storage; apply (lk_st _ _ B)). rewrite Est in *.
    rewrite A by lia. symmetry. apply X3; lia.
  - destruct o; cbn in Hp; try tauto; destruct Hok as [Hw Hok]; try tauto.
    + destruct X as (rd & _ & R). intros i H1 H2 H3. rewrite (hs_prev _ _ _ R) in H3. cbn in H3. rewrite (hs_st _ _ _ R). symmetry. apply X3; auto.
    + cbn [n_step] in H. apply bind_ok in H. destruct H as ([s e] & H1 & H2). inv H2.
      pose proof (proj1 (storage_ok_abs _) (di_st _ D)) as (S1 & _). pose proof (ms_compact_abs (node_storage n) i S1) as HC.
      pose proof (di_com _ D). intros j J1 J2 J3. change (node_storage (set_storage s n)) with s in *. change (rn_prev_hard (set_storage s n)) with (rn_prev_hard n) in J3.
      rewrite X3 by lia. destruct (N.leb_spec i (a_base (ms_abs (node_storage n)))).
      { rewrite HC in H1. inv H1. apply A; lia. }
      destruct (_ <? _); [destruct HC as [w HC]; congruence|]. destruct HC as (s' & t & C1 & _ & _ & _ & _ & C6).
      rewrite C1 in H1. inv H1. rewrite C6 in *. cbn [a_base] in J1. rewrite <- A by lia.
      unfold a_entry; cbn [a_base a_ents]. destruct (N.ltb_spec i j); [|lia]. destruct (N.ltb_spec (a_base (ms_abs (node_storage n))) j); [|lia].
      rewrite nnth_ndrop. f_equal. lia.
    + cbn [n_step] in H. apply bind_ok in H. destruct H as ([s e] & H1 & H2). inv H2.
      assert (Hs : ms_abs s = ms_abs (node_storage n)).
      { unfold ms_create_snapshot in H1. destruct (_ <=? _); [inv H1; auto|]. destruct (_ <? i); [discriminate|].
        destruct (_ <? _); [discriminate|]. destruct (nnth _ _); inv H1; auto. }
      pose proof (di_com _ D). intros j J1 J2 J3. change (node_storage (set_storage s n)) with s in *. change (rn_prev_hard (set_storage s n)) with (rn_prev_hard n) in J3.
      rewrite X3 by lia. rewrite Hs in *. apply A; lia.
Qed.
Lemma agree_run os : forall n n' outs, n_run_ok os n -> n_run os n = Ok (n', outs) -> dinv n -> agree n -> dinv n' /\ agree n'.
Proof.
  induction os as [|o os IH]; cbn [n_run n_run_ok]; intros n n' outs Hok H D A; [inv H; auto|].
  apply bind_ok in H. destruct H as ([n1 o1] & H1 & H). apply bind_ok in H. destruct H as ([n2 o2] & H2 & H). inv H.
  destruct Hok as [Hk Hok]. rewrite H1 in Hok. eapply IH; eauto; [eapply n_step_dinv|eapply agree_step]; eauto.
Qed.
Lemma node_at_agree n : node_at n -> agree n.
Proof.
  intros (c & tape & s & n0 & os & outs & H1 & H2 & H3 & H4 & H5).
  destruct (dinv_new _ _ _ _ H1 H2 H3) as (D & D1 & D2). eapply agree_run; eauto.
  intros i _ _ _. rewrite D1, D2. reflexivity.
Qed.

Lemma prev_hard_ready n rd : dinv n -> ready_of n rd ->
  (is_empty_hs (rd_hard rd) = true -> rn_prev_hard n = hard_state (rn_raft n)) /\
  (is_empty_hs (rd_hard rd) = false -> rd_hard rd = hard_state (rn_raft n)).
Proof.
  intros [N1 D2 D3 D4 D5 D6 D7 D8 D9] R. rewrite (ro_hard _ _ R). destruct (hardstate_eqb _ _) eqn:Heq.
  - apply hardstate_eqb_eq in Heq. split; [congruence|]. discriminate.
  - split; auto. intros Hem. unfold is_empty_hs, hard_state in *. cbn in Hem. destruct (rn_prev_hard n) as [pt pv pc]. cbn in *.
      unfold hs_forward in D6. cbn in D6. f_equal; lia.
Qed.

Lemma snap_zero n rd : dinv n -> ready_of n rd -> sn_index (rd_snap rd) = 0 -> u_snap (l_us (r_log (rn_raft n))) = None.
Proof.
  intros D R H. rewrite (ro_snap _ _ R) in H. destruct (u_snap (l_us (r_log (rn_raft n)))) as [s|] eqn:Hu; auto.
  pose proof (di_pend _ D _ Hu). lia.
Qed.

(** ms_append never touches anything but the entries. *)
Lemma append_keeps es s s' : ms_append es s = Ok s' -> ms_hs s' = ms_hs s /\ ms_snap s' = ms_snap s.
Proof.
  unfold ms_append. intros H. destruct es as [|e0 es]; [inv H; auto|]. destruct (_ <? _); [inv H; auto|].
  match type of H with match ?x with _ => _ end = _ => destruct x as [|e1 es1] end; [discriminate|].
  unfold set_ms_ents in H. destruct (_ <? _); [|destruct (_ =? _); [|discriminate]]; match type of H with match ?x with _ => _ end = _ => destruct x end; inv H; auto.
Qed.

(* ---- a Ready that carries a snapshot ---- *)
Section Snap.
Variable rd : ready.
Hypothesis Hk : sn_index (rd_snap rd) <> 0.
Hypothesis Hc : exists k, sn_index (rd_snap rd) < k /\ contig k (rd_ents rd).
Definition has_snap (s : mstorage) : Prop := swf s /\ a_base (ms_abs s) = sn_index (rd_snap rd).
Definition sphase (h : hardstate) (s : mstorage) : Prop :=
  ms_hs s = h /\ (sn_index (ms_snap s) < sn_index (rd_snap rd) \/ has_snap s).
Lemma one_sphase h w s s' : w <> PHard -> write_one w rd s = Ok s' -> sphase h s ->
  sphase h s' /\ (w = PSnap \/ has_snap s -> has_snap s').
Proof.
  intros Hw H [S1 S2]. destruct w; cbn [write_one] in H; [|congruence|].
  - destruct (append_keeps _ _ _ H) as [A1 A2].
    assert (K : has_snap s -> has_snap s').
    { intros [K1 K2]. destruct Hc as (k & C1 & C2). destruct (rd_ents rd) as [|e0 es] eqn:He; [inv H; split; auto|].
      pose proof (ms_append_abs s (e0 :: es) k K1 C2 ltac:(discriminate) ltac:(lia)) as X.
      destruct (_ <? _); [destruct X as [w X]; congruence|]. destruct X as (s2 & X1 & X2 & _ & _ & X3). rewrite X1 in H. inv H. split; auto.
      rewrite X3. destruct (_ <=? _); auto. }
    split; [|intros [|]; [discriminate|auto]]. split; [congruence|]. destruct S2 as [S2|S2]; [left; congruence|right; auto].
  - destruct (N.eqb_spec (sn_index (rd_snap rd)) 0); [lia|]. inv H. unfold ms_apply_snapshot.
    destruct (N.leb_spec (sn_index (rd_snap rd)) (sn_index (ms_snap s))); cbn [fst].
    + destruct S2 as [S2|S2]; [lia|]. split; [split; auto|auto].
    + assert (has_snap (mkMS (ms_hs s) (rd_snap rd) (mkEntry (sn_term (rd_snap rd)) (sn_index (rd_snap rd)) EntryNormal "") [])).
      { split; [intros x e He; exfalso; unfold nnth in He; cbn in He; destruct (N.to_nat x); discriminate|reflexivity]. }
      split; [split; auto|auto].
Qed.
Lemma writes_sphase h ws : forall s s', ~ In PHard ws -> writes ws rd s = Ok s' -> sphase h s ->
  sphase h s' /\ (In PSnap ws \/ has_snap s -> has_snap s').
Proof.
  induction ws as [|w ws IH]; cbn [writes In]; intros s s' Hn H S; [inv H; tauto|].
  apply bind_ok in H. destruct H as (s1 & H1 & H). destruct (one_sphase h w s s1) as [S1 S2]; auto.
  destruct (IH s1 s' ltac:(tauto) H S1) as [T1 T2]. split; auto. intros [[Hi|Hi]|Hi]; apply T2; auto.
Qed.
End Snap.

(** A storage whose commit index lies outside its log is unusable. *)
Lemma bad_commit s : is_empty_hs (ms_hs s) = false ->
  hs_commit (ms_hs s) < e_index (ms_dummy s) \/ ms_last_index s < hs_commit (ms_hs s) -> unusable s.
Proof.
  intros He Hb c tape n Hs H. apply rn_new_spec in H. destruct H as (r & Hr & _). apply raft_new_spec in Hr.
  destruct Hr as (s' & cp & _ & Hs' & _ & _ & Hcom & _). assert (s' = s) by congruence. subst s'.
  destruct Hcom as [X|X]; [congruence|]. unfold ms_first_index in X. lia.
Qed.
End Crash.
