(** A crash while the application persists a Ready (C68). *)
From Verif Require Import Prelude Types M_Util M_Quorum M_Inflights M_Progress M_Tracker.
From Verif Require Import M_Storage M_Unstable M_Log M_ReadOnly M_ConfPb M_ConfChange M_Raft M_RawNode.
From Verif Require Import P_Inflights Spec_Log P_Lists P_Storage P_Log Spec_Storage Sys_Storage P_StorageSeq Spec_RaftLog Sys_RaftLog P_RaftLogSeq.
From Verif Require Import Spec_ConfChange Sys_ConfChange P_ConfChange P_ConfPb P_Conf.
From Verif Require Import P_Frame P_Prim Sys_Node P_Node P_Fields P_Vote Spec_Node Spec_Api P_New P_NodeLog P_Handle P_NodeRun P_Boot.
From Verif Require Import Sys_Cluster Spec_Total Spec_Crash P_Crash.
From Verif Require Import Prop_ConfPb Prop_Deliver Prop_Api Ex_Env Ex_Node Ex_Check Ex_Case.

Section Props.
Context {E : Env}.

(** C68: when the entries of a Ready (one without a snapshot) are written before its HardState, the
    application may crash before, between or after the two writes: the node can be restarted from what
    is on the disk, knows the old or the new HardState, whose term, vote and commit index did not go
    back, still has everything it delivered or that was committed on the disk, unchanged, and once the
    entries are written its whole log. *)
Theorem C68_entries_first n n1 rd ws rest :
  node_at n -> rn_get_ready n = Ok (n1, rd) -> sn_index (rd_snap rd) = 0 -> ws ++ rest = [PEnts; PHard] ->
  exists s, writes ws rd (node_storage n) = Ok s /\
  forall c tape, config_valid c -> c_storage c = Some s -> conf_ok (sn_conf (ms_snap (node_storage n))) ->
    (c_applied c = 0 \/ e_index (ms_dummy s) <= c_applied c <= hs_commit (restart_hs (node_storage n))) ->
    exists n', rn_new c tape = Ok n' /\ node_at n' /\
      node_hard n' = (if is_nil rest then node_hard n else restart_hs (node_storage n)) /\
      hs_forward (restart_hs (node_storage n)) (node_hard n') /\ hs_commit (restart_hs (node_storage n)) <= node_commit n' /\
      node_applied n <= node_commit n' /\ node_first n' = node_first n /\
      (forall i e, i <= node_commit n' -> (holds_entry n' i e <-> holds_entry n i e)) /\
      (ws <> [] -> node_last n' = node_last n /\ forall i e, holds_entry n' i e <-> holds_entry n i e).
Proof.
  intros Ha Hg Hz Hws. pose proof (node_at_dinv _ Ha) as D. pose proof (node_at_agree _ Ha) as A.
  apply get_ready_inv in Hg. destruct Hg as (R & _). pose proof (snap_zero _ _ D R Hz) as Hu.
  pose proof (prev_hard_ready _ _ D R) as [P1 P2].
  pose proof D as [N1 D2 D3 D4 D5 D6 D7 D8 D9]. pose proof (proj1 (storage_ok_abs _) D2) as (S1 & S2 & S3 & S4 & S5).
  pose proof (ni_log _ N1) as Hi. pose proof (li_wf _ Hi) as Hw. pose proof (lwf_com _ Hw) as Hcom. pose proof (lwf_0 _ Hw) as Hw0.
  set (l := r_log (rn_raft n)) in *.
  assert (Hb : a_base (log_abs l) = a_base (ms_abs (node_storage n))) by (unfold log_abs; rewrite Hu; reflexivity).
  destruct (persist_st _ Hi) as (st2 & A1 & A2 & A3 & A4 & A5). fold l in A1, A3, A4, A5. rewrite Hu in A1, A5. rewrite <- (ro_ents _ _ R : rd_ents rd = u_ents (l_us l)) in A1.
  change (l_st l) with (node_storage n) in *.
  assert (Hf : forall s, a_base (ms_abs s) = a_base (ms_abs (node_storage n)) -> ms_hs s = ms_hs (node_storage n) -> restart_hs s = rn_prev_hard n).
  { intros s B1 B2. rewrite D3. unfold restart_hs. rewrite B2, !ms_first_abs. unfold a_first. rewrite B1. reflexivity. }
  (* the disk *)
  assert (K : exists s, writes ws rd (node_storage n) = Ok s /\ storage_ok s /\ ms_snap s = ms_snap (node_storage n) /\ a_base (ms_abs s) = a_base (log_abs l) /\
     (ws <> [] -> ms_abs s = log_abs l) /\ restart_hs s = (if is_nil rest then hard_state (rn_raft n) else rn_prev_hard n) /\
     (ws = [] -> ms_abs s = ms_abs (node_storage n))).
  { assert (W : (ws = [] /\ rest = [PEnts; PHard]) \/ (ws = [PEnts] /\ rest = [PHard]) \/ (ws = [PEnts; PHard] /\ rest = [])).
    { destruct ws as [|w1 [|w2 [|w3 ws]]]; cbn in Hws; inv Hws; auto. }
    destruct W as [[-> ->]|[[-> ->]|[-> ->]]]; cbn [writes write_one is_nil bind]; rewrite ?A1; cbn [bind].
    - eexists. split; [reflexivity|]. split; [auto|]. split; [auto|]. split; [auto|]. split; [congruence|]. split; auto.
    - eexists. split; [reflexivity|]. assert (Hr : restart_hs st2 = rn_prev_hard n) by (apply Hf; congruence).
      split; [|split; [auto|]; split; [congruence|]; split; [auto|]; split; [auto|discriminate]].
      apply storage_ok_abs. rewrite Hr, A3, A5. split; [auto|]. split; [apply N1|]. rewrite D3 at 1. split; [auto|]. split; [auto|].
      rewrite <- D3 in S5. lia.
    - eexists. split; [reflexivity|].
      set (s := if is_empty_hs (rd_hard rd) then st2 else ms_set_hard_state (rd_hard rd) st2).
      assert (B1 : ms_abs s = log_abs l) by (unfold s; destruct (is_empty_hs _); auto).
      assert (B2 : ms_snap s = ms_snap (node_storage n)) by (unfold s; destruct (is_empty_hs _); auto).
      assert (B3 : swf s) by (unfold s; destruct (is_empty_hs _); auto).
      assert (B4 : restart_hs s = hard_state (rn_raft n)).
      { unfold s. destruct (is_empty_hs (rd_hard rd)) eqn:He; [rewrite <- P1 by auto; apply Hf; congruence|].
        unfold restart_hs. change (ms_hs (ms_set_hard_state (rd_hard rd) st2)) with (rd_hard rd). rewrite He. auto. }
      split; [|split; [auto|]; split; [congruence|]; split; [auto|]; split; [auto|discriminate]].
      apply storage_ok_abs. rewrite B4, B1, B2. split; [auto|]. split; [apply N1|]. split; [auto|]. cbn [hard_state hs_commit]. rewrite <- D3 in S4. split; [fold l; lia|exact Hcom]. }
  destruct K as (s & K1 & K2 & K3 & K4 & K5 & K6 & K7). exists s. split; [auto|].
  intros c tape V Hs [O1 O2 O3 O4 O5] Hap. rewrite <- K3 in O1, O2, O3, O4, O5.
  assert (Hle : hs_commit (restart_hs (node_storage n)) <= hs_commit (restart_hs s)).
  { rewrite K6, <- D3. destruct (is_nil rest); cbn [hard_state hs_commit]; fold l; lia. }
  destruct (C50_restart c s tape V Hs K2 O1 O2 O3 O4 O5) as (n' & N & _ & _ & _ & Q1 & _).
  { destruct Hap as [|Hap]; [auto|right; lia]. }
  destruct (dinv_new _ _ _ _ Hs K2 N) as (D' & E1 & E2).
  assert (Hn : node_at n'). { exists c, tape, s, n', [], []. split; [auto|]. split; [auto|]. split; [auto|]. split; [exact Logic.I|reflexivity]. }
  assert (Hcm : node_commit n' = hs_commit (restart_hs s)) by (unfold node_commit; rewrite Q1; reflexivity).
  exists n'. split; [auto|]. split; [auto|]. split; [rewrite Q1, K6, <- D3; reflexivity|]. split.
  { rewrite Q1, K6, <- D3. destruct (is_nil rest); auto. right; auto. }
  split; [rewrite Hcm; auto|]. split; [rewrite Hcm; rewrite <- D3 in Hle; unfold node_applied; cbn; fold l; lia|].
  split; [unfold node_first; rewrite !log_first_abs, E1; unfold a_first; fold l; lia|].
  assert (Hsame : ws <> [] -> forall i e, holds_entry n' i e <-> holds_entry n i e).
  { intros Hne i e. rewrite !holds_abs by auto. fold l. rewrite E1, K5 by auto. tauto. }
  split.
  - intros i e Hie. destruct ws as [|w ws]; [|apply Hsame; discriminate]. rewrite !holds_abs by auto. fold l. rewrite E1, K7 by auto.
    destruct (N.ltb_spec (a_base (ms_abs (node_storage n))) i) as [Hlt|Hge].
    + rewrite A; [tauto|auto|fold l; lia|]. rewrite Hcm in Hie. rewrite K6 in Hie. cbn in Hws. subst rest. exact Hie.
    + unfold a_entry. fold l. rewrite Hb. destruct (N.ltb_spec (a_base (ms_abs (node_storage n))) i); [lia|]. split; discriminate.
  - intros Hne. split; [|auto]. unfold node_last. rewrite !log_last_abs by (auto; apply lwf_0, li_wf, ni_log, di_ninv; auto). fold l. rewrite E1, K5; auto.
Qed.

(** C68: a Ready's snapshot on the disk without its HardState is a storage no node can be created on
    (unless the storage held no HardState yet). *)
Theorem C68_snapshot_without_hardstate n n1 rd ws s :
  node_at n -> rn_get_ready n = Ok (n1, rd) -> sn_index (rd_snap rd) <> 0 -> is_empty_hs (ms_hs (node_storage n)) = false ->
  In PSnap ws -> ~ In PHard ws -> writes ws rd (node_storage n) = Ok s -> unusable s.
Proof.
  intros Ha Hg Hk He Hin Hno H. pose proof (node_at_dinv _ Ha) as D. apply get_ready_inv in Hg. destruct Hg as (R & _).
  pose proof D as [N1 D2 D3 D4 D5 D6 D7 D8 D9]. pose proof (ni_log _ N1) as Hi. pose proof (li_wf _ Hi) as Hw.
  destruct (u_snap (l_us (r_log (rn_raft n)))) as [sn|] eqn:Hu; [|rewrite (ro_snap _ _ R), Hu in Hk; cbn in Hk; lia].
  assert (Hsn : rd_snap rd = sn) by (rewrite (ro_snap _ _ R), Hu; auto).
  pose proof (lwf_off _ Hw) as Ho. rewrite Hu in Ho. pose proof (li_snap _ Hi) as Hls. rewrite Hu in Hls.
  destruct (writes_sphase rd Hk) with (h := ms_hs (node_storage n)) (ws := ws) (s := node_storage n) (s' := s) as [[P1 _] P2]; auto.
  { exists (u_off (l_us (r_log (rn_raft n)))). rewrite Hsn, (ro_ents _ _ R). split; [lia|apply Hw]. }
  { split; auto. left. rewrite Hsn. exact Hls. }
  destruct (P2 (or_introl Hin)) as [_ P3]. apply bad_commit; [congruence|]. left.
  change (e_index (ms_dummy s)) with (a_base (ms_abs s)). rewrite P3, P1, Hsn. specialize (D8 _ eq_refl).
  rewrite D3 in D8. unfold restart_hs in D8. rewrite He in D8. exact D8.
Qed.

(** C68: a Ready's HardState on the disk without its snapshot, when the log on the disk ends before the
    snapshot: the write of the entries aborts, or no node can be created on the storage. *)
Theorem C68_hardstate_without_snapshot n n1 rd ws s :
  node_at n -> rn_get_ready n = Ok (n1, rd) -> ms_last_index (node_storage n) < sn_index (rd_snap rd) ->
  In PHard ws -> ~ In PSnap ws -> writes ws rd (node_storage n) = Ok s -> unusable s.
Proof.
  intros Ha Hg Hlt Hin Hno H. pose proof (node_at_dinv _ Ha) as D. apply get_ready_inv in Hg. destruct Hg as (R & _).
  pose proof (prev_hard_ready _ _ D R) as [P1 P2].
  pose proof D as [N1 D2 D3 D4 D5 D6 D7 D8 D9]. pose proof (ni_log _ N1) as Hi. pose proof (li_wf _ Hi) as Hw. pose proof (lwf_com _ Hw) as Hcom.
  destruct (u_snap (l_us (r_log (rn_raft n)))) as [sn|] eqn:Hu; [|rewrite (ro_snap _ _ R), Hu in Hlt; cbn in Hlt; lia].
  assert (Hsn : rd_snap rd = sn) by (rewrite (ro_snap _ _ R), Hu; auto). rewrite Hsn in *.
  pose proof (lwf_off _ Hw) as Ho. rewrite Hu in Ho. specialize (D8 _ eq_refl).
  assert (Hcs : sn_index sn <= l_committed (r_log (rn_raft n))) by (unfold log_abs in Hcom; rewrite Hu in Hcom; apply Hcom).
  assert (He : is_empty_hs (rd_hard rd) = false).
  { destruct (is_empty_hs (rd_hard rd)) eqn:He; auto. rewrite P1 in D8 by auto. cbn in D8. lia. }
  specialize (P2 He).
  assert (G : forall ws s0 s1, ~ In PSnap ws -> writes ws rd s0 = Ok s1 -> ms_abs s0 = ms_abs (node_storage n) ->
     (In PHard ws \/ ms_hs s0 = rd_hard rd) -> ms_abs s1 = ms_abs (node_storage n) /\ ms_hs s1 = rd_hard rd).
  { clear H Hin Hno ws. induction ws as [|w ws IH]; cbn [writes In]; intros s0 s1 Hno H Hab Hh; [inv H; split; [auto|tauto]|].
    apply bind_ok in H. destruct H as (s2 & H1 & H). apply (IH s2 s1); auto; destruct w; cbn [write_one] in H1.
    - destruct (rd_ents rd) as [|e0 es] eqn:Hes; [inv H1; auto|]. exfalso.
      assert (Hs0 : swf s0) by (unfold swf; rewrite Hab; apply Hw).
      pose proof (lwf_us _ Hw) as Hct. rewrite <- (ro_ents _ _ R), Hes in Hct.
      pose proof (ms_append_abs s0 _ _ Hs0 Hct ltac:(discriminate) ltac:(lia)) as X. rewrite Hab, <- ms_last_abs in X.
      destruct (N.ltb_spec (ms_last_index (node_storage n) + 1) (u_off (l_us (r_log (rn_raft n))))); [|lia]. destruct X as [w X]. congruence.
    - inv H1. destruct (is_empty_hs _); auto.
    - tauto.
    - apply append_keeps in H1. destruct H1 as [H1 _]. rewrite H1. destruct Hh as [[Hh|Hh]|Hh]; [discriminate|auto|auto].
    - inv H1. rewrite He. right. reflexivity.
    - tauto. }
  destruct (G ws _ _ Hno H eq_refl (or_introl Hin)) as [G1 G2].
  apply bad_commit; [congruence|]. right. rewrite ms_last_abs, G1, <- ms_last_abs, G2, P2. cbn [hard_state hs_commit]. lia.
Qed.

(** C68: so whatever the order of the three writes, when the Ready carries a snapshot beyond the log on
    the disk, there is a point at which a crash leaves a storage no node can be created on: they have to
    be made durable together. *)
Theorem C68_no_safe_order n n1 rd ws :
  node_at n -> rn_get_ready n = Ok (n1, rd) -> ms_last_index (node_storage n) < sn_index (rd_snap rd) ->
  is_empty_hs (ms_hs (node_storage n)) = false -> In PSnap ws -> In PHard ws ->
  exists a b, ws = a ++ b /\ a <> [] /\ forall s, writes a rd (node_storage n) = Ok s -> unusable s.
Proof.
  intros Ha Hg Hlt He H1 H2.
  assert (X : exists a w b, ws = a ++ w :: b /\ ~ In PSnap a /\ ~ In PHard a /\ (w = PSnap \/ w = PHard)).
  { clear H2. induction ws as [|w ws IH]; [destruct H1|]. destruct w.
    - destruct H1 as [H1|H1]; [discriminate|]. destruct (IH H1) as (a & w & b & -> & X1 & X2 & X3). exists (PEnts :: a), w, b. cbn. repeat split; auto; intros [|]; auto; discriminate.
    - exists [], PHard, ws. cbn; auto.
    - exists [], PSnap, ws. cbn; auto. }
  destruct X as (a & w & b & -> & X1 & X2 & X3). exists (a ++ [w]), b. split; [rewrite <- app_assoc; reflexivity|].
  split; [destruct a; discriminate|]. intros s Hs. destruct X3 as [-> | ->].
  - clear H1 H2; apply (C68_snapshot_without_hardstate n n1 rd (a ++ [PSnap]) s); auto; [lia|apply in_or_app; right; left; auto|]. intros Hi. apply in_app_or in Hi. destruct Hi as [Hi|[Hi|[]]]; [auto|discriminate].
  - clear H1 H2; apply (C68_hardstate_without_snapshot n n1 rd (a ++ [PHard]) s); auto; [apply in_or_app; right; left; auto|]. intros Hi. apply in_app_or in Hi. destruct Hi as [Hi|[Hi|[]]]; [auto|discriminate].
Qed.

(** C68: the documented order (entries first, the snapshot last) without any crash: if the Ready carries
    a snapshot and entries after it, the entries are refused by an abort or deleted again. *)
Theorem C68_documented_order n n1 rd s :
  node_at n -> rn_get_ready n = Ok (n1, rd) -> sn_index (rd_snap rd) <> 0 -> rd_ents rd <> [] ->
  writes [PEnts; PHard; PSnap] rd (node_storage n) = Ok s ->
  ms_last_index s = sn_index (rd_snap rd) /\ node_last n = sn_index (rd_snap rd) + nlen (rd_ents rd) /\ sn_index (rd_snap rd) < node_last n.
Proof.
  intros Ha Hg Hk Hne H. pose proof (node_at_dinv _ Ha) as D. apply get_ready_inv in Hg. destruct Hg as (R & _).
  pose proof D as [N1 D2 D3 D4 D5 D6 D7 D8 D9]. pose proof (ni_log _ N1) as Hi. pose proof (li_wf _ Hi) as Hw. pose proof (lwf_0 _ Hw) as Hw0.
  destruct (u_snap (l_us (r_log (rn_raft n)))) as [sn|] eqn:Hu; [|rewrite (ro_snap _ _ R), Hu in Hk; cbn in Hk; lia].
  assert (Hsn : rd_snap rd = sn) by (rewrite (ro_snap _ _ R), Hu; auto).
  assert (Hl : node_last n = sn_index sn + nlen (rd_ents rd)).
  { unfold node_last. rewrite log_last_abs by auto. unfold log_abs. rewrite Hu, (ro_ents _ _ R). reflexivity. }
  rewrite Hsn in *. assert (0 < nlen (rd_ents rd)) by (destruct (rd_ents rd); [congruence|rewrite nlen_cons; lia]).
  split; [|lia]. cbn [writes write_one] in H. apply bind_ok in H. destruct H as (s1 & H1 & H). cbn [bind] in H.
  apply append_keeps in H1. destruct H1 as [_ H1]. rewrite Hsn in H. destruct (N.eqb_spec (sn_index sn) 0); [lia|].
  pose proof (li_snap _ Hi) as Hls. rewrite Hu in Hls. fold (node_storage n) in Hls.
  match type of H with Ok (fst (ms_apply_snapshot _ ?x)) = _ => assert (Hx : ms_snap x = ms_snap (node_storage n)) by (destruct (is_empty_hs _); auto); revert H; generalize dependent x end.
  intros x Hx H. unfold ms_apply_snapshot in H. rewrite Hx in H. destruct (N.leb_spec (sn_index sn) (sn_index (ms_snap (node_storage n)))); [lia|].
  inv H. unfold ms_last_index, ms_ents. cbn [ms_dummy ms_tail e_index]. rewrite nlen_cons, nlen_nil. lia.
Qed.
End Props.

#[local] Existing Instance ex_env.
(** A follower whose entry 7 (term 2) was not committed hears from the leader of term 3. *)
Definition ex_conflict : msg :=
  mkMsg MsgApp 1 2 3 1 6 [mkEntry 3 7 EntryNormal "x"; mkEntry 3 8 EntryNormal "y"] 7 empty_snapshot false 0 EmptyString.
Definition ex_snap7 : msg :=
  set_m_snap (mkSnapshot 7 3 ex_conf "state") (set_m_term 3 (set_m_from 2 (set_m_to 1 (new_msg MsgSnap)))).
Definition ex_app8 : msg :=
  mkMsg MsgApp 1 2 3 3 7 [mkEntry 3 8 EntryNormal "y"] 7 empty_snapshot false 0 EmptyString.
Definition crashed (ms : list msg) (ws : list pwrite) : res (rawnode * ready * rawnode) :=
  '(n, _) <- ex_run (ex_cfg 1) (map NStep ms) ;;
  '(_, rd) <- rn_get_ready n ;;
  s <- writes ws rd (node_storage n) ;;
  n' <- rn_new (mkConfig 1 10 1 (Some s) 0 1000 1000 0 4 false false RoSafe false) [3] ;;
  Ok (n, rd, n').
Definition entry_at (i : N) (n : rawnode) : option entry :=
  match log_slice i (i + 1) UINT64_MAX (r_log (rn_raft n)) with Ok (SOk [e]) => Some e | _ => None end.

Lemma entry_at_holds i n e : entry_at i n = Some e -> holds_entry n i e.
Proof.
  unfold entry_at, holds_entry. destruct (log_slice i (i + 1) UINT64_MAX (r_log (rn_raft n))) as [[[|x [|]]|]| | |]; try discriminate.
  intros H. injection H as <-. reflexivity.
Qed.
Lemma ex_new_eq c : ex_new c = rn_new c [3; 4; 5; 6; 7].
Proof. reflexivity. Qed.
Lemma ex_run_eq c os : ex_run c os = (n <- ex_new c ;; n_run os n).
Proof. reflexivity. Qed.
Lemma crashed_at ms ws n rd n' : forallb (fun m => nop_okb (NStep m) (mkRN (rn_raft n) (rn_prev_soft n) (rn_prev_hard n) None)) ms = true ->
  crashed ms ws = Ok (n, rd, n') ->
  node_at n /\ (exists n1, rn_get_ready n = Ok (n1, rd)) /\
  exists s c tape, writes ws rd (node_storage n) = Ok s /\ c_storage c = Some s /\ rn_new c tape = Ok n'.
Proof.
  intros Hms H. unfold crashed in H. apply bind_ok in H. destruct H as ([m o] & H1 & H). apply bind_ok in H. destruct H as ([n1 rd1] & H2 & H).
  apply bind_ok in H. destruct H as (s & H3 & H). apply bind_ok in H. destruct H as (n2 & H4 & H). inv H.
  split; [|split; [eauto|exists s; eexists; exists [3]; split; [exact H3|]; split; [|exact H4]; reflexivity]]. rewrite ex_run_eq in H1. apply bind_ok in H1. destruct H1 as (n0 & H0 & H1). rewrite ex_new_eq in H0.
  exists (ex_cfg 1), [3;4;5;6;7], ex_storage, n0, (map NStep ms), o. split; [reflexivity|]. split; [apply ex_life_storage|]. split; [exact H0|]. split; [|exact H1].
  assert (G : forall k, n_run_okb (map NStep ms) k = true).
  { clear H1. revert Hms. generalize (mkRN (rn_raft n) (rn_prev_soft n) (rn_prev_hard n) None). induction ms as [|x ms IH]; intros n9 Hms k; [reflexivity|].
    cbn [forallb] in Hms. apply andb_prop in Hms. destruct Hms as [Hx Hms]. cbn [map n_run_okb]. apply andb_true_intro. split; [exact Hx|].
    destruct (n_step _ _) as [[k' ?]| | |]; auto. eapply IH; eauto. }
  apply n_run_okb_ok. apply G.
Qed.

(** C68: writing the HardState before the entries is unsafe: after a crash in between, an entry the node
    never committed takes the place of a committed one. *)
Theorem C68_hardstate_first_unsafe : exists n n1 rd s c tape n' i e e',
  node_at n /\ rn_get_ready n = Ok (n1, rd) /\ sn_index (rd_snap rd) = 0 /\
  writes [PHard] rd (node_storage n) = Ok s /\ c_storage c = Some s /\ rn_new c tape = Ok n' /\
  i <= node_commit n /\ i <= node_commit n' /\ holds_entry n i e /\ holds_entry n' i e' /\ e <> e'.
Proof.
  destruct (crashed [ex_conflict] [PHard]) as [[[n rd] n']| | |] eqn:Ec; try (exfalso; revert Ec; vm_compute; discriminate).
  assert (V : run_ok (crashed [ex_conflict] [PHard]) (fun p => (sn_index (rd_snap (snd (fst p))), node_commit (fst (fst p)), node_commit (snd p), entry_at 7 (fst (fst p)), entry_at 7 (snd p)) =
     (0, 7, 7, Some (mkEntry 3 7 EntryNormal "x"), Some (mkEntry 2 7 EntryNormal "b")))) by (vm_compute; reflexivity).
  rewrite Ec in V. cbn [run_ok fst snd] in V.
  injection V as V1 V2 V3 V4 V5.
  destruct (crashed_at [ex_conflict] [PHard] n rd n' eq_refl Ec) as (A1 & (n1 & A2) & s & c & tape & A3 & A4 & A5).
  exists n, n1, rd, s, c, tape, n', 7, (mkEntry 3 7 EntryNormal "x"), (mkEntry 2 7 EntryNormal "b").
  repeat (split; [first [assumption|rewrite ?V2, ?V3; lia]|]).
  assert (G : forall n e, entry_at 7 n = Some e -> holds_entry n 7 e).
  { exact (entry_at_holds 7). }
  split; [exact (G _ _ V4)|]. split; [exact (G _ _ V5)|]. discriminate.
Qed.

(** C68: so is writing the HardState before the snapshot, when the log on the disk reaches past the
    snapshot with other entries. *)
Theorem C68_hardstate_before_snapshot_unsafe : exists n n1 rd s c tape n' i e,
  node_at n /\ rn_get_ready n = Ok (n1, rd) /\ sn_index (rd_snap rd) = i /\
  writes [PEnts; PHard] rd (node_storage n) = Ok s /\ c_storage c = Some s /\ rn_new c tape = Ok n' /\
  i <= node_commit n' /\ holds_entry n' i e /\ e_term e <> sn_term (rd_snap rd).
Proof.
  destruct (crashed [ex_snap7; ex_app8] [PEnts; PHard]) as [[[n rd] n']| | |] eqn:Ec; try (exfalso; revert Ec; vm_compute; discriminate).
  assert (V : run_ok (crashed [ex_snap7; ex_app8] [PEnts; PHard]) (fun p => (sn_index (rd_snap (snd (fst p))), sn_term (rd_snap (snd (fst p))), node_commit (snd p), entry_at 7 (snd p), nlen (rd_ents (snd (fst p)))) =
     (7, 3, 7, Some (mkEntry 2 7 EntryNormal "b"), 1))) by (vm_compute; reflexivity).
  rewrite Ec in V. cbn [run_ok fst snd] in V.
  injection V as V1 V2 V3 V4 V5.
  destruct (crashed_at [ex_snap7; ex_app8] [PEnts; PHard] n rd n' eq_refl Ec) as (A1 & (n1 & A2) & s & c & tape & A3 & A4 & A5).
  exists n, n1, rd, s, c, tape, n', 7, (mkEntry 2 7 EntryNormal "b").
  repeat (split; [first [assumption|rewrite ?V3; lia]|]). split; [|rewrite V2; discriminate].
  exact (entry_at_holds 7 _ _ V4).
Qed.

(** The hypotheses are met: a Ready with entries and a HardState, at each crash point, ... *)
Example C68_entries_first_nonvacuous :
  run_ok (crashed [ex_conflict] []) (fun p => node_commit (snd p) = 6 /\ entry_at 7 (snd p) = Some (mkEntry 2 7 EntryNormal "b")) /\
  run_ok (crashed [ex_conflict] [PEnts]) (fun p => node_commit (snd p) = 6 /\ node_last (snd p) = 8 /\ rd_ents (snd (fst p)) <> []) /\
  run_ok (crashed [ex_conflict] [PEnts; PHard]) (fun p => node_hard (snd p) = mkHardState 3 0 7 /\ node_last (snd p) = 8).
Proof. vm_compute. repeat split; discriminate. Qed.
(** ... and one with a snapshot beyond the log and an entry after it. *)
Example C68_snapshot_nonvacuous : run_ok (ex_run (ex_cfg 1) [NStep ex_snap_msg; NStep ex_app_msg]) (fun p =>
  run_ok (rn_get_ready (fst p)) (fun q => sn_index (rd_snap (snd q)) = 20 /\ nlen (rd_ents (snd q)) = 2 /\
    ms_last_index (node_storage (fst p)) = 7 /\ is_empty_hs (ms_hs (node_storage (fst p))) = false /\
    run_ok (writes [PSnap; PEnts] (snd q) (node_storage (fst p))) (fun s => ms_last_index s = 22))).
Proof. vm_compute. repeat split. Qed.
