(** Where the snapshots of a node come from, and how its applied index moves. *)
From Verif Require Import Prelude Types M_Util M_Quorum M_Inflights M_Progress M_Tracker.
From Verif Require Import M_Storage M_Unstable M_Log M_ReadOnly M_ConfPb M_ConfChange M_Raft M_RawNode.
From Verif Require Import P_Inflights Spec_Log P_Lists P_Storage P_Log Spec_Storage Sys_Storage P_StorageSeq Spec_RaftLog Sys_RaftLog P_RaftLogSeq.
From Verif Require Import P_Frame P_Prim Sys_Node Sys_ConfChange P_Node P_Fields P_Vote Spec_Node P_Persist P_New P_NodeLog P_Handle P_NodeRun P_Emit Prop_Deliver.

Section SnapSource.
Context {E : Env}.
Variable G : snapshot -> Prop.

(** Every snapshot a node has or is about to send satisfies [G]. *)
Record sgood (r : raft) : Prop := {
  sg_st : G (ms_snap (l_st (r_log r)));
  sg_us : forall s, u_snap (l_us (r_log r)) = Some s -> G s;
  sg_out : forall m, In m (r_msgs r) -> m_type m = MsgSnap -> G (m_snap m)
}.

Lemma leff_sgood im r r' : (m_type im = MsgSnap -> G (m_snap im)) -> sgood r -> leff im r r' ->
  G (ms_snap (l_st (r_log r'))) /\ forall s, u_snap (l_us (r_log r')) = Some s -> G s.
Proof.
  intros Hm [S1 S2 _].
  intros [H|es mci pr pr' u t0 H1 H2 H3 H4 H5 H6 H7 H8 H9 H10 H11 H12|mci H1 H2 H3 H4 H5 H6|l H1 H2 H3 H4 H5 H6|c H1 H2 H3 H4 H5|r1 H1 H2 H3 H4 H5 H6 H7 H8 H9].
  - rewrite H. auto.
  - rewrite H5. cbn. auto.
  - rewrite H6. cbn. auto.
  - cbv zeta in H6. destruct H6 as (A1&A2&A3&A4&A5&A6&A7&A8&->). cbn. rewrite A6, A8. auto.
  - rewrite H5. cbn. auto.
  - rewrite H9. cbn [r_log emit set_r_msgs]. rewrite H7. cbn. split; auto. intros s Hs. inv Hs. auto.
Qed.
Lemma pmsg_sgood im r r' m : (m_type im = MsgSnap -> G (m_snap im)) -> sgood r -> pmsg im r r' m -> m_type m = MsgSnap -> G (m_snap m).
Proof.
  intros Hm [S1 S2 _] H Ht. destruct H as [m Hl S|m H| | |]; try discriminate Ht.
  - destruct S as [| to sn Hg Hs Hz| | |]; try discriminate Ht. cbn. unfold log_snapshot, ms_snapshot in Hs.
    destruct (u_snap (l_us (r_log r))) as [s|]; inv Hs; auto.
  - destruct H; try discriminate Ht. exfalso. unfold outm in Ht.
    destruct H2 as [X|[X|X]]; destruct (_ =? _) in Ht; cbn in Ht; rewrite X in Ht; cbn in Ht; rewrite ?X in Ht; discriminate.
Qed.
Lemma prim_sgood im r r' : log_msg_wf im -> (m_type im = MsgSnap -> G (m_snap im)) -> ninv r -> sgood r -> prim im r r' -> sgood r'.
Proof.
  intros Hw Hm Hn S Hp. destruct (prim_log _ _ _ Hw Hn Hp) as [_ L]. destruct (leff_sgood _ _ _ Hm S L) as [A1 A2].
  destruct (prim_spec _ _ _ Hp) as (_ & _ & new & N1 & N2). constructor; auto. rewrite N1. intros m Hin. apply in_app_or in Hin.
  destruct Hin as [Hin|Hin]; [apply S; auto|]. rewrite Forall_forall in N2. eapply pmsg_sgood; eauto.
Qed.

(** One call: the snapshots after it are those before it, the one delivered, or the one created. *)
Definition call_good (o : nop) (n : rawnode) : Prop :=
  match o with
  | NStep m => m_type m = MsgSnap -> G (m_snap m)
  | NCreateSnapshot i c d => forall t k, i <= l_applied (r_log (rn_raft n)) -> G (mkSnapshot i t k d)
  | _ => True
  end.
Lemma n_step_sgood o n n' out : nop_ok o n -> dinv n -> n_step o n = Ok (n', out) -> call_good o n -> sgood (rn_raft n) ->
  sgood (rn_raft n') /\
  (forall m, In m (match o_ready out with Some rd => rd_msgs rd | None => [] end) -> m_type m = MsgSnap -> G (m_snap m)) /\
  (forall rd, o_ready out = Some rd -> sn_index (rd_snap rd) <> 0 -> G (rd_snap rd)).
Proof.
  intros Hok D H Hg S. destruct (plain_dec o) as [Hp|Hp].
  - destruct (n_step_nprs _ _ _ _ Hp Hok H) as (_ & _ & _ & Ho). rewrite Ho. split; [|split; [intros m []|discriminate]].
    destruct (n_step_qprs _ _ _ _ Hp (proj1 Hok) H) as (r0 & Sw & Q).
    assert (A : sgood r0 /\ ninv r0).
    { destruct Sw as [->|(cc & cp & b & op & _ & _ & ->)]; [split; [auto|apply D]|]. split.
      - destruct S as [S1 S2 S3]. constructor; auto.
      - apply (ninv_same (rn_raft n)); auto. apply D. }
    assert (B : ninv (rn_raft n') /\ sgood (rn_raft n')); [|apply B].
    assert (C : ninv r0 /\ sgood r0) by tauto. revert C.
    apply (qprs_ind_inv (call_msg (r_id (rn_raft n)) o) (fun r => ninv r /\ sgood r)); [|exact Q].
    intros im a b Hc [Ha Hb] Hpr. pose proof (call_msg_log _ _ _ _ Hp Hok Hc) as Hw.
    split; [eapply ninv_prim; eauto|]. eapply prim_sgood; eauto. intros Ht.
    assert (Hd : (exists m, o = NStep m) \/ forall m, o <> NStep m) by (destruct o; eauto; right; discriminate).
    destruct Hd as [[m ->]|Hd]; [cbn in Hc, Hg; subst; auto|]. destruct (call_msg_local _ _ _ Hc Hd) as [_ L]. rewrite Ht in L. discriminate.
  - destruct (n_step_dinv o n n' out Hok H D) as [D' X]. destruct S as [S1 S2 S3].
    destruct o; cbn in Hp; try tauto; destruct Hok as [Hw Hok]; try tauto.
    + destruct X as (rd & -> & Hh). cbn [o_ready]. pose proof (hs_ready _ _ _ Hh) as R.
      assert (Hm : r_msgs (rn_raft n') = []).
      { cbn [n_step] in H. apply bind_ok in H. destruct H as ([n1 rd1] & H1 & H2). inv H2. unfold n_handle in H1.
        apply bind_ok in H1. destruct H1 as ([n1 rd1] & H1 & H2). apply bind_ok in H2. destruct H2 as (s & H2 & H3).
        apply bind_ok in H3. destruct H3 as (n2 & H3 & H4). inv H4. apply advance_msgs in H3. rewrite H3. cbn.
        apply get_ready_inv in H1. destruct H1 as (_ & -> & _). auto. }
      split; [|split].
      * constructor.
        -- change (l_st (r_log (rn_raft n'))) with (node_storage n'). rewrite (hs_snap _ _ _ Hh).
           destruct (u_snap (l_us (r_log (rn_raft n)))); auto.
        -- rewrite (hs_us _ _ _ Hh). discriminate.
        -- rewrite Hm. intros m [].
      * rewrite (ro_msgs _ _ R). auto.
      * intros rd' Hr Hz. inv Hr. rewrite (ro_snap _ _ R) in *. destruct (u_snap _); auto. cbn in Hz. congruence.
    + cbn [n_step] in H. apply bind_ok in H. destruct H as ([s e] & H1 & H2). inv H2. cbn [o_ready]. split; [|split; [intros m []|discriminate]].
      constructor; auto. cbn. destruct D as [_ D2 _ _ _ _ _ _ _]. apply storage_ok_abs in D2. destruct D2 as (W & _).
      pose proof (ms_compact_abs (node_storage n) i W) as HC. destruct (_ <=? _); [rewrite HC in H1; inv H1; auto|].
      destruct (_ <? _); [destruct HC as [w HC]; congruence|]. destruct HC as (s' & t & C1 & _ & _ & C4 & _). rewrite C1 in H1. inv H1. rewrite C4. auto.
    + cbn [n_step] in H. apply bind_ok in H. destruct H as ([s e] & H1 & H2). inv H2. cbn [o_ready no_out]. split; [|split; [intros m []|discriminate]].
      constructor; auto. cbn. unfold ms_create_snapshot in H1. destruct (_ <=? _); [inv H1; auto|]. destruct (_ <? i); [discriminate|].
      destruct (_ <? _); [discriminate|]. destruct (nnth _ _); inv H1; auto. cbn. apply Hg. auto.
Qed.

(** A node just created has the snapshot of its storage and nothing else. *)
Lemma new_sgood c s tape n : c_storage c = Some s -> rn_new c tape = Ok n -> G (ms_snap s) -> sgood (rn_raft n).
Proof.
  intros Hs H Hg. apply rn_new_spec in H. destruct H as (r & Hr & ->). apply raft_new_spec in Hr.
  destruct Hr as (s' & cp & _ & Hs' & _ & _ & _ & _ & F). assert (s' = s) by congruence. subst s'. cbn [rn_raft].
  constructor; rewrite ?(fr_log _ _ _ _ F), ?(fr_msgs _ _ _ _ F); cbn; auto; [discriminate|intros m []].
Qed.
End SnapSource.

Lemma sgood_mono {E : Env} (G G' : snapshot -> Prop) r : (forall s, G s -> G' s) -> sgood G r -> sgood G' r.
Proof. intros H []. constructor; auto. Qed.

Section Applied.
Context {E : Env}.
(** The applied index moves only when a Ready is handled. *)
Lemma n_step_applied o n n' out : nop_ok o n -> dinv n -> n_step o n = Ok (n', out) ->
  match o_ready out with
  | None => node_applied n' = node_applied n
  | Some rd => o = NHandle /\ hspec n n' rd
  end.
Proof.
  intros Hok D H. destruct (plain_dec o) as [Hp|Hp].
  - destruct (n_step_nprs _ _ _ _ Hp Hok H) as (A & _ & _ & Ho). rewrite Ho. destruct (nprs_ninv _ _ A (di_ninv _ D)) as [_ K]. apply (lk_app _ _ K).
  - destruct (n_step_dinv o n n' out Hok H D) as [D' X].
    destruct o; cbn in Hp; try tauto; destruct Hok as [Hw Hok]; try tauto.
    + destruct X as (rd & -> & Hh). cbn [o_ready]. auto.
    + cbn [n_step] in H. apply bind_ok in H. destruct H as ([s e] & H1 & H2). inv H2. reflexivity.
    + cbn [n_step] in H. apply bind_ok in H. destruct H as ([s e] & H1 & H2). inv H2. reflexivity.
Qed.
Lemma new_applied c s tape n : c_storage c = Some s -> storage_ok s -> rn_new c tape = Ok n ->
  node_applied n = N.max (c_applied c) (ms_first_index s - 1) /\ node_applied n <= hs_commit (restart_hs s).
Proof.
  intros Hs Hok Hn. destruct (dinv_new _ _ _ _ Hs Hok Hn) as (D & _ & Es). split.
  - apply rn_new_spec in Hn. destruct Hn as (r & Hn & ->). apply raft_new_spec in Hn.
    destruct Hn as (s' & cp & _ & Hs' & _ & _ & _ & Ha & F). assert (s' = s) by congruence. subst s'.
    unfold node_applied; cbn. rewrite (fr_log _ _ _ _ F). cbn. destruct (N.ltb_spec 0 (c_applied c)); lia.
  - pose proof (di_app _ D) as X. rewrite (di_hs _ D), Es in X. exact X.
Qed.
End Applied.
