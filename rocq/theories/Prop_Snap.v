(** Snapshot installation (C46). *)
From Coq Require Import Permutation.
From Verif Require Import Prelude Types M_Util M_Quorum M_Inflights M_Progress M_Tracker.
From Verif Require Import M_Storage M_Unstable M_Log M_ReadOnly M_ConfPb M_ConfChange M_Raft M_RawNode.
From Verif Require Import P_Inflights Spec_Log P_Lists P_Storage P_Log Spec_Storage Sys_Storage P_StorageSeq Spec_RaftLog Sys_RaftLog P_RaftLogSeq.
From Verif Require Import Spec_ConfChange P_Frame P_Prim Sys_Node Sys_ConfChange P_Node P_Fields P_Vote Spec_Node P_Persist P_New P_Time P_NodeLog P_Handle P_NodeRun.
From Verif Require Import Prop_Vote Prop_Deliver Prop_ConfPb Spec_Snap Ex_Env Ex_Node Ex_Check Ex_Case.

Section Props.
Context {E : Env}.

Definition self_in (r : raft) (s : snapshot) : bool :=
  smem (r_id r) (cs_voters (sn_conf s)) || smem (r_id r) (cs_learners (sn_conf s))
  || smem (r_id r) (cs_outgoing (sn_conf s)).

Lemma restore_cases s r r1 b : r_state r = RFollower -> lwf (r_log r) -> raft_restore s r = Ok (r1, b) ->
  r_state r1 = RFollower /\ r_term r1 = r_term r /\ r_msgs r1 = r_msgs r /\ r_cfg r1 = r_cfg r /\
  ((b = false /\ (sn_index s <= l_committed (r_log r) \/ self_in r s = false) /\ r_log r1 = r_log r /\ r_trk r1 = r_trk r) \/
   (l_committed (r_log r) < sn_index s /\ self_in r s = true /\
    ((b = false /\ a_term0 (log_abs (r_log r)) (sn_index s) = sn_term s /\
      r_log r1 = set_l_committed (sn_index s) (r_log r) /\ r_trk r1 = r_trk r) \/
     (b = true /\ a_term0 (log_abs (r_log r)) (sn_index s) <> sn_term s /\
      r_log r1 = log_restore s (r_log r) /\
      exists cs', confstate_eqb (sn_conf s) cs' = true /\ cs' = trk_confstate (r_trk r1))))).
Proof.
  intros Hf W H. destruct b.
  - pose proof (restore_fields _ _ _ Hf H) as (F1 & F2 & F3 & F4 & F5 & F6 & F7). repeat (split; [auto; fail|]).
    apply restore_inv in H; auto. destruct H as (A1 & A2 & A3 & cp & pr & pr' & b & A4 & A5 & A6 & A7 & ->).
    right. split; [exact A1|]. split; [exact A2|]. right. split; [auto|]. rewrite log_match_term_abs in A3 by (apply lwf_0; auto).
    split; [apply Ok_inj in A3; destruct (N.eqb_spec (a_term0 (log_abs (r_log r)) (sn_index s)) (sn_term s)); [discriminate|auto]|].
    split; [exact F4|]. eexists. split; [exact A5|reflexivity].
  - unfold raft_restore in H. destruct (N.leb_spec (sn_index s) (l_committed (r_log r))) as [Hc|Hc].
    { apply Ok_inj, pair_equal_spec in H. destruct H as [<- _]. repeat (split; [auto; fail|]). left; auto. }
    rewrite Hf in H. cbn [role_eqb negb] in H. fold (self_in r s) in H. destruct (self_in r s) eqn:Hs; cbn [negb] in H.
    2:{ apply Ok_inj, pair_equal_spec in H. destruct H as [<- _]. repeat (split; [auto; fail|]). left; auto. }
    rewrite log_match_term_abs in H by (apply lwf_0; auto). cbn [bind] in H.
    destruct (N.eqb_spec (a_term0 (log_abs (r_log r)) (sn_index s)) (sn_term s)) as [Ht|Ht].
    + apply bind_ok in H. destruct H as (l & Hl & H). apply Ok_inj, pair_equal_spec in H. destruct H as [<- _].
      pose proof (log_commit_to_abs (sn_index s) _ W) as G. destruct (_ <? sn_index s).
      { destruct G as [w G]. rewrite G in Hl. discriminate. }
      destruct G as [G _]. rewrite G in Hl. apply Ok_inj in Hl. subst l. rewrite N.max_r by lia.
      repeat (split; [auto; fail|]). right. repeat (split; [auto; fail|]). left. auto.
    + exfalso. match type of H with context [cc_restore ?x ?y] => destruct (cc_restore x y) as [cp|] end; [|discriminate].
      apply bind_ok in H. destruct H as ([r2 cs2] & _ & H). match type of H with context [confstate_eqb ?x ?y] => destruct (confstate_eqb x y) end; cbn [negb] in H; [|discriminate].
      match type of H with context [trk_get ?x ?y] => destruct (trk_get x y) end; [|discriminate].
      match type of H with context [pr_maybe_update ?x ?y] => destruct (pr_maybe_update x y) end. discriminate.
Qed.

Lemma eqb_describes cs t : confstate_eqb cs (trk_confstate t) = true -> describes cs (t_config t).
Proof.
  intros H. apply C24_confstate_eq in H. destruct H as (H1 & H2 & H3 & H4 & H5). cbn in *.
  assert (P : forall a b : list N, Permutation a b -> same_set a b).
  { intros a b Hp x. split; apply Permutation_in; auto using Permutation_sym. }
  unfold describes. auto 10.
Qed.

(** What the receiver's raft state must be for HandleSnapshot to run. *)
Lemma snap_step m r r' e : m_type m = MsgSnap -> m_term m <> 0 -> step m r = Ok (r', e) ->
  (r' = r /\ (m_term m < r_term r \/ (m_term m = r_term r /\ r_state r = RLeader))) \/
  (r_term r <= m_term m /\ ~ (m_term m = r_term r /\ r_state r = RLeader) /\
   exists r0, r_state r0 = RFollower /\ r_log r0 = r_log r /\ r_term r0 = m_term m /\ r_cfg r0 = r_cfg r /\ r_msgs r0 = r_msgs r /\
     t_config (r_trk r0) = t_config (r_trk r) /\
     handle_snapshot m r0 = Ok r').
Proof.
  intros Ht Hz H. unfold step in H. destruct (N.eqb_spec (m_term m) 0); [lia|].
  destruct (N.ltb_spec (r_term r) (m_term m)).
  - rewrite Ht in H. cbn [mtype_eqb orb andb] in H. right. split; [lia|]. split; [lia|].
    hide (become_follower (m_term m) (m_from m) r) r1 E1. destruct (become_follower_fields _ _ _ _ E1) as (A1&A2&A3&A4&A5&A6&A7&A8&A9&A10&A11). clear E1.
    unfold step_dispatch in H. rewrite Ht, A5 in H. unfold step_follower in H. rewrite Ht in H. unfold okr in H.
    apply bind_ok in H. destruct H as (r2 & H & Hx). apply Ok_inj, pair_equal_spec in Hx. destruct Hx as [<- _].
    eexists. split; [|split; [|split; [|split; [|split; [|split; [|exact H]]]]]]; cbn; auto.
  - destruct (N.ltb_spec (m_term m) (r_term r)).
    + rewrite Ht in H. cbn [mtype_eqb orb andb] in H. rewrite andb_false_r in H. apply Ok_inj, pair_equal_spec in H. destruct H as [<- _]. left. auto.
    + assert (m_term m = r_term r) as Hm by lia. unfold step_dispatch in H. rewrite Ht in H. destruct (r_state r) eqn:Hs.
      * right. split; [lia|]. split; [intros [_ X]; discriminate|]. unfold step_follower in H. rewrite Ht in H. unfold okr in H.
        apply bind_ok in H. destruct H as (r2 & H & Hx). apply Ok_inj, pair_equal_spec in Hx. destruct Hx as [<- _].
        eexists. split; [|split; [|split; [|split; [|split; [|split; [|exact H]]]]]]; cbn; auto.
      * right. split; [lia|]. split; [intros [_ X]; discriminate|]. unfold step_candidate in H. rewrite Ht in H. unfold okr in H.
        hide (become_follower (m_term m) (m_from m) r) r1 E1. destruct (become_follower_fields _ _ _ _ E1) as (A1&A2&A3&A4&A5&A6&A7&A8&A9&A10&A11). clear E1.
        apply bind_ok in H. destruct H as (r2 & H & Hx). apply Ok_inj, pair_equal_spec in Hx. destruct Hx as [<- _].
        exists r1. repeat split; auto.
      * left. unfold step_leader in H. rewrite Ht in H. destruct (trk_get (m_from m) (r_trk r)); apply Ok_inj, pair_equal_spec in H; destruct H as [<- _]; auto.
      * right. split; [lia|]. split; [intros [_ X]; discriminate|]. unfold step_candidate in H. rewrite Ht in H. unfold okr in H.
        hide (become_follower (m_term m) (m_from m) r) r1 E1. destruct (become_follower_fields _ _ _ _ E1) as (A1&A2&A3&A4&A5&A6&A7&A8&A9&A10&A11). clear E1.
        apply bind_ok in H. destruct H as (r2 & H & Hx). apply Ok_inj, pair_equal_spec in Hx. destruct Hx as [<- _].
        exists r1. repeat split; auto.
Qed.

Lemma self_in_spec n s : self_in (rn_raft n) s = true <->
  In (node_id n) (cs_voters (sn_conf s)) \/ In (node_id n) (cs_learners (sn_conf s)) \/ In (node_id n) (cs_outgoing (sn_conf s)).
Proof. unfold self_in. rewrite !orb_true_iff, !smem_In. unfold node_id. cbn [rn_status ns_id]. tauto. Qed.
Lemma has_last_abs n s : dinv n -> node_commit n < sn_index s -> 0 < sn_term s ->
  (has_last_of n s <-> a_term0 (log_abs (r_log (rn_raft n))) (sn_index s) = sn_term s).
Proof.
  intros D Hc Ht. unfold has_last_of. pose proof (li_wf _ (ni_log _ (di_ninv _ D))) as W. pose proof (lwf_com _ W) as Hcom.
  unfold node_commit, node_hard in Hc. cbn in Hc.
  assert (Hq : a_term0 (log_abs (r_log (rn_raft n))) (sn_index s) = match a_entry (log_abs (r_log (rn_raft n))) (sn_index s) with Some e => e_term e | None => 0 end).
  { unfold a_term0, a_term. destruct (N.eqb_spec (sn_index s) (a_base (log_abs (r_log (rn_raft n))))); [lia|].
    destruct (a_entry _ _); auto. }
  rewrite Hq. split.
  - intros (e & He & Hx). rewrite holds_abs in He by auto. rewrite He. exact Hx.
  - destruct (a_entry _ _) as [e|] eqn:He; [|lia]. intros Hx. exists e. rewrite holds_abs by auto. auto.
Qed.
(** C46.  A snapshot message from an old term, or from the term this node leads, changes nothing.
    Otherwise the node follows in the message's term, and: a snapshot of no use leaves the log, the
    commit index and the configuration; a useful one whose last entry the log has only moves the
    commit index up to it; any other is installed.  The answer reports the commit index. *)
Theorem C46_snapshot n m n' out :
  node_at n -> nop_ok (NStep m) n -> m_type m = MsgSnap -> n_step (NStep m) n = Ok (n', out) ->
  let s := m_snap m in
  (~ listens n m -> n' = n) /\
  (listens n m ->
     node_role n' = RFollower /\ node_term n' = m_term m /\
     (~ useful n s -> same_log n n' /\ node_commit n' = node_commit n /\ node_config n' = node_config n) /\
     (useful n s -> has_last_of n s ->
        same_log n n' /\ node_commit n' = sn_index s /\ node_config n' = node_config n) /\
     (useful n s -> ~ has_last_of n s -> installed n' s) /\
     exists a, pending n' = pending n ++ [a] /\ m_type a = MsgAppResp /\ m_to a = m_from m /\
               m_reject a = false /\ m_index a = node_commit n') /\
  node_commit n <= node_commit n'.
Proof.
  intros Ha Hok Ht H s. pose proof (node_at_dinv _ Ha) as D. pose proof (proj1 (n_step_dinv _ _ _ _ Hok H D)) as D'.
  destruct Hok as [Hwf [_ Hlw]]. destruct Hwf as [Hfr Hz]. specialize (Hlw Ht). fold s in Hlw.
  cbn [n_step] in H. apply bind_ok in H. destruct H as ([n1 e1] & H & Hx). apply Ok_inj, pair_equal_spec in Hx. destruct Hx as [<- _].
  unfold rn_step in H. rewrite Ht in H. cbn [is_local_msg is_response_msg negb] in H. rewrite orb_true_r in H.
  unfold rn_raft_step in H. apply bind_ok in H. destruct H as ([r1 e2] & H & Hx). apply Ok_inj, pair_equal_spec in Hx. destruct Hx as [<- _].
  assert (Hm0 : m_term m <> 0) by (intros X; apply Hz in X; rewrite Ht in X; destruct X as [X|[X|X]]; discriminate).
  apply snap_step in H; auto. destruct H as [(-> & H)|(L1 & L2 & r0 & B1 & B2 & B3 & B4 & B5 & B6 & H)].
  { assert (set_rn_raft (rn_raft n) n = n) as -> by (destruct n; reflexivity). split; [auto|]. split; [|lia].
    intros [X1 X2]. unfold node_term, node_hard in X1. cbn in X1. exfalso. destruct H as [H|[H1 H2]]; [lia|]. apply X2. split; [exact H1|exact H2]. }
  split; [intros X; exfalso; apply X; split; auto|].
  unfold handle_snapshot in H. apply bind_ok in H. destruct H as ([r2 b] & Hr & H). apply send_ok in H. destruct H as [-> _].
  pose proof (li_wf _ (ni_log _ (di_ninv _ D))) as W. pose proof (lwf_com _ W) as Wc. pose proof (lwf_app _ W) as Wa.
  apply restore_cases in Hr; [|auto|rewrite B2; auto]. destruct Hr as (C1 & C2 & C3 & C4 & C5). rewrite B2 in C5. fold s in C5.
  assert (Cs : self_in r0 s = self_in (rn_raft n) s) by (unfold self_in, r_id; rewrite B4; reflexivity). rewrite Cs in C5.
  set (n' := set_rn_raft _ n) in *.
  assert (N1 : rn_raft n' = emit (outm r2 (set_m_index (if b then r_last r2 else l_committed (r_log r2)) (set_m_to (m_from m) (new_msg MsgAppResp)))) r2) by reflexivity.
  assert (N2 : r_log (rn_raft n') = r_log r2) by (rewrite N1; reflexivity).
  assert (N3 : node_config n' = t_config (r_trk r2)) by reflexivity.
  assert (N4 : node_config n = t_config (r_trk (rn_raft n))) by reflexivity.
  assert (N5 : pending n' = pending n ++ [outm r2 (set_m_index (if b then r_last r2 else l_committed (r_log r2)) (set_m_to (m_from m) (new_msg MsgAppResp)))]).
  { unfold pending. rewrite N1. unfold emit. cbn [r_msgs set_r_msgs]. rewrite C3, B5. reflexivity. }
  assert (N6 : node_commit n' = l_committed (r_log r2)) by reflexivity.
  assert (N7 : node_commit n = l_committed (r_log (rn_raft n))) by reflexivity.
  assert (SL : log_abs (r_log r2) = log_abs (r_log (rn_raft n)) -> same_log n n').
  { intros Q. unfold same_log, node_first, node_last. rewrite !log_last_abs by (apply lwf_0; first [exact (li_wf _ (ni_log _ (di_ninv _ D)))|exact (li_wf _ (ni_log _ (di_ninv _ D')))]). rewrite !log_first_abs, N2, Q.
    split; [auto|]. split; [auto|]. intros i e. rewrite !holds_abs by auto. rewrite N2, Q. tauto. }
  assert (C1' : node_role n' = RFollower) by exact C1.
  assert (C2' : node_term n' = m_term m) by (transitivity (r_term r2); [reflexivity|congruence]).
  clearbody n'. clear N1.
  destruct C5 as [(Eb & C5 & C6 & C7)|(C5 & C6 & [(Eb & C7 & C8 & C9)|(Eb & C7 & C8 & cs' & C9 & C10)])]; subst b.
  - split; [|rewrite N6, N7, C6; lia]. intros _. split; [exact C1'|]. split; [exact C2'|].
    assert (U : ~ useful n s) by (intros [U1 U2]; rewrite N7 in U1; apply self_in_spec in U2; destruct C5 as [C5|C5]; [lia|congruence]).
    split; [|split; [intros X; contradiction|split; [intros X; contradiction|]]].
    + intros _. split; [apply SL; congruence|]. split; [rewrite N6, N7, C6; auto|]. rewrite N3, N4, C7. exact B6.
    + eexists. split; [exact N5|]. rewrite N6. clear. unfold outm. cbn. auto.
  - split; [|rewrite N6, N7, C8; cbn; lia]. intros _. split; [exact C1'|]. split; [exact C2'|].
    assert (U : useful n s) by (split; [exact C5|apply self_in_spec; exact C6]).
    assert (T : 0 < sn_term s) by (apply Hlw; lia).
    split; [intros X; contradiction|]. split; [|split].
    + intros _ _. split; [apply SL; rewrite C8; apply log_abs_committed|]. split; [rewrite N6, C8; reflexivity|]. rewrite N3, N4, C9. exact B6.
    + intros _ X. exfalso. apply X. apply has_last_abs; auto.
    + eexists. split; [exact N5|]. rewrite N6. clear. unfold outm. cbn. auto.
  - split; [|rewrite N6, N7, C8; cbn; lia]. intros _. split; [exact C1'|]. split; [exact C2'|].
    assert (U : useful n s) by (split; [exact C5|apply self_in_spec; exact C6]).
    assert (T : 0 < sn_term s) by (apply Hlw; lia).
    split; [intros X; contradiction|]. split; [|split].
    + intros _ X. exfalso. apply has_last_abs in X; auto.
    + intros _ _. destruct (log_restore_abs s _ W) as [R1 R2]; [lia|]. unfold installed, node_first, node_last.
      rewrite log_last_abs by (apply lwf_0; exact (li_wf _ (ni_log _ (di_ninv _ D')))). rewrite log_first_abs, N2, C8, R2.
      split; [reflexivity|]. split; [unfold a_last; cbn; nl; lia|]. split; [rewrite N6, C8; reflexivity|]. split; [|split].
      * intros i e. rewrite holds_abs by auto. rewrite N2, C8, R2. unfold a_entry. cbn [a_base a_ents]. destruct (_ <? _); [|discriminate].
        unfold nnth. destruct (N.to_nat _); discriminate.
      * rewrite N3. apply eqb_describes. subst cs'. exact C9.
      * intros rd Hrd. unfold new_ready in Hrd. apply bind_ok in Hrd. destruct Hrd as (c & _ & Hrd). apply Ok_inj in Hrd. subst rd. cbn [rd_snap].
        rewrite N2, C8. reflexivity.
    + eexists. split; [exact N5|]. rewrite N6, C8. unfold outm. cbn. repeat (split; [reflexivity|]).
      unfold r_last. rewrite C8. reflexivity.
Qed.
End Props.

(** Concrete cases: an installed snapshot, one already in the log, one too old, one without us. *)
Definition ex_snap (i t : N) (cs : confstate) : msg := set_m_snap (mkSnapshot i t cs "state") (set_m_term 4 (set_m_from 2 (set_m_to 1 (new_msg MsgSnap)))).
Definition ex_snap_case (m : msg) (first last commit : N) : Prop :=
  exists n n' out, @node_at ex_env n /\ nop_ok (NStep m) n /\ @n_step ex_env (NStep m) n = Ok (n', out) /\
    ((node_first n =? 6) && (node_last n =? 7) && (node_commit n =? 6) &&
     (node_first n' =? first) && (node_last n' =? last) && (node_commit n' =? commit)) = true.
Example C46_example_installed : ex_snap_case (ex_snap 20 4 ex_conf) 21 20 20.
Proof. apply (case_ok (ex_cfg 1) ex_tape [] _ _). vm_compute. reflexivity. Qed.
Example C46_example_matching : ex_snap_case (ex_snap 7 2 ex_conf) 6 7 7.
Proof. apply (case_ok (ex_cfg 1) ex_tape [] _ _). vm_compute. reflexivity. Qed.
Example C46_example_conflicting : ex_snap_case (ex_snap 7 3 ex_conf) 8 7 7.
Proof. apply (case_ok (ex_cfg 1) ex_tape [] _ _). vm_compute. reflexivity. Qed.
Example C46_example_old : ex_snap_case (ex_snap 6 1 ex_conf) 6 7 6.
Proof. apply (case_ok (ex_cfg 1) ex_tape [] _ _). vm_compute. reflexivity. Qed.
Example C46_example_foreign : ex_snap_case (ex_snap 20 4 (mkConfState [2;3] [] [] [] false)) 6 7 6.
Proof. apply (case_ok (ex_cfg 1) ex_tape [] _ _). vm_compute. reflexivity. Qed.
