(** The calls of a node: which ones return, and that what makes them return is kept. *)
From Verif Require Import Prelude Types M_Util M_Quorum M_Inflights M_Progress M_Tracker.
From Verif Require Import M_Storage M_Unstable M_Log M_ReadOnly M_ConfPb M_ConfChange M_Raft M_RawNode.
From Verif Require Import Spec_Inflights P_Inflights Spec_ReadOnly P_ReadOnly Spec_Log P_Lists P_Storage P_Log P_Quorum P_Frame P_Prim.
From Verif Require Import Spec_ConfChange P_ConfChange P_Conf P_Fields P_Vote P_RaftLogSeq P_New P_NodeLog P_Handle P_NodeRun P_Emit P_FlowRun P_Read P_ReadQ Sys_Node Prop_Api R_Elig P_Total P_Total2 Spec_Total P_Total3 P_Total4 P_Total5.
From Verif Require Import Sys_ConfChange R_Switch R_Own.

Section Total6.
Context {E : Env}.

Definition op_good (o : nop) (n : rawnode) : Prop :=
  match o with
  | NReady | NAdvance | NStorage _ => False
  | NProposeCC cc => cc_decodable cc
  | NApplyCC cc => 1 <= r_last (rn_raft n) /\ exists v2 cp, cci_as_v2 cc = Ok v2 /\ leave_joint v2 = false /\ enter_joint v2 = (false, false) /\
      ch_simple (c2_changes v2) (mkChanger (r_trk (rn_raft n)) (r_last (rn_raft n))) = SOk cp
  | NStep m => mgood (rn_raft n) m /\ wf_in m
  | NCompact i => i <= l_applied (r_log (rn_raft n)) /\ sn_index (ms_snap (node_storage n)) <> 0
  | NCreateSnapshot i c _ => i <= l_applied (r_log (rn_raft n)) /\
      (i <= sn_index (ms_snap (node_storage n)) \/ e_index (ms_dummy (node_storage n)) <= i) /\
      match c with Some c => conf_ok c | None => True end
  | _ => True
  end.

Lemma wf_local m : m_term m = 0 -> local_type (m_type m) = true -> wf_in m.
Proof. intros _ X _. exact X. Qed.
Lemma raft_step_total m n : live (rn_raft n) -> mgood (rn_raft n) m -> wf_in m -> total (rn_raft_step m n).
Proof. intros L G W. unfold rn_raft_step. destruct (step_total m (rn_raft n) L G W) as [[r e] ->]. apply total_ok. Qed.
Lemma marshal_good cc : cc_decodable cc -> exists t d, cci_marshal cc = Ok (t, d) /\ decodable (mkEntry 0 0 t d).
Proof.
  intros H. destruct cc as [|c|c]; cbn in H; try contradiction; cbn [cci_marshal].
  all: do 2 eexists; split; [reflexivity|]. all: exact H.
Qed.
Lemma dinv_applied n : dinv n -> l_applied (r_log (rn_raft n)) <= ms_last_index (node_storage n).
Proof. intros D. pose proof (di_app _ D) as H. rewrite (di_hs _ D) in H. pose proof (so_com _ (di_st _ D)). lia. Qed.

Lemma switched_prok op cp b r : cc_call op (mkChanger (r_trk r) (r_last r)) = Ok (SOk cp) -> prok r -> 0 < t_max_inflight (r_trk r) -> 1 <= r_last r ->
  prok (switched_to cp b r).
Proof.
  intros H P K L id p Hp. apply call_ev in H. unfold trk_get in Hp. cbn in Hp. destruct (H id p Hp) as [(q & x & Q1 & ->)|[x ->]].
  - exact (P _ _ Q1).
  - apply pok_new; auto.
Qed.
Lemma switch_total op cp r : cc_call op (mkChanger (r_trk r) (r_last r)) = Ok (SOk cp) -> ninv r -> sok r -> 0 < t_max_inflight (r_trk r) -> 1 <= r_last r ->
  total (switch_to_config cp r).
Proof.
  intros H N [S1 S2 S3] K L. pose proof (fun b => switched_prok op cp b r H S2 K L) as P.
  unfold switch_to_config. cbv zeta.
  match goal with |- context[set_r_learner ?b ?x] => set (b1 := b); change (set_r_learner b1 x) with (switched_to cp b1 r) end.
  specialize (P b1).
  assert (S : sok (switched_to cp b1 r)) by (constructor; [exact S1|exact P|exact S3]).
  assert (T : r_state (switched_to cp b1 r) = RLeader -> 0 < r_term (switched_to cp b1 r)) by (intros X; apply (ni_term _ N); auto).
  set (r1 := switched_to cp b1 r) in *. clearbody r1. clear - S T.
  destruct (_ && is_leader r1); [apply total_ok|]. destruct (negb (is_leader r1) || _) eqn:Hl; [apply total_ok|].
  assert (L1 : r_state r1 = RLeader) by (unfold is_leader in Hl; destruct (r_state r1); cbn in Hl; try discriminate; auto).
  apply total_bind; [|intros; apply total_ok]. unfold switch_leader.
  destruct (maybe_commit_total r1 (sk_wf _ S) (T L1)) as [A B]. apply total_bind; [exact A|]. intros [r2 cm] H2.
  destruct (B _ _ H2) as (c & _ & E2 & W2).
  assert (Sk : sok r2) by (rewrite E2; destruct S as [? X Y]; constructor; [exact W2|exact X|exact Y]).
  apply total_bind; [|intros r3 _; destruct (_ && _); apply total_ok].
  destruct cm; [apply bcast_append_total; auto|].
  apply total_mfold with (P := fun s => sok s /\ forall id, In id (keys (t_progress (r_trk r2))) -> trk_get id (r_trk s) <> None).
  - intros a s Ha [X1 X2]. apply total_bind; [apply msa_total; auto|]. intros [x y] _. apply total_ok.
  - intros a s s' Ha [X1 X2] Hs. apply bind_ok in Hs. destruct Hs as ([x y] & Hs & Hx). apply Ok_inj in Hx. subst x.
    apply maybe_send_append_sends in Hs. split; [eapply sends_sok; eauto|]. intros id Hid. eapply sends_tracked; eauto.
  - split; auto. intros id Hid. unfold trk_get. apply mget_key. exact Hid.
Qed.
Theorem n_step_total o n : dinv n -> live (rn_raft n) -> op_good o n -> total (n_step o n).
Proof.
  intros D L G. assert (R : forall m {A} (f : rawnode * option err -> res A), mgood (rn_raft n) m -> wf_in m -> (forall x, total (f x)) -> total (bind (rn_raft_step m n) f)).
  { intros m A f H1 H2 H3. apply total_bind; [apply raft_step_total; auto|]. auto. }
  destruct o; cbn [n_step op_good] in *; try contradiction.
  - unfold rn_tick. destruct (tick_total _ L) as [r ->]. apply total_ok.
  - apply total_ok.
  - unfold rn_campaign. apply R; [exact Logic.I|apply wf_local; reflexivity|]. intros [? ?]; apply total_ok.
  - unfold rn_propose. apply R; [|apply wf_local; reflexivity|intros [? ?]; apply total_ok].
    unfold mgood. cbn. split; [auto|]. split; [discriminate|]. repeat constructor.
  - unfold rn_propose_conf_change. destruct (marshal_good _ G) as (t & d & H1 & H2). rewrite H1. cbn [bind].
    apply R; [|apply wf_local; reflexivity|intros [? ?]; apply total_ok]. unfold mgood. cbn. split; [auto|]. split; [discriminate|]. constructor; auto.
  - destruct G as (G1 & v2 & cp & G2 & G3 & G4 & G5). unfold rn_apply_conf_change. rewrite G2. cbn [bind]. unfold raft_apply_conf_change. rewrite G3, G4. cbn [bind]. rewrite G5.
    destruct (switch_total (OpSimple (c2_changes v2)) cp (rn_raft n)) as [[r' c'] ->]; [cbn; rewrite G5; reflexivity|apply L|apply live_sok; auto|apply L|exact G1|].
    apply total_ok.
  - unfold rn_step. destruct G as [G1 G2]. destruct (is_local_msg _); [apply total_ok|]. destruct (_ || _); [|apply total_ok].
    apply R; auto. intros [? ?]; apply total_ok.
  - destruct (handle_total n) as [[n' rd] ->]; [apply D| |apply total_ok].
    intros Hs. apply voter_tracked; [apply L|]. apply (lv_el _ L). congruence.
  - destruct G as [G1 G2]. pose proof (dinv_applied _ D) as A. unfold ms_compact. destruct (N.leb_spec i (e_index (ms_dummy (node_storage n)))); [apply total_ok|].
    destruct (N.ltb_spec (ms_last_index (node_storage n)) i); [lia|]. unfold set_ms_ents.
    destruct (ndrop (i - e_index (ms_dummy (node_storage n))) (ms_ents (node_storage n))) as [|x t] eqn:Hd; [|apply total_ok].
    exfalso. apply (f_equal nlen) in Hd. rewrite nlen_ndrop in Hd. unfold ms_last_index, ms_ents in *. rewrite nlen_cons in Hd. change (nlen (@nil entry)) with 0 in Hd.
    clear -H H0 Hd G1 A. rewrite ?nlen_cons in *. lia.
  - destruct G as (G1 & G2 & G3). pose proof (dinv_applied _ D) as A. unfold ms_create_snapshot.
    destruct (N.leb_spec i (sn_index (ms_snap (node_storage n)))); [apply total_ok|].
    destruct (N.ltb_spec (ms_last_index (node_storage n)) i); [lia|].
    destruct (N.ltb_spec i (e_index (ms_dummy (node_storage n)))); [lia|].
    destruct (nnth (ms_ents (node_storage n)) (i - e_index (ms_dummy (node_storage n)))) eqn:Hn; [apply total_ok|].
    exfalso. revert Hn. apply nnth_in_range. unfold ms_last_index, ms_ents in *. rewrite ?nlen_cons in *. lia.
  - unfold rn_report_unreachable. tb; [|intros; apply total_ok]. apply R; [exact Logic.I|apply wf_local; reflexivity|]. intros [? ?]; apply total_ok.
  - unfold rn_report_snapshot. tb; [|intros; apply total_ok]. apply R; [exact Logic.I|apply wf_local; reflexivity|]. intros [? ?]; apply total_ok.
  - unfold rn_transfer_leader. tb; [|intros; apply total_ok]. apply R; [left; reflexivity|apply wf_local; reflexivity|]. intros [? ?]; apply total_ok.
  - unfold rn_read_index. tb; [|intros; apply total_ok]. apply R; [|apply wf_local; reflexivity|intros [? ?]; apply total_ok].
    unfold mgood. cbn. split; [auto|discriminate].
Qed.

(* ---- preservation ---- *)
Definition op_stat (o : nop) (n : rawnode) : Prop :=
  match o with
  | NReady | NAdvance | NStorage _ => False
  | NApplyCC _ => 1 <= r_last (rn_raft n)
  | NStep m => mstat m
  | NProposeCC cc => cc_decodable cc
  | NCompact i => sn_index (ms_snap (node_storage n)) <> 0
  | NCreateSnapshot i c _ => match c with Some c => conf_ok c | None => True end
  | _ => True
  end.
Lemma call_msg_stat o n im : op_stat o n -> call_msg (r_id (rn_raft n)) o im -> mstat im.
Proof.
  intros G H. destruct o; cbn in G, H; try contradiction; try (subst im; exact Logic.I).
  - destruct H as [_ [H|[H|H]]]; unfold mstat; rewrite H; exact Logic.I.
  - subst im. unfold mstat. cbn. split; auto. split; [discriminate|]. repeat constructor.
  - destruct H as (t & d & H1 & ->). destruct (marshal_good _ G) as (t' & d' & H2 & H3). rewrite H1 in H2. injection H2 as <- <-.
    unfold mstat. cbn. split; auto. split; [discriminate|]. constructor; auto.
  - subst im. exact G.
  - subst im. split; [reflexivity|discriminate].
Qed.
Lemma handle_jok n n' rd : ninv (rn_raft n) -> n_handle n = Ok (n', rd) -> jok (rn_raft n) -> jok (rn_raft n').
Proof.
  intros N H J. apply handle_inv in H; [|apply N|intros; apply (ni_term _ N); auto]. pose proof (hd_raft _ _ _ H) as X. cbv zeta in X.
  destruct X as (st & u & rb & r1 & P & Hb & Hc & Hr & Wb & _).
  assert (B : r_trk rb = r_trk (rn_raft n) /\ l_st (r_log rb) = st /\ r_msgs rb = [] /\ r_term rb = r_term (rn_raft n)) by (rewrite Hb; cbn; auto).
  destruct B as (B1 & B2 & B3 & B4). clear Hb.
  assert (K : prok r1 /\ t_max_inflight (r_trk r1) = t_max_inflight (r_trk (rn_raft n)) /\ l_st (r_log r1) = st /\ r_msgs r1 = []).
  { assert (Pb : prok rb) by (apply (prok_trk (rn_raft n)); auto; apply J).
    destruct Hc as [[-> _]|(Hld & r0 & Ha & -> & _)]; [split; [auto|split; [congruence|auto]]|].
    split; [apply (prok_trk r0); [reflexivity|eapply prok_append; eauto]|].
    pose proof Ha as Ha2. apply append_entry_fields in Ha2. destruct Ha2 as (l0 & p0 & u0 & E0).
    assert (T : t_max_inflight (r_trk r0) = t_max_inflight (r_trk rb) /\ r_msgs r0 = r_msgs rb) by (rewrite E0; auto). destruct T as [T1 T2]. clear E0.
    cbn [r_trk set_r_pending_conf r_log r_msgs]. split; [congruence|]. split; [|congruence].
    apply append_log_w in Ha; [|exact Wb|rewrite B4; apply (ni_term _ N); auto]. cbv zeta in Ha. destruct Ha as (_ & _ & -> & _). exact B2. }
  destruct K as (K1 & K2 & K3 & K4). rewrite Hr. constructor; cbn [r_trk r_log set_r_log l_st set_l_us l_us u_snap r_msgs]; rewrite ?K3, ?K4, ?K2.
  - exact K1.
  - apply J.
  - intros Hz. pose proof (ps_abs _ _ _ P) as Pa. apply (f_equal a_base) in Pa. change (a_base (ms_abs st)) with (e_index (ms_dummy st)) in Pa.
    rewrite (ps_snap _ _ _ P). rewrite Pa in Hz. unfold log_abs in Hz.
    destruct (u_snap (l_us (r_log (rn_raft n)))) as [s|]; [exact Hz|]. apply (jk_cov _ J). exact Hz.
  - rewrite (ps_snap _ _ _ P). destruct (u_snap (l_us (r_log (rn_raft n)))) as [s|] eqn:Hu; [apply (jk_pend _ J); auto|apply J].
  - discriminate.
  - constructor.
Qed.
Lemma set_storage_jok s n : jok (rn_raft n) -> cov s -> conf_ok (sn_conf (ms_snap s)) -> jok (rn_raft (set_storage s n)).
Proof. intros [J1 J2 J3 J4 J5 J6] C K. constructor; auto. Qed.
Lemma n_step_jok o n n' out : dinv n -> nop_ok o n -> op_stat o n -> n_step o n = Ok (n', out) -> jok (rn_raft n) -> jok (rn_raft n').
Proof.
  intros D K G H J. destruct (plain_dec o) as [Hp|Hp].
  - destruct (n_step_qprs _ _ _ _ Hp (proj1 K) H) as (r0 & S & Q). assert (X : ninv r0 /\ jok r0).
    { destruct S as [->|(cc & cp & b & op & -> & Ho & ->)]; [split; [apply D|exact J]|]. cbn in G. split; [apply (ninv_same (rn_raft n)); try reflexivity; apply D|].
      pose proof (switched_prok op cp b (rn_raft n) Ho (jk_prs _ J) (jk_max _ J) G) as P. destruct J as [J1 J2 J3 J4 J5 J6]. constructor; auto. }
    destruct X as [X1 X2]. eapply qprs_jok; [|exact Q|exact X1|exact X2]. intros m Hm. split; [eapply call_msg_log; eauto|eapply call_msg_stat; eauto].
  - destruct o; cbn in G; try contradiction; try (exfalso; apply Hp; exact Logic.I); cbn [n_step] in H.
    + apply bind_ok in H. destruct H as ([n1 rd] & H & Hx). apply Ok_inj in Hx. injection Hx as <- _. eapply handle_jok; eauto. apply D.
    + apply bind_ok in H. destruct H as ([s e] & H & Hx). apply Ok_inj in Hx. injection Hx as <- _.
      assert (X : ms_snap s = ms_snap (node_storage n)).
      { unfold ms_compact in H. destruct (_ <=? _); [apply Ok_inj in H; congruence|]. destruct (_ <? _); [discriminate|].
        apply bind_ok in H. destruct H as (s' & H & Hx). apply Ok_inj in Hx. injection Hx as <- _. unfold set_ms_ents in H. destruct (ndrop _ _); inv H; reflexivity. }
      apply set_storage_jok; auto; [|rewrite X; apply J]. intros _. rewrite X. exact G.
    + apply bind_ok in H. destruct H as ([s e] & H & Hx). apply Ok_inj in Hx. injection Hx as <- _. unfold ms_create_snapshot in H.
      destruct (N.leb_spec i (sn_index (ms_snap (node_storage n)))) as [Hi|Hi]; [apply Ok_inj in H; injection H as <- _; apply set_storage_jok; auto; apply J|].
      destruct (_ <? i); [discriminate|]. destruct (i <? _); [discriminate|]. destruct (nnth _ _); [|discriminate]. apply Ok_inj in H. injection H as <- _.
      apply set_storage_jok; auto; cbn; [intros _; cbn; lia|]. destruct cs; [exact G|apply J].
Qed.

Lemma n_step_rdok o n n' out : nop_wf o -> op_stat o n -> n_step o n = Ok (n', out) -> rdok (rn_raft n) -> rdok (rn_raft n').
Proof.
  intros W G H R. destruct (plain_dec o) as [Hp|Hp].
  - destruct (n_step_rcall _ _ _ _ Hp W H) as (im & l & Ho & Hw & r1 & h & Q & T & B).
    assert (R1 : rdok r1).
    { destruct R as [R1 R2]. constructor; [rewrite (qa_pend _ _ Q); auto|]. destruct (qa_ro _ _ Q) as [[-> _]|[-> _]]; [auto|].
      exists []. apply ro_rel_new. }
    assert (Hh : Forall (fun m => m_entries m <> []) h).
    { destruct T as [->|(-> & Ht & _)]; [constructor|]. constructor; [|constructor].
      destruct o; cbn in Ho; try (destruct Ho as (Ho & _); congruence).
      - subst m. cbn in G. unfold mstat in G. rewrite Ht in G. tauto.
      - subst im. cbn. discriminate. }
    clear H Q T R Ho. revert R1 Hh. induction B as [h r|h r h1 r1 l h2 r2 l' H1 _ IH]; auto. intros R Hh. destruct R as [R1 [q R2]].
    destruct (rb_hand _ _ _ _ _ _ H1) as [A1 A2]. destruct (rb_q _ _ _ _ _ _ _ R2 H1) as (q' & R2' & _). rewrite Forall_forall in R1, Hh. apply IH.
    + constructor; [|exists q'; auto]. rewrite Forall_forall. intros m Hm. destruct (A2 _ Hm) as [X|(_ & X & _)]; auto.
    + rewrite Forall_forall. intros m Hm. destruct (A1 _ Hm) as [X|(X & _)]; auto.
  - apply not_plain_qn in H; auto. destruct H as [H1 H2 _ _ _ _ _ _]. destruct R as [R1 R2]. constructor; [rewrite H2|rewrite H1]; auto.
Qed.
End Total6.
