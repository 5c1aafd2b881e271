(** C51: leadership transfer, on reachable nodes of the RawNode API. *)
From Verif Require Import Prelude Types M_Util M_Quorum M_Inflights M_Progress M_Tracker.
From Verif Require Import M_Storage M_Unstable M_Log M_ReadOnly M_ConfPb M_ConfChange M_Raft M_RawNode.
From Verif Require Import P_Inflights Spec_Log P_Lists P_Log P_Frame P_Prim Sys_Node P_Node P_Fields P_Vote Spec_Node Spec_Prop P_New P_Time P_Handle P_NodeRun P_Emit P_Lead.
From Verif Require Import P_Transfer Prop_Deliver Prop_Msg Prop_Prop Ex_Env Ex_Node Ex_Check Ex_Case.

(** Whom the node is transferring its leadership to (0: nobody), as Status reports it, and the
    highest index [id] has acknowledged to it. *)
Definition transferee (n : rawnode) : N := ns_transferee (rn_status n).
Definition acked_index (n : rawnode) (id : N) : option N := option_map p_match (mget id (ns_progress (rn_status n))).
(** [o] asks for a transfer, locally or on behalf of a peer. *)
Definition asks_transfer (o : nop) : Prop :=
  match o with NTransferLeader _ => True | NStep m => m_type m = MsgTransferLeader | _ => False end.
(** A vote request forged with the node's own id. *)
Definition own_vote (id : N) (o : nop) : Prop :=
  match o with NStep m => m_type m = MsgVote /\ m_from m = id | _ => False end.
Definition tick_count (os : list nop) : N := nlen (filter (fun o => match o with NTick => true | _ => false end) os).

Section T.
Context {E : Env}.

Lemma created_vself c tape n : rn_new c tape = Ok n -> vself (rn_raft n).
Proof.
  intros H. apply rn_new_spec in H. destruct H as (r & H & ->). cbn. apply raft_new_spec in H.
  destruct H as (s & cp & Hv & Hs & _ & _ & _ & _ & F). split.
  - unfold r_id. rewrite (fr_cfg _ _ _ _ F). assert (V : validate c = (fst (validate c), None)) by (rewrite <- Hv; destruct (validate c); reflexivity). apply validate_ok in V. cbn. apply V.
  - rewrite (fr_state _ _ _ _ F). intros [X|X]; discriminate.
Qed.
Lemma node_at_vself n : node_at n -> vself (rn_raft n).
Proof.
  intros (c & tape & s & n0 & os & outs & H1 & H2 & H3 & H4 & H5).
  exact (vself_aprs _ _ (n_run_aprs _ _ _ _ [] (nop_ok_wf _ _ H4 _ _ H5) H5) (created_vself _ _ _ H3)).
Qed.

Definition calm_le (r r' : raft) : Prop :=
  r_state r = RLeader -> r_state r' = RLeader -> r_term r' = r_term r ->
  r_el_elapsed r <= r_el_elapsed r' /\ (r_transferee r' = r_transferee r \/ r_transferee r' = 0).
Lemma calm_weak r r' : calm r r' -> calm_le r r'.
Proof. intros H A B C. destruct (H A B C). split; auto. lia. Qed.

Lemma switch_calm cp r r' cs : switch_to_config cp r = Ok (r', cs) -> calm_le r r'.
Proof.
  unfold switch_to_config. cbv zeta. match goal with |- context [set_r_learner ?a ?b] => set (r0 := set_r_learner a b) end.
  assert (A : r_el_elapsed r0 = r_el_elapsed r /\ r_transferee r0 = r_transferee r) by auto. clearbody r0. destruct A as [A1 A2].
  destruct (_ && _); [intros H; inv H; intros _ _ _; split; auto; lia|]. destruct (_ || _); [intros H; inv H; intros _ _ _; split; auto; lia|]. intros H. apply bind_ok in H. destruct H as (r1 & H & Hx). inv Hx.
  unfold switch_leader in H. apply bind_ok in H. destruct H as ([r1 com] & H1 & H).
  apply raft_maybe_commit_state in H1. destruct H1 as [l ->]. apply bind_ok in H. destruct H as (r2 & H2 & H).
  assert (S : sends (set_r_log l r0) r2).
  { destruct com; [apply bcast_append_sends; auto|]. apply (mfold_inv _ sends) in H2; auto using sends_refl; [intros; eapply sends_trans; eauto|].
    intros a s s' _ Hs. apply bind_ok in Hs. destruct Hs as ([r5 b] & Hs & Hx). inv Hx. eapply maybe_send_append_sends; eauto. }
  assert (B : r_el_elapsed r2 = r_el_elapsed r /\ r_transferee r2 = r_transferee r).
  { rewrite (sm_el _ _ (sd_same _ _ S)), (sm_transferee _ _ (sd_same _ _ S)). auto. }
  destruct B as [B1 B2]. destruct (_ && _) in H; inv H; intros _ _ _; cbn; split; auto; lia.
Qed.

Lemma n_step_tres o n n' out : plain o -> nop_wf o -> vself (rn_raft n) -> n_step o n = Ok (n', out) ->
  (tres (rn_raft n) (rn_raft n') \/ (exists cc, o = NApplyCC cc) /\ adds0 (rn_raft n) (rn_raft n')) /\
  (o <> NTick -> ~ asks_transfer o -> ~ own_vote (r_id (rn_raft n)) o -> calm_le (rn_raft n) (rn_raft n')).
Proof.
  intros Hp Hw V H.
  assert (S : forall m x y, wf_in m -> rn_raft_step m n = Ok (x, y) -> tres (rn_raft n) (rn_raft x) /\
     (m_type m <> MsgTransferLeader -> (m_type m = MsgVote -> m_from m <> r_id (rn_raft n)) -> calm_le (rn_raft n) (rn_raft x))).
  { intros m x y Hwm Hs. unfold rn_raft_step in Hs. apply bind_ok in Hs. destruct Hs as ([r1 e1] & Hs & Hx). inv Hx. cbn.
    apply step_tres in Hs; auto. destruct Hs as [A B]. split; auto. intros C1 C2. apply calm_weak. auto. }
  destruct o; try (destruct Hp; fail); cbn [n_step] in H.
  - apply bind_ok in H. destruct H as (n1 & H & Hx). inv Hx. unfold rn_tick in H. apply bind_ok in H. destruct H as (r1 & H & Hx). inv Hx. cbn.
    split; [left|intros X; congruence]. destruct (r_state (rn_raft n)) eqn:Hs; try (apply tick_other_tres; auto; congruence). apply tick_leader_tres in H; auto. apply H.
  - inv H. split; [left; apply tres_adds, adds_same; reflexivity|]. intros _ _ _ _ _ _. cbn. split; [lia|auto].
  - apply bind_ok in H. destruct H as ([n1 e1] & H & Hx). inv Hx. apply S in H; [|intros _; reflexivity]. destruct H as [A B]. split; auto. intros _ _ _. apply B; discriminate.
  - apply bind_ok in H. destruct H as ([n1 e1] & H & Hx). inv Hx. apply S in H; [|intros _; reflexivity]. destruct H as [A B]. split; auto. intros _ _ _. apply B; discriminate.
  - apply bind_ok in H. destruct H as ([n1 e1] & H & Hx). inv Hx. unfold rn_propose_conf_change in H. apply bind_ok in H. destruct H as ([t d] & _ & H).
    apply S in H; [|intros _; reflexivity]. destruct H as [A B]. split; auto. intros _ _ _. apply B; discriminate.
  - apply bind_ok in H. destruct H as ([n1 e1] & H & Hx). inv Hx. unfold rn_apply_conf_change in H. apply bind_ok in H. destruct H as (c & _ & H).
    apply bind_ok in H. destruct H as ([r1 cs] & H & Hx). inv Hx. cbn. unfold raft_apply_conf_change in H. cbv zeta in H. apply bind_ok in H. destruct H as ([cp|] & _ & H); [|discriminate].
    split; [right; split; [eauto|eapply switch_adds; eauto]|]. intros _ _ _. eapply switch_calm; eauto.
  - apply bind_ok in H. destruct H as ([n1 e1] & H & Hx). inv Hx. unfold rn_step in H. destruct (is_local_msg _); [inv H; split; [left; apply tres_adds, adds_refl|intros _ _ _; apply calm_weak, calm_refl]|].
    destruct (_ || _); [|inv H; split; [left; apply tres_adds, adds_refl|intros _ _ _; apply calm_weak, calm_refl]]. cbn in Hw.
    apply S in H.
    + destruct H as [A B]. split; auto. intros _ C1 C2. cbn in C1, C2. apply B; [exact C1|]. intros D F. apply C2. auto.
    + intros Hz. destruct Hw as [_ Hw]. destruct (Hw Hz) as [Y|[Y|Y]]; rewrite Y; reflexivity.
  - apply bind_ok in H. destruct H as (n1 & H & Hx). inv Hx. unfold rn_report_unreachable in H. apply bind_ok in H. destruct H as ([n2 e2] & H & Hx). inv Hx.
    apply S in H; [|intros _; reflexivity]. destruct H as [A B]. split; auto. intros _ _ _. apply B; discriminate.
  - apply bind_ok in H. destruct H as (n1 & H & Hx). inv Hx. unfold rn_report_snapshot in H. apply bind_ok in H. destruct H as ([n2 e2] & H & Hx). inv Hx.
    apply S in H; [|intros _; reflexivity]. destruct H as [A B]. split; auto. intros _ _ _. apply B; discriminate.
  - apply bind_ok in H. destruct H as (n1 & H & Hx). inv Hx. unfold rn_transfer_leader in H. apply bind_ok in H. destruct H as ([n2 e2] & H & Hx). inv Hx.
    apply S in H; [|intros _; reflexivity]. destruct H as [A B]. split; [left; exact A|cbn; tauto].
  - apply bind_ok in H. destruct H as (n1 & H & Hx). inv Hx. unfold rn_read_index in H. apply bind_ok in H. destruct H as ([n2 e2] & H & Hx). inv Hx.
    apply S in H; [|intros _; reflexivity]. destruct H as [A B]. split; auto. intros _ _ _. apply B; discriminate.
Qed.

(** Apart from ticks, requests and membership changes nothing touches the transfer. *)
Lemma n_step_calm o n n' out : plain o -> nop_wf o -> vself (rn_raft n) -> n_step o n = Ok (n', out) ->
  o <> NTick -> o <> NTickQuiesced -> (forall cc, o <> NApplyCC cc) -> ~ asks_transfer o -> ~ own_vote (r_id (rn_raft n)) o -> calm (rn_raft n) (rn_raft n').
Proof.
  intros Hp Hw V H N1 N2 N3 N4 N5.
  assert (S : forall m x y, wf_in m -> rn_raft_step m n = Ok (x, y) -> m_type m <> MsgTransferLeader -> (m_type m = MsgVote -> m_from m <> r_id (rn_raft n)) -> calm (rn_raft n) (rn_raft x)).
  { intros m x y Hwm Hs. unfold rn_raft_step in Hs. apply bind_ok in Hs. destruct Hs as ([r1 e1] & Hs & Hx). inv Hx. cbn.
    apply step_tres in Hs; auto. apply Hs. }
  destruct o; try (destruct Hp; fail); try congruence; cbn [n_step] in H.
  - apply bind_ok in H. destruct H as ([n1 e1] & H & Hx). inv Hx. apply S in H; [exact H|intros _; reflexivity|discriminate|discriminate].
  - apply bind_ok in H. destruct H as ([n1 e1] & H & Hx). inv Hx. apply S in H; [exact H|intros _; reflexivity|discriminate|discriminate].
  - apply bind_ok in H. destruct H as ([n1 e1] & H & Hx). inv Hx. unfold rn_propose_conf_change in H. apply bind_ok in H. destruct H as ([t d] & _ & H).
    apply S in H; [exact H|intros _; reflexivity|discriminate|discriminate].
  - apply bind_ok in H. destruct H as ([n1 e1] & H & Hx). inv Hx. unfold rn_step in H. destruct (is_local_msg _); [inv H; apply calm_refl|].
    destruct (_ || _); [|inv H; apply calm_refl]. cbn in Hw, N4, N5.
    apply S in H; [exact H| |exact N4|intros D F; apply N5; auto].
    intros Hz. destruct Hw as [_ Hw]. destruct (Hw Hz) as [Y|[Y|Y]]; rewrite Y; reflexivity.
  - apply bind_ok in H. destruct H as (n1 & H & Hx). inv Hx. unfold rn_report_unreachable in H. apply bind_ok in H. destruct H as ([n2 e2] & H & Hx). inv Hx.
    apply S in H; [exact H|intros _; reflexivity|discriminate|discriminate].
  - apply bind_ok in H. destruct H as (n1 & H & Hx). inv Hx. unfold rn_report_snapshot in H. apply bind_ok in H. destruct H as ([n2 e2] & H & Hx). inv Hx.
    apply S in H; [exact H|intros _; reflexivity|discriminate|discriminate].
  - cbn in N4. tauto.
  - apply bind_ok in H. destruct H as (n1 & H & Hx). inv Hx. unfold rn_read_index in H. apply bind_ok in H. destruct H as ([n2 e2] & H & Hx). inv Hx.
    apply S in H; [exact H|intros _; reflexivity|discriminate|discriminate].
Qed.

(** C51: while a transfer is pending, proposals are refused and change nothing. *)
Theorem C51_proposals_dropped n o es n' out :
  node_at n -> nop_ok o n -> node_role n = RLeader -> transferee n <> 0 -> proposes o es -> n_step o n = Ok (n', out) ->
  n' = n /\ o_err out = Some EDropped.
Proof.
  intros Ha Hok Hl Ht Hp H. destruct Hp as [Hc Hz]. change (r_state (rn_raft n) = RLeader) in Hl. change (r_transferee (rn_raft n) <> 0) in Ht.
  assert (S : forall m x e, m_type m = MsgProp -> m_term m = 0 -> rn_raft_step m n = Ok (x, e) -> x = n /\ e = Some EDropped).
  { intros m x e Hty Hm Hs. unfold rn_raft_step in Hs. apply bind_ok in Hs. destruct Hs as ([r1 e1] & Hs & Hx). inv Hx.
    unfold step in Hs. rewrite Hm in Hs. cbn [N.eqb] in Hs. unfold step_dispatch in Hs. rewrite Hty, Hl in Hs.
    unfold step_leader in Hs. rewrite Hty in Hs. unfold leader_prop in Hs. destruct (is_nil _); [discriminate|].
    destruct (trk_get _ _).
    - destruct (N.eqb_spec (r_transferee (rn_raft n)) 0); [congruence|]. cbn [negb] in Hs. inv Hs. split; auto. destruct n; reflexivity.
    - inv Hs. split; auto. destruct n; reflexivity. }
  destruct o; cbn in Hc; try contradiction; cbn [n_step] in H; apply bind_ok in H; destruct H as ([n1 e1] & H & Hx); inv Hx; cbn [o_err].
  - eapply S; [| |exact H]; reflexivity.
  - unfold rn_propose_conf_change in H. apply bind_ok in H. destruct H as ([t d] & _ & H). eapply S; [| |exact H]; reflexivity.
  - destruct Hc as [Hc _]. specialize (Hz m eq_refl). unfold rn_step in H. rewrite Hc in H. cbn [is_local_msg is_response_msg negb] in H.
    rewrite orb_true_r in H. eapply S; eauto.
Qed.

(** C51: MsgTimeoutNow is sent only by a leader, only to the node it is transferring to, and only
    when that node has acknowledged the leader's whole log. *)
Theorem C51_timeout_now n o n' x :
  node_at n -> nop_ok o n -> emits o n n' x -> m_type x = MsgTimeoutNow ->
  node_role n' = RLeader /\ m_from x = node_id n' /\ transferee n' = m_to x /\ acked_index n' (m_to x) = Some (node_last n').
Proof.
  intros Ha Hok Hem Ht. pose proof (node_at_vself _ Ha) as V. destruct (emits_inv _ _ _ _ (proj1 Hok) Hem) as [Hp _].
  destruct Hem as (out & new & H & Hn & Hx). apply n_step_tres in H; auto; [|apply Hok]. destruct H as [[(r1 & (ms & A1 & A2) & HS)|[_ (ms & A1 & A2)]] _].
  2:{ exfalso. unfold pending in Hn. rewrite Hn in A1. apply app_inv_head in A1. subst ms. rewrite Forall_forall in A2. exact (A2 _ Hx Ht). }
  unfold pending in Hn. assert (K : r_state r1 = RLeader /\ sends r1 (rn_raft n') /\ exists ms', r_msgs (rn_raft n') = r_msgs r1 ++ ms' /\ Forall (smsg r1) ms' /\ In x ms').
  { destruct HS as [->|[Hl S]].
    - exfalso. rewrite Hn in A1. apply app_inv_head in A1. subst new. rewrite Forall_forall in A2. exact (proj1 (A2 _ Hx) Ht).
    - split; auto. split; auto. destruct (sd_msgs _ _ S) as (ms' & M1 & M2). exists ms'. split; auto. split; auto.
      rewrite M1, A1, <- app_assoc in Hn. apply app_inv_head in Hn. subst new. apply in_app_or in Hx. destruct Hx as [Hx|Hx]; auto.
      exfalso. rewrite Forall_forall in A2. exact (proj1 (A2 _ Hx) Ht). }
  destruct K as (Hl & S & ms' & _ & M2 & Hi). rewrite Forall_forall in M2. specialize (M2 _ Hi).
  pose proof (sd_same _ _ S) as Sm.
  assert (R' : r_state (rn_raft n') = RLeader) by (rewrite (sm_state _ _ Sm); auto).
  destruct M2 as [| | |to pr M1 M2 M3|]; cbn in Ht; try discriminate. cbn [m_from m_to].
  destruct (prs_same_get _ _ _ _ (sd_prs _ _ S) M2) as (pr' & G1 & G2 & _).
  split; [exact R'|]. split; [unfold node_id, rn_status; cbn; unfold r_id; rewrite (sm_cfg _ _ Sm); auto|].
  split; [unfold transferee, rn_status; cbn; rewrite (sm_transferee _ _ Sm); auto|].
  unfold acked_index, rn_status, is_leader. cbn [ns_progress]. rewrite R'. cbn [role_eqb]. unfold trk_get in G1. rewrite G1. cbn. f_equal.
  unfold node_last, r_last in *. rewrite (sm_log _ _ Sm). congruence.
Qed.

Lemma calm_not_plain o n n' out : ~ plain o -> nop_ok o n -> dinv n -> n_step o n = Ok (n', out) ->
  r_el_elapsed (rn_raft n') = r_el_elapsed (rn_raft n) /\ r_transferee (rn_raft n') = r_transferee (rn_raft n) /\ r_cfg (rn_raft n') = r_cfg (rn_raft n) /\ r_vote (rn_raft n') = r_vote (rn_raft n) /\ r_state (rn_raft n') = r_state (rn_raft n).
Proof.
  intros Hp Hok D H. pose proof (n_step_dinv o n n' out Hok H D) as [_ X].
  destruct o; cbn in Hp; try tauto; destruct Hok as [Hw Hok]; try tauto.
  - destruct X as (rd & _ & [R1 R2 R3 R4 R5 R6 R7 R8 R9 R10 R11]). destruct R11 as [(u & E1 & _)|(Hl & rb & r0 & (u & l & E1 & _) & Ha & E4 & _)].
    + rewrite E1. auto.
    + apply append_entry_fields in Ha. destruct Ha as (l1 & p1 & u1 & ->). rewrite E4. cbn. rewrite E1. auto.
  - cbn [n_step] in H. apply bind_ok in H. destruct H as ([s e] & _ & Hx). inv Hx. auto.
  - cbn [n_step] in H. apply bind_ok in H. destruct H as ([s e] & _ & Hx). inv Hx. auto.
Qed.

Definition k_inv (t k : N) (n : rawnode) : Prop :=
  lost t (rn_raft n) \/
  (r_state (rn_raft n) = RLeader /\ r_term (rn_raft n) = t /\
   (r_transferee (rn_raft n) = 0 \/ (k <= r_el_elapsed (rn_raft n) /\ (k = 0 \/ k < k_el_timeout (r_cfg (rn_raft n)))))).
Lemma k_inv_step t k o n n' out : dinv n -> vself (rn_raft n) -> nop_ok o n -> ~ asks_transfer o -> ~ own_vote (r_id (rn_raft n)) o ->
  n_step o n = Ok (n', out) -> k_inv t k n -> k_inv t (k + tick_count [o]) n'.
Proof.
  intros D V Hok Hna Hno H K.
  assert (HL : (r_state (rn_raft n) = RLeader /\ r_term (rn_raft n) = t) \/ lost t (rn_raft n)) by (destruct K as [K|(K1&K2&_)]; auto).
  destruct (n_step_gfix t o n n' out Hok H D HL) as [(L1 & L2 & L3 & L4 & _)|L]; [|left; auto].
  right. split; auto. split; auto.
  destruct K as [K|(_ & _ & K)]; [exfalso; exact (lost_leader _ _ L1 L2 K)|].
  assert (Hc : r_cfg (rn_raft n') = r_cfg (rn_raft n)).
  { pose proof (n_run_aprs [o] n n' [out] []) as Q. cbn [n_run] in Q. rewrite H in Q. cbn [bind] in Q. specialize (Q (Forall_cons _ (proj1 Hok) (Forall_nil _)) eq_refl).
    exact (proj1 (aprs_tv _ _ Q)). }
  rewrite Hc. assert (T : o = NTick \/ (o <> NTick /\ tick_count [o] = 0)) by (destruct o; auto; right; split; auto; discriminate).
  destruct T as [->|[Tn Tc]].
  - change (tick_count [NTick]) with 1. cbn [n_step] in H. apply bind_ok in H. destruct H as (n1 & H & Hx). inv Hx. unfold rn_tick in H. apply bind_ok in H. destruct H as (r1 & H & Hx). inv Hx. cbn in *.
    apply tick_leader_tres in H; auto. destruct H as [_ H]. destruct (H L3) as [Z|(Z1 & Z2 & Z3)]; [auto|].
    destruct K as [K|[K1 K2]]; [left; congruence|]. right. rewrite Z2. split; [lia|]. right. lia.
  - rewrite Tc, N.add_0_r. destruct (plain_dec o) as [Hp|Hp].
    + apply n_step_tres in H; auto; [|apply Hok]. destruct H as [_ H]. destruct (H Tn Hna Hno L1 L3 ltac:(congruence)) as [H1 H2].
      destruct K as [K|[K1 K2]]; [left; destruct H2; congruence|]. destruct H2 as [H2|H2]; [|auto]. right. split; [lia|auto].
    + destruct (calm_not_plain _ _ _ _ Hp Hok D H) as (B1 & B2 & _). rewrite B1, B2. exact K.
Qed.
Lemma tick_count_cons o os : tick_count (o :: os) = tick_count [o] + tick_count os.
Proof. unfold tick_count. cbn. destruct o; cbn; rewrite ?nlen_cons; nl; lia. Qed.
Lemma k_inv_run t os : forall n n' outs k, dinv n -> vself (rn_raft n) -> n_run_ok os n -> n_run os n = Ok (n', outs) ->
  (forall o, In o os -> ~ asks_transfer o /\ ~ own_vote (r_id (rn_raft n)) o) -> k_inv t k n -> k_inv t (k + tick_count os) n'.
Proof.
  induction os as [|o os IH]; intros n n' outs k D V Hok H Ho K; cbn [n_run] in H.
  - inv H. unfold tick_count. cbn. change (nlen (@nil nop)) with 0. rewrite N.add_0_r. auto.
  - apply bind_ok in H. destruct H as ([n1 out] & H1 & H). apply bind_ok in H. destruct H as ([n2 outs2] & H2 & H). inv H.
    cbn [n_run_ok] in Hok. rewrite H1 in Hok. destruct Hok as [Ok1 Ok2]. destruct (Ho o (or_introl eq_refl)) as [O1 O2].
    assert (Q : aprs ([], rn_raft n) ([] ++ sent [out], rn_raft n1)).
    { apply (n_run_aprs [o]); [constructor; [apply Ok1|constructor]|]. cbn [n_run]. rewrite H1. reflexivity. }
    rewrite tick_count_cons, N.add_assoc.
    refine (IH n1 n' outs2 (k + tick_count [o]) (proj1 (n_step_dinv _ _ _ _ Ok1 H1 D)) (vself_aprs _ _ Q V) Ok2 H2 _ (k_inv_step _ _ _ _ _ _ D V Ok1 O1 O2 H1 K)).
    intros o' Ho'. replace (r_id (rn_raft n1)) with (r_id (rn_raft n)) by (unfold r_id; f_equal; symmetry; exact (proj1 (aprs_tv _ _ Q))). apply Ho. right; auto.
Qed.

(** C51: a transfer does not outlive an election timeout: after that many ticks without a new
    request the node has either stopped leading the term or forgotten the transfer. *)
Theorem C51_aborted c tape s n0 os0 outs0 n os n' outs :
  c_storage c = Some s -> storage_ok s -> rn_new c tape = Ok n0 -> n_run_ok os0 n0 -> n_run os0 n0 = Ok (n, outs0) ->
  node_role n = RLeader ->
  n_run_ok os n -> n_run os n = Ok (n', outs) -> Z.to_N (c_election_tick c) <= tick_count os ->
  (forall o, In o os -> ~ asks_transfer o /\ ~ own_vote (c_id c) o) ->
  node_role n' <> RLeader \/ node_term n' <> node_term n \/ transferee n' = 0.
Proof.
  intros H1 H2 H3 H4 H5 Hl H6 H7 Ht Ho.
  assert (Ha : node_at n) by (exists c, tape, s, n0, os0, outs0; auto 10).
  pose proof (node_at_dinv _ Ha) as D. pose proof (node_at_vself _ Ha) as V.
  destruct (created_fresh _ _ _ H3) as (s' & cp & _ & F).
  assert (Hcfg : r_cfg (rn_raft n) = cfg_of c) by (rewrite <- (fr_cfg _ _ _ _ F); exact (proj1 (aprs_tv _ _ (n_run_aprs _ _ _ _ [] (nop_ok_wf _ _ H4 _ _ H5) H5)))).
  assert (Hcfg' : r_cfg (rn_raft n') = cfg_of c) by (rewrite <- Hcfg; exact (proj1 (aprs_tv _ _ (n_run_aprs _ _ _ _ [] (nop_ok_wf _ _ H6 _ _ H7) H7)))).
  assert (K : k_inv (r_term (rn_raft n)) 0 n) by (right; split; [exact Hl|]; split; [auto|right; split; [lia|auto]]).
  assert (Hid : r_id (rn_raft n) = c_id c) by (unfold r_id; rewrite Hcfg; reflexivity).
  apply (k_inv_run _ os n n' outs 0 D V H6 H7) in K; [|rewrite Hid; auto].
  rewrite N.add_0_l in K.
  assert (Hpos : 0 < k_el_timeout (r_cfg (rn_raft n'))).
  { apply rn_new_spec in H3. destruct H3 as (r & H3 & _). apply raft_new_spec in H3. destruct H3 as (s2 & cp2 & Hv & _). assert (W : validate c = (fst (validate c), None)) by (rewrite <- Hv; destruct (validate c); reflexivity). apply validate_ok in W.
    rewrite Hcfg'. cbn. destruct W as (W1 & W2 & W3 & _). lia. }
  assert (Hto : k_el_timeout (r_cfg (rn_raft n')) = Z.to_N (c_election_tick c)) by (rewrite Hcfg'; reflexivity).
  destruct K as [K|(K1 & K2 & [K3|[K3 K4]])].
  - destruct (N.eq_dec (node_term n') (node_term n)) as [Et|Et]; [|auto]. left. intros X. exact (lost_leader _ _ X Et K).
  - right. right. exact K3.
  - exfalso. lia.
Qed.
End T.

(** A transfer to the up-to-date node 2 sends MsgTimeoutNow at once; one to the lagging node 3 waits
    until node 3 has caught up; meanwhile a proposal is dropped. *)
Example C51_example_now : exists n n' x, @node_at ex_env n /\ nop_ok (NTransferLeader 2) n /\ @emits ex_env (NTransferLeader 2) n n' x /\
  (mtype_eqb (m_type x) MsgTimeoutNow && (m_to x =? 2)) = true.
Proof. apply (emit_case_ok (ex_cfg 1) ex_tape (ex_elect ++ [NStep (ex_app_resp 2 3 8); NHandle]) _ _). vm_compute. reflexivity. Qed.
Example C51_example_later : exists n n' x, @node_at ex_env n /\ nop_ok (NStep (ex_app_resp 3 3 8)) n /\ @emits ex_env (NStep (ex_app_resp 3 3 8)) n n' x /\
  (mtype_eqb (m_type x) MsgTimeoutNow && (m_to x =? 3)) = true.
Proof. apply (emit_case_ok (ex_cfg 1) ex_tape (ex_elect ++ [NStep (ex_app_resp 2 3 8); NHandle; NTransferLeader 3; NHandle]) _ _). vm_compute. reflexivity. Qed.
Example C51_example_dropped : exists n n' out, @node_at ex_env n /\ nop_ok (NPropose "w") n /\ @n_step ex_env (NPropose "w") n = Ok (n', out) /\
  (role_eqb (node_role n) RLeader && negb (transferee n =? 0)) = true.
Proof. apply (case_ok (ex_cfg 1) ex_tape (ex_elect ++ [NTransferLeader 3]) _ _). vm_compute. reflexivity. Qed.
(** After ten ticks (the election timeout of [ex_cfg]) the leader has given up. *)
Example C51_example_aborted : exists n n' out, @node_at ex_env n /\ nop_ok NTick n /\ @n_step ex_env NTick n = Ok (n', out) /\
  (role_eqb (node_role n') RLeader && (transferee n =? 3) && (transferee n' =? 0)) = true.
Proof. apply (case_ok (ex_cfg 1) ex_tape (ex_elect ++ [NTransferLeader 3] ++ repeat NTick 9) _ _). vm_compute. reflexivity. Qed.
