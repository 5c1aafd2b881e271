(** Votes are in the HardState the application was told to persist. *)
From Verif Require Import Prelude Types M_Util M_Quorum M_Inflights M_Progress M_Tracker.
From Verif Require Import M_Storage M_Unstable M_Log M_ReadOnly M_ConfPb M_ConfChange M_Raft M_RawNode.
From Verif Require Import P_Inflights P_Frame P_Prim Sys_Node P_Node P_Fields P_Vote Spec_Node.

Section Persist.
Context {E : Env}.

Lemma hs_tv a b : hs_forward a b <-> tv_le (hs_term a) (hs_vote a) (hs_term b) (hs_vote b).
Proof. reflexivity. Qed.
Lemma fwd_trans a b c : hs_forward a b -> hs_forward b c -> hs_forward a c.
Proof. rewrite !hs_tv. apply tv_le_trans. Qed.
Lemma fwd_refl a : hs_forward a a. Proof. apply tv_le_refl. Qed.
Definition hrecorded (h : hardstate) (m : msg) := recorded (hs_term h) (hs_vote h) m.
Lemma hrecorded_fwd a b m : hrecorded a m -> hs_forward a b -> hrecorded b m.
Proof. apply recorded_tv. Qed.

Record pinv (ms : list msg) (h : hardstate) (n : rawnode) : Prop := {
  pi_v : vinv (ms, rn_raft n);
  pi_ph : hs_forward (rn_prev_hard n) h;
  pi_hc : hs_forward h (hard_state (rn_raft n));
  pi_rd : forall rd, rn_ready n = Some rd -> is_empty_hs (rd_hard rd) = false -> hs_forward (rd_hard rd) h;
  pi_ms : forall m, In m ms -> granted m -> hrecorded h m
}.

Lemma step_plain o n n' out : nop_wf o -> n_step o n = Ok (n', out) ->
  match o with NReady | NAdvance | NHandle => False | _ => True end ->
  rn_prev_hard n' = rn_prev_hard n /\ rn_ready n' = rn_ready n /\ readys [out] = [].
Proof.
  assert (Hs : forall m n e, rn_raft_step m n = Ok e -> rn_prev_hard (fst e) = rn_prev_hard n /\ rn_ready (fst e) = rn_ready n).
  { intros m n0 e H. unfold rn_raft_step in H. mon. destruct x; mon. auto. }
  intros Hw H Hp. destruct o; try tauto; cbn [n_step] in H; mon; try (destruct x as [? ?]; mon); cbn; auto.
  - unfold rn_tick in Hm. mon. auto.
  - apply Hs in Hm. cbn in Hm. tauto.
  - apply Hs in Hm. cbn in Hm. tauto.
  - unfold rn_propose_conf_change in Hm. mon. destruct x. apply Hs in Hm. cbn in Hm. tauto.
  - unfold rn_apply_conf_change in Hm. mon. destruct x0. mon. auto.
  - unfold rn_step in Hm. destruct (is_local_msg _); [inv Hm; auto|]. destruct (_ || _); [|inv Hm; auto].
    apply Hs in Hm. cbn in Hm. tauto.
  - unfold rn_report_unreachable in Hm. apply bind_ok in Hm. destruct Hm as ([n1 e1] & Hm & Hx). apply Hs in Hm. inv Hx. exact (conj (proj1 Hm) (conj (proj2 Hm) eq_refl)).
  - unfold rn_report_snapshot in Hm. apply bind_ok in Hm. destruct Hm as ([n1 e1] & Hm & Hx). apply Hs in Hm. inv Hx. exact (conj (proj1 Hm) (conj (proj2 Hm) eq_refl)).
  - unfold rn_transfer_leader in Hm. apply bind_ok in Hm. destruct Hm as ([n1 e1] & Hm & Hx). apply Hs in Hm. inv Hx. exact (conj (proj1 Hm) (conj (proj2 Hm) eq_refl)).
  - unfold rn_read_index in Hm. apply bind_ok in Hm. destruct Hm as ([n1 e1] & Hm & Hx). apply Hs in Hm. inv Hx. exact (conj (proj1 Hm) (conj (proj2 Hm) eq_refl)).
Qed.

Lemma aprs_pinv ms h n n' : aprs (ms, rn_raft n) (ms, rn_raft n') -> rn_prev_hard n' = rn_prev_hard n ->
  rn_ready n' = rn_ready n -> pinv ms h n -> pinv ms h n'.
Proof.
  intros Ha Hp Hr [V1 V2 V3 V4 V5]. constructor; rewrite ?Hp, ?Hr; auto.
  - eapply vinv_aprs; eauto.
  - apply aprs_tv in Ha. eapply fwd_trans; [exact V3|]. exact (proj2 Ha).
Qed.

Lemma eqb_tv a b : hardstate_eqb a b = true -> hs_term a = hs_term b /\ hs_vote a = hs_vote b.
Proof. unfold hardstate_eqb. intros H. lia. Qed.

Lemma get_ready_pinv ms h n n' rd : rn_get_ready n = Ok (n', rd) -> pinv ms h n ->
  pinv (ms ++ rd_msgs rd) (persisted h [rd]) n'.
Proof.
  intros H P. pose proof (get_ready_aprs _ _ _ ms H) as Ha. destruct P as [V1 V2 V3 V4 V5].
  pose proof (vinv_aprs _ _ Ha V1) as V1'. pose proof (proj2 (aprs_tv _ _ Ha)) as Htv. cbn [fst snd] in Htv.
  unfold rn_get_ready in H. mon. unfold new_ready in Hm. mon. cbn [rd_msgs persisted fold_left rd_hard] in *.
  set (C := hard_state (rn_raft n)) in *. set (P := rn_prev_hard n) in *.
  assert (Hm1 : forall m, In m (r_msgs (rn_raft n)) -> granted m -> hrecorded C m).
  { intros m Hi. apply (proj1 V1). cbn. apply in_or_app; auto. }
  destruct (hardstate_eqb C P) eqn:Heq.
  - change (is_empty_hs empty_hardstate) with true. cbv iota. constructor; auto.
    + unfold accept_ready; cbn. eapply fwd_trans; [exact V3|exact Htv].
    + cbn. intros rd0 H0. inv H0. cbn. discriminate.
    + intros m Hi Hg. apply in_app_or in Hi. destruct Hi as [Hi|Hi]; auto.
      apply Hm1 in Hi; auto. apply hrecorded_fwd with P; auto. apply eqb_tv in Heq. unfold hrecorded in *.
      destruct Heq as [<- <-]. auto.
  - destruct (is_empty_hs C) eqn:Hem; constructor; auto.
    + eapply fwd_trans; [exact V3|exact Htv].
    + cbn. intros rd0 H0. inv H0. cbn. congruence.
    + intros m Hi Hg. apply in_app_or in Hi. destruct Hi as [Hi|Hi]; auto.
      apply Hm1 in Hi; auto. exfalso. unfold is_empty_hs in Hem. destruct Hi as [Hn [Hi|(Hi&_)]]; lia.
    + eapply fwd_trans; eauto.
    + cbn. intros rd0 H0. inv H0. cbn. intros _. apply fwd_refl.
    + intros m Hi Hg. apply in_app_or in Hi. destruct Hi as [Hi|Hi]; auto.
      eapply hrecorded_fwd; [apply V5; auto|]. exact V3.
Qed.
Lemma advance_pinv ms h n n' : rn_advance n = Ok n' -> pinv ms h n -> pinv ms h n'.
Proof.
  intros H P. pose proof (advance_aprs _ _ ms H) as Ha. destruct P as [V1 V2 V3 V4 V5].
  pose proof (vinv_aprs _ _ Ha V1) as V1'. pose proof (proj2 (aprs_tv _ _ Ha)) as Htv. cbn [fst snd] in Htv.
  unfold rn_advance in H. destruct (rn_ready n) as [rd|] eqn:Hr; [|discriminate]. mon.
  constructor; auto; cbn [rn_prev_hard rn_raft rn_ready] in *.
  - destruct (is_empty_hs (rd_hard rd)) eqn:He; eauto.
  - eapply fwd_trans; [exact V3|exact Htv].
  - intros rd0; discriminate.
Qed.
Lemma storage_pinv ms h n s : pinv ms h n -> pinv ms h (set_storage s n).
Proof. apply aprs_pinv; auto. apply aprs_one, AAdm_log. reflexivity. Qed.

Lemma persisted_app h a b : persisted h (a ++ b) = persisted (persisted h a) b.
Proof. apply fold_left_app. Qed.

Lemma n_step_pinv o n n' out ms h : nop_wf o -> n_step o n = Ok (n', out) -> pinv ms h n ->
  pinv (ms ++ sent [out]) (persisted h (readys [out])) n'.
Proof.
  intros Hw H P. pose proof (n_step_aprs o n n' out ms Hw H) as Ha.
  assert (Hp : match o with NReady | NAdvance | NHandle => False | _ => True end ->
    pinv (ms ++ sent [out]) (persisted h (readys [out])) n').
  { intros Hx. destruct (step_plain o n n' out Hw H Hx) as (A1 & A2 & A3). unfold sent in *. rewrite A3 in *. cbn in *.
    rewrite app_nil_r in *. eapply aprs_pinv; eauto. }
  destruct o; auto; clear Hp Ha; cbn [n_step] in H; mon.
  - destruct x as [n1 rd]. mon. unfold sent, readys; cbn. rewrite app_nil_r. eapply get_ready_pinv; eauto.
  - unfold sent; cbn. rewrite app_nil_r. eapply advance_pinv; eauto.
  - destruct x as [n1 rd]. mon. unfold sent, readys; cbn. rewrite app_nil_r. unfold n_handle in Hm. mon.
    destruct x as [n0 rd0]. mon. eapply advance_pinv; eauto. apply storage_pinv. eapply get_ready_pinv; eauto.
Qed.
Lemma n_run_pinv os : forall n n' outs ms h, Forall nop_wf os -> n_run os n = Ok (n', outs) -> pinv ms h n ->
  pinv (ms ++ sent outs) (persisted h (readys outs)) n'.
Proof.
  induction os as [|o os IH]; intros n n' outs ms h Hw H P; cbn [n_run] in H.
  - inv H. cbn. rewrite app_nil_r. auto.
  - apply bind_ok in H. destruct H as ([n1 out] & H1 & H). apply bind_ok in H. destruct H as ([n2 outs2] & H2 & H).
    inv H. inv Hw. eapply n_step_pinv in H1; eauto. eapply IH in H2; eauto.
    rewrite <- app_assoc in H2. rewrite <- persisted_app in H2.
    replace (readys [out] ++ readys outs2) with (readys (out :: outs2)) in H2.
    + replace (sent [out] ++ sent outs2) with (sent (out :: outs2)) in H2; auto.
      unfold sent, readys. cbn. rewrite app_nil_r, flat_map_app. auto.
    + unfold readys. cbn. rewrite app_nil_r. auto.
Qed.

Lemma pinv_fresh n : r_msgs (rn_raft n) = [] -> rn_prev_hard n = hard_state (rn_raft n) -> rn_ready n = None ->
  pinv [] (hard_state (rn_raft n)) n.
Proof.
  intros H1 H2 H3. constructor; rewrite ?H2, ?H3; auto using fwd_refl; try discriminate.
  - split; cbn; rewrite H1; cbn; tauto.
  - intros m [].
Qed.
End Persist.
