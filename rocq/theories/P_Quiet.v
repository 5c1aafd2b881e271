(** What a leader does not send. *)
From Verif Require Import Prelude Types M_Util M_Quorum M_Inflights M_Progress M_Tracker.
From Verif Require Import M_Storage M_Unstable M_Log M_ReadOnly M_ConfPb M_ConfChange M_Raft M_RawNode.
From Verif Require Import P_Inflights Spec_Log P_Lists P_Log P_Frame P_Prim Sys_Node P_Node P_Fields P_NodeLog P_Beat P_Feed P_Bcast.

Section Q.
Context {E : Env}.
(** The outcome of a silent answer: only the progress of [id] changed, and not its match index. *)
Definition touched (id : N) (r r' : raft) : Prop := exists p p', trk_get id (r_trk r) = Some p /\ p_match p' = p_match p /\ r' = put_progress id p' r.

Lemma beat_resp_quiet m pr r r' : leader_heartbeat_resp m pr r = Ok r' -> trk_get (m_from m) (r_trk r) = Some pr -> r_last r <= p_match pr ->
  m_ctx m = EmptyString -> touched (m_from m) r r'.
Proof.
  unfold leader_heartbeat_resp. cbv zeta. intros H Hg Hm Hc. apply bind_ok in H. destruct H as (pr1 & H1 & H). apply bind_ok in H. destruct H as (r2 & H2 & H).
  assert (E1 : p_match pr1 = p_match pr).
  { match type of H1 with (if ?b then _ else _) = _ => destruct b end; [|apply Ok_inj in H1; subst pr1; reflexivity]. apply bind_ok in H1. destruct H1 as (i & _ & H1). apply Ok_inj in H1. subst pr1. reflexivity. }
  change (r_last (put_progress (m_from m) pr1 r)) with (r_last r) in H2. destruct (N.ltb_spec (p_match pr1) (r_last r)); [lia|]. apply Ok_inj in H2. subst r2.
  rewrite Hc, orb_true_r in H. apply Ok_inj in H. exists pr, pr1. auto.
Qed.
Lemma ack_quiet m pr r r' : leader_app_resp m pr r = Ok r' -> trk_get (m_from m) (r_trk r) = Some pr -> m_reject m = false -> m_index m <= p_match pr -> touched (m_from m) r r'.
Proof.
  unfold leader_app_resp, leader_app_resp_accept. cbv zeta. intros H Hg Hr Hi. rewrite Hr in H. unfold pr_maybe_update in H. cbn [p_match set_p_active] in H.
  destruct (N.ltb_spec (p_match pr) (m_index m)); [lia|]. cbn [p_match p_next set_p_active] in H. apply Ok_inj in H. subst r'. eexists pr, _. split; [exact Hg|]. split; [|reflexivity].
  repeat match goal with |- context[if ?b then _ else _] => destruct b end; reflexivity.
Qed.
Lemma reject_quiet m pr r r' : leader_app_resp m pr r = Ok r' -> trk_get (m_from m) (r_trk r) = Some pr -> m_reject m = true ->
  match p_state pr with StReplicate => m_index m <= p_match pr | _ => wsub (p_next pr) 1 <> m_index m end -> touched (m_from m) r r'.
Proof.
  unfold leader_app_resp, leader_app_resp_reject. cbv zeta. intros H Hg Hr Hi. rewrite Hr in H. apply bind_ok in H. destruct H as (hint & _ & H). unfold pr_maybe_decr_to in H. cbn [p_state p_match p_next set_p_active] in H.
  destruct (p_state pr); cbn [pstate_eqb] in H.
  1,3: destruct (N.eqb_spec (wsub (p_next pr) 1) (m_index m)); [contradiction|]; cbn [negb] in H; apply Ok_inj in H; subst r'; eexists pr, _; split; [exact Hg|]; split; [|reflexivity]; reflexivity.
  destruct (N.leb_spec (m_index m) (p_match pr)); [|lia]. apply Ok_inj in H; subst r'; eexists pr, _; split; [exact Hg|]; split; [|reflexivity]; reflexivity.
Qed.
(** A tick of a leader that stays one changes no match index and not the log. *)
Lemma tick_keeps r r' : r_state r = RLeader -> tick r = Ok r' -> r_state r' = RLeader ->
  r_log r' = r_log r /\ (forall id, option_map p_match (trk_get id (r_trk r')) = option_map p_match (trk_get id (r_trk r))) /\
  exists ctx r1 l, r_term r1 = r_term r /\ r_cfg r1 = r_cfg r /\ r_msgs r' = r_msgs r ++ map (hbmsg r1 ctx) l.
Proof.
  intros Hs H Hl'. unfold tick in H. rewrite Hs in H. unfold tick_heartbeat in H. cbv zeta in H.
  set (r0 := set_r_el_elapsed (r_el_elapsed r + 1) (set_r_hb_elapsed (r_hb_elapsed r + 1) r)) in *.
  assert (K : forall x, hsame r0 x -> r_log x = r_log r /\ (forall id, option_map p_match (trk_get id (r_trk x)) = option_map p_match (trk_get id (r_trk r))) /\ r_msgs x = r_msgs r /\
    r_term x = r_term r /\ r_cfg x = r_cfg r /\ r_ro x = r_ro r) by (intros x [X1 X2 X3 X4 X5 X6 X7 X8]; auto 10).
  apply bind_ok in H. destruct H as (r1 & H1 & H).
  destruct (negb (is_leader r1)) eqn:Hl.
  { apply Ok_inj in H. subst r1. unfold is_leader in Hl. rewrite Hl' in Hl. discriminate. }
  assert (Hl1 : r_state r1 = RLeader) by (unfold is_leader in Hl; destruct (r_state r1); auto; discriminate). clear Hl.
  assert (L1 : hsame r0 r1).
  { match type of H1 with (if ?b then _ else _) = _ => destruct b end; [|apply Ok_inj in H1; subst; apply hsame_refl].
    apply bind_ok in H1. destruct H1 as (r2 & H2 & H1).
    assert (L2 : r_state r2 = RLeader -> hsame r0 r2).
    { match type of H2 with (if ?b then _ else _) = _ => destruct b end.
      2:{ apply Ok_inj in H2. subst r2. intros _. constructor; reflexivity || auto. }
      apply bind_ok in H2. destruct H2 as ([r3 e3] & H3 & Hx). apply Ok_inj in Hx. subst r3. intros X.
      destruct (local_leader_step _ _ _ _ H3) as [Y _]; [reflexivity|exact Hs|]. specialize (Y eq_refl). subst r2.
      apply (hsame_trans _ (set_r_el_elapsed 0 r0)); [constructor; reflexivity || auto|]. apply check_quorum_hsame. exact X. }
    destruct (is_leader r2 && negb (r_transferee r2 =? 0)); apply Ok_inj in H1; subst r1; [|auto].
    eapply hsame_trans; [apply L2; exact Hl1|]. constructor; reflexivity || auto. }
  clear H1. destruct (K _ L1) as (K1 & K2 & K3 & K4 & K5 & K6).
  match type of H with (if ?b then _ else _) = _ => destruct b end.
  2:{ apply Ok_inj in H. subst r'. split; auto. split; auto. exists EmptyString, r, []. rewrite app_nil_r. auto. }
  apply bind_ok in H. destruct H as ([r3 e3] & H3 & Hx). apply Ok_inj in Hx. subst r3.
  destruct (local_leader_step _ _ _ _ H3) as [_ Y]; [reflexivity|exact Hl1|]. specialize (Y eq_refl). unfold bcast_heartbeat in Y. apply bcast_hb in Y.
  rewrite Y. cbn [r_log r_trk r_msgs set_r_msgs set_r_hb_elapsed]. split; auto. split; auto. eexists _, _, _. rewrite K3. split; [|split; [|reflexivity]]; [exact K4|exact K5].
Qed.
End Q.
