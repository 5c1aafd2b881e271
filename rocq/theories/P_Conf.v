(** The configuration and the progress map of a node stay well formed. *)
From Verif Require Import Prelude Types M_Util M_Quorum M_Inflights M_Progress M_Tracker.
From Verif Require Import M_Storage M_Unstable M_Log M_ReadOnly M_ConfPb M_ConfChange M_Raft M_RawNode.
From Verif Require Import Spec_ConfChange Sys_ConfChange P_ConfChange P_Inflights P_Frame P_Prim Sys_Node P_Node P_Fields P_Vote P_New.

Section Conf.
Context {E : Env}.

Definition tok (r : raft) : Prop := conf_wf (t_config (r_trk r)) (t_progress (r_trk r)).

Lemma conf_wf_map c prs prs' : conf_wf c prs -> msorted prs' ->
  (forall id, match mget id prs, mget id prs' with
              | None, None => True | Some p, Some p' => p_learner p' = p_learner p | _, _ => False end) ->
  conf_wf c prs'.
Proof.
  intros [C1 C2 C3 C4 C5 C6 C7 C8 C9 C10] Hs H. constructor; auto.
  - intros id. rewrite <- C8. specialize (H id). destruct (mget id prs), (mget id prs'); try tauto; split; congruence.
  - intros id p Hg. specialize (H id). rewrite Hg in H. destruct (mget id prs) as [p0|] eqn:Hp; [|tauto].
    rewrite H. eauto.
Qed.
Lemma tok_prs_keep r r' : t_config (r_trk r') = t_config (r_trk r) -> prs_keep r r' -> tok r -> tok r'.
Proof.
  unfold tok. intros Hc [Hs Hk] H. rewrite Hc. eapply conf_wf_map; [exact H|apply Hs; apply H|].
  intros id. specialize (Hk id). destruct (mget id (t_progress (r_trk r))), (mget id (t_progress (r_trk r'))); auto. apply Hk.
Qed.
Lemma tok_prs_same r r' : t_config (r_trk r') = t_config (r_trk r) -> prs_same r r' -> tok r -> tok r'.
Proof.
  unfold tok. intros Hc [Hs Hk] H. rewrite Hc. eapply conf_wf_map; [exact H|apply Hs; apply H|].
  intros id. specialize (Hk id). destruct (mget id (t_progress (r_trk r))), (mget id (t_progress (r_trk r'))); auto. apply Hk.
Qed.
Lemma tok_eq r r' : r_trk r' = r_trk r -> tok r -> tok r'.
Proof. unfold tok. intros ->. auto. Qed.
Lemma tok_put id p p' r : trk_get id (r_trk r) = Some p -> p_learner p' = p_learner p -> tok r -> tok (put_progress id p' r).
Proof.
  unfold tok. intros Hg Hl H. cbn. eapply conf_wf_map; [exact H|apply msorted_mset, H|].
  intros j. rewrite mget_mset. destruct (N.eqb_spec j id) as [->|]; [unfold trk_get in Hg; rewrite Hg; auto|destruct (mget j _); auto].
Qed.
Lemma tok_reset t r r' : r' = reset t r -> tok r -> tok r'.
Proof.
  intros Er H. destruct (reset_fields _ _ _ Er) as (_&_&_&_&_&_&_&_&A9&_). destruct (reset_more _ _ _ Er) as (_&_&_&_&_&_&_&_&B9&_).
  clear Er. unfold tok. rewrite A9, B9. eapply conf_wf_map; [exact H|apply msorted_mmap, H|].
  intros id. rewrite mget_mmap. destruct (mget id (t_progress (r_trk r))); cbn; auto. destruct (id =? r_id r); auto.
Qed.
Lemma pr_update_learner n p : p_learner (fst (pr_maybe_update n p)) = p_learner p.
Proof. unfold pr_maybe_update. destruct (p_match p <? n); reflexivity. Qed.
Lemma tok_append es r r' : append_entry es r = Ok (Some r') -> tok r -> tok r'.
Proof.
  intros H K. apply append_entry_inv in H. destruct H as (_ & l0 & li & pr & pr' & u & b & H1 & H2 & H3 & H4).
  apply raft_maybe_commit_state in H4. destruct H4 as [l ->].
  pose proof (pr_update_learner li pr) as L. rewrite H3 in L. cbn in L.
  eapply tok_eq with (r := put_progress (r_id r) pr' (set_r_log l0 r)); [reflexivity|].
  eapply tok_put; [exact H2|exact L|]. eapply tok_eq; [|exact K]. reflexivity.
Qed.

Lemma chain_wf ccs : forall ch ch', conf_wf (t_config (ch_trk ch)) (t_progress (ch_trk ch)) ->
  chain_simple ccs ch = SOk ch' -> conf_wf (t_config (ch_trk ch')) (t_progress (ch_trk ch')).
Proof.
  induction ccs as [|cc t IH]; intros ch ch' H Hc; cbn in Hc; [inv Hc; auto|].
  pose proof (ch_simple_spec ch [cc] H) as S. destruct (ch_simple [cc] ch) as [[c' prs']|]; [|discriminate].
  eapply IH; [|exact Hc]. cbn. apply S.
Qed.
Lemma cc_restore_wf ch cs cp : conf_wf (t_config (ch_trk ch)) (t_progress (ch_trk ch)) ->
  cc_restore ch cs = SOk cp -> conf_wf (fst cp) (snd cp).
Proof.
  intros H. unfold cc_restore. destruct (to_conf_change_single cs) as [o i]. destruct o as [|o1 o2].
  - destruct (chain_simple i ch) as [ch'|] eqn:Hc; [|discriminate]. intros K; inv K. cbn. eapply chain_wf; eauto.
  - destruct (chain_simple (o1 :: o2) ch) as [ch'|] eqn:Hc; [|discriminate]. intros K.
    apply chain_wf in Hc; auto. pose proof (ch_enter_joint_spec ch' (cs_auto_leave cs) i Hc) as S. rewrite K in S.
    destruct cp as [c' prs']. cbn. apply S.
Qed.

Lemma tok_prim im r r' : prim im r r' -> tok r -> tok r'.
Proof.
  intros H K.
  destruct H as [r' Kp|r' Hl S|m Hm|t l Ht _|r' Hcd|r' Hcd|Hs|Hs|to lt ctx Hs Hlt Hz|Ht Hm Hz Hv Hu|r' Hs Hv Hb|
                 es r1 r' Hs Ht He Hf Ha|p p' Hs Ht Hr Hm Hg Hx Hy Hlr|r' b Hs Hcd|Hg Hm Hs|l last Ht Hm Hs Hcd Ha|
                 l Ht Hm Hs Hcd|l Ht Hm Hs Hcd Hmt Hct|r1 Ht Hm Hs Hr].
  all: try (revert K; apply tok_eq; reflexivity).
  - destruct Kp. eapply tok_prs_keep; eauto.
  - destruct S as [[] ? ?]. eapply tok_prs_same; eauto.
  - unfold become_follower. hide (reset t r) r0 E0. pose proof (tok_reset _ _ _ E0 K) as K0. revert K0. apply tok_eq; reflexivity.
  - unfold become_candidate in Hcd. destruct (is_leader r); [discriminate|]. apply Ok_inj in Hcd.
    hide (reset (r_term r + 1) r) r0 E0. pose proof (tok_reset _ _ _ E0 K) as K0. clear E0. subst r'.
    revert K0. apply tok_eq; reflexivity.
  - unfold become_pre_candidate in Hcd. destruct (is_leader r); [discriminate|]. apply Ok_inj in Hcd. subst r'. exact K.
  - unfold poll, trk_record_vote. cbn [fst]. destruct (mget _ _); exact K.
  - unfold poll, trk_record_vote. cbn [fst]. destruct (mget _ _); exact K.
  - apply become_leader_inv in Hb. destruct Hb as (pr & r1 & u & _ & Hg & Ha & ->).
    pose proof (reset_id (r_term r) r) as Hid.
    hide (reset (r_term r) r) r0 E0. pose proof (tok_reset _ _ _ E0 K) as K0. clear E0.
    eapply tok_eq; [|eapply tok_append; [exact Ha|]]; [reflexivity|]. unfold lead_base.
    eapply tok_eq; [reflexivity|]. eapply tok_put with (p := pr); [change (r_id (set_r_state _ _)) with (r_id r0); rewrite Hid; exact Hg|reflexivity|exact K0].
  - apply filter_prop_fields in Hf. destruct Hf as [k ->].
    destruct Ha as [Ha|[_ ->]]; [eapply tok_append; [exact Ha|]|]; exact K.
  - eapply tok_put; eauto. 
  - apply raft_maybe_commit_state in Hcd. destruct Hcd as [l ->]. exact K.
  - apply restore_inv in Hr; auto. destruct Hr as (_ & _ & _ & cp & pr & pr' & b & Hc & _ & Hg & Hu & ->).
    eapply tok_eq; [reflexivity|]. eapply tok_put with (p := pr); [exact Hg| |].
    + pose proof (pr_update_learner (wsub (p_next pr) 1) pr) as L. rewrite Hu in L. exact L.
    + unfold tok. cbn. eapply cc_restore_wf; [|exact Hc]. cbn. apply conf_wf_empty.
Qed.
Lemma cc_call_wf o ch cp : conf_wf (t_config (ch_trk ch)) (t_progress (ch_trk ch)) -> cc_call o ch = Ok (SOk cp) ->
  conf_wf (fst cp) (snd cp).
Proof.
  intros H Ho. destruct cp as [c' prs']. destruct o as [ccs|al ccs|]; cbn [cc_call] in Ho.
  - apply Ok_inj in Ho. pose proof (ch_simple_spec ch ccs H) as S. rewrite Ho in S. apply S.
  - apply Ok_inj in Ho. pose proof (ch_enter_joint_spec ch al ccs H) as S. rewrite Ho in S. apply S.
  - pose proof (ch_leave_joint_spec ch H) as S. rewrite Ho in S. apply S.
Qed.
Lemma tok_apr a b : tok (snd a) -> apr a b -> tok (snd b).
Proof.
  intros K H. destruct H; cbn [snd] in *; auto.
  - eapply tok_prim; eauto.
  - unfold tok; cbn. eapply cc_call_wf; [|exact H]. exact K.
  - eapply tok_append in H0; auto.
Qed.
Lemma tok_aprs a b : aprs a b -> tok (snd a) -> tok (snd b).
Proof. apply (aprs_ind_inv (fun x => tok (snd x))). apply tok_apr. Qed.
Lemma tok_new c tape r : raft_new c tape = Ok r -> tok r.
Proof.
  intros H. apply raft_new_spec in H. destruct H as (s & cp & _ & _ & Hc & _ & _ & _ & F).
  apply cc_restore_wf in Hc; [|apply conf_wf_empty].
  unfold tok. rewrite (fr_tconf _ _ _ _ F). eapply conf_wf_map; [exact Hc| |].
  - unfold msorted. rewrite (fr_keys _ _ _ _ F). apply Hc.
  - intros id. rewrite (fr_prs _ _ _ _ F). destruct (mget id (snd cp)); cbn; auto. destruct (id =? c_id c); auto.
Qed.
Theorem tok_run c tape n os n' outs : rn_new c tape = Ok n -> Forall nop_wf os -> n_run os n = Ok (n', outs) -> tok (rn_raft n').
Proof.
  intros Hn Hw Hr. apply rn_new_spec in Hn. destruct Hn as (r & Hn & ->). apply tok_new in Hn.
  apply (n_run_aprs _ _ _ _ [] Hw) in Hr. apply (tok_aprs _ _ Hr Hn).
Qed.
End Conf.
