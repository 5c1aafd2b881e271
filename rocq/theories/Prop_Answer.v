(** Every message of a leader is answered (C58). *)
From Verif Require Import Prelude Types M_Util M_Quorum M_Inflights M_Progress M_Tracker.
From Verif Require Import M_Storage M_Unstable M_Log M_ReadOnly M_ConfPb M_ConfChange M_Raft M_RawNode.
From Verif Require Import P_Inflights Spec_Log P_Lists P_Storage P_Log Spec_Storage Sys_Storage P_StorageSeq Spec_RaftLog Sys_RaftLog P_RaftLogSeq.
From Verif Require Import Spec_ConfChange P_Frame P_Prim Sys_Node Sys_ConfChange P_Node P_Fields P_Vote Spec_Node P_Persist P_New P_Time P_NodeLog P_Handle P_NodeRun.
From Verif Require Import Prop_Vote Prop_Deliver Prop_Flow Spec_Snap Spec_Flow Spec_Resp Ex_Env Ex_Node Ex_Check Ex_Case.

Section Props.
Context {E : Env}.

Definition lead_handle (m : msg) (r : raft) : res raft :=
  match m_type m with MsgApp => handle_append_entries m r | _ => handle_heartbeat m r end.
Lemma lead_step m r r' e : m_type m = MsgApp \/ m_type m = MsgHeartbeat -> m_term m <> 0 -> step m r = Ok (r', e) ->
  (m_term m < r_term r /\
     if k_check_quorum (r_cfg r) || k_pre_vote (r_cfg r)
     then r' = emit (outm r (set_m_to (m_from m) (new_msg MsgAppResp))) r else r' = r) \/
  (m_term m = r_term r /\ r_state r = RLeader /\ r' = r) \/
  (r_term r <= m_term m /\ ~ (m_term m = r_term r /\ r_state r = RLeader) /\
   exists r0, r_state r0 = RFollower /\ r_log r0 = r_log r /\ r_term r0 = m_term m /\ r_cfg r0 = r_cfg r /\ r_msgs r0 = r_msgs r /\
     r_lead r0 = m_from m /\ t_config (r_trk r0) = t_config (r_trk r) /\
     lead_handle m r0 = Ok r').
Proof.
  intros Ht Hz H. unfold step in H. destruct (N.eqb_spec (m_term m) 0); [lia|].
  destruct (N.ltb_spec (r_term r) (m_term m)).
  - right; right. split; [lia|]. split; [lia|].
    assert (H' : step_dispatch m (become_follower (m_term m) (m_from m) r) = Ok (r', e)).
    { destruct Ht as [Ht|Ht]; rewrite Ht in H; cbn [mtype_eqb orb andb] in H; exact H. }
    clear H. rename H' into H.
    hide (become_follower (m_term m) (m_from m) r) r1 E1. destruct (become_follower_fields _ _ _ _ E1) as (A1&A2&A3&A4&A5&A6&A7&A8&A9&A10&A11). clear E1.
    assert (H' : okr (lead_handle m (set_r_lead (m_from m) (set_r_el_elapsed 0 r1))) = Ok (r', e)).
    { rewrite <- H. unfold step_dispatch, step_follower, lead_handle. rewrite A5. destruct Ht as [Ht|Ht]; rewrite Ht; reflexivity. }
    unfold okr in H'. apply bind_ok in H'. destruct H' as (r2 & H' & Hx). apply Ok_inj, pair_equal_spec in Hx. destruct Hx as [<- _].
    eexists. split; [|split; [|split; [|split; [|split; [|split; [|split; [|exact H']]]]]]]; cbn; auto.
  - destruct (N.ltb_spec (m_term m) (r_term r)).
    + left. split; [auto|]. destruct (k_check_quorum (r_cfg r) || k_pre_vote (r_cfg r)).
      * assert (Hx : okr (send (set_m_to (m_from m) (new_msg MsgAppResp)) r) = Ok (r', e)).
        { rewrite <- H. destruct Ht as [Ht|Ht]; rewrite Ht; reflexivity. }
        unfold okr in Hx. apply bind_ok in Hx. destruct Hx as (r2 & Hx & Hy). apply Ok_inj, pair_equal_spec in Hy. destruct Hy as [<- _].
        apply send_ok in Hx. tauto.
      * cbn [andb] in H. destruct Ht as [Ht|Ht]; rewrite Ht in H; cbn [mtype_eqb] in H; apply Ok_inj, pair_equal_spec in H; destruct H as [<- _]; reflexivity.
    + assert (m_term m = r_term r) as Hm by lia. right. destruct (r_state r) eqn:Hs.
      * right. split; [lia|]. split; [intros [_ X]; discriminate|].
        assert (H' : okr (lead_handle m (set_r_lead (m_from m) (set_r_el_elapsed 0 r))) = Ok (r', e)).
        { rewrite <- H. unfold step_dispatch, step_follower, lead_handle. rewrite Hs. destruct Ht as [Ht|Ht]; rewrite Ht; reflexivity. }
        unfold okr in H'. apply bind_ok in H'. destruct H' as (r2 & H' & Hx). apply Ok_inj, pair_equal_spec in Hx. destruct Hx as [<- _].
        eexists. split; [|split; [|split; [|split; [|split; [|split; [|split; [|exact H']]]]]]]; cbn; auto.
      * right. split; [lia|]. split; [intros [_ X]; discriminate|].
        assert (H' : okr (lead_handle m (become_follower (m_term m) (m_from m) r)) = Ok (r', e)).
        { rewrite <- H. unfold step_dispatch, step_candidate, lead_handle. rewrite Hs. destruct Ht as [Ht|Ht]; rewrite Ht; reflexivity. }
        clear H. hide (become_follower (m_term m) (m_from m) r) r1 E1. destruct (become_follower_fields _ _ _ _ E1) as (A1&A2&A3&A4&A5&A6&A7&A8&A9&A10&A11). clear E1.
        unfold okr in H'. apply bind_ok in H'. destruct H' as (r2 & H' & Hx). apply Ok_inj, pair_equal_spec in Hx. destruct Hx as [<- _].
        exists r1. repeat split; auto.
      * left. split; [auto|]. split; [auto|]. unfold step_dispatch in H. rewrite Hs in H. unfold step_leader in H.
        destruct Ht as [Ht|Ht]; rewrite Ht in H; destruct (trk_get (m_from m) (r_trk r)); apply Ok_inj, pair_equal_spec in H; destruct H as [<- _]; auto.
      * right. split; [lia|]. split; [intros [_ X]; discriminate|].
        assert (H' : okr (lead_handle m (become_follower (m_term m) (m_from m) r)) = Ok (r', e)).
        { rewrite <- H. unfold step_dispatch, step_candidate, lead_handle. rewrite Hs. destruct Ht as [Ht|Ht]; rewrite Ht; reflexivity. }
        clear H. hide (become_follower (m_term m) (m_from m) r) r1 E1. destruct (become_follower_fields _ _ _ _ E1) as (A1&A2&A3&A4&A5&A6&A7&A8&A9&A10&A11). clear E1.
        unfold okr in H'. apply bind_ok in H'. destruct H' as (r2 & H' & Hx). apply Ok_inj, pair_equal_spec in Hx. destruct Hx as [<- _].
        exists r1. repeat split; auto.
Qed.

(** The call as a step of the raft state. *)
Lemma nstep_raft m n n' out : m_type m = MsgApp \/ m_type m = MsgHeartbeat -> peer_msg_wf m -> n_step (NStep m) n = Ok (n', out) ->
  m_term m <> 0 /\ exists r' e, step m (rn_raft n) = Ok (r', e) /\ n' = set_rn_raft r' n.
Proof.
  intros Ht [Hfr Hz] H. cbn [n_step] in H. apply bind_ok in H. destruct H as ([n1 e1] & H & Hx). apply Ok_inj, pair_equal_spec in Hx. destruct Hx as [<- _].
  split; [intros X; apply Hz in X; destruct Ht as [Ht|Ht]; rewrite Ht in X; destruct X as [X|[X|X]]; discriminate|].
  assert (H' : rn_raft_step m n = Ok (n1, e1)).
  { unfold rn_step in H. destruct Ht as [Ht|Ht]; rewrite Ht in H; cbn [is_local_msg is_response_msg negb] in H; rewrite orb_true_r in H; exact H. }
  unfold rn_raft_step in H'. apply bind_ok in H'. destruct H' as ([r1 e2] & H' & Hx). apply Ok_inj, pair_equal_spec in Hx. destruct Hx as [<- <-]. eauto.
Qed.
Lemma shows_abs n i t : dinv n -> (shows n i t <-> a_term0 (log_abs (r_log (rn_raft n))) i = t).
Proof.
  intros D. unfold shows. rewrite log_term_abs by (apply lwf_0, li_wf, ni_log, di_ninv; auto).
  fold (a_term0 (log_abs (r_log (rn_raft n))) i). split; [intros X; inversion X; auto|intros ->; auto].
Qed.
Lemma same_log_abs n n' : dinv n -> dinv n' -> log_abs (r_log (rn_raft n')) = log_abs (r_log (rn_raft n)) -> same_log n n'.
Proof.
  intros D D' Q. unfold same_log, node_first, node_last.
  rewrite !log_last_abs by (apply lwf_0; first [exact (li_wf _ (ni_log _ (di_ninv _ D)))|exact (li_wf _ (ni_log _ (di_ninv _ D')))]). rewrite !log_first_abs, Q.
  split; [auto|]. split; [auto|]. intros i e. rewrite !holds_abs by auto. rewrite Q. tauto.
Qed.
Lemma self_raft n : set_rn_raft (rn_raft n) n = n. Proof. destruct n; reflexivity. Qed.

(** C58, heartbeats. *)
Theorem C58_heartbeat_answered n m n' out :
  node_at n -> nop_ok (NStep m) n -> m_type m = MsgHeartbeat -> n_step (NStep m) n = Ok (n', out) -> listens n m ->
  follows n' (m_from m) (m_term m) /\ same_log n n' /\ node_commit n' = N.max (node_commit n) (m_commit m) /\
  exists a, pending n' = pending n ++ [a] /\ answers (node_id n) (m_term m) m a /\
    m_type a = MsgHeartbeatResp /\ m_ctx a = m_ctx m.
Proof.
  intros Ha Hok Ht H HL. pose proof (node_at_dinv _ Ha) as D. pose proof (proj1 (n_step_dinv _ _ _ _ Hok H D)) as D'.
  destruct (nstep_raft _ _ _ _ (or_intror Ht) (proj1 Hok) H) as (Hz & r' & e & Hs & ->). clear H.
  apply lead_step in Hs; auto. destruct HL as [L1 L2].
  assert (T : node_term n = r_term (rn_raft n)) by reflexivity. assert (R : node_role n = r_state (rn_raft n)) by reflexivity. rewrite T in L1, L2. rewrite R in L2.
  destruct Hs as [[H _]|[(H1 & H2 & _)|(_ & _ & r0 & B1 & B2 & B3 & B4 & B5 & B6 & B7 & H)]]; [lia|tauto|].
  unfold lead_handle in H. rewrite Ht in H. unfold handle_heartbeat in H. apply bind_ok in H. destruct H as (l & Hl & H).
  apply send_ok in H. destruct H as [Hr _].
  pose proof (li_wf _ (ni_log _ (di_ninv _ D))) as W. rewrite <- B2 in W.
  pose proof (log_commit_to_abs (m_commit m) _ W) as G. destruct (_ <? m_commit m).
  { destruct G as [w G]. rewrite G in Hl. discriminate. }
  destruct G as [G _]. rewrite G in Hl. apply Ok_inj in Hl.
  assert (Id : r_id r0 = r_id (rn_raft n)) by (unfold r_id; congruence).
  assert (Rl : r_log r' = set_l_committed (N.max (l_committed (r_log r0)) (m_commit m)) (r_log r0)) by (rewrite Hr, <- Hl; reflexivity).
  split; [|split; [|split]].
  - split; [|split]; [change (r_state r' = RFollower)|change (r_term r' = m_term m)|change (r_lead r' = m_from m)]; rewrite Hr; cbn; auto.
  - apply same_log_abs; auto. cbn [rn_raft set_rn_raft]. rewrite Rl, log_abs_committed, B2. reflexivity.
  - change (l_committed (r_log r') = N.max (l_committed (r_log (rn_raft n))) (m_commit m)). rewrite Rl, B2. reflexivity.
  - eexists. split; [unfold pending; cbn [rn_raft set_rn_raft]; rewrite Hr; unfold emit; cbn [r_msgs set_r_msgs]; change (r_msgs (set_r_log l r0)) with (r_msgs r0); rewrite B5; reflexivity|].
    unfold answers, outm. cbn. repeat split; auto.
Qed.

(** C58, append messages. *)
Theorem C58_append_answered n m n' out :
  node_at n -> nop_ok (NStep m) n -> m_type m = MsgApp -> n_step (NStep m) n = Ok (n', out) -> listens n m ->
  follows n' (m_from m) (m_term m) /\
  exists a, pending n' = pending n ++ [a] /\ answers (node_id n) (m_term m) m a /\ m_type a = MsgAppResp /\
    ((* too old: everything up to the commit index is acknowledged *)
     (m_index m < node_commit n /\ m_reject a = false /\ m_index a = node_commit n /\
        same_log n n' /\ node_commit n' = node_commit n) \/
     (* accepted *)
     (node_commit n <= m_index m /\ has_prev n m /\
        m_reject a = false /\ m_index a = m_index m + nlen (m_entries m) /\ m_index a <= node_last n' /\
        node_first n' = node_first n /\
        (forall i e, i <= m_index m -> (holds_entry n' i e <-> holds_entry n i e)) /\
        (forall e, In e (m_entries m) -> exists x, holds_entry n' (e_index e) x /\ e_term x = e_term e /\
                     (x = e \/ holds_entry n (e_index e) x)) /\
        node_commit n' = N.max (node_commit n) (N.min (m_commit m) (m_index a))) \/
     (* refused, with a hint where the logs may still agree *)
     (node_commit n <= m_index m /\ ~ has_prev n m /\ m_reject a = true /\ m_index a = m_index m /\
        same_log n n' /\ node_commit n' = node_commit n /\ shows n (m_hint a) (m_logterm a) /\
        (shows n 0 0 -> m_hint a <= N.min (m_index m) (node_last n) /\ m_logterm a <= m_logterm m /\
           forall j t, m_hint a < j -> j <= N.min (m_index m) (node_last n) -> shows n j t -> m_logterm m < t))).
Proof.
  intros Ha Hok Ht H HL. pose proof (node_at_dinv _ Ha) as D. pose proof (proj1 (n_step_dinv _ _ _ _ Hok H D)) as D'.
  destruct (nstep_raft _ _ _ _ (or_introl Ht) (proj1 Hok) H) as (Hz & r' & e & Hs & ->). clear H.
  destruct Hok as [_ [Hw _]]. specialize (Hw Ht). destruct Hw as (Hw1 & Hw2 & Hw3).
  apply lead_step in Hs; auto. destruct HL as [L1 L2].
  assert (T : node_term n = r_term (rn_raft n)) by reflexivity. assert (R : node_role n = r_state (rn_raft n)) by reflexivity. rewrite T in L1, L2. rewrite R in L2.
  destruct Hs as [[H _]|[(H1 & H2 & _)|(_ & _ & r0 & B1 & B2 & B3 & B4 & B5 & B6 & B7 & H)]]; [lia|tauto|].
  unfold lead_handle in H. rewrite Ht in H. unfold handle_append_entries in H.
  pose proof (li_wf _ (ni_log _ (di_ninv _ D))) as W. pose proof (lwf_com _ W) as Wc. pose proof W as W0. rewrite <- B2 in W, Wc.
  assert (Id : r_id r0 = r_id (rn_raft n)) by (unfold r_id; congruence).
  assert (NC : node_commit n = l_committed (r_log r0)) by (rewrite B2; reflexivity).
  assert (NC' : node_commit (set_rn_raft r' n) = l_committed (r_log r')) by reflexivity.
  assert (NL : node_last n = a_last (log_abs (r_log r0))) by (unfold node_last; rewrite log_last_abs by (apply lwf_0; auto); rewrite B2; reflexivity).
  assert (Gen : forall r1 a, r' = emit (outm r1 a) r1 -> r_state r1 = RFollower -> r_term r1 = m_term m -> r_lead r1 = m_from m -> r_msgs r1 = r_msgs r0 -> r_cfg r1 = r_cfg r0 ->
    m_from a = 0 -> m_to a = m_from m -> m_type a = MsgAppResp ->
    follows (set_rn_raft r' n) (m_from m) (m_term m) /\ pending (set_rn_raft r' n) = pending n ++ [outm r1 a] /\
      answers (node_id n) (m_term m) m (outm r1 a) /\ m_type (outm r1 a) = MsgAppResp /\ m_reject (outm r1 a) = m_reject a /\ m_index (outm r1 a) = m_index a /\
      m_hint (outm r1 a) = m_hint a /\ m_logterm (outm r1 a) = m_logterm a).
  { intros r1 a -> G1 G2 G3 G4 G5 G6 G7 G8. split; [|split].
    - split; [|split]; [change (r_state r1 = RFollower)|change (r_term r1 = m_term m)|change (r_lead r1 = m_from m)]; auto.
    - unfold pending; cbn [rn_raft set_rn_raft]; unfold emit; cbn [r_msgs set_r_msgs]. rewrite G4, B5. reflexivity.
    - unfold outm, answers. rewrite G6. cbn [N.eqb]. change (0 =? 0) with true. cbv iota. cbn [m_type set_m_from]. rewrite G8. cbn.
      assert (r_id r1 = node_id n) by (unfold r_id, node_id; cbn; unfold r_id; congruence). repeat split; auto. }
  destruct (N.ltb_spec (m_index m) (l_committed (r_log r0))) as [Hc|Hc].
  - apply send_ok in H. destruct H as [Hr _]. destruct (Gen r0 _ Hr B1 B3 B6 eq_refl eq_refl eq_refl eq_refl eq_refl) as (F1 & F2 & F3 & F4 & F5 & F6 & F7 & F8).
    assert (Rl : r_log r' = r_log r0) by (rewrite Hr; reflexivity). clear Hr Gen.
    split; [exact F1|]. eexists. split; [exact F2|]. split; [exact F3|]. split; [exact F4|]. left. rewrite F5, F6, NC', NC, Rl. cbn.
    repeat split; auto; try (apply same_log_abs; auto; cbn [rn_raft set_rn_raft]; rewrite Rl, B2; reflexivity).
    all: intros X; eapply same_log_abs; eauto; cbn [rn_raft set_rn_raft]; rewrite Rl, B2; reflexivity.
  - assert (Hr0 : a_base (log_abs (r_log r0)) <= m_index m) by lia.
    assert (HP : has_prev n m <-> a_term0 (log_abs (r_log r0)) (m_index m) = m_logterm m) by (unfold has_prev; rewrite shows_abs, B2 by auto; tauto).
    destruct (N.eq_dec (a_term0 (log_abs (r_log r0)) (m_index m)) (m_logterm m)) as [Hm|Hm].
    + assert (Hm' : a_term (log_abs (r_log r0)) (m_index m) = Some (m_logterm m)).
      { unfold a_term0 in Hm. destruct (a_term (log_abs (r_log r0)) (m_index m)) eqn:Q; [congruence|].
        symmetry in Hm. apply Hw3 in Hm. destruct (a_term_in (log_abs (r_log r0)) (m_index m)) as [t Qt]; [|congruence].
        rewrite Hm. split; [|apply N.le_0_l]. rewrite Hm in Hr0. exact Hr0. }
      destruct (log_maybe_append_match (m_index m) (m_logterm m) (m_commit m) (m_entries m) (r_log r0) W Hw1 Hw2 Hm') as (k & HK & G).
      destruct (_ && _) eqn:Hb; [destruct G as [w G]; rewrite G in H; discriminate|].
      destruct G as (l' & G & W' & Gl & Gc & _). rewrite G in H. cbn [bind] in H. clear G.
      apply send_ok in H. destruct H as [Hr _].
      destruct (Gen (set_r_log l' r0) _ Hr B1 B3 B6 eq_refl eq_refl eq_refl eq_refl eq_refl) as (F1 & F2 & F3 & F4 & F5 & F6 & F7 & F8).
      assert (Rl : r_log r' = l') by (rewrite Hr; reflexivity). clear Hr Gen.
      split; [exact F1|]. eexists. split; [exact F2|]. split; [exact F3|]. split; [exact F4|]. right; left.
      rewrite F5, F6. cbn [m_reject m_index set_m_index]. split; [lia|]. split; [tauto|]. split; [reflexivity|]. split; [reflexivity|].
      destruct HK as (K1 & K2 & K3).
      pose proof (a_term_range _ _ _ Hm') as Hrg.
      assert (Hlen : a_base (log_abs l') = a_base (log_abs (r_log r0)) /\ m_index m + nlen (m_entries m) <= a_last (log_abs l') /\
        (forall i, i <= m_index m + k -> a_entry (log_abs l') i = a_entry (log_abs (r_log r0)) i) /\
        (forall j e1, k <= j -> nnth (m_entries m) j = Some e1 -> a_entry (log_abs l') (e_index e1) = Some e1)).
      { assert (Hkl : m_index m + k <= a_last (log_abs (r_log r0))).
        { destruct (N.eqb_spec k 0); [lia|]. destruct (nnth_lt_Some (m_entries m) (k - 1)) as [e1 He1]; [lia|].
          pose proof (Hw1 _ _ He1) as Hi. pose proof (K2 (k - 1) e1 ltac:(lia) He1) as Hte. apply a_term_range in Hte. lia. }
        rewrite Gl. destruct (N.ltb_spec k (nlen (m_entries m))).
        - split; [reflexivity|]. split; [rewrite a_last_replace by (unfold a_first; lia); rewrite nlen_ndrop; lia|].
          split.
          + intros i Hi. unfold a_entry, a_replace. cbn [a_base a_ents]. destruct (N.ltb_spec (a_base (log_abs (r_log r0))) i); auto.
            rewrite nnth_app1 by (rewrite nlen_ntake; unfold a_last in Hkl; lia). rewrite nnth_ntake. destruct (N.ltb_spec (i - a_base (log_abs (r_log r0)) - 1) (m_index m + 1 + k - a_base (log_abs (r_log r0)) - 1)); [reflexivity|lia].
          + intros j e1 Hj He1. pose proof (Hw1 _ _ He1) as Hi. unfold a_entry, a_replace. cbn [a_base a_ents]. rewrite Hi.
            destruct (N.ltb_spec (a_base (log_abs (r_log r0))) (m_index m + 1 + j)); [|lia].
            rewrite nnth_app2 by (rewrite nlen_ntake; unfold a_last in Hkl; lia). rewrite nlen_ntake, nnth_ndrop.
            rewrite <- He1. f_equal. unfold a_last in Hkl. lia.
        - assert (k = nlen (m_entries m)) by lia. subst k. split; [reflexivity|]. split; [lia|]. split; [auto|].
          intros j e1 Hj He1. apply nnth_Some_lt in He1. lia. }
      destruct Hlen as (Q1 & Q2 & Q3 & Q4).
      split; [unfold node_last; rewrite log_last_abs by (apply lwf_0; exact (li_wf _ (ni_log _ (di_ninv _ D')))); cbn [rn_raft set_rn_raft]; rewrite Rl; lia|].
      split; [unfold node_first; rewrite !log_first_abs; cbn [rn_raft set_rn_raft]; rewrite Rl; unfold a_first; rewrite Q1, B2; reflexivity|].
      split.
      * intros i x Hi. rewrite !holds_abs by auto. cbn [rn_raft set_rn_raft]. rewrite Rl, Q3, B2 by lia. tauto.
      * split; [|rewrite NC', NC, Rl; exact Gc].
        intros e1 He1. apply In_nnth in He1. destruct He1 as [j Hj]. destruct (N.lt_ge_cases j k) as [Hjk|Hjk].
        -- pose proof (K2 j e1 Hjk Hj) as Hte. pose proof (Hw1 _ _ Hj) as Hi.
           unfold a_term in Hte. destruct (N.eqb_spec (e_index e1) (a_base (log_abs (r_log r0)))); [lia|].
           destruct (a_entry (log_abs (r_log r0)) (e_index e1)) as [x|] eqn:Hx; [|discriminate]. cbn in Hte. injection Hte as Hte.
           exists x. rewrite !holds_abs by auto. cbn [rn_raft set_rn_raft]. rewrite Rl, Q3 by lia. rewrite B2 in *. auto.
        -- exists e1. rewrite !holds_abs by auto. cbn [rn_raft set_rn_raft]. rewrite Rl, (Q4 j) by auto. auto.
    + rewrite log_maybe_append_mismatch in H by (auto using lwf_0). cbn [bind] in H. cbn [r_log set_r_log] in H.
      apply bind_ok in H. destruct H as (h & Hh & H). apply bind_ok in H. destruct H as (t & Hth & H).
      destruct t as [ht|]; [|discriminate]. apply send_ok in H. destruct H as [Hr _].
      destruct (Gen (set_r_log (r_log r0) r0) _ Hr B1 B3 B6 eq_refl eq_refl eq_refl eq_refl eq_refl) as (F1 & F2 & F3 & F4 & F5 & F6 & F7 & F8).
      assert (Rl : r_log r' = r_log r0) by (rewrite Hr; reflexivity). clear Hr Gen.
      split; [exact F1|]. eexists. split; [exact F2|]. split; [exact F3|]. split; [exact F4|]. right; right.
      rewrite F5, F6, F7, F8. cbn [m_reject m_index m_hint m_logterm set_m_index set_m_reject set_m_hint set_m_logterm]. split; [lia|]. split; [tauto|]. split; [reflexivity|]. split; [reflexivity|].
      split; [apply same_log_abs; auto; cbn [rn_raft set_rn_raft]; rewrite Rl, B2; reflexivity|].
      split; [rewrite NC', NC, Rl; reflexivity|].
      assert (Sh : shows n h ht) by (unfold shows; rewrite <- B2; exact Hth).
      split; [exact Sh|]. intros H0. rewrite shows_abs in H0 by auto.
      assert (RL : r_last (set_r_log (r_log r0) r0) = node_last n) by (unfold r_last; cbn [r_log set_r_log]; rewrite log_last_abs by (auto using lwf_0); rewrite NL; reflexivity).
      rewrite RL in Hh. rewrite B2 in Hh.
      destruct (log_fcbt_abs (N.min (m_index m) (node_last n)) (m_logterm m) (r_log (rn_raft n)) (lwf_0 _ W0) H0) as (x & X1 & _ & X2).
      rewrite X1 in Hh. apply Ok_inj in Hh. subst x. rewrite NL, B2 in X2 |- *. destruct (X2 ltac:(lia)) as (Y1 & Y2 & Y3).
      split; [exact Y1|]. rewrite shows_abs in Sh by auto. split; [rewrite <- Sh; exact Y2|].
      intros j t J1 J2 J3. rewrite shows_abs in J3 by auto. rewrite <- J3. apply Y3; auto.
Qed.

(** C58, messages of an old leader: with CheckQuorum or PreVote it is told the current term. *)
Theorem C58_stale_leader_told c n m n' out :
  made c n -> nop_ok (NStep m) n -> m_type m = MsgApp \/ m_type m = MsgHeartbeat ->
  n_step (NStep m) n = Ok (n', out) -> m_term m < node_term n ->
  if c_check_quorum c || c_pre_vote c
  then exists a, n' = set_rn_raft (set_r_msgs (pending n ++ [a]) (rn_raft n)) n /\
         answers (node_id n) (node_term n) m a /\ m_type a = MsgAppResp
  else n' = n.
Proof.
  intros Hm Hok Ht H Hlt. pose proof (made_inv _ _ Hm) as M.
  destruct (nstep_raft _ _ _ _ Ht (proj1 Hok) H) as (Hz & r' & e & Hs & ->). clear H.
  apply lead_step in Hs; auto. change (m_term m < r_term (rn_raft n)) in Hlt.
  destruct Hs as [[_ Hs]|[(H1 & H2 & _)|(H1 & _)]]; [|lia|lia].
  rewrite (mi_cfg _ _ M) in Hs. cbn [cfg_of k_check_quorum k_pre_vote] in Hs. destruct (c_check_quorum c || c_pre_vote c).
  - subst r'. eexists. split; [reflexivity|]. unfold answers, outm. cbn. repeat split; auto.
  - subst r'. apply self_raft.
Qed.
End Props.

(** Concrete cases on the example node (log 6..7, commit 6, term of the last entry 2): an append
    that fits, one that does not, one below the commit index; a heartbeat; a message of an old leader. *)
Definition ex_app (i lt com : N) (es : list entry) : msg :=
  set_m_commit com (set_m_entries es (set_m_index i (set_m_logterm lt (set_m_term 4 (set_m_from 2 (set_m_to 1 (new_msg MsgApp))))))).
Definition ex_answer (m : msg) (reject : bool) (index last commit : N) : Prop :=
  exists n n' out, @node_at ex_env n /\ nop_ok (NStep m) n /\ @n_step ex_env (NStep m) n = Ok (n', out) /\
    ((node_term n <? m_term m) && (node_last n =? 7) && (node_commit n =? 6) && (node_last n' =? last) && (node_commit n' =? commit) &&
     match rev (pending n') with a :: _ => Bool.eqb (m_reject a) reject && (m_index a =? index) | [] => false end) = true.
Example C58_example_fits : ex_answer (ex_app 7 2 8 [mkEntry 4 8 EntryNormal "a"; mkEntry 4 9 EntryNormal "b"]) false 9 9 8.
Proof. apply (case_ok (ex_cfg 1) ex_tape [] _ _). vm_compute. reflexivity. Qed.
Example C58_example_overwrites : ex_answer (ex_app 6 1 6 [mkEntry 4 7 EntryNormal "a"; mkEntry 4 8 EntryNormal "b"]) false 8 8 6.
Proof. apply (case_ok (ex_cfg 1) ex_tape [] _ _). vm_compute. reflexivity. Qed.
Example C58_example_refused : ex_answer (ex_app 9 3 8 [mkEntry 4 10 EntryNormal "a"]) true 9 7 6.
Proof. apply (case_ok (ex_cfg 1) ex_tape [] _ _). vm_compute. reflexivity. Qed.
Example C58_example_old : ex_answer (ex_app 5 1 8 [mkEntry 4 6 EntryNormal "a"]) false 6 7 6.
Proof. apply (case_ok (ex_cfg 1) ex_tape [] _ _). vm_compute. reflexivity. Qed.
Example C58_example_heartbeat : ex_answer (set_m_ctx "ctx" (set_m_commit 7 (set_m_term 4 (set_m_from 2 (set_m_to 1 (new_msg MsgHeartbeat)))))) false 0 7 7.
Proof. apply (case_ok (ex_cfg 1) ex_tape [] _ _). vm_compute. reflexivity. Qed.
