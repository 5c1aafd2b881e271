(** Terms, votes, pre-votes and the leader lease (C28, C29, C31, C32). *)
From Verif Require Import Prelude Types M_Util M_Quorum M_Inflights M_Progress M_Tracker.
From Verif Require Import M_Storage M_Unstable M_Log M_ReadOnly M_ConfPb M_ConfChange M_Raft M_RawNode.
From Verif Require Import P_Inflights P_Frame P_Prim Sys_Node P_Node P_Fields P_Vote Spec_Node P_Persist P_New P_Time.
From Verif Require Import Ex_Env Ex_Node.

Section Props.
Context {E : Env}.

(** C28: over any sequence of API calls, on any node state whatsoever, the term never decreases
    and the vote only changes with a higher term or from none. *)
Theorem C28_term_monotone os n n' outs :
  Forall nop_wf os -> n_run os n = Ok (n', outs) -> hs_forward (node_hard n) (node_hard n').
Proof.
  intros Hw H. apply (n_run_aprs os n n' outs [] Hw) in H. apply aprs_tv in H. exact (proj2 H).
Qed.

(** C29: in one life, and across restarts, votes granted in one term all go to one candidate. *)
Theorem C29_one_vote_per_term c tape n os n' outs m1 m2 :
  rn_new c tape = Ok n -> Forall nop_wf os -> n_run os n = Ok (n', outs) ->
  In m1 (sent outs) -> In m2 (sent outs) -> grants m1 -> grants m2 -> m_term m1 = m_term m2 ->
  m_to m1 = m_to m2.
Proof.
  intros Hn Hw Hr I1 I2 G1 G2 Ht. apply rn_new_fresh in Hn. destruct Hn as (A1 & A2 & A3).
  pose proof (n_run_pinv _ _ _ _ _ _ Hw Hr (pinv_fresh n A1 A2 A3)) as P. cbn [app] in P.
  apply (proj2 (pi_v _ _ _ P) m1 m2); auto; cbn [fst]; apply in_or_app; auto.
Qed.

(** C29: the vote is in the HardState the application was told to persist no later than in the
    Ready that carries the response. *)
Theorem C29_vote_persisted c tape n os n' outs m :
  rn_new c tape = Ok n -> Forall nop_wf os -> n_run os n = Ok (n', outs) ->
  In m (sent outs) -> grants m -> records (persisted (node_hard n) (readys outs)) m.
Proof.
  intros Hn Hw Hr I1 G1. apply rn_new_fresh in Hn. destruct Hn as (A1 & A2 & A3).
  pose proof (n_run_pinv _ _ _ _ _ _ Hw Hr (pinv_fresh n A1 A2 A3)) as P. cbn [app] in P.
  destruct (pi_ms _ _ _ P m I1 G1) as [_ [H|(H1&H2&_)]]; [left; auto|right; auto].
Qed.

Lemma lives_inv ms h : lives ms h ->
  (forall m, In m ms -> grants m -> hrecorded h m) /\
  (forall m1 m2, In m1 ms -> In m2 ms -> grants m1 -> grants m2 -> m_term m1 = m_term m2 -> m_to m1 = m_to m2).
Proof.
  induction 1 as [h|ms h c s tape n os n' outs L [I1 I2] Hs Hh Hn Hw Hr].
  - split; intros; easy.
  - pose proof Hn as Hn'. apply rn_new_spec in Hn'. destruct Hn' as (r & Hr' & En).
    apply raft_new_spec in Hr'. destruct Hr' as (s' & cp & _ & Hs' & _ & _ & _ & _ & F).
    assert (s' = s) by congruence. subst s'.
    destruct (rn_new_fresh _ _ _ Hn) as (A1 & A2 & A3).
    assert (Ht : hs_term (hard_state (rn_raft n)) = hs_term h /\ hs_vote (hard_state (rn_raft n)) = hs_vote h).
    { rewrite En. cbn. rewrite (fr_term _ _ _ _ F), (fr_vote _ _ _ _ F). subst h. auto. }
    assert (P : pinv ms h n).
    { constructor.
      - split; cbn [fst snd]; rewrite A1, app_nil_r; auto. intros m Hi Hg. specialize (I1 m Hi Hg).
        unfold hrecorded in I1. rewrite <- (proj1 Ht), <- (proj2 Ht) in I1. exact I1.
      - rewrite A2. right. destruct Ht as [-> ->]. auto.
      - right. destruct Ht as [-> ->]. auto.
      - rewrite A3. discriminate.
      - auto. }
    pose proof (n_run_pinv _ _ _ _ _ _ Hw Hr P) as P'. split.
    + apply (pi_ms _ _ _ P').
    + intros m1 m2 J1 J2 G1 G2 Et. apply (proj2 (pi_v _ _ _ P') m1 m2); auto; cbn [fst]; apply in_or_app; auto.
Qed.

Theorem C29_across_restarts ms h m1 m2 :
  lives ms h -> In m1 ms -> In m2 ms -> grants m1 -> grants m2 -> m_term m1 = m_term m2 ->
  m_to m1 = m_to m2.
Proof. intros L. apply (proj2 (lives_inv _ _ L)). Qed.

(** C31: handling a pre-vote request changes nothing but the outbox. *)
Theorem C31_prevote_no_side_effects m n n' e :
  m_type m = MsgPreVote -> rn_step m n = Ok (n', e) ->
  exists out, n' = set_rn_raft (set_r_msgs (r_msgs (rn_raft n) ++ out) (rn_raft n)) n /\
    rn_status n' = rn_status n /\ nlen out <= 1.
Proof.
  intros Ht H.
  assert (S : forall x r r', send x r = Ok r' -> exists out, r' = set_r_msgs (r_msgs r ++ out) r /\ nlen out <= 1).
  { intros x r r' Hx. unfold send in Hx. cbv zeta in Hx. repeat match type of Hx with (if ?b then _ else _) = _ => destruct b end; inv Hx;
      (eexists [_]; split; [reflexivity|apply N.leb_le; reflexivity]). }
  assert (Z : exists out, rn_raft n' = set_r_msgs (r_msgs (rn_raft n) ++ out) (rn_raft n) /\ nlen out <= 1 /\
              n' = set_rn_raft (rn_raft n') n).
  { unfold rn_step in H. rewrite Ht in H. cbn [is_local_msg is_response_msg negb] in H. rewrite orb_true_r in H.
    unfold rn_raft_step in H. apply bind_ok in H. destruct H as ([r1 e1] & H & Hx). inv Hx. cbn [rn_raft set_rn_raft].
    assert (N0 : exists out, rn_raft n = set_r_msgs (r_msgs (rn_raft n) ++ out) (rn_raft n) /\ nlen out <= 1).
    { exists []. rewrite app_nil_r, set_eta. split; [auto|apply N.leb_le; reflexivity]. }
    assert (Hd : step_dispatch m (rn_raft n) = Ok (r1, e) -> exists out, r1 = set_r_msgs (r_msgs (rn_raft n) ++ out) (rn_raft n) /\ nlen out <= 1).
    { unfold step_dispatch. rewrite Ht. unfold okr. intros Hq. apply bind_ok in Hq. destruct Hq as (r2 & Hq & Hx). inv Hx.
      unfold step_vote in Hq. rewrite Ht in Hq. cbn [mtype_eqb vote_resp_type bind] in Hq.
      apply bind_ok in Hq. destruct Hq as (up & _ & Hq).
      destruct up; [apply bind_ok in Hq; destruct Hq as (r2 & Hq & Hx); inv Hx|]; eapply S; eauto. }
    assert (K : exists out, r1 = set_r_msgs (r_msgs (rn_raft n) ++ out) (rn_raft n) /\ nlen out <= 1).
    { unfold step in H. rewrite Ht in H. cbn [mtype_eqb orb andb] in H.
      destruct (m_term m =? 0); [auto|]. destruct (r_term (rn_raft n) <? m_term m).
      - destruct (_ && in_lease _); [inv H; auto|auto].
      - destruct (m_term m <? r_term (rn_raft n)); [|auto].
        rewrite andb_false_r in H. unfold okr in H. apply bind_ok in H. destruct H as (r2 & H & Hx). inv Hx. eapply S; eauto. }
    destruct K as (out & K1 & K2). exists out. auto. }
  destruct Z as (out & Z1 & Z2 & Z3). exists out. rewrite Z1 in Z3. split; auto. split; auto. rewrite Z3. reflexivity.
Qed.

(** C31: neither a tick nor a call to Campaign that makes the node a pre-candidate touches its term
    or its vote. *)
Theorem C31_precandidate_keeps_term n n' :
  (rn_tick n = Ok n' \/ exists e, rn_campaign n = Ok (n', e)) -> node_role n' = RPreCandidate ->
  hs_term (node_hard n') = hs_term (node_hard n) /\ hs_vote (node_hard n') = hs_vote (node_hard n).
Proof.
  assert (C : forall n n' e, rn_campaign n = Ok (n', e) -> node_role n' = RPreCandidate ->
    hs_term (node_hard n') = hs_term (node_hard n) /\ hs_vote (node_hard n') = hs_vote (node_hard n)).
  { intros a b e H Hr. unfold rn_campaign, rn_raft_step in H. rewrite hup_step in H by reflexivity. unfold okr in H.
    apply bind_ok in H. destruct H as ([r1 e1] & H & Hx). inv Hx. apply bind_ok in H. destruct H as (r2 & H & Hx). inv Hx.
    cbn in Hr |- *. apply hup_state in H. destruct H as [->|[(_&H1&H2)|([H1|H1]&_)]]; auto; congruence. }
  intros [H|[e H]] Hr; [|eapply C; eauto].
  assert (Hd : r_state (rn_raft n) = RLeader \/ r_state (rn_raft n) <> RLeader)
    by (destruct (r_state (rn_raft n)); auto; right; discriminate).
  destruct Hd as [Hs|Hl].
  2: destruct (promotable (rn_raft n)) eqn:Hp; [destruct (N.ltb_spec (r_el_elapsed (rn_raft n) + 1) (r_rand_timeout (rn_raft n)))|];
    [rewrite tick_quiet in H by auto; inv H; cbn; auto
    |rewrite tick_fires in H by auto; apply bind_ok in H; destruct H as ([n1 e] & H & Hx); inv Hx; apply C in H; auto
    |rewrite tick_quiet in H by auto; inv H; cbn; auto].
  exfalso. revert Hr. unfold rn_tick in H. apply bind_ok in H. destruct H as (r1 & H & Hx). inv Hx. cbn.
  unfold tick in H. rewrite Hs in H. unfold tick_heartbeat in H. cbv zeta in H.
  set (r0 := set_r_el_elapsed _ _) in H. assert (S0 : r_state r0 = RLeader) by exact Hs. clearbody r0.
  apply bind_ok in H. destruct H as (r2 & H1 & H).
  assert (S2 : r_state r2 = RLeader \/ r_state r2 = RFollower).
  { destruct (_ <=? _); [|inv H1; auto]. apply bind_ok in H1. destruct H1 as (r3 & H1 & H2).
    assert (S3 : r_state r3 = RLeader \/ r_state r3 = RFollower).
    { destruct (k_check_quorum _); [|inv H1; auto]. apply bind_ok in H1. destruct H1 as ([r4 e4] & H1 & Hx). inv Hx.
      unfold step in H1. cbn in H1. unfold step_dispatch in H1. cbn in H1. rewrite S0 in H1. cbn in H1. inv H1.
      unfold leader_check_quorum. cbv zeta. destruct (trk_quorum_active _); cbn; [|auto].
      destruct (trk_get _ _); cbn; auto. }
    destruct (_ && _); inv H2; auto. }
  destruct (negb (is_leader r2)); [apply Ok_inj in H; subst r2; destruct S2; congruence|].
  destruct (k_hb_timeout (r_cfg r2) <=? r_hb_elapsed r2); [|apply Ok_inj in H; subst r2; destruct S2; congruence].
  apply bind_ok in H. destruct H as ([r4 e4] & H & Hx). inv Hx.
  assert (Hb : step (set_m_from (r_id r2) (new_msg MsgBeat)) (set_r_hb_elapsed 0 r2) =
    match r_state r2 with RLeader => okr (bcast_heartbeat (set_r_hb_elapsed 0 r2)) | RFollower => Ok (set_r_hb_elapsed 0 r2, None)
    | _ => step (set_m_from (r_id r2) (new_msg MsgBeat)) (set_r_hb_elapsed 0 r2) end).
  { unfold step. change (m_term _ =? 0) with true. cbv iota. unfold step_dispatch. cbn [m_type set_m_from new_msg].
    change (r_state (set_r_hb_elapsed 0 r2)) with (r_state r2). destruct (r_state r2); reflexivity. }
  rewrite Hb in H. destruct S2 as [S2|S2]; rewrite S2 in H.
  - unfold okr in H. apply bind_ok in H. destruct H as (r5 & H & Hx). inv Hx. unfold bcast_heartbeat in H. apply bcast_heartbeat_ctx_sends in H.
    rewrite (sm_state _ _ (sd_same _ _ H)). change (r_state (set_r_hb_elapsed 0 r2)) with (r_state r2). congruence.
  - apply Ok_inj in H. inv H. cbn. congruence.
Qed.

(** C32: in its lease a node drops vote and pre-vote requests of higher terms: nothing at all
    changes.  First for any state, then as a statement about what the node has received. *)
Definition asks_vote (m : msg) : Prop := m_type m = MsgVote \/ m_type m = MsgPreVote.
Theorem C32_lease_state m n :
  k_check_quorum (r_cfg (rn_raft n)) = true -> node_lead n <> 0 ->
  r_el_elapsed (rn_raft n) < k_el_timeout (r_cfg (rn_raft n)) ->
  asks_vote m -> m_ctx m <> "CampaignTransfer"%string -> hs_term (node_hard n) < m_term m ->
  rn_step m n = Ok (n, None).
Proof.
  intros Hc Hl He Hv Hx Ht. cbn in Hl, Ht.
  assert (K : step m (rn_raft n) = Ok (rn_raft n, None)).
  { unfold step. destruct (N.eqb_spec (m_term m) 0); [lia|]. destruct (N.ltb_spec (r_term (rn_raft n)) (m_term m)); [|lia].
    unfold in_lease. rewrite Hc. destruct (N.eqb_spec (r_lead (rn_raft n)) 0); [tauto|].
    destruct (N.ltb_spec (r_el_elapsed (rn_raft n)) (k_el_timeout (r_cfg (rn_raft n)))); [|lia].
    destruct (String.eqb_spec (m_ctx m) campaign_transfer_ctx); [tauto|].
    destruct Hv as [-> | ->]; reflexivity. }
  unfold rn_step, rn_raft_step. rewrite K. cbn.
  destruct Hv as [-> | ->]; cbn [is_local_msg is_response_msg negb]; rewrite orb_true_r; destruct n; reflexivity.
Qed.

Definition from_leader (m : msg) : Prop := m_type m = MsgApp \/ m_type m = MsgHeartbeat \/ m_type m = MsgSnap.
Lemma handle_frame m r r' : from_leader m -> r_state r = RFollower ->
  (handle_append_entries m r = Ok r' \/ handle_heartbeat m r = Ok r' \/ handle_snapshot m r = Ok r') ->
  r_cfg r' = r_cfg r /\ r_lead r' = r_lead r /\ r_el_elapsed r' = r_el_elapsed r /\
  r_state r' = RFollower /\ r_rand_timeout r' = r_rand_timeout r /\ r_term r' = r_term r.
Proof.
  intros Hm Hs H.
  assert (S : forall x a b, send x a = Ok b -> exists ms, b = set_r_msgs ms a).
  { intros x a b Hx. apply send_ok in Hx. destruct Hx as [-> _]. eexists. reflexivity. }
  destruct H as [H|[H|H]].
  - unfold handle_append_entries in H. cbv zeta in H. destruct (_ <? _).
    + apply S in H. destruct H as [ms ->]. cbn. auto 10.
    + apply bind_ok in H. destruct H as ([l o] & _ & H). destruct o as [last|].
      * apply S in H. destruct H as [ms ->]. cbn. auto 10.
      * apply bind_ok in H. destruct H as (h & _ & H). apply bind_ok in H. destruct H as ([t|] & _ & H); [|discriminate].
        apply S in H. destruct H as [ms ->]. cbn. auto 10.
  - unfold handle_heartbeat in H. apply bind_ok in H. destruct H as (l & _ & H). apply S in H. destruct H as [ms ->]. cbn. auto 10.
  - unfold handle_snapshot in H. apply bind_ok in H. destruct H as ([r1 b] & H1 & H). apply S in H. destruct H as [ms ->]. cbn.
    destruct b.
    + apply restore_inv in H1; auto. destruct H1 as (_ & _ & _ & cp & pr & pr' & b & _ & _ & _ & _ & ->). cbn. auto 10.
    + unfold raft_restore in H1. destruct (_ <=? _); [inv H1; auto 10|]. rewrite Hs in H1. cbn [role_eqb negb] in H1.
      destruct (negb _); [inv H1; auto 10|]. apply bind_ok in H1. destruct H1 as (mt & _ & H1). destruct mt.
      * apply bind_ok in H1. destruct H1 as (l & _ & H1). inv H1. cbn. auto 10.
      * destruct (cc_restore _ _) as [cp|]; [|discriminate]. apply bind_ok in H1. destruct H1 as ([r2 cs2] & _ & H1).
        destruct (negb _); [discriminate|]. destruct (trk_get _ _); [|discriminate]. destruct (pr_maybe_update _ _). discriminate.
Qed.
Lemma heard_dispatch m r r1 e k : from_leader m -> r_cfg r = k -> r_state r <> RLeader -> step_dispatch m r = Ok (r1, e) ->
  r_cfg r1 = k /\ r_lead r1 = m_from m /\ r_el_elapsed r1 = 0 /\ r_state r1 = RFollower.
Proof.
  intros Hm Hc Hnl Hd.
  assert (G : forall r0, r_cfg r0 = k -> r_lead r0 = m_from m -> r_el_elapsed r0 = 0 -> r_state r0 = RFollower ->
      (handle_append_entries m r0 = Ok r1 \/ handle_heartbeat m r0 = Ok r1 \/ handle_snapshot m r0 = Ok r1) ->
      r_cfg r1 = k /\ r_lead r1 = m_from m /\ r_el_elapsed r1 = 0 /\ r_state r1 = RFollower).
  { intros r0 G1 G2 G3 G4 G5. destruct (handle_frame m r0 r1 Hm G4 G5) as (K1&K2&K3&K4&_). repeat split; congruence. }
  assert (A : exists r0, r_cfg r0 = k /\ r_lead r0 = m_from m /\ r_el_elapsed r0 = 0 /\ r_state r0 = RFollower /\
     (handle_append_entries m r0 = Ok r1 \/ handle_heartbeat m r0 = Ok r1 \/ handle_snapshot m r0 = Ok r1)).
  { assert (B : exists r0, r_cfg r0 = k /\ r_lead r0 = m_from m /\ r_el_elapsed r0 = 0 /\ r_state r0 = RFollower /\
       r0 = become_follower (m_term m) (m_from m) r).
    { exists (become_follower (m_term m) (m_from m) r). unfold become_follower. hide (reset (m_term m) r) r2 E2.
      destruct (reset_fields _ _ _ E2) as (A1&_). destruct (reset_more _ _ _ E2) as (_&_&_&_&_&_&A7&_). clear E2. cbn. subst k. auto. }
    destruct B as (rb & B1 & B2 & B3 & B4 & B5).
    unfold step_dispatch, step_candidate, step_follower in Hd. rewrite <- B5 in Hd. clear B5.
    assert (Hx : exists r0, r_cfg r0 = k /\ r_lead r0 = m_from m /\ r_el_elapsed r0 = 0 /\ r_state r0 = RFollower /\
       r0 = set_r_lead (m_from m) (set_r_el_elapsed 0 r) \/ r_state r <> RFollower).
    { destruct (r_state r) eqn:Es; try (exists r; right; discriminate). exists (set_r_lead (m_from m) (set_r_el_elapsed 0 r)). left. cbn. auto. }
    destruct Hx as (rf & [(F1 & F2 & F3 & F4 & F5)|F]); [rewrite <- F5 in Hd; clear F5|].
    all: destruct Hm as [Hm|[Hm|Hm]]; rewrite Hm in Hd; destruct (r_state r) eqn:Es; try tauto; unfold okr in Hd;
      apply bind_ok in Hd; destruct Hd as (r2 & Hd & Hx); inv Hx; eauto 12. }
  destruct A as (r0 & A1 & A2 & A3 & A4 & A5). eauto.
Qed.
Lemma heard_frame m n n' e : from_leader m -> peer_msg_wf m -> rn_step m n = Ok (n', e) ->
  hs_term (node_hard n') = m_term m -> (node_role n <> RLeader \/ hs_term (node_hard n) < m_term m) ->
  r_cfg (rn_raft n') = r_cfg (rn_raft n) /\ node_lead n' = m_from m /\ r_el_elapsed (rn_raft n') = 0 /\
  node_role n' = RFollower.
Proof.
  intros Hm [Hf Hz] H Ht Hr. cbn in Ht, Hr.
  assert (Hz' : m_term m <> 0).
  { intros X. apply Hz in X. destruct Hm as [Hm|[Hm|Hm]]; rewrite Hm in X; destruct X as [X|[X|X]]; discriminate. }
  assert (H' : rn_raft_step m n = Ok (n', e)).
  { unfold rn_step in H. assert (L : is_local_msg (m_type m) = false /\ is_response_msg (m_type m) = false)
      by (destruct Hm as [-> |[-> | ->]]; auto). destruct L as [L1 L2]. rewrite L1, L2, orb_true_r in H. exact H. }
  unfold rn_raft_step in H'. apply bind_ok in H'. destruct H' as ([r1 e1] & H1 & Hx). inv Hx. cbn in Ht |- *. clear H.
  unfold step in H1. destruct (N.eqb_spec (m_term m) 0); [tauto|]. destruct (N.ltb_spec (r_term (rn_raft n)) (m_term m)).
  - assert (Hb : mtype_eqb (m_type m) MsgVote || mtype_eqb (m_type m) MsgPreVote = false) by (destruct Hm as [-> |[-> | ->]]; auto).
    rewrite Hb in H1. cbn [andb] in H1.
    hide (become_follower (m_term m) (m_from m) (rn_raft n)) r2 E2.
    destruct (become_follower_fields _ _ _ _ E2) as (A1&A2&_&_&A5&_). clear E2.
    assert (H2 : step_dispatch m r2 = Ok (r1, e)) by (destruct Hm as [Hm|[Hm|Hm]]; rewrite Hm in H1; exact H1).
    clear H1. eapply heard_dispatch; eauto. congruence.
  - destruct (N.ltb_spec (m_term m) (r_term (rn_raft n))).
    + exfalso. destruct (_ && _).
      * unfold okr in H1. apply bind_ok in H1. destruct H1 as (r2 & H1 & Hx). inv Hx. apply send_ok in H1. destruct H1 as [-> _]. cbn in Ht. lia.
      * assert (Hb : mtype_eqb (m_type m) MsgPreVote = false) by (destruct Hm as [-> |[-> | ->]]; auto). rewrite Hb in H1. inv H1. lia.
    + eapply heard_dispatch; eauto. destruct Hr; auto. lia.
Qed.

Theorem C32_leader_lease c tape n0 os n1 outs m1 n2 e k n3 outs3 m :
  rn_new c tape = Ok n0 -> c_check_quorum c = true -> Forall nop_wf os -> n_run os n0 = Ok (n1, outs) ->
  (* the node accepts a message of the leader of its term, *)
  from_leader m1 -> peer_msg_wf m1 -> rn_step m1 n1 = Ok (n2, e) -> hs_term (node_hard n2) = m_term m1 ->
  (node_role n1 <> RLeader \/ hs_term (node_hard n1) < m_term m1) ->
  (* then fewer ticks than an election timeout pass, *)
  (Z.of_nat k < c_election_tick c)%Z -> n_run (repeat NTick k) n2 = Ok (n3, outs3) ->
  (* and it ignores candidates that did not get its leader's permission. *)
  asks_vote m -> m_ctx m <> "CampaignTransfer"%string -> hs_term (node_hard n3) < m_term m ->
  rn_step m n3 = Ok (n3, None).
Proof.
  intros Hn Hc Hw Hr Hm1 Hp1 H1 Ht1 Hl1 Hk Hrk Hm Hx Ht.
  apply rn_new_spec in Hn. destruct Hn as (r & Hn & ->).
  pose proof (raft_new_rand _ _ _ Hn) as (K0 & _). apply raft_new_spec in Hn. destruct Hn as (s & cp & Hv & _ & _ & _ & _ & _ & F).
  pose proof (n_run_aprs _ _ _ _ [] Hw Hr) as A1. pose proof (rand_ok_aprs _ _ A1 K0) as K1. apply aprs_tv in A1. cbn [snd rn_raft] in *.
  assert (A2 : aprs ([], rn_raft n1) ([], rn_raft n2)).
  { pose proof (n_step_aprs (NStep m1) n1 n2 (mkOut e None) []) as A. cbn [n_step] in A. rewrite H1 in A. apply A; auto. }
  pose proof (rand_ok_aprs _ _ A2 K1) as K2. cbn [snd] in K2.
  destruct (heard_frame _ _ _ _ Hm1 Hp1 H1 Ht1 Hl1) as (B1 & B2 & B3 & B4).
  assert (Ec : r_cfg (rn_raft n2) = cfg_of c) by (rewrite B1, (proj1 A1), (fr_cfg _ _ _ _ F); auto).
  assert (Et : Z.to_N (c_election_tick c) = k_el_timeout (r_cfg (rn_raft n2))) by (rewrite Ec; reflexivity).
  assert (Hq : n3 = elapse (N.of_nat k) n2).
  { assert (G : forall k n3 outs3 j, n_run (repeat NTick k) (elapse j n2) = Ok (n3, outs3) ->
       j + N.of_nat k < Z.to_N (c_election_tick c) -> n3 = elapse (N.of_nat k + j) n2).
    { clear Hk Hrk. clear n3 outs3 Ht k. induction k as [|k IH]; intros n3 outs3 j G1 G2; cbn [repeat n_run] in G1.
      - inv G1. reflexivity.
      - apply bind_ok in G1. destruct G1 as ([n4 o4] & G1 & G3). cbn [n_step] in G1.
        rewrite tick_quiet in G1; [|cbn; cbn in B4; congruence|right; cbn; rewrite B3; destruct K2; lia]. cbn [bind] in G1. inv G1.
        apply bind_ok in G3. destruct G3 as ([n5 o5] & G3 & G4). inv G4. rewrite elapse_elapse in G3.
        apply IH in G3; [|lia]. rewrite G3. f_equal. lia. }
    specialize (G k n3 outs3 0). replace (elapse 0 n2) with n2 in G.
    - rewrite G; auto; [f_equal; lia|lia].
    - unfold elapse, set_rn_raft, set_r_el_elapsed. rewrite N.add_0_r. destruct n2 as [[]]; reflexivity. }
  apply C32_lease_state; auto; rewrite Hq; cbn.
  - rewrite Ec. exact Hc.
  - cbn in B2. rewrite B2. apply Hp1.
  - rewrite B3. lia.
Qed.

End Props.

(** Non-vacuity. *)
(** Node 1 becomes leader of term 3, then a candidate of term 9 with an older log makes it follow. *)
Example C28_example : run_ok (ex_run (ex_cfg 1) (ex_elect ++ [NStep (ex_vote 3 9); NHandle]))
  (fun x => node_hard (fst x) = mkHardState 9 0 6).
Proof. vm_compute. reflexivity. Qed.
Example C29_example : run_ok (ex_run (ex_cfg 1) [NStep (ex_vote 3 9); NStep (ex_vote 2 9); NHandle])
  (fun x => map (fun m => (m_to m, m_reject m)) (sent (snd x)) = [(3, false); (2, true)] /\
            persisted (ms_hs ex_storage) (readys (snd x)) = mkHardState 9 3 6).
Proof. vm_compute. split; reflexivity. Qed.
(** The well-formedness hypothesis is needed: a term-0 heartbeat lowers a candidate's term. *)
Example C28_zero_term : run_ok (ex_run (ex_cfg 1) [NCampaign; NStep (set_m_from 2 (new_msg MsgHeartbeat))])
  (fun x => hs_term (node_hard (fst x)) = 0).
Proof. vm_compute. reflexivity. Qed.
Definition ex_prevote : msg := mkMsg MsgPreVote 1 3 9 2 7 [] 0 empty_snapshot false 0 EmptyString.
Example C31_example : run_ok (ex_run (ex_cfg_cq 1) [NStep ex_prevote; NHandle])
  (fun x => map (fun m => (m_to m, m_reject m, m_term m)) (sent (snd x)) = [(3, false, 9)] /\
            node_hard (fst x) = mkHardState 2 0 6).
Proof. vm_compute. split; reflexivity. Qed.
Example C31_example_pre : run_ok (ex_run (ex_cfg_cq 1) [NCampaign])
  (fun x => node_role (fst x) = RPreCandidate /\ hs_term (node_hard (fst x)) = 2).
Proof. vm_compute. split; reflexivity. Qed.
Definition ex_beat : msg := mkMsg MsgHeartbeat 1 2 3 0 0 [] 0 empty_snapshot false 0 EmptyString.
Example C32_example : run_ok (ex_run (ex_cfg_cq 1) (NStep ex_beat :: repeat NTick 9 ++ [NStep (ex_vote 3 9)]))
  (fun x => node_hard (fst x) = mkHardState 3 0 6 /\ node_lead (fst x) = 2).
Proof. vm_compute. split; reflexivity. Qed.
