(** How an election ends (C60). *)
From Verif Require Import Prelude Types M_Util M_Quorum M_Inflights M_Progress M_Tracker.
From Verif Require Import M_Storage M_Unstable M_Log M_ReadOnly M_ConfPb M_ConfChange M_Raft M_RawNode.
From Verif Require Import P_Inflights Spec_Log P_Lists P_Storage P_Log Spec_Storage Sys_Storage P_StorageSeq Spec_RaftLog Sys_RaftLog P_RaftLogSeq.
From Verif Require Import Spec_Quorum P_Quorum Spec_Progress Spec_ConfChange P_ConfChange.
From Verif Require Import P_Frame P_Prim Sys_Node Sys_ConfChange P_Node P_Fields P_Vote Spec_Node P_Persist P_New P_Time P_Conf P_NodeLog P_Handle P_NodeRun P_Emit P_Ack.
From Verif Require Import Prop_Vote P_Lead P_Elect R_Elig Spec_Flow Spec_Elect Spec_Snap Spec_Resp Prop_Deliver Prop_Msg Prop_Flow Prop_Answer Ex_Env Ex_Node Ex_Check Ex_Case.

Section Props.
Context {E : Env}.

Lemma node_at_tok n : node_at n -> tok (rn_raft n).
Proof.
  intros (c & tape & s & n0 & os & outs & H1 & H2 & H3 & H4 & H5).
  exact (tok_run _ _ _ _ _ _ H3 (nop_ok_wf _ _ H4 _ _ H5) H5).
Qed.

Lemma majority_agree c p q : (forall x, In x c -> p x = q x) -> majority c p -> majority c q.
Proof. intros H [M|M]; [left; auto|right]. rewrite <- (count_ext p q c H). exact M. Qed.

(* ---- one call ---- *)
Definition ballot_of (x : role) (t : N) (r : raft) (o : nop) : nmap bool :=
  match o with
  | NStep m => if counts x t m then match trk_get (m_from m) (r_trk r) with Some _ => poll_votes m (t_votes (r_trk r)) | None => t_votes (r_trk r) end
               else t_votes (r_trk r)
  | _ => t_votes (r_trk r)
  end.
Definition counted (x : role) (t : N) (r : raft) (o : nop) : Prop :=
  match o with NStep m => counts x t m = true /\ exists p, trk_get (m_from m) (r_trk r) = Some p | _ => False end.
Record ckept (x : role) (o : nop) (r r' : raft) : Prop := {
  ck_state : r_state r = x;
  ck_term : r_term r' = r_term r;
  ck_cfg : r_cfg r' = r_cfg r;
  ck_conf : t_config (r_trk r') = t_config (r_trk r);
  ck_votes : t_votes (r_trk r') = ballot_of x (r_term r) r o;
  ck_res : counted x (r_term r) r o -> tc_vote_result (t_config (r_trk r')) (t_votes (r_trk r')) = VotePending
}.
Definition cstarts (x : role) (o : nop) : Prop :=
  match o with NTick | NCampaign => True | NStep m => x = RCandidate | _ => False end.
Definition candidacy (x : role) : Prop := x = RCandidate \/ x = RPreCandidate.

Lemma tick_cands x r r' : candidacy x -> tick r = Ok r' -> r_state r' = x ->
  (r_state r = x /\ r_term r' = r_term r /\ r_cfg r' = r_cfg r /\ r_trk r' = r_trk r) \/ fresh x r r'.
Proof.
  intros Hx H X. unfold tick in H.
  assert (K : r_state r = RLeader /\ tick_heartbeat r = Ok r' \/ r_state r <> RLeader /\ tick_election r = Ok r')
    by (destruct (r_state r); auto; right; split; auto; discriminate). clear H. destruct K as [[Hs H]|[Hs H]].
  - exfalso. unfold tick_heartbeat in H. cbv zeta in H.
    set (r0 := set_r_el_elapsed (r_el_elapsed r + 1) (set_r_hb_elapsed (r_hb_elapsed r + 1) r)) in *.
    assert (K1 : r_state r0 = RLeader) by exact Hs. clearbody r0.
    assert (LF : forall m y z ee, step m y = Ok (z, ee) -> m_term m = 0 -> m_type m = MsgCheckQuorum \/ m_type m = MsgBeat -> r_state y = RLeader ->
       r_state z = RLeader \/ r_state z = RFollower).
    { intros m y z ee Hst Hz Ht Hy. unfold step in Hst. rewrite Hz in Hst. cbn [N.eqb] in Hst. unfold step_dispatch in Hst. rewrite Hy in Hst.
      assert (Hst' : step_leader m y = Ok (z, ee)) by (destruct Ht as [Ht|Ht]; rewrite Ht in Hst; exact Hst).
      apply (step_leader_lf _ _ _ _ Hy Hst'); auto. }
    apply bind_ok in H. destruct H as (r1 & H1 & H).
    assert (L1 : r_state r1 = RLeader \/ r_state r1 = RFollower).
    { match type of H1 with (if ?b then _ else _) = _ => destruct b end; [|inv H1; auto].
      apply bind_ok in H1. destruct H1 as (r2 & H2 & H1).
      assert (L2 : r_state r2 = RLeader \/ r_state r2 = RFollower).
      { match type of H2 with (if ?b then _ else _) = _ => destruct b end; [|inv H2; auto].
        apply bind_ok in H2. destruct H2 as ([r3 e3] & H3 & Hx'). inv Hx'. eapply LF; eauto. }
      destruct (_ && _); inv H1; auto. }
    destruct (is_leader r1) eqn:Hl; cbn [negb] in H; [|inv H; destruct Hx, L1; congruence].
    assert (Hl1 : r_state r1 = RLeader) by (unfold is_leader in Hl; destruct (r_state r1); auto; discriminate).
    match type of H with (if ?b then _ else _) = _ => destruct b end; [|inv H; destruct Hx; congruence].
    apply bind_ok in H. destruct H as ([r3 e3] & H3 & Hx'). inv Hx'. apply LF in H3; auto. destruct Hx, H3; congruence.
  - unfold tick_election in H. cbv zeta in H. match type of H with (if ?b then _ else _) = _ => destruct b end; [|inv H; left; auto].
    apply bind_ok in H. destruct H as ([r3 e3] & H3 & Hx'). inv Hx'.
    rewrite hup_step in H3 by reflexivity. unfold okr in H3. apply bind_ok in H3. destruct H3 as (r4 & H3 & Hx'). inv Hx'.
    destruct (hup_cand _ _ _ H3) as [-> |[F|[[_ F]|F]]]; [left; cbn; auto| | |].
    + right. rewrite (fc_state _ _ _ F). refine (fresh_from _ _ _ _ _ _ _ _ _ F); auto. reflexivity.
    + right. rewrite (fc_state _ _ _ F). refine (fresh_from _ _ _ _ _ _ _ _ _ F); auto.
    + exfalso. destruct F as (F & _). destruct Hx; congruence.
Qed.
Lemma local_counts x t m : candidacy x -> m_type m <> MsgVoteResp -> m_type m <> MsgPreVoteResp -> counts x t m = false.
Proof. apply not_counts. Qed.
Lemma n_step_cands x o n n' out : candidacy x -> nop_ok o n -> dinv n -> (forall cc, o <> NApplyCC cc) -> n_step o n = Ok (n', out) ->
  r_state (rn_raft n') = x -> ckept x o (rn_raft n) (rn_raft n') \/ (cstarts x o /\ fresh x (rn_raft n) (rn_raft n')).
Proof.
  intros Hx Hok D Hcc H. destruct (plain_dec o) as [Hp|Hp].
  - assert (S : forall m y z, rn_raft_step m n = Ok (y, z) -> (m_term m = 0 -> m_type m <> MsgVoteResp /\ m_type m <> MsgPreVoteResp) -> (m_type m = MsgHup -> m_term m = 0) ->
      r_state (rn_raft y) = x -> kept x m (rn_raft n) (rn_raft y) \/ (starts m x /\ fresh x (rn_raft n) (rn_raft y))).
    { intros m y z Hs Z1 Z2 Y. unfold rn_raft_step in Hs. apply bind_ok in Hs. destruct Hs as ([r1 e1] & Hs & Hx'). inv Hx'. cbn in *.
      destruct (step_cands _ _ _ _ Hs Z1 Z2) as [K _]. apply K; auto. }
    assert (L : forall m y z, rn_raft_step m n = Ok (y, z) -> m_term m = 0 -> m_type m <> MsgVoteResp -> m_type m <> MsgPreVoteResp -> r_state (rn_raft y) = x ->
       (forall r, ballot_of x (r_term r) r o = t_votes (r_trk r)) -> (forall r, ~ counted x (r_term r) r o) ->
       (starts m x -> cstarts x o) -> ckept x o (rn_raft n) (rn_raft y) \/ (cstarts x o /\ fresh x (rn_raft n) (rn_raft y))).
    { intros m y z Hs Z1 Z2 Z3 Y B1 B2 B3. destruct (S _ _ _ Hs) as [[C1 C2 C3 C4 C5 C6]|[St F]]; auto.
      - left. rewrite (not_counts x _ m Hx Z2 Z3) in C5. constructor; auto; [rewrite B1; auto|]. intros W. destruct (B2 _ W). }
    assert (NS : starts (new_msg MsgProp) x -> False) by (intros [N|[_ [N|N]]]; discriminate).
    destruct o; try (destruct Hp; fail); cbn [n_step] in H.
    + apply bind_ok in H. destruct H as (n1 & H & Hx'). inv Hx'. unfold rn_tick in H. apply bind_ok in H. destruct H as (r1 & H & Hx'). inv Hx'. cbn [rn_raft set_rn_raft] in *. intros X.
      destruct (tick_cands _ _ _ Hx H X) as [(T1 & T2 & T3 & T4)|F]; [left|right; auto].
      constructor; cbn [ballot_of counted]; try (rewrite ?T4; auto; fail); tauto.
    + inv H. intros X. left. constructor; cbn; auto; tauto.
    + apply bind_ok in H. destruct H as ([n1 e1] & H & Hx'). inv Hx'. intros X; eapply L; eauto; try discriminate; cbn; auto.
    + apply bind_ok in H. destruct H as ([n1 e1] & H & Hx'). inv Hx'. intros X; eapply L; eauto; try discriminate; cbn; auto. all: intros [N|[_ [N|N]]]; discriminate.
    + apply bind_ok in H. destruct H as ([n1 e1] & H & Hx'). inv Hx'. unfold rn_propose_conf_change in H. apply bind_ok in H. destruct H as ([t d] & _ & H).
      intros X; eapply L; eauto; try discriminate; cbn; auto. all: intros [N|[_ [N|N]]]; discriminate.
    + exfalso. eapply Hcc; eauto.
    + apply bind_ok in H. destruct H as ([n1 e1] & H & Hx'). inv Hx'. intros X. destruct Hok as [[Hf Hz] _]. unfold rn_step in H.
      assert (Nop : (forall r, counts x (r_term r) m = false) -> forall y, rn_raft y = rn_raft n -> r_state (rn_raft n) = r_state (rn_raft y) -> r_state (rn_raft y) = x -> ckept x (NStep m) (rn_raft n) (rn_raft y)).
      { intros C y -> _ Y. constructor; cbn [ballot_of counted]; rewrite ?C; auto. intros [W _]. discriminate. }
      destruct (is_local_msg (m_type m)) eqn:Hl.
      { injection H as <- _. left. apply Nop; auto. intros r. apply not_counts; auto; intros W; rewrite W in Hl; discriminate. }
      destruct (trk_get (m_from m) (r_trk (rn_raft n))) as [p|] eqn:Hg.
      * cbn [orb] in H. destruct (S _ _ _ H) as [[C1 C2 C3 C4 C5 C6]|[St F]]; auto.
        -- intros Z. apply Hz in Z. split; intros W; destruct Z as [Z|[Z|Z]]; congruence.
        -- intros W. rewrite W in Hl. discriminate.
        -- left. constructor; cbn [ballot_of counted]; rewrite ?Hg; auto. intros [W _]. auto.
        -- right. split; [|exact F]. destruct St as [St|[St _]]; [rewrite St in Hl; discriminate|exact St].
      * cbn [orb] in H. destruct (is_response_msg (m_type m)) eqn:Hr; cbn [negb] in H.
        -- injection H as <- _. left. constructor; cbn [ballot_of counted]; rewrite ?Hg; auto; [destruct (counts _ _ _); auto|]. intros [_ [p W]]. discriminate.
        -- assert (C : forall r, counts x (r_term r) m = false) by (intros r; apply not_counts; auto; intros W; rewrite W in Hr; discriminate).
           destruct (S _ _ _ H) as [[C1 C2 C3 C4 C5 C6]|[St F]]; auto.
           ++ intros Z. apply Hz in Z. split; intros W; destruct Z as [Z|[Z|Z]]; congruence.
           ++ intros W. rewrite W in Hl. discriminate.
           ++ left. rewrite C in C5. constructor; cbn [ballot_of counted]; rewrite ?C; auto. intros [W _]. discriminate.
           ++ right. split; [|exact F]. destruct St as [St|[St _]]; [rewrite St in Hl; discriminate|exact St].
    + apply bind_ok in H. destruct H as (n1 & H & Hx'). inv Hx'. unfold rn_report_unreachable in H. apply bind_ok in H. destruct H as ([n2 e2] & H & Hx'). inv Hx'.
      intros X; eapply L; eauto; try discriminate; cbn; auto. all: intros [N|[_ [N|N]]]; discriminate.
    + apply bind_ok in H. destruct H as (n1 & H & Hx'). inv Hx'. unfold rn_report_snapshot in H. apply bind_ok in H. destruct H as ([n2 e2] & H & Hx'). inv Hx'.
      intros X; eapply L; eauto; try discriminate; cbn; auto. all: intros [N|[_ [N|N]]]; discriminate.
    + apply bind_ok in H. destruct H as (n1 & H & Hx'). inv Hx'. unfold rn_transfer_leader in H. apply bind_ok in H. destruct H as ([n2 e2] & H & Hx'). inv Hx'.
      intros X; eapply L; eauto; try discriminate; cbn; auto. all: intros [N|[_ [N|N]]]; discriminate.
    + apply bind_ok in H. destruct H as (n1 & H & Hx'). inv Hx'. unfold rn_read_index in H. apply bind_ok in H. destruct H as ([n2 e2] & H & Hx'). inv Hx'.
      intros X; eapply L; eauto; try discriminate; cbn; auto. all: intros [N|[_ [N|N]]]; discriminate.
  - intros X. left. pose proof (n_step_dinv o n n' out Hok H D) as [_ Y].
    destruct o; cbn in Hp; try tauto; destruct Hok as [Hw Hok]; try tauto.
    + destruct Y as (rd & _ & [R1 R2 R3 R4 R5 R6 R7 R8 R9 R10 R11]). destruct R11 as [(u & E1 & _)|(Hl & rb & r0 & (u & l & E1 & _) & Ha & E4 & _)].
      * rewrite E1 in *. constructor; cbn; auto; tauto.
      * exfalso. apply append_entry_fields in Ha. destruct Ha as (l1 & p1 & u1 & Ha). rewrite E4, Ha, E1 in X. cbn in X. destruct Hx; congruence.
    + cbn [n_step] in H. apply bind_ok in H. destruct H as ([s e] & _ & Hx'). injection Hx' as <- _. constructor; cbn; auto; tauto.
    + cbn [n_step] in H. apply bind_ok in H. destruct H as ([s e] & _ & Hx'). injection Hx' as <- _. constructor; cbn; auto; tauto.
Qed.

Lemma n_step_wins o n n' out : nop_ok o n -> dinv n -> (forall cc, o <> NApplyCC cc) -> n_step o n = Ok (n', out) ->
  r_state (rn_raft n) <> RLeader -> r_state (rn_raft n') = RLeader ->
  r_term (rn_raft n) < r_term (rn_raft n') \/ (r_state (rn_raft n) = RCandidate /\ counted RCandidate (r_term (rn_raft n)) (rn_raft n) o).
Proof.
  intros Hok D Hcc H Hn X. destruct (plain_dec o) as [Hp|Hp].
  - assert (L : forall m y z, rn_raft_step m n = Ok (y, z) -> m_type m <> MsgVoteResp -> m_type m <> MsgPreVoteResp -> r_state (rn_raft y) = RLeader ->
       r_term (rn_raft n) < r_term (rn_raft y)).
    { intros m y z Hs Z2 Z3 Y. unfold rn_raft_step in Hs. apply bind_ok in Hs. destruct Hs as ([r1 e1] & Hs & Hx'). injection Hx' as <- _. cbn [rn_raft set_rn_raft] in *.
      destruct (step_wins _ _ _ _ Hs (fun _ => conj Z2 Z3) Hn Y) as [W|[_ W]]; auto. rewrite not_counts in W; auto. discriminate. }
    destruct o; try (destruct Hp; fail); cbn [n_step] in H.
    + apply bind_ok in H. destruct H as (n1 & H & Hx'). injection Hx' as <- _. unfold rn_tick in H. apply bind_ok in H. destruct H as (r1 & H & Hx'). injection Hx' as <-. cbn [rn_raft set_rn_raft] in *.
      left. unfold tick in H. assert (Ht : tick_election (rn_raft n) = Ok r1) by (destruct (r_state (rn_raft n)); auto; congruence). clear H.
      unfold tick_election in Ht. cbv zeta in Ht. match type of Ht with (if ?b then _ else _) = _ => destruct b end; [|inv Ht; cbn in X; congruence].
      apply bind_ok in Ht. destruct Ht as ([r3 e3] & H3 & Hx'). inv Hx'. destruct (step_wins _ _ _ _ H3) as [W|[_ W]]; auto; [split; discriminate|]. discriminate.
    + injection H as <- _. cbn in X. congruence.
    + apply bind_ok in H. destruct H as ([n1 e1] & H & Hx'). injection Hx' as <- _. left. eapply L; eauto; discriminate.
    + apply bind_ok in H. destruct H as ([n1 e1] & H & Hx'). injection Hx' as <- _. left. eapply L; eauto; discriminate.
    + apply bind_ok in H. destruct H as ([n1 e1] & H & Hx'). injection Hx' as <- _. unfold rn_propose_conf_change in H. apply bind_ok in H. destruct H as ([t d] & _ & H).
      left. eapply L; eauto; discriminate.
    + exfalso. eapply Hcc; eauto.
    + apply bind_ok in H. destruct H as ([n1 e1] & H & Hx'). injection Hx' as <- _. destruct Hok as [[Hf Hz] _]. unfold rn_step in H.
      destruct (is_local_msg (m_type m)) eqn:Hl; [injection H as <- _; congruence|].
      assert (Z : m_term m = 0 -> m_type m <> MsgVoteResp /\ m_type m <> MsgPreVoteResp).
      { intros Z. apply Hz in Z. split; intros W; destruct Z as [Z|[Z|Z]]; congruence. }
      destruct (trk_get (m_from m) (r_trk (rn_raft n))) as [p|] eqn:Hg; cbn [orb] in H.
      * unfold rn_raft_step in H. apply bind_ok in H. destruct H as ([r1 e2] & H & Hx'). injection Hx' as <- _. cbn [rn_raft set_rn_raft] in *.
        destruct (step_wins _ _ _ _ H Z Hn X) as [W|[W1 W2]]; auto. right. split; auto. split; eauto.
      * destruct (is_response_msg (m_type m)) eqn:Hr; cbn [negb] in H; [injection H as <- _; congruence|]. left. eapply L; eauto; intros W; rewrite W in Hr; discriminate.
    + apply bind_ok in H. destruct H as (n1 & H & Hx'). injection Hx' as <- _. unfold rn_report_unreachable in H. apply bind_ok in H. destruct H as ([n2 e2] & H & Hx'). injection Hx' as <-.
      left. eapply L; eauto; discriminate.
    + apply bind_ok in H. destruct H as (n1 & H & Hx'). injection Hx' as <- _. unfold rn_report_snapshot in H. apply bind_ok in H. destruct H as ([n2 e2] & H & Hx'). injection Hx' as <-.
      left. eapply L; eauto; discriminate.
    + apply bind_ok in H. destruct H as (n1 & H & Hx'). injection Hx' as <- _. unfold rn_transfer_leader in H. apply bind_ok in H. destruct H as ([n2 e2] & H & Hx'). injection Hx' as <-.
      left. eapply L; eauto; discriminate.
    + apply bind_ok in H. destruct H as (n1 & H & Hx'). injection Hx' as <- _. unfold rn_read_index in H. apply bind_ok in H. destruct H as ([n2 e2] & H & Hx'). injection Hx' as <-.
      left. eapply L; eauto; discriminate.
  - exfalso. pose proof (n_step_dinv o n n' out Hok H D) as [_ Y].
    destruct o; cbn in Hp; try tauto; destruct Hok as [Hw Hok]; try tauto.
    + destruct Y as (rd & _ & [R1 R2 R3 R4 R5 R6 R7 R8 R9 R10 R11]). destruct R11 as [(u & E1 & _)|(Hl & rb & r0 & (u & l & E1 & _) & Ha & E4 & _)]; [|congruence].
      rewrite E1 in X. cbn in X. congruence.
    + cbn [n_step] in H. apply bind_ok in H. destruct H as ([s e] & _ & Hx'). injection Hx' as <- _. cbn in X. congruence.
    + cbn [n_step] in H. apply bind_ok in H. destruct H as ([s e] & _ & Hx'). injection Hx' as <- _. cbn in X. congruence.
Qed.

(* ---- who has won ---- *)
Definition agree (n : rawnode) (votes : nmap bool) (B : N -> option bool) : Prop :=
  forall id, In id (node_incoming n) \/ In id (node_outgoing n) -> mget id votes = B id.
Lemma verdict_elects n votes B : agree n votes B -> (tc_vote_result (t_config (r_trk (rn_raft n))) votes = VoteWon <-> elects n B).
Proof.
  intros HA. unfold tc_vote_result. rewrite joint_won. unfold elects, node_incoming, node_outgoing in *. cbn in *.
  split; intros [M1 M2]; (split; [eapply majority_agree; [|exact M1]|eapply majority_agree; [|exact M2]]); intros x Hx; unfold voted_yes, vget; rewrite HA; auto.
Qed.
Lemma verdict_hopeless n votes B : agree n votes B -> (tc_vote_result (t_config (r_trk (rn_raft n))) votes = VoteLost <-> hopeless n B).
Proof.
  intros HA. unfold tc_vote_result. rewrite joint_lost_ext. unfold hopeless, elects, node_incoming, node_outgoing in *. cbn in *.
  assert (G : forall (v v' w : N -> option bool), (forall id, In id (tc_incoming (t_config (r_trk (rn_raft n)))) \/ In id (tc_outgoing (t_config (r_trk (rn_raft n)))) -> v id = v' id) ->
    extends v' w -> (forall w0, extends v w0 -> ~ (majority (tc_incoming (t_config (r_trk (rn_raft n)))) (voted_yes w0) /\ majority (tc_outgoing (t_config (r_trk (rn_raft n)))) (voted_yes w0))) ->
    ~ (majority (tc_incoming (t_config (r_trk (rn_raft n)))) (voted_yes w) /\ majority (tc_outgoing (t_config (r_trk (rn_raft n)))) (voted_yes w))).
  { intros v v' w Hv Hw K [M1 M2]. apply (K (fun id => match v id with Some b => Some b | None => w id end)).
    - intros id b Hb. rewrite Hb. reflexivity.
    - assert (A : forall id, In id (tc_incoming (t_config (r_trk (rn_raft n)))) \/ In id (tc_outgoing (t_config (r_trk (rn_raft n)))) -> voted_yes w id = voted_yes (fun id => match v id with Some b => Some b | None => w id end) id).
      { intros id Hid. unfold voted_yes. destruct (v id) as [b|] eqn:Hb; auto. rewrite (Hv _ Hid) in Hb. rewrite (Hw _ _ Hb). auto. }
      split; [eapply majority_agree; [|exact M1]|eapply majority_agree; [|exact M2]]; intros x Hx; apply A; auto. }
  split; intros K w Hw.
  - refine (G (vget votes) B w HA Hw K).
  - refine (G B (vget votes) w (fun id Hid => eq_sym (HA id Hid)) Hw K).
Qed.
Lemma not_hopeless n id : ~ hopeless n (first_vote [(id, true)]).
Proof.
  intros H. apply (H (fun _ => Some true)).
  - intros i b. cbn. destruct (id =? i); congruence.
  - assert (M : forall c, majority c (voted_yes (fun _ : N => Some true))).
    { intros [|a l]; [left; auto|right]. assert (C : forall l, count (voted_yes (fun _ : N => Some true)) l = nlen l).
      { clear. induction l as [|a l IH]; [reflexivity|]. rewrite count_cons, IH, nlen_cons. cbn. lia. }
      rewrite C, nlen_cons. lia. }
    split; apply M.
Qed.

(* ---- the candidacy so far ---- *)
Record candidate (x : role) (t id : N) (l : list (N * bool)) (n : rawnode) : Prop := {
  cd_dinv : dinv n;
  cd_tok : tok (rn_raft n);
  cd_state : r_state (rn_raft n) = x;
  cd_term : r_term (rn_raft n) = t;
  cd_id : r_id (rn_raft n) = id;
  cd_agree : agree n (t_votes (r_trk (rn_raft n))) (first_vote ((id, true) :: l));
  cd_open : tc_vote_result (t_config (r_trk (rn_raft n))) (t_votes (r_trk (rn_raft n))) = VotePending
}.
Lemma first_vote_app l1 l2 id : first_vote (l1 ++ l2) id = match first_vote l1 id with Some b => Some b | None => first_vote l2 id end.
Proof. induction l1 as [|[i b] l1 IH]; cbn; auto. destruct (i =? id); auto. Qed.
Lemma voter_tracked n id : tok (rn_raft n) -> In id (node_incoming n) \/ In id (node_outgoing n) -> exists p, trk_get id (r_trk (rn_raft n)) = Some p.
Proof.
  intros T H. pose proof (proj2 (cw_trk _ _ T id)) as K. unfold trk_get. destruct (mget id (t_progress (r_trk (rn_raft n)))) as [p|]; [eauto|].
  exfalso. apply K; auto. unfold node_incoming, node_outgoing in H. cbn in H. tauto.
Qed.
Lemma fresh_candidate x n n' : candidacy x -> dinv n' -> tok (rn_raft n') -> fresh x (rn_raft n) (rn_raft n') ->
  candidate x (r_term (rn_raft n')) (r_id (rn_raft n)) [] n'.
Proof.
  intros Hx D T F. assert (Hid : r_id (rn_raft n') = r_id (rn_raft n)) by (unfold r_id; rewrite (fc_cfg _ _ _ F); auto).
  assert (A : agree n' (t_votes (r_trk (rn_raft n'))) (first_vote [(r_id (rn_raft n), true)])).
  { intros id _. rewrite (fc_votes _ _ _ F). cbn. rewrite N.eqb_sym. destruct (_ =? _); reflexivity. }
  constructor; auto; [apply F|].
  pose proof (fc_res _ _ _ F) as R. pose proof (proj1 (verdict_hopeless _ _ _ A)) as L.
  destruct (tc_vote_result _ _); auto; [|congruence]. destruct (not_hopeless n' _ (L eq_refl)).
Qed.
Lemma ballot_spec x t o : candidacy x -> ballot x t o = match o with NStep m => if counts x t m then [(m_from m, negb (m_reject m))] else [] | _ => [] end.
Proof. intros [-> | ->]; destruct o; reflexivity. Qed.
(** The votes of the voters after the call [o], if its answer is counted. *)
Lemma agree_next x t id l n o n' : candidacy x -> candidate x t id l n -> node_incoming n' = node_incoming n -> node_outgoing n' = node_outgoing n ->
  agree n' (ballot_of x t (rn_raft n) o) (first_vote ((id, true) :: l ++ ballot x t o)).
Proof.
  intros Hx C H1 H2 j Hj. rewrite H1, H2 in Hj. rewrite (ballot_spec x t o Hx). unfold ballot_of.
  pose proof (cd_agree _ _ _ _ _ C j Hj) as A.
  rewrite app_comm_cons, first_vote_app, <- A.
  assert (K : forall y : option bool, y = match y with Some b => Some b | None => None end) by (intros [|]; auto).
  destruct o; cbn [first_vote]; try apply K.
  destruct (counts x t m); [|apply K]. cbn [first_vote].
  destruct (trk_get (m_from m) (r_trk (rn_raft n))) as [p|] eqn:Hg.
  - unfold poll_votes. destruct (N.eqb_spec (m_from m) j) as [Ej|Hne].
    + rewrite Ej. destruct (mget j (t_votes (r_trk (rn_raft n)))) eqn:Hm; [rewrite Hm; auto|]. rewrite mget_mset, N.eqb_refl. reflexivity.
    + destruct (mget (m_from m) (t_votes (r_trk (rn_raft n)))); [apply K|]. rewrite mget_mset. destruct (N.eqb_spec j (m_from m)); [congruence|apply K].
  - destruct (N.eqb_spec (m_from m) j) as [Ej|Hne]; [|apply K]. destruct (voter_tracked n j (cd_tok _ _ _ _ _ C) Hj) as [p Hp]. congruence.
Qed.
Lemma candidate_step x t id l n o n' out : candidacy x -> candidate x t id l n -> nop_ok o n -> ~ disturbs x o ->
  n_step o n = Ok (n', out) -> r_state (rn_raft n') = x -> r_term (rn_raft n') = t -> candidate x t id (l ++ ballot x t o) n'.
Proof.
  intros Hx C Hok Hd H S T. pose proof (proj1 (n_step_dinv _ _ _ _ Hok H (cd_dinv _ _ _ _ _ C))) as D'.
  pose proof (n_step_tok _ _ _ _ (proj1 Hok) H (cd_tok _ _ _ _ _ C)) as T'.
  destruct (n_step_cands x o n n' out Hx Hok (cd_dinv _ _ _ _ _ C)) as [[K1 K2 K3 K4 K5 K6]|[St F]]; auto.
  - intros cc ->. apply Hd. exact Logic.I.
  - rewrite (cd_term _ _ _ _ _ C) in *.
    assert (A : agree n' (t_votes (r_trk (rn_raft n'))) (first_vote ((id, true) :: l ++ ballot x t o))).
    { rewrite K5. eapply agree_next; eauto; unfold node_incoming, node_outgoing; cbn; rewrite K4; auto. }
    constructor; auto; [unfold r_id; rewrite K3; apply C|].
    assert (Dc : counted x t (rn_raft n) o \/ ballot_of x t (rn_raft n) o = t_votes (r_trk (rn_raft n))).
    { unfold counted, ballot_of. destruct o; auto. destruct (counts x t m); auto. destruct (trk_get _ _) eqn:Hg; eauto. }
    destruct Dc as [Dc|Dc]; [auto|]. rewrite K5, K4, Dc. apply (cd_open _ _ _ _ _ C).
  - exfalso. pose proof (fc_term _ _ _ F) as Ft. destruct Hx as [-> | ->]; [rewrite (cd_term _ _ _ _ _ C) in Ft; lia|].
    unfold cstarts in St. destruct o; try tauto; try (apply Hd; reflexivity); discriminate.
Qed.
Lemma candidate_run x t id os : forall l n n' outs, candidacy x -> candidate x t id l n -> n_run_ok os n -> Forall (fun o => ~ disturbs x o) os ->
  n_run os n = Ok (n', outs) -> throughout (fun k => node_role k = x /\ node_term k = t) os n ->
  candidate x t id (l ++ flat_map (ballot x t) os) n' /\ node_incoming n' = node_incoming n /\ node_outgoing n' = node_outgoing n.
Proof.
  induction os as [|o os IH]; intros l n n' outs Hx C Hok Hd H Ht; cbn [n_run] in H.
  - inv H. cbn. rewrite app_nil_r. auto.
  - apply bind_ok in H. destruct H as ([n1 out] & H1 & H). apply bind_ok in H. destruct H as ([n2 outs2] & H2 & H). injection H as <- _.
    cbn [n_run_ok] in Hok. rewrite H1 in Hok. destruct Hok as [Ok1 Ok2]. inversion Hd as [|? ? Hd1 Hd2]; clear Hd.
    destruct Ht as [Ht0 Ht]. specialize (Ht _ _ H1). assert (Hh : node_role n1 = x /\ node_term n1 = t) by (destruct os; apply Ht).
    destruct Hh as [Hh1 Hh2]. pose proof (candidate_step _ _ _ _ _ _ _ _ Hx C Ok1 Hd1 H1 Hh1 Hh2) as C1.
    destruct (IH _ _ _ _ Hx C1 Ok2 Hd2 H2 Ht) as (I1 & I2 & I3). cbn [flat_map]. rewrite app_assoc. split; [exact I1|].
    rewrite I2, I3. destruct (n_step_cands x o n n1 out Hx Ok1 (cd_dinv _ _ _ _ _ C)) as [K|[_ K]]; auto.
    + intros cc ->. apply Hd1. exact Logic.I.
    + unfold node_incoming, node_outgoing; cbn. rewrite (ck_conf _ _ _ _ K). auto.
    + unfold node_incoming, node_outgoing; cbn. rewrite (fc_conf _ _ _ K). auto.
Qed.

Lemma campaigns_fresh x o n n' out : candidacy x -> nop_ok o n -> dinv n -> (forall cc, o <> NApplyCC cc) -> n_step o n = Ok (n', out) ->
  campaigns x n n' -> fresh x (rn_raft n) (rn_raft n').
Proof.
  intros Hx Hok D Hcc H [C1 C2]. destruct (n_step_cands x o n n' out Hx Hok D Hcc H C1) as [[K1 K2 _ _ _ _]|[_ F]]; auto.
  exfalso. unfold node_role, node_term in *; cbn in *. destruct Hx as [-> | ->]; [lia|congruence].
Qed.

(** C60: whoever starts to campaign asks every other voter of its configuration, exactly once, for a
    vote for its log; nothing else is sent and nothing in the log changes. *)
Theorem C60_asks_every_voter x n o n' out :
  node_at n -> nop_ok o n -> (forall cc, o <> NApplyCC cc) -> x = RCandidate \/ x = RPreCandidate ->
  n_step o n = Ok (n', out) -> campaigns x n n' ->
  same_log n n' /\
  exists ids ms, NoDup ids /\
    (forall id, In id ids <-> id <> node_id n /\ (In id (node_incoming n') \/ In id (node_outgoing n'))) /\
    pending n' = pending n ++ ms /\ Forall2 (asks x n') ids ms.
Proof.
  intros Ha Hok Hcc Hx H Hc. pose proof (node_at_dinv _ Ha) as D. pose proof (proj1 (n_step_dinv _ _ _ _ Hok H D)) as D'.
  pose proof (campaigns_fresh x o n n' out Hx Hok D Hcc H Hc) as F.
  assert (Hid : r_id (rn_raft n') = r_id (rn_raft n)) by (unfold r_id; rewrite (fc_cfg _ _ _ F); auto).
  split; [apply same_log_abs; auto; rewrite (fc_log _ _ _ F); auto|].
  destruct (fc_msgs _ _ _ F) as (tr & lt & L & M).
  exists (other_voters (rn_raft n')), (map (vreq x tr (r_id (rn_raft n)) lt (r_last (rn_raft n)) (match x with RPreCandidate => r_term (rn_raft n') + 1 | _ => r_term (rn_raft n') end)) (other_voters (rn_raft n'))).
  split; [|split; [|split; [exact M|]]].
  - unfold other_voters. apply NoDup_filter, sorted_NoDup. unfold trk_voter_nodes, joint_ids. apply fold_sadd_sorted, fold_sadd_sorted. constructor.
  - intros id. unfold other_voters. rewrite filter_In, Hid. unfold trk_voter_nodes. rewrite joint_ids_In.
    unfold node_id, node_incoming, node_outgoing. cbn [rn_status ns_id ns_config]. destruct (N.eqb_spec id (r_id (rn_raft n))); cbn; split; intros [A B]; try congruence; auto; tauto.
  - assert (G : forall ids, (ids <> [] -> log_last_term (r_log (rn_raft n)) = Ok lt) -> Forall2 (asks x n') ids (map (vreq x tr (r_id (rn_raft n)) lt (r_last (rn_raft n)) (match x with RPreCandidate => r_term (rn_raft n') + 1 | _ => r_term (rn_raft n') end)) ids)).
    { induction ids as [|i ids IH]; intros Hl; cbn; constructor.
      - specialize (Hl ltac:(discriminate)).
        assert (Hl' : log_term (node_last n') (r_log (rn_raft n')) = Ok (SOk lt)).
        { unfold node_last. rewrite (fc_log _ _ _ F). unfold log_last_term in Hl. apply bind_ok in Hl. destruct Hl as ([t0|] & Hl & Hx'); [inv Hx'; auto|discriminate]. }
        assert (Hla : node_last n' = r_last (rn_raft n)) by (unfold node_last, r_last; rewrite (fc_log _ _ _ F); reflexivity).
        assert (Hi : node_id n' = r_id (rn_raft n)) by exact Hid.
        unfold asks. rewrite Hl', Hla, Hi. unfold vreq. destruct tr, x; cbn; auto 10.
      - apply IH. intros _. apply Hl. discriminate. }
    apply G, L.
Qed.

(** C60: the outcome.  A node started to campaign for term [t] and since then has been asking
    ([os]), without a configuration change; [tally] are the votes it has.  Then they are undecided
    so far; as soon as they elect it the node leads [t] (a pre-candidate: starts the election
    proper); as soon as they cannot elect it any more it is a follower without a leader; and it
    becomes leader of [t] in no other way. *)
Theorem C60_outcome x n o1 n1 out1 os n2 outs o n3 out :
  node_at n -> nop_ok o1 n -> (forall cc, o1 <> NApplyCC cc) -> x = RCandidate \/ x = RPreCandidate ->
  n_step o1 n = Ok (n1, out1) -> campaigns x n n1 ->
  let t := node_term n1 in
  n_run_ok os n1 -> n_run os n1 = Ok (n2, outs) -> Forall (fun o => ~ disturbs x o) os ->
  throughout (fun k => node_role k = x /\ node_term k = t) os n1 ->
  nop_ok o n2 -> ~ disturbs x o -> n_step o n2 = Ok (n3, out) ->
  let before := tally x t (node_id n) os in
  let after := tally x t (node_id n) (os ++ [o]) in
  (~ elects n1 before /\ ~ hopeless n1 before) /\
  (elects n1 after ->
     match x with
     | RPreCandidate => t < node_term n3 /\ (node_role n3 = RCandidate \/ node_role n3 = RLeader)
     | _ => node_term n3 = t /\ node_role n3 = RLeader
     end) /\
  (hopeless n1 after -> node_role n3 = RFollower /\ node_lead n3 = 0 /\ t <= node_term n3) /\
  (node_role n3 = RLeader -> node_term n3 = t -> elects n1 after) /\
  (node_role n3 = x -> node_term n3 = t -> ~ elects n1 after /\ ~ hopeless n1 after).
Proof.
  intros Ha Hok1 Hcc Hx H1 Hc t Hok Hr Hd Hth Hok3 Hd3 H3 before after.
  pose proof (node_at_dinv _ Ha) as D. pose proof (proj1 (n_step_dinv _ _ _ _ Hok1 H1 D)) as D1.
  pose proof (campaigns_fresh x o1 n n1 out1 Hx Hok1 D Hcc H1 Hc) as F.
  pose proof (fresh_candidate x n n1 Hx D1 (n_step_tok _ _ _ _ (proj1 Hok1) H1 (node_at_tok _ Ha)) F) as C1.
  change (r_term (rn_raft n1)) with t in C1. change (r_id (rn_raft n)) with (node_id n) in C1.
  destruct (candidate_run x t (node_id n) os [] n1 n2 outs Hx C1 Hok Hd Hr Hth) as (C2 & I2 & O2). cbn [app] in C2. clear C1 F.
  assert (El : forall v, elects n1 v <-> elects n2 v) by (intros v; unfold elects; rewrite I2, O2; tauto).
  assert (Ho : forall v, hopeless n1 v <-> hopeless n2 v) by (intros v; unfold hopeless; split; intros K w Hw; specialize (K w Hw); rewrite El in *; auto).
  rewrite !El, !Ho.
  assert (B : ~ elects n2 before /\ ~ hopeless n2 before).
  { pose proof (cd_open _ _ _ _ _ C2) as P. split; intros K; [apply (verdict_elects n2 _ _ (cd_agree _ _ _ _ _ C2)) in K|apply (verdict_hopeless n2 _ _ (cd_agree _ _ _ _ _ C2)) in K]; congruence. }
  split; [exact B|].
  assert (Ea : after = first_vote ((node_id n, true) :: flat_map (ballot x t) os ++ ballot x t o)).
  { unfold after, tally. rewrite flat_map_app. cbn [flat_map]. rewrite app_nil_r. reflexivity. }
  pose proof (agree_next x t _ _ n2 o n2 Hx C2 eq_refl eq_refl) as A3. rewrite <- Ea in A3.
  pose proof (verdict_elects n2 _ _ A3) as VE. pose proof (verdict_hopeless n2 _ _ A3) as VH.
  assert (Dc : counted x t (rn_raft n2) o \/ (ballot_of x t (rn_raft n2) o = t_votes (r_trk (rn_raft n2)) /\ ~ counted x t (rn_raft n2) o)).
  { unfold counted, ballot_of. destruct o; auto. destruct (counts x t m); [|right; split; [auto|intros [? _]; discriminate]].
    destruct (trk_get _ _) eqn:Hg; [left; eauto|]. right. split; [auto|]. intros [_ [p ?]]. discriminate. }
  assert (Last : node_role n3 = x -> node_term n3 = t -> ~ elects n2 after /\ ~ hopeless n2 after).
  { intros R3 T3. pose proof (candidate_step x t _ _ n2 o n3 out Hx C2 Hok3 Hd3 H3 R3 T3) as C3.
    pose proof (cd_open _ _ _ _ _ C3) as P. pose proof (cd_agree _ _ _ _ _ C3) as A4. rewrite <- Ea in A4.
    destruct (n_step_cands x o n2 n3 out Hx Hok3 (cd_dinv _ _ _ _ _ C2)) as [K|[St K]]; auto.
    - intros cc ->. apply Hd3. exact Logic.I.
    - rewrite <- VE, <- VH. rewrite (ck_conf _ _ _ _ K), (ck_votes _ _ _ _ K), (cd_term _ _ _ _ _ C2) in P. split; congruence.
    - exfalso. pose proof (fc_term _ _ _ K) as Ft. destruct Hx as [-> | ->].
      + rewrite (cd_term _ _ _ _ _ C2) in Ft. change (r_term (rn_raft n3)) with (node_term n3) in Ft. lia.
      + unfold cstarts in St. destruct o; try tauto; try (apply Hd3; reflexivity); discriminate. }
  destruct Dc as [Dc|[Dc Nc]].
  - (* an answer that counts *)
    destruct o; try (destruct Dc; fail). destruct Dc as [Dc [p Hg]].
    assert (Bo : ballot_of x t (rn_raft n2) (NStep m) = poll_votes m (t_votes (r_trk (rn_raft n2)))) by (unfold ballot_of; rewrite Dc, Hg; auto).
    rewrite Bo in VE, VH. cbn [n_step] in H3. apply bind_ok in H3. destruct H3 as ([n4 e4] & H3 & Hx3). injection Hx3 as <- _.
    destruct Hok3 as [[Hf Hz] _].
    assert (Hmt : m_type m = MsgVoteResp \/ m_type m = MsgPreVoteResp).
    { unfold counts in Dc. destruct Hx as [-> | ->]; apply andb_true_iff in Dc; destruct Dc as [Dc _]; apply mtype_eqb_eq in Dc; auto. }
    unfold rn_step in H3. rewrite Hg in H3. replace (is_local_msg (m_type m)) with false in H3 by (destruct Hmt as [-> | ->]; reflexivity). cbn [orb] in H3.
    unfold rn_raft_step in H3. apply bind_ok in H3. destruct H3 as ([r4 e5] & H3 & Hx3). injection Hx3 as <- _.
    change (node_role (set_rn_raft r4 n2)) with (r_state r4) in *. change (node_term (set_rn_raft r4 n2)) with (r_term r4) in *. change (node_lead (set_rn_raft r4 n2)) with (r_lead r4).
    destruct (step_cands _ _ _ _ H3) as [_ V].
    { intros Z. apply Hz in Z. destruct Hmt, Z as [Z|[Z|Z]]; congruence. }
    { intros W. destruct Hmt; congruence. }
    pose proof (counts_lt _ _ _ Dc Hx) as Hle.
    assert (Cs : (m_reject m = true /\ t < m_term m) \/ (m_reject m = true -> m_term m = t)) by (destruct (m_reject m); [destruct (N.eq_dec (m_term m) t); [right; auto|left; split; [auto|lia]]|right; discriminate]).
    destruct Cs as [[Hrj Hlt]|Hrj].
    + (* a rejection from a later term: steps down *)
      assert (Hx2 : x = RPreCandidate). { destruct Hx as [-> |Hx]; auto. unfold counts in Dc. apply andb_true_iff in Dc. destruct Dc as [_ Dc]. lia. }
      assert (Hp : m_type m = MsgPreVoteResp). { rewrite Hx2 in Dc. unfold counts in Dc. apply andb_true_iff in Dc. destruct Dc as [Dc _]. apply mtype_eqb_eq in Dc. auto. }
      assert (R4 : r_state r4 = RFollower /\ r_term r4 = m_term m /\ r_lead r4 = 0).
      { unfold step in H3. destruct (N.eqb_spec (m_term m) 0); [lia|]. pose proof (cd_term _ _ _ _ _ C2) as Ct. destruct (N.ltb_spec (r_term (rn_raft n2)) (m_term m)); [|lia].
        rewrite Hp, Hrj in H3. cbn [mtype_eqb mtype_code N.eqb Pos.eqb orb andb] in H3.
        hide (become_follower (m_term m) 0 (rn_raft n2)) rx Ex. destruct (become_follower_fields _ _ (rn_raft n2) _ Ex) as (A1&A2&A3'&A4&A5&_).
        assert (Lx : r_lead rx = 0) by (rewrite Ex; reflexivity). clear Ex.
        unfold step_dispatch in H3. rewrite Hp, A5 in H3. unfold step_follower in H3. rewrite Hp in H3. injection H3 as <- _. auto. }
      destruct R4 as (R4 & T4 & L4). rewrite R4, T4, L4.
      split; [|split; [auto|split; [congruence|rewrite Hx2; congruence]]]. intros K. exfalso.
      apply VE in K.
      (* a rejection cannot elect *)
      destruct B as [B _]. apply B. apply (verdict_elects n2 _ _ (cd_agree _ _ _ _ _ C2)). unfold tc_vote_result in *. apply joint_won in K. apply joint_won.
      assert (Y : forall j, voted_yes (vget (poll_votes m (t_votes (r_trk (rn_raft n2))))) j = voted_yes (vget (t_votes (r_trk (rn_raft n2)))) j).
      { intros j. unfold voted_yes, vget, poll_votes. destruct (mget (m_from m) (t_votes (r_trk (rn_raft n2)))) eqn:Q; auto. rewrite mget_mset. destruct (N.eqb_spec j (m_from m)) as [->|]; auto. rewrite Q, Hrj. reflexivity. }
      destruct K as [K1 K2]. split; [eapply majority_agree; [|exact K1]|eapply majority_agree; [|exact K2]]; intros j _; apply Y.
    + specialize (V x Hx (cd_state _ _ _ _ _ C2)). rewrite (cd_term _ _ _ _ _ C2) in V. specialize (V Dc Hrj). unfold verdict in V. rewrite (cd_term _ _ _ _ _ C2) in V.
      destruct (tc_vote_result _ (poll_votes _ _)) eqn:Hv.
      * split; [intros K; apply VE in K; discriminate|]. split; [intros K; apply VH in K; discriminate|]. split; [|exact Last]. intros K. destruct Hx; congruence.
      * destruct V as (V1 & V2 & V3). split; [intros K; apply VE in K; discriminate|]. split; [intros _; split; [auto|split; [auto|lia]]|]. split; [congruence|]. destruct Hx; congruence.
      * split; [intros _|split; [intros K; apply VH in K; discriminate|split; [intros _ _; apply VE; auto|]]].
        -- destruct Hx as [-> | ->]; [tauto|]. destruct V as (V1 & V2). split; [lia|]. destruct V2 as [V2|(V2 & _)]; [left; apply V2|right; auto].
        -- intros R4 T4. exfalso. destruct Hx as [-> | ->]; [destruct V; congruence|]. destruct V; lia.
  - (* nothing new *)
    rewrite Dc in VE, VH. pose proof (cd_open _ _ _ _ _ C2) as P. rewrite P in VE, VH.
    split; [intros K; apply VE in K; discriminate|]. split; [intros K; apply VH in K; discriminate|]. split; [|exact Last].
    intros R3 T3. exfalso.
    pose proof (cd_state _ _ _ _ _ C2) as S2. pose proof (cd_term _ _ _ _ _ C2) as T2.
    destruct (n_step_wins o n2 n3 out Hok3 (cd_dinv _ _ _ _ _ C2)) as [W|[W1 W2]]; auto.
    + intros cc ->. apply Hd3. exact Logic.I.
    + destruct Hx; congruence.
    + rewrite T2 in W. change (r_term (rn_raft n3)) with (node_term n3) in W. lia.
    + apply Nc. rewrite <- T2, <- S2, W1. exact W2.
Qed.

(* ---- when it starts ---- *)
Lemma unapplied_slice n : dinv n -> electable n ->
  exists ents, log_slice (l_applied (r_log (rn_raft n)) + 1) (l_committed (r_log (rn_raft n)) + 1) UINT64_MAX (r_log (rn_raft n)) = Ok (SOk ents) /\
    (forall k e, nnth ents k = Some e -> holds_entry n (node_applied n + 1 + k) e /\ node_applied n + 1 + k <= node_commit n).
Proof.
  intros D [_ Hs]. pose proof (lwf_0 _ (li_wf _ (ni_log _ (di_ninv _ D)))) as W. pose proof (li_wf _ (ni_log _ (di_ninv _ D))) as W1.
  set (l := r_log (rn_raft n)) in *. set (a := log_abs l) in *.
  assert (Hb : a_base a <= l_applied l).
  { pose proof (di_pend _ D) as P. pose proof (di_base _ D) as Q. fold l in P, Q. destruct (u_snap (l_us l)) as [s|]; [|apply Q; auto].
    specialize (Hs s eq_refl). specialize (P s eq_refl). lia. }
  pose proof (lwf_com _ W1) as Hc. pose proof (lwf_app _ W1) as Hap. fold a in Hc.
  eexists. split; [apply log_slice_abs; auto; fold a; unfold a_first; lia|]. fold a.
  intros k e Hk. destruct (limit_size_prefix (a_slice a (l_applied l + 1) (l_committed l + 1)) UINT64_MAX) as [rest Hr].
  assert (Hk' : nnth (a_slice a (l_applied l + 1) (l_committed l + 1)) k = Some e).
  { rewrite Hr. rewrite nnth_app1; auto. apply nnth_Some_lt in Hk. auto. }
  rewrite nnth_slice in Hk'. destruct (N.ltb_spec k (l_committed l + 1 - (l_applied l + 1))); [|discriminate].
  change (node_applied n) with (l_applied l). change (node_commit n) with (l_committed l). split; [|lia].
  apply holds_abs; auto. fold l a. unfold a_entry. destruct (N.ltb_spec (a_base a) (l_applied l + 1 + k)); [|lia]. rewrite <- Hk'. f_equal. unfold a_first in *. lia.
Qed.
Lemma num_conf_0 es : num_pending_conf es = 0 <-> forall k e, nnth es k = Some e -> e_type e = EntryNormal.
Proof.
  unfold num_pending_conf. split.
  - intros H k e Hk. apply nlen_0 in H. destruct (e_type e) eqn:Q; auto; exfalso; apply nnth_In in Hk;
      assert (X : In e (filter is_conf_entry es)) by (apply filter_In; split; auto; unfold is_conf_entry; rewrite Q; auto); rewrite H in X; destruct X.
  - intros H. assert (F : filter is_conf_entry es = []).
    { destruct (filter is_conf_entry es) as [|e l] eqn:Q; auto. assert (X : In e (filter is_conf_entry es)) by (rewrite Q; left; auto).
      apply filter_In in X. destruct X as [X1 X2]. apply In_nnth in X1. destruct X1 as [k X1]. unfold is_conf_entry in X2. rewrite (H _ _ X1) in X2. discriminate. }
    rewrite F. reflexivity.
Qed.
(** C60: Campaign.  A leader, and a node that may not be elected, or that has committed but not yet
    applied a configuration change, does not campaign; every other node does: it leads the next term
    at once if its own vote elects it, and otherwise asks for votes (pre-votes, with PreVote). *)
Theorem C60_campaign c n n' out :
  made c n -> n_step NCampaign n = Ok (n', out) ->
  (node_role n = RLeader \/ ~ electable n -> n' = n) /\
  (forall k e, node_applied n < k -> k <= node_commit n -> holds_entry n k e -> e_type e <> EntryNormal ->
     (forall ents, log_slice (node_applied n + 1) (node_commit n + 1) UINT64_MAX (r_log (rn_raft n)) = Ok (SOk ents) -> nlen ents = node_commit n - node_applied n) ->
     n' = n) /\
  (node_role n <> RLeader -> electable n ->
   (forall k e, node_applied n < k -> k <= node_commit n -> holds_entry n k e -> e_type e = EntryNormal) ->
   (elects n (first_vote [(node_id n, true)]) -> node_role n' = RLeader /\ node_term n' = node_term n + 1) /\
   (~ elects n (first_vote [(node_id n, true)]) ->
      if c_pre_vote c then node_role n' = RPreCandidate /\ node_term n' = node_term n
      else node_role n' = RCandidate /\ node_term n' = node_term n + 1)).
Proof.
  intros Hm H. pose proof (made_inv _ _ Hm) as M. pose proof (mi_dinv _ _ M) as D.
  cbn [n_step] in H. apply bind_ok in H. destruct H as ([n1 e1] & H & Hx). injection Hx as <- _.
  unfold rn_campaign, rn_raft_step in H. rewrite hup_step in H by reflexivity. unfold okr in H.
  apply bind_ok in H. destruct H as ([r1 e2] & H & Hx). injection Hx as <- _. apply bind_ok in H. destruct H as (r2 & H & Hx). injection Hx as <- _.
  change (node_role (set_rn_raft r2 n)) with (r_state r2). change (node_term (set_rn_raft r2 n)) with (r_term r2).
  change (node_role n) with (r_state (rn_raft n)). change (node_term n) with (r_term (rn_raft n)).
  assert (Self : forall z, r2 = z -> z = rn_raft n -> set_rn_raft r2 n = n) by (intros z -> ->; destruct n; reflexivity).
  unfold hup in H. unfold is_leader in H.
  destruct (role_eqb (r_state (rn_raft n)) RLeader) eqn:Hl.
  { assert (Hl' : r_state (rn_raft n) = RLeader) by (destruct (r_state (rn_raft n)); auto; discriminate). apply Ok_inj in H.
    split; [intros _; eapply Self; eauto|]. split; [intros; eapply Self; eauto|]. congruence. }
  assert (Hl' : r_state (rn_raft n) <> RLeader) by (intros X; rewrite X in Hl; discriminate). clear Hl.
  destruct (promotable (rn_raft n)) eqn:Hp; cbn [negb] in H.
  2: { apply Ok_inj in H. assert (Ne : ~ electable n) by (intros X; apply promotable_iff in X; congruence).
       split; [intros _; eapply Self; eauto|]. split; [intros; eapply Self; eauto|]. tauto. }
  apply promotable_iff in Hp. destruct (unapplied_slice n D Hp) as (ents & Hs & He). rewrite Hs in H. cbn [bind] in H.
  split; [intros [X|X]; tauto|].
  destruct (N.eqb_spec (num_pending_conf ents) 0) as [Hz|Hz]; cbn [negb andb] in H.
  - split.
    { intros k e K1 K2 K3 K4 K5. exfalso. specialize (K5 ents Hs).
      assert (Hq : exists e', nnth ents (k - node_applied n - 1) = Some e') by (apply nnth_lt_Some; lia). destruct Hq as [e' Hq].
      pose proof (proj1 (num_conf_0 ents) Hz _ _ Hq) as Hn. destruct (He _ _ Hq) as [He1 _]. replace (node_applied n + 1 + (k - node_applied n - 1)) with k in He1 by lia.
      apply holds_abs in K3, He1; auto. congruence. }
    intros _ _ _.
    assert (Hst : r2 = rn_raft n \/ (r_state r2 = RPreCandidate /\ r_term r2 = r_term (rn_raft n)) \/ ((r_state r2 = RCandidate \/ r_state r2 = RLeader) /\ r_term r2 = r_term (rn_raft n) + 1)).
    { clear - H. destruct (if k_pre_vote (r_cfg (rn_raft n)) then CPreElection else CElection) eqn:Q; cbn [campaign] in H.
      1: { apply bind_ok in H. destruct H as (r3 & H3 & H). apply become_pre_all in H3. destruct H3 as (_&_&A2&_&_&A5&_).
           destruct (poll (r_id r3) true r3) as [r4 v] eqn:Hp. destruct (poll_parts _ _ _ _ _ Hp) as (_ & _ & _ & Q4 & Q5 & _). clear Hp.
           assert (K : mfold (send_vote_req MsgPreVote (r_term r3 + 1) false) (other_voters r4) r4 = Ok r2 -> r_state r2 = RPreCandidate /\ r_term r2 = r_term (rn_raft n)).
           { intros K. apply send_vote_reqs in K. destruct K as [ms ->]. cbn. split; congruence. }
           destruct v; [right; left; auto|right; left; auto|]. apply campaign_real_state in H. right; right. split; [tauto|]. destruct H as (_ & H & _). congruence. }
      all: apply campaign_real_state in H; right; right; tauto. }
    assert (Hc : (k_pre_vote (r_cfg (rn_raft n)) = true /\ fresh RPreCandidate (rn_raft n) r2) \/ (k_pre_vote (r_cfg (rn_raft n)) = false /\ fresh RCandidate (rn_raft n) r2) \/ at_once (rn_raft n) r2).
    { destruct (k_pre_vote (r_cfg (rn_raft n))).
      - apply campaign_pre_cand in H. tauto.
      - cbn [campaign] in H. apply campaign_real_cand in H. tauto. }
    assert (A : agree n [(r_id (rn_raft n), true)] (first_vote [(node_id n, true)])).
    { intros id _. cbn. change (node_id n) with (r_id (rn_raft n)). rewrite N.eqb_sym. destruct (_ =? _); reflexivity. }
    pose proof (verdict_elects n _ _ A) as VE. rewrite (mi_cfg _ _ M) in Hc. cbn [cfg_of k_pre_vote] in Hc.
    assert (FW : forall x, fresh x (rn_raft n) r2 -> ~ elects n (first_vote [(node_id n, true)])).
    { intros x F K. apply VE in K. apply (fc_res _ _ _ F). rewrite (fc_conf _ _ _ F), (fc_votes _ _ _ F). exact K. }
    destruct Hc as [[-> F]|[[-> F]|(F1 & F2 & F3)]].
    + split; [intros K; destruct (FW _ F K)|]. intros _. split; [apply F|apply (fc_term _ _ _ F)].
    + split; [intros K; destruct (FW _ F K)|]. intros _. split; [apply F|]. destruct Hst as [Hst|[[Hst _]|[_ Hst]]]; auto; [pose proof (fc_term _ _ _ F) as T; rewrite Hst in T; lia|rewrite (fc_state _ _ _ F) in Hst; discriminate].
    + split; [intros _|intros K; exfalso; apply K, VE; auto]. split; [auto|]. destruct Hst as [Hst|[[Hst _]|[_ Hst]]]; auto; [rewrite Hst in F2; lia|congruence].
  - assert (Hex : exists k e, nnth ents k = Some e /\ e_type e <> EntryNormal).
    { destruct (filter is_conf_entry ents) as [|e l] eqn:Q; [exfalso; apply Hz; unfold num_pending_conf; rewrite Q; reflexivity|].
      assert (X : In e (filter is_conf_entry ents)) by (rewrite Q; left; auto). apply filter_In in X. destruct X as [X1 X2]. apply In_nnth in X1. destruct X1 as [k X1].
      exists k, e. split; auto. intros Y. unfold is_conf_entry in X2. rewrite Y in X2. discriminate. }
    destruct Hex as (k & e & K1 & K2). destruct (He _ _ K1) as [K3 K4].
    destruct (N.ltb_spec (l_applied (r_log (rn_raft n))) (l_committed (r_log (rn_raft n)))) as [Hlt|Hlt].
    + apply Ok_inj in H. split; [intros; eapply Self; eauto|]. intros _ _ Q. exfalso. apply K2. apply (Q (node_applied n + 1 + k)); auto. lia.
    + exfalso. change (l_applied (r_log (rn_raft n))) with (node_applied n) in Hlt. change (l_committed (r_log (rn_raft n))) with (node_commit n) in Hlt. lia.
Qed.
End Props.

(** Concrete cases on the example node 1 of {1, 2, 3}: it campaigns; answers of 2 and 3 arrive; the
    last call decides.  [ex_election x os o r]: after the campaign the calls [os] leave the node
    asking (as [x]) in its term, and the call [o] takes it to role [r] there. *)
Definition ex_resp (t : mtype) (from term : N) (rej : bool) : nop :=
  NStep (set_m_reject rej (set_m_term term (set_m_from from (set_m_to 1 (new_msg t))))).
Definition ex_election (x : role) (os : list nop) (o : nop) (r : role) (n n1 : rawnode) : bool :=
  role_eqb (node_role n) RFollower && role_eqb (node_role n1) x && (if role_eqb x RPreCandidate then node_term n1 =? node_term n else node_term n <? node_term n1) &&
  @n_run_okb ex_env os n1 && @throughoutb ex_env (fun k => role_eqb (node_role k) x && (node_term k =? node_term n1)) os n1 &&
  match @n_run ex_env os n1 with
  | Ok (n2, _) => nop_okb o n2 && match @n_step ex_env o n2 with Ok (n3, _) => role_eqb (node_role n3) r | _ => false end
  | _ => false
  end.
Example C60_example_elected : exists n n1 out, @node_at ex_env n /\ nop_ok NCampaign n /\ @n_step ex_env NCampaign n = Ok (n1, out) /\
  ex_election RCandidate [ex_resp MsgVoteResp 2 3 true] (ex_resp MsgVoteResp 3 3 false) RLeader n n1 = true.
Proof. apply (@case_ok ex_env (ex_cfg 1) ex_tape [] NCampaign (fun n n1 _ => ex_election _ _ _ _ n n1)). vm_compute. reflexivity. Qed.
Example C60_example_lost : exists n n1 out, @node_at ex_env n /\ nop_ok NCampaign n /\ @n_step ex_env NCampaign n = Ok (n1, out) /\
  ex_election RCandidate [ex_resp MsgVoteResp 2 3 true; ex_resp MsgVoteResp 2 3 false] (ex_resp MsgVoteResp 3 3 true) RFollower n n1 = true.
Proof. apply (@case_ok ex_env (ex_cfg 1) ex_tape [] NCampaign (fun n n1 _ => ex_election _ _ _ _ n n1)). vm_compute. reflexivity. Qed.
Definition ex_cfg_pv : config := mkConfig 1 10 1 (Some ex_storage) 0 1000 1000 0 4 false true RoSafe false.
Example C60_example_pre : exists n n1 out, @node_at ex_env n /\ nop_ok NCampaign n /\ @n_step ex_env NCampaign n = Ok (n1, out) /\
  ex_election RPreCandidate [ex_resp MsgPreVoteResp 2 2 true] (ex_resp MsgPreVoteResp 3 3 false) RCandidate n n1 = true.
Proof. apply (@case_ok ex_env ex_cfg_pv ex_tape [] NCampaign (fun n n1 _ => ex_election _ _ _ _ n n1)). vm_compute. reflexivity. Qed.
