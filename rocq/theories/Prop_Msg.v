(** C30, C38, C44: what the messages a node emits say.  [emits o n n' x] (Spec_Node.v): the call
    [o] on [n] adds the message [x] to those the next Ready hands out. *)
From Verif Require Import Prelude Types M_Util M_Quorum M_Inflights M_Progress M_Tracker.
From Verif Require Import M_Storage M_Unstable M_Log M_ReadOnly M_ConfPb M_ConfChange M_Raft M_RawNode.
From Verif Require Import P_Inflights Spec_Log P_Lists P_Storage P_Log Spec_Storage Sys_Storage P_StorageSeq Spec_RaftLog Sys_RaftLog P_RaftLogSeq.
From Verif Require Import P_Frame P_Prim Sys_Node Sys_ConfChange P_Node P_Fields P_Vote Spec_Node P_Persist P_New P_NodeLog P_Handle P_NodeRun P_Emit.
From Verif Require Import Ex_Env Ex_Node Ex_Check Ex_Case.

Section Props.
Context {E : Env}.

(** The outbox is exactly what GetReady hands out. *)
Theorem C44_pending_is_sent n n' rd : rn_get_ready n = Ok (n', rd) -> rd_msgs rd = pending n /\ pending n' = [].
Proof. intros H. apply get_ready_inv in H. destruct H as (R & H & _). unfold pending. rewrite H. split; [apply R|reflexivity]. Qed.

(* ---- C30 ---- *)
Lemma step_vote_new m r r' : step_vote m r = Ok r' -> m_type m = MsgVote \/ m_type m = MsgPreVote ->
  exists x, r_msgs r' = r_msgs r ++ [x] /\
    (m_reject x = false -> m_to x = m_from m /\ m_term x = m_term m /\
      log_is_up_to_date (m_index m) (m_logterm m) (r_log r) = Ok true).
Proof.
  intros H Ht. unfold step_vote in H. cbv zeta in H. apply bind_ok in H. destruct H as (up & H1 & H).
  apply bind_ok in H. destruct H as (rt & H2 & H). destruct up.
  - apply bind_ok in H. destruct H as (r1 & H3 & H). apply send_ok in H3. destruct H3 as [-> _].
    eexists. split; [destruct (mtype_eqb (m_type m) MsgVote); inv H; reflexivity|]. intros _.
    match type of H1 with (if ?b then _ else _) = _ => destruct b; [|discriminate] end.
    unfold outm. cbn [m_from set_m_term set_m_to new_msg]. change (0 =? 0) with true. cbv iota.
    unfold vote_resp_type in H2. destruct Ht as [Ht|Ht]; rewrite Ht in H2; inv H2; cbn; auto.
  - apply send_ok in H. destruct H as [-> _]. eexists. split; [reflexivity|]. intros X. exfalso.
    unfold outm in X. cbn [m_from set_m_term set_m_to new_msg set_m_reject] in X. change (0 =? 0) with true in X. cbv iota in X.
    unfold vote_resp_type in H2. destruct Ht as [Ht|Ht]; rewrite Ht in H2; inv H2; cbn in X; discriminate.
Qed.
Lemma vote_step_new m r r' e : step m r = Ok (r', e) -> m_type m = MsgVote \/ m_type m = MsgPreVote ->
  r_msgs r' = r_msgs r \/ exists x, r_msgs r' = r_msgs r ++ [x] /\
    (m_reject x = false -> m_to x = m_from m /\ m_term x = m_term m /\
      log_is_up_to_date (m_index m) (m_logterm m) (r_log r) = Ok true).
Proof.
  intros H Ht.
  assert (D : forall r0 r1, step_dispatch m r0 = Ok (r1, e) -> r_msgs r0 = r_msgs r -> r_log r0 = r_log r ->
    exists x, r_msgs r1 = r_msgs r ++ [x] /\ (m_reject x = false -> m_to x = m_from m /\ m_term x = m_term m /\
      log_is_up_to_date (m_index m) (m_logterm m) (r_log r) = Ok true)).
  { intros r0 r1 Hd E1 E2. rewrite <- E1, <- E2. apply step_vote_new; auto. unfold step_dispatch in Hd.
    destruct Ht as [Ht|Ht]; rewrite Ht in Hd; unfold okr in Hd; apply bind_ok in Hd; destruct Hd as (r2 & Hd & Hx); inv Hx; auto. }
  unfold step in H. destruct (m_term m =? 0); [right; eapply D; eauto|].
  destruct (r_term r <? m_term m).
  - destruct (_ && _); [inv H; auto|].
    hide (become_follower (m_term m) 0 r) r2 E2. hide (become_follower (m_term m) (m_from m) r) r3 E3.
    destruct (become_follower_fields _ _ _ _ E2) as (_&_&_&A4&_&_&A7&_). right.
    destruct Ht as [Ht|Ht]; rewrite Ht in H; eapply D; eauto.
  - destruct (m_term m <? r_term r); [|right; eapply D; eauto].
    assert (Hb : mtype_eqb (m_type m) MsgHeartbeat || mtype_eqb (m_type m) MsgApp = false) by (destruct Ht as [-> | ->]; auto).
    rewrite Hb, andb_false_r in H. destruct (mtype_eqb _ _); [|inv H; auto].
    unfold okr in H. apply bind_ok in H. destruct H as (r2 & H & Hx). inv Hx. apply send_ok in H. destruct H as [-> _].
    right. eexists. split; [reflexivity|]. unfold outm. cbn. discriminate.
Qed.

(** C30: a positive answer to a vote or pre-vote request is only ever emitted while handling that
    request, and only if the candidate's last entry is at least as up to date as the node's own. *)
Theorem C30_up_to_date o n n' x : node_at n -> nop_ok o n -> emits o n n' x ->
  (m_type x = MsgVoteResp \/ m_type x = MsgPreVoteResp) -> m_reject x = false ->
  exists m lt, o = NStep m /\
    (m_type m = MsgVote /\ m_type x = MsgVoteResp \/ m_type m = MsgPreVote /\ m_type x = MsgPreVoteResp) /\
    m_to x = m_from m /\ m_term x = m_term m /\
    log_term (node_last n) (r_log (rn_raft n)) = Ok (SOk lt) /\
    (lt < m_logterm m \/ (lt = m_logterm m /\ node_last n <= m_index m)).
Proof.
  intros Ha Hok He Ht Hr. pose proof (node_at_dinv _ Ha) as D. destruct (emits_inv _ _ _ _ (proj1 Hok) He) as (Hp & r0 & im & a & b & HS & Hc & _ & _ & Hm & _).
  assert (Him : m_type im = MsgVote /\ m_type x = MsgVoteResp \/ m_type im = MsgPreVote /\ m_type x = MsgPreVoteResp).
  { destruct Hm as [x Hl S|x Hm|to lt ctx| |i]; try (destruct Ht; discriminate).
    - destruct S; destruct Ht; discriminate.
    - destruct Hm as [| | | | | | |_ _ _ Hf]; try (destruct Ht; discriminate); try discriminate; auto.
      exfalso. assert (X : m_type (outm a (set_m_to (r_lead a) im)) = m_type im).
      { unfold outm. cbn. destruct (m_from im =? 0); cbn; destruct (is_vote_family _); auto; destruct (m_type im) eqn:Em; cbn; auto. }
      rewrite X in Ht. destruct Ht as [Ht|Ht]; rewrite Ht in Hf; intuition discriminate.
    - left; auto. }
  assert (Ho : o = NStep im).
  { assert (Hd : (exists m, o = NStep m) \/ forall m, o <> NStep m) by (destruct o; eauto; right; discriminate).
    destruct Hd as [[m ->]|Hd]; [cbn in Hc; congruence|]. destruct (call_msg_local _ _ _ Hc Hd) as [_ L].
    destruct Him as [[X _]|[X _]]; rewrite X in L; discriminate. }
  subst o. clear Hm r0 a b HS Hc. exists im.
  destruct He as (out & new & H1 & H2 & H3). cbn [n_step] in H1. apply bind_ok in H1. destruct H1 as ([n1 e] & H1 & Hx). inv Hx.
  assert (H1' : exists r1, step im (rn_raft n) = Ok (r1, e) /\ rn_raft n' = r1).
  { unfold rn_step in H1. assert (L : is_local_msg (m_type im) = false /\ is_response_msg (m_type im) = false)
      by (destruct Him as [[-> _]|[-> _]]; auto). destruct L as [L1 L2]. rewrite L1, L2, orb_true_r in H1.
    unfold rn_raft_step in H1. apply bind_ok in H1. destruct H1 as ([r1 e1] & H1 & Hx). inv Hx. eauto. }
  destruct H1' as (r1 & Hs & Er). destruct (vote_step_new _ _ _ _ Hs) as [X|(y & X & Y)]; [tauto| |].
  - exfalso. unfold pending in H2. rewrite Er, X in H2. rewrite <- (app_nil_r (r_msgs (rn_raft n))) in H2 at 1. apply app_inv_head in H2. subst. auto.
  - unfold pending in H2. rewrite Er, X in H2. apply app_inv_head in H2. subst new. destruct H3 as [<-|[]].
    destruct (Y Hr) as (Y1 & Y2 & Y3). pose proof (lwf_0 _ (li_wf _ (ni_log _ (di_ninv _ D)))) as Hw.
    destruct (log_is_up_to_date_abs (m_index im) (m_logterm im) _ Hw) as (lt & U1 & U2). exists lt.
    split; auto. split; auto. split; auto. split; auto. unfold node_last. rewrite log_last_abs, log_term_abs, U1 by auto.
    split; auto. rewrite U2 in Y3. assert (Y4 : (lt <? m_logterm im) || ((m_logterm im =? lt) && (a_last (log_abs (r_log (rn_raft n))) <=? m_index im)) = true) by congruence. lia.
Qed.

(* ---- C44 ---- *)
Definition lt_inv (r : raft) : Prop := r_lead r <> 0 \/ r_state r = RCandidate \/ r_state r = RLeader -> r_term r <> 0.
Lemma lt_inv_prim im r r' : lt_inv r -> prim im r r' -> lt_inv r'.
Proof.
  unfold lt_inv. intros I H.
  destruct H as [r' K|r' Hl S|m Hm|t l Ht Hlt|r' Hc|r' Hc|Hs|Hs|to lt ctx Hs Hlt Hz|Ht Hm Hz Hv Hu|r' Hs Hv Hb|
                 es r1 r' Hs Ht He Hf Ha|p p' Hs Ht Hr Hm Hg|r' b Hs Hc|Hg Hm Hs|l last Ht Hm Hs Hc Ha|
                 l Ht Hm Hs Hc|l Ht Hm Hs Hc Hmt Hct|r1 Ht Hm Hs Hr]; try exact I.
  - destruct K. rewrite kp_term, kp_state. destruct kp_lead as [->|X]; auto.
  - destruct S as [[] _ _ _]. rewrite sm_term, sm_state, sm_lead. auto.
  - destruct (become_follower_fields t l r _ eq_refl) as (A1&A2&A3&A4&A5&A6&A7&A8&_). rewrite A2, A5, A8.
    intros [X|[X|X]]; try discriminate. tauto.
  - apply become_candidate_all in Hc. destruct Hc as (_&_&A2&_). rewrite A2. lia.
  - apply become_pre_all in Hc. destruct Hc as (_&_&A2&_&_&A5&_&_&A8&_). rewrite A2, A5, A8.
    intros [X|[X|X]]; try discriminate. lia.
  - apply become_leader_all in Hb. destruct Hb as (_&_&A2&_). rewrite A2. auto.
  - destruct (prop_fields _ _ _ _ _ Hf Ha) as (A1&A2&A3&A4&A5&A6&A7&_). rewrite A2, A4, A7. auto.
  - apply raft_commit_fields in Hc. destruct Hc as (A1&A2&A3&A4&A5&A6&A7&_). rewrite A2, A4, A7. auto.
  - destruct (restore_fields _ _ _ Hs Hr) as (A1&A2&A3&A4&A5&A6&A7). cbn. rewrite A2, A5, A7, Hs in *. auto.
Qed.
Lemma lt_inv_apr a b : lt_inv (snd a) -> apr a b -> lt_inv (snd b).
Proof.
  intros I H. destruct H as [im ms r r' Hi Hp|ms r l|ms r cp bo o Ho|ms r l u Hl|ms r r1 Hs Ha]; cbn [snd] in *; try exact I.
  - eapply lt_inv_prim; eauto.
  - apply append_term in Ha. destruct Ha as (A1&A2&A3&A4&A5&A6). unfold lt_inv in *. cbn. rewrite A2, A4, A6. auto.
Qed.
Lemma nop_ok_wf os : forall n, n_run_ok os n -> forall n' outs, n_run os n = Ok (n', outs) -> Forall nop_wf os.
Proof.
  induction os as [|o os IH]; intros n Hok n' outs H; [constructor|]. cbn [n_run_ok n_run] in *. destruct Hok as [[Hw _] Hok].
  apply bind_ok in H. destruct H as ([n1 out] & H1 & H). rewrite H1 in Hok. apply bind_ok in H. destruct H as ([n2 outs2] & H2 & H).
  constructor; eauto.
Qed.
Lemma node_at_lt n : node_at n -> lt_inv (rn_raft n).
Proof.
  intros (c & tape & s & n0 & os & outs & H1 & H2 & H3 & H4 & H5).
  pose proof (n_run_aprs os n0 n outs [] (nop_ok_wf _ _ H4 _ _ H5) H5) as A.
  apply (aprs_ind_inv (fun s => lt_inv (snd s)) lt_inv_apr _ _ A). cbn.
  apply rn_new_spec in H3. destruct H3 as (r & H3 & ->). apply raft_new_spec in H3. destruct H3 as (s' & cp & _ & _ & _ & _ & _ & _ & F).
  cbn. unfold lt_inv. rewrite (fr_state _ _ _ _ F), (fr_lead _ _ _ _ F). intuition congruence.
Qed.

Definition forwarded (t : mtype) : Prop := t = MsgProp \/ t = MsgReadIndex \/ t = MsgTransferLeader.
Lemma outm_type r m : m_type (outm r m) = m_type m.
Proof. unfold outm. destruct (m_from m =? 0); cbn; destruct (is_vote_family _); auto; destruct (m_type m) eqn:Em; cbn; auto. Qed.
Lemma outm_from r m : m_from (outm r m) = if m_from m =? 0 then r_id r else m_from m.
Proof. unfold outm. destruct (m_from m =? 0); cbn; destruct (is_vote_family _); auto; destruct (m_type m) eqn:Em; cbn; auto. Qed.
Lemma outm_term r m : is_vote_family (m_type m) = false -> m_type m <> MsgProp -> m_type m <> MsgReadIndex -> m_term (outm r m) = r_term r.
Proof.
  intros H1 H2 H3. unfold outm. destruct (m_from m =? 0); cbn; rewrite H1; destruct (m_type m) eqn:Em; cbn; congruence.
Qed.
Lemma outm_term0 r m : m_type m = MsgProp \/ m_type m = MsgReadIndex -> m_term (outm r m) = m_term m.
Proof.
  intros H. unfold outm. destruct (m_from m =? 0); destruct H as [H|H]; cbn; rewrite H; cbn; rewrite ?H; auto.
Qed.
Lemma outm_to r m : m_to (outm r m) = m_to m.
Proof. unfold outm. destruct (m_from m =? 0); cbn; destruct (is_vote_family _); auto; destruct (m_type m) eqn:Em; cbn; auto. Qed.

Lemma pmsg_stamp im a b x : in_ok im -> lt_inv a -> prim im a b -> pmsg im a b x ->
  (m_from x = r_id a \/ (forwarded (m_type x) /\ m_to x = r_lead a /\ m_from x = m_from im /\ m_type im = m_type x /\ m_from im <> 0)) /\
  ((m_type x = MsgProp \/ m_type x = MsgReadIndex) /\ m_term x = 0 \/
   m_type x <> MsgProp /\ m_type x <> MsgReadIndex /\ m_term x <> 0) /\
  (m_term x <= r_term b \/
   (m_type x = MsgPreVote /\ m_term x = r_term a + 1) \/
   (m_type x = MsgPreVoteResp /\ m_reject x = false /\ m_type im = MsgPreVote /\ m_term x = m_term im)).
Proof.
  intros Hi I Hp H. unfold lt_inv in I.
  assert (Htv : r_term a <= r_term b). { apply prim_spec in Hp. destruct Hp as (_ & [X|[X _]] & _); lia. }
  assert (Hw : m_type im = MsgHeartbeat \/ m_type im = MsgApp \/ m_type im = MsgSnap -> m_term im <> 0).
  { intros X Y. destruct Hi as [[_ Z]|[_ Z]].
    - destruct (Z Y) as [W|[W|W]]; rewrite W in X; intuition discriminate.
    - destruct X as [X|[X|X]]; rewrite X in Z; discriminate. }
  destruct H as [x Hl S|x Hm|to lt ctx Hs Hlt Hz|Ht Hm Hz Hv Hv2 Ht2 Hu|i Ht Hm].
  - assert (Hz : r_term a <> 0) by (apply I; auto).
    destruct S; cbn [m_from m_term m_type]; (split; [left; reflexivity|]); (split; [right|left; auto]); repeat split; auto; discriminate.
  - destruct Hm as [to Hz|to Hz|Ht Hz Hu|to lt Hs Hlt|to ctx Ht Hm|to lt i h Ht Hm|to Hz|Hs Hl Hz Ht]; cbn [m_from m_term m_type mk_resp].
    + split; [left; reflexivity|]. split; [right|left; auto]; repeat split; auto; discriminate.
    + split; [left; reflexivity|]. split; [right|left; auto]; repeat split; auto; discriminate.
    + split; [left; reflexivity|]. split; [right|right; right; auto]; repeat split; auto; discriminate.
    + split; [left; reflexivity|]. split; [right|right; left; auto]; repeat split; auto; try discriminate; lia.
    + split; [left; reflexivity|]. split; [right|left; auto]; repeat split; auto; try discriminate. rewrite <- Hm. auto.
    + split; [left; reflexivity|]. split; [right|left; auto]; repeat split; auto; try discriminate. rewrite <- Hm. auto.
    + split; [left; reflexivity|]. split; [right|left; auto]; repeat split; auto; discriminate.
    + rewrite outm_type, outm_from, outm_to. cbn [m_type m_from m_to set_m_to].
      assert (Hza : r_term a <> 0) by auto.
      split; [destruct (N.eqb_spec (m_from im) 0); [left; auto|right; unfold forwarded; tauto]|].
      destruct Ht as [Ht|[Ht|Ht]].
      * rewrite outm_term0 by (cbn; auto). cbn. rewrite Hz. split; [left; auto|left; lia].
      * rewrite outm_term0 by (cbn; auto). cbn. rewrite Hz. split; [left; auto|left; lia].
      * rewrite outm_term; cbn [m_type set_m_to]; rewrite Ht; try discriminate; auto. split; [right; repeat split; auto; discriminate|left; lia].
  - cbn [m_from m_term m_type]. split; [left; reflexivity|]. split; [right|left; auto]; repeat split; auto; discriminate.
  - cbn [m_from m_term m_type mk_resp]. split; [left; reflexivity|]. split; [right|left; lia]; repeat split; auto; try discriminate. congruence.
  - cbn [m_from m_term m_type app_resp mk_resp]. split; [left; reflexivity|]. split; [right|left; auto]; repeat split; auto; try discriminate.
    rewrite <- Hm. tauto.
Qed.

Lemma lt_inv_qprs Q a b : qprs Q a b -> lt_inv a -> lt_inv b.
Proof. apply qprs_ind_inv. intros; eapply lt_inv_prim; eauto. Qed.
Lemma qprs_tv Q a b : qprs Q a b -> r_cfg b = r_cfg a /\ r_term a <= r_term b.
Proof.
  induction 1 as [|im a b c Hq Hp Hc IH]; [split; auto; lia|]. apply prim_spec in Hp. destruct Hp as (A & T & _). destruct IH as [B1 B2].
  split; [congruence|]. destruct T as [T|[T _]]; lia.
Qed.

(** C44: every message carries its emitter's id (a request forwarded to the leader keeps the id of
    its origin), and a non-zero term exactly unless it is a forwarded proposal or read-index request;
    and no term is above the node's own, except in pre-vote requests (the next term) and granted
    pre-vote responses (the requested term). *)
Theorem C44_stamped o n n' x : node_at n -> nop_ok o n -> emits o n n' x ->
  let id := ns_id (rn_status n) in
  (m_from x = id \/
   forwarded (m_type x) /\
     ((exists m, o = NStep m /\ m_type m = m_type x /\ m_from x = m_from m) \/ o = NTransferLeader (m_from x))) /\
  m_from x <> 0 /\
  (m_term x = 0 <-> m_type x = MsgProp \/ m_type x = MsgReadIndex) /\
  (m_term x <= hs_term (node_hard n') \/
   (m_type x = MsgPreVote /\ hs_term (node_hard n) < m_term x <= hs_term (node_hard n') + 1) \/
   (m_type x = MsgPreVoteResp /\ m_reject x = false /\ exists m, o = NStep m /\ m_type m = MsgPreVote /\ m_term x = m_term m)).
Proof.
  intros Ha Hok He id. pose proof (node_at_lt _ Ha) as I.
  assert (Hid : id <> 0).
  { destruct Ha as (c & tape & s & n0 & os & outs & H1 & H2 & H3 & H4 & H5).
    pose proof (n_run_aprs os n0 n outs [] (nop_ok_wf _ _ H4 _ _ H5) H5) as A. apply aprs_tv in A. destruct A as [A _]. cbn in A.
    apply rn_new_spec in H3. destruct H3 as (r & H3 & ->). apply raft_new_spec in H3. destruct H3 as (s' & cp & V & _ & _ & _ & _ & _ & F).
    unfold id; cbn. unfold r_id. rewrite A. cbn. rewrite (fr_cfg _ _ _ _ F). cbn. destruct (validate c) as [c' e'] eqn:Ev. cbn in V. subst e'. apply validate_ok in Ev. apply Ev. }
  destruct (emits_inv _ _ _ _ (proj1 Hok) He) as (Hp & r0 & im & a & b & HS & Hc & Q1 & P1 & Hm & Q2).
  assert (E0 : r_cfg r0 = r_cfg (rn_raft n) /\ r_term r0 = r_term (rn_raft n) /\ lt_inv r0).
  { destruct HS as [->|(cc & cp & bb & op & _ & _ & ->)]; auto. }
  destruct E0 as (E1 & E2 & E3). pose proof (lt_inv_qprs _ _ _ Q1 E3) as I1. destruct (qprs_tv _ _ _ Q1) as [C1 T1].
  destruct (qprs_tv _ _ _ Q2) as [C2 T2]. pose proof (call_msg_in _ _ _ Hp (proj1 Hok) Hc) as Hin.
  assert (T3 : r_term a <= r_term b). { pose proof P1 as P. apply prim_spec in P. destruct P as (_ & [X|[X _]] & _); lia. }
  assert (Hida : r_id a = id) by (unfold id, r_id; cbn; unfold r_id; congruence).
  destruct (pmsg_stamp _ _ _ _ Hin I1 P1 Hm) as (S1 & S2 & S3). unfold node_hard, rn_status; cbn [ns_hard hs_term hard_state].
  assert (Hd : (exists m, o = NStep m) \/ forall m, o <> NStep m) by (destruct o; eauto; right; discriminate).
  assert (Hf : m_from x = id \/ forwarded (m_type x) /\
    ((exists m, o = NStep m /\ m_type m = m_type x /\ m_from x = m_from m) \/ o = NTransferLeader (m_from x)) /\ m_from x <> 0).
  { destruct S1 as [S1|(S1 & _ & S4 & S5 & S6)]; [left; congruence|].
    destruct Hd as [[m ->]|Hd]; [cbn in Hc; subst m; right; split; [auto|]; split; [left; eauto|congruence]|].
    destruct o; cbn in Hc; try tauto; try (subst im; cbn in S4, S5, S6; try tauto; try (rewrite <- S5 in S1; unfold forwarded in S1; intuition discriminate); fail).
    - destruct Hc as [_ Hc]. rewrite S5 in Hc. unfold forwarded in S1. intuition congruence.
    - destruct Hc as (t & d & _ & ->). cbn in S6. tauto.
    - exfalso. eapply Hd; eauto.
    - subst im. cbn in S4. subst. right. split; [auto|]. split; [right; congruence|cbn in S6; congruence]. }
  split; [destruct Hf as [Hf|(F1 & F2 & _)]; auto|].
  split; [destruct Hf as [Hf|(_ & _ & F2)]; [rewrite Hf; exact Hid|exact F2]|].
  split; [destruct S2 as [[X Y]|(X & Y & Z)]; split; auto; tauto|].
  destruct S3 as [S3|[[S3 S4]|(S3 & S4 & S5 & S6)]].
  - left. lia.
  - right. left. split; auto. lia.
  - right. right. split; auto. split; auto. exists im. destruct Hd as [[m ->]|Hd]; [cbn in Hc; subst; auto|].
    destruct (call_msg_local _ _ _ Hc Hd) as [_ L]. rewrite S5 in L. discriminate.
Qed.

End Props.

(* ---- concrete cases meeting the hypotheses ---- *)
Definition ex_pre_req : msg := mkMsg MsgPreVote 1 2 3 2 7 [] 0 empty_snapshot false 0 EmptyString.
Example C30_example_vote : exists n n' x, @node_at ex_env n /\ nop_ok (NStep (ex_vote 2 3)) n /\
  @emits ex_env (NStep (ex_vote 2 3)) n n' x /\ (mtype_eqb (m_type x) MsgVoteResp && negb (m_reject x)) = true.
Proof. apply (emit_case_ok (ex_cfg 1) ex_tape [NTick; NHandle]). vm_compute. reflexivity. Qed.
Example C30_example_prevote : exists n n' x, @node_at ex_env n /\ nop_ok (NStep ex_pre_req) n /\
  @emits ex_env (NStep ex_pre_req) n n' x /\ (mtype_eqb (m_type x) MsgPreVoteResp && negb (m_reject x)) = true.
Proof. apply (emit_case_ok (ex_cfg 1) ex_tape [NTick; NHandle]). vm_compute. reflexivity. Qed.
(** A candidate whose log is behind is refused. *)
Definition ex_stale_vote : msg := mkMsg MsgVote 1 2 9 2 6 [] 0 empty_snapshot false 0 EmptyString.
Example C30_example_stale : exists n n' x, @node_at ex_env n /\ nop_ok (NStep ex_stale_vote) n /\
  @emits ex_env (NStep ex_stale_vote) n n' x /\ (mtype_eqb (m_type x) MsgVoteResp && m_reject x) = true.
Proof. apply (emit_case_ok (ex_cfg 1) ex_tape [NTick; NHandle]). vm_compute. reflexivity. Qed.
(** An elected leader's append, a forwarded proposal. *)
Example C44_example_app : exists n n' x, @node_at ex_env n /\ nop_ok (NPropose "x") n /\
  @emits ex_env (NPropose "x") n n' x /\ (mtype_eqb (m_type x) MsgApp && (m_from x =? 1) && (m_term x =? 3)) = true.
Proof. apply (emit_case_ok (ex_cfg 1) ex_tape (ex_elect ++ [NStep (ex_app_resp 2 3 8); NHandle])). vm_compute. reflexivity. Qed.
Example C44_example_fwd : exists n n' x, @node_at ex_env n /\ nop_ok (NPropose "x") n /\
  @emits ex_env (NPropose "x") n n' x /\ (mtype_eqb (m_type x) MsgProp && (m_to x =? 2) && (m_term x =? 0)) = true.
Proof.
  apply (emit_case_ok (ex_cfg 1) ex_tape [NStep (mkMsg MsgHeartbeat 1 2 4 0 0 [] 6 empty_snapshot false 0 EmptyString); NHandle]).
  vm_compute. reflexivity.
Qed.
