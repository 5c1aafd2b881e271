(** Every vote request is answered, and granted whenever Raft's rules allow it (C59). *)
From Verif Require Import Prelude Types M_Util M_Quorum M_Inflights M_Progress M_Tracker.
From Verif Require Import M_Storage M_Unstable M_Log M_ReadOnly M_ConfPb M_ConfChange M_Raft M_RawNode.
From Verif Require Import P_Inflights Spec_Log P_Lists P_Storage P_Log Spec_Storage Sys_Storage P_StorageSeq Spec_RaftLog Sys_RaftLog P_RaftLogSeq.
From Verif Require Import Spec_ConfChange P_Frame P_Prim Sys_Node Sys_ConfChange P_Node P_Fields P_Vote Spec_Node P_Persist P_New P_Time P_NodeLog P_Handle P_NodeRun.
From Verif Require Import Prop_Vote Prop_Deliver Prop_Flow Spec_Snap Spec_Flow Spec_Resp Prop_Answer Ex_Env Ex_Node Ex_Check Ex_Case.

Section Props.
Context {E : Env}.

Lemma nstep_vote m n n' out : asks_vote m -> peer_msg_wf m -> n_step (NStep m) n = Ok (n', out) ->
  m_term m <> 0 /\ exists r' e, step m (rn_raft n) = Ok (r', e) /\ n' = set_rn_raft r' n.
Proof.
  intros Ht [Hfr Hz] H. cbn [n_step] in H. apply bind_ok in H. destruct H as ([n1 e1] & H & Hx). apply Ok_inj, pair_equal_spec in Hx. destruct Hx as [<- _].
  split; [intros X; apply Hz in X; destruct Ht as [Ht|Ht]; rewrite Ht in X; destruct X as [X|[X|X]]; discriminate|].
  assert (H' : rn_raft_step m n = Ok (n1, e1)).
  { unfold rn_step in H. destruct Ht as [Ht|Ht]; rewrite Ht in H; cbn [is_local_msg is_response_msg negb] in H; rewrite orb_true_r in H; exact H. }
  unfold rn_raft_step in H'. apply bind_ok in H'. destruct H' as ([r1 e2] & H' & Hx). apply Ok_inj, pair_equal_spec in Hx. destruct Hx as [<- <-]. eauto.
Qed.

(** The answer [step_vote] gives. *)
Definition may_vote (r : raft) (m : msg) : Prop :=
  r_vote r = m_from m \/ (r_vote r = 0 /\ r_lead r = 0) \/ (m_type m = MsgPreVote /\ r_term r < m_term m).
Definition newer (lt last : N) (m : msg) : Prop := lt < m_logterm m \/ (lt = m_logterm m /\ last <= m_index m).
Lemma step_vote_answer m r r' : lwf0 (r_log r) -> asks_vote m -> step_vote m r = Ok r' ->
  exists lt a, log_term (r_last r) (r_log r) = Ok (SOk lt) /\ r_msgs r' = r_msgs r ++ [a] /\
    m_to a = m_from m /\ m_from a = r_id r /\ m_type a = (match m_type m with MsgVote => MsgVoteResp | _ => MsgPreVoteResp end) /\
    ((may_vote r m /\ newer lt (r_last r) m /\ m_reject a = false /\ m_term a = m_term m /\
      (m_type m = MsgVote -> r' = set_r_vote (m_from m) (set_r_el_elapsed 0 (set_r_msgs (r_msgs r ++ [a]) r))) /\
      (m_type m = MsgPreVote -> r' = set_r_msgs (r_msgs r ++ [a]) r)) \/
     (~ (may_vote r m /\ newer lt (r_last r) m) /\ m_reject a = true /\ m_term a = r_term r /\ r' = set_r_msgs (r_msgs r ++ [a]) r)).
Proof.
  intros W Ha H. unfold step_vote in H. apply bind_ok in H. destruct H as (up & Hup & H). apply bind_ok in H. destruct H as (rt & Hrt & H).
  destruct (log_is_up_to_date_abs (m_index m) (m_logterm m) (r_log r) W) as (lt & L1 & L2).
  assert (LT : log_term (r_last r) (r_log r) = Ok (SOk lt)).
  { unfold r_last. rewrite log_last_abs, log_term_abs by auto. rewrite L1. reflexivity. }
  exists lt.
  assert (Hrt' : rt = match m_type m with MsgVote => MsgVoteResp | _ => MsgPreVoteResp end).
  { destruct Ha as [Ha|Ha]; rewrite Ha in *; cbn in Hrt; congruence. }
  assert (Fam : is_vote_family rt = true) by (destruct Ha as [Ha|Ha]; rewrite Hrt', Ha; reflexivity).
  assert (Cv : up = true <-> may_vote r m /\ newer lt (r_last r) m).
  { assert (Mv : (r_vote r =? m_from m) || ((r_vote r =? 0) && (r_lead r =? 0)) || (mtype_eqb (m_type m) MsgPreVote && (r_term r <? m_term m)) = true <-> may_vote r m).
    { unfold may_vote. rewrite !orb_true_iff, !andb_true_iff, !N.eqb_eq, N.ltb_lt.
      assert (mtype_eqb (m_type m) MsgPreVote = true <-> m_type m = MsgPreVote) by (destruct (m_type m); cbn; split; intros Q; try reflexivity; discriminate Q). tauto. }
    destruct (_ || _).
    - rewrite L2 in Hup. apply Ok_inj in Hup. subst up. unfold newer, r_last. rewrite log_last_abs by auto.
      assert (may_vote r m) by tauto. rewrite !orb_true_iff, !andb_true_iff, N.ltb_lt, N.eqb_eq, N.leb_le. intuition lia.
    - apply Ok_inj in Hup. subst up. split; [discriminate|]. intros [X _]. apply Mv in X. discriminate. }
  destruct up.
  - apply bind_ok in H. destruct H as (r1 & H1 & H). apply send_ok in H1. destruct H1 as [H1 _].
    assert (Ho : outm r (set_m_term (m_term m) (set_m_to (m_from m) (new_msg rt))) = set_m_from (r_id r) (set_m_term (m_term m) (set_m_to (m_from m) (new_msg rt)))).
    { destruct Ha as [Ha|Ha]; rewrite Hrt', Ha; reflexivity. }
    rewrite Ho in H1. unfold emit in H1. set (a := set_m_from _ _) in H1. exists a.
    split; [exact LT|]. assert (Hm : r_msgs r' = r_msgs r ++ [a]).
    { destruct (mtype_eqb (m_type m) MsgVote); apply Ok_inj in H; subst r' r1; reflexivity. }
    split; [exact Hm|]. split; [reflexivity|]. split; [reflexivity|]. split; [exact Hrt'|]. left.
    destruct Cv as [Cv _]. destruct (Cv eq_refl) as [C1 C2]. split; [exact C1|]. split; [exact C2|]. split; [reflexivity|]. split; [reflexivity|].
    split; intros Hx; rewrite Hx in H; cbn [mtype_eqb] in H; apply Ok_inj in H; subst r' r1; reflexivity.
  - apply send_ok in H. destruct H as [H1 _].
    assert (Ho : outm r (set_m_reject true (set_m_term (r_term r) (set_m_to (m_from m) (new_msg rt)))) = set_m_from (r_id r) (set_m_reject true (set_m_term (r_term r) (set_m_to (m_from m) (new_msg rt))))).
    { destruct Ha as [Ha|Ha]; rewrite Hrt', Ha; reflexivity. }
    rewrite Ho in H1. unfold emit in H1. set (a := set_m_from _ _) in H1. exists a. subst r'.
    split; [exact LT|]. split; [reflexivity|]. split; [reflexivity|]. split; [reflexivity|]. split; [exact Hrt'|]. right.
    split; [intros X; apply Cv in X; discriminate|]. split; [reflexivity|]. split; reflexivity.
Qed.

(** Nothing excuses the node from answering: the request is of its own term, or it comes with the
    leader's permission, or the node knows no leader, or CheckQuorum is off. *)
Definition must_answer (c : config) (n : rawnode) (m : msg) : Prop :=
  m_term m = node_term n \/ m_ctx m = "CampaignTransfer"%string \/ node_lead n = 0 \/ c_check_quorum c = false.
Lemma must_lease c n m : made c n -> must_answer c n m -> r_term (rn_raft n) < m_term m ->
  negb (String.eqb (m_ctx m) campaign_transfer_ctx) && in_lease (rn_raft n) = false.
Proof.
  intros Hm H Hlt. destruct H as [H|[H|[H|H]]].
  - change (m_term m = r_term (rn_raft n)) in H. lia.
  - rewrite H. reflexivity.
  - change (r_lead (rn_raft n) = 0) in H. unfold in_lease. rewrite H. change (0 =? 0) with true. rewrite !andb_false_r. reflexivity.
  - unfold in_lease. rewrite (mi_cfg _ _ (made_inv _ _ Hm)). cbn [cfg_of k_check_quorum]. rewrite H. rewrite andb_false_r. reflexivity.
Qed.

(** C59: a vote request of the node's term or a later one is answered with exactly one response; the
    vote is granted if and only if it is still free and the candidate's log is at least as
    up-to-date, and a granted vote is recorded. *)
Theorem C59_vote_answered c n m n' out :
  made c n -> nop_ok (NStep m) n -> m_type m = MsgVote -> n_step (NStep m) n = Ok (n', out) ->
  node_term n <= m_term m -> must_answer c n m ->
  exists a lt, pending n' = pending n ++ [a] /\ answers (node_id n) (m_term m) m a /\ m_type a = MsgVoteResp /\
    node_term n' = m_term m /\ node_commit n' = node_commit n /\ same_log n n' /\
    (node_term n < m_term m -> node_role n' = RFollower /\ node_lead n' = 0) /\
    (m_term m = node_term n -> node_role n' = node_role n /\ node_lead n' = node_lead n) /\
    shows n (node_last n) lt /\
    let free := node_term n < m_term m \/ hs_vote (node_hard n) = m_from m \/ (hs_vote (node_hard n) = 0 /\ node_lead n = 0) in
    let up_to_date := lt < m_logterm m \/ (lt = m_logterm m /\ node_last n <= m_index m) in
    (free /\ up_to_date /\ m_reject a = false /\ hs_vote (node_hard n') = m_from m) \/
    (~ (free /\ up_to_date) /\ m_reject a = true /\
       hs_vote (node_hard n') = if node_term n <? m_term m then 0 else hs_vote (node_hard n)).
Proof.
  intros Hm Hok Ht H Hle Hmust. pose proof (made_inv _ _ Hm) as M. pose proof (mi_dinv _ _ M) as D.
  pose proof (proj1 (n_step_dinv _ _ _ _ Hok H D)) as D'. pose proof (lwf_0 _ (li_wf _ (ni_log _ (di_ninv _ D)))) as W.
  assert (Ha : asks_vote m) by (left; auto).
  destruct (nstep_vote _ _ _ _ Ha (proj1 Hok) H) as (Hz & r' & e & Hs & ->). clear H.
  change (r_term (rn_raft n) <= m_term m) in Hle.
  assert (G : exists r0, step_vote m r0 = Ok r' /\ r_cfg r0 = r_cfg (rn_raft n) /\ r_term r0 = m_term m /\ r_log r0 = r_log (rn_raft n) /\ r_msgs r0 = r_msgs (rn_raft n) /\
    ((r_term (rn_raft n) < m_term m /\ r_vote r0 = 0 /\ r_state r0 = RFollower /\ r_lead r0 = 0) \/ (m_term m = r_term (rn_raft n) /\ r0 = rn_raft n))).
  { unfold step in Hs. destruct (N.eqb_spec (m_term m) 0); [lia|]. destruct (N.ltb_spec (r_term (rn_raft n)) (m_term m)) as [Hlt|Hlt].
    - pose proof (must_lease _ _ _ Hm Hmust Hlt) as Hls. rewrite Ht in Hs. cbv zeta in Hs. cbn [mtype_eqb orb] in Hs. rewrite andb_true_l, Hls in Hs.
      hide (become_follower (m_term m) 0 (rn_raft n)) r1 E1. destruct (become_follower_fields _ _ _ _ E1) as (A1&A2&A3&A4&A5&A6&A7&A8&A9&A10&A11). clear E1.
      unfold step_dispatch in Hs. rewrite Ht in Hs. unfold okr in Hs. apply bind_ok in Hs. destruct Hs as (r2 & Hs & Hx). apply Ok_inj, pair_equal_spec in Hx. destruct Hx as [<- _].
      exists r1. repeat (split; [auto; fail|]). left. split; [auto|]. split; [|auto]. rewrite A3. destruct (N.eqb_spec (r_term (rn_raft n)) (m_term m)); [lia|auto].
    - destruct (N.ltb_spec (m_term m) (r_term (rn_raft n))); [lia|].
      unfold step_dispatch in Hs. rewrite Ht in Hs. unfold okr in Hs. apply bind_ok in Hs. destruct Hs as (r2 & Hs & Hx). apply Ok_inj, pair_equal_spec in Hx. destruct Hx as [<- _].
      exists (rn_raft n). repeat (split; [auto; lia|]). right. split; [lia|auto]. }
  clear Hs. destruct G as (r0 & Hs & G1 & G2 & G3 & G4 & G5).
  apply step_vote_answer in Hs; [|rewrite G3; auto|auto]. destruct Hs as (lt & a & L & Hmsg & A1 & A2 & A3 & HA).
  assert (RL : r_last r0 = node_last n) by (unfold r_last, node_last; rewrite G3; reflexivity). rewrite RL in *.
  assert (Fr : r_term r' = m_term m /\ r_log r' = r_log (rn_raft n) /\ r_state r' = r_state r0 /\ r_lead r' = r_lead r0 /\ m_term a = m_term m).
  { destruct HA as [(_ & _ & _ & Q & HA & _)|(_ & _ & Q & ->)]; [rewrite (HA Ht)|]; cbn; repeat split; auto. congruence. }
  destruct Fr as (F1 & F2 & F3 & F4 & F5). rewrite Ht in A3.
  assert (Id : r_id r0 = node_id n) by (unfold r_id, node_id; cbn; unfold r_id; congruence).
  exists a, lt. split; [unfold pending; cbn [rn_raft set_rn_raft]; rewrite Hmsg, G4; reflexivity|].
  split; [split; [auto|split; [congruence|auto]]|]. split; [exact A3|].
  split; [exact F1|]. split; [change (l_committed (r_log r') = l_committed (r_log (rn_raft n))); rewrite F2; reflexivity|].
  split; [apply same_log_abs; auto; cbn [rn_raft set_rn_raft]; rewrite F2; reflexivity|].
  change (node_role (set_rn_raft r' n)) with (r_state r'). change (node_lead (set_rn_raft r' n)) with (r_lead r').
  change (node_role n) with (r_state (rn_raft n)). change (node_lead n) with (r_lead (rn_raft n)). change (node_term n) with (r_term (rn_raft n)).
  change (hs_vote (node_hard n)) with (r_vote (rn_raft n)). change (hs_vote (node_hard (set_rn_raft r' n))) with (r_vote r').
  rewrite F3, F4.
  split; [intros Hx; destruct G5 as [(_ & G5 & G6 & G7)|(G5 & _)]; [auto|lia]|].
  split; [intros Hx; destruct G5 as [(G5 & _)|(_ & ->)]; [lia|auto]|].
  split; [unfold shows; rewrite <- G3; exact L|]. cbv zeta.
  assert (Mv : may_vote r0 m <-> (r_term (rn_raft n) < m_term m \/ r_vote (rn_raft n) = m_from m \/ (r_vote (rn_raft n) = 0 /\ r_lead (rn_raft n) = 0))).
  { unfold may_vote. destruct G5 as [(G5 & G6 & G7 & G8)|(G5 & ->)].
    - rewrite G6, G8. tauto.
    - rewrite G5. intuition (try lia; try congruence). }
  rewrite <- Mv. destruct HA as [(B1 & B2 & B3 & B4 & B5 & _)|(B1 & B2 & B3 & B4)].
  - left. split; [exact B1|]. split; [exact B2|]. split; [exact B3|]. rewrite (B5 Ht). reflexivity.
  - right. split; [exact B1|]. split; [exact B2|]. rewrite B4. change (r_vote (set_r_msgs (r_msgs r0 ++ [a]) r0)) with (r_vote r0).
    destruct G5 as [(G5 & G6 & _)|(G5 & ->)]; [rewrite G6|]; destruct (N.ltb_spec (r_term (rn_raft n)) (m_term m)); auto; lia.
Qed.

(** C59: a pre-vote request is answered with exactly one response and changes nothing else; it is
    granted if and only if the node could vote for the candidate. *)
Theorem C59_pre_vote_answered c n m n' out :
  made c n -> nop_ok (NStep m) n -> m_type m = MsgPreVote -> n_step (NStep m) n = Ok (n', out) ->
  m_term m < node_term n \/ must_answer c n m ->
  exists a lt, n' = set_rn_raft (set_r_msgs (pending n ++ [a]) (rn_raft n)) n /\
    m_to a = m_from m /\ m_from a = node_id n /\ m_type a = MsgPreVoteResp /\
    shows n (node_last n) lt /\
    let free := node_term n < m_term m \/ (m_term m = node_term n /\
                  (hs_vote (node_hard n) = m_from m \/ (hs_vote (node_hard n) = 0 /\ node_lead n = 0))) in
    let up_to_date := lt < m_logterm m \/ (lt = m_logterm m /\ node_last n <= m_index m) in
    (free /\ up_to_date /\ m_reject a = false /\ m_term a = m_term m) \/
    (~ (free /\ up_to_date) /\ m_reject a = true /\ m_term a = node_term n).
Proof.
  intros Hm Hok Ht H Hmust. pose proof (made_inv _ _ Hm) as M. pose proof (mi_dinv _ _ M) as D.
  pose proof (lwf_0 _ (li_wf _ (ni_log _ (di_ninv _ D)))) as W.
  assert (Ha : asks_vote m) by (right; auto).
  destruct (nstep_vote _ _ _ _ Ha (proj1 Hok) H) as (Hz & r' & e & Hs & ->). clear H.
  change (node_lead n) with (r_lead (rn_raft n)). change (node_term n) with (r_term (rn_raft n)) in *.
  change (hs_vote (node_hard n)) with (r_vote (rn_raft n)).
  destruct (log_is_up_to_date_abs (m_index m) (m_logterm m) (r_log (rn_raft n)) W) as (lt0 & L1 & _).
  assert (G : (m_term m < r_term (rn_raft n) /\ r' = emit (outm (rn_raft n) (set_m_reject true (set_m_term (r_term (rn_raft n)) (set_m_to (m_from m) (new_msg MsgPreVoteResp))))) (rn_raft n)) \/
    (r_term (rn_raft n) <= m_term m /\ step_vote m (rn_raft n) = Ok r')).
  { unfold step in Hs. destruct (N.eqb_spec (m_term m) 0); [lia|]. destruct (N.ltb_spec (r_term (rn_raft n)) (m_term m)) as [Hlt|Hlt].
    - destruct Hmust as [Hmust|Hmust]; [lia|].
      pose proof (must_lease _ _ _ Hm Hmust Hlt) as Hls. rewrite Ht in Hs. cbv zeta in Hs. cbn [mtype_eqb orb] in Hs. rewrite andb_true_l, Hls in Hs.
      unfold step_dispatch in Hs. rewrite Ht in Hs. unfold okr in Hs. apply bind_ok in Hs. destruct Hs as (r2 & Hs & Hx). apply Ok_inj, pair_equal_spec in Hx. destruct Hx as [<- _].
      right. split; [lia|auto].
    - destruct (N.ltb_spec (m_term m) (r_term (rn_raft n))).
      + rewrite Ht in Hs. cbn [mtype_eqb orb] in Hs. rewrite andb_false_r in Hs. unfold okr in Hs.
        apply bind_ok in Hs. destruct Hs as (r2 & Hs & Hx). apply Ok_inj, pair_equal_spec in Hx. destruct Hx as [<- _].
        apply send_ok in Hs. left. tauto.
      + unfold step_dispatch in Hs. rewrite Ht in Hs. unfold okr in Hs. apply bind_ok in Hs. destruct Hs as (r2 & Hs & Hx). apply Ok_inj, pair_equal_spec in Hx. destruct Hx as [<- _].
        right. split; [lia|auto]. }
  clear Hs. destruct G as [(G1 & ->)|(G1 & Hs)].
  - assert (LT : shows n (node_last n) lt0).
    { unfold shows, node_last. rewrite log_last_abs, log_term_abs by auto. rewrite L1. reflexivity. }
    eexists. exists lt0. split; [reflexivity|]. split; [reflexivity|]. split; [reflexivity|]. split; [reflexivity|]. split; [exact LT|].
    cbv zeta. right. split; [lia|]. split; reflexivity.
  - apply step_vote_answer in Hs; auto. destruct Hs as (lt & a & L & Hmsg & A1 & A2 & A3 & HA). rewrite Ht in A3.
    exists a, lt. split.
    { destruct HA as [(_ & _ & _ & _ & _ & HA)|(_ & _ & _ & HA)]; [rewrite (HA Ht)|rewrite HA]; reflexivity. }
    split; [exact A1|]. split; [exact A2|]. split; [exact A3|]. split; [exact L|]. cbv zeta.
    assert (Mv : may_vote (rn_raft n) m <-> (r_term (rn_raft n) < m_term m \/ (m_term m = r_term (rn_raft n) /\ (r_vote (rn_raft n) = m_from m \/ (r_vote (rn_raft n) = 0 /\ r_lead (rn_raft n) = 0))))).
    { unfold may_vote. rewrite Ht. intuition (try lia). }
    rewrite <- Mv. destruct HA as [(B1 & B2 & B3 & B4 & _)|(B1 & B2 & B3 & _)]; [left|right]; auto.
Qed.
Theorem C59_old_candidate_ignored n m n' out :
  nop_ok (NStep m) n -> m_type m = MsgVote -> n_step (NStep m) n = Ok (n', out) -> m_term m < node_term n -> n' = n.
Proof.
  intros Hok Ht H Hlt. destruct (nstep_vote _ _ _ _ (or_introl Ht) (proj1 Hok) H) as (Hz & r' & e & Hs & ->). change (m_term m < r_term (rn_raft n)) in Hlt.
  unfold step in Hs. destruct (N.eqb_spec (m_term m) 0); [lia|]. destruct (N.ltb_spec (r_term (rn_raft n)) (m_term m)); [lia|].
  destruct (N.ltb_spec (m_term m) (r_term (rn_raft n))); [|lia]. rewrite Ht in Hs. cbn [mtype_eqb orb] in Hs. rewrite andb_false_r in Hs.
  apply Ok_inj, pair_equal_spec in Hs. destruct Hs as [<- _]. apply self_raft.
Qed.
End Props.

(** Concrete cases on the example node (last entry (7, term 2), term 2, no vote). *)
Definition ex_ask (t : mtype) (term lt i : N) : msg := set_m_index i (set_m_logterm lt (set_m_term term (set_m_from 2 (set_m_to 1 (new_msg t))))).
Definition ex_ballot (m : msg) (granted : bool) (vote : N) : Prop :=
  exists n n' out, @node_at ex_env n /\ nop_ok (NStep m) n /\ @n_step ex_env (NStep m) n = Ok (n', out) /\
    ((node_term n =? 2) && (node_last n =? 7) && (node_lead n =? 0) && (hs_vote (node_hard n') =? vote) &&
     match rev (pending n') with a :: _ => Bool.eqb (m_reject a) (negb granted) | [] => false end) = true.
Example C59_example_granted : ex_ballot (ex_ask MsgVote 3 2 7) true 2.
Proof. apply (case_ok (ex_cfg 1) ex_tape [] _ _). vm_compute. reflexivity. Qed.
Example C59_example_refused : ex_ballot (ex_ask MsgVote 3 2 6) false 0.
Proof. apply (case_ok (ex_cfg 1) ex_tape [] _ _). vm_compute. reflexivity. Qed.
Example C59_example_pre_granted : ex_ballot (ex_ask MsgPreVote 3 3 1) true 0.
Proof. apply (case_ok (ex_cfg 1) ex_tape [] _ _). vm_compute. reflexivity. Qed.
Example C59_example_pre_refused : ex_ballot (ex_ask MsgPreVote 1 3 1) false 0.
Proof. apply (case_ok (ex_cfg 1) ex_tape [] _ _). vm_compute. reflexivity. Qed.
