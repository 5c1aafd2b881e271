(** Only voters stand for election (the voters being fixed). *)
From Coq Require Import Permutation.
From Verif Require Import Prelude Types M_Util M_Quorum M_Inflights M_Progress M_Tracker.
From Verif Require Import M_Storage M_Unstable M_Log M_ReadOnly M_ConfPb M_ConfChange M_Raft M_RawNode.
From Verif Require Import Spec_ConfChange Spec_Log P_Lists P_Log P_Frame P_Prim Sys_Node P_Node P_Fields P_Vote Spec_Node P_New P_Conf P_NodeLog P_Handle P_NodeRun P_Emit Sys_Cluster R_Switch.

Section Elig.
Context {E : Env}.

Definition voter_of (r : raft) : Prop := In (r_id r) (tc_incoming (t_config (r_trk r))) \/ In (r_id r) (tc_outgoing (t_config (r_trk r))).
Definition elig (r : raft) : Prop := r_state r <> RFollower -> voter_of r.

Lemma promotable_voter r : tok r -> promotable r = true -> voter_of r.
Proof.
  intros T H. unfold promotable, trk_get in H. destruct (mget (r_id r) (t_progress (r_trk r))) as [p|] eqn:Hg; [|discriminate].
  apply andb_true_iff in H. destruct H as [H _]. apply negb_true_iff in H.
  assert (Hm : mget (r_id r) (t_progress (r_trk r)) <> None) by congruence. apply (cw_trk _ _ T) in Hm.
  unfold voter_of. destruct Hm as [?|[?|Hl]]; auto. apply (cw_mark _ _ T _ _ Hg) in Hl. congruence.
Qed.
Lemma elig_same r r' : r_id r' = r_id r -> t_config (r_trk r') = t_config (r_trk r) -> (r_state r' = r_state r \/ r_state r' = RFollower) -> elig r -> elig r'.
Proof.
  intros H1 H2 H3 H. unfold elig, voter_of in *. rewrite H1, H2. destruct H3 as [->|H3]; auto; try congruence.
Qed.
Lemma voter_same r r' : r_id r' = r_id r -> t_config (r_trk r') = t_config (r_trk r) -> voter_of r -> voter_of r'.
Proof. intros H1 H2. unfold voter_of. rewrite H1, H2. auto. Qed.

Lemma prim_elig im r r' : prim im r r' -> tok r -> elig r -> elig r'.
Proof.
  intros H T K.
  destruct H as [r' Kp|r' Hl S|m Hm|t l Ht _|r' Hcd Hpm|r' Hcd Hpm|Hs|Hs|to lt ctx Hs Hlt Hz|Ht Hm Hz Hv Hu|r' Hs Hv Hb|
                 es r1 r' Hs Ht He Hf Ha|p p' Hs Ht Hr Hm Hg Hx Hy Hlr|r' b Hs Hcd|Hg Hm Hs|l last Ht Hm Hs Hcd Ha|
                 l Ht Hm Hs Hcd|l Ht Hm Hs Hcd Hmt Hct|r1 Ht Hm Hs Hr].
  all: try (apply (elig_same r); auto; reflexivity).
  - apply (elig_same r); auto; destruct Kp; auto. unfold r_id. congruence.
  - apply (elig_same r); auto; destruct S as [[] ? ?]; auto. unfold r_id. congruence.
  - pose proof (become_follower_fields t l r _ eq_refl) as F. apply (elig_same r); auto; try apply F. unfold r_id. f_equal. apply F.
  - assert (V : voter_of r). { destruct Hpm as [Hpm|Hpm]; [apply promotable_voter; auto|apply K; congruence]. }
    intros _. apply become_candidate_all in Hcd. revert V. apply voter_same; [unfold r_id; f_equal|]; apply Hcd.
  - intros _. pose proof (promotable_voter r T Hpm) as V. apply become_pre_all in Hcd. revert V. apply voter_same; [unfold r_id; f_equal|]; apply Hcd.
  - unfold poll, trk_record_vote. cbn [fst]. destruct (mget _ _); apply (elig_same r); auto.
  - unfold poll, trk_record_vote. cbn [fst]. destruct (mget _ _); apply (elig_same r); auto.
  - apply become_leader_all in Hb. intros _. assert (V : voter_of r) by (apply K; congruence). revert V. apply voter_same; [unfold r_id; f_equal|]; apply Hb.
  - apply filter_prop_fields in Hf. destruct Hf as [k ->].
    destruct Ha as [Ha|[_ ->]]; [|apply (elig_same r); auto]. apply append_entry_fields in Ha. destruct Ha as (lx & px & ux & ->). apply (elig_same r); auto.
  - apply raft_maybe_commit_state in Hcd. destruct Hcd as [l ->]. apply (elig_same r); auto.
  - pose proof (restore_fields (m_snap im) r r1 Hs Hr) as F. intros X. exfalso. apply X. cbn. apply F.
Qed.

Lemma qprs_elig Q r r' : qprs Q r r' -> tok r -> elig r -> elig r'.
Proof. induction 1 as [|im a b c Hq Hp H IH]; auto. intros T K. apply IH; [eapply tok_prim; eauto|eapply prim_elig; eauto]. Qed.

Lemma n_step_tok o n n' out : nop_wf o -> n_step o n = Ok (n', out) -> tok (rn_raft n) -> tok (rn_raft n').
Proof.
  intros Hw H T. assert (Hr : n_run [o] n = Ok (n', [out])) by (cbn; rewrite H; auto).
  assert (W : Forall nop_wf [o]) by auto. apply (n_run_aprs _ _ _ _ [] W) in Hr. apply (tok_aprs _ _ Hr T).
Qed.
Lemma n_step_elig o n n' out : dinv n -> nop_ok o n -> voters_kept o n -> n_step o n = Ok (n', out) ->
  tok (rn_raft n) -> elig (rn_raft n) -> elig (rn_raft n').
Proof.
  intros D Hok Hcc H T K. destruct (plain_dec o) as [Hp|Hp].
  - destruct (n_step_qprs o n n' out Hp (proj1 Hok) H) as (r0 & [->|(cc & _ & _ & _ & X & _)] & Hq); [eapply qprs_elig; eauto|]. subst o. clear Hq r0.
    destruct (apply_kept _ _ _ _ H Hcc T) as (cp & b & op & H1 & H2 & H3 & _ & P1 & P2 & T0 & _). eapply qprs_elig; [exact H2|exact T0|].
    intros X. specialize (K X). unfold voter_of in *. cbn. destruct K as [K|K]; [left|right]; eapply Permutation_in; eauto.
  - destruct o; try (exfalso; apply Hp; exact I); try (destruct Hok as [_ []]; fail).
    + cbn [n_step] in H. apply bind_ok in H. destruct H as ([n2 rd] & H1 & H2). inv H2.
      pose proof (di_ninv _ D) as [N1 N2 N3].
      pose proof (handle_inv n n' rd N1 (fun h => N3 (or_introl h)) H1) as [R HP HSo HNo HA HR]. cbv zeta in HR.
      destruct HR as (st & u & rb & r1 & Hps & Hrb & Hr1 & Hrn & _). rewrite Hrn.
      assert (Kb : elig rb) by (rewrite Hrb; apply (elig_same (rn_raft n)); auto).
      assert (K1 : elig r1).
      { destruct Hr1 as [[-> _]|(Hl & r0 & Ha & -> & Hpc & _)]; auto. apply append_entry_fields in Ha. destruct Ha as (lx & px & ux & ->).
        apply (elig_same rb); auto. }
      apply (elig_same r1); auto.
    + cbn [n_step] in H. apply bind_ok in H. destruct H as ([s e] & H1 & H2). inv H2. apply (elig_same (rn_raft n)); auto.
    + cbn [n_step] in H. apply bind_ok in H. destruct H as ([s e] & H1 & H2). inv H2. apply (elig_same (rn_raft n)); auto.
Qed.
Lemma new_elig c tape n : rn_new c tape = Ok n -> tok (rn_raft n) /\ elig (rn_raft n).
Proof.
  intros H. apply rn_new_spec in H. destruct H as (r & Hr & ->). cbn [rn_raft]. split; [eapply tok_new; eauto|].
  apply raft_new_spec in Hr. destruct Hr as (s & cp & _ & _ & _ & _ & _ & _ & F). intros X. exfalso. apply X. apply F.
Qed.
End Elig.
