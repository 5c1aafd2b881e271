(** A leader's life: it loses leadership for good in its term, only appends to its log, and commits
    only what a quorum acknowledged. *)
From Verif Require Import Prelude Types M_Util M_Quorum M_Inflights M_Progress M_Tracker.
From Verif Require Import M_Storage M_Unstable M_Log M_ReadOnly M_ConfPb M_ConfChange M_Raft M_RawNode.
From Verif Require Import P_Inflights Spec_Log P_Lists P_Storage P_Log Spec_Storage Sys_Storage P_StorageSeq Spec_RaftLog Sys_RaftLog P_RaftLogSeq.
From Verif Require Import Spec_Quorum P_Quorum.
From Verif Require Import P_Frame P_Prim Sys_Node Sys_ConfChange P_Node P_Fields P_Vote Spec_Node P_Persist P_New P_Time P_NodeLog P_Handle P_NodeRun P_Emit P_Ack.
From Verif Require Import Prop_Vote.

Lemma majority_ci_le c l ci i : majority_committed_index c l = Ok ci -> i <= ci -> majority c (acked l i).
Proof.
  destruct (N.le_gt_cases i UINT64_MAX) as [Hi|Hi].
  { destruct (majority_ci_spec c l) as (ci' & H1 & H2). rewrite H1. intros H; inv H. apply H2; auto. }
  unfold majority_committed_index.
  destruct (N.eqb_spec (nlen c) 0) as [Hz|Hz].
  { intros H Hle. apply nlen_0 in Hz. left; auto. }
  destruct (isort_fold (fill c l) []) as [Hs Hp]; [constructor|]. cbn in Hp.
  set (srt := fold_left (fun acc x => rinsert x acc) (fill c l) []) in *.
  assert (Hlen : List.length srt = List.length c)
    by (rewrite (Permutation_length Hp); apply fill_len).
  assert (Hq : nlen c - (nlen c / 2 + 1) < nlen c) by lia.
  unfold nnth. unfold insertion_sort. fold srt.
  set (pos := nlen c - (nlen c / 2 + 1)) in *.
  destruct (nth_error (rev srt) (N.to_nat pos)) as [v|] eqn:Hv; [|discriminate]. intros H; inv H. intros Hle.
  assert (Hv' : nth_error srt (List.length c - 1 - N.to_nat pos) = Some ci).
  { clear -Hv Hlen Hq.
    assert (HH : (N.to_nat pos < List.length srt)%nat) by (unfold nlen in *; lia).
    pose proof (nth_error_nth' (rev srt) 0 (n := N.to_nat pos)) as H1.
    rewrite rev_length in H1. specialize (H1 HH). rewrite H1 in Hv. inv Hv.
    rewrite rev_nth by auto.
    rewrite (nth_error_nth' srt 0) by lia. f_equal. f_equal. lia. }
  apply (rsorted_nth _ Hs _ _ i Hv') in Hle.
  rewrite (count_perm _ _ _ Hp), fill_count in Hle. right. unfold pos, nlen in *. lia.
Qed.
Lemma joint_ci_le c0 c1 l ci i : joint_committed_index c0 c1 l = Ok ci -> i <= ci ->
  majority c0 (acked l i) /\ majority c1 (acked l i).
Proof.
  unfold joint_committed_index. intros H Hi. apply bind_ok in H. destruct H as (a & Ha & H).
  apply bind_ok in H. destruct H as (b & Hb & H). inv H.
  split; eapply majority_ci_le; eauto; lia.
Qed.

Section Lead.
Context {E : Env}.

(* ---- leadership of a term is lost for good ---- *)
Definition lost (t : N) (r : raft) : Prop :=
  t < r_term r \/ (r_term r = t /\ (r_state r = RFollower \/ r_state r = RPreCandidate)).
Lemma lost_eq t r r' : r_term r' = r_term r -> r_state r' = r_state r -> lost t r -> lost t r'.
Proof. unfold lost. intros -> ->. auto. Qed.
Lemma lost_leader t r : r_state r = RLeader -> r_term r = t -> ~ lost t r.
Proof. unfold lost. intros H <- [X|[_ [X|X]]]; [lia|congruence|congruence]. Qed.
Ltac prims_cases Hp := destruct Hp as [r' HK|r' Hs HS|m Hm|t0 l Ht Hl|r' Hc|r' Hc|Hs|Hs|to lt ctx Hs Hlt Hz|Ht Hmt Hz Hv Hu|r' Hs Hw Hb|es r1 r' Hs Ht Hne Hf Ha|p p' Hs Ht Hr Hmt Hg H1 H2 H3 H4 H5|r' b Hs Hc|Ht Hmt Hs|l last Ht Hmt Hs Hc Ha|l Ht Hmt Hs Hc|l Ht Hmt Hs Hc Hm Hl|r1 Ht Hmt Hs Hr].
Lemma prim_lost t im r r' : prim im r r' -> lost t r -> lost t r'.
Proof.
  intros Hp. revert t. prims_cases Hp; intros t HL; try exact HL.
  - eapply lost_eq; [| |exact HL]; apply HK.
  - eapply lost_eq; [| |exact HL]; apply (sd_same _ _ HS).
  - hide (become_follower t0 l r) rx Ex. destruct (become_follower_fields t0 l r _ Ex) as (A1&A2&A3&A4&A5&_). clear Ex.
    unfold lost in *. rewrite A2, A5. destruct HL as [X|[X _]]; [left; lia|]. destruct Ht as [Ht|[Ht _]]; [right; split; [lia|auto]|left; lia].
  - apply become_candidate_all in Hc. destruct Hc as (A0&A1&A2&A3&A4&A5&A6&A7&_). unfold lost in *. left. lia.
  - apply become_pre_all in Hc. destruct Hc as (A0&A1&A2&A3&A4&A5&A6&A7&_). unfold lost in *. rewrite A2, A5. destruct HL as [X|[X _]]; auto.
  - apply become_leader_all in Hb. destruct Hb as (B0&B1&B2&B3&B4&_). unfold lost in *. rewrite B2. destruct HL as [X|[_ [X|X]]]; auto; congruence.
  - apply filter_prop_fields in Hf. destruct Hf as [k ->]. destruct Ha as [Ha|[_ ->]]; [|exact HL].
    apply append_entry_fields in Ha. destruct Ha as (lx & px & ux & ->). exact HL.
  - apply raft_maybe_commit_state in Hc. destruct Hc as [l ->]. exact HL.
  - apply restore_fields in Hr; auto. destruct Hr as (A1&A2&A3&A4&A5&_). eapply lost_eq; [| |exact HL]; cbn; congruence.
Qed.
(** A leader stays leader of its term with the same configuration, or loses that term for good. *)
Definition lsame (r r' : raft) : Prop :=
  r_state r' = RLeader /\ r_term r' = r_term r /\ r_cfg r' = r_cfg r /\ t_config (r_trk r') = t_config (r_trk r).
Lemma prim_lead im r r' : r_state r = RLeader -> prim im r r' -> lsame r r' \/ lost (r_term r) r'.
Proof.
  intros HL Hp. unfold lsame. revert HL. prims_cases Hp; intros HL; try congruence;
    try (left; split; [exact HL|]; auto; fail).
  - left. destruct HK. repeat split; congruence.
  - left. destruct HS as [[] _ _ _]. repeat split; congruence.
  - right. hide (become_follower t0 l r) rx Ex. destruct (become_follower_fields t0 l r _ Ex) as (A1&A2&A3&A4&A5&_). clear Ex.
    unfold lost. rewrite A2, A5. destruct Ht as [Ht|[Ht _]]; [right; split; [lia|auto]|left; lia].
  - unfold become_candidate, is_leader in Hc. rewrite HL in Hc. discriminate.
  - unfold become_pre_candidate, is_leader in Hc. rewrite HL in Hc. discriminate.
  - destruct Hs as [X|[X _]]; congruence.
  - destruct Hs as [[X _]|[X _]]; congruence.
  - apply filter_prop_fields in Hf. destruct Hf as [k ->]. left. destruct Ha as [Ha|[_ ->]]; [|cbn; auto].
    apply append_entry_fields in Ha. destruct Ha as (lx & px & ux & ->). cbn. auto.
  - apply raft_maybe_commit_state in Hc. destruct Hc as [l ->]. left. cbn. auto.
Qed.

(* ---- what the log of a leader keeps ---- *)
Record gfix (t : N) (l l' : rlog) : Prop := {
  gx_base : a_base (log_abs l) <= a_base (log_abs l');
  gx_blast : a_base (log_abs l') <= a_last (log_abs l');
  gx_last : a_last (log_abs l) <= a_last (log_abs l');
  gx_keep : forall i, a_base (log_abs l') < i -> i <= a_last (log_abs l) -> a_entry (log_abs l') i = a_entry (log_abs l) i;
  gx_new : forall i e, a_last (log_abs l) < i -> a_entry (log_abs l') i = Some e -> e_term e = t
}.
Lemma gfix_abs t l l' : a_base (log_abs l) <= a_last (log_abs l) -> log_abs l' = log_abs l -> gfix t l l'.
Proof.
  intros Hb H. constructor; rewrite ?H; auto; try lia. intros i e Hi He. exfalso. unfold a_entry in He.
  destruct (_ <? _); [|discriminate]. apply nnth_Some_lt in He. unfold a_last in Hi. lia.
Qed.
Lemma gfix_trans t a b c : gfix t a b -> gfix t b c -> gfix t a c.
Proof.
  intros [A1 A2 A3 A4 A5] [B1 B2 B3 B4 B5]. constructor; try lia.
  - intros i H1 H2. rewrite B4 by lia. apply A4; lia.
  - intros i e H1 H2. destruct (N.le_gt_cases i (a_last (log_abs b))) as [Hi|Hi]; [|eapply B5; eauto].
    apply (A5 i e); auto. rewrite <- B4; auto. unfold a_entry in H2. destruct (N.ltb_spec (a_base (log_abs c)) i); [auto|discriminate].
Qed.
Lemma gfix_app t l l' es : log_abs l' = a_app (log_abs l) es -> (forall e, In e es -> e_term e = t) -> gfix t l l'.
Proof.
  intros H He. constructor; rewrite ?H, ?a_last_app; cbn [a_app a_base]; try lia.
  - unfold a_last. lia.
  - intros. apply a_entry_app. auto.
  - intros i e H1 H2. apply He. unfold a_entry, a_app in H2. cbn in H2. destruct (_ <? _); [|discriminate].
    unfold a_last in H1. rewrite nnth_app2 in H2 by lia. eapply nnth_In; eauto.
Qed.
Lemma blast l : lwf l -> a_base (log_abs l) <= a_last (log_abs l).
Proof. unfold a_last. lia. Qed.
Lemma leff_gfix im r r' : ninv r -> r_state r = RLeader -> leff im r r' -> gfix (r_term r) (r_log r) (r_log r').
Proof.
  intros Hn Hs He. pose proof (blast _ (li_wf _ (ni_log _ Hn))) as Hb. destruct He as [H|es mci pr pr' u t0 H1 H2 H3 H4 H5 H6 H7 H8 H9 H10 H11 H12|mci H1 H2 H3 H4 H5 H6|l H1 H2 H3 H4 H5 H6|c H1 H2 H3 H4 H5|r1 H1 H2 H3 H4 H5 H6 H7 H8 H9]; try congruence.
  - rewrite H. apply gfix_abs; auto.
  - eapply gfix_app; [exact H6|]. intros e X. apply stamp_term in X. auto.
  - apply gfix_abs; auto. rewrite H6. reflexivity.
Qed.
Lemma npr_gfix t a b : ninv a -> npr a b -> (r_state a = RLeader /\ r_term a = t) ->
  (r_state b = RLeader /\ r_term b = t /\ gfix t (r_log a) (r_log b)) \/ lost t b.
Proof.
  intros Hn Hp. revert Hn. destruct Hp as [im r r' Hi Hw H|r cp bo o Ho]; intros Hn [Hs <-].
  - destruct (prim_log _ _ _ Hw Hn H) as [_ H2]. apply leff_gfix in H2; auto.
    destruct (prim_lead _ _ _ Hs H) as [(S1 & S2 & _)|L]; auto.
  - left. split; [exact Hs|]. split; [reflexivity|]. apply gfix_abs; auto. apply blast, Hn.
Qed.
Lemma npr_lost t a b : npr a b -> lost t a -> lost t b.
Proof. intros [im r r' Hi Hw H|r cp bo o Ho]; [apply (prim_lost t im); auto|auto]. Qed.
Lemma nprs_gfix t a b : nprs a b -> ninv a -> (r_state a = RLeader /\ r_term a = t) \/ lost t a ->
  (r_state a = RLeader /\ r_term a = t /\ r_state b = RLeader /\ r_term b = t /\ gfix t (r_log a) (r_log b)) \/ lost t b.
Proof.
  intros H. induction H as [a|a b c H1 H2 IH]; intros Hn [[Hs Ht]|L].
  - left. repeat (split; [auto; fail|]). apply gfix_abs; auto. apply blast, Hn.
  - auto.
  - destruct (npr_ninv _ _ Hn H1) as [Hb _]. destruct (npr_gfix t a b Hn H1 (conj Hs Ht)) as [(S1 & S2 & S3)|L].
    + destruct (IH Hb (or_introl (conj S1 S2))) as [(_ & _ & T1 & T2 & T3)|L]; auto. left.
      repeat (split; [auto; fail|]). eapply gfix_trans; eauto.
    + right. destruct (IH Hb (or_intror L)) as [(X1 & X2 & _)|X]; auto. exfalso. eapply lost_leader; eauto.
  - right. destruct (npr_ninv _ _ Hn H1) as [Hb _]. pose proof (npr_lost _ _ _ H1 L) as Lb.
    destruct (IH Hb (or_intror Lb)) as [(X1 & X2 & _)|X]; auto. exfalso. eapply lost_leader; eauto.
Qed.
Lemma nop_plain o : plain o \/ ~ plain o. Proof. destruct o; cbn; tauto. Qed.
Lemma set_storage_same n : set_storage (node_storage n) n = n.
Proof. unfold set_storage, node_storage; destruct n as [[] ? ? ?]; cbn; destruct r_log; auto. Qed.
Lemma n_step_gfix t o n n' out : nop_ok o n -> n_step o n = Ok (n', out) -> dinv n ->
  (r_state (rn_raft n) = RLeader /\ r_term (rn_raft n) = t) \/ lost t (rn_raft n) ->
  (r_state (rn_raft n) = RLeader /\ r_term (rn_raft n) = t /\
   r_state (rn_raft n') = RLeader /\ r_term (rn_raft n') = t /\ gfix t (r_log (rn_raft n)) (r_log (rn_raft n'))) \/ lost t (rn_raft n').
Proof.
  intros Hok H D HL. pose proof (n_step_dinv o n n' out Hok H D) as [D' X].
  pose proof (blast _ (li_wf _ (ni_log _ (di_ninv _ D)))) as Hbl.
  destruct (nop_plain o) as [Hp|Hp].
  { destruct (n_step_nprs o n n' out Hp Hok H) as (A1 & _). apply nprs_gfix; auto. apply D. }
  assert (K : r_state (rn_raft n') = r_state (rn_raft n) -> r_term (rn_raft n') = r_term (rn_raft n) ->
     (r_state (rn_raft n) = RLeader -> gfix (r_term (rn_raft n)) (r_log (rn_raft n)) (r_log (rn_raft n'))) ->
     (r_state (rn_raft n) = RLeader /\ r_term (rn_raft n) = t /\
   r_state (rn_raft n') = RLeader /\ r_term (rn_raft n') = t /\ gfix t (r_log (rn_raft n)) (r_log (rn_raft n'))) \/ lost t (rn_raft n')).
  { intros K1 K2 K3. destruct HL as [[L1 <-]|L]; [left; rewrite K1, K2; auto 10|right]. eapply lost_eq; eauto. }
  destruct o; cbn in Hp; try tauto; destruct Hok as [Hw Hok]; try tauto.
  - destruct X as (rd & _ & [R1 R2 R3 R4 R5 R6 R7 R8 R9 R10 R11]). destruct R11 as [(u & E1 & E2 & _)|(Hl & rb & r0 & (u & l & E1 & E2 & E3 & E6 & _) & Ha & E4 & E5 & _)].
    + apply K; try (rewrite E1; reflexivity). intros _. apply gfix_abs; auto.
    + assert (Ht : 0 < r_term rb) by (rewrite E1; apply (ni_term _ (di_ninv _ D)); auto).
      assert (Hwb : lwf (r_log rb)) by (rewrite E1; auto).
      destruct (append_log_w _ _ _ Hwb Ht Ha) as (_ & A2 & _). cbv zeta in A2.
      replace (r_log rb) with l in A2 by (rewrite E1; auto). rewrite E3 in A2.
      destruct (append_entry_fields _ _ _ Ha) as (lx & px & ux & Ef).
      apply K; try (rewrite E4, Ef, E1; reflexivity). intros _. eapply gfix_app; [rewrite E5; exact A2|].
      intros e He. apply stamp_term in He. rewrite He, E1. reflexivity.
  - cbn [n_step] in H. apply bind_ok in H. destruct H as ([s e] & H1 & H2). inv H2.
    apply K; try reflexivity. intros _. clear K HL X D'.
    destruct D as [[N1 N2 N3] D2 D3 D4 D5 D6 D7 D8 D9].
    assert (Hs : s = node_storage n \/ s <> node_storage n /\ a_base (ms_abs (node_storage n)) < i).
    { pose proof (proj1 (storage_ok_abs _) D2) as (S1 & _). pose proof (ms_compact_abs (node_storage n) i S1) as HC.
      destruct (N.leb_spec i (a_base (ms_abs (node_storage n)))); [rewrite HC in H1; inv H1; auto|].
      destruct (_ <? _); [destruct HC as [w HC]; congruence|]. destruct HC as (s' & t1 & C1 & _ & _ & _ & _ & C6).
      rewrite C1 in H1. inv H1. right. split; auto. intros X1. rewrite X1 in C6. rewrite C6 in H. cbn in H. lia. }
    destruct Hs as [-> |[Hne Hs]].
    { rewrite set_storage_same. apply gfix_abs; auto. }
    unfold set_storage, set_rn_raft. cbn [rn_raft r_log set_r_log].
    destruct (u_snap (l_us (r_log (rn_raft n)))) as [sn|] eqn:Hu.
    + apply gfix_abs; auto. unfold log_abs; cbn; rewrite ?Hu; auto.
    + destruct (log_compact_ok i (r_log (rn_raft n)) N1 Hu Hok) as [K1 K2].
      assert (Hb : a_base (log_abs (r_log (rn_raft n))) = a_base (ms_abs (node_storage n))) by (unfold log_abs; rewrite Hu; auto).
      destruct K2 as (st' & t1 & K2 & K3 & K4 & K5 & K6 & K7); [lia|]. unfold node_storage in H1. rewrite H1 in K2. inv K2.
      pose proof (lwf_com _ (li_wf _ N1)) as C. pose proof (lwf_app _ (li_wf _ N1)) as C2.
      assert (Hla : a_last (log_abs (set_l_st st' (r_log (rn_raft n)))) = a_last (log_abs (r_log (rn_raft n)))).
      { rewrite K7. unfold a_last. cbn [a_base a_ents]. rewrite nlen_ndrop. unfold a_last in C. lia. }
      constructor; rewrite ?Hla; [rewrite K7; cbn [a_base]; lia|rewrite K7; cbn [a_base]; lia|lia| |].
      * rewrite K7; cbn [a_base]. intros j J1 J2. unfold a_entry; cbn [a_base a_ents]. destruct (N.ltb_spec i j); [|lia].
        destruct (N.ltb_spec (a_base (log_abs (r_log (rn_raft n)))) j); [|lia]. rewrite nnth_ndrop. f_equal. lia.
      * intros j ej J1 J2. exfalso. rewrite <- Hla in J1. unfold a_entry in J2.
        destruct (_ <? _); [|discriminate]. apply nnth_Some_lt in J2. unfold a_last in J1. lia.
  - cbn [n_step] in H. apply bind_ok in H. destruct H as ([s e] & H1 & H2). inv H2.
    apply K; try reflexivity. intros _. clear K HL X D'.
    assert (Hs : ms_abs s = ms_abs (node_storage n)).
    { unfold ms_create_snapshot in H1. destruct (_ <=? _); [inv H1; auto|]. destruct (_ <? i); [discriminate|].
      destruct (_ <? _); [discriminate|]. destruct (nnth _ _); inv H1; auto. }
    apply gfix_abs; auto.
    unfold log_abs. cbn [set_storage set_rn_raft rn_raft r_log set_r_log l_us set_l_st l_st]. rewrite Hs. reflexivity.
Qed.
Theorem n_run_gfix t os : forall n n' outs, n_run_ok os n -> n_run os n = Ok (n', outs) -> dinv n ->
  (r_state (rn_raft n) = RLeader /\ r_term (rn_raft n) = t) \/ lost t (rn_raft n) ->
  (r_state (rn_raft n) = RLeader /\ r_term (rn_raft n) = t /\
   r_state (rn_raft n') = RLeader /\ r_term (rn_raft n') = t /\ gfix t (r_log (rn_raft n)) (r_log (rn_raft n'))) \/ lost t (rn_raft n').
Proof.
  induction os as [|o os IH]; intros n n' outs Hok H D HL; cbn [n_run] in H.
  { inv H. destruct HL as [[L1 L2]|L]; auto. left. repeat (split; [auto; fail|]). apply gfix_abs; auto. apply blast, D. }
  apply bind_ok in H. destruct H as ([n1 out] & H1 & H). apply bind_ok in H. destruct H as ([n2 outs'] & H2 & H). inv H.
  cbn [n_run_ok] in Hok. destruct Hok as [Ho Hos]. rewrite H1 in Hos.
  pose proof (proj1 (n_step_dinv _ _ _ _ Ho H1 D)) as D1.
  destruct (n_step_gfix t o n n1 out Ho H1 D HL) as [(A1 & A2 & A3 & A4 & A5)|L].
  - destruct (IH n1 n' outs' Hos H2 D1 (or_introl (conj A3 A4))) as [(_ & _ & B1 & B2 & B3)|L]; auto.
    left. repeat (split; [auto; fail|]). eapply gfix_trans; eauto.
  - right. destruct (IH n1 n' outs' Hos H2 D1 (or_intror L)) as [(X1 & X2 & _)|X]; auto. exfalso. eapply lost_leader; eauto.
Qed.

(* ---- how a call ends with the node leading ---- *)
(** [r'] got elected, from a state with [r]'s log. *)
Definition via (r r' : raft) : Prop := exists a b, r_log a = r_log r /\ r_cfg a = r_cfg r /\ t_config (r_trk a) = t_config (r_trk r) /\
  r_state a = RCandidate /\ (r_term r < r_term a \/ r_state r = RCandidate /\ r_term a = r_term r) /\
  tc_vote_result (t_config (r_trk a)) (t_votes (r_trk a)) = VoteWon /\ become_leader a = Ok b /\ sends b r'.
Definition leads (r r' : raft) : Prop :=
  r_state r' = RLeader -> (r_state r = RLeader /\ r_term r' = r_term r) \/ via r r'.
Lemma leads_not r r' : r_state r' <> RLeader -> leads r r'. Proof. intros H X. congruence. Qed.
Lemma leads_keep r r' : r_state r' = r_state r -> r_term r' = r_term r -> leads r r'.
Proof. intros H1 H2 X. left. rewrite <- H1. auto. Qed.
Lemma leads_refl r : leads r r. Proof. apply leads_keep; auto. Qed.
Lemma leads_sends r r' : sends r r' -> leads r r'.
Proof. intros [[] _ _ _]. apply leads_keep; auto. Qed.
Lemma leads_from a r r' : r_log a = r_log r -> r_cfg a = r_cfg r -> t_config (r_trk a) = t_config (r_trk r) ->
  r_state a <> RLeader ->
  (r_term r < r_term a \/ (r_term r = r_term a /\ (r_state a = RCandidate -> r_state r = RCandidate))) -> leads a r' -> leads r r'.
Proof.
  intros H1 H2 H3 Hn H5 HL X. destruct (HL X) as [[Y _]|(b & c & B1 & B2 & B3 & B4 & B5 & B6 & B7 & B8)]; [congruence|].
  right. exists b, c. repeat (split; [congruence|]). split; [|auto].
  destruct B5 as [B5|[B5 B9]]; [left; destruct H5 as [H5|[H5 _]]; lia|]. destruct H5 as [H5|[H5 H6]]; [left; lia|right; split; [auto|lia]].
Qed.
Lemma poll_parts id b r1 r2 v : poll id b r1 = (r2, v) ->
  r_log r2 = r_log r1 /\ r_cfg r2 = r_cfg r1 /\ t_config (r_trk r2) = t_config (r_trk r1) /\ r_state r2 = r_state r1 /\
  r_term r2 = r_term r1 /\ v = tc_vote_result (t_config (r_trk r2)) (t_votes (r_trk r2)).
Proof.
  intros Hp. unfold poll in Hp. apply pair_equal_spec in Hp. destruct Hp as [Er Ev].
  split; [rewrite <- Er; auto|]. split; [rewrite <- Er; auto|]. split; [rewrite <- Er; cbn; unfold trk_record_vote; destruct (mget _ _); auto|].
  split; [rewrite <- Er; auto|]. split; [rewrite <- Er; auto|]. rewrite <- Er, <- Ev. apply (poll_res id b r1).
Qed.
Lemma campaign_real_leads tr r r' : campaign_real tr r = Ok r' -> leads r r'.
Proof.
  unfold campaign_real. intros H. apply bind_ok in H. destruct H as (r1 & H1 & H).
  apply become_candidate_all in H1. destruct H1 as (A0&A1&A2&A3&A4&A5&A6&A7&A8&A9&A10&A11).
  destruct (poll (r_id r1) true r1) as [r2 v] eqn:Hp. destruct (poll_parts _ _ _ _ _ Hp) as (Q1 & Q2 & Q3 & Q4 & Q5 & Q6). clear Hp.
  assert (K : forall ms, r' = set_r_msgs ms r2 -> leads r r') by (intros ms ->; apply leads_not; cbn; congruence).
  destruct v; try (apply send_vote_reqs in H; destruct H as [ms H]; eapply K; exact H).
  intros _. right. exists r2, r'. repeat (split; [congruence|]). split; [left; lia|]. split; [auto|]. split; [auto|apply sends_refl].
Qed.
Lemma hup_leads t r r' : hup t r = Ok r' -> leads r r'.
Proof.
  unfold hup. destruct (is_leader r) eqn:Hl; [intros H; inv H; apply leads_refl|]. destruct (negb (promotable r)); [intros H; inv H; apply leads_refl|].
  intros H. apply bind_ok in H. destruct H as ([ents|] & _ & H); [|discriminate].
  destruct (_ && _); [inv H; apply leads_refl|]. destruct t; cbn [campaign] in H; try (apply campaign_real_leads in H; auto; fail).
  apply bind_ok in H. destruct H as (r1 & H1 & H).
  apply become_pre_all in H1. destruct H1 as (A0&A1&A2&A3&A4&A5&A6&A7&A8&A9&A10&A11).
  destruct (poll (r_id r1) true r1) as [r2 v] eqn:Hp. destruct (poll_parts _ _ _ _ _ Hp) as (Q1 & Q2 & Q3 & Q4 & Q5 & Q6). clear Hp.
  assert (K : forall ms, r' = set_r_msgs ms r2 -> leads r r') by (intros ms ->; apply leads_not; cbn; congruence).
  destruct v; try (apply send_vote_reqs in H; destruct H as [ms H]; eapply K; exact H).
  apply campaign_real_leads in H. eapply (leads_from r2); eauto; try congruence. right. split; congruence.
Qed.
Lemma step_leader_leads m r r' e : r_state r = RLeader -> step_leader m r = Ok (r', e) -> leads r r'.
Proof.
  intros Hl. unfold step_leader.
  assert (P : forall id p, leads r (put_progress id p r)) by (intros; apply leads_keep; reflexivity).
  assert (Hrest : match trk_get (m_from m) (r_trk r) with
      | None => Ok (r, None)
      | Some pr =>
          match m_type m with
          | MsgAppResp => okr (leader_app_resp m pr r)
          | MsgHeartbeatResp => okr (leader_heartbeat_resp m pr r)
          | MsgSnapStatus => Ok (leader_snap_status m pr r, None)
          | MsgUnreachable => Ok (leader_unreachable m pr r, None)
          | MsgTransferLeader => okr (leader_transfer m pr r)
          | _ => Ok (r, None)
          end
      end = Ok (r', e) -> leads r r').
  { destruct (trk_get (m_from m) (r_trk r)) as [pr|] eqn:Hg; [|intros H; inv H; apply leads_refl].
    destruct (m_type m) eqn:Ht; try (intros H; inv H; apply leads_refl; fail); unfold okr; intros H.
    - apply bind_ok in H. destruct H as (r1 & H & Hx). inv Hx. unfold leader_app_resp in H. destruct (m_reject m).
      + unfold leader_app_resp_reject in H. apply bind_ok in H. destruct H as (pb & _ & H). destruct (pr_maybe_decr_to _ _ _) as [p1 ok].
        destruct ok; [|inv H; auto]. apply send_append_sends in H. destruct H as [[] _ _ _]. apply leads_keep; cbn in *; congruence.
      + unfold leader_app_resp_accept in H. destruct (pr_maybe_update _ _) as [p1 ok]. destruct ok; [|inv H; auto].
        apply bind_ok in H. destruct H as (p2 & _ & H). apply bind_ok in H. destruct H as ([r2 cm] & H1 & H).
        apply raft_maybe_commit_state in H1. destruct H1 as [l H1]. apply bind_ok in H. destruct H as (r3 & H2 & H).
        apply bind_ok in H. destruct H as (r4 & H3 & H). apply send_all_sends in H3.
        assert (S23 : sends r2 r3).
        { destruct cm; [apply bind_ok in H2; destruct H2 as (r5 & H5 & H2); eapply sends_trans; [eapply release_pending_reads_sends; eauto|eapply bcast_append_sends; eauto]|].
          match type of H2 with (if ?b then _ else _) = _ => destruct b end; [eapply send_append_sends; eauto|inv H2; apply sends_refl]. }
        assert (S24 : r_state r4 = r_state r /\ r_term r4 = r_term r).
        { pose proof (sd_same _ _ (sends_trans _ _ _ S23 H3)) as []. rewrite H1 in *. cbn in *. auto. }
        destruct S24. destruct (_ && _); [|inv H; apply leads_keep; auto]. unfold send_timeout_now in H. apply send_ok in H. destruct H as [-> _].
        apply leads_keep; auto.
    - apply bind_ok in H. destruct H as (r1 & H & Hx). inv Hx. unfold leader_heartbeat_resp in H.
      apply bind_ok in H. destruct H as (p1 & _ & H). apply bind_ok in H. destruct H as (r2 & H2 & H).
      assert (S2 : r_state r2 = r_state r /\ r_term r2 = r_term r).
      { match type of H2 with (if ?b then _ else _) = _ => destruct b end; [|inv H2; auto]. apply send_append_sends in H2. destruct H2 as [[] _ _ _]. auto. }
      destruct S2. match type of H with (if ?b then _ else _) = _ => destruct b end; [inv H; apply leads_keep; auto|].
      destruct (ro_recv_ack _ _ _) as [ro acks]. destruct (tc_vote_result _ _); try (inv H; apply leads_keep; auto; fail).
      apply bind_ok in H. destruct H as ([ro' rss] & _ & H).
      apply (mfold_inv _ sends) in H; [|apply sends_refl|apply sends_trans|intros; eapply response_to_read_index_sends; eauto].
      destruct H as [[] _ _ _]. apply leads_keep; cbn in *; congruence.
    - unfold leader_unreachable in H. destruct (pstate_eqb _ _); inv H; auto. apply leads_refl.
    - unfold leader_snap_status in H. destruct (p_state pr); inv H; auto; apply leads_refl.
    - apply bind_ok in H. destruct H as (r1 & H & Hx). inv Hx. unfold leader_transfer in H. destruct (p_learner pr); [inv H; apply leads_refl|].
      destruct (_ && _); [inv H; apply leads_refl|].
      set (r1 := if negb (r_transferee r =? 0) then set_r_transferee 0 r else r) in *.
      assert (K1 : r_state r1 = r_state r /\ r_term r1 = r_term r) by (unfold r1; destruct (negb _); auto). destruct K1. clearbody r1.
      destruct (m_from m =? r_id r1); [inv H; apply leads_keep; auto|].
      destruct (_ =? _); [unfold send_timeout_now in H; apply send_ok in H; destruct H as [-> _]; apply leads_keep; auto|].
      apply send_append_sends in H. destruct H as [[] _ _ _]. apply leads_keep; cbn in *; congruence. }
  destruct (m_type m) eqn:Ht; try exact Hrest; clear Hrest; unfold okr; intros H.
  - apply bind_ok in H. destruct H as (r1 & H & Hx). inv Hx. apply leads_sends. eapply bcast_heartbeat_ctx_sends; eauto.
  - unfold leader_prop in H. destruct (m_entries m) eqn:He; [discriminate|]. cbn [is_nil] in H. rewrite <- He in *.
    destruct (trk_get (r_id r) (r_trk r)); [|inv H; apply leads_refl].
    destruct (negb _); [inv H; apply leads_refl|]. apply bind_ok in H. destruct H as ([es r1] & Hf & H).
    apply filter_prop_fields in Hf. destruct Hf as [k ->]. apply bind_ok in H. destruct H as ([r2|] & Ha & H); [|inv H; apply leads_keep; auto].
    unfold okr in H. apply bind_ok in H. destruct H as (r3 & H & Hx). inv Hx. apply bcast_append_sends in H. destruct H as [[] _ _ _].
    apply append_entry_fields in Ha. destruct Ha as (l1 & p1 & u1 & ->). apply leads_keep; cbn in *; congruence.
  - injection H as H _. rewrite <- H. clear H. unfold leader_check_quorum.
    set (r1 := match trk_get (r_id r) (r_trk r) with Some pr => put_progress (r_id r) (set_p_active true pr) r | None => r end).
    assert (K1 : r_state r1 = r_state r /\ r_term r1 = r_term r) by (unfold r1; destruct (trk_get _ _); auto). destruct K1. clearbody r1.
    destruct (trk_quorum_active (r_trk r1)); [apply leads_keep; auto|]. apply leads_not. cbn. discriminate.
  - apply bind_ok in H. destruct H as (r1 & H & Hx). inv Hx. unfold leader_read_index in H. destruct (trk_is_singleton (r_trk r)).
    + apply leads_sends. eapply response_to_read_index_sends; eauto.
    + apply bind_ok in H. destruct H as (b & _ & H). destruct b.
      * apply leads_sends. eapply send_read_index_response_sends; eauto.
      * inv H. apply leads_keep; auto.
Qed.
Lemma step_candidate_leads m r r' e : r_state r = RCandidate \/ r_state r = RPreCandidate -> step_candidate m r = Ok (r', e) -> leads r r'.
Proof.
  intros Hs H. unfold step_candidate in H. cbv zeta in H.
  hide (become_follower (m_term m) (m_from m) r) rx Ex. destruct (become_follower_fields _ _ r _ Ex) as (A1&A2&A3&A4&A5&_). clear Ex.
  assert (F : from_leader m -> handle_append_entries m rx = Ok r' \/ handle_heartbeat m rx = Ok r' \/ handle_snapshot m rx = Ok r' -> leads r r').
  { intros F1 F2. apply leads_not. apply handle_frame in F2; auto. destruct F2 as (_ & _ & _ & F2 & _). congruence. }
  assert (R : (if mtype_eqb (m_type m) (match r_state r with RPreCandidate => MsgPreVoteResp | _ => MsgVoteResp end)
               then let '(r1, res_) := poll (m_from m) (negb (m_reject m)) r in
                    match res_ with
                    | VoteWon => if role_eqb (r_state r1) RPreCandidate then okr (campaign CElection r1) else okr (r2 <- become_leader r1 ;; bcast_append r2)
                    | VoteLost => Ok (become_follower (r_term r1) 0 r1, None)
                    | VotePending => Ok (r1, None)
                    end else Ok (r, None)) = Ok (r', e) -> leads r r').
  { clear H F. destruct (mtype_eqb _ _); [|intros H; inv H; apply leads_refl].
    destruct (poll _ _ r) as [r2 v] eqn:Hp. destruct (poll_parts _ _ _ _ _ Hp) as (Q1 & Q2 & Q3 & Q4 & Q5 & Q6). clear Hp.
    destruct v.
    - intros H; inv H. apply leads_keep; auto.
    - intros H. injection H as H _. apply leads_not. rewrite <- H. cbn. discriminate.
    - destruct (role_eqb (r_state r2) RPreCandidate) eqn:Hr; unfold okr; intros H; apply bind_ok in H; destruct H as (r3 & H & Hx); inv Hx.
      + apply campaign_real_leads in H. eapply (leads_from r2); eauto; [destruct Hs; congruence|]. right; split; congruence.
      + apply bind_ok in H. destruct H as (r4 & H4 & H). apply bcast_append_sends in H. intros _. right. exists r2, r4.
        assert (Hc : r_state r2 = RCandidate) by (destruct (r_state r2); try discriminate; auto; destruct Hs; congruence).
        repeat (split; [congruence|]). split; [right; split; congruence|]. auto. }
  destruct (m_type m) eqn:Ht; try (exact (R H)); clear R; unfold okr in H; try (inv H; apply leads_refl; fail);
    apply bind_ok in H; destruct H as (r1 & H & Hx); inv Hx; apply F; auto; unfold from_leader; auto.
Qed.
Lemma step_follower_leads m r r' e : r_state r = RFollower -> step_follower m r = Ok (r', e) -> leads r r'.
Proof.
  intros Hs H. unfold step_follower in H. cbv zeta in H.
  set (h := set_r_lead (m_from m) (set_r_el_elapsed 0 r)) in *.
  assert (Hh : r_state h = RFollower) by (unfold h; cbn; auto). clearbody h.
  assert (F : from_leader m -> handle_append_entries m h = Ok r' \/ handle_heartbeat m h = Ok r' \/ handle_snapshot m h = Ok r' -> leads r r').
  { intros F1 F2. apply leads_not. apply handle_frame in F2; auto. destruct F2 as (_ & _ & _ & F2 & _). congruence. }
  assert (S : forall x, send x r = Ok r' -> leads r r').
  { intros x Hx. apply send_ok in Hx. destruct Hx as [-> _]. apply leads_keep; auto. }
  destruct (m_type m) eqn:Ht; unfold okr in H; try (inv H; apply leads_refl; fail);
    try (apply bind_ok in H; destruct H as (r1 & H & Hx); inv Hx; apply F; unfold from_leader; auto; fail).
  all: try (destruct (r_lead r =? 0); [inv H; apply leads_refl|]).
  - destruct (k_disable_fwd _); [inv H; apply leads_refl|]. apply bind_ok in H. destruct H as (r1 & H & Hx). inv Hx. eapply S; eauto.
  - apply bind_ok in H. destruct H as (r1 & H & Hx). inv Hx. eapply S; eauto.
  - apply bind_ok in H. destruct H as (r1 & H & Hx). inv Hx. eapply hup_leads; eauto.
  - apply bind_ok in H. destruct H as (r1 & H & Hx). inv Hx. eapply S; eauto.
  - destruct (m_entries m) as [|e0 [|]]; inv H; apply leads_keep; auto.
Qed.
Lemma step_dispatch_leads m r r' e : step_dispatch m r = Ok (r', e) -> leads r r'.
Proof.
  intros H. unfold step_dispatch in H.
  assert (V : step_vote m r = Ok r' -> leads r r').
  { intros V. unfold step_vote in V. apply bind_ok in V. destruct V as (u & _ & V). apply bind_ok in V. destruct V as (rt & _ & V). destruct u.
    - apply bind_ok in V. destruct V as (r1 & V1 & V). apply send_ok in V1. destruct V1 as [-> _]. destruct (mtype_eqb _ _); inv V; apply leads_keep; auto.
    - apply send_ok in V. destruct V as [-> _]. apply leads_keep; auto. }
  assert (R : match r_state r with
      | RLeader => step_leader m r
      | RCandidate | RPreCandidate => step_candidate m r
      | RFollower => step_follower m r
      end = Ok (r', e) -> leads r r').
  { clear H. intros H. destruct (r_state r) eqn:Hs; [eapply step_follower_leads|eapply step_candidate_leads|eapply step_leader_leads|eapply step_candidate_leads]; eauto. }
  destruct (m_type m); try (exact (R H)); unfold okr in H; apply bind_ok in H; destruct H as (r1 & H & Hx); inv Hx; auto.
  eapply hup_leads; eauto.
Qed.
Lemma step_leads m r r' e : step m r = Ok (r', e) -> leads r r'.
Proof.
  intros H. unfold step in H. destruct (m_term m =? 0); [eapply step_dispatch_leads; eauto|].
  destruct (N.ltb_spec (r_term r) (m_term m)).
  - destruct (_ && _); [inv H; apply leads_refl|].
    match type of H with step_dispatch m ?x = _ => assert (K : x = r \/ exists l, x = become_follower (m_term m) l r) end.
    { destruct (m_type m); eauto. destruct (m_reject m); eauto. }
    destruct K as [K|[l K]]; rewrite K in H; clear K; [eapply step_dispatch_leads; eauto|].
    hide (become_follower (m_term m) l r) rx Ex.
    destruct (become_follower_fields _ _ r _ Ex) as (A1&A2&A3&A4&A5&A6&A7&A8&A9&_). clear Ex.
    apply step_dispatch_leads in H. eapply (leads_from rx); eauto; try congruence. left. lia.
  - destruct (m_term m <? r_term r); [|eapply step_dispatch_leads; eauto].
    assert (S : forall x, send x r = Ok r' -> leads r r').
    { intros x Hx. apply send_ok in Hx. destruct Hx as [-> _]. apply leads_keep; auto. }
    unfold okr in H. destruct (_ && _); [apply bind_ok in H; destruct H as (r1 & H & Hx); inv Hx; eapply S; eauto|].
    destruct (mtype_eqb _ _); [apply bind_ok in H; destruct H as (r1 & H & Hx); inv Hx; eapply S; eauto|]. inv H. apply leads_refl.
Qed.
Lemma step_leads_log m r r' e : step m r = Ok (r', e) -> leads r r'.
Proof. apply step_leads. Qed.
Lemma tick_leads r r' : tick r = Ok r' -> leads r r'.
Proof.
  unfold tick. intros H. assert (K : r_state r = RLeader /\ tick_heartbeat r = Ok r' \/ r_state r <> RLeader /\ tick_election r = Ok r')
    by (destruct (r_state r); auto; right; split; auto; discriminate). clear H. destruct K as [[Hs H]|[Hs H]].
  - unfold tick_heartbeat in H. cbv zeta in H.
    set (r0 := set_r_el_elapsed (r_el_elapsed r + 1) (set_r_hb_elapsed (r_hb_elapsed r + 1) r)) in *.
    assert (K0 : r_state r0 = RLeader /\ r_term r0 = r_term r) by (split; [exact Hs|reflexivity]). clearbody r0.
    apply bind_ok in H. destruct H as (r1 & H1 & H). destruct K0 as [K1 K2].
    assert (N1 : forall (m : msg) x y ee, step m x = Ok (y, ee) -> m_type m = MsgCheckQuorum \/ m_type m = MsgBeat -> m_term m = 0 ->
       r_state x = RLeader -> r_state y = RLeader -> r_term y = r_term x).
    { intros m x y ee Hst Hty Htm Hx Hy. unfold step in Hst. rewrite Htm in Hst. cbn [N.eqb] in Hst. unfold step_dispatch in Hst. rewrite Hx in Hst.
      assert (Hst' : step_leader m x = Ok (y, ee)) by (destruct Hty as [Hty|Hty]; rewrite Hty in Hst; exact Hst). clear Hst.
      unfold step_leader in Hst'. destruct Hty as [Hty|Hty]; rewrite Hty in Hst'.
      - injection Hst' as Hq _. rewrite <- Hq in *. clear Hq. revert Hy. unfold leader_check_quorum.
        set (r2 := match trk_get (r_id x) (r_trk x) with Some pr => put_progress (r_id x) (set_p_active true pr) x | None => x end).
        assert (Z1 : r_state r2 = r_state x /\ r_term r2 = r_term x) by (unfold r2; destruct (trk_get _ _); auto). destruct Z1. clearbody r2.
        destruct (trk_quorum_active (r_trk r2)); [cbn; auto|cbn; discriminate].
      - unfold okr in Hst'. apply bind_ok in Hst'. destruct Hst' as (z & Hz & Hx'). inv Hx'. apply bcast_heartbeat_ctx_sends in Hz. apply (sd_same _ _ Hz). }
    assert (L1 : r_state r1 = RLeader -> r_term r1 = r_term r).
    { match type of H1 with (if ?b then _ else _) = _ => destruct b end; [|inv H1; auto].
      apply bind_ok in H1. destruct H1 as (r2 & H2 & H1).
      assert (L2 : r_state r2 = RLeader -> r_term r2 = r_term r).
      { match type of H2 with (if ?b then _ else _) = _ => destruct b end; [|inv H2; auto].
        apply bind_ok in H2. destruct H2 as ([r3 e3] & H3 & Hx). inv Hx. intros X.
        rewrite (N1 _ _ _ _ H3); auto. }
      destruct (_ && _); inv H1; auto. }
    destruct (negb (is_leader r1)) eqn:Hl; [inv H; apply leads_not; unfold is_leader in Hl; intros X; rewrite X in Hl; discriminate|].
    assert (Hl1 : r_state r1 = RLeader) by (unfold is_leader in Hl; destruct (r_state r1); auto; discriminate). clear Hl.
    match type of H with (if ?b then _ else _) = _ => destruct b end; [|inv H; intros _; left; auto].
    apply bind_ok in H. destruct H as ([r3 e3] & H3 & Hx). inv Hx. intros X. left. split; auto. rewrite (N1 _ _ _ _ H3); auto.
  - unfold tick_election in H. cbv zeta in H. match type of H with (if ?b then _ else _) = _ => destruct b end; [|inv H; apply leads_keep; auto].
    apply bind_ok in H. destruct H as ([r3 e3] & H3 & Hx). inv Hx. apply step_leads in H3. refine (leads_from _ _ _ _ _ _ _ _ H3); auto.
Qed.
Theorem n_step_leads o n n' out : plain o -> n_step o n = Ok (n', out) -> (forall cc, o <> NApplyCC cc) ->
  leads (rn_raft n) (rn_raft n').
Proof.
  intros Hp H Hcc.
  assert (S : forall m x y, rn_raft_step m n = Ok (x, y) -> leads (rn_raft n) (rn_raft x)).
  { intros m x y Hs. unfold rn_raft_step in Hs. apply bind_ok in Hs. destruct Hs as ([r1 e1] & Hs & Hx). inv Hx. cbn. eapply step_leads; eauto. }
  destruct o; try (destruct Hp; fail); cbn [n_step] in H.
  - apply bind_ok in H. destruct H as (n1 & H & Hx). inv Hx. unfold rn_tick in H. apply bind_ok in H. destruct H as (r1 & H & Hx). inv Hx. cbn. apply tick_leads; auto.
  - inv H. apply leads_keep; auto.
  - apply bind_ok in H. destruct H as ([n1 e1] & H & Hx). inv Hx. eapply S; eauto.
  - apply bind_ok in H. destruct H as ([n1 e1] & H & Hx). inv Hx. eapply S; eauto.
  - apply bind_ok in H. destruct H as ([n1 e1] & H & Hx). inv Hx. unfold rn_propose_conf_change in H. apply bind_ok in H. destruct H as ([t d] & _ & H). eapply S; eauto.
  - exfalso. eapply Hcc; eauto.
  - apply bind_ok in H. destruct H as ([n1 e1] & H & Hx). inv Hx. unfold rn_step in H. destruct (is_local_msg _); [inv H; apply leads_refl|].
    destruct (_ || _); [|inv H; apply leads_refl]. eapply S; eauto.
  - apply bind_ok in H. destruct H as (n1 & H & Hx). inv Hx. unfold rn_report_unreachable in H. apply bind_ok in H. destruct H as ([n2 e2] & H & Hx). inv Hx. eapply S; eauto.
  - apply bind_ok in H. destruct H as (n1 & H & Hx). inv Hx. unfold rn_report_snapshot in H. apply bind_ok in H. destruct H as ([n2 e2] & H & Hx). inv Hx. eapply S; eauto.
  - apply bind_ok in H. destruct H as (n1 & H & Hx). inv Hx. unfold rn_transfer_leader in H. apply bind_ok in H. destruct H as ([n2 e2] & H & Hx). inv Hx. eapply S; eauto.
  - apply bind_ok in H. destruct H as (n1 & H & Hx). inv Hx. unfold rn_read_index in H. apply bind_ok in H. destruct H as ([n2 e2] & H & Hx). inv Hx. eapply S; eauto.
Qed.
End Lead.
