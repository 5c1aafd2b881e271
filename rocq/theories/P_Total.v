(** Which calls into the sending half and the leader's handlers return at all (no CRAFT_LOG_FATAL,
    no failed assert, no null dereference, no endless loop). *)
From Verif Require Import Prelude Types M_Util M_Quorum M_Inflights M_Progress M_Tracker.
From Verif Require Import M_Storage M_Unstable M_Log M_ReadOnly M_ConfPb M_ConfChange M_Raft M_RawNode.
From Verif Require Import Spec_Inflights P_Inflights Spec_ReadOnly P_ReadOnly Spec_Log P_Lists P_Storage P_Log P_Quorum P_Frame P_Prim Spec_ConfChange P_Conf P_Read P_ReadQ.

Definition total {A} (m : res A) : Prop := exists x, m = Ok x.
Lemma total_ok {A} (x : A) : total (Ok x). Proof. eexists; reflexivity. Qed.
Lemma total_bind {A B} (m : res A) (k : A -> res B) :
  total m -> (forall x, m = Ok x -> total (k x)) -> total (bind m k).
Proof. intros [x H] Hk. rewrite H. cbn. auto. Qed.
Lemma total_mfold {A S} (f : A -> S -> res S) (P : S -> Prop) l :
  (forall a s, In a l -> P s -> total (f a s)) -> (forall a s s', In a l -> P s -> f a s = Ok s' -> P s') ->
  forall s, P s -> total (mfold f l s).
Proof.
  induction l as [|a l IH]; intros H1 H2 s Hs; cbn; [apply total_ok|].
  apply total_bind; [apply H1; auto; left; auto|]. intros s' E. apply IH; [| |eapply H2; eauto; left; auto].
  - intros b t Hb. apply H1. right; auto.
  - intros b t t' Hb. apply H2. right; auto.
Qed.
Ltac tb := apply total_bind; [|intros ? ?].

Section Total.
Context {E : Env}.

(** Flow-control state the sending code can work with. *)
Definition pok (p : progress) : Prop := infl_ok p /\ 0 < i_size (p_infl p) /\ 1 <= p_next p.
Definition prok (r : raft) : Prop := forall id p, trk_get id (r_trk r) = Some p -> pok p.
(** A snapshot can be produced whenever the log is compacted. *)
Definition snapok (l : rlog) : Prop := forall i, 1 <= i -> i < log_first l ->
  exists sn, log_snapshot l = SOk sn /\ sn_index sn <> 0.
Record sok (r : raft) : Prop := { sk_wf : lwf (r_log r); sk_prs : prok r; sk_snap : snapok (r_log r) }.

Lemma infl_ok_add v p : infl_ok p -> inf_full (p_infl p) = false -> total (inf_add v (p_infl p)).
Proof.
  intros [H1 [q H2]] Hf. destruct (add_ok v (p_infl p) q H1 H2) as (x & Hx & _); [|eexists; eauto].
  unfold inf_full in Hf. destruct H2 as [H2 _]. rewrite H2 in Hf. apply N.eqb_neq in Hf. auto.
Qed.
Lemma infl_ok_reset p : infl_ok p -> iwf (inf_reset (p_infl p)) /\ exists q, holds (inf_reset (p_infl p)) q.
Proof. apply infl_reset. Qed.
Lemma pok_flow to p ms p' : pflow to p ms p' -> pok p -> pok p'.
Proof.
  intros H. induction H; intros P; auto; apply IHpflow; destruct P as (P1 & P2 & P3).
  - unfold after_app in H3. destruct (rev (m_entries m)) as [|e es]; [subst p1; repeat split; try apply P1; auto|].
    destruct (p_state p); [subst p1; repeat split; try apply P1; auto| |destruct H3].
    destruct H3 as (inf & A1 & A2). subst p1. pose proof (infl_add _ _ _ A1) as [B1 B2].
    split; [exact (B2 P1)|]. split; [cbn; rewrite B1; exact P2|]. cbn. lia.
  - split; [exact (infl_ok_reset _ P1)|]. split; [exact P2|exact P3].
Qed.
Lemma sends_prok r r' : sends r r' -> prok r -> prok r'.
Proof.
  intros H P id p' Hg. destruct (prs_same_get' _ _ _ _ (sd_prs _ _ H) Hg) as (p & G & _).
  destruct (sd_msgs _ _ H) as (ms & M & _). destruct (sd_flow _ _ H id p ms G M) as (p1 & G1 & F).
  assert (p1 = p') by congruence. subst p1. eapply pok_flow; eauto.
Qed.
Lemma sends_sok r r' : sends r r' -> sok r -> sok r'.
Proof.
  intros H [S1 S2 S3]. pose proof (sm_log _ _ (sd_same _ _ H)) as L. constructor; [rewrite L; auto| |rewrite L; auto].
  eapply sends_prok; eauto.
Qed.
Lemma sends_tracked r r' id : sends r r' -> trk_get id (r_trk r) <> None -> trk_get id (r_trk r') <> None.
Proof. intros H G G'. apply G. apply (prs_same_none _ _ _ (sd_prs _ _ H)). auto. Qed.

Lemma send_total m r : (if is_vote_family (m_type m) then m_term m <> 0 else m_term m = 0) -> total (send m r).
Proof.
  unfold send. set (m1 := if m_from m =? 0 then set_m_from (r_id r) m else m).
  assert (Ht : m_type m1 = m_type m) by (unfold m1; destruct (m_from m =? 0); auto).
  assert (Hm : m_term m1 = m_term m) by (unfold m1; destruct (m_from m =? 0); auto).
  clearbody m1. rewrite Ht, Hm. destruct (is_vote_family (m_type m)).
  - destruct (N.eqb_spec (m_term m) 0); [congruence|]. intros _. apply total_ok.
  - intros ->. apply total_ok.
Qed.

Lemma entries_cases l i mx : lwf l -> 1 <= i ->
  (log_last l < i /\ log_entries i mx l = Ok (SOk [])) \/
  (i <= log_last l /\ i < log_first l /\ log_entries i mx l = Ok (SErr ECompacted)) \/
  (exists e es, log_entries i mx l = Ok (SOk (e :: es)) /\ i <= log_last l /\ contig i (e :: es) /\ i + nlen es <= log_last l).
Proof.
  intros W Hi. pose proof (lwf_0 _ W) as W0. pose proof (log_abs_wf _ W0) as AW. rewrite (log_last_abs _ W0), log_first_abs.
  destruct (N.ltb_spec (a_last (log_abs l)) i).
  - left. split; auto. unfold log_entries. rewrite (log_last_abs _ W0). destruct (N.ltb_spec (a_last (log_abs l)) i); [auto|lia].
  - right. destruct (N.ltb_spec i (a_first (log_abs l))).
    + left. rewrite log_entries_compacted by auto. destruct (N.ltb_spec (a_last (log_abs l)) i); [lia|auto].
    + right. rewrite log_entries_abs by auto. set (all := ndrop (i - a_first (log_abs l)) (a_ents (log_abs l))).
      assert (Hc : contig i all).
      { unfold all. pose proof (contig_ndrop _ (i - a_first (log_abs l)) _ AW) as C. unfold a_first in *.
        replace (a_base (log_abs l) + 1 + (i - (a_base (log_abs l) + 1))) with i in C by lia. exact C. }
      assert (Hl : nlen all = a_last (log_abs l) + 1 - i).
      { unfold all. rewrite nlen_ndrop. unfold a_first, a_last in *. lia. }
      destruct (limit_size_prefix all mx) as [rest Hr]. assert (Hne : limit_size all mx <> []).
      { apply limit_size_nonnil. intros X. rewrite X in Hl. cbn in Hl. unfold nlen in Hl; cbn in Hl. lia. }
      pose proof (limit_size_len all mx) as Hll.
      destruct (limit_size all mx) as [|e es]; [congruence|]. exists e, es. split; auto. split; [lia|].
      split; [rewrite Hr in Hc; apply contig_app in Hc; apply Hc|]. rewrite nlen_cons in Hll. lia.
Qed.

Lemma rev_cons_last {A} (x : A) l : exists y t, rev (x :: l) = y :: t.
Proof. destruct (rev (x :: l)) as [|y t] eqn:Hr; [|eauto]. apply (f_equal (@List.length A)) in Hr. rewrite rev_length in Hr. discriminate. Qed.
Lemma contig_rev_last i e es y t : contig i (e :: es) -> rev (e :: es) = y :: t -> e_index y = i + nlen es.
Proof.
  intros C Hr. assert (Hl : e :: es = rev t ++ [y]) by (rewrite <- (rev_involutive (e :: es)), Hr; reflexivity).
  rewrite Hl in C. apply contig_app in C. destruct C as [_ C].
  assert (nlen (rev t) = nlen es). { apply (f_equal (@nlen entry)) in Hl. rewrite nlen_app, nlen_cons in Hl. change (nlen [y]) with 1 in Hl. lia. }
  apply contig_cons in C. destruct C as [C _]. lia.
Qed.

(** MaybeSendAppend returns; and when it sent something without being asked for empty messages,
    the follower is now paused or its Next has grown inside the log. *)
Lemma msa_total to b r : sok r -> trk_get to (r_trk r) <> None -> total (maybe_send_append to b r).
Proof.
  intros [W P S] Ht. unfold maybe_send_append. destruct (trk_get to (r_trk r)) as [pr|] eqn:Hg; [|congruence].
  destruct (pr_is_paused pr) eqn:Hp; [apply total_ok|]. destruct (P _ _ Hg) as (P1 & P2 & P3).
  rewrite log_term_abs by (apply lwf_0; auto). cbn [bind].
  destruct (entries_cases (r_log r) (p_next pr) (k_max_msg_size (r_cfg r)) W P3) as [[H1 H2]|[(H1 & H2 & H3)|(e & es & H1 & H2 & H3 & H4)]].
  - rewrite H2. cbn [bind is_nil]. destruct b; cbn [andb negb]; [|apply total_ok].
    tb; [|apply total_ok]. unfold send_app_msg. cbn [rev]. apply send_total. reflexivity.
  - rewrite H3. cbn [bind is_nil]. destruct b; cbn [andb negb]; [|apply total_ok].
    unfold send_snap_msg. destruct (p_active pr); cbn [negb]; [|apply total_ok].
    destruct (S _ P3 H2) as (sn & S1 & S2). rewrite S1. destruct (N.eqb_spec (sn_index sn) 0); [congruence|].
    tb; [|apply total_ok]. apply send_total. reflexivity.
  - rewrite H1. cbn [bind is_nil andb]. tb; [|apply total_ok]. unfold send_app_msg.
    destruct (rev_cons_last e es) as (y & t & Hr). rewrite Hr.
    destruct (p_state pr) eqn:Hs; [apply send_total; reflexivity| |unfold pr_is_paused in Hp; rewrite Hs in Hp; discriminate].
    tb; [|apply send_total; reflexivity]. apply (infl_ok_add _ pr); auto. unfold pr_is_paused in Hp. rewrite Hs in Hp. exact Hp.
Qed.

Definition gas (to : N) (r : raft) : nat :=
  match trk_get to (r_trk r) with
  | Some p => if pr_is_paused p then 0%nat else N.to_nat (r_last r + 1 - p_next p)
  | None => 0%nat
  end.
Lemma trk_get_put id p r : trk_get id (r_trk (put_progress id p r)) = Some p.
Proof. unfold trk_get. cbn. rewrite mget_mset, N.eqb_refl. auto. Qed.
Lemma msa_gas to r r' : sok r -> maybe_send_append to false r = Ok (r', true) -> (gas to r' < gas to r)%nat.
Proof.
  intros [W P S] H. unfold maybe_send_append in H. unfold gas at 2. destruct (trk_get to (r_trk r)) as [pr|] eqn:Hg; [|discriminate].
  destruct (pr_is_paused pr) eqn:Hp; [discriminate|]. destruct (P _ _ Hg) as (P1 & P2 & P3).
  rewrite log_term_abs in H by (apply lwf_0; auto). cbn [bind] in H.
  destruct (entries_cases (r_log r) (p_next pr) (k_max_msg_size (r_cfg r)) W P3) as [[H1 H2]|[(H1 & H2 & H3)|(e & es & H1 & H2 & H3 & H4)]].
  - rewrite H2 in H. cbn in H. discriminate.
  - rewrite H3 in H. cbn in H. discriminate.
  - rewrite H1 in H. cbn [bind is_nil andb] in H. apply bind_ok in H. destruct H as (r1 & H & X). injection X as <-. unfold send_app_msg in H.
    destruct (rev_cons_last e es) as (y & t & Hr). rewrite Hr in H. pose proof (contig_rev_last _ _ _ _ _ H3 Hr) as Hy.
    destruct (p_state pr) eqn:Hs; [| |discriminate].
    + apply send_ok in H. destruct H as [-> _]. unfold gas, emit. cbn [r_trk set_r_msgs]. rewrite trk_get_put.
      unfold pr_is_paused at 1. cbn [p_state set_p_probe_sent p_probe_sent]. rewrite Hs. unfold r_last. lia.
    + apply bind_ok in H. destruct H as (inf & A & H). apply send_ok in H. destruct H as [-> _]. unfold gas, emit. cbn [r_trk set_r_msgs]. rewrite trk_get_put.
      change (r_last (set_r_msgs _ _)) with (r_last r). unfold r_last. set (L := log_last (r_log r)) in *. cbn [p_next set_p_infl pr_optimistic_update set_p_next]. clearbody L.
      match goal with |- ((if ?b then _ else _) < _)%nat => destruct b end; lia.
Qed.
Lemma send_all_total f to : forall r, sok r -> trk_get to (r_trk r) <> None -> (gas to r < f)%nat -> total (send_all f to r).
Proof.
  induction f as [|f IH]; intros r S T G; [lia|]. cbn [send_all]. destruct (msa_total to false r S T) as [[r1 b] H]. rewrite H. cbn [bind].
  destruct b; [|apply total_ok]. pose proof (maybe_send_append_sends _ _ _ _ _ H) as Sd. apply IH.
  - eapply sends_sok; eauto.
  - eapply sends_tracked; eauto.
  - pose proof (msa_gas _ _ _ S H). lia.
Qed.
Lemma gas_fuel to r : sok r -> (gas to r < send_all_fuel r)%nat.
Proof.
  intros [W P S]. unfold gas, send_all_fuel. destruct (trk_get to (r_trk r)) as [p|] eqn:Hg; [|lia]. destruct (P _ _ Hg) as (_ & _ & H).
  destruct (pr_is_paused p); lia.
Qed.
Lemma send_append_total to r : sok r -> trk_get to (r_trk r) <> None -> total (send_append to r).
Proof. intros S T. unfold send_append. destruct (msa_total to true r S T) as [[r1 b] H]. rewrite H. apply total_ok. Qed.

Lemma peer_tracked r id : In id (peer_ids r) -> trk_get id (r_trk r) <> None.
Proof.
  unfold peer_ids. intros H. apply filter_In in H. destruct H as [H _]. unfold trk_get. intros X. apply mget_key in H. congruence.
Qed.
Lemma bcast_append_total r : sok r -> total (bcast_append r).
Proof.
  intros S. unfold bcast_append. apply total_mfold with (P := fun s => sok s /\ forall id, In id (peer_ids r) -> trk_get id (r_trk s) <> None).
  - intros a s Ha [S1 S2]. apply send_append_total; auto.
  - intros a s s' Ha [S1 S2] H. apply send_append_sends in H. split; [eapply sends_sok; eauto|]. intros id Hid. eapply sends_tracked; eauto.
  - split; auto. intros id. apply peer_tracked.
Qed.
Lemma send_heartbeat_total ctx to r : trk_get to (r_trk r) <> None -> total (send_heartbeat ctx to r).
Proof. intros H. unfold send_heartbeat. destruct (trk_get to (r_trk r)); [|congruence]. apply send_total. reflexivity. Qed.
Lemma bcast_hb_total ctx r : total (bcast_heartbeat_ctx ctx r).
Proof.
  unfold bcast_heartbeat_ctx. apply total_mfold with (P := fun s => r_id s = r_id r /\ forall id, In id (peer_ids r) -> trk_get id (r_trk s) <> None).
  - intros a s Ha [S1 S2]. apply send_heartbeat_total; auto.
  - intros a s s' Ha [S1 S2] H.
    assert (a <> r_id s). { rewrite S1. unfold peer_ids in Ha. apply filter_In in Ha. destruct Ha as [_ Ha]. apply negb_true_iff, N.eqb_neq in Ha. auto. }
    apply send_heartbeat_sends in H; auto. split; [rewrite (sends_id _ _ H); auto|]. intros id Hid. eapply sends_tracked; eauto.
  - split; auto. intros id. apply peer_tracked.
Qed.

Lemma maybe_commit_total r : lwf (r_log r) -> 0 < r_term r -> total (raft_maybe_commit r) /\
  forall r' b, raft_maybe_commit r = Ok (r', b) -> exists c, l_committed (r_log r) <= c /\ r' = set_r_log (set_l_committed c (r_log r)) r /\ lwf (set_l_committed c (r_log r)).
Proof.
  intros W T. unfold raft_maybe_commit, trk_committed.
  destruct (joint_ci_spec (tc_incoming (t_config (r_trk r))) (tc_outgoing (t_config (r_trk r))) (match_acked (t_progress (r_trk r)))) as (ci & H & _).
  rewrite H. cbn [bind]. pose proof (log_maybe_commit_abs ci (r_term r) (r_log r) W T) as C. destruct (_ && _) eqn:Hc.
  - destruct C as (C1 & C2 & C3). rewrite C2. cbn [bind]. split; [apply total_ok|]. intros r' b X. injection X as <- <-. exists ci. split; [|auto].
    apply andb_true_iff in Hc. destruct Hc as [Hc _]. lia.
  - rewrite C. cbn [bind]. split; [apply total_ok|]. intros r' b X. injection X as <- <-. exists (l_committed (r_log r)). split; [lia|].
    assert (Eq : set_l_committed (l_committed (r_log r)) (r_log r) = r_log r) by (destruct (r_log r); reflexivity). rewrite Eq. auto.
Qed.
Lemma snapok_committed c l : snapok l -> snapok (set_l_committed c l).
Proof. intros H i. apply H. Qed.

(* ---- progress updates ---- *)
Lemma prok_put id p r : prok r -> pok p -> prok (put_progress id p r).
Proof.
  intros H Hp j q. unfold trk_get. cbn. rewrite mget_mset. destruct (N.eqb_spec j id) as [->|]; intros X; [inv X; auto|apply (H j); exact X].
Qed.
Lemma sok_put id p r : sok r -> pok p -> sok (put_progress id p r).
Proof. intros [W P S] Hp. constructor; auto. apply prok_put; auto. Qed.
Lemma put_tracked id p r j : trk_get j (r_trk r) <> None -> trk_get j (r_trk (put_progress id p r)) <> None.
Proof. unfold trk_get. cbn. rewrite mget_mset. destruct (_ =? _); [discriminate|auto]. Qed.
Lemma pok_active b p : pok p -> pok (set_p_active b p). Proof. exact (fun H => H). Qed.
Lemma pok_sent b p : pok p -> pok (set_p_probe_sent b p). Proof. exact (fun H => H). Qed.
Lemma pok_pending b p : pok p -> pok (set_p_pending b p). Proof. exact (fun H => H). Qed.
Lemma pok_match v p : pok p -> pok (set_p_match v p). Proof. exact (fun H => H). Qed.
Lemma pok_infl_next x n p : (iwf x /\ exists q, holds x q) -> 0 < i_size x -> 1 <= n -> pok p -> pok (set_p_next n (set_p_infl x p)).
Proof. intros H1 H2 H3 H. split; [exact H1|]. split; auto. Qed.
Lemma pok_probe p : pok p -> pok (pr_become_probe p).
Proof.
  intros (P1 & P2 & P3). unfold pr_become_probe. destruct (p_state p); cbn zeta; (split; [exact (infl_ok_reset _ P1)|split; [exact P2|]]; cbn; lia).
Qed.
Lemma pok_replicate p : pok p -> pok (pr_become_replicate p).
Proof. intros (P1 & P2 & P3). split; [exact (infl_ok_reset _ P1)|split; [exact P2|]]. cbn; lia. Qed.
Lemma pok_update n p p' b : pr_maybe_update n p = (p', b) -> pok p -> pok p'.
Proof.
  intros H (P1 & P2 & P3). apply pr_maybe_update_spec in H. destruct H as (_ & _ & H1 & _ & _ & _ & _ & H2 & _).
  unfold pok, infl_ok. rewrite H1, H2. repeat split; try apply P1; auto. lia.
Qed.
Lemma pok_decr a h p p' b : pr_maybe_decr_to a h p = (p', b) -> pok p -> pok p'.
Proof.
  unfold pr_maybe_decr_to. intros H P. pose proof P as (P1 & P2 & P3). destruct (p_state p).
  - destruct (negb _); inv H; auto. split; [exact P1|]. split; [exact P2|]. cbn. lia.
  - destruct (_ <=? _); inv H; auto. split; [exact P1|]. split; [exact P2|]. cbn. lia.
  - destruct (negb _); inv H; auto. split; [exact P1|]. split; [exact P2|]. cbn. lia.
Qed.
Lemma ack_total i p : pok p -> total (ack_progress i p) /\ forall p', ack_progress i p = Ok p' -> pok p'.
Proof.
  intros P. pose proof P as ((I1 & q & I2) & P2 & P3). unfold ack_progress. destruct (p_state p).
  - split; [apply total_ok|]. intros p' X. inv X. apply pok_replicate; auto.
  - destruct (free_le_ok i (p_infl p) q I1 I2) as (x & A1 & A2 & A3 & A4). rewrite A1. cbn. split; [apply total_ok|]. intros p' X. inv X.
    split; [split; [exact A2|exists (drop_le i q); exact A3]|]. split; [cbn; rewrite A4; auto|exact P3].
  - destruct (_ <=? _); (split; [apply total_ok|]); intros p' X; inv X; auto. apply pok_replicate, pok_probe; auto.
Qed.
Lemma free_first_total p : pok p -> inf_full (p_infl p) = true -> total (inf_free_first_one (p_infl p)) /\
  forall x, inf_free_first_one (p_infl p) = Ok x -> pok (set_p_infl x p).
Proof.
  intros ((I1 & q & I2) & P2 & P3) Hf. unfold inf_free_first_one. unfold inf_full in Hf. apply N.eqb_eq in Hf.
  pose proof I2 as [H1 H2]. assert (Hb : exists b, nnth (i_buf (p_infl p)) (i_start (p_infl p)) = Some b).
  { specialize (H2 0 ltac:(lia)). destruct (nnth_lt_Some q 0 ltac:(lia)) as [b Hb]. rewrite Hb in H2. exists b. rewrite <- H2. f_equal.
    unfold ring_pos. rewrite N.add_0_r. destruct I1 as (_ & _ & [J1|J1] & _); destruct (N.leb_spec (i_size (p_infl p)) (i_start (p_infl p))); lia. }
  destruct Hb as [b Hb]. rewrite Hb. destruct (free_le_ok b (p_infl p) q I1 I2) as (x & A1 & A2 & A3 & A4). rewrite A1. split; [apply total_ok|].
  intros y X. inv X. split; [split; [exact A2|exists (drop_le b q); exact A3]|]. split; [cbn; rewrite A4; auto|exact P3].
Qed.

(* ---- reads ---- *)
Definition roq (ro : readonly) : Prop := exists q, ro_rel ro q.
Record rdok (r : raft) : Prop := { rk_pend : Forall (fun m => m_entries m <> []) (r_pend_reads r); rk_ro : roq (r_ro r) }.

Lemma entry0_total m : m_entries m <> [] -> total (entry0_data m).
Proof. unfold entry0_data. destruct (m_entries m); [congruence|]. intros _. apply total_ok. Qed.
Lemma response_total m i r : m_entries m <> [] -> total (response_to_read_index m i r).
Proof.
  intros H. unfold response_to_read_index. destruct (_ || _); [|apply send_total; reflexivity].
  tb; [apply entry0_total; auto|apply total_ok].
Qed.
Lemma ro_add_total i m ro : roq ro -> m_entries m <> [] -> total (ro_add_request i m ro) /\ forall ro', ro_add_request i m ro = Ok ro' -> roq ro'.
Proof.
  intros [q R] Hm. pose (o := RoAdd i m). destruct (rq_step o q) as [q' rr] eqn:Hs.
  destruct (ro_step_ok o ro q q' rr R ltac:(exact Hm) Hs) as (ro' & H & H2 & _). unfold o in H. cbn in H.
  apply bind_ok in H. destruct H as (x & H & Y). rewrite H. split; [apply total_ok|]. intros z Z. inv Z. injection Y as <- _. exists q'; auto.
Qed.
Lemma roq_ack from c ro ro' a : roq ro -> ro_recv_ack from c ro = (ro', a) -> roq ro'.
Proof. intros [q R] H. destruct (recv_ack_q _ _ _ _ _ _ R H) as (A & _). eexists; eauto. Qed.
Lemma ro_advance_total c ro : roq ro -> total (ro_advance c ro) /\
  forall ro' rss, ro_advance c ro = Ok (ro', rss) -> roq ro' /\ Forall (fun rs => m_entries (ris_req rs) <> []) rss.
Proof.
  intros [q R]. pose (o := RoAdvance c). destruct (rq_step o q) as [q' rr] eqn:Hs.
  destruct (ro_step_ok o ro q q' rr R I Hs) as (ro' & H & H2 & _). unfold o in H. cbn in H.
  apply bind_ok in H. destruct H as ([x l] & H & Y). split; [rewrite H; apply total_ok|].
  intros ro2 rss K. destruct (advance_q _ _ _ _ _ R K) as [(A1 & A2 & A3)|(A1 & A2 & A3)]; (split; [eexists; eauto|]); subst rss; [|constructor].
  apply Forall_forall. intros rs Hin. apply in_map_iff in Hin. destruct Hin as (rq & <- & Hin).
  assert (In rq q). { apply has_ctx_In in A1. rewrite (upto_after _ _ A1). apply in_or_app; auto. } destruct (rr_ctx _ _ R _ H0) as (e & t & X & _). cbn. rewrite X. discriminate.
Qed.
Lemma cur_total r : lwf (r_log r) -> total (committed_entry_in_current_term r).
Proof. intros W. unfold committed_entry_in_current_term. rewrite log_term_abs by (apply lwf_0; auto). cbn. apply total_ok. Qed.

Lemma srir_total m r : roq (r_ro r) -> m_entries m <> [] -> total (send_read_index_response m r) /\
  forall r', send_read_index_response m r = Ok r' -> roq (r_ro r').
Proof.
  intros R Hm. unfold send_read_index_response. destruct (ro_option (r_ro r)).
  - destruct (ro_add_total (l_committed (r_log r)) m (r_ro r) R Hm) as [[ro1 H1] H2]. rewrite H1. specialize (H2 _ H1). cbn [bind].
    destruct (entry0_total m Hm) as [d Hd]. rewrite Hd. cbn [bind]. destruct (ro_recv_ack (r_id r) d ro1) as [ro2 a] eqn:Ha.
    pose proof (roq_ack _ _ _ _ _ H2 Ha) as R2. split; [apply bcast_hb_total|]. intros r' H.
    assert (K : r_ro r' = ro2).
    { unfold bcast_heartbeat_ctx in H. apply (mfold_inv _ (fun a b => r_ro b = r_ro a)) in H; [exact H|auto|intros; congruence|].
      intros x s s' _ Hs. unfold send_heartbeat in Hs. destruct (trk_get x (r_trk s)); [|discriminate]. apply send_ok in Hs. destruct Hs as [-> _]. reflexivity. }
    rewrite K. exact R2.
  - split; [apply response_total; auto|]. intros r' H. destruct (response_same _ _ _ _ H) as (_ & -> & _). exact R.
Qed.
Lemma release_total r : lwf (r_log r) -> rdok r -> total (release_pending_reads r).
Proof.
  intros W [P R]. unfold release_pending_reads. tb; [apply cur_total; auto|]. destruct x; [|apply total_ok].
  apply total_mfold with (P := fun s => roq (r_ro s)); [| |exact R].
  - intros m s Hm Hs. rewrite Forall_forall in P. apply srir_total; auto.
  - intros m s s' Hm Hs X. rewrite Forall_forall in P. eapply srir_total; eauto.
Qed.
Lemma read_index_total m r : lwf (r_log r) -> roq (r_ro r) -> m_entries m <> [] -> total (leader_read_index m r).
Proof.
  intros W R Hm. unfold leader_read_index. destruct (trk_is_singleton _); [apply response_total; auto|].
  tb; [apply cur_total; auto|]. destruct x; [apply srir_total; auto|apply total_ok].
Qed.

(* ---- the leader's handlers ---- *)
Lemma okr_total m : total m -> total (okr m).
Proof. intros [x H]. unfold okr. rewrite H. apply total_ok. Qed.
Lemma sok_log c r : sok r -> lwf (set_l_committed c (r_log r)) -> sok (set_r_log (set_l_committed c (r_log r)) r).
Proof. intros [W P S] Hw. constructor; cbn; auto. Qed.

Lemma fcbt_total i t l : lwf l -> a_term0 (log_abs l) 0 = 0 -> total (log_find_conflict_by_term i t l).
Proof. intros W Z. destruct (log_fcbt_abs i t l (lwf_0 _ W) Z) as (x & H & _). eexists; eauto. Qed.

Lemma app_resp_total m pr r : sok r -> rdok r -> a_term0 (log_abs (r_log r)) 0 = 0 -> 0 < r_term r ->
  trk_get (m_from m) (r_trk r) = Some pr -> total (leader_app_resp m pr r).
Proof.
  intros S R Z T Hg. pose proof (sk_prs _ S _ _ Hg) as P. unfold leader_app_resp. cbv zeta. destruct (m_reject m).
  - unfold leader_app_resp_reject. tb; [destruct (_ <? _); [apply fcbt_total; auto; apply S|apply total_ok]|].
    destruct (pr_maybe_decr_to (m_index m) x (set_p_active true pr)) as [p1 ok] eqn:Hd. pose proof (pok_decr _ _ _ _ _ Hd (pok_active _ _ P)) as P1.
    destruct ok; [|apply total_ok]. apply send_append_total; [apply sok_put; auto; destruct (pstate_eqb _ _); auto; apply pok_probe; auto|].
    rewrite trk_get_put. discriminate.
  - unfold leader_app_resp_accept. cbv zeta. destruct (pr_maybe_update (m_index m) (set_p_active true pr)) as [p1 u] eqn:Hu.
    pose proof (pok_update _ _ _ _ Hu (pok_active _ _ P)) as P1. destruct u; [|apply total_ok].
    destruct (ack_total (m_index m) p1 P1) as [[p2 A1] A2]. rewrite A1. specialize (A2 _ A1). cbn [bind].
    set (ra := put_progress (m_from m) p2 r). assert (Sa : sok ra) by (apply sok_put; auto).
    assert (Ta : trk_get (m_from m) (r_trk ra) <> None) by (unfold ra; rewrite trk_get_put; discriminate).
    destruct (maybe_commit_total ra (sk_wf _ Sa) T) as [[[r2 com] C1] C2]. rewrite C1. cbn [bind]. destruct (C2 _ _ C1) as (c & _ & -> & Wc).
    set (rb := set_r_log (set_l_committed c (r_log ra)) ra). assert (Sb : sok rb) by (apply sok_log; auto).
    assert (Rb : rdok rb) by exact (Build_rdok rb (rk_pend _ R) (rk_ro _ R)).
    assert (K : exists r3, (if com then r' <- release_pending_reads rb;; bcast_append r' else if pr_is_paused (set_p_active true pr) then send_append (m_from m) rb else Ok rb) = Ok r3 /\ sends rb r3).
    { destruct com; [|destruct (pr_is_paused _)].
      - destruct (release_total rb (sk_wf _ Sb) Rb) as [x X]. rewrite X. cbn [bind]. pose proof (release_pending_reads_sends _ _ X) as Sx.
        destruct (bcast_append_total x (sends_sok _ _ Sx Sb)) as [y Y]. exists y. split; auto. eapply sends_trans; eauto using bcast_append_sends.
      - destruct (send_append_total (m_from m) rb Sb Ta) as [y Y]. exists y. split; auto. eapply send_append_sends; eauto.
      - exists rb. split; auto using sends_refl. }
    destruct K as (r3 & K1 & K2). rewrite K1. cbn [bind]. pose proof (sends_sok _ _ K2 Sb) as S3.
    destruct (send_all_total (send_all_fuel r3) (m_from m) r3 S3 (sends_tracked _ _ _ K2 Ta) (gas_fuel _ _ S3)) as [r4 H4]. rewrite H4. cbn [bind].
    destruct (_ && _); [|apply total_ok]. apply send_total. reflexivity.
Qed.
Lemma hb_resp_total m pr r : sok r -> roq (r_ro r) -> trk_get (m_from m) (r_trk r) = Some pr -> total (leader_heartbeat_resp m pr r).
Proof.
  intros S R Hg. pose proof (sk_prs _ S _ _ Hg) as P. unfold leader_heartbeat_resp. cbv zeta.
  set (p0 := set_p_probe_sent false (set_p_active true pr)). assert (P0 : pok p0) by exact P. clearbody p0.
  assert (K : exists p1, (if pstate_eqb (p_state p0) StReplicate && inf_full (p_infl p0) then inf <- inf_free_first_one (p_infl p0);; Ok (set_p_infl inf p0) else Ok p0) = Ok p1 /\ pok p1).
  { destruct (pstate_eqb _ _); cbn [andb]; [|eauto]. destruct (inf_full (p_infl p0)) eqn:Hf; [|eauto].
    destruct (free_first_total p0 P0 Hf) as [[x X] Y]. rewrite X. cbn [bind]. eauto. }
  destruct K as (p1 & K1 & P1). rewrite K1. cbn [bind]. set (r1 := put_progress (m_from m) p1 r).
  assert (S1 : sok r1) by (apply sok_put; auto).
  assert (K2 : exists r2, (if p_match p1 <? r_last r1 then send_append (m_from m) r1 else Ok r1) = Ok r2 /\ r_ro r2 = r_ro r).
  { destruct (_ <? _); [|eauto]. destruct (send_append_total (m_from m) r1 S1) as [r2 H2]; [unfold r1; rewrite trk_get_put; discriminate|].
    exists r2. split; auto. unfold send_append in H2. apply bind_ok in H2. destruct H2 as ([x b] & H2 & Y). injection Y as <-. apply msa_qs in H2. apply (qs_ro _ _ H2). }
  destruct K2 as (r2 & K2 & E2). rewrite K2. cbn [bind]. destruct (_ || _); [apply total_ok|].
  destruct (ro_recv_ack (m_from m) (m_ctx m) (r_ro r2)) as [ro a] eqn:Ha. rewrite E2 in Ha. pose proof (roq_ack _ _ _ _ _ R Ha) as R3.
  destruct (tc_vote_result _ _); try apply total_ok. destruct (ro_advance_total (m_ctx m) ro R3) as [[[ro' rss] X] Y]. cbn [r_ro set_r_ro].
  rewrite X. cbn [bind]. destruct (Y _ _ X) as [_ F]. apply total_mfold with (P := fun _ => True); auto.
  intros rs s Hin _. apply response_total. rewrite Forall_forall in F. auto.
Qed.
Lemma transfer_total m pr r : sok r -> trk_get (m_from m) (r_trk r) = Some pr -> total (leader_transfer m pr r).
Proof.
  intros S Hg. unfold leader_transfer. destruct (p_learner pr); [apply total_ok|]. cbv zeta. destruct (_ && _); [apply total_ok|].
  set (r0 := if negb (r_transferee r =? 0) then set_r_transferee 0 r else r).
  assert (S0 : sok r0 /\ trk_get (m_from m) (r_trk r0) = Some pr) by (unfold r0; destruct (negb _); split; auto; destruct S; constructor; auto).
  clearbody r0. destruct S0 as [S0 G0]. destruct (_ =? _); [apply total_ok|]. destruct (_ =? _); [apply send_total; reflexivity|].
  apply send_append_total; [destruct S0; constructor; auto|]. change (trk_get (m_from m) (r_trk r0) <> None). congruence.
Qed.
End Total.
