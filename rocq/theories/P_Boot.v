(** What Bootstrap on an empty storage yields. *)
From Verif Require Import Prelude Types M_Util M_Quorum M_Inflights M_Progress M_Tracker.
From Verif Require Import M_Storage M_Unstable M_Log M_ReadOnly M_ConfPb M_ConfChange M_Raft M_RawNode.
From Verif Require Import P_Inflights Spec_Log P_Lists P_Storage P_Log Spec_Storage Sys_Storage P_StorageSeq Spec_RaftLog Sys_RaftLog P_RaftLogSeq.
From Verif Require Import Spec_ConfChange Sys_ConfChange P_ConfChange P_ConfPb P_Conf.
From Verif Require Import P_Frame P_Prim Sys_Node P_Node P_Fields P_Vote Spec_Node Spec_Api P_New P_NodeLog P_Handle P_NodeRun.

Section Boot.
Context {E : Env}.

Lemma boot_ents_spec ps : forall i, nlen (bootstrap_ents i ps) = nlen ps /\ contig i (bootstrap_ents i ps) /\
  (forall e, In e (bootstrap_ents i ps) -> e_term e = 1) /\
  (forall k p, nnth ps k = Some p -> nnth (bootstrap_ents i ps) k =
     Some (mkEntry 1 (i + k) EntryConfChange (enc_cc (mkConfChange CcAddNode (pe_id p) (pe_ctx p) 0)))).
Proof.
  induction ps as [|p ps IH]; intros i; cbn [bootstrap_ents].
  - split; auto. split; [apply contig_nil|]. split; [intros e []|]. intros k p H. apply nnth_Some_lt in H. nl.
  - destruct (IH (i + 1)) as (I1 & I2 & I3 & I4). split; [rewrite !nlen_cons; lia|]. split; [apply contig_cons; auto|]. split.
    + intros e [<-|H]; auto.
    + intros k q H. destruct (N.eqb_spec k 0) as [->|Hk].
      * rewrite nnth_cons0 in *. inv H. rewrite N.add_0_r. auto.
      * rewrite nnth_consS in H by lia. rewrite nnth_consS by lia. rewrite (I4 _ _ H). replace (i + 1 + (k - 1)) with (i + k) by lia. auto.
Qed.

(** Everything but the configuration is left alone. *)
Record boot_same (r r' : raft) : Prop := {
  bs_cfg : r_cfg r' = r_cfg r; bs_term : r_term r' = r_term r; bs_vote : r_vote r' = r_vote r;
  bs_log : r_log r' = r_log r; bs_state : r_state r' = r_state r; bs_lead : r_lead r' = r_lead r;
  bs_msgs : r_msgs r' = r_msgs r; bs_reads : r_read_states r' = r_read_states r;
  bs_votes : t_votes (r_trk r') = t_votes (r_trk r); bs_inf : t_max_inflight (r_trk r') = t_max_inflight (r_trk r);
  bs_el : r_el_elapsed r' = r_el_elapsed r; bs_ro : r_ro r' = r_ro r; bs_pend : r_pend_reads r' = r_pend_reads r
}.
Lemma boot_same_refl r : boot_same r r.
Proof. constructor; auto. Qed.
Lemma boot_same_trans a b c : boot_same a b -> boot_same b c -> boot_same a c.
Proof. intros [] []. constructor; congruence. Qed.

Lemma boot_apply_one p r : r_state r = RFollower -> tok r -> tc_outgoing (t_config (r_trk r)) = [] -> pe_id p <> 0 ->
  exists r', bootstrap_apply p r = Ok r' /\ boot_same r r' /\ tok r' /\ tc_outgoing (t_config (r_trk r')) = [] /\
    (forall id, In id (tc_incoming (t_config (r_trk r'))) <-> id = pe_id p \/ In id (tc_incoming (t_config (r_trk r)))) /\
    (tc_learners (t_config (r_trk r)) = [] -> tc_learners (t_config (r_trk r')) = []).
Proof.
  intros Hs Ht Ho Hp. unfold bootstrap_apply. cbn [cci_as_v2 bind c1_type c1_node c1_ctx]. unfold raft_apply_conf_change.
  match goal with |- context [leave_joint ?x] => change (leave_joint x) with false; change (enter_joint x) with (false, false) end. cbv zeta iota beta.
  cbn [c2_changes].
  pose proof (ch_simple_spec (mkChanger (r_trk r) (r_last r)) [mkCC CcAddNode (pe_id p)] Ht) as S. cbn [ch_trk] in S.
  assert (HL : forall id, last_change id [mkCC CcAddNode (pe_id p)] = if id =? pe_id p then Some CcAddNode else None).
  { intros id. unfold last_change, concerns; cbn [fold_left cc_node cc_type]. rewrite andb_true_r. rewrite N.eqb_sym. destruct (N.eqb_spec id (pe_id p)); auto.
    subst. destruct (N.eqb_spec (pe_id p) 0); [tauto|]. auto. }
  destruct (ch_simple _ _) as [[c' prs']|e].
  - destruct S as (S1 & S2 & S3 & S4 & S5 & S6 & S7). cbn [bind]. unfold switch_to_config. cbv zeta. cbn [is_leader].
    unfold is_leader. cbn [r_state set_r_learner set_r_trk]. rewrite Hs. cbn [role_eqb negb orb]. rewrite andb_false_r. cbn [bind].
    eexists. split; [reflexivity|]. split; [constructor; auto|]. split; [exact S4|]. split; [exact S2|].
    cbn [r_trk set_r_learner set_r_trk t_config set_t_progress set_t_config fst]. split.
    + intros id. rewrite (ap_in _ _ _ S5 id), HL. destruct (N.eqb_spec id (pe_id p)); intuition congruence.
    + intros Hl. destruct (tc_learners c') as [|x t] eqn:Hx; auto. exfalso.
      assert (Hi : In x (tc_learners c')) by (rewrite Hx; left; auto). apply (ap_lrn _ _ _ S5) in Hi. rewrite HL in Hi.
      destruct (x =? pe_id p); [destruct Hi; discriminate|]. rewrite Hl in Hi. destruct Hi.
  - exfalso. destruct S as [S|[S|(x & y & Hxy & Hx & Hy)]]; [congruence| |].
    + apply (S (pe_id p)). unfold voter_after. rewrite HL, N.eqb_refl. auto.
    + unfold changes_voter, voter_after in Hx, Hy. rewrite HL in Hx, Hy.
      destruct (N.eqb_spec x (pe_id p)); [|tauto]. destruct (N.eqb_spec y (pe_id p)); [congruence|tauto].
Qed.
Lemma boot_apply_all ps : forall r, r_state r = RFollower -> tok r -> tc_outgoing (t_config (r_trk r)) = [] ->
  (forall p, In p ps -> pe_id p <> 0) ->
  exists r', mfold bootstrap_apply ps r = Ok r' /\ boot_same r r' /\ tok r' /\ tc_outgoing (t_config (r_trk r')) = [] /\
    (forall id, In id (tc_incoming (t_config (r_trk r'))) <-> (exists p, In p ps /\ pe_id p = id) \/ In id (tc_incoming (t_config (r_trk r)))) /\
    (tc_learners (t_config (r_trk r)) = [] -> tc_learners (t_config (r_trk r')) = []).
Proof.
  induction ps as [|p ps IH]; intros r Hs Ht Ho Hp; cbn [mfold].
  - exists r. split; auto. split; [apply boot_same_refl|]. split; auto. split; auto. split; [|auto]. intros id. split; auto. intros [(p & [] & _)|H]; auto.
  - destruct (boot_apply_one p r Hs Ht Ho) as (r1 & B1 & B2 & B3 & B4 & B5 & B6); [apply Hp; left; auto|]. rewrite B1. cbn [bind].
    destruct (IH r1) as (r2 & C1 & C2 & C3 & C4 & C5 & C6); auto; [rewrite (bs_state _ _ B2); auto|intros q Hq; apply Hp; right; auto|].
    exists r2. split; auto. split; [eapply boot_same_trans; eauto|]. split; auto. split; auto. split; [|auto].
    intros id. rewrite C5, B5. split.
    + intros [(q & Hq & Hi)|[->|H]]; [left; exists q; split; [right; auto|auto]|left; exists p; split; [left; auto|auto]|auto].
    + intros [(q & [->|Hq] & Hi)|H]; [auto|left; eauto|auto].
Qed.

Lemma storage_empty_ok s : storage_empty s -> storage_ok s /\ restart_hs s = empty_hardstate /\
  ms_abs s = mkALog 0 0 [] /\ ms_last_index s = 0 /\ ms_first_index s = 1.
Proof.
  intros (S1 & S2 & S3 & S4 & S5).
  assert (R : restart_hs s = empty_hardstate) by (unfold restart_hs, ms_first_index; rewrite S1, S3; reflexivity).
  assert (A : ms_abs s = mkALog 0 0 []) by (unfold ms_abs; rewrite S3, S4, S5; reflexivity).
  assert (L : ms_last_index s = 0) by (unfold ms_last_index, ms_ents; rewrite S3, S5; reflexivity).
  split; [|split; [auto|split; [auto|split; [auto|unfold ms_first_index; rewrite S3; auto]]]].
  constructor; rewrite ?R, ?S5, ?S3, ?S4, ?L, ?S2; cbn; try lia; try tauto. apply contig_nil.
Qed.

Record booted (c : config) (s : mstorage) (ps : list peer) (n : rawnode) : Prop := {
  bo_cfg : r_cfg (rn_raft n) = cfg_of c;
  bo_hard : hard_state (rn_raft n) = mkHardState 1 0 (nlen ps);
  bo_state : r_state (rn_raft n) = RFollower;
  bo_lead : r_lead (rn_raft n) = 0;
  bo_msgs : r_msgs (rn_raft n) = [];
  bo_reads : r_read_states (rn_raft n) = [];
  bo_votes : t_votes (r_trk (rn_raft n)) = [];
  bo_dinv : dinv n;
  bo_abs : log_abs (r_log (rn_raft n)) = mkALog 0 0 (bootstrap_ents 1 ps);
  bo_us : u_ents (l_us (r_log (rn_raft n))) = bootstrap_ents 1 ps;
  bo_st : node_storage n = s;
  bo_applied : l_applied (r_log (rn_raft n)) = 0;
  bo_prev : rn_prev_hard n = empty_hardstate;
  bo_tok : tok (rn_raft n);
  bo_in : forall id, In id (tc_incoming (t_config (r_trk (rn_raft n)))) <-> exists p, In p ps /\ pe_id p = id;
  bo_out : tc_outgoing (t_config (r_trk (rn_raft n))) = [];
  bo_lrn : tc_learners (t_config (r_trk (rn_raft n))) = [];
  bo_soft : rn_prev_soft n = mkSoft 0 RFollower;
  bo_el : r_el_elapsed (rn_raft n) = 0;
  bo_ro : r_ro (rn_raft n) = new_readonly (c_ro c);
  bo_pend : r_pend_reads (rn_raft n) = []
}.

Lemma boot_follower_more r : r_read_states (become_follower 1 0 r) = r_read_states r /\ r_el_elapsed (become_follower 1 0 r) = 0 /\
  r_ro (become_follower 1 0 r) = new_readonly (ro_option (r_ro r)) /\ r_pend_reads (become_follower 1 0 r) = r_pend_reads r.
Proof.
  unfold become_follower. hide (reset 1 r) q Eqq. destruct (reset_more _ _ _ Eqq) as (C1&C2&C3&_&_&_&C7&_). clear Eqq. auto.
Qed.
Lemma boot_follower_tok r : tok r -> tok (become_follower 1 0 r).
Proof.
  intros Ht0. unfold become_follower. hide (reset 1 r) q Eqq. pose proof (tok_reset _ _ _ Eqq Ht0) as K. clear Eqq. exact K.
Qed.
Theorem bootstrap_ok c s tape n0 ps : c_storage c = Some s -> storage_empty s -> rn_new c tape = Ok n0 ->
  ps <> [] -> (forall p, In p ps -> pe_id p <> 0) ->
  exists n, rn_bootstrap ps n0 = Ok (n, None) /\ booted c s ps n.
Proof.
  intros Hs He Hn Hps Hz. destruct (storage_empty_ok s He) as (Hok & HR & HA & HL & HF).
  pose proof (dinv_new _ _ _ _ Hs Hok Hn) as (D & DA & DS).
  apply rn_new_spec in Hn. destruct Hn as (r & Hr & ->). pose proof (tok_new _ _ _ Hr) as Ht0. apply raft_new_spec in Hr.
  destruct Hr as (s' & cp & _ & Hs' & Hc & _ & _ & Hap & F). assert (s' = s) by congruence. subst s'.
  assert (Ecp : cp = (mkTConfig [] [] false [] [], [])).
  { destruct He as (_ & S2 & _). rewrite S2 in Hc. change (sn_conf empty_snapshot) with empty_confstate in Hc. cbn in Hc. inv Hc. reflexivity. }
  unfold rn_bootstrap. destruct (is_nil ps) eqn:Hnil; [destruct ps; [tauto|discriminate]|]. cbn [rn_raft] in *. cbv zeta.
  pose proof (fr_tconf _ _ _ _ F) as Ftc. rewrite Ecp in Ftc. cbn [fst] in Ftc.
  destruct (become_follower_fields 1 0 r _ eq_refl) as (B1&B2&B3&B4&B5&B6&B7&B8&B9&B10&B11).
  pose proof (boot_follower_more r) as Hx0. pose proof (boot_follower_tok r Ht0) as Htk.
  assert (Hx : r_read_states (become_follower 1 0 r) = [] /\ r_el_elapsed (become_follower 1 0 r) = 0 /\ r_ro (become_follower 1 0 r) = new_readonly (c_ro c) /\ r_pend_reads (become_follower 1 0 r) = []).
  { destruct Hx0 as (C1 & C2 & C3 & C4). rewrite C1, C2, C3, C4, (fr_reads _ _ _ _ F), (fr_ro _ _ _ _ F), (fr_pend _ _ _ _ F). auto. }
  clear Hx0. revert B1 B2 B3 B4 B5 B6 B7 B8 B9 B10 B11 Hx Htk. generalize (become_follower 1 0 r) as r1.
  intros r1 B1 B2 B3 B4 B5 B6 B7 B8 B9 B10 B11 Hx Htk.
  destruct (boot_ents_spec ps 1) as (I1 & I2 & I3 & I4).
  assert (Hne : bootstrap_ents 1 ps <> []) by (intros X; rewrite X in I1; destruct ps; [tauto|rewrite nlen_cons in I1; nl]).
  assert (Hpos : 0 < nlen ps) by (destruct ps; [tauto|rewrite nlen_cons; lia]).
  pose proof (ni_log _ (di_ninv _ D)) as LI. cbn [rn_raft] in LI. pose proof (li_wf _ LI) as W.
  assert (Hu : l_us (r_log r) = mkUnstable None [] 1 /\ l_committed (r_log r) = 0 /\ l_applied (r_log r) = 0 /\ l_st (r_log r) = s).
  { pose proof (fr_log _ _ _ _ F) as Fl. rewrite Fl. cbn. rewrite HL, HF in *. destruct He as (S1 & _). rewrite S1 in Hap |- *. change (is_empty_hs empty_hardstate) with true in *. cbv iota in *. repeat split; auto.
    destruct (N.ltb_spec 0 (c_applied c)); lia. }
  destruct Hu as (U1 & U2 & U3 & U4).
  pose proof (log_append_abs _ 1 _ W I2 Hne ltac:(lia)) as HAp. rewrite DA, HA, U2 in HAp. cbn in HAp.
  destruct HAp as (l' & L1 & L2 & L3 & L4 & L5 & L6 & L7 & L8). rewrite B4, L1. cbn [bind].
  assert (Hlo : u_off (l_us l') = 1 /\ u_ents (l_us l') = bootstrap_ents 1 ps).
  { assert (L3' : log_abs l' = mkALog 0 0 (bootstrap_ents 1 ps)) by (rewrite L3; unfold a_replace; cbn; auto).
    unfold log_append in L1. destruct (bootstrap_ents 1 ps) as [|e0 es] eqn:Eb; [tauto|]. rewrite <- Eb in *.
    apply contig_cons in I2 || idtac.
    assert (E0 : e_index e0 = 1) by (specialize (I2 0 e0); rewrite Eb, nnth_cons0 in I2; rewrite I2; auto).
    rewrite E0 in L1. change (wsub 1 1) with 0 in L1. rewrite U2 in L1. cbn [N.ltb] in L1. change (0 <? 0) with false in L1. cbv iota in L1.
    rewrite U1 in L1. unfold us_truncate_and_append in L1. rewrite Eb in L1. cbn in L1. rewrite E0 in L1. cbn in L1. inv L1. cbn. auto. }
  destruct Hlo as [Lo Lu].
  assert (LA : log_abs (set_l_committed (nlen (bootstrap_ents 1 ps)) l') = mkALog 0 0 (bootstrap_ents 1 ps)).
  { rewrite log_abs_committed, L3. unfold a_replace; cbn. auto. }
  set (r2 := set_r_log (set_l_committed (nlen (bootstrap_ents 1 ps)) l') r1).
  destruct (boot_apply_all ps r2) as (r3 & M1 & M2 & M3 & M4 & M5 & M6); auto.
  { cbn. rewrite B9, Ftc. auto. }
  rewrite M1. cbn [bind]. eexists. split; [reflexivity|].
  assert (EL : r_log r3 = set_l_committed (nlen (bootstrap_ents 1 ps)) l') by (rewrite (bs_log _ _ M2); reflexivity).
  constructor; cbn [rn_raft rn_prev_hard rn_prev_soft]; auto.
  - rewrite (bs_cfg _ _ M2). cbn. rewrite B1. apply F.
  - unfold hard_state. rewrite (bs_term _ _ M2), (bs_vote _ _ M2), EL. cbn. rewrite B2, B3, I1, (fr_term _ _ _ _ F), (fr_vote _ _ _ _ F).
    destruct He as (S1 & _). rewrite S1. reflexivity.
  - rewrite (bs_state _ _ M2). exact B5.
  - rewrite (bs_lead _ _ M2). exact B8.
  - rewrite (bs_msgs _ _ M2). cbn. rewrite B7. apply F.
  - rewrite (bs_reads _ _ M2). apply Hx.
  - rewrite (bs_votes _ _ M2). exact B10.
  - constructor; cbn [rn_raft rn_prev_hard rn_ready]; unfold node_storage; cbn [rn_raft]; rewrite ?EL.
    + constructor; rewrite ?EL.
      * constructor.
        { destruct L2 as [W1 W2 W3 W4 W5]. constructor; auto; rewrite ?LA; cbn; rewrite ?I1; unfold a_last; cbn; try lia. }
        { cbn. rewrite L6, Lo, U3. lia. }
        { cbn. rewrite L8, U1. cbn. rewrite L4, U4. destruct He as (_ & S2 & _). rewrite S2. cbn. lia. }
      * destruct (ni_pos _ (di_ninv _ D)) as [P1 P2 P3 P4]. cbn [rn_raft] in *.
        constructor; rewrite ?LA.
        { constructor; cbn; [intros e X; rewrite (I3 _ X); lia|tauto]. }
        { cbn. rewrite L4. exact P2. }
        { cbn. rewrite L4. exact P3. }
        { cbn. rewrite L8, L6. exact P4. }
      * rewrite (bs_state _ _ M2). cbn. rewrite B5. intros [X|X]; discriminate.
    + cbn. rewrite L4, U4. exact Hok.
    + cbn. rewrite L4, U4, HR. reflexivity.
    + cbn. rewrite L6, U3. lia.
    + cbn. lia.
    + unfold hs_forward, hard_state. rewrite (bs_term _ _ M2). cbn. rewrite B2. left. lia.
    + apply (di_ready _ D).
    + cbn. rewrite L8, U1. cbn. discriminate.
    + intros _. rewrite LA. cbn. lia.
  - rewrite EL. exact LA.
  - rewrite EL. exact Lu.
  - unfold node_storage; cbn [rn_raft]. rewrite EL. cbn. rewrite L4. exact U4.
  - rewrite EL. cbn. rewrite L6. exact U3.
  - intros id. rewrite M5. cbn. rewrite B9, Ftc. cbn. intuition.
  - apply M6. cbn. rewrite B9, Ftc. auto.
  - unfold soft_state. rewrite (fr_lead _ _ _ _ F), (fr_state _ _ _ _ F). auto.
  - rewrite (bs_el _ _ M2). apply Hx.
  - rewrite (bs_ro _ _ M2). apply Hx.
  - rewrite (bs_pend _ _ M2). apply Hx.
Qed.
End Boot.
