(** Simulation of whole calls. *)
From Coq Require Import Permutation.
From Verif Require Import Prelude Types M_Util M_Quorum M_Inflights M_Progress M_Tracker.
From Verif Require Import M_Storage M_Unstable M_Log M_ReadOnly M_ConfPb M_ConfChange M_Raft M_RawNode.
From Verif Require Import Spec_RaftLog Spec_Quorum P_Quorum P_Inflights Spec_Log P_Lists P_Storage P_Log P_RaftLogSeq P_Frame P_Prim Sys_Node P_Node P_Fields P_Vote Spec_Node P_New P_NodeLog P_Handle P_NodeRun P_Emit P_Ack P_Lead A_Proto Sys_Cluster R_Log R_Sim R_Prim R_Send R_Lead R_Foll P_Conf Spec_ConfChange Sys_ConfChange P_FlowRun R_Switch R_Elig.
From Verif Require Import Prop_ConfPb.

Section RNode.
Context {E : Env}.
Variable cs : confstate.
Hypothesis cs_ne : cs_voters cs <> [].
Variable t0 : N.
Notation gi := (ginv (vquorum cs) t0).
Notation steps n := (lsteps (vquorum cs) (vmember cs) n).

Lemma in_msg_log F id im : in_msg cs F id im -> log_msg_wf im.
Proof.
  intros [[[_ H _] _]|[_ H]]; auto. apply local_log_wf; intros X; rewrite X in H; discriminate.
Qed.

Lemma voter_member F id s r : vrel cs id F s r -> voter_of r -> vmember cs id.
Proof.
  intros V [H|H]; rewrite (v_id _ _ _ _ _ V) in H; destruct (v_conf _ _ _ _ _ V) as [P1 P2]; [left|right].
  - eapply Permutation_in; [apply Permutation_sym; exact P1|exact H].
  - eapply Permutation_in; [apply Permutation_sym; exact P2|exact H].
Qed.

Lemma prim_sim g F id im r r' : gi g F -> id <> 0 -> vrel cs id F (g id) r -> ninv r -> in_msg cs F id im ->
  Forall (msg_ok cs F) (r_msgs r) -> tok r -> elig r -> prim im r r' -> simulated cs id F (g id) r'.
Proof.
  intros G Hid V Hn M MS Tk El H.
  destruct H as [r' K|r' Hl S|m Hm|t l Ht _|r' Hc Hpm|r' Hc _|Hs|Hs|to lt ctx Hs Hlt Hz|Ht Hm Hz Hv Hu|r' Hs Hv Hb|
                 es r1 r' Hs Ht He Hf Ha|p p' Hs Ht Hr Hm Hg H1 H2 _ _ _ H3|r' b Hs Hc|Hg Hm Hs|l last Ht Hm Hs Hc Ha|
                 l Ht Hm Hs Hc|l Ht Hm Hs Hc Hmt Hct|r1 Ht Hm Hs Hr].
  - eapply keep_sim; eauto.
  - eapply sends_sim; eauto.
  - eapply misc_sim; eauto.
  - eapply follow_sim; eauto.
  - eapply cand_sim; eauto. eapply voter_member; eauto. destruct Hpm as [Hpm|Hpm]; [apply promotable_voter; auto|apply El; congruence].
  - eapply pre_sim; eauto.
  - eapply poll_self_sim; eauto.
  - eapply poll_msg_sim; eauto.
  - eapply vote_req_sim; eauto.
  - eapply grant_sim; eauto.
  - eapply lead_sim; eauto.
  - eapply prop_sim; eauto.
  - eapply ack_sim; eauto.
  - eapply commit_sim; eauto.
  - eapply comack_sim; eauto.
  - eapply appok_sim; eauto.
  - eapply beat_sim; eauto.
  - eapply snapfast_sim; eauto.
  - eapply snapinstall_sim; eauto.
Qed.

(** A state reachable by protocol steps from the durable one. *)
Definition running (id : N) (F : list fact) (s : anode) (r : raft) : Prop := simulated cs id F s r.

Lemma qprs_sim g F id (Q : msg -> Prop) r r' : gi g F -> id <> 0 -> (forall im, Q im -> in_msg cs F id im) ->
  qprs Q r r' -> ninv r -> tok r -> elig r -> running id F (g id) r -> running id F (g id) r'.
Proof.
  intros G Hid HQ H. induction H as [|im a b c Hq Hp H IH]; auto. intros Hn Tk El (s & O & S1 & S2 & S3).
  pose proof (lsteps_ginv _ (vquorum_meet cs cs_ne) (vmember cs) t0 [] _ _ _ S1 g G eq_refl) as G'. cbn [fst snd] in G'.
  pose proof (HQ _ Hq) as Him.
  pose proof (in_msg_mono cs F (O ++ F) id im (incl_appr0 _ _) Him) as Him'.
  destruct (prim_sim (upd g id s) (O ++ F) id im a b G' Hid) as (s' & O' & T1 & T2 & T3); auto; [rewrite upd_same; auto|].
  rewrite upd_same in T1. apply IH.
  - eapply prim_log; eauto. eapply in_msg_log; eauto.
  - eapply tok_prim; eauto.
  - eapply prim_elig; eauto.
  - exists s', (O' ++ O). rewrite <- app_assoc. split; auto. eapply lsteps_trans; eauto.
Qed.

Record nodeinv (id : N) (F : list fact) (s : anode) (n : rawnode) : Prop := {
  nv_id : id <> 0;
  nv_d : dinv n;
  nv_hs : rn_prev_hard n = mkHardState (an_term s) (an_vote s) (an_com s);
  nv_log : logrel (ms_abs (node_storage n)) (an_log s);
  nv_snap : snap_ok cs (an_log s) (an_com s) (ms_snap (node_storage n));
  nv_vote : an_vote s <> 0 -> exists L, In (FVote (an_term s) id (an_vote s) L) F;
  nv_run : running id F s (rn_raft n)
}.
Lemma running_mono id F G s r : incl F G -> running id F s r -> running id G s r.
Proof.
  intros Hi (s' & O & S1 & S2 & S3). destruct (lsteps_mono _ _ _ _ _ _ _ G S1 Hi) as (O' & E1 & E2).
  apply app_inv_tail in E1. subst O'. exists s', O.
  assert (Hi' : incl (O ++ F) (O ++ G)) by (intros x Hx; apply in_app_or in Hx; apply in_or_app; destruct Hx; auto).
  split; auto. split; [eapply vrel_mono; eauto|]. eapply msgs_ok_mono; eauto.
Qed.
Lemma nodeinv_mono id F G s n : incl F G -> nodeinv id F s n -> nodeinv id G s n.
Proof.
  intros Hi []. constructor; auto.
  - intros H. destruct (nv_vote0 H) as [L HL]. eauto.
  - eapply running_mono; eauto.
Qed.

(** Calls that only make Raft handle messages. *)
Lemma plain_node g F id o n n' out : gi g F -> nodeinv id F (g id) n -> plain o -> nop_ok o n -> (forall cc, o <> NApplyCC cc) ->
  (forall im, call_msg (r_id (rn_raft n)) o im -> in_msg cs F id im) ->
  tok (rn_raft n) -> elig (rn_raft n) ->
  n_step o n = Ok (n', out) -> nodeinv id F (g id) n' /\ o_ready out = None.
Proof.
  intros G [I1 D I2 I3 I4 I5 I6] Hp Hok Hcc Hin Tk El H.
  destruct (n_step_nprs o n n' out Hp Hok H) as (A1 & A2 & A3 & A4). split; auto.
  destruct (nprs_ninv _ _ A1 (di_ninv _ D)) as [_ [_ _ B _ _ _ _ _]].
  assert (Est : node_storage n' = node_storage n) by (unfold node_storage; auto).
  constructor; auto; try (rewrite ?Est, ?A2; auto; fail).
  - eapply n_step_dinv; eauto.
  - destruct (n_step_qprs o n n' out Hp (proj1 Hok) H) as (r0 & [->|(cc & _ & _ & _ & X & _)] & Hq); [|exfalso; eapply Hcc; eauto].
    eapply qprs_sim; eauto. apply (di_ninv _ D).
Qed.

(** A leader's log is not empty. *)
Definition leadne (s : anode) : Prop := an_role s = ALead -> an_log s <> [].
Lemma lsteps_leadne q w n a b : lsteps q w n a b -> leadne (fst a) -> leadne (fst b).
Proof.
  induction 1 as [|a b c H Hs IH]; auto. intros R. apply IH. clear IH Hs. unfold leadne in *.
  destruct H; cbn [fst an_role an_log] in *; auto; try discriminate; intros HX Hn.
  - apply app_eq_nil in Hn. destruct Hn. discriminate.
  - apply app_eq_nil in Hn. destruct Hn. apply R; auto.
Qed.
Lemma switch_vrel id F s r cp b op : vrel cs id F s r -> lwf0 (r_log r) -> leadne s -> cc_call op (mkChanger (r_trk r) (r_last r)) = Ok (SOk cp) ->
  Permutation (tc_incoming (t_config (r_trk r))) (tc_incoming (fst cp)) -> Permutation (tc_outgoing (t_config (r_trk r))) (tc_outgoing (fst cp)) ->
  vrel cs id F s (switched_to cp b r).
Proof.
  intros [] Hw Hne Ho P1 P2. apply call_ev in Ho. cbn [ch_trk ch_last] in Ho. constructor; auto.
  - destruct v_conf. split; eapply Permutation_trans; eauto.
  - intros Hl v p Hp. destruct (Ho v p Hp) as [(q & x & Q1 & ->)|[x ->]]; [|left; reflexivity]. exact (v_match Hl v q Q1).
  - intros Hl v p Hp. destruct (Ho v p Hp) as [(q & x & Q1 & ->)|[x ->]]; [exact (v_next Hl v q Q1)|].
    assert (H1 : 1 <= r_last r).
    { unfold r_last. rewrite log_last_abs, (lr_last _ _ v_log) by auto. specialize (Hne ltac:(rewrite v_role; change (r_state r = RLeader) in Hl; rewrite Hl; reflexivity)).
      destruct (an_log s); [congruence|]. rewrite nlen_cons. lia. }
    change (r_last (switched_to cp b r)) with (r_last r). unfold nx. cbn [new_progress p_match p_next p_pending]. lia.
Qed.
Lemma apply_node g F id cc n n' out : gi g F -> nodeinv id F (g id) n -> leadne (g id) -> voters_kept (NApplyCC cc) n ->
  tok (rn_raft n) -> elig (rn_raft n) ->
  n_step (NApplyCC cc) n = Ok (n', out) -> nodeinv id F (g id) n' /\ o_ready out = None.
Proof.
  intros G [I1 D I2 I3 I4 I5 I6] Hne Hk Tk El H.
  destruct (n_step_nprs (NApplyCC cc) n n' out Logic.I (conj Logic.I Logic.I) H) as (A1 & A2 & A3 & A4). split; auto.
  destruct (nprs_ninv _ _ A1 (di_ninv _ D)) as [_ [_ _ B _ _ _ _ _]].
  assert (Est : node_storage n' = node_storage n) by (unfold node_storage; auto).
  destruct (apply_kept _ _ _ _ H Hk Tk) as (cp & b & op & H1 & H2 & H3 & _ & P1 & P2 & T0 & _).
  constructor; auto; try (rewrite ?Est, ?A2; auto; fail).
  - eapply n_step_dinv; eauto. split; exact Logic.I.
  - destruct I6 as (s & O & S1 & S2 & S3). pose proof (lsteps_leadne _ _ _ _ _ S1 Hne) as Hns. cbn [fst] in Hns.
    eapply (qprs_sim g F id); [exact G|exact I1| |exact H2| |exact T0| |].
    + intros im ->. right. auto.
    + apply (ninv_same (rn_raft n)); auto. apply D.
    + intros X. specialize (El X). unfold voter_of in *. cbn. destruct El as [K|K]; [left|right]; eapply Permutation_in; eauto.
    + exists s, O. split; [exact S1|]. split; [|exact S3]. eapply switch_vrel; eauto. apply lwf_0, (li_wf _ (ni_log _ (di_ninv _ D))).
Qed.

(** Compaction and snapshot creation. *)
Lemma running_com g F id s O r : gi g F -> steps id (g id, F) (s, O ++ F) -> vrel cs id (O ++ F) s r ->
  an_com (g id) <= l_committed (r_log r) -> forall i, i <= an_com (g id) -> ntake i (an_log s) = ntake i (an_log (g id)).
Proof.
  intros G S V Hc. eapply (com_keep cs cs_ne t0 g F id s); eauto; [apply incl_appr0|]. rewrite (v_com _ _ _ _ _ V). auto.
Qed.
Lemma vrel_storage id F s r l : vrel cs id F s r -> logrel (log_abs l) (an_log s) ->
  l_committed l = l_committed (r_log r) -> (forall sn, u_snap (l_us l) = Some sn -> same_voters cs (sn_conf sn)) -> log_last l = log_last (r_log r) ->
  snap_ok cs (an_log s) (an_com s) (ms_snap (l_st l)) -> vrel cs id F s (set_r_log l r).
Proof.
  intros [] H1 H2 H3 H4 H5. constructor; cbn; auto.
  - congruence.
  - intros Hl v p Hp. specialize (v_next Hl v p Hp). unfold r_last in *. cbn. rewrite H4. auto.
Qed.

Lemma dinv_com n : dinv n -> l_applied (r_log (rn_raft n)) <= hs_commit (rn_prev_hard n) /\ hs_commit (rn_prev_hard n) <= l_committed (r_log (rn_raft n)).
Proof. intros []; auto. Qed.

Lemma compact_node g F id i n n' out : gi g F -> nodeinv id F (g id) n -> i <= l_applied (r_log (rn_raft n)) ->
  n_step (NCompact i) n = Ok (n', out) -> nodeinv id F (g id) n' /\ o_ready out = None.
Proof.
  intros G [I1 D I2 I3 I4 I5 I6] Hi H. cbn [n_step] in H. apply bind_ok in H. destruct H as ([s e] & H1 & H2). inv H2. split; auto.
  pose proof (compact_dinv i n s e D Hi H1) as D'.
  pose proof (di_ninv _ D) as [N1 _ _]. pose proof (di_ninv _ D') as [N1' _ _].
  pose proof (di_st _ D) as D2. apply storage_ok_abs in D2. destruct D2 as (S1 & _).
  pose proof (ms_compact_abs (node_storage n) i S1) as HC.
  destruct (N.leb_spec i (a_base (ms_abs (node_storage n)))) as [Hle|Hgt].
  { rewrite HC in H1. inv H1. replace (set_storage (node_storage n) n) with n by (unfold set_storage, node_storage; destruct n as [[] ? ? ?]; cbn; destruct r_log; auto).
    constructor; auto. }
  destruct (N.ltb_spec (a_last (ms_abs (node_storage n))) i); [destruct HC as [w HC]; congruence|].
  destruct HC as (s' & t & C1 & C2 & C3 & C4 & C5 & C6). rewrite C1 in H1. inv H1.
  constructor; auto.
  - change (node_storage (set_storage s n)) with s. rewrite C6. apply lr_compact; auto. lia.
  - change (node_storage (set_storage s n)) with s. rewrite C4. auto.
  - destruct I6 as (sx & O & R1 & R2 & R3). exists sx, O. split; auto. split; [|exact R3].
    change (rn_raft (set_storage s n)) with (set_r_log (set_l_st s (r_log (rn_raft n))) (rn_raft n)).
    change (li_wf (r_log (rn_raft (set_storage s n)))) with (li_wf (set_l_st s (r_log (rn_raft n)))) in N1'.
    assert (LR : logrel (log_abs (set_l_st s (r_log (rn_raft n)))) (an_log sx)).
    { destruct (u_snap (l_us (r_log (rn_raft n)))) as [us|] eqn:Eu.
      - pose proof (v_log _ _ _ _ _ R2) as X. unfold log_abs in *. cbn. rewrite Eu in *. exact X.
      - destruct (log_compact_ok i (r_log (rn_raft n)) N1 Eu Hi) as [_ K2].
        assert (Hb : a_base (log_abs (r_log (rn_raft n))) = a_base (ms_abs (node_storage n))) by (unfold log_abs; rewrite Eu; auto).
        destruct K2 as (st' & t' & K2 & K3 & K4 & _ & _ & K5); [lia|]. unfold node_storage in C1. rewrite C1 in K2. inv K2.
        rewrite K5. apply lr_compact; auto; [apply R2|lia]. }
    apply vrel_storage; auto.
    + apply (v_usnap _ _ _ _ _ R2).
    + pose proof (lwf_0 _ (li_wf _ N1)). pose proof (lwf_0 _ (li_wf _ N1')) as W'. cbn [set_storage set_rn_raft rn_raft r_log set_r_log] in W'.
      rewrite !log_last_abs by auto. rewrite (lr_last _ _ LR), (lr_last _ _ (v_log _ _ _ _ _ R2)). auto.
    + cbn. unfold node_storage in C4. rewrite C4. apply (v_ssnap _ _ _ _ _ R2).
Qed.

Lemma snapshot_node g F id i c d n n' out : gi g F -> nodeinv id F (g id) n -> i <= l_applied (r_log (rn_raft n)) ->
  match c with Some cs' => same_voters cs cs' | None => True end ->
  n_step (NCreateSnapshot i c d) n = Ok (n', out) -> nodeinv id F (g id) n' /\ o_ready out = None.
Proof.
  intros G [I1 D I2 I3 I4 I5 I6] Hi Hcs H. cbn [n_step] in H. apply bind_ok in H. destruct H as ([s e] & H1 & H2). inv H2. split; auto.
  pose proof (snapshot_dinv i c d n s e D Hi H1) as D'.
  assert (Hs : s = node_storage n \/ exists sn, s = set_ms_snap sn (node_storage n) /\ sn_index sn = i /\
     a_term (ms_abs (node_storage n)) i = Some (sn_term sn) /\ same_voters cs (sn_conf sn)).
  { unfold ms_create_snapshot in H1. destruct (_ <=? _); [inv H1; auto|]. destruct (_ <? i); [discriminate|].
    destruct (N.ltb_spec i (e_index (ms_dummy (node_storage n)))); [discriminate|]. destruct (nnth _ _) as [x|] eqn:Hx; [|discriminate].
    inv H1. right. eexists; split; [reflexivity|]. cbn [sn_index sn_term sn_conf]. split; auto. split.
    - unfold a_term, a_entry. cbn [ms_abs a_base a_bterm a_ents]. unfold ms_ents in Hx.
      destruct (N.eqb_spec i (e_index (ms_dummy (node_storage n)))) as [->|Hne].
      + rewrite N.sub_diag, nnth_cons0 in Hx. inv Hx. auto.
      + destruct (N.ltb_spec (e_index (ms_dummy (node_storage n))) i); [|lia]. rewrite nnth_consS in Hx by lia.
        rewrite Hx. auto.
    - destruct c; auto. apply I4. }
  destruct Hs as [-> |(sn & -> & Hs1 & Hs2 & Hs3)].
  { replace (set_storage (node_storage n) n) with n in * by (unfold set_storage, node_storage; destruct n as [[] ? ? ?]; cbn; destruct r_log; auto).
    constructor; auto. }
  destruct (dinv_com _ D) as [Ha Hc]. rewrite I2 in Ha, Hc. cbn [hs_commit] in Ha, Hc.
  destruct (lr_term _ _ _ _ I3 Hs2) as [Hr Ht].
  assert (Hok : snap_ok cs (an_log (g id)) (an_com (g id)) sn) by (split; [lia|]; split; auto; rewrite Hs1; auto).
  constructor; auto.
  destruct I6 as (sx & O & R1 & R2 & R3). exists sx, O. split; auto. split; [|exact R3].
  change (rn_raft (set_storage (set_ms_snap sn (node_storage n)) n)) with (set_r_log (set_l_st (set_ms_snap sn (node_storage n)) (r_log (rn_raft n))) (rn_raft n)).
  apply vrel_storage; auto; try apply R2.
  - cbn. split; [rewrite (v_com _ _ _ _ _ R2); lia|]. split; auto.
    rewrite (running_com g F id sx O (rn_raft n) G R1 R2) by lia. rewrite Hs1. auto.
Qed.

(** A node created on a storage. *)
Lemma new_node F id a c tape st n' : id <> 0 -> storage_ok st -> c_id c = id -> c_storage c = Some st ->
  restart_hs st = mkHardState (an_term a) (an_vote a) (an_com a) -> logrel (ms_abs st) (an_log a) ->
  snap_ok cs (an_log a) (an_com a) (ms_snap st) -> (an_vote a <> 0 -> exists L, In (FVote (an_term a) id (an_vote a) L) F) ->
  rn_new c tape = Ok n' -> nodeinv id F a n'.
Proof.
  intros I1 Hok Hcid Hst Hhs I3 I4 I5 H.
  destruct (dinv_new c st tape n' Hst Hok H) as (D' & L1 & L2).
  pose proof (di_hs _ D') as Hh. rewrite L2, Hhs in Hh.
  constructor; auto; [rewrite L2; auto|rewrite L2; auto|].
  apply rn_new_spec in H. destruct H as (r & Hr & ->). cbn [rn_raft rn_prev_hard] in *.
  apply raft_new_spec in Hr. destruct Hr as (s' & cp & _ & Hs' & Hc1 & Hc2 & Hcom & Happ & Fr).
  assert (s' = st) by congruence. subst s'.
  unfold hard_state in Hh. injection Hh as Q1 Q2 Q3.
  assert (Hl : l_st (r_log r) = st /\ l_us (r_log r) = l_us (new_log st (max_committed_of c))).
  { rewrite (fr_log _ _ _ _ Fr). auto. }
  destruct Hl as [Hl1 Hl2].
  exists (mkA (an_term a) (an_vote a) (an_log a) (an_com a) AFollow), []. cbn [app].
  split; [apply lsteps_one; apply LDown|]. split; [|rewrite (fr_msgs _ _ _ _ Fr); constructor].
  pose proof (fr_state _ _ _ _ Fr) as Fs.
  constructor; cbn [an_term an_vote an_log an_com an_role]; auto.
  - unfold r_id. rewrite (fr_cfg _ _ _ _ Fr). auto.
  - rewrite Fs. auto.
  - rewrite L1. auto.
  - rewrite (fr_tconf _ _ _ _ Fr). apply C24_confstate_eq in Hc2. destruct Hc2 as (P1 & _ & P2 & _). cbn in P1, P2.
    destruct I4 as (_ & _ & [Y1 Y2]). split; eapply Permutation_trans; eauto.
  - rewrite Q1, Q2. auto.
  - rewrite Fs. discriminate.
  - rewrite Fs. discriminate.
  - rewrite Fs. discriminate.
  - rewrite Hl2. cbn. discriminate.
  - rewrite Hl1. auto.
Qed.

(** A restart from the storage. *)
Lemma restart_node F id a c tape n n' : nodeinv id F a n -> c_id c = id -> c_storage c = Some (node_storage n) ->
  rn_new c tape = Ok n' -> nodeinv id F a n'.
Proof.
  intros [I1 D I2 I3 I4 I5 I6] Hcid Hst H. pose proof (di_st _ D) as Hok.
  eapply new_node; eauto. rewrite <- (di_hs _ D). auto.
Qed.

(** Handling a Ready: everything done so far becomes durable and visible. *)
Lemma handle_node g F id n n' out : gi g F -> nodeinv id F (g id) n -> n_step NHandle n = Ok (n', out) ->
  exists s O, steps id (g id, F) (s, O ++ F) /\ gi (upd g id s) (O ++ F) /\ nodeinv id (O ++ F) s n' /\ an_term (g id) <= an_term s /\
    Forall (msg_ok cs (O ++ F)) (out_msgs out) /\
    (forall x e, In (x, e) (out_ents id out) -> x = id /\ exists t C, In (FCom t C) (O ++ F) /\ t <= an_term s /\ 0 < e_index e /\ nnth C (e_index e - 1) = Some e).
Proof.
  intros G [I1 D I2 I3 I4 I5 (s & O & R1 & R2 & R3)] H. cbn [n_step] in H. apply bind_ok in H. destruct H as ([n2 rd] & H1 & H2). inv H2.
  destruct (handle_dinv _ _ _ D H1) as [D' HS]. pose proof (di_ninv _ D) as [N1 N2 N3].
  pose proof (handle_inv n n' rd N1 (fun h => N3 (or_introl h)) H1) as [R HP HSo HNo HA HR]. cbv zeta in HR.
  destruct HR as (st & u & rb & r1 & Hps & Hrb & Hr1 & Hrn & Hwb & Hab & Hwn & Han & Hru).
  pose proof (lsteps_ginv _ (vquorum_meet cs cs_ne) (vmember cs) t0 [] _ _ _ R1 g G eq_refl) as G'. cbn [fst snd] in G'.
  exists s, O. split; auto. split; auto.
  assert (Hw : lwf0 (r_log (rn_raft n))) by (apply lwf_0, (li_wf _ N1)).
  assert (Hsnap : snap_ok cs (an_log s) (an_com s) (ms_snap st)).
  { rewrite (ps_snap _ _ _ Hps). destruct (u_snap (l_us (r_log (rn_raft n)))) as [us|] eqn:Eu; [|apply R2].
    pose proof (lwf_com _ (li_wf _ N1)) as Cb. pose proof (v_log _ _ _ _ _ R2) as [Z1 Z2 Z3]. unfold log_abs in Cb, Z3.
    rewrite Eu in Cb, Z3. cbn in Cb, Z3. split; [rewrite (v_com _ _ _ _ _ R2); lia|]. split; auto. apply (v_usnap _ _ _ _ _ R2). auto. }
  (* the state before the automatic proposal *)
  assert (Vb : vrel cs id (O ++ F) s rb).
  { rewrite Hrb. apply (vrel_storage id (O ++ F) s (set_r_uncommitted u (set_r_msgs [] (set_r_read_states [] (rn_raft n))))).
    - apply (vrel_same cs id (O ++ F) s (rn_raft n)); auto; eauto.
    - rewrite Hrb in Hab. cbn [r_log set_r_log] in Hab. rewrite Hab. apply R2.
    - reflexivity.
    - apply (v_usnap _ _ _ _ _ R2).
    - rewrite Hrb in Hab, Hwb. cbn [r_log set_r_log] in Hab, Hwb. cbn [r_log set_r_uncommitted set_r_msgs set_r_read_states].
      rewrite !log_last_abs by auto using lwf_0. rewrite Hab. auto.
    - exact Hsnap. }
  assert (Hst : node_storage n' = st).
  { unfold node_storage. rewrite Hrn. cbn [r_log set_r_log l_st set_l_us]. destruct Hr1 as [[-> _]|(Hl & r0 & Ha & -> & Hpc & _)]; [rewrite Hrb; auto|].
    assert (Hp : 0 < r_term rb) by (rewrite Hrb; apply N3; auto).
    destruct (append_log_w _ _ _ Hwb Hp Ha) as (_ & _ & A3 & _). cbv zeta in A3. cbn [r_log set_r_pending_conf]. rewrite A3, Hrb. auto. }
  assert (Hrest : nodeinv id (O ++ F) s n').
  { constructor; auto.
    - rewrite (hs_prev _ _ _ HS). unfold hard_state. rewrite (v_term _ _ _ _ _ R2), (v_vote _ _ _ _ _ R2), (v_com _ _ _ _ _ R2). auto.
    - rewrite Hst, (ps_abs _ _ _ Hps). apply R2.
    - rewrite Hst. auto.
    - rewrite (v_term _ _ _ _ _ R2), (v_vote _ _ _ _ _ R2). apply (v_fvote _ _ _ _ _ R2).
    - assert (X : running id (O ++ F) s r1).
      { destruct Hr1 as [[-> _]|(Hl & r0 & Ha & -> & Hpc & _)].
        - apply sim_none; auto. rewrite Hrb. constructor.
        - assert (Hlb : r_state rb = RLeader) by (rewrite Hrb; auto).
          assert (Hp : 0 < r_term rb) by (rewrite Hrb; apply N3; auto).
          destruct (append_log_w _ _ _ Hwb Hp Ha) as (A1&A2&A3&pr1&pr2&u2&mci&D1&D2&D3&D4&D5&D6&D7&D8&D9). cbv zeta in *.
          destruct (append_entry_fields _ _ _ Ha) as (lx & px & ux & Ef).
          assert (Hfl : r_cfg r0 = r_cfg rb /\ r_term r0 = r_term rb /\ r_vote r0 = r_vote rb /\ r_state r0 = RLeader /\ r_msgs r0 = r_msgs rb /\
             t_config (r_trk r0) = t_config (r_trk rb)) by (rewrite Ef; auto 10). clear Ef.
          destruct Hfl as (F1 & F2 & F3 & F4 & F5 & F6).
          assert (X : simulated cs id (O ++ F) (upd g id s id) (set_r_pending_conf (r_last r0) r0)); [|rewrite upd_same in X; exact X].
          assert (Vb' : vrel cs id (O ++ F) (upd g id s id) rb) by (rewrite upd_same; auto).
          assert (MSb : Forall (msg_ok cs (O ++ F)) (r_msgs rb)) by (rewrite Hrb; constructor).
          rewrite (lr_last _ _ (v_log _ _ _ _ _ Vb')) in *.
          eapply (append_sim cs t0 (upd g id s) (O ++ F) id G' I1 rb Vb' MSb [auto_leave_entry] (r_trk rb) pr1 pr2 u2 mci);
            cbn [r_cfg r_term r_vote r_state r_msgs r_trk r_log set_r_pending_conf]; auto using lwf_0.
          + pose proof (v_term _ _ _ _ _ Vb') as Et. rewrite <- Et. apply (LProp (vquorum cs) (vmember cs) id (upd g id s id) (O ++ F)).
            * rewrite (v_role _ _ _ _ _ Vb'), Hlb. auto.
            * intros e He. rewrite Et in *. eapply stamp_term; eauto.
          + rewrite A3. reflexivity.
          + rewrite A3. reflexivity.
          + intros v p Hv. split; [apply (v_next _ _ _ _ _ Vb' Hlb v); auto|]. intros _. apply (v_match _ _ _ _ _ Vb' Hlb); auto. }
      destruct X as (s2 & O2 & T1 & T2 & T3). exists s2, O2. split; auto.
      assert (Hw1 : lwf0 (r_log r1)).
      { destruct Hr1 as [[-> _]|(Hl & r0 & Ha & -> & Hpc & _)]; [auto using lwf_0|]. assert (Hp : 0 < r_term rb) by (rewrite Hrb; apply N3; auto).
        destruct (append_log_w _ _ _ Hwb Hp Ha) as (A1 & _). apply lwf_0. exact A1. }
      rewrite Hrn in Hwn, Han. cbn [r_log set_r_log] in Hwn, Han. rewrite Hrn. split; [|exact T3].
      apply vrel_storage; auto.
      + rewrite Han. apply T2.
      + cbn. discriminate.
      + rewrite !log_last_abs by auto using lwf_0. rewrite Han. auto.
      + apply (v_ssnap _ _ _ _ _ T2). }
  split; auto.
  assert (Hterm : an_term (g id) <= an_term s).
  { rewrite (v_term _ _ _ _ _ R2). pose proof (di_fwd _ D) as Hf. rewrite I2 in Hf. unfold hs_forward in Hf. cbn in Hf. lia. }
  split; auto. split.
  - unfold out_msgs. cbn. rewrite (ro_msgs _ _ R). auto.
  - unfold out_ents. cbn. intros x e Hin. apply in_map_iff in Hin. destruct Hin as (e' & Hx & Hin). apply pair_equal_spec in Hx. destruct Hx as [<- ->]. split; auto.
    rewrite (hs_next _ _ _ HS) in Hin. unfold next_of in Hin. cbv zeta in Hin. destruct (_ <? _) eqn:Hlt; [|destruct Hin].
    match type of Hin with In _ (limit_size ?l ?m) => rewrite (limit_take l m) in Hin; set (k := nlen (limit_size l m)) in Hin; clearbody k end.
    apply In_nnth in Hin. destruct Hin as [j Hj]. rewrite nnth_ntake' in Hj. destruct (_ <? k); [|discriminate].
    unfold a_slice in Hj. rewrite nnth_ntake', nnth_ndrop in Hj. set (a := log_abs (r_log (rn_raft n))) in *.
    set (lo := N.max (l_applied (r_log (rn_raft n)) + 1) (a_first a)) in *. destruct (N.ltb_spec j (l_committed (r_log (rn_raft n)) + 1 - lo)); [|discriminate].
    pose proof (log_abs_wf _ Hw _ _ Hj) as Hix. fold a in Hix.
    assert (Hlo : a_base a + 1 <= lo) by (unfold lo, a_first; lia).
    pose proof (gi_com _ _ _ _ G' id) as B. rewrite upd_same in B. destruct B as (B1 & t & C & B2 & B3 & B4).
    exists t, C. split; auto. split; auto. split; [lia|].
    apply (pre_nnth _ _ _ _ B4). rewrite nnth_ntake', (v_com _ _ _ _ _ R2). destruct (N.ltb_spec (e_index e - 1) (l_committed (r_log (rn_raft n)))); [|lia].
    pose proof (v_log _ _ _ _ _ R2) as [_ Z2 _]. fold a in Z2. rewrite Z2, nnth_ndrop in Hj. rewrite <- Hj. f_equal. lia.
Qed.
End RNode.
