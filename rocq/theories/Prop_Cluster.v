(** C52-C55: safety of a cluster of nodes running this code. *)
From Coq Require Import Permutation.
From Verif Require Import Prelude Types M_Util M_Quorum M_Inflights M_Progress M_Tracker.
From Verif Require Import M_Storage M_Unstable M_Log M_ReadOnly M_ConfPb M_ConfChange M_Raft M_RawNode.
From Verif Require Import Spec_RaftLog Spec_ConfChange Spec_Quorum P_Quorum P_Inflights Spec_Log P_Lists P_Storage P_Log P_RaftLogSeq Sys_Node Spec_Node P_NodeLog P_NodeRun A_Proto Sys_Cluster R_Log R_Sim R_Elig P_Conf R_Node R_Cluster Prop_Deliver Spec_Cluster Ex_Env Ex_Cluster.

Section Cluster.
Context {E : Env}.
Variable cs : confstate.
Hypothesis cs_ne : cs_voters cs <> [].
Variable t0 : N.
Notation gi := (ginv (vquorum cs) t0).

Lemma publish1 g F cl a na : cinv cs t0 g F cl -> runs cl a na ->
  exists s O, lsteps (vquorum cs) (vmember cs) a (g a, F) (s, O ++ F) /\ gi (upd g a s) (O ++ F) /\ vrel cs a (O ++ F) s (rn_raft na) /\ dinv na.
Proof.
  intros I H. destruct (ci_node _ _ _ _ _ I _ _ H) as [I1 D I2 I3 I4 I5 (s & O & R1 & R2 & R3)].
  exists s, O. split; auto. split; auto.
  exact (lsteps_ginv _ (vquorum_meet cs cs_ne) (vmember cs) t0 [] _ _ _ R1 g (ci_g _ _ _ _ _ I) eq_refl).
Qed.
Lemma publish2 g F cl a na b nb : cinv cs t0 g F cl -> runs cl a na -> runs cl b nb -> a <> b ->
  exists sa sb F2, gi (upd (upd g a sa) b sb) F2 /\ vrel cs a F2 sa (rn_raft na) /\ vrel cs b F2 sb (rn_raft nb) /\ dinv na /\ dinv nb.
Proof.
  intros I Ha Hb Hne. destruct (publish1 _ _ _ _ _ I Ha) as (sa & Oa & A1 & A2 & A3 & A4).
  destruct (publish1 _ _ _ _ _ I Hb) as (sb & Ob & B1 & _ & B3 & B4).
  destruct (lsteps_mono _ _ _ _ _ _ _ (Oa ++ F) B1 (incl_appr0 _ _)) as (O & E1 & E2). apply app_inv_tail in E1. subst O.
  exists sa, sb, (Ob ++ Oa ++ F).
  assert (Eb : (g b, Oa ++ F) = (upd g a sa b, Oa ++ F)) by (rewrite upd_other; auto). rewrite Eb in E2.
  pose proof (lsteps_ginv _ (vquorum_meet cs cs_ne) (vmember cs) t0 [] _ _ _ E2 (upd g a sa) A2 eq_refl) as G. cbn [fst snd] in G.
  split; auto. split; [eapply vrel_mono; [|exact A3]; apply incl_appr0|]. split; auto.
  eapply vrel_mono; [|exact B3]. intros x Hx. apply in_app_or in Hx. rewrite !in_app_iff. tauto.
Qed.

Lemma role_state (n : rawnode) : node_role n = r_state (rn_raft n). Proof. reflexivity. Qed.
Lemma term_eq (n : rawnode) : node_term n = r_term (rn_raft n). Proof. reflexivity. Qed.

(** Alone a quorum: the only voter. *)
Lemma alone_quorum a x : NoDup (cs_voters cs) -> NoDup (cs_outgoing cs) -> vquorum cs [a] -> In x (cs_voters cs ++ cs_outgoing cs) -> x = a.
Proof.
  assert (Hone : forall l, NoDup l -> majority l (vin [a]) -> In x l -> x = a).
  { intros l Hd [->|Hm] Hin; [destruct Hin|].
    assert (Hc : count (vin [a]) l <= 1).
    { clear Hin Hm. induction l as [|y l IH]; [rewrite count_nil; lia|]. rewrite count_cons. inversion Hd; subst.
      destruct (vin [a] y) eqn:Hy; [|specialize (IH H2); rewrite N.add_0_l; exact IH]. apply vin_In in Hy. destruct Hy as [<-|[]].
      assert (Hz : count (vin [a]) l = 0).
      { clear -H1. induction l as [|z l IH]; auto. rewrite count_cons. destruct (vin [a] z) eqn:Hz; [|rewrite IH; auto; intros X; apply H1; right; auto].
        apply vin_In in Hz. destruct Hz as [<-|[]]. exfalso. apply H1. left; auto. }
      lia. }
    destruct l as [|y [|z l]]; [destruct Hin| |exfalso; rewrite !nlen_cons in Hm; lia].
    destruct Hin as [<-|[]]. rewrite count_cons in Hm. change (nlen [y]) with 1 in Hm. destruct (vin [a] y) eqn:Hy; [|rewrite count_nil in Hm; lia].
    apply vin_In in Hy. destruct Hy as [<-|[]]. auto. }
  intros D1 D2 [M1 M2] Hin. apply in_app_or in Hin. destruct Hin; eauto.
Qed.
Lemma lead_votes g F cl a n : cinv cs t0 g F cl -> runs cl a n -> node_role n = RLeader ->
  exists s O Lc S, gi (upd g a s) (O ++ F) /\ an_term s = node_term n /\ lsteps (vquorum cs) (vmember cs) a (g a, F) (s, O ++ F) /\
    In (FReq (node_term n) a Lc) (O ++ F) /\ vquorum cs S /\ forall v, In v S -> exists L, In (FVote (node_term n) v a L) (O ++ F).
Proof.
  intros I H Hl. destruct (publish1 _ _ _ _ _ I H) as (s & O & A1 & A2 & A3 & A4).
  destruct (gi_top _ _ _ _ A2 a) as (T1 & T2 & T3).
  { rewrite upd_same, (v_role _ _ _ _ _ A3), <- role_state, Hl. auto. }
  rewrite upd_same, (v_term _ _ _ _ _ A3), <- term_eq in *.
  destruct (gi_lead _ _ _ _ A2 _ _ _ T2) as (_ & _ & _ & [[X _]|(_ & _ & Lc & S & B1 & B2 & B3 & B4)]); [lia|].
  exists s, O, Lc, S. repeat (split; auto). { apply (v_term _ _ _ _ _ A3). }
  intros v Hv. destruct (B4 v Hv) as (Lv & C1 & _). eauto.
Qed.

(** Elections at different times. *)
Lemma election g F cl g' F' cl' a na b nb : cinv cs t0 g F cl -> cinv cs t0 g' F' cl' -> grows g F g' F' ->
  runs cl a na -> node_role na = RLeader -> runs cl' b nb -> node_role nb = RLeader -> node_term na = node_term nb -> a = b.
Proof.
  intros I I' [Hi _] Ha La Hb Lb Et.
  destruct (lead_votes _ _ _ _ _ I Ha La) as (sa & Oa & Lc & S & A1 & A2 & A3 & A4 & A5 & A6).
  destruct (lead_votes _ _ _ _ _ I' Hb Lb) as (sb & Ob & Lb' & S' & B1 & B2 & B3 & B4 & B5 & B6).
  destruct (publish1 _ _ _ _ _ I Ha) as (xsa & xOa & _ & _ & Va & _). pose proof (v_conf _ _ _ _ _ Va) as [Pa1 Pa2]. pose proof (v_id _ _ _ _ _ Va) as Ida.
  destruct (publish1 _ _ _ _ _ I' Hb) as (xsb & xOb & _ & _ & Vb & _). pose proof (v_conf _ _ _ _ _ Vb) as [Pb1 Pb2]. pose proof (v_id _ _ _ _ _ Vb) as Idb.
  destruct (ci_el _ _ _ _ _ I _ _ Ha) as [Ta Ka]. destruct (ci_el _ _ _ _ _ I' _ _ Hb) as [Tb Kb].
  destruct (existsb (fun v => negb (v =? a)) S) eqn:Hex.
  - (* somebody else voted for [a]: the votes were published *)
    apply existsb_exists in Hex. destruct Hex as (v & Hv & Hva). apply negb_true_iff, N.eqb_neq in Hva.
    destruct (A6 v Hv) as (L & HL). pose proof (lsteps_votes _ _ _ _ _ _ _ _ _ A3 Hva HL) as HF. cbn [snd] in HF.
    destruct (gi_vote _ _ _ _ (ci_g _ _ _ _ _ I) _ _ _ _ HF) as (_ & _ & _ & _ & _ & Lq & Hq & _).
    pose proof (ci_req _ _ _ _ _ I _ _ _ Hq) as Hself.
    destruct (vquorum_meet cs cs_ne _ _ A5 B5) as (w & W1 & W2). destruct (B6 w W2) as (L2 & HL2).
    assert (Hw : exists L1, In (FVote (node_term na) w a L1) (Ob ++ F')).
    { destruct (N.eq_dec w a) as [->|Hne]; [exists Lq; apply in_or_app; right; auto|].
      destruct (A6 w W1) as (L1 & HL1). exists L1. apply in_or_app. right. apply Hi. exact (lsteps_votes _ _ _ _ _ _ _ _ _ A3 Hne HL1). }
    destruct Hw as (L1 & HL1). rewrite Et in HL1. exact (gi_vote1 _ _ _ _ B1 _ _ _ _ _ _ HL1 HL2).
  - (* [a] elected itself alone *)
    assert (Hall : forall v, In v S -> v = a).
    { intros v Hv. destruct (N.eq_dec v a) as [|Hne]; auto. exfalso. assert (X : existsb (fun v => negb (v =? a)) S = true).
      { apply existsb_exists. exists v. split; auto. apply negb_true_iff, N.eqb_neq. auto. } congruence. }
    assert (Q : vquorum cs [a]).
    { destruct A5 as [M1 M2]. split; [eapply majority_mono; [|exact M1]|eapply majority_mono; [|exact M2]];
        intros x _ Hx; apply vin_In in Hx; apply vin_In; rewrite (Hall x Hx); left; auto. }
    symmetry. apply (alone_quorum a b); auto.
    + eapply Permutation_NoDup; [apply Permutation_sym; exact Pa1|]. apply sorted_NoDup, (cw_in _ _ Ta).
    + eapply Permutation_NoDup; [apply Permutation_sym; exact Pa2|]. apply sorted_NoDup, (cw_out _ _ Ta).
    + destruct Kb as [Kb|Kb]; [rewrite <- role_state, Lb; discriminate| |]; rewrite Idb in Kb; apply in_or_app.
      * left. eapply Permutation_in; [apply Permutation_sym; exact Pb1|auto].
      * right. eapply Permutation_in; [apply Permutation_sym; exact Pb2|auto].
Qed.

(** What a node's log says about the entries it holds. *)
Lemma holds_log F2 a s na i e : vrel cs a F2 s (rn_raft na) -> dinv na -> (holds_entry na i e -> 0 < i /\ nnth (an_log s) (i - 1) = Some e).
Proof.
  intros V D H. apply (holds_abs _ _ _ D) in H. eapply lr_entry; eauto. apply V.
Qed.
Lemma log_has F2 a s na i e : vrel cs a F2 s (rn_raft na) -> dinv na -> 0 < i -> nnth (an_log s) (i - 1) = Some e -> i < node_first na \/ holds_entry na i e.
Proof.
  intros V D Hp H. pose proof (v_log _ _ _ _ _ V) as [L1 L2 L3]. pose proof (lwf_0 _ (li_wf _ (ni_log _ (di_ninv _ D)))) as Hw.
  unfold node_first. rewrite log_first_abs by auto. unfold a_first. destruct (N.lt_ge_cases i (a_base (log_abs (r_log (rn_raft na))) + 1)); auto.
  right. apply (holds_abs _ _ _ D). unfold a_entry. destruct (N.ltb_spec (a_base (log_abs (r_log (rn_raft na)))) i); [|lia].
  rewrite L2, nnth_ndrop. rewrite <- H. f_equal. lia.
Qed.

Lemma log_match g F cl a na b nb i ea eb j x y : cinv cs t0 g F cl -> runs cl a na -> runs cl b nb ->
  holds_entry na i ea -> holds_entry nb i eb -> e_term ea = e_term eb -> j <= i ->
  holds_entry na j x -> holds_entry nb j y -> x = y.
Proof.
  intros I Ha Hb Hea Heb Et Hj Hx Hy. destruct (N.eq_dec a b) as [->|Hne].
  { assert (na = nb) by (unfold runs in *; congruence). subst nb. unfold holds_entry in *. congruence. }
  destruct (publish2 _ _ _ _ _ _ _ I Ha Hb Hne) as (sa & sb & F2 & G & Va & Vb & Da & Db).
  destruct (holds_log _ _ _ _ _ _ Va Da Hea) as [_ A1]. destruct (holds_log _ _ _ _ _ _ Vb Db Heb) as [_ B1].
  destruct (holds_log _ _ _ _ _ _ Va Da Hx) as [Pj A2]. destruct (holds_log _ _ _ _ _ _ Vb Db Hy) as [_ B2].
  pose proof (gi_good _ _ _ _ G a) as Ga. pose proof (gi_good _ _ _ _ G b) as Gb.
  rewrite upd_other, upd_same in Ga by auto. rewrite upd_same in Gb.
  pose proof (matching _ _ _ _ _ _ _ _ _ G Ga Gb A1 B1 Et) as M.
  assert (Q : nnth (ntake (i - 1 + 1) (an_log sa)) (j - 1) = nnth (ntake (i - 1 + 1) (an_log sb)) (j - 1)) by (rewrite M; auto).
  rewrite !nnth_ntake' in Q. destruct (N.ltb_spec (j - 1) (i - 1 + 1)); [|lia]. congruence.
Qed.

(** A committed prefix is in the log of every leader of a later term. *)
Lemma com_in_leader g F id t C s : gi g F -> g id = s -> an_role s = ALead -> In (FCom t C) F -> t <= an_term s -> pre C (an_log s).
Proof.
  intros G Hs Hl HC Ht. destruct (gi_top _ _ _ _ G id) as (T1 & T2 & T3); [rewrite Hs; auto|]. rewrite Hs in *.
  destruct (com_lead _ _ _ _ _ _ _ _ _ G HC T2 Ht) as [H|[H|(M & H1 & H2)]]; auto.
  - (* the leader's own term *)
    destruct (N.eq_dec t (an_term s)) as [->|Hne]; [|eapply (gi_lc _ _ _ _ G); eauto; lia].
    destruct (gi_fcom _ _ _ _ G _ _ HC) as (_ & (l & L & B1 & B2) & _). eapply pre_trans; [exact B2|]. eapply T3; eauto.
  - eapply pre_trans; [exact H2|]. eapply T3; eauto.
Qed.

Lemma complete g F cl a na b nb i e : cinv cs t0 g F cl -> runs cl a na -> runs cl b nb ->
  holds_entry na i e -> i <= node_commit na -> node_role nb = RLeader -> node_term na <= node_term nb -> i < node_first nb \/ holds_entry nb i e.
Proof.
  intros I Ha Hb He Hi Hl Ht. destruct (N.eq_dec a b) as [->|Hne].
  { assert (na = nb) by (unfold runs in *; congruence). subst nb. auto. }
  destruct (publish2 _ _ _ _ _ _ _ I Ha Hb Hne) as (sa & sb & F2 & G & Va & Vb & Da & Db).
  destruct (holds_log _ _ _ _ _ _ Va Da He) as [Pi A1].
  destruct (gi_com _ _ _ _ G a) as (C1 & t & C & C2 & C3 & C4). rewrite upd_other, upd_same in * by auto.
  eapply log_has; eauto. apply (pre_nnth C).
  - eapply com_in_leader; [exact G|apply upd_same| |exact C2|].
    + rewrite (v_role _ _ _ _ _ Vb), <- role_state, Hl. auto.
    + rewrite (v_term _ _ _ _ _ Va) in C3. rewrite (v_term _ _ _ _ _ Vb), <- term_eq. rewrite term_eq in Ht. lia.
  - apply (pre_nnth _ _ _ _ C4). rewrite nnth_ntake'.
    assert (Hc : an_com sa = node_commit na) by (rewrite (v_com _ _ _ _ _ Va); auto).
    destruct (N.ltb_spec (i - 1) (an_com sa)); [auto|lia].
Qed.

Lemma complete_later g F cl g' F' cl' a na b nb e : cinv cs t0 g F cl -> cinv cs t0 g' F' cl' -> grows g F g' F' -> delivered cl a e ->
  runs cl a na -> runs cl' b nb -> node_role nb = RLeader -> node_term na <= node_term nb -> has_entry nb e.
Proof.
  intros I I' [Hi _] Hd Ha Hb Hl Ht. destruct (ci_hist _ _ _ _ _ I _ _ Hd) as (t & C & H1 & H2 & H3 & H4).
  assert (Hta : an_term (g a) <= node_term na).
  { destruct (ci_node _ _ _ _ _ I _ _ Ha) as [_ D P _ _ _ _]. pose proof (di_fwd _ D) as Hf. rewrite P in Hf. unfold hs_forward in Hf. cbn in Hf.
    rewrite term_eq. lia. }
  destruct (publish1 _ _ _ _ _ I' Hb) as (s & O & A1 & G & V & D).
  unfold has_entry. eapply log_has; eauto. apply (pre_nnth C); auto.
  eapply com_in_leader; [exact G|apply upd_same| |apply in_or_app; right; apply Hi; exact H1|].
  - rewrite (v_role _ _ _ _ _ V), <- role_state, Hl. auto.
  - rewrite (v_term _ _ _ _ _ V), <- term_eq. lia.
Qed.
End Cluster.

Section Theorems.
Context {E : Env}.

(** C52: in one term only one node is ever leader, at the same or at different times. *)
Theorem C52_election_safety cs cl cl' a b t : reachable cs cl -> csteps cs cl cl' ->
  leader_of cl a t -> leader_of cl' b t -> a = b.
Proof.
  intros R S (na & A1 & A2 & A3) (nb & B1 & B2 & B3). destruct (reachable_inv _ _ R) as [Hv (t0 & g & F & I)].
  destruct (csteps_inv _ _ _ _ _ _ Hv I S) as (g' & F' & I' & G).
  eapply (election cs Hv t0 g F cl g' F' cl'); eauto. congruence.
Qed.

(** C53: when two logs have an entry with the same index and term, they agree on it and on every
    earlier entry that both still hold. *)
Theorem C53_log_matching cs cl a na b nb i ea eb : reachable cs cl -> runs cl a na -> runs cl b nb ->
  holds_entry na i ea -> holds_entry nb i eb -> e_term ea = e_term eb ->
  forall j x y, j <= i -> holds_entry na j x -> holds_entry nb j y -> x = y.
Proof.
  intros R. destruct (reachable_inv _ _ R) as [Hv (t0 & g & F & I)]. intros Ha Hb Hea Heb Et j x y Hj Hx Hy.
  exact (log_match cs Hv t0 g F cl a na b nb i ea eb j x y I Ha Hb Hea Heb Et Hj Hx Hy).
Qed.

(** C54: an entry below the commit index of any node is in the log of every leader whose term is
    not older. *)
Theorem C54_leader_completeness cs cl a na b nb i e : reachable cs cl -> runs cl a na -> runs cl b nb ->
  holds_entry na i e -> i <= node_commit na -> node_role nb = RLeader -> node_term na <= node_term nb ->
  i < node_first nb \/ holds_entry nb i e.
Proof.
  intros R. destruct (reachable_inv _ _ R) as [Hv (t0 & g & F & I)]. intros Ha Hb He Hi Hl Ht.
  exact (complete cs Hv t0 g F cl a na b nb i e I Ha Hb He Hi Hl Ht).
Qed.
(** The same over time, for entries an application was told are committed. *)
Theorem C54_delivered_never_lost cs cl cl' a na b nb e : reachable cs cl -> csteps cs cl cl' -> delivered cl a e -> runs cl a na ->
  runs cl' b nb -> node_role nb = RLeader -> node_term na <= node_term nb -> has_entry nb e.
Proof.
  intros R S. destruct (reachable_inv _ _ R) as [Hv (t0 & g & F & I)].
  destruct (csteps_inv _ _ _ _ _ _ Hv I S) as (g' & F' & I' & G). intros Hd Ha Hb Hl Ht.
  exact (complete_later cs Hv t0 g F cl g' F' cl' a na b nb e I I' G Hd Ha Hb Hl Ht).
Qed.

(** C55: no two applications are ever handed different entries for the same index, nor one
    application at different times. *)
Theorem C55_state_machine_safety cs cl a b e e' : reachable cs cl -> delivered cl a e -> delivered cl b e' ->
  e_index e = e_index e' -> e = e'.
Proof.
  intros R Ha Hb Hi. destruct (reachable_inv _ _ R) as [Hv (t0 & g & F & I)].
  destruct (ci_hist _ _ _ _ _ I _ _ Ha) as (t & C & H1 & H2 & H3 & H4). destruct (ci_hist _ _ _ _ _ I _ _ Hb) as (t' & C' & H1' & H2' & H3' & H4').
  rewrite <- Hi in H4'. pose proof (ci_g _ _ _ _ _ I) as G.
  destruct (N.le_ge_cases (nlen C) (nlen C')) as [Hl|Hl].
  - pose proof (fcom_cmp _ _ _ _ _ _ _ _ G H1 H1' Hl) as P. apply (pre_nnth _ _ _ _ P) in H4. congruence.
  - pose proof (fcom_cmp _ _ _ _ _ _ _ _ G H1' H1 Hl) as P. apply (pre_nnth _ _ _ _ P) in H4'. congruence.
Qed.
End Theorems.

(** A concrete cluster of three nodes with two leaders in two terms and a crash, for which the
    hypotheses hold. *)
Example C52_case : exists mid fin, reachable (E := ex_env) exc_conf mid /\ csteps (E := ex_env) exc_conf mid fin /\
  leader_of mid 1 2 /\ leader_of fin 2 3 /\ mid <> fin.
Proof.
  destruct exc_run as (mid & fin & R1 & S & R2 & E1 & E2). exists mid, fin. split; auto. split; auto.
  assert (L1 : leader_of mid 1 2) by (apply role_term_leader, (at_mid_eq (fun c => role_term c 1) mid _ E1); vm_compute; reflexivity).
  assert (L2 : leader_of fin 2 3) by (apply role_term_leader, (at_fin_eq (fun c => role_term c 2) mid fin _ E1 E2); vm_compute; reflexivity).
  split; auto. split; auto. intros X. subst fin.
  assert (X1 : List.length (cl_net mid) = 10%nat) by (apply (at_mid_eq (fun c => List.length (cl_net c)) mid _ E1); vm_compute; reflexivity).
  assert (X2 : List.length (cl_net mid) = 19%nat) by (apply (at_fin_eq (fun c => List.length (cl_net c)) mid mid _ E1 E2); vm_compute; reflexivity).
  lia.
Qed.
(** Two nodes hold "x" at index 7 with the same term, and both still hold index 6; node 1 has it
    committed in term 2 and node 2 leads term 3. *)
Example C53_C54_case : exists cl n1 n2, reachable (E := ex_env) exc_conf cl /\ runs cl 1 n1 /\ runs cl 2 n2 /\
  holds_entry (E := ex_env) n1 7 exc_x /\ holds_entry (E := ex_env) n2 7 exc_x /\ (exists y, holds_entry (E := ex_env) n2 6 y) /\
  7 <= node_commit n1 /\ node_term n1 = 2 /\ node_role n2 = RLeader /\ node_term n2 = 3 /\
  (exists mid, reachable (E := ex_env) exc_conf mid /\ csteps (E := ex_env) exc_conf mid cl /\ delivered mid 1 exc_x).
Proof.
  destruct exc_run as (mid & fin & R1 & S & R2 & E1 & E2). exists fin.
  destruct (mget 1 (cl_nodes fin)) as [n1|] eqn:H1.
  2:{ assert (X : role_term fin 1 = Some (RFollower, 2)) by (apply (at_fin_eq (fun c => role_term c 1) mid fin _ E1 E2); vm_compute; reflexivity).
      unfold role_term in X. rewrite H1 in X. discriminate. }
  destruct (mget 2 (cl_nodes fin)) as [n2|] eqn:H2.
  2:{ assert (X : role_term fin 2 = Some (RLeader, 3)) by (apply (at_fin_eq (fun c => role_term c 2) mid fin _ E1 E2); vm_compute; reflexivity).
      unfold role_term in X. rewrite H2 in X. discriminate. }
  exists n1, n2. split; auto. split; auto. split; auto.
  assert (A1 : entry_at fin 1 7 = Some (Ok (SOk [exc_x]))) by (apply (at_fin_eq (fun c => entry_at c 1 7) mid fin _ E1 E2); vm_compute; reflexivity).
  assert (A2 : entry_at fin 2 7 = Some (Ok (SOk [exc_x]))) by (apply (at_fin_eq (fun c => entry_at c 2 7) mid fin _ E1 E2); vm_compute; reflexivity).
  assert (A3 : entry_at fin 2 6 = Some (Ok (SOk [mkEntry 2 6 EntryNormal EmptyString]))) by (apply (at_fin_eq (fun c => entry_at c 2 6) mid fin _ E1 E2); vm_compute; reflexivity).
  assert (A4 : option_map node_commit (mget 1 (cl_nodes fin)) = Some 7) by (apply (at_fin_eq (fun c => option_map node_commit (mget 1 (cl_nodes c))) mid fin _ E1 E2); vm_compute; reflexivity).
  assert (A5 : role_term fin 1 = Some (RFollower, 2)) by (apply (at_fin_eq (fun c => role_term c 1) mid fin _ E1 E2); vm_compute; reflexivity).
  assert (A6 : role_term fin 2 = Some (RLeader, 3)) by (apply (at_fin_eq (fun c => role_term c 2) mid fin _ E1 E2); vm_compute; reflexivity).
  assert (A7 : existsb (fun p => (fst p =? 1) && (e_term (snd p) =? 2) && (e_index (snd p) =? 7) && String.eqb (e_data (snd p)) "x" && match e_type (snd p) with EntryNormal => true | _ => false end) (cl_hist mid) = true)
    by (apply (at_mid_eq (fun c => existsb (fun p => (fst p =? 1) && (e_term (snd p) =? 2) && (e_index (snd p) =? 7) && String.eqb (e_data (snd p)) "x" && match e_type (snd p) with EntryNormal => true | _ => false end) (cl_hist c)) mid _ E1); vm_compute; reflexivity).
  unfold entry_at, role_term in *. rewrite H1 in *. rewrite H2 in *. cbn [option_map] in *.
  injection A1 as A1. injection A2 as A2. injection A3 as A3. injection A4 as A4. injection A5 as A5 A5'. injection A6 as A6 A6'.
  split; auto. split; auto. split; [eexists; exact A3|]. split; [lia|]. split; auto. split; auto. split; auto.
  exists mid. split; auto. split; auto. unfold delivered. apply existsb_exists in A7. destruct A7 as ([i [t ix ty d]] & Hin & Hb). cbn in Hb.
  rewrite !andb_true_iff in Hb. destruct Hb as ((((B1 & B2) & B3) & B4) & B5).
  apply N.eqb_eq in B1, B2, B3. apply String.eqb_eq in B4. clear - Hin B1 B2 B3 B4 B5. destruct ty; [|discriminate B5|discriminate B5]. subst. exact Hin.
Qed.
(** Two applications were handed an entry of the same index, one of them on a node that crashed. *)
Example C55_case : exists cl e e', reachable (E := ex_env) exc_conf cl /\ delivered cl 1 e /\ delivered cl 2 e' /\ e_index e = 7 /\ e_index e' = 7.
Proof.
  destruct exc_run as (mid & fin & R1 & S & R2 & E1 & E2). exists fin.
  assert (A : handed fin = [(1, 6); (2, 6); (1, 7); (3, 6); (2, 7); (2, 8)]) by (apply (at_fin_eq handed mid fin _ E1 E2); vm_compute; reflexivity).
  assert (G : forall i k, In (i, k) (handed fin) -> exists e, delivered fin i e /\ e_index e = k).
  { intros i k Hin. unfold handed in Hin. apply in_map_iff in Hin. destruct Hin as ([i' e] & Hp & Hin). injection Hp as <- <-. exists e. auto. }
  destruct (G 1 7) as (e & D1 & I1); [rewrite A; cbn; auto 10|]. destruct (G 2 7) as (e' & D2 & I2); [rewrite A; cbn; auto 10|].
  exists e, e'. auto.
Qed.
