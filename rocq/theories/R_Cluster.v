(** The cluster invariant: every node simulates the protocol, and every message is justified. *)
From Coq Require Import Permutation.
From Verif Require Import Prelude Types M_Util M_Quorum M_Inflights M_Progress M_Tracker.
From Verif Require Import M_Storage M_Unstable M_Log M_ReadOnly M_ConfPb M_ConfChange M_Raft M_RawNode.
From Verif Require Import Spec_RaftLog Spec_Quorum P_Quorum P_Inflights Spec_Log P_Lists P_Storage P_Log P_RaftLogSeq P_Frame P_Prim Sys_Node P_Node P_Fields P_Vote Spec_Node P_New P_NodeLog P_Handle P_NodeRun P_Emit A_Proto Sys_Cluster R_Log R_Sim R_Elig P_Conf R_Switch R_Node.

(** Who asks for votes has voted for itself. *)
Definition reqvote (F : list fact) : Prop := forall t c L, In (FReq t c L) F -> In (FVote t c c L) F.
Lemma lsteps_req q w n a b : lsteps q w n a b -> reqvote (snd a) -> reqvote (snd b).
Proof.
  induction 1 as [|a b c H Hs IH]; auto. intros R. apply IH. clear IH Hs. destruct H; cbn [snd] in *; auto; intros t' c' L' Hin.
  all: try (destruct Hin as [Hin|Hin]; [discriminate|]); try (destruct Hin as [Hin|Hin]; [discriminate|]); try (right; auto; fail); try (right; right; auto; fail).
  destruct Hin as [Hin|Hin]; [injection Hin as <- <- <-; left; auto|right; right; auto].
Qed.
(** A node gives only its own vote. *)
Lemma lsteps_votes q w n a b t v c L : lsteps q w n a b -> v <> n -> In (FVote t v c L) (snd b) -> In (FVote t v c L) (snd a).
Proof.
  induction 1 as [|a b x H Hs IH]; auto. intros Hv Hin. apply IH in Hin; auto. clear IH Hs. destruct H; cbn [snd] in *; auto.
  all: repeat match goal with Hin : In _ (_ :: _) |- _ => destruct Hin as [Hin|Hin]; [try discriminate; injection Hin as ? ? ? ?; congruence|] end; auto.
Qed.

(** Only those who may stand do. *)
Definition memreq (w : N -> Prop) (F : list fact) : Prop := forall t c L, In (FReq t c L) F -> w c.
Lemma lsteps_memreq q w n a b : lsteps q w n a b -> memreq w (snd a) -> memreq w (snd b).
Proof.
  induction 1 as [|a b c H Hs IH]; auto. intros R. apply IH. clear IH Hs. destruct H; cbn [snd] in *; auto; intros t' c' L' Hin.
  all: repeat match goal with Hin : In _ (_ :: _) |- _ => destruct Hin as [Hin|Hin]; [try discriminate|] end; eauto.
  injection Hin as <- <- <-; auto.
Qed.
(** What is committed in a term is known to be by the leader of that term (0 stands for the common beginning). *)
Definition comby (g : N -> anode) (F : list fact) : Prop := forall t C, In (FCom t C) F ->
  exists l L, In (FLead t l L) F /\ ((l <> 0 /\ nlen C <= an_com (g l)) \/ forall i, nlen C <= an_com (g i)).
Lemma lstep_com q w n a b : lstep q w n a b -> an_com (fst a) <= an_com (fst b).
Proof. destruct 1; cbn [fst an_com]; lia. Qed.
Lemma comby_keep g F n s' F' : n <> 0 -> comby g F -> incl F F' -> an_com (g n) <= an_com s' ->
  (forall t C, In (FCom t C) F' -> In (FCom t C) F \/ exists L, In (FLead t n L) F' /\ nlen C <= an_com s') -> comby (upd g n s') F'.
Proof.
  intros Hz H Hi Hc Hn t C HC. destruct (Hn _ _ HC) as [H0|(L & H1 & H2)].
  - destruct (H _ _ H0) as (l & L & A1 & A2). exists l, L. split; auto.
    assert (M : forall i, an_com (g i) <= an_com (upd g n s' i)).
    { intros i. destruct (N.eq_dec i n) as [->|Hne]; [rewrite upd_same; auto|rewrite upd_other by auto; lia]. }
    destruct A2 as [[A2 A3]|A3]; [left; split; auto; specialize (M l); lia|right]. intros i. specialize (M i); specialize (A3 i); lia.
  - exists n, L. split; auto. left. rewrite upd_same. auto.
Qed.
Lemma lstep_comby q w t0 g F n s' F' : n <> 0 -> ginv q t0 g F -> comby g F -> lstep q w n (g n, F) (s', F') -> comby (upd g n s') F'.
Proof.
  intros Hz G H Hs. apply (comby_keep g F n); auto.
  - destruct (lstep_grow _ _ _ _ _ _ _ Hs) as [O ->]. intros x Hx. apply in_or_app. auto.
  - apply (lstep_com _ _ _ _ _ Hs).
  - intros t C HC. inversion Hs; subst; cbn [an_com];
      repeat match goal with HC : In _ (_ :: _) |- _ => destruct HC as [HC|HC]; [try discriminate|] end; auto.
    right. injection HC as <- <-. destruct (gi_top _ _ _ _ G n) as (_ & X & _); auto. exists (an_log (g n)). split; [right; auto|].
    rewrite nlen_ntake. lia.
Qed.
Lemma lsteps_comby (q : list N -> Prop) w t0 n a b : (forall a b, q a -> q b -> exists v, In v a /\ In v b) -> n <> 0 -> lsteps q w n a b ->
  forall g, ginv q t0 g (snd a) -> g n = fst a -> comby g (snd a) -> comby (upd g n (fst b)) (snd b).
Proof.
  intros Hq Hz H. induction H as [[s F]|[s F] [s1 F1] [s2 F2] H Hs IH]; intros g G Hg C; cbn [fst snd] in *.
  - apply (comby_keep g F n); auto; [apply incl_refl|rewrite Hg; lia].
  - rewrite <- Hg in H. pose proof (lstep_comby _ _ _ _ _ _ _ _ Hz G C H) as C1.
    pose proof (lsteps_ginv _ Hq w t0 [] _ _ _ (lsteps_one _ _ _ _ _ H) g G eq_refl) as G1. cbn [fst snd] in G1.
    specialize (IH (upd g n s1) G1 (upd_same _ _ _) C1).
    intros t X HX. destruct (IH t X HX) as (l & L & A1 & A2). exists l, L. split; auto.
    assert (Eu : forall i, upd (upd g n s1) n s2 i = upd g n s2 i).
    { intros i. destruct (N.eq_dec i n) as [->|Hne]; [rewrite !upd_same; auto|rewrite !upd_other by auto; auto]. }
    rewrite <- Eu. destruct A2 as [A2|A3]; auto. right. intros i. rewrite <- Eu. auto.
Qed.

Section RCluster.
Context {E : Env}.
Variable cs : confstate.
Hypothesis cs_ne : cs_voters cs <> [].
Variable t0 : N.
Notation gi := (ginv (vquorum cs) t0).

Record cinv (g : N -> anode) (F : list fact) (cl : cluster) : Prop := {
  ci_g : gi g F;
  ci_node : forall id n, mget id (cl_nodes cl) = Some n -> nodeinv cs id F (g id) n;
  ci_net : Forall (msg_ok cs F) (cl_net cl);
  ci_hist : forall id e, In (id, e) (cl_hist cl) -> exists t C, In (FCom t C) F /\ t <= an_term (g id) /\ 0 < e_index e /\
     nnth C (e_index e - 1) = Some e;
  ci_el : forall id n, mget id (cl_nodes cl) = Some n -> tok (rn_raft n) /\ elig (rn_raft n);
  ci_req : reqvote F;
  ci_memb : memreq (vmember cs) F;
  ci_by : comby g F;
  ci_seen : forall id e, In (id, e) (cl_hist cl) -> mget id (cl_nodes cl) <> None;
  ci_ne : forall id, leadne (g id)
}.
Lemma call_kept id F s o n : nodeinv cs id F s n -> call_ok cs o n -> voters_kept o n.
Proof.
  intros V Hc. destruct o; try exact Logic.I. cbn [call_ok voters_kept] in *. destruct (rn_apply_conf_change cc n) as [[n1 c]| | |]; auto.
  destruct (nv_run _ _ _ _ _ V) as (s' & O & _ & R & _). destruct (v_conf _ _ _ _ _ R) as [P1 P2]. destruct Hc as [C1 C2].
  split; eapply Permutation_trans; [apply Permutation_sym; exact P1|exact C1|apply Permutation_sym; exact P2|exact C2].
Qed.

Definition grows (g : N -> anode) (F : list fact) (g' : N -> anode) (F' : list fact) : Prop :=
  incl F F' /\ forall i, an_term (g i) <= an_term (g' i).
Lemma grows_refl g F : grows g F g F.
Proof. split; [apply incl_refl|intros; lia]. Qed.
Lemma grows_trans g F g1 F1 g2 F2 : grows g F g1 F1 -> grows g1 F1 g2 F2 -> grows g F g2 F2.
Proof. intros [H1 H2] [H3 H4]. split; [eapply incl_tran; eauto|intros i; specialize (H2 i); specialize (H4 i); lia]. Qed.

(** A node is replaced; nothing becomes visible. *)
Lemma cinv_local g F cl id n' : cinv g F cl -> nodeinv cs id F (g id) n' -> tok (rn_raft n') /\ elig (rn_raft n') ->
  cinv g F (mkCluster (mset id n' (cl_nodes cl)) (cl_net cl) (cl_hist cl)).
Proof.
  intros [] H He. constructor; cbn; auto.
  - intros i n Hn. rewrite mget_mset in Hn. destruct (N.eqb_spec i id); [inv Hn; auto|auto].
  - intros i n Hn. rewrite mget_mset in Hn. destruct (N.eqb_spec i id); [inv Hn; auto|eauto].
  - intros i e Hi. rewrite mget_mset. destruct (_ =? _); [discriminate|eauto].
Qed.

Lemma cstep_inv g F cl cl' : cinv g F cl -> cstep cs cl cl' -> exists g' F', cinv g' F' cl' /\ grows g F g' F'.
Proof.
  intros I H. destruct H as [id o n n' out Hn Hc Hs|id m n n' out Hn Hin Hto Hs|id c tape n n' Hn Hc Hst Hr].
  - pose proof (ci_g _ _ _ I) as G. pose proof (ci_node _ _ _ I _ _ Hn) as V.
    assert (El : tok (rn_raft n') /\ elig (rn_raft n')).
    { destruct (ci_el _ _ _ I _ _ Hn) as [T K]. assert (Hok : nop_ok o n).
      { destruct o; try (destruct Hc; fail); split; cbn; auto. apply Hc. }
      split; [eapply n_step_tok; eauto; apply Hok|]. eapply n_step_elig; eauto; [apply V|]. eapply call_kept; eauto. }
    assert (Quiet : nodeinv cs id F (g id) n' /\ o_ready out = None -> exists g' F', cinv g' F'
      (mkCluster (mset id n' (cl_nodes cl)) (cl_net cl ++ out_msgs out) (cl_hist cl ++ out_ents id out)) /\ grows g F g' F').
    { intros [V' Ho]. exists g, F. split; [|apply grows_refl]. unfold out_msgs, out_ents. rewrite Ho, !app_nil_r. apply cinv_local; auto. }
    assert (Plain : plain o -> (forall cc, o <> NApplyCC cc) -> exists g' F', cinv g' F'
      (mkCluster (mset id n' (cl_nodes cl)) (cl_net cl ++ out_msgs out) (cl_hist cl ++ out_ents id out)) /\ grows g F g' F').
    { intros Hp Hcc. apply Quiet. eapply plain_node; eauto; try apply (ci_el _ _ _ I _ _ Hn).
      - destruct o; try (destruct Hc; fail); try (destruct Hp; fail); split; cbn; auto.
      - intros im Him. right. eapply call_msg_local; eauto. intros m ->. destruct Hc. }
    destruct o; try (destruct Hc; fail); try (apply Plain; [exact Logic.I|discriminate]).
    + apply Quiet. destruct (ci_el _ _ _ I _ _ Hn). eapply apply_node; eauto; [apply (ci_ne _ _ _ I)|eapply call_kept; eauto].
    + (* handling a Ready *)
      destruct (handle_node cs cs_ne t0 g F id n n' out G V Hs) as (s & O & H0 & H1 & H2 & H3 & H4 & H5).
      exists (upd g id s), (O ++ F).
      assert (Hinc : incl F (O ++ F)) by (intros x Hx; apply in_or_app; auto).
      assert (Hg : grows g F (upd g id s) (O ++ F)).
      { split; auto. intros i. destruct (N.eq_dec i id) as [->|Hne]; [rewrite upd_same; auto|rewrite upd_other by auto; lia]. }
      split; auto. constructor; cbn [cl_nodes cl_net cl_hist]; auto.
      * intros i x Hx. rewrite mget_mset in Hx. destruct (N.eqb_spec i id) as [->|Hne].
        -- inv Hx. rewrite upd_same. auto.
        -- rewrite upd_other by auto. eapply nodeinv_mono; eauto. apply (ci_node _ _ _ I). auto.
      * apply Forall_app. split; auto. eapply msgs_ok_mono; eauto. apply (ci_net _ _ _ I).
      * intros i e Hin. apply in_app_or in Hin. destruct Hin as [Hin|Hin].
        -- destruct (ci_hist _ _ _ I _ _ Hin) as (t & C & A1 & A2 & A3). exists t, C. split; auto. split; auto.
           destruct Hg as [_ Hg]. specialize (Hg i). lia.
        -- destruct (H5 _ _ Hin) as (-> & t & C & A1 & A2 & A3). exists t, C. rewrite upd_same. auto.
      * intros i x Hx. rewrite mget_mset in Hx. destruct (N.eqb_spec i id) as [->|Hne]; [inv Hx; auto|]. eapply (ci_el _ _ _ I); eauto.
      * apply (lsteps_req _ _ _ _ _ H0). apply (ci_req _ _ _ I).
      * apply (lsteps_memreq _ _ _ _ _ H0). apply (ci_memb _ _ _ I).
      * apply (lsteps_comby _ _ t0 _ _ _ (vquorum_meet cs cs_ne) (nv_id _ _ _ _ _ V) H0 g); auto. apply (ci_by _ _ _ I).
      * intros i e Hin. rewrite mget_mset. destruct (N.eqb_spec i id) as [->|Hne]; [discriminate|]. apply in_app_or in Hin. destruct Hin as [Hin|Hin].
        -- eapply (ci_seen _ _ _ I); eauto.
        -- destruct (H5 _ _ Hin) as (-> & _). congruence.
      * intros i. destruct (N.eq_dec i id) as [->|Hne]; [rewrite upd_same|rewrite upd_other by auto; apply (ci_ne _ _ _ I)].
        apply (lsteps_leadne _ _ _ _ _ H0). apply (ci_ne _ _ _ I).
    + apply Quiet. eapply compact_node; eauto.
    + apply Quiet. destruct Hc. eapply snapshot_node; eauto.
  - pose proof (ci_g _ _ _ I) as G. pose proof (ci_node _ _ _ I _ _ Hn) as V.
    pose proof (proj1 (Forall_forall _ _) (ci_net _ _ _ I) _ Hin) as Hm.
    exists g, F. split; [|apply grows_refl].
    assert (El : tok (rn_raft n') /\ elig (rn_raft n')).
    { destruct (ci_el _ _ _ I _ _ Hn) as [T K]. assert (Hok : nop_ok (NStep m) n) by (split; cbn; apply Hm).
      split; [eapply n_step_tok; eauto; apply Hok|]. eapply n_step_elig; eauto; [apply V|exact Logic.I]. }
    apply cinv_local; auto.
    refine (proj1 (plain_node cs cs_ne t0 g F id (NStep m) n n' out G V Logic.I _ _ _ (proj1 (ci_el _ _ _ I _ _ Hn)) (proj2 (ci_el _ _ _ I _ _ Hn)) Hs)).
    + split; cbn; apply Hm.
    + discriminate.
    + intros im ->. left. auto.
  - exists g, F. split; [|apply grows_refl]. apply cinv_local; [auto| |eapply new_elig; eauto]. eapply restart_node; eauto. apply (ci_node _ _ _ I). auto.
Qed.
End RCluster.

(** The beginning. *)
Section Start.
Context {E : Env}.
Lemma vquorum_all cs : vquorum cs (cs_voters cs ++ cs_outgoing cs).
Proof.
  assert (H : forall c d, (forall x, In x c -> In x d) -> majority c (vin d)).
  { intros c d H. destruct c as [|x c]; [left; auto|right]. set (l := x :: c) in *. rewrite (count_ext (vin d) (fun _ => true)).
    - assert (Hc : forall l, count (fun _ => true) l = nlen l) by (induction l0; auto; rewrite count_cons, nlen_cons; lia).
      rewrite Hc. unfold l. rewrite nlen_cons. lia.
    - intros y Hy. apply vin_In. auto. }
  split; apply H; intros x Hx; apply in_or_app; auto.
Qed.
Lemma nlen_repeat {A} (x : A) k : nlen (repeat x k) = N.of_nat k.
Proof. unfold nlen. rewrite repeat_length. auto. Qed.
Lemma lastterm_repeat x k : k <> O -> lastterm (repeat x k) = e_term x.
Proof.
  intros Hk. destruct (lastterm_nth (repeat x k)) as (e & H1 & ->); [destruct k; [lia|discriminate]|].
  apply nnth_In, repeat_spec in H1. subst; auto.
Qed.

Lemma start_inv cs cl : cluster_start cs cl -> exists t0 g F, cinv cs t0 g F cl.
Proof.
  intros [Hnet Hhist Hv (i0 & t0 & Hz & Hn)].
  set (L0 := repeat (mkEntry t0 0 EntryNormal "") (N.to_nat i0)).
  assert (Ln : nlen L0 = i0) by (unfold L0; rewrite nlen_repeat, N2Nat.id; auto).
  assert (Lt : lastterm L0 = t0).
  { unfold L0. destruct (N.eq_dec i0 0) as [->|Hne]; [rewrite Hz; auto|]. rewrite lastterm_repeat; auto. lia. }
  set (g := fun id => mkA (match mget id (cl_nodes cl) with Some n => hs_term (rn_prev_hard n) | None => t0 end) 0 L0 i0 AFollow).
  set (F := init_facts t0 L0 (cs_voters cs ++ cs_outgoing cs)).
  assert (Hst : forall id n, mget id (cl_nodes cl) = Some n -> exists c tape s, c_id c = id /\ c_storage c = Some s /\ rn_new c tape = Ok n /\
     storage_ok s /\ ms_tail s = [] /\ e_index (ms_dummy s) = i0 /\ e_term (ms_dummy s) = t0 /\ sn_index (ms_snap s) = i0 /\ sn_term (ms_snap s) = t0 /\
     same_voters cs (sn_conf (ms_snap s)) /\ restart_hs s = mkHardState (hs_term (rn_prev_hard n)) 0 i0 /\ t0 <= hs_term (rn_prev_hard n)).
  { intros id n Hg. destruct (Hn id n Hg) as (c & tape & s & H1 & H2 & [S1 S2 [S3 S3'] [S4 S4'] S5 [S6 S7]] & H3).
    exists c, tape, s. repeat match goal with |- _ /\ _ => split end; auto.
    - destruct (dinv_new c s tape n H2 S1 H3) as (D & _ & Es). rewrite (di_hs _ D), Es.
      assert (Hc : hs_commit (restart_hs s) = i0).
      { pose proof (so_com _ S1) as Hc. unfold ms_last_index, ms_ents in Hc. rewrite S2 in Hc. unfold nlen in Hc. cbn [List.length] in Hc. lia. }
      destruct (restart_hs s) as [a b d]. cbn in *. f_equal; auto.
    - destruct (dinv_new c s tape n H2 S1 H3) as (D & _ & Es). rewrite (di_hs _ D), Es. auto. }
  exists t0, g, F. constructor.
  - apply ginv_init.
    + apply vquorum_meet; auto.
    + apply vquorum_all.
    + auto.
    + intros e He. apply repeat_spec in He. rewrite He; auto.
    + intros i. unfold g; cbn. repeat match goal with |- _ /\ _ => split end; auto. destruct (mget i _) as [n|] eqn:Hg; [|lia].
      destruct (Hst _ _ Hg) as (c & tape & s & H). apply H.
  - intros id n Hg. destruct (Hst _ _ Hg) as (c & tape & s & H1 & H2 & H3 & H4 & H5 & H6 & H7 & H8 & H9 & H10 & H11 & H12).
    assert (Hid : id <> 0).
    { apply rn_new_spec in H3. destruct H3 as (r & Hr & _). apply raft_new_spec in Hr. destruct Hr as (s' & cp & Hval & _).
      destruct (validate c) as [c' oe] eqn:Ev. cbn in Hval. subst oe. apply validate_ok in Ev. destruct Ev as (V1 & _). subst id. auto. }
    assert (Et : ntake i0 L0 = L0) by (apply ntake_all; lia).
    apply (new_node cs F id (g id) c tape s n); auto; unfold g; cbn [an_term an_vote an_log an_com]; rewrite ?Hg; auto.
    + constructor; cbn [ms_abs a_base a_ents a_bterm].
      * lia.
      * rewrite H6, H5, ndrop_all; auto. lia.
      * rewrite H6, Et, H7. auto.
    + split; [lia|]. rewrite H8, Et, H9. auto.
    + congruence.
  - rewrite Hnet. constructor.
  - rewrite Hhist. intros id e [].
  - intros id n Hg. destruct (Hst _ _ Hg) as (c & tape & s & H1 & H2 & H3 & _). eapply new_elig; eauto.
  - intros t c L Hin. destruct Hin as [Hin|[Hin|Hin]]; try discriminate. apply in_map_iff in Hin. destruct Hin as (v & Hin & _). discriminate.
  - intros t c L Hin. destruct Hin as [Hin|[Hin|Hin]]; try discriminate. apply in_map_iff in Hin. destruct Hin as (v & Hin & _). discriminate.
  - intros t C Hin. destruct Hin as [Hin|[Hin|Hin]]; try discriminate; [|apply in_map_iff in Hin; destruct Hin as (v & Hin & _); discriminate].
    injection Hin as <- <-. exists 0, L0. split; [right; left; auto|]. right. intros i. unfold g. cbn. lia.
  - rewrite Hhist. intros id e [].
  - intros id X. discriminate X.
Qed.

Lemma csteps_inv cs t0 g F cl cl' : cs_voters cs <> [] -> cinv cs t0 g F cl -> csteps cs cl cl' ->
  exists g' F', cinv cs t0 g' F' cl' /\ grows g F g' F'.
Proof.
  intros Hv I H. revert g F I. induction H as [cl|a b c H Hs IH]; intros g F I; [exists g, F; split; auto using grows_refl|].
  destruct (cstep_inv cs Hv t0 g F _ _ I H) as (g1 & F1 & I1 & G1). destruct (IH _ _ I1) as (g2 & F2 & I2 & G2).
  exists g2, F2. split; auto. eapply grows_trans; eauto.
Qed.
Lemma reachable_inv cs cl : reachable cs cl -> cs_voters cs <> [] /\ exists t0 g F, cinv cs t0 g F cl.
Proof.
  induction 1 as [cl H|cl cl' H IH Hs].
  - split; [apply H|apply start_inv; auto].
  - destruct IH as [Hv (t0 & g & F & I)]. split; auto. destruct (cstep_inv cs Hv t0 g F cl cl' I Hs) as (g' & F' & I' & _). eauto.
Qed.
End Start.
