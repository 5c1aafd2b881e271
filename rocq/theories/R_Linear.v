(** Read requests over the cluster. *)
From Coq Require Import Permutation.
From Verif Require Import Prelude Types M_Util M_Quorum M_Inflights M_Progress M_Tracker.
From Verif Require Import M_Storage M_Unstable M_Log M_ReadOnly M_ConfPb M_ConfChange M_Raft M_RawNode.
From Verif Require Import Spec_RaftLog Spec_ConfChange Spec_Quorum P_Quorum P_Inflights Spec_Log P_Lists P_Storage P_Log P_RaftLogSeq P_Frame P_Prim Sys_Node P_Node P_Fields Spec_Node P_New P_NodeLog P_Handle P_NodeRun P_Emit.
From Verif Require Import P_ReadOnly P_Read P_ReadQ P_ReadRun A_Proto Sys_Cluster R_Log R_Sim R_Elig P_Conf R_Node R_Cluster Spec_Cluster Prop_Cluster Sys_Trace Spec_Linear R_Read.

Lemma lsteps_up q w n a b : lsteps q w n a b -> an_term (fst a) <= an_term (fst b) /\ an_com (fst a) <= an_com (fst b).
Proof.
  induction 1 as [a|a b c H Hs [I1 I2]]; [lia|]. assert (K : an_term (fst a) <= an_term (fst b)) by (destruct H; cbn; lia).
  pose proof (lstep_com _ _ _ _ _ H). lia.
Qed.

Lemma majority_perm p a b : Permutation a b -> majority a p -> majority b p.
Proof.
  intros P [->|H]; [left; apply Permutation_nil; auto|right]. rewrite <- (count_perm _ _ _ P).
  assert (L : nlen b = nlen a) by (unfold nlen; rewrite (Permutation_length P); auto). lia.
Qed.

Lemma mok_rebase T1 R1 F1 A1 T regs F (I : string -> Prop) m : mok T1 R1 F1 A1 regs I m -> mok T regs F I regs I m.
Proof.
  unfold mok. destruct (m_type m); auto.
  - intros [H|[H _]]; auto.
  - intros [H _]. split; auto. left. eapply one_I; eauto.
Qed.

Section Lin.
Context {E : Env}.
Variable cs : confstate.
Hypothesis cs_ne : cs_voters cs <> [].
Variable t0 : N.
Notation gi := (ginv (vquorum cs) t0).

Section Ref.
Variables (T1 : N -> N) (F1 : list fact).
Lemma node_hyps g F cl id n : cinv cs t0 g F cl -> runs cl id n -> incl F1 F -> (forall v, T1 v <= an_term (g v)) ->
  let r := rn_raft n in
  r_id r = id /\ T1 id <= r_term r /\ an_com (g id) <= l_committed (r_log r) /\
  (r_state r = RLeader -> committed_entry_in_current_term r = Ok true -> idxok F1 (r_term r) (l_committed (r_log r))) /\
  (r_state r = RLeader -> trk_is_singleton (r_trk r) = true -> goodi F1 (l_committed (r_log r))) /\
  Permutation (cs_voters cs) (tc_incoming (t_config (r_trk r))) /\ Permutation (cs_outgoing cs) (tc_outgoing (t_config (r_trk r))).
Proof.
  intros I H Hi HT r. pose proof (nv_id _ _ _ _ _ (ci_node _ _ _ _ _ I _ _ H)) as Hid.
  destruct (publish1 cs cs_ne t0 _ _ _ _ _ I H) as (s & O & A1 & A2 & A3 & A4). fold r in A3. pose proof (di_ninv _ A4) as A5. fold r in A5. clearbody r.
  pose proof (lsteps_up _ _ _ _ _ A1) as [U1 U2]. cbn [fst] in U1, U2.
  pose proof (v_term _ _ _ _ _ A3) as Et. pose proof (v_com _ _ _ _ _ A3) as Ec. pose proof (v_conf _ _ _ _ _ A3) as [P1 P2].
  pose proof (v_role _ _ _ _ _ A3) as Er.
  assert (Hl : r_state r = RLeader -> t0 < r_term r /\ In (FLead (r_term r) id (an_log s)) (O ++ F)).
  { intros Hl. destruct (gi_top _ _ _ _ A2 id) as (X1 & X2 & _); rewrite upd_same in *; [rewrite Er, Hl; auto|]. rewrite Et in *. auto. }
  split; [apply (v_id _ _ _ _ _ A3)|]. split; [specialize (HT id); lia|]. split; [lia|]. split; [|split; [|auto]].
  - intros Ld Hc t' C HC Ht. apply Hi in HC. destruct (Hl Ld) as [L1 L2].
    destruct (N.eq_dec t' (r_term r)) as [->|Hne].
    + destruct (ci_by _ _ _ _ _ I _ _ HC) as (l & L & B1 & [[B2 B3]|B3]); [|specialize (B3 id); lia].
      destruct (gi_lead1 _ _ _ _ A2 _ _ _ _ _ L2 (in_or_app _ _ _ (or_intror B1))) as [<- _]. lia.
    + assert (HP : pre C (an_log s)) by (eapply (gi_lc _ _ _ _ A2); [apply in_or_app; right; exact HC|exact L2|lia]).
      apply own_true in Hc. rewrite (log_term_abs _ _ (lwf_0 _ (li_wf _ (ni_log _ A5)))) in Hc.
      destruct (a_term (log_abs (r_log r)) (l_committed (r_log r))) as [tt|] eqn:Ha; [|lia].
      destruct (lr_term _ _ _ _ (v_log _ _ _ _ _ A3) Ha) as [R1 R2].
      destruct (N.le_gt_cases (nlen C) (l_committed (r_log r))) as [|Hgt]; auto. exfalso.
      assert (HP2 : pre (ntake (l_committed (r_log r)) (an_log s)) C).
      { eapply pre_cmp; [apply pre_ntake|exact HP|]. rewrite nlen_ntake. lia. }
      assert (SC : tsorted C) by (eapply tsorted_pre; [exact HP|]; pose proof (gi_sort _ _ _ _ A2 id) as X; rewrite upd_same in X; exact X).
      pose proof (lastterm_pre _ _ HP2 SC) as Hlt.
      destruct (gi_fcom _ _ _ _ (ci_g _ _ _ _ _ I) _ _ HC) as (X & _). lia.
  - intros Ld Hs t' C HC. apply Hi in HC. destruct (Hl Ld) as [L1 L2].
    unfold trk_is_singleton in Hs. apply andb_prop in Hs. destruct Hs as [S1 S2]. apply N.eqb_eq in S1, S2.
    assert (One : exists v, forall x, vmember cs x -> x = v).
    { destruct (tc_incoming (t_config (r_trk r))) as [|v [|w l]]; rewrite ?nlen_cons in S1; try (unfold nlen in S1; cbn in S1; lia).
      destruct (tc_outgoing (t_config (r_trk r))) as [|w l]; [|rewrite nlen_cons in S2; lia]. exists v. intros x [Hx|Hx].
      - apply (Permutation_in _ P1) in Hx. destruct Hx as [<-|[]]. auto.
      - apply (Permutation_in _ P2) in Hx. destruct Hx. }
    destruct One as (v & One). destruct (ci_by _ _ _ _ _ I _ _ HC) as (l & L & B1 & [[B2 B3]|B3]); [|specialize (B3 id); lia].
    assert (M1 : vmember cs l).
    { destruct (gi_lead _ _ _ _ (ci_g _ _ _ _ _ I) _ _ _ B1) as (_ & _ & _ & [[_ X]|(_ & _ & Lc & S & X & _)]); [congruence|]. apply (ci_memb _ _ _ _ _ I _ _ _ X). }
    assert (M2 : vmember cs id).
    { destruct (gi_lead _ _ _ _ A2 _ _ _ L2) as (_ & _ & _ & [[_ X]|(_ & _ & Lc & S & X & _)]); [congruence|].
      apply (lsteps_memreq _ _ _ _ _ A1 (ci_memb _ _ _ _ _ I) _ _ _ X). }
    rewrite (One _ M1), <- (One _ M2) in B3. lia.
Qed.
(** A quorum that was not beyond [t] then: nothing had been committed in a later term. *)
Lemma ref_quorum g1 t S : gi g1 F1 -> (forall v, T1 v = an_term (g1 v)) -> vquorum cs S -> (forall v, In v S -> T1 v <= t) -> forall t' C, In (FCom t' C) F1 -> t' <= t.
Proof.
  intros G HT HS Hv t' C HC. destruct (gi_fcom _ _ _ _ G _ _ HC) as (_ & (l & L & X & _) & _).
  destruct (gi_lead _ _ _ _ G _ _ _ X) as (_ & _ & _ & [[-> _]|(_ & _ & Lc & S' & _ & _ & Y & Z)]).
  - destruct (vquorum_meet cs cs_ne _ _ HS HS) as (v & V1 & _). specialize (Hv v V1). rewrite HT in Hv. pose proof (gi_t0 _ _ _ _ G v). lia.
  - destruct (vquorum_meet cs cs_ne _ _ HS Y) as (v & V1 & V2). destruct (Z v V2) as (Lv & W & _). specialize (Hv v V1). rewrite HT in Hv.
    destruct (gi_vote _ _ _ _ G _ _ _ _ W) as (_ & Q & _). lia.
Qed.
Lemma won_quorum (r : raft) acks t :
  Permutation (cs_voters cs) (tc_incoming (t_config (r_trk r))) -> Permutation (cs_outgoing cs) (tc_outgoing (t_config (r_trk r))) ->
  tc_vote_result (t_config (r_trk r)) acks = VoteWon -> (forall v b, mget v acks = Some b -> T1 v <= t) -> exists S, vquorum cs S /\ forall v, In v S -> T1 v <= t.
Proof.
  intros P1 P2 H Hv. unfold tc_vote_result in H. apply joint_won in H. destruct H as [H1 H2].
  exists (filter (voted_yes (vget acks)) (cs_voters cs ++ cs_outgoing cs)). split.
  - assert (K : forall c d, Permutation c d -> (forall x, In x c -> In x (cs_voters cs ++ cs_outgoing cs)) -> majority d (voted_yes (vget acks)) ->
       majority c (vin (filter (voted_yes (vget acks)) (cs_voters cs ++ cs_outgoing cs)))).
    { intros c d P Hc M. apply (majority_perm _ _ _ (Permutation_sym P)) in M. eapply majority_mono; [|exact M]. intros x Hx Hy. apply vin_In, filter_In. auto. }
    split; eapply K; eauto; intros; apply in_or_app; auto.
  - intros v Hx. apply filter_In in Hx. destruct Hx as [_ Hx]. unfold voted_yes, vget in Hx. destruct (mget v acks) as [b|] eqn:X; [|discriminate]. eauto.
Qed.
End Ref.

(** ** The cluster as it runs on *)
Definition asks_of (id : N) (asked : list (N * string)) : list string := List.map snd (filter (fun p => fst p =? id) asked).
Lemma asks_of_In id c asked : In c (asks_of id asked) <-> In (id, c) asked.
Proof.
  unfold asks_of. rewrite in_map_iff. split.
  - intros ([i x] & H1 & H2). cbn in H1. subst x. apply filter_In in H2. destruct H2 as [H2 H3]. cbn in H3. apply N.eqb_eq in H3. subst. auto.
  - intros H. exists (id, c). split; auto. apply filter_In. split; auto. cbn. apply N.eqb_refl.
Qed.
Lemma asks_of_app id a b : incl (asks_of id a) (asks_of id (a ++ b)).
Proof. intros c. rewrite !asks_of_In, in_app_iff. auto. Qed.

Lemma nodup_left {A} (a b : list A) : NoDup (a ++ b) -> NoDup a.
Proof. induction a as [|x a IH]; [constructor|]. intros H. inversion_clear H. constructor; auto. intros X. apply H0, in_or_app. auto. Qed.
(** What a step hands to the application. *)
Lemma step_out o n n' out : n_step o n = Ok (n', out) -> forall rd, o_ready out = Some rd ->
  rd_reads rd = r_read_states (rn_raft n) /\ rd_msgs rd = r_msgs (rn_raft n).
Proof.
  intros H rd Hrd. destruct o; cbn [n_step] in H;
    try (apply bind_ok in H; destruct H as (x & H & Hx); try destruct x; inv Hx; cbn in Hrd; discriminate);
    try (inv H; cbn in Hrd; discriminate).
  - apply bind_ok in H. destruct H as ([n1 rd'] & H & Hx). inv Hx. cbn in Hrd. inv Hrd. apply get_ready_qn in H. tauto.
  - apply bind_ok in H. destruct H as ([n1 rd'] & H & Hx). inv Hx. cbn in Hrd. inv Hrd. unfold n_handle in H. apply bind_ok in H. destruct H as ([n2 rd2] & H & Hx).
    apply bind_ok in Hx. destruct Hx as (s & _ & Hx). apply bind_ok in Hx. destruct Hx as (n3 & _ & Hx). inv Hx. apply get_ready_qn in H. tauto.
Qed.

Section Run.
Variables (T1 : N -> N) (R1 : N -> list string) (F1 : list fact) (A1 : string -> Prop).
Hypothesis RA : forall i c, In c (R1 i) -> A1 c.
Hypothesis Hq : forall S t, vquorum cs S -> (forall v, In v S -> T1 v <= t) -> forall t' C, In (FCom t' C) F1 -> t' <= t.

Record jv (g : N -> anode) (F : list fact) (cl : cluster) (regs : N -> list string) (asked : list (N * string)) (I : string -> Prop) : Prop := {
  j_c : cinv cs t0 g F cl;
  j_T : forall v, T1 v <= an_term (g v);
  j_F : incl F1 F;
  j_n : forall id n, mget id (cl_nodes cl) = Some n -> nok T1 R1 F1 A1 regs (asks_of id asked) I [] (rn_raft n);
  j_net : Forall (mok T1 R1 F1 A1 regs I) (cl_net cl);
  j_I : forall i c, In c (regs i) -> I c
}.

(** One node has moved. *)
Lemma jv_move g F cl regs asked (I : string -> Prop) g' F' cl' regs' asked' (J : string -> Prop) id n' :
  jv g F cl regs asked I -> cinv cs t0 g' F' cl' -> grows g F g' F' ->
  cl_nodes cl' = mset id n' (cl_nodes cl) -> r_id (rn_raft n') = id -> rext id regs regs' ->
  incl asked asked' -> (forall c, I c -> J c) -> nok T1 R1 F1 A1 regs' (asks_of id asked') J [] (rn_raft n') ->
  Forall (mok T1 R1 F1 A1 regs' J) (cl_net cl') -> jv g' F' cl' regs' asked' J.
Proof.
  intros V C [G1 G2] Hn Hid [X1 X2] Ha HI K M. constructor; auto.
  - intros v. specialize (G2 v). pose proof (j_T _ _ _ _ _ _ V v). lia.
  - eapply incl_tran; [apply V|auto].
  - intros i n H. rewrite Hn, mget_mset in H. destruct (N.eqb_spec i id) as [->|Hi]; [inv H; auto|].
    pose proof (j_n _ _ _ _ _ _ V _ _ H) as Ki. destruct (node_hyps T1 F1 g F cl i n (j_c _ _ _ _ _ _ V) H (j_F _ _ _ _ _ _ V) (j_T _ _ _ _ _ _ V)) as (Ei & _).
    eapply nok_mono; [exact X1| | |exact HI|exact Ki].
    + apply X2. congruence.
    + intros c. rewrite !asks_of_In. apply Ha.
  - intros i c Hc. destruct (N.eq_dec i id) as [->|Hi]; [|rewrite X2 in Hc by auto; apply HI; eapply j_I; eauto].
    apply (nk_iss _ _ _ _ _ _ _ _ _ K). rewrite Hid. auto.
Qed.

Lemma jv_weak g F cl regs asked (I J : string -> Prop) : jv g F cl regs asked I -> (forall c, I c -> J c) -> jv g F cl regs asked J.
Proof.
  intros [] H. constructor; eauto.
  - intros id n Hn. eapply nok_mono; [..|eauto]; auto; intros; apply incl_refl.
  - eapply Forall_impl; [|exact j_net0]. intros m. apply mok_mono; auto; intros; apply incl_refl.
Qed.
Lemma plain_dec' o : {plain o} + {~ plain o}.
Proof. destruct o; cbn; auto. Qed.

Lemma estep_jv g F cl regs asked (I : string -> Prop) ev cl' :
  jv g F cl regs asked I -> estep cs cl ev cl' -> safe_event ev -> NoDup (asked ++ put_to_leader (ev, cl')) ->
  (exists g' F' regs', jv g' F' cl' regs' (asked ++ put_to_leader (ev, cl')) (fun c => I c \/ issued [(ev, cl')] c) /\ grows g F g' F') /\
  (forall id o out rd, ev = ECall id o out -> o_ready out = Some rd -> forall x, In x (rd_reads rd) -> rok F1 A1 I x).
Proof.
  intros V H Hsafe Hnd. destruct (cstep_inv cs cs_ne t0 g F _ _ (j_c _ _ _ _ _ _ V) (estep_cstep _ _ _ _ H)) as (g' & F' & C' & G').
  set (J := fun c => I c \/ issued [(ev, cl')] c). assert (HI : forall c, I c -> J c) by (intros c Hc; left; auto).
  assert (HF : incl F1 F') by (eapply incl_tran; [apply V|apply G']).
  assert (HT : forall v, T1 v <= an_term (g' v)) by (intros v; pose proof (j_T _ _ _ _ _ _ V v); pose proof (proj2 G' v); lia).
  assert (HQ : forall (r : raft) acks,
      Permutation (cs_voters cs) (tc_incoming (t_config (r_trk r))) -> Permutation (cs_outgoing cs) (tc_outgoing (t_config (r_trk r))) ->
      tc_vote_result (t_config (r_trk r)) acks = VoteWon -> (forall v b, mget v acks = Some b -> T1 v <= r_term r) ->
      forall t' C, In (FCom t' C) F1 -> t' <= r_term r).
  { intros r acks P1 P2 W Hv. destruct (won_quorum T1 r acks (r_term r) P1 P2 W Hv) as (S & S1 & S2). eapply Hq; eauto. }
  destruct H as [id o n n' out Hn Hc Hs|id m n n' out Hn Hin Hto Hs|id c tape n n' Hn Hc Hst Hr].
  - set (cl' := mkCluster _ _ _) in *. pose proof (j_n _ _ _ _ _ _ V _ _ Hn) as K.
    destruct (node_hyps T1 F1 g F cl id n (j_c _ _ _ _ _ _ V) Hn (j_F _ _ _ _ _ _ V) (j_T _ _ _ _ _ _ V)) as (Eid & _).
    assert (Hr' : runs cl' id n') by (unfold runs, cl'; cbn; rewrite mget_mset, N.eqb_refl; auto).
    destruct (node_hyps T1 F1 g' F' cl' id n' C' Hr' HF HT) as (N1 & N2 & N3 & N4 & N5 & N6 & N7).
    split.
    + assert (Net : forall regs', rext id regs regs' -> Forall (mok T1 R1 F1 A1 regs' J) (cl_net cl')).
      { intros regs' X. unfold cl'. cbn [cl_net]. apply Forall_app. split.
        - eapply Forall_impl; [|exact (j_net _ _ _ _ _ _ V)]. intros m. apply mok_mono; auto. apply X.
        - unfold out_msgs. destruct (o_ready out) as [rd|] eqn:Ho; [|constructor]. destruct (step_out _ _ _ _ Hs _ Ho) as [_ ->].
          eapply Forall_impl; [|exact (nk_ms _ _ _ _ _ _ _ _ _ K)]. intros m. apply mok_mono; auto. apply X. }
      assert (GO : (exists regs', rext id regs regs' /\ nok T1 R1 F1 A1 regs' (asks_of id (asked ++ put_to_leader (ECall id o out, cl'))) J [] (rn_raft n')) ->
        exists g' F' regs', jv g' F' cl' regs' (asked ++ put_to_leader (ECall id o out, cl')) J /\ grows g F g' F').
      { intros (regs' & X1 & X2). exists g', F', regs'. split; auto. eapply jv_move; eauto; [reflexivity|apply incl_appl, incl_refl]. }
      apply GO. destruct (plain_dec' o) as [Hp|Hp].
      * assert (Hw : nop_wf o) by (destruct o; try (destruct Hc; fail); cbn; auto).
        destruct (n_step_rcall _ _ _ _ Hp Hw Hs) as (im & l & O1 & O2 & O3).
        cut (exists regs', rext (r_id (rn_raft n')) regs regs' /\ nok T1 R1 F1 A1 regs' (asks_of id (asked ++ put_to_leader (ECall id o out, cl'))) J [] (rn_raft n')); [rewrite N1; auto|].
        eapply (rcall_nok T1 R1 F1 A1 RA regs (asks_of id asked) _ I J im); [exact HI|apply asks_of_app|exact O2| | |exact N4|exact N5| | |exact K|exact O3|].
        -- intros X. exfalso. destruct o; try (destruct Hc; fail); cbn in O1; try tauto; subst im; discriminate.
        -- rewrite N1. auto.
        -- intros acks _. apply HQ; auto.
        -- destruct o; try (destruct Hc; fail); cbn in O1; try (unfold mok; destruct (m_type im); auto; tauto).
           subst im. unfold mok, one. cbn. eexists. split; [reflexivity|]. right. exists id, out, cl'. left. reflexivity.
        -- intros X1 X2. destruct o; try (destruct Hc; fail); cbn in O1; try tauto. subst im. change (ctx0 (read_index_msg ctx)) with ctx.
           assert (Hput : put_to_leader (ECall id (NReadIndex ctx) out, cl') = [(id, ctx)]).
           { cbn [put_to_leader]. unfold leads. unfold runs in Hr'. rewrite Hr'. unfold node_role. cbn. rewrite X2. auto. }
           rewrite Hput in *. rewrite !asks_of_In. split; [|apply in_or_app; right; left; auto].
           intros X. apply NoDup_remove_2 in Hnd. apply Hnd. rewrite app_nil_r. auto.
      * exists regs. split; [apply rext_refl|]. eapply qn_nok; [eapply not_plain_qn; eauto|]. eapply nok_mono; [..|exact K]; auto; [intros; apply incl_refl|apply asks_of_app].
    + intros id0 o0 out0 rd X Ho x Hx. injection X as <- <- <-. destruct (step_out _ _ _ _ Hs _ Ho) as [E1 _]. rewrite E1 in Hx.
      apply (nk_rs _ _ _ _ _ _ _ _ _ K). auto.
  - set (cl' := mkCluster _ _ _) in *. pose proof (j_n _ _ _ _ _ _ V _ _ Hn) as K.
    destruct (node_hyps T1 F1 g F cl id n (j_c _ _ _ _ _ _ V) Hn (j_F _ _ _ _ _ _ V) (j_T _ _ _ _ _ _ V)) as (Eid & _).
    assert (Hr' : runs cl' id n') by (unfold runs, cl'; cbn; rewrite mget_mset, N.eqb_refl; auto).
    destruct (node_hyps T1 F1 g' F' cl' id n' C' Hr' HF HT) as (N1 & N2 & N3 & N4 & N5 & N6 & N7).
    split; [|discriminate]. pose proof (j_net _ _ _ _ _ _ V) as Mn. rewrite Forall_forall in Mn. specialize (Mn m Hin).
    assert (Hw : nop_wf (NStep m)). { cbn. pose proof (ci_net _ _ _ _ _ (j_c _ _ _ _ _ _ V)) as X. rewrite Forall_forall in X. apply (X m Hin). }
    destruct (n_step_rcall (NStep m) _ _ _ Logic.I Hw Hs) as (im & l & O1 & O2 & O3). cbn in O1. subst im.
    assert (Mj : mok T1 R1 F1 A1 regs J m) by (eapply mok_mono; [| |exact Mn]; auto; intros; apply incl_refl).
    assert (K2 : exists regs', rext (r_id (rn_raft n')) regs regs' /\ nok T1 R1 F1 A1 regs' (asks_of id (asked ++ put_to_leader (EDeliver id m, cl'))) J [] (rn_raft n')).
    { eapply (rcall_nok T1 R1 F1 A1 RA regs (asks_of id asked) _ I J m); [exact HI|apply asks_of_app|exact O2| | |exact N4|exact N5| |exact Mj|exact K|exact O3|].
      - intros _. congruence.
      - rewrite N1. auto.
      - intros acks _. apply HQ; auto.
      - intros X1 X2. unfold mok in Mj. rewrite X1 in Mj. destruct Mj as (e & Me & _).
        assert (Hput : put_to_leader (EDeliver id m, cl') = [(id, ctx0 m)]).
        { cbn [put_to_leader]. unfold ctx0. rewrite X1, Me. unfold leads. unfold runs in Hr'. rewrite Hr'. unfold node_role. cbn. rewrite X2. auto. }
        rewrite Hput in *. rewrite !asks_of_In. split; [|apply in_or_app; right; left; auto].
        intros X. apply NoDup_remove_2 in Hnd. apply Hnd. rewrite app_nil_r. auto. }
    rewrite N1 in K2. destruct K2 as (regs' & X1 & X2). exists g', F', regs'. split; auto. eapply jv_move; eauto; [reflexivity|apply incl_appl, incl_refl|].
    unfold cl'. cbn [cl_net]. eapply Forall_impl; [|exact (j_net _ _ _ _ _ _ V)]. intros x. apply mok_mono; auto. apply X1.
  - set (cl' := mkCluster _ _ _) in *. pose proof (j_n _ _ _ _ _ _ V _ _ Hn) as K.
    destruct (node_hyps T1 F1 g F cl id n (j_c _ _ _ _ _ _ V) Hn (j_F _ _ _ _ _ _ V) (j_T _ _ _ _ _ _ V)) as (Eid & _).
    assert (Hr' : runs cl' id n') by (unfold runs, cl'; cbn; rewrite mget_mset, N.eqb_refl; auto).
    destruct (node_hyps T1 F1 g' F' cl' id n' C' Hr' HF HT) as (N1 & _).
    split; [|discriminate]. exists g', F', regs. split; auto.
    eapply jv_move; [exact V|exact C'|exact G'|reflexivity|exact N1|apply rext_refl|apply incl_appl, incl_refl|exact HI| |].
    + apply rn_new_spec in Hr. destruct Hr as (r & Hr & ->). cbn [rn_raft] in *. apply raft_new_spec in Hr. destruct Hr as (s & cp & _ & _ & _ & _ & _ & _ & Fr).
      assert (Ei : r_id (rn_raft n) = r_id r) by congruence.
      destruct K as [K1 K2 K3 K4 K5 K6 K7 K8 K9]. rewrite Ei in *. constructor; rewrite ?(fr_ro _ _ _ _ Fr), ?(fr_pend _ _ _ _ Fr), ?(fr_reads _ _ _ _ Fr), ?(fr_msgs _ _ _ _ Fr); auto.
      * cbn. rewrite app_nil_r. eapply nodup_left; eauto.
      * cbn. rewrite app_nil_r. intros x Hx. apply asks_of_app, K3, in_or_app. auto.
      * intros m [].
      * exists []. split; [apply ro_rel_new|]. split; auto. split; [intros x []|]. split; [intros x []|exact Logic.I].
      * intros x [].
    + unfold cl'. cbn [cl_net]. eapply Forall_impl; [|exact (j_net _ _ _ _ _ _ V)]. intros x. apply mok_mono; auto. intros; apply incl_refl.
Qed.

Lemma trace_jv g F cl regs asked (I : string -> Prop) tr cl' :
  jv g F cl regs asked I -> trace cs cl tr cl' -> (forall x, In x tr -> safe_event (fst x)) -> NoDup (asked ++ flat_map put_to_leader tr) ->
  (exists g' F' regs', jv g' F' cl' regs' (asked ++ flat_map put_to_leader tr) (fun c => I c \/ issued tr c) /\ grows g F g' F') /\
  (forall i c, read_given tr i c -> A1 c \/ goodi F1 i).
Proof.
  intros V H. revert g F regs asked I V. induction H as [cl|cl ev cl1 tr cl2 H Ht IH]; intros g F regs asked I V Hsafe Hnd.
  - split; [|intros i c (id & o & out & cl0 & rd & [] & _)]. exists g, F, regs. split; [|apply grows_refl]. cbn. rewrite app_nil_r.
    eapply jv_weak; eauto.
  - cbn [flat_map] in *. rewrite app_assoc in Hnd. destruct (estep_jv _ _ _ _ _ _ _ _ V H (Hsafe _ (or_introl eq_refl)) (nodup_left _ _ Hnd)) as [(g1 & F1' & regs1 & V1 & G1) R].
    destruct (IH _ _ _ _ _ V1 (fun x Hx => Hsafe x (or_intror Hx)) Hnd) as [(g2 & F2 & regs2 & V2 & G2) R2]. split.
    + exists g2, F2, regs2. split; [|eapply grows_trans; eauto]. rewrite app_assoc. eapply jv_weak; [exact V2|].
      intros c [[Hc|(id & out & x & [Hc|[]])]|(id & out & x & Hc)]; auto; right; exists id, out, x; cbn; auto.
    + intros i c (id & o & out & x & rd & [Hin|Hin] & Ho & Hr).
      * injection Hin as -> ->. apply (R _ _ _ _ eq_refl Ho) in Hr. apply Hr.
      * apply R2. exists id, o, out, x, rd. auto.
Qed.
End Run.

(** A later moment as the reference. *)
Lemma jv_rebase T1 R1 F1 A1 g F cl regs asked (I : string -> Prop) :
  jv T1 R1 F1 A1 g F cl regs asked I -> jv (fun v => an_term (g v)) regs F I g F cl regs asked I.
Proof.
  intros V. destruct V as [V1 V2 V3 V4 V5 V6]. constructor; auto; [lia|apply incl_refl| |].
  - intros id n Hn. destruct (V4 id n Hn) as [K1 K2 K3 K4 K5 K6 (q & Q1 & Q2 & Q3 & Q4 & Q5) K8 K9]. constructor; auto; [apply incl_refl| | |].
    + exists q. split; auto. split; auto. split; auto. split; auto. clear - Q3. induction q as [|x b IH]; cbn; auto. split; [left; apply Q3; left; auto|]. apply IH. intros c Hc. apply Q3. right. auto.
    + intros x Hx. destruct (K8 x Hx). split; auto.
    + eapply Forall_impl; [|exact K9]. intros m. apply mok_rebase.
  - eapply Forall_impl; [|exact V5]. intros m. apply mok_rebase.
Qed.
End Lin.

(** The beginning. *)
Lemma start_jv {E : Env} cs t0 g F cl : cinv cs t0 g F cl -> cluster_start cs cl -> (forall id n, runs cl id n -> safe_mode n) ->
  jv cs t0 (fun _ => 0) (fun _ => []) [] (fun _ => False) g F cl (fun _ => []) [] (fun _ => False).
Proof.
  intros C S Hsafe. constructor; auto; [intros; apply N.le_0_l|intros f []| |rewrite (ct_net _ _ S); constructor].
  intros id n Hn. destruct (ct_nodes _ _ S) as (i0 & u0 & _ & Hx). destruct (Hx id n Hn) as (c & tape & s & _ & _ & _ & Hr). specialize (Hsafe id n Hn). unfold safe_mode in Hsafe.
  apply rn_new_spec in Hr. destruct Hr as (r & Hr & ->). cbn [rn_raft] in *. apply raft_new_spec in Hr. destruct Hr as (s' & cp & _ & _ & _ & _ & _ & _ & Fr).
  constructor; rewrite ?(fr_pend _ _ _ _ Fr), ?(fr_reads _ _ _ _ Fr), ?(fr_msgs _ _ _ _ Fr); auto; cbn; try (intros x []); try constructor.
  exists []. rewrite (fr_ro _ _ _ _ Fr). split; [apply ro_rel_new|]. split; auto. split; [intros x []|]. split; [intros x []|exact Logic.I].
Qed.
