(** Simulation: what a leader sends. *)
From Coq Require Import Permutation.
From Verif Require Import Prelude Types M_Util M_Quorum M_Inflights M_Progress M_Tracker.
From Verif Require Import M_Storage M_Unstable M_Log M_ReadOnly M_ConfPb M_ConfChange M_Raft M_RawNode.
From Verif Require Import Spec_Quorum P_Quorum P_Inflights Spec_Log P_Lists P_Storage P_Log P_RaftLogSeq P_Frame P_Prim Sys_Node P_Node P_Fields P_New P_NodeLog P_Ack P_Lead A_Proto Sys_Cluster R_Log R_Sim R_Prim.

Lemma limit_take {E : Env} es mx : limit_size es mx = ntake (nlen (limit_size es mx)) es.
Proof.
  destruct (limit_size_prefix es mx) as [rest H]. rewrite H at 3. rewrite ntake_app, N.sub_diag, ntake_0, app_nil_r, ntake_all by lia. auto.
Qed.
Lemma entries_cases {E : Env} i mx l es : lwf0 l -> log_entries i mx l = Ok (SOk es) ->
  (a_first (log_abs l) <= i \/ (a_last (log_abs l) < i /\ es = [])) /\
  es = ntake (nlen es) (ndrop (i - a_first (log_abs l)) (a_ents (log_abs l))).
Proof.
  intros W H. destruct (N.le_gt_cases (a_first (log_abs l)) i) as [Hi|Hi].
  - rewrite log_entries_abs in H by auto. apply Ok_inj in H. injection H as <-. split; auto. apply limit_take.
  - rewrite log_entries_compacted in H by auto. destruct (N.ltb_spec (a_last (log_abs l)) i); [|discriminate].
    apply Ok_inj in H. injection H as <-. split; auto.
Qed.
Lemma lgood_of {E : Env} l : linv l -> lgood l.
Proof.
  intros I. pose proof (lwf_0 _ (li_wf _ I)) as W. pose proof (log_abs_wf _ W) as Wa. split.
  - intros i mx es e es' H Hr. destruct (entries_cases _ _ _ _ W H) as [_ He]. apply rev_last in Hr.
    assert (Hin : In e es) by (rewrite Hr; apply in_or_app; right; left; auto).
    apply In_nnth in Hin. destruct Hin as [k Hk]. rewrite He, nnth_ntake', nnth_ndrop in Hk.
    destruct (_ <? _); [|discriminate]. pose proof (nnth_some_len _ _ _ Hk). rewrite (Wa _ _ Hk), log_last_abs by auto.
    unfold a_last. lia.
  - intros sn H. rewrite log_last_abs by auto. unfold log_snapshot in H. destruct I as [W1 _ S]. destruct W1 as [_ _ _ C _].
    unfold log_abs in *. destruct (u_snap (l_us l)).
    + injection H as <-. cbn in *. unfold a_last; cbn. lia.
    + injection H as <-. cbn in *. lia.
Qed.
Lemma lastterm_pos (L : list entry) : (forall e, In e L -> 0 < e_term e) -> L <> [] -> 0 < lastterm L.
Proof. intros H Hn. destruct (lastterm_nth L Hn) as (e & H1 & ->). apply H. eapply nnth_In; eauto. Qed.

Section RSend.
Context {E : Env}.
Variable cs : confstate.
Variable t0 : N.
Variables (g : N -> anode) (F : list fact) (id : N).
Hypothesis G : ginv (vquorum cs) t0 g F.
Hypothesis Hid : id <> 0.
Variables (r : raft).
Hypothesis V : vrel cs id F (g id) r.
Hypothesis Hn : ninv r.

Notation L := (an_log (g id)).
Lemma wf0 : lwf0 (r_log r). Proof. apply lwf_0, (li_wf _ (ni_log _ Hn)). Qed.
Lemma last_is : a_last (log_abs (r_log r)) = nlen L.
Proof. apply (lr_last _ _ (v_log _ _ _ _ _ V)). Qed.

Lemma lead_fact : r_state r = RLeader -> In (FLead (r_term r) id L) F /\ 0 < r_term r.
Proof.
  intros H. destruct (gi_top _ _ _ _ G id) as (H1 & H2 & _); [rewrite (v_role _ _ _ _ _ V), H; auto|].
  rewrite (v_term _ _ _ _ _ V) in *. split; auto. lia.
Qed.
Lemma com_fact : exists t C, In (FCom t C) F /\ t <= r_term r /\ pre (ntake (l_committed (r_log r)) L) C.
Proof.
  destruct (gi_com _ _ _ _ G id) as (_ & t & C & H1 & H2 & H3). exists t, C. rewrite <- (v_term _ _ _ _ _ V), <- (v_com _ _ _ _ _ V). auto.
Qed.
Lemma com_le : l_committed (r_log r) <= nlen L.
Proof. rewrite <- (v_com _ _ _ _ _ V). apply (gi_com _ _ _ _ G id). Qed.

Lemma smsg_ok m : r_state r = RLeader -> smsg r m -> msg_ok cs F m.
Proof.
  intros HL H. destruct (lead_fact HL) as [HF Hp]. pose proof wf0 as W. pose proof last_is as La.
  assert (Hr : r_id r <> 0) by (rewrite (v_id _ _ _ _ _ V); auto).
  destruct com_fact as (tc & C & C1 & C2 & C3). pose proof com_le as C4.
  destruct H as [to next t es pr H1 H2 H3 H4 H5|to sn H1 H2 H3|to pr ctx H1 H2|to pr H1 H2 H3|to i es].
  - specialize (H5 (lgood_of _ (ni_log _ Hn)) (v_next _ _ _ _ _ V HL)). clear H2.
    unfold r_last in H5. rewrite log_last_abs in H5 by auto. rewrite La in H5.
    assert (Hw : wsub next 1 = next - 1) by (unfold wsub; destruct (N.leb_spec 1 next); auto; lia).
    rewrite Hw in *. rewrite log_term_abs in H3 by auto. apply Ok_inj in H3. injection H3 as H3.
    destruct (entries_cases _ _ _ _ W H4) as [B Es].
    assert (Hb : a_base (log_abs (r_log r)) + 1 <= next).
    { destruct B as [B|[B _]]; unfold a_first in *; [lia|]. unfold a_last in *. lia. }
    pose proof (v_log _ _ _ _ _ V) as LR. pose proof LR as [R1 R2 R3].
    rewrite (lr_term_eq _ _ _ LR) in H3 by lia. subst t.
    unfold a_first in Es. rewrite R2, ndrop_ndrop in Es.
    replace (next - (a_base (log_abs (r_log r)) + 1) + a_base (log_abs (r_log r))) with (next - 1) in Es by lia.
    replace (a_base (log_abs (r_log r)) + (next - (a_base (log_abs (r_log r)) + 1))) with (next - 1) in Es by lia.
    assert (Hlen : next - 1 + nlen es <= nlen L).
    { assert (X : nlen es = N.min (nlen es) (nlen L - (next - 1))) by (rewrite Es at 1; rewrite nlen_ntake, nlen_ndrop; auto). lia. }
    pose proof (ni_pos _ Hn) as [[P2 P1] _ _ _].
    constructor; cbn [m_type m_from m_term m_index m_entries m_logterm m_commit].
    + split; cbn; auto. lia.
    + split; cbn; [|discriminate]. intros _. split; [|split]; cbn.
      * replace (next - 1 + 1) with next by lia. intros k e Hk. rewrite Es, nnth_ntake', nnth_ndrop in Hk. destruct (N.ltb_spec k (nlen es)); [|discriminate].
        pose proof (log_abs_wf _ W) as Wa. assert (X : nnth (a_ents (log_abs (r_log r))) (next - 1 - a_base (log_abs (r_log r)) + k) = Some e).
        { rewrite R2, nnth_ndrop, <- Hk. f_equal. lia. }
        rewrite (Wa _ _ X). lia.
      * intros e He. apply In_nnth in He. destruct He as [k Hk]. rewrite Es, nnth_ntake', nnth_ndrop in Hk. destruct (_ <? _); [|discriminate].
        apply P2. rewrite R2. apply (nnth_In _ (next - 1 - a_base (log_abs (r_log r)) + k)). rewrite nnth_ndrop, <- Hk. f_equal. lia.
      * intros Hz. destruct (N.eq_dec (next - 1) 0) as [|Hz']; auto. exfalso.
        assert (X : 0 < lastterm (ntake (next - 1) L)); [|lia].
        apply (apos_term (log_abs (r_log r)) (next - 1)); auto; [constructor; auto|]. apply lr_term_eq; auto. lia.
    + unfold msg_fact. cbn. rewrite (v_id _ _ _ _ _ V). exists L, tc, C. repeat match goal with |- _ /\ _ => split end; auto.
  - assert (X : snap_ok cs L (l_committed (r_log r)) sn).
    { unfold log_snapshot in H2. destruct (u_snap (l_us (r_log r))) as [us|] eqn:Eu.
      - injection H2 as <-. pose proof (lwf_com _ (li_wf _ (ni_log _ Hn))) as Cb. pose proof (v_log _ _ _ _ _ V) as [R1 R2 R3].
        unfold log_abs in Cb, R3. rewrite Eu in Cb, R3. cbn in Cb, R3. split; [lia|]. split; auto. apply (v_usnap _ _ _ _ _ V). auto.
      - injection H2 as <-. rewrite <- (v_com _ _ _ _ _ V). apply (v_ssnap _ _ _ _ _ V). }
    destruct X as (X1 & X2 & X3).
    constructor; cbn [m_type m_from m_term m_snap].
    + split; cbn; auto. lia.
    + split; cbn; [discriminate|]. intros _ Hz. pose proof (ni_pos _ Hn) as [[_ P1] _ P3 _]. unfold log_snapshot in H2. unfold log_abs in P1.
      destruct (u_snap (l_us (r_log r))); injection H2 as <-; auto.
    + unfold msg_fact. cbn. rewrite (v_id _ _ _ _ _ V). exists L, tc, C. repeat match goal with |- _ /\ _ => split end; auto; [lia|].
      eapply pre_trans; [|exact C3]. apply pre_in_take; [apply pre_ntake|]. rewrite nlen_ntake. lia.
  - apply ok_plain; cbn; auto; try discriminate; [lia|].
    unfold trk_get in H1. split; [exists L; rewrite (v_id _ _ _ _ _ V); exact HF|]. destruct (v_match _ _ _ _ _ V HL _ _ H1) as [->|(LA & A1 & A2)]; [left; lia|]. right.
    exists LA, tc, C. pose proof (ack_in_lead _ _ _ _ G id to LA) as A3. rewrite (v_role _ _ _ _ _ V), HL, (v_term _ _ _ _ _ V) in A3.
    specialize (A3 eq_refl A1). repeat match goal with |- _ /\ _ => split end; auto; try lia.
    eapply pre_trans; [|exact C3]. rewrite (pre_take_eq _ _ _ A3) by lia. apply pre_in_take; [apply pre_ntake|]. rewrite nlen_ntake. lia.
  - apply ok_plain; cbn; auto; try discriminate; lia.
  - apply ok_plain; cbn; auto; try discriminate; lia.
Qed.

Lemma sends_sim r' : Forall (msg_ok cs F) (r_msgs r) -> r_state r = RLeader -> sends r r' -> simulated cs id F (g id) r'.
Proof.
  intros MS HL [S P Nx (ms & E1 & E2)]. pose proof S as []. apply sim_none.
  - apply (vrel_same cs id F (g id) r); auto; try congruence.
    + intros v p Hp. destruct (pr_same_get _ _ _ _ P Hp) as (p0 & H0 & (H1 & _)). exists p0. split; auto.
    + intros _ X. apply Nx; auto. apply lgood_of, Hn.
  - rewrite E1. apply Forall_app. split; auto. eapply Forall_impl; [|exact E2]. intros m. apply smsg_ok. auto.
Qed.
End RSend.
