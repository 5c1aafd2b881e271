(** Proofs about the Changer and Restore. *)
From Verif Require Import Prelude Types M_Quorum M_Inflights M_Progress M_Tracker M_ConfChange.
From Verif Require Import Spec_Quorum Spec_ConfChange P_Quorum.

(** The part of [conf_wf] that holds at every intermediate point. *)
Record cinv (c : tconfig) (prs : nmap progress) : Prop := {
  ci_in : sorted (tc_incoming c);
  ci_out : sorted (tc_outgoing c);
  ci_lrn : sorted (tc_learners c);
  ci_nxt : sorted (tc_learners_next c);
  ci_prs : msorted prs;
  ci_disj : forall id, In id (tc_learners c) -> ~ In id (tc_incoming c) /\ ~ In id (tc_outgoing c);
  ci_next : forall id, In id (tc_learners_next c) ->
                       In id (tc_outgoing c) /\ ~ In id (tc_incoming c);
  ci_trk : forall id, mget id prs <> None <->
             In id (tc_incoming c) \/ In id (tc_outgoing c) \/ In id (tc_learners c);
  ci_mark : forall id p, mget id prs = Some p -> (p_learner p = true <-> In id (tc_learners c))
}.

Lemma conf_wf_cinv c prs :
  conf_wf c prs <-> cinv c prs /\ (tc_outgoing c = [] -> tc_learners_next c = [] /\ tc_auto_leave c = false).
Proof.
  split; [intros []; split; [constructor|]; auto|intros [[] ?]; constructor; auto].
Qed.

Ltac trk1 H id :=
  let T := fresh "T" in
  pose proof (ci_trk _ _ H id) as T;
  let D := fresh "D" in pose proof (ci_disj _ _ H id) as D;
  let X := fresh "X" in pose proof (ci_next _ _ H id) as X.

Ltac sets := rewrite ?In_sadd, ?In_sdel in *.

Definition step_in (t : cctype) (old : Prop) : Prop :=
  match t with CcAddNode => True | CcUpdateNode => old | _ => False end.

Lemma apply_one_ok ch cc c prs c' prs' :
  cinv c prs -> apply_one ch cc (c, prs) = (c', prs') ->
  cinv c' prs' /\ tc_outgoing c' = tc_outgoing c /\ tc_auto_leave c' = tc_auto_leave c /\
  (forall id, concerns id cc = false ->
     (In id (tc_incoming c') <-> In id (tc_incoming c)) /\
     (In id (tc_learners c') <-> In id (tc_learners c)) /\
     (In id (tc_learners_next c') <-> In id (tc_learners_next c)) /\
     mget id prs' = mget id prs) /\
  (forall id, concerns id cc = true ->
     (In id (tc_incoming c') <-> cc_type cc = CcAddNode) /\
     (In id (tc_learners c') <-> cc_type cc = CcAddLearnerNode /\ ~ In id (tc_outgoing c)) /\
     (In id (tc_learners_next c') <-> cc_type cc = CcAddLearnerNode /\ In id (tc_outgoing c))).
Proof.
  intros H Hap. unfold apply_one in Hap. destruct cc as [t n]; cbn [cc_node cc_type] in *.
  destruct (N.eqb_spec n 0) as [->|Hn0].
  { inv Hap. split; [auto|split; [auto|split; [auto|]]].
    split; intros id' Hc; [tauto|].
    unfold concerns in Hc; cbn [cc_node cc_type] in Hc. exfalso. lia. }
  assert (Hconc : forall id, concerns id {| cc_type := t; cc_node := n |} =
            ((n =? id) && match t with CcUpdateNode => false | _ => true end)%bool).
  { intros id. unfold concerns; cbn. destruct (N.eqb_spec n id); cbn; auto. subst.
    destruct (N.eqb_spec id 0); [contradiction|]; auto. }
  destruct t.
  - (* make_voter *)
    unfold make_voter in Hap. destruct (mget n prs) as [p|] eqn:Hg.
    + inv Hap. cbn.
      split; [|split; [auto|split; [auto|]]].
      * constructor; cbn; try (apply sorted_sadd || apply sorted_sdel || apply msorted_mset); try apply H.
        -- intros id; sets; trk1 H id. tauto.
        -- intros id; sets; trk1 H id. tauto.
        -- intros id; sets; trk1 H id. rewrite mget_mset. destruct (N.eqb_spec id n) as [->|].
           ++ split; [auto|congruence].
           ++ rewrite T. tauto.
        -- intros id q; sets; rewrite mget_mset. destruct (N.eqb_spec id n) as [->|].
           ++ intros E; inv E; cbn. split; [congruence|tauto].
           ++ intros E. pose proof (ci_mark _ _ H _ _ E). tauto.
      * split; intros id Hc; rewrite Hconc in Hc; rewrite ?mget_mset; sets;
          destruct (N.eqb_spec n id) as [->|]; cbn in Hc; try discriminate Hc.
        -- destruct (N.eqb_spec id n); [congruence|]. intuition congruence.
        -- intuition congruence.
    + unfold init_progress in Hap. inv Hap. cbn.
      assert (Hno : ~ In n (tc_incoming c) /\ ~ In n (tc_outgoing c) /\ ~ In n (tc_learners c) /\
                    ~ In n (tc_learners_next c)).
      { trk1 H n. rewrite Hg in T. intuition. }
      split; [|split; [auto|split; [auto|]]].
      * constructor; cbn; try (apply sorted_sadd || apply msorted_mset); try apply H.
        -- intros id Hi; sets; trk1 H id. intuition (subst; tauto).
        -- intros id Hi; sets; trk1 H id. intuition (subst; tauto).
        -- intros id; sets; trk1 H id. rewrite mget_mset. destruct (N.eqb_spec id n) as [->|].
           ++ split; [auto|congruence].
           ++ rewrite T. tauto.
        -- intros id q; rewrite mget_mset. destruct (N.eqb_spec id n) as [->|].
           ++ intros E; inv E; cbn. split; [congruence|tauto].
           ++ intros E. pose proof (ci_mark _ _ H _ _ E). tauto.
      * split; intros id Hc; rewrite Hconc in Hc; rewrite ?mget_mset; sets;
          destruct (N.eqb_spec n id) as [->|]; cbn in Hc; try discriminate Hc.
        -- destruct (N.eqb_spec id n); [congruence|]. intuition congruence.
        -- intuition congruence.
  - (* remove *)
    unfold remove_node in Hap. destruct (mget n prs) as [p|] eqn:Hg.
    + inv Hap. cbn.
      split; [|split; [auto|split; [auto|]]].
      * constructor; cbn; try (apply sorted_sdel); try apply H.
        -- destruct (smem n (tc_outgoing c)); [|apply msorted_mdel]; apply H.
        -- intros id; sets; trk1 H id. tauto.
        -- intros id; sets; trk1 H id. tauto.
        -- intros id; sets; trk1 H id. destruct (smem n (tc_outgoing c)) eqn:Hs.
           ++ apply smem_In in Hs. rewrite T. destruct (N.eq_dec id n); [subst|]; tauto.
           ++ apply smem_not_In in Hs. rewrite mget_mdel. destruct (N.eqb_spec id n) as [->|].
              ** split; [congruence|tauto].
              ** rewrite T. tauto.
        -- intros id q; sets. intros E.
           assert (E' : mget id prs = Some q /\ (id = n -> In n (tc_outgoing c))).
           { destruct (smem n (tc_outgoing c)) eqn:Hs; [apply smem_In in Hs; tauto|].
             rewrite mget_mdel in E. destruct (N.eqb_spec id n); [discriminate|]. tauto. }
           destruct E' as [E' Hno]. pose proof (ci_mark _ _ H _ _ E') as M.
           trk1 H id. split; [|tauto]. intros Hl. split; [|tauto]. intros ->. tauto.
      * split; intros id Hc; rewrite Hconc in Hc; sets;
          destruct (N.eqb_spec n id) as [->|]; cbn in Hc; try discriminate Hc.
        -- split; [intuition congruence|]. split; [intuition congruence|]. split; [intuition congruence|].
           destruct (smem n (tc_outgoing c)); auto. rewrite mget_mdel.
           destruct (N.eqb_spec id n); [congruence|auto].
        -- intuition congruence.
    + inv Hap. split; [auto|split; [auto|split; [auto|]]].
      trk1 H n. rewrite Hg in T.
      split; intros id Hc; rewrite Hconc in Hc;
          destruct (N.eqb_spec n id) as [->|]; cbn in Hc; try discriminate Hc; intuition congruence.
  - (* update *)
    inv Hap. split; [auto|split; [auto|split; [auto|]]].
    split; intros id Hc; rewrite Hconc in Hc; rewrite andb_false_r in Hc; try discriminate Hc; tauto.
  - (* make_learner *)
    unfold make_learner in Hap. destruct (mget n prs) as [p|] eqn:Hg.
    + pose proof (ci_mark _ _ H _ _ Hg) as M.
      destruct (p_learner p) eqn:Hl.
      { inv Hap. split; [auto|split; [auto|split; [auto|]]].
        trk1 H n.
        split; intros id Hc; rewrite Hconc in Hc;
          destruct (N.eqb_spec n id) as [->|]; cbn in Hc; try discriminate Hc; [intuition congruence|].
        intuition congruence. }
      unfold remove_node in Hap. rewrite Hg in Hap. cbn [tc_outgoing set_tc_incoming set_tc_learners set_tc_learners_next] in Hap.
      destruct (smem n (tc_outgoing c)) eqn:Hs; inv Hap; cbn.
      * apply smem_In in Hs.
        split; [|split; [auto|split; [auto|]]].
        -- constructor; cbn; try (apply sorted_sadd); try (apply sorted_sdel); try apply msorted_mset; try apply H.
           ++ intros id; sets; trk1 H id. tauto.
           ++ intros id; sets; trk1 H id. intros [->|]; tauto.
           ++ intros id; sets; trk1 H id. rewrite mget_mset. destruct (N.eqb_spec id n) as [->|].
              ** split; [auto|congruence].
              ** rewrite T. tauto.
           ++ intros id q; sets; rewrite mget_mset. destruct (N.eqb_spec id n) as [->|].
              ** intros E; inv E. rewrite Hl. split; [congruence|tauto].
              ** intros E. pose proof (ci_mark _ _ H _ _ E). tauto.
        -- split; intros id Hc; rewrite Hconc in Hc; rewrite ?mget_mset; sets;
             destruct (N.eqb_spec n id) as [->|]; cbn in Hc; try discriminate Hc.
           ++ destruct (N.eqb_spec id n); [congruence|]. intuition congruence.
           ++ intuition congruence.
      * apply smem_not_In in Hs.
        split; [|split; [auto|split; [auto|]]].
        -- constructor; cbn; try (apply sorted_sadd); try (apply sorted_sdel); try apply msorted_mset;
             try apply msorted_mdel; try apply H.
           ++ intros id; sets; trk1 H id. intros [->|]; tauto.
           ++ intros id; sets; trk1 H id. tauto.
           ++ intros id; sets; trk1 H id. rewrite mget_mset, mget_mdel. destruct (N.eqb_spec id n) as [->|].
              ** split; [auto|congruence].
              ** rewrite T. tauto.
           ++ intros id q; sets; rewrite mget_mset, mget_mdel. destruct (N.eqb_spec id n) as [->|].
              ** intros E; inv E. cbn. tauto.
              ** intros E. pose proof (ci_mark _ _ H _ _ E). tauto.
        -- split; intros id Hc; rewrite Hconc in Hc; rewrite ?mget_mset, ?mget_mdel; sets;
             destruct (N.eqb_spec n id) as [->|]; cbn in Hc; try discriminate Hc.
           ++ destruct (N.eqb_spec id n); [congruence|]. intuition congruence.
           ++ trk1 H id. intuition congruence.
    + unfold init_progress in Hap. inv Hap. cbn.
      assert (Hno : ~ In n (tc_incoming c) /\ ~ In n (tc_outgoing c) /\ ~ In n (tc_learners c) /\
                    ~ In n (tc_learners_next c)).
      { trk1 H n. rewrite Hg in T. intuition. }
      split; [|split; [auto|split; [auto|]]].
      * constructor; cbn; try (apply sorted_sadd || apply msorted_mset); try apply H.
        -- intros id Hi; sets; trk1 H id. intuition (subst; tauto).
        -- intros id; sets; trk1 H id. rewrite mget_mset. destruct (N.eqb_spec id n) as [->|].
           ++ split; [auto|congruence].
           ++ rewrite T. tauto.
        -- intros id q; rewrite mget_mset. sets. destruct (N.eqb_spec id n) as [->|].
           ++ intros E; inv E; cbn. tauto.
           ++ intros E. pose proof (ci_mark _ _ H _ _ E). tauto.
      * split; intros id Hc; rewrite Hconc in Hc; rewrite ?mget_mset; sets;
          destruct (N.eqb_spec n id) as [->|]; cbn in Hc; try discriminate Hc.
        -- destruct (N.eqb_spec id n); [congruence|]. intuition congruence.
        -- intuition congruence.
Qed.

Lemma applied_refl c : applied c [] c.
Proof. constructor; intros id; cbn; tauto. Qed.

Lemma last_change_app id a b :
  last_change id (a ++ b) = match last_change id b with Some t => Some t | None => last_change id a end.
Proof.
  unfold last_change. rewrite fold_left_app.
  generalize (fold_left (fun acc cc => if concerns id cc then Some (cc_type cc) else acc) a None).
  induction b as [|cc b IH]; intros o; cbn; auto.
  destruct (concerns id cc); auto.
  rewrite (IH (Some (cc_type cc))).
  match goal with |- context[fold_left ?f b None] => destruct (fold_left f b None) end; auto.
Qed.

Lemma last_change_one id cc :
  last_change id [cc] = if concerns id cc then Some (cc_type cc) else None.
Proof. reflexivity. Qed.

Lemma concerns_type id cc : concerns id cc = true -> cc_type cc <> CcUpdateNode.
Proof. unfold concerns; destruct (cc_type cc); rewrite ?andb_false_r; congruence. Qed.

Lemma fold_apply_ok ch ccs : forall c prs c' prs',
  cinv c prs -> fold_left (fun acc cc => apply_one ch cc acc) ccs (c, prs) = (c', prs') ->
  cinv c' prs' /\ tc_outgoing c' = tc_outgoing c /\ tc_auto_leave c' = tc_auto_leave c /\
  applied c ccs c' /\
  (forall id, last_change id ccs = None -> mget id prs' = mget id prs).
Proof.
  induction ccs as [|cc ccs IH] using rev_ind; intros c prs c' prs' H Hf.
  - cbn in Hf; inv Hf. split; [auto|]. split; [auto|]. split; [auto|]. split; [apply applied_refl|auto].
  - rewrite fold_left_app in Hf. cbn in Hf.
    destruct (fold_left (fun acc cc => apply_one ch cc acc) ccs (c, prs)) as [c1 prs1] eqn:E1.
    destruct (IH _ _ _ _ H E1) as (H1 & Ho1 & Ha1 & Hap & Hg1).
    destruct (apply_one_ok _ _ _ _ _ _ H1 Hf) as (H2 & Ho2 & Ha2 & Hn & Hy).
    split; [auto|]. split; [congruence|]. split; [congruence|]. split.
    + constructor; intros id; rewrite last_change_app, last_change_one;
        destruct (concerns id cc) eqn:Hc;
        try (destruct (Hy _ Hc) as (A & B & C)); try (destruct (Hn _ Hc) as (A & B & C & _)).
      * auto.
      * rewrite A. apply Hap.
      * rewrite B, Ho2. tauto.
      * rewrite B, (ap_lrn _ _ _ Hap id), Ho2. tauto.
      * rewrite C, Ho2. tauto.
      * rewrite C, (ap_nxt _ _ _ Hap id), Ho2. tauto.
    + intros id. rewrite last_change_app, last_change_one.
      destruct (concerns id cc) eqn:Hc; [discriminate|].
      intros Hl. destruct (Hn _ Hc) as (_ & _ & _ & E). rewrite E. auto.
Qed.

Lemma has_progress_iff prs id : has_progress prs id = true <-> mget id prs <> None.
Proof. unfold has_progress. destruct (mget id prs); split; congruence. Qed.

Lemma joint_ids_In a b id : In id (joint_ids a b) <-> In id a \/ In id b.
Proof.
  unfold joint_ids.
  assert (G : forall l s, In id (fold_left (fun acc x => sadd x acc) l s) <-> In id l \/ In id s).
  { induction l as [|x l IH]; intros s; cbn; [tauto|]. rewrite IH, In_sadd. intuition. }
  rewrite !G. cbn. tauto.
Qed.

Lemma check_ok c prs : conf_wf c prs -> check_invariants c prs = None.
Proof.
  intros H. unfold check_invariants.
  assert (forall (f : N -> bool) l, (forall id, In id l -> f id = true) -> negb (forallb f l) = false) as F.
  { intros f l Hf. apply negb_false_iff, forallb_forall. auto. }
  assert (Hk : forall id, In id (tc_incoming c) \/ In id (tc_outgoing c) \/ In id (tc_learners c) ->
                          has_progress prs id = true).
  { intros id Hi. apply has_progress_iff, (cw_trk _ _ H). auto. }
  assert (Hm : forall id, has_progress prs id = true ->
            (marked_learner prs id = true <-> In id (tc_learners c))).
  { intros id Hp. apply has_progress_iff in Hp. unfold marked_learner.
    destruct (mget id prs) as [p|] eqn:E; [|congruence]. apply (cw_mark _ _ H _ _ E). }
  rewrite !F.
  - unfold tc_joint. destruct (tc_outgoing c) eqn:Ho; cbn; auto.
    destruct (cw_simple _ _ H Ho) as [-> ->]; auto.
  - intros id Hi. destruct (cw_disj _ _ H id Hi).
    apply andb_true_iff; split; [apply andb_true_iff; split|].
    + apply negb_true_iff, smem_not_In; auto.
    + apply negb_true_iff, smem_not_In; auto.
    + apply Hm; auto.
  - intros id Hi. destruct (cw_next _ _ H id Hi) as [Ho _].
    apply andb_true_iff; split; [apply smem_In; auto|].
    apply negb_true_iff. destruct (marked_learner prs id) eqn:E; auto.
    apply Hm in E; auto. destruct (cw_disj _ _ H id E). tauto.
  - intros id Hi. destruct (cw_next _ _ H id Hi). auto.
  - intros id Hi. auto.
  - intros id Hi. apply joint_ids_In in Hi. apply Hk; tauto.
Qed.

Lemma check_and_copy_ok ch :
  conf_wf (t_config (ch_trk ch)) (t_progress (ch_trk ch)) ->
  check_and_copy ch = SOk (t_config (ch_trk ch), t_progress (ch_trk ch)).
Proof. intros H. unfold check_and_copy, check_and_return; cbn [fst snd]. rewrite check_ok; auto. Qed.

Lemma tc_joint_false c : tc_joint c = false <-> tc_outgoing c = [].
Proof. unfold tc_joint. destruct (tc_outgoing c); cbn; split; congruence. Qed.
Lemma tc_joint_true c : tc_joint c = true <-> tc_outgoing c <> [].
Proof. unfold tc_joint. destruct (tc_outgoing c); cbn; split; congruence. Qed.

Lemma symdiff_le1 l r : sorted l -> sorted r ->
  (1 <? symdiff l r = true <->
   exists x y, x <> y /\ ~ (In x l <-> In x r) /\ ~ (In y l <-> In y r)).
Proof.
  intros Hl Hr. unfold symdiff.
  set (a := filter (fun id => negb (smem id r)) l).
  set (b := filter (fun id => negb (smem id l)) r).
  assert (Hin : forall x, In x (a ++ b) <-> ~ (In x l <-> In x r)).
  { intros x. rewrite in_app_iff. unfold a, b. rewrite !filter_In, !negb_true_iff, !smem_not_In.
    destruct (in_dec N.eq_dec x l), (in_dec N.eq_dec x r); tauto. }
  assert (Hnd : NoDup (a ++ b)).
  { assert (forall l1 l2 : list N, NoDup l1 -> NoDup l2 -> (forall x, In x l1 -> ~ In x l2) -> NoDup (l1 ++ l2)) as G.
    { induction l1 as [|x l1 IH]; intros l2 H1 H2 H3; cbn; auto. inv H1. constructor.
      - rewrite in_app_iff. intros [?|?]; [tauto|]. apply (H3 x); cbn; auto.
      - apply IH; auto. intros y Hy. apply H3; cbn; auto. }
    apply G; unfold a, b; try (apply NoDup_filter, sorted_NoDup; auto).
    intros x. rewrite !filter_In, !negb_true_iff, !smem_not_In. tauto. }
  rewrite <- nlen_app. generalize dependent (a ++ b). intros q Hin Hnd.
  split.
  - intros Hlt. destruct q as [|x [|y q]]; [rewrite nlen_nil in Hlt; lia| |].
    + rewrite nlen_cons, nlen_nil in Hlt; lia.
    + exists x, y. inv Hnd. repeat split; [|apply Hin; cbn; auto|apply Hin; cbn; auto].
      intros ->. apply H1; cbn; auto.
  - intros (x & y & Hne & Hx & Hy). apply Hin in Hx, Hy.
    destruct q as [|u [|v q]]; cbn in *; [tauto| |rewrite !nlen_cons; lia].
    destruct Hx, Hy; try tauto; congruence.
Qed.

Lemma ch_simple_spec ch ccs :
  let c := t_config (ch_trk ch) in let prs := t_progress (ch_trk ch) in
  conf_wf c prs ->
  match ch_simple ccs ch with
  | SOk (c', prs') =>
      tc_outgoing c = [] /\ tc_outgoing c' = [] /\ tc_incoming c' <> [] /\
      conf_wf c' prs' /\ applied c ccs c' /\
      ~ (exists x y, x <> y /\ changes_voter c ccs x /\ changes_voter c ccs y) /\
      (forall id, last_change id ccs = None -> mget id prs' = mget id prs)
  | SErr _ =>
      tc_outgoing c <> [] \/ (forall id, ~ voter_after c ccs id) \/
      exists x y, x <> y /\ changes_voter c ccs x /\ changes_voter c ccs y
  end.
Proof.
  intros c prs H. unfold ch_simple. rewrite check_and_copy_ok by auto. fold c prs.
  destruct (tc_joint c) eqn:Hj; [left; apply tc_joint_true; auto|].
  apply tc_joint_false in Hj.
  unfold ch_apply.
  destruct (fold_left (fun acc cc => apply_one ch cc acc) ccs (c, prs)) as [c' prs'] eqn:E.
  destruct (proj1 (conf_wf_cinv _ _) H) as [Hi Hs].
  destruct (fold_apply_ok _ _ _ _ _ _ Hi E) as (H' & Ho & Ha & Hap & Hg).
  cbn [fst].
  destruct (is_nil (tc_incoming c')) eqn:Hnil.
  { right; left. intros id. destruct (tc_incoming c') eqn:El; [|discriminate].
    intros Hv. unfold voter_after in Hv. apply (ap_in _ _ _ Hap id) in Hv. rewrite El in Hv. auto. }
  assert (Hch : forall x, changes_voter c ccs x <-> ~ (In x (tc_incoming c) <-> In x (tc_incoming c'))).
  { intros x. unfold changes_voter, voter_after. rewrite (ap_in _ _ _ Hap x). tauto. }
  pose proof (symdiff_le1 _ _ (ci_in _ _ Hi) (ci_in _ _ H')) as Hsd.
  destruct (1 <? symdiff (tc_incoming c) (tc_incoming c')) eqn:Hlt.
  { right; right. destruct (proj1 Hsd eq_refl) as (x & y & Hne & Hx & Hy).
    exists x, y. rewrite !Hch. auto. }
  assert (Hwf : conf_wf c' prs').
  { apply conf_wf_cinv. split; auto. intros _. rewrite Ha. destruct (Hs Hj) as [Hn0 Ha0].
    split; [|congruence]. destruct (tc_learners_next c') as [|z q] eqn:En; auto.
    destruct (ci_next _ _ H' z); [rewrite En; cbn; auto|].
    rewrite Ho, Hj in H0. destruct H0. }
  unfold check_and_return; cbn [fst snd]. rewrite check_ok by auto.
  split; [auto|]. split; [congruence|]. split; [destruct (tc_incoming c'); [discriminate|congruence]|].
  split; [auto|]. split; [auto|]. split; [|auto].
  intros (x & y & Hne & Hx & Hy). rewrite Hch in Hx, Hy.
  assert (false = true) by (apply Hsd; eauto). discriminate.
Qed.

Lemma ch_enter_joint_spec ch al ccs :
  let c := t_config (ch_trk ch) in let prs := t_progress (ch_trk ch) in
  conf_wf c prs ->
  match ch_enter_joint al ccs ch with
  | SOk (c', prs') =>
      tc_outgoing c = [] /\ tc_incoming c <> [] /\
      tc_outgoing c' = tc_incoming c /\ tc_incoming c' <> [] /\
      tc_auto_leave c' = al /\ conf_wf c' prs' /\ applied c ccs c' /\
      (forall id, last_change id ccs = None -> mget id prs' = mget id prs)
  | SErr _ =>
      tc_outgoing c <> [] \/ tc_incoming c = [] \/ (forall id, ~ voter_after c ccs id)
  end.
Proof.
  intros c prs H. unfold ch_enter_joint. rewrite check_and_copy_ok by auto. fold c prs.
  destruct (tc_joint c) eqn:Hj; [left; apply tc_joint_true; auto|].
  apply tc_joint_false in Hj.
  destruct (is_nil (tc_incoming c)) eqn:Hin.
  { right; left. destruct (tc_incoming c); [auto|discriminate]. }
  unfold ch_apply.
  set (c0 := set_tc_outgoing (tc_incoming c) c).
  destruct (fold_left (fun acc cc => apply_one ch cc acc) ccs (c0, prs)) as [c' prs'] eqn:E.
  destruct (proj1 (conf_wf_cinv _ _) H) as [Hi Hs]. destruct (Hs Hj) as [Hn0 Ha0].
  assert (Hi0 : cinv c0 prs).
  { destruct Hi. constructor; cbn; auto.
    - intros id Hx. destruct (ci_disj0 _ Hx); auto.
    - rewrite Hn0. intros id [].
    - intros id. rewrite ci_trk0, Hj. cbn. tauto. }
  destruct (fold_apply_ok _ _ _ _ _ _ Hi0 E) as (H' & Ho & Ha & Hap & Hg).
  assert (Hap' : applied c ccs c').
  { destruct Hap as [A B C]; constructor; auto. }
  cbn [fst].
  destruct (is_nil (tc_incoming c')) eqn:Hnil.
  { right; right. intros id. destruct (tc_incoming c') eqn:El; [|discriminate].
    intros Hv. unfold voter_after in Hv. apply (ap_in _ _ _ Hap' id) in Hv. rewrite El in Hv. auto. }
  assert (Hwf : conf_wf (set_tc_auto_leave al c') prs').
  { apply conf_wf_cinv. split; [destruct H'; constructor; auto|]. cbn. intros Hx. exfalso.
    rewrite Ho in Hx. cbn in Hx. rewrite Hx in Hin. discriminate. }
  unfold check_and_return; cbn [fst snd]. rewrite check_ok by auto. cbn.
  split; [auto|]. split; [destruct (tc_incoming c); [discriminate|congruence]|].
  split; [auto|]. split; [destruct (tc_incoming c'); [discriminate|congruence]|].
  split; [auto|]. split; [auto|]. split; [|auto].
  destruct Hap' as [A B C]; constructor; auto.
Qed.

Lemma promote_next_ok ids : forall c prs,
  (forall id, In id ids -> mget id prs <> None) -> msorted prs ->
  exists c' prs', promote_next ids (c, prs) = Ok (c', prs') /\
    c' = set_tc_learners (fold_left (fun acc id => sadd id acc) ids (tc_learners c)) c /\
    msorted prs' /\
    (forall id, mget id prs' = if smem id ids then option_map (set_p_learner true) (mget id prs)
                               else mget id prs).
Proof.
  induction ids as [|i ids IH]; intros c prs Hg Hs.
  - exists c, prs. cbn. split; [auto|]. split; [destruct c; auto|]. auto.
  - cbn. destruct (mget i prs) as [p|] eqn:E; [|exfalso; apply (Hg i); cbn; auto].
    destruct (IH (set_tc_learners (sadd i (tc_learners c)) c) (mset i (set_p_learner true p) prs))
      as (c' & prs' & E1 & Ec & Hs' & Hg').
    { intros id Hid. rewrite mget_mset. destruct (id =? i); [congruence|]. apply Hg; cbn; auto. }
    { apply msorted_mset; auto. }
    exists c', prs'. split; [exact E1|]. split; [rewrite Ec; destruct c; auto|]. split; [auto|].
    intros id. rewrite Hg', mget_mset. cbn [smem existsb]. fold (smem id ids).
    destruct (N.eqb_spec id i) as [->|]; cbn; auto.
    rewrite E; cbn. destruct (smem i ids); auto.
Qed.

Lemma fold_sadd_In id l : forall s,
  In id (fold_left (fun acc x => sadd x acc) l s) <-> In id l \/ In id s.
Proof. induction l as [|x l IH]; intros s; cbn; [tauto|]. rewrite IH, In_sadd. intuition. Qed.
Lemma fold_sadd_sorted l : forall s, sorted s -> sorted (fold_left (fun acc x => sadd x acc) l s).
Proof. induction l as [|x l IH]; intros s H; cbn; auto. apply IH, sorted_sadd; auto. Qed.

Lemma fold_mdel (f : N -> bool) l : forall (prs : nmap progress),
  msorted prs ->
  let prs' := fold_left (fun acc id => if f id then mdel id acc else acc) l prs in
  msorted prs' /\
  forall id, mget id prs' = if smem id l && f id then None else mget id prs.
Proof.
  induction l as [|x l IH]; intros prs Hs; cbn; [auto|].
  destruct (IH (if f x then mdel x prs else prs)) as [A B].
  { destruct (f x); auto. apply msorted_mdel; auto. }
  split; auto. intros id. rewrite B. fold (smem id l).
  destruct (N.eqb_spec id x) as [->|]; cbn.
  - destruct (f x) eqn:Ef; [rewrite mget_mdel, N.eqb_refl; destruct (smem x l); auto|].
    rewrite andb_false_r. auto.
  - destruct (f x); auto. rewrite mget_mdel. destruct (N.eqb_spec id x); [congruence|]. auto.
Qed.

Lemma ch_leave_joint_spec ch :
  let c := t_config (ch_trk ch) in let prs := t_progress (ch_trk ch) in
  conf_wf c prs ->
  match ch_leave_joint ch with
  | Ok (SOk (c', prs')) =>
      tc_outgoing c <> [] /\
      tc_incoming c' = tc_incoming c /\ tc_outgoing c' = [] /\ tc_learners_next c' = [] /\
      (forall id, In id (tc_learners c') <-> In id (tc_learners c) \/ In id (tc_learners_next c)) /\
      tc_auto_leave c' = false /\ conf_wf c' prs' /\
      (forall id p', mget id prs' = Some p' ->
         exists p, mget id prs = Some p /\ p' = set_p_learner (smem id (tc_learners c')) p)
  | Ok (SErr _) => tc_outgoing c = []
  | _ => False
  end.
Proof.
  intros c prs H. unfold ch_leave_joint. rewrite check_and_copy_ok by auto. fold c prs.
  destruct (tc_joint c) eqn:Hj; cbn [negb]; [|apply tc_joint_false; auto].
  apply tc_joint_true in Hj.
  destruct (promote_next_ok (tc_learners_next c) c prs) as (c1 & prs1 & E & Ec & Hs1 & Hg1).
  { intros id Hi. apply (cw_trk _ _ H). destruct (cw_next _ _ H id Hi); auto. }
  { apply H. }
  rewrite E. cbn [bind]. subst c1. cbn [tc_incoming tc_learners tc_outgoing set_tc_learners set_tc_learners_next].
  set (lr := fold_left (fun acc id => sadd id acc) (tc_learners_next c) (tc_learners c)).
  assert (Hlr : forall id, In id lr <-> In id (tc_learners_next c) \/ In id (tc_learners c))
    by (intros id; apply fold_sadd_In).
  assert (Hlrs : sorted lr) by (apply fold_sadd_sorted, H).
  destruct (fold_mdel (fun id => negb (smem id (tc_incoming c)) && negb (smem id lr))%bool
              (tc_outgoing c) prs1 Hs1) as [Hs2 Hg2].
  match type of Hs2 with msorted ?q => remember q as prs2 eqn:Eprs2 end.
  clear E Eprs2. clearbody lr.
  set (c' := set_tc_auto_leave false (set_tc_outgoing [] (set_tc_learners_next [] (set_tc_learners lr c)))).
  assert (Hget : forall id p', mget id prs2 = Some p' ->
            exists p, mget id prs = Some p /\ p' = set_p_learner (smem id lr) p).
  { intros id p'. rewrite Hg2.
    destruct (smem id (tc_outgoing c) && _)%bool; [discriminate|].
    rewrite Hg1. destruct (smem id (tc_learners_next c)) eqn:En.
    - apply smem_In in En. assert (smem id lr = true) as -> by (apply smem_In, Hlr; auto).
      destruct (mget id prs); cbn; intros X; inv X; eauto.
    - apply smem_not_In in En. intros X. exists p'. split; auto.
      pose proof (cw_mark _ _ H _ _ X) as M.
      assert (smem id lr = p_learner p') as ->; [|destruct p'; reflexivity].
      apply eq_true_iff_eq. rewrite smem_In, Hlr, M. tauto. }
  assert (Hwf : conf_wf c' prs2).
  { apply conf_wf_cinv. split; [|cbn; auto]. constructor; cbn; try apply H; auto; try (now constructor).
    - intros id. rewrite Hlr. intros [Hi|Hi].
      + destruct (cw_next _ _ H id Hi). tauto.
      + destruct (cw_disj _ _ H id Hi). tauto.
    - intros id. rewrite Hg2.
      pose proof (cw_trk _ _ H id) as T. pose proof (Hg1 id) as G1.
      destruct (smem id (tc_outgoing c) && (negb (smem id (tc_incoming c)) && negb (smem id lr)))%bool eqn:Eb.
      + apply andb_true_iff in Eb. destruct Eb as [Ea Eb]. apply andb_true_iff in Eb. destruct Eb as [Eb Ec].
        apply negb_true_iff, smem_not_In in Eb, Ec. split; [congruence|tauto].
      + assert (mget id prs1 <> None <-> mget id prs <> None) as ->.
        { rewrite G1. destruct (smem id (tc_learners_next c)); [|tauto].
          destruct (mget id prs); cbn; split; congruence. }
        rewrite T, Hlr.
        rewrite !andb_false_iff, !negb_false_iff in Eb. rewrite smem_not_In, !smem_In, Hlr in Eb.
        pose proof (cw_next _ _ H id). tauto.
    - intros id p' Hp. destruct (Hget _ _ Hp) as (p & _ & ->). cbn. apply smem_In. }
  unfold check_and_return; cbn [fst snd]. rewrite check_ok by auto. cbn.
  split; [auto|]. split; [auto|]. split; [auto|]. split; [auto|].
  split; [intros id; rewrite Hlr; tauto|]. auto.
Qed.

(* ---------- Restore ---------- *)
Lemma applied_trans c a c1 b c2 :
  applied c a c1 -> applied c1 b c2 -> tc_outgoing c1 = tc_outgoing c2 -> applied c (a ++ b) c2.
Proof.
  intros [A1 B1 C1] [A2 B2 C2] Ho. constructor; intros id; rewrite last_change_app;
    rewrite ?A2, ?B2, ?C2; destruct (last_change id b); try tauto; rewrite ?A1, ?B1, ?C1;
    destruct (last_change id a); rewrite ?Ho; tauto.
Qed.

Lemma last_change_single id t n :
  last_change id [mkCC t n] =
  if (n =? id) && negb (id =? 0) && match t with CcUpdateNode => false | _ => true end
  then Some t else None.
Proof. reflexivity. Qed.

Definition fresh (last mi : N) (prs : nmap progress) : Prop :=
  forall id p, mget id prs = Some p -> exists b, p = new_progress last 0 mi b true.

Lemma apply_one_fresh ch cc c prs :
  fresh (ch_last ch) (t_max_inflight (ch_trk ch)) prs ->
  fresh (ch_last ch) (t_max_inflight (ch_trk ch)) (snd (apply_one ch cc (c, prs))).
Proof.
  intros H. unfold apply_one. destruct (cc_node cc =? 0); [auto|].
  assert (Hi : forall b, fresh (ch_last ch) (t_max_inflight (ch_trk ch))
             (snd (init_progress ch (cc_node cc) b (c, prs)))).
  { intros b id p. cbn. rewrite mget_mset. destruct (id =? cc_node cc); [|apply H].
    intros E; inv E; eauto. }
  assert (Hs : forall prs' q, fresh (ch_last ch) (t_max_inflight (ch_trk ch)) prs' ->
             (exists b, q = new_progress (ch_last ch) 0 (t_max_inflight (ch_trk ch)) b true) ->
             fresh (ch_last ch) (t_max_inflight (ch_trk ch)) (mset (cc_node cc) q prs')).
  { intros prs' q H1 H2 id p. rewrite mget_mset. destruct (id =? _); [intros E; inv E; auto|apply H1]. }
  assert (Hd : fresh (ch_last ch) (t_max_inflight (ch_trk ch)) (mdel (cc_node cc) prs)).
  { intros id p. rewrite mget_mdel. destruct (id =? _); [discriminate|apply H]. }
  assert (Hr : fresh (ch_last ch) (t_max_inflight (ch_trk ch)) (snd (remove_node (cc_node cc) (c, prs)))).
  { unfold remove_node. destruct (mget (cc_node cc) prs); [|exact H]. cbn [snd tc_outgoing set_tc_incoming set_tc_learners set_tc_learners_next].
    destruct (smem (cc_node cc) (tc_outgoing c)); auto. }
  destruct (cc_type cc); auto.
  - unfold make_voter. destruct (mget (cc_node cc) prs) as [p|] eqn:E; [|apply Hi].
    cbn. apply Hs; auto. destruct (H _ _ E) as (b & ->). exists false; reflexivity.
  - unfold make_learner. destruct (mget (cc_node cc) prs) as [p|] eqn:E; [|apply Hi].
    destruct (p_learner p); auto.
    destruct (H _ _ E) as (b & Hb).
    destruct (remove_node (cc_node cc) (c, prs)) as [c1 prs1]. cbn in Hr.
    destruct (smem (cc_node cc) (tc_outgoing c1)); cbn; apply Hs; auto; [eauto|].
    exists true. subst p; reflexivity.
Qed.

Lemma fold_apply_fresh ch ccs : forall c prs,
  fresh (ch_last ch) (t_max_inflight (ch_trk ch)) prs ->
  fresh (ch_last ch) (t_max_inflight (ch_trk ch))
        (snd (fold_left (fun acc cc => apply_one ch cc acc) ccs (c, prs))).
Proof.
  induction ccs as [|cc ccs IH]; intros c prs H; cbn; auto.
  pose proof (apply_one_fresh ch cc c prs H) as H1.
  destruct (apply_one ch cc (c, prs)) as [c1 prs1]. apply IH. auto.
Qed.

Lemma check_and_return_eq cp cp' : check_and_return cp = SOk cp' -> cp' = cp.
Proof. unfold check_and_return. destruct (check_invariants _ _); congruence. Qed.

Lemma ch_simple_fresh ch ccs cp :
  fresh (ch_last ch) (t_max_inflight (ch_trk ch)) (t_progress (ch_trk ch)) ->
  ch_simple ccs ch = SOk cp -> fresh (ch_last ch) (t_max_inflight (ch_trk ch)) (snd cp).
Proof.
  intros H. unfold ch_simple, check_and_copy.
  destruct (check_and_return _) as [[c prs]|] eqn:E; [|discriminate].
  apply check_and_return_eq in E. inv E.
  destruct (tc_joint _); [discriminate|]. unfold ch_apply.
  pose proof (fold_apply_fresh ch ccs (t_config (ch_trk ch)) _ H) as F.
  destruct (fold_left _ ccs _) as [c' prs'].
  cbn [fst snd] in *. destruct (is_nil _); [discriminate|].
  destruct (1 <? _); [discriminate|]. intros X. apply check_and_return_eq in X. subst; auto.
Qed.

Lemma ch_enter_joint_fresh ch al ccs cp :
  fresh (ch_last ch) (t_max_inflight (ch_trk ch)) (t_progress (ch_trk ch)) ->
  ch_enter_joint al ccs ch = SOk cp -> fresh (ch_last ch) (t_max_inflight (ch_trk ch)) (snd cp).
Proof.
  intros H. unfold ch_enter_joint, check_and_copy.
  destruct (check_and_return _) as [[c prs]|] eqn:E; [|discriminate].
  apply check_and_return_eq in E. inv E.
  destruct (tc_joint _); [discriminate|]. destruct (is_nil _); [discriminate|].
  unfold ch_apply.
  pose proof (fold_apply_fresh ch ccs (set_tc_outgoing (tc_incoming (t_config (ch_trk ch))) (t_config (ch_trk ch))) _ H) as F.
  destruct (fold_left _ ccs _) as [c' prs'].
  cbn [fst snd] in *. destruct (is_nil _); [discriminate|].
  intros X. apply check_and_return_eq in X. subst; auto.
Qed.

(** One addition of a voter, or of a learner to a configuration that keeps a voter, succeeds. *)
Definition addable (c : tconfig) (cc : ccsingle) : Prop :=
  cc_node cc <> 0 /\
  (cc_type cc = CcAddNode \/
   cc_type cc = CcAddLearnerNode /\ exists v, In v (tc_incoming c) /\ v <> cc_node cc).

Lemma simple_addable ch cc :
  conf_wf (t_config (ch_trk ch)) (t_progress (ch_trk ch)) ->
  tc_outgoing (t_config (ch_trk ch)) = [] -> addable (t_config (ch_trk ch)) cc ->
  exists c' prs', ch_simple [cc] ch = SOk (c', prs') /\ conf_wf c' prs' /\ tc_outgoing c' = [] /\
    applied (t_config (ch_trk ch)) [cc] c'.
Proof.
  intros H Ho [Hn Ha]. pose proof (ch_simple_spec ch [cc] H) as S.
  destruct (ch_simple [cc] ch) as [[c' prs']|e] eqn:E.
  - destruct S as (_ & So & _ & Sw & Sap & _). exists c', prs'. auto.
  - exfalso. destruct S as [S|[S|(x & y & Hne & Hx & Hy)]]; [congruence| |].
    + destruct cc as [t n]; cbn in *. destruct Ha as [->|[-> (v & Hv & Hvn)]].
      * apply (S n). unfold voter_after. rewrite last_change_single, N.eqb_refl.
        destruct (N.eqb_spec n 0); [congruence|]. reflexivity.
      * apply (S v). unfold voter_after. rewrite last_change_single.
        destruct (N.eqb_spec n v); [congruence|]. cbn. auto.
    + assert (G : forall z, changes_voter (t_config (ch_trk ch)) [cc] z -> z = cc_node cc).
      { intros z Hz. destruct cc as [t n]; cbn. unfold changes_voter, voter_after in Hz.
        rewrite last_change_single in Hz. destruct (N.eqb_spec n z); [auto|]. cbn in Hz. tauto. }
      rewrite (G x Hx), (G y Hy) in Hne. congruence.
Qed.

Lemma chain_addable ccs : forall ch,
  conf_wf (t_config (ch_trk ch)) (t_progress (ch_trk ch)) ->
  tc_outgoing (t_config (ch_trk ch)) = [] ->
  fresh (ch_last ch) (t_max_inflight (ch_trk ch)) (t_progress (ch_trk ch)) ->
  (forall a cc b c', ccs = a ++ cc :: b -> applied (t_config (ch_trk ch)) a c' ->
                     tc_outgoing c' = [] -> addable c' cc) ->
  exists ch', chain_simple ccs ch = SOk ch' /\
    ch_last ch' = ch_last ch /\ t_max_inflight (ch_trk ch') = t_max_inflight (ch_trk ch) /\
    conf_wf (t_config (ch_trk ch')) (t_progress (ch_trk ch')) /\
    tc_outgoing (t_config (ch_trk ch')) = [] /\
    applied (t_config (ch_trk ch)) ccs (t_config (ch_trk ch')) /\
    fresh (ch_last ch) (t_max_inflight (ch_trk ch)) (t_progress (ch_trk ch')).
Proof.
  induction ccs as [|cc ccs IH]; intros ch H Ho Hf Ha.
  - exists ch. cbn. split; [auto|]. split; [auto|]. split; [auto|]. split; [auto|]. split; [auto|].
    split; [apply applied_refl|auto].
  - destruct (simple_addable ch cc H Ho) as (c1 & prs1 & E & Hw & Ho1 & Hap).
    { apply (Ha [] cc ccs); auto using applied_refl. }
    pose proof (ch_simple_fresh ch _ _ Hf E) as Hf1.
    destruct (IH (ch_with ch (c1, prs1))) as (ch' & E' & Hl & Hm & Hw' & Ho' & Hap' & Hf'); auto.
    { intros a cc' b c' -> Hap1 Hoc. apply (Ha (cc :: a) cc' b); auto.
      change (cc :: a) with ([cc] ++ a). eapply applied_trans; [exact Hap|exact Hap1|cbn; congruence]. }
    exists ch'. cbn [chain_simple]. rewrite E. split; [exact E'|].
    split; [exact Hl|]. split; [exact Hm|]. split; [exact Hw'|]. split; [exact Ho'|].
    split; [|exact Hf'].
    change (cc :: ccs) with ([cc] ++ ccs). eapply applied_trans; [exact Hap|exact Hap'|cbn in *; congruence].
Qed.

Lemma last_change_map id t l : t <> CcUpdateNode ->
  ~ In 0 l -> last_change id (map (mkCC t) l) = if smem id l then Some t else None.
Proof.
  intros Ht. induction l as [|x l IH] using rev_ind; intros H0; [reflexivity|].
  rewrite map_app. cbn [map]. rewrite last_change_app, last_change_single.
  assert (Hx : x <> 0) by (intros ->; apply H0; rewrite in_app_iff; cbn; auto).
  rewrite IH by (intros Hi; apply H0; rewrite in_app_iff; auto).
  assert (smem id (l ++ [x]) = smem id l || (id =? x)) as ->.
  { unfold smem. rewrite existsb_app. cbn. rewrite orb_false_r. auto. }
  destruct (N.eqb_spec x id) as [->|Hne].
  - rewrite N.eqb_refl, orb_true_r. destruct (N.eqb_spec id 0); [congruence|].
    destruct t; try congruence; reflexivity.
  - destruct (N.eqb_spec id x); [congruence|]. rewrite orb_false_r. reflexivity.
Qed.

Lemma conf_wf_empty : conf_wf empty_tconfig [].
Proof.
  constructor; cbn; try constructor; try tauto; auto; try discriminate; try (intros ? []).
  all: try congruence; tauto.
Qed.

Lemma smem_true id l : In id l -> smem id l = true. Proof. apply smem_In. Qed.
Lemma smem_false id l : ~ In id l -> smem id l = false. Proof. apply smem_not_In. Qed.

Lemma restore_ok mi last cs :
  confstate_valid cs ->
  exists c prs, cc_restore (mkChanger (new_tracker mi) last) cs = SOk (c, prs) /\
    conf_wf c prs /\ tc_incoming c <> [] /\ describes cs c /\ fresh last mi prs.
Proof.
  intros [Hv (Z1 & Z2 & Z3) Hd Hn Hs].
  assert (Z4 : ~ In 0 (cs_learners_next cs)) by (intros Hi; destruct (Hn _ Hi); auto).
  unfold cc_restore, to_conf_change_single.
  set (ch := mkChanger (new_tracker mi) last).
  assert (Hwe : conf_wf (t_config (ch_trk ch)) (t_progress (ch_trk ch))) by (cbn; apply conf_wf_empty).
  assert (Hfe : fresh (ch_last ch) (t_max_inflight (ch_trk ch)) (t_progress (ch_trk ch))) by (intros id p; cbn; discriminate).
  assert (Hne : forall l : list N, l <> [] -> exists v, In v l).
  { intros [|v l] Hl; [congruence|]. exists v; cbn; auto. }
  destruct (cs_outgoing cs) as [|o0 os] eqn:Eo.
  - destruct (Hs eq_refl) as [En Eal]. rewrite En. cbn [map List.app]. rewrite app_nil_r.
    destruct (chain_addable (map (mkCC CcAddNode) (cs_voters cs) ++ map (mkCC CcAddLearnerNode) (cs_learners cs)) ch)
      as (ch' & E & Hl & Hm & Hw & Ho & Hap & Hf); auto.
    { intros a cc b c' Heq Hap Ho.
      assert (Hcc : In cc (map (mkCC CcAddNode) (cs_voters cs) ++ map (mkCC CcAddLearnerNode) (cs_learners cs)))
        by (rewrite Heq, in_app_iff; cbn; auto).
      apply in_app_iff in Hcc. split.
      - destruct Hcc as [Hcc|Hcc]; apply in_map_iff in Hcc; destruct Hcc as (x & <- & Hx); cbn; intros ->; auto.
      - destruct Hcc as [Hcc|Hcc]; apply in_map_iff in Hcc; destruct Hcc as (x & <- & Hx); cbn; [auto|right].
        split; auto.
        destruct (Hne _ Hv) as (v & Hvi). exists v. split.
        2:{ intros ->. destruct (Hd _ Hx); auto. }
        (* the learner part comes after all voters: every voter is in [a] *)
        apply (ap_in _ _ _ Hap v).
        assert (Hpre : exists a', a = map (mkCC CcAddNode) (cs_voters cs) ++ a' /\
                   exists b', map (mkCC CcAddLearnerNode) (cs_learners cs) = a' ++ b').
        { clear - Heq Hx Hd. revert a Heq.
          assert (Hnv : ~ In x (cs_voters cs)) by (destruct (Hd _ Hx); auto). clear Hd.
          induction (cs_voters cs) as [|w ws IH]; intros a Heq; cbn in *.
          - exists a. split; auto. eauto.
          - destruct a as [|a0 a]; cbn in Heq.
            + inv Heq.
            + inv Heq. destruct IH with (a := a) as (a' & -> & Hb); auto. eauto. }
        destruct Hpre as (a' & -> & b' & Hb).
        rewrite last_change_app.
        assert (last_change v a' = None) as ->.
        { assert (forall cc, In cc a' -> concerns v cc = false) as G.
          { intros cc Hcc. assert (Hcc' : In cc (map (mkCC CcAddLearnerNode) (cs_learners cs))) by (rewrite Hb, in_app_iff; auto).
            apply in_map_iff in Hcc'. destruct Hcc' as (y & <- & Hy). unfold concerns; cbn.
            destruct (N.eqb_spec y v); [|auto]. subst. destruct (Hd _ Hy); tauto. }
          clear - G. unfold last_change. induction a' as [|z a' IH]; cbn; auto.
          rewrite (G z) by (cbn; auto). apply IH. intros; apply G; cbn; auto. }
        rewrite last_change_map by (auto; discriminate). rewrite smem_true by auto. reflexivity. }
    rewrite E. eexists _, _. split; [reflexivity|]. split; [auto|].
    assert (Hin : forall id, In id (cs_voters cs) <-> In id (tc_incoming (t_config (ch_trk ch')))).
    { intros id. rewrite (ap_in _ _ _ Hap id), last_change_app, !last_change_map by (auto; discriminate).
      destruct (smem id (cs_learners cs)) eqn:E1; [apply smem_In in E1|apply smem_not_In in E1].
      - destruct (Hd _ E1). split; [tauto|discriminate].
      - destruct (smem id (cs_voters cs)) eqn:E2; [apply smem_In in E2|apply smem_not_In in E2]; cbn; tauto. }
    split.
    { destruct (Hne _ Hv) as (v & Hvi). apply Hin in Hvi. intros X; rewrite X in Hvi; auto. }
    split; [|exact Hf].
    destruct (cw_simple _ _ Hw Ho) as [Hx Hy].
    split; [exact Hin|]. split; [rewrite Ho, Eo; intros x; tauto|]. split; [|split].
    + intros id. rewrite (ap_lrn _ _ _ Hap id), last_change_app, !last_change_map by (auto; discriminate).
      rewrite Ho. cbn.
      destruct (smem id (cs_learners cs)) eqn:E1; [apply smem_In in E1|apply smem_not_In in E1].
      * tauto.
      * destruct (smem id (cs_voters cs)) eqn:E2; [apply smem_In in E2|apply smem_not_In in E2]; [|tauto].
        split; [tauto|]. intros [? _]; discriminate.
    + rewrite Hx, En. intros x; tauto.
    + congruence.
  - cbn [map]. change (mkCC CcAddNode o0 :: map (mkCC CcAddNode) os) with (map (mkCC CcAddNode) (o0 :: os)).
    change (mkCC CcRemoveNode o0 :: map (mkCC CcRemoveNode) os) with (map (mkCC CcRemoveNode) (o0 :: os)).
    rewrite <- Eo in *. assert (Hout : cs_outgoing cs <> []) by (rewrite Eo; discriminate). clear Eo o0 os.
    destruct (chain_addable (map (mkCC CcAddNode) (cs_outgoing cs)) ch)
      as (ch' & E & Hl & Hm & Hw & Ho & Hap & Hf); auto.
    { intros a cc b c' Heq _ _.
      assert (Hcc : In cc (map (mkCC CcAddNode) (cs_outgoing cs))) by (rewrite Heq, in_app_iff; cbn; auto).
      apply in_map_iff in Hcc. destruct Hcc as (x & <- & Hx). split; cbn; auto. intros ->; auto. }
    destruct (map (mkCC CcAddNode) (cs_outgoing cs)) as [|q qs] eqn:Eq;
      [destruct (cs_outgoing cs); [congruence|discriminate]|]. rewrite <- Eq in *. clear Eq q qs.
    assert (Hinc : forall id, In id (tc_incoming (t_config (ch_trk ch'))) <-> In id (cs_outgoing cs)).
    { intros id. rewrite (ap_in _ _ _ Hap id), last_change_map by (auto; discriminate).
      destruct (smem id (cs_outgoing cs)) eqn:E1; [apply smem_In in E1|apply smem_not_In in E1]; cbn; tauto. }
    assert (Hlr0 : forall id, ~ In id (tc_learners (t_config (ch_trk ch')))).
    { intros id. rewrite (ap_lrn _ _ _ Hap id), last_change_map by (auto; discriminate).
      destruct (smem id (cs_outgoing cs)); cbn; [intros [? _]; discriminate|tauto]. }
    rewrite E.
    set (ccs := map (mkCC CcRemoveNode) (cs_outgoing cs) ++ map (mkCC CcAddNode) (cs_voters cs) ++
                map (mkCC CcAddLearnerNode) (cs_learners cs) ++ map (mkCC CcAddLearnerNode) (cs_learners_next cs)).
    assert (Hlc : forall id, last_change id ccs =
              if smem id (cs_learners_next cs) || smem id (cs_learners cs) then Some CcAddLearnerNode
              else if smem id (cs_voters cs) then Some CcAddNode
              else if smem id (cs_outgoing cs) then Some CcRemoveNode else None).
    { intros id. unfold ccs. rewrite !last_change_app, !last_change_map by (auto; discriminate).
      destruct (smem id (cs_learners_next cs)), (smem id (cs_learners cs)); cbn; auto.
      destruct (smem id (cs_voters cs)); auto. }
    clearbody ccs.
    pose proof (ch_enter_joint_spec ch' (cs_auto_leave cs) ccs Hw) as S.
    destruct (ch_enter_joint (cs_auto_leave cs) ccs ch') as [[c prs]|] eqn:Ej.
    + destruct S as (_ & _ & So & Sn & Sal & Sw & Sap & _).
      exists c, prs. split; [auto|]. split; [auto|]. split; [auto|]. split.
      2:{ pose proof (ch_enter_joint_fresh ch' _ _ _ ltac:(rewrite Hl, Hm; exact Hf) Ej) as F.
          rewrite Hl, Hm in F. exact F. }
      assert (Soi : forall id, In id (tc_outgoing c) <-> In id (cs_outgoing cs)) by (intros id; rewrite So; auto).
      split; [|split; [|split; [|split]]].
      * intros id. rewrite (ap_in _ _ _ Sap id), Hlc. pose proof (Hinc id) as Hi.
        destruct (smem id (cs_learners_next cs)) eqn:E1; [apply smem_In in E1|apply smem_not_In in E1]; cbn.
        { destruct (Hn _ E1). split; [tauto|discriminate]. }
        destruct (smem id (cs_learners cs)) eqn:E2; [apply smem_In in E2|apply smem_not_In in E2]; cbn.
        { destruct (Hd _ E2). split; [tauto|discriminate]. }
        destruct (smem id (cs_voters cs)) eqn:E3; [apply smem_In in E3|apply smem_not_In in E3]; [tauto|].
        destruct (smem id (cs_outgoing cs)) eqn:E4; [apply smem_In in E4|apply smem_not_In in E4]; [|tauto].
        split; [tauto|discriminate].
      * intros id. symmetry. auto.
      * intros id. rewrite (ap_lrn _ _ _ Sap id), Hlc. pose proof (Soi id) as Hi.
        destruct (smem id (cs_learners_next cs)) eqn:E1; [apply smem_In in E1|apply smem_not_In in E1]; cbn.
        { destruct (Hn _ E1). split; [intros X; destruct (Hd _ X); tauto|tauto]. }
        destruct (smem id (cs_learners cs)) eqn:E2; [apply smem_In in E2|apply smem_not_In in E2]; cbn.
        { destruct (Hd _ E2). tauto. }
        destruct (smem id (cs_voters cs)) eqn:E3; [split; [tauto|intros [? _]; discriminate]|].
        destruct (smem id (cs_outgoing cs)) eqn:E4; [split; [tauto|intros [? _]; discriminate]|].
        pose proof (Hlr0 id). tauto.
      * intros id. rewrite (ap_nxt _ _ _ Sap id), Hlc. pose proof (Soi id) as Hi.
        destruct (smem id (cs_learners_next cs)) eqn:E1; [apply smem_In in E1|apply smem_not_In in E1]; cbn.
        { destruct (Hn _ E1). tauto. }
        destruct (smem id (cs_learners cs)) eqn:E2; [apply smem_In in E2|apply smem_not_In in E2]; cbn.
        { destruct (Hd _ E2). tauto. }
        destruct (smem id (cs_voters cs)) eqn:E3; [split; [tauto|intros [? _]; discriminate]|].
        destruct (smem id (cs_outgoing cs)) eqn:E4; [split; [tauto|intros [? _]; discriminate]|].
        destruct (cw_simple _ _ Hw Ho) as [-> _]. cbn. tauto.
      * auto.
    + exfalso. destruct S as [S|[S|S]]; [congruence| |].
      * destruct (Hne _ Hout) as (v & Hvi). apply Hinc in Hvi. rewrite S in Hvi; auto.
      * destruct (Hne _ Hv) as (v & Hvi). apply (S v). unfold voter_after. rewrite Hlc.
        pose proof (smem_true v (cs_voters cs) Hvi) as R1.
        assert (R2 : smem v (cs_learners_next cs) = false) by (apply smem_false; intros X; destruct (Hn _ X); auto).
        assert (R3 : smem v (cs_learners cs) = false) by (apply smem_false; intros X; destruct (Hd _ X); auto).
        rewrite R1, R2, R3. reflexivity.
Qed.

(* ---------- overlap of quorums after a simple change ---------- *)
Lemma sub_perm (l r : list N) : NoDup l -> NoDup r -> (forall x, In x l -> In x r) ->
  Permutation r (l ++ filter (fun x => negb (smem x l)) r).
Proof.
  intros Hl Hr Hi. apply NoDup_Permutation; auto.
  - clear Hi. revert l Hl. assert (forall l1 l2 : list N, NoDup l1 -> NoDup l2 -> (forall x, In x l1 -> ~ In x l2) -> NoDup (l1 ++ l2)) as G.
    { induction l1 as [|x l1 IH]; intros l2 H1 H2 H3; cbn; auto. inv H1. constructor.
      - rewrite in_app_iff. intros [?|?]; [tauto|]. apply (H3 x); cbn; auto.
      - apply IH; auto. intros y Hy. apply H3; cbn; auto. }
    intros l Hl. apply G; auto using NoDup_filter.
    intros x Hx. rewrite filter_In, negb_true_iff, smem_not_In. tauto.
  - intros x. rewrite in_app_iff, filter_In, negb_true_iff, smem_not_In.
    destruct (in_dec N.eq_dec x l); split; intros; auto; tauto.
Qed.

Lemma sub_majorities (l r : list N) p q : NoDup l -> NoDup r -> (forall x, In x l -> In x r) ->
  l <> [] -> r <> [] ->
  (forall x y, In x r -> ~ In x l -> In y r -> ~ In y l -> x = y) ->
  majority l p -> majority r q -> exists id, In id l /\ In id r /\ p id = true /\ q id = true.
Proof.
  intros Hl Hr Hi Nl Nr H1 [|Mp]; [congruence|]. intros [|Mq]; [congruence|].
  pose proof (sub_perm l r Hl Hr Hi) as P.
  assert (Gd : forall z, In z (filter (fun x => negb (smem x l)) r) -> In z r /\ ~ In z l).
  { intros z. rewrite filter_In, negb_true_iff, smem_not_In. auto. }
  assert (Hnd : NoDup (filter (fun x => negb (smem x l)) r)) by (apply NoDup_filter; auto).
  generalize dependent (filter (fun x => negb (smem x l)) r). intros d P G Hnd.
  assert (Hd : nlen d <= 1).
  { destruct d as [|x [|y d]]; [nl|change (1 <= 1); lia|]. exfalso.
    destruct (G x) as [? ?]; [cbn; auto|]. destruct (G y) as [? ?]; [cbn; auto|].
    assert (x = y) by (apply H1; auto). subst. inversion Hnd as [|? ? Hni _]. apply Hni; cbn; auto. }
  rewrite (count_perm _ _ _ P), count_app in Mq.
  assert (nlen r = nlen l + nlen d).
  { rewrite <- nlen_app. unfold nlen. rewrite (Permutation_length P). reflexivity. }
  pose proof (count_le q d). pose proof (count_both p q l).
  destruct (count_pos (fun x => p x && q x)%bool l) as (x & Hx & Hb); [lia|].
  apply andb_true_iff in Hb. exists x. intuition.
Qed.

Lemma simple_majorities (l r : list N) p q : sorted l -> sorted r -> l <> [] -> r <> [] ->
  ~ (exists x y, x <> y /\ ~ (In x l <-> In x r) /\ ~ (In y l <-> In y r)) ->
  majority l p -> majority r q -> exists id, In id l /\ In id r /\ p id = true /\ q id = true.
Proof.
  intros Hl Hr Nl Nr H Mp Mq. apply sorted_NoDup in Hl, Hr.
  assert (U : forall x y, ~ (In x l <-> In x r) -> ~ (In y l <-> In y r) -> x = y).
  { intros x y Hx Hy. destruct (N.eq_dec x y); auto. exfalso; apply H; exists x, y; auto. }
  destruct (Forall_Exists_dec (fun x => In x r) (fun x => in_dec N.eq_dec x r) l) as [A|A].
  - rewrite Forall_forall in A. apply sub_majorities; auto.
    intros x y ? ? ? ?. apply U; tauto.
  - apply Exists_exists in A. destruct A as (x & Hx & Hxr).
    destruct (sub_majorities r l q p) as (id & ? & ? & ? & ?); auto; [| |eauto].
    + intros y Hy. destruct (in_dec N.eq_dec y l); auto. exfalso.
      assert (x = y) by (apply U; tauto). subst. tauto.
    + intros a b ? ? ? ?. apply U; tauto.
Qed.
