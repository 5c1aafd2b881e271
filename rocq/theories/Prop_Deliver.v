(** Delivery of committed entries (C19). *)
From Verif Require Import Prelude Types M_Util M_Quorum M_Inflights M_Progress M_Tracker.
From Verif Require Import M_Storage M_Unstable M_Log M_ReadOnly M_ConfPb M_ConfChange M_Raft M_RawNode.
From Verif Require Import P_Inflights Spec_Log P_Lists P_Storage P_Log Spec_RaftLog P_RaftLogSeq.
From Verif Require Import P_Frame P_Prim Sys_Node P_Node P_Fields Spec_Node P_New P_NodeLog P_Handle P_NodeRun.
From Verif Require Import Ex_Env Ex_Node Ex_Check.

Section Props.
Context {E : Env}.

Lemma holds_abs n i e : dinv n ->
  (holds_entry n i e <-> a_entry (log_abs (r_log (rn_raft n))) i = Some e).
Proof.
  intros D. pose proof (lwf_0 _ (li_wf _ (ni_log _ (di_ninv _ D)))) as Hw. unfold holds_entry.
  set (l := r_log (rn_raft n)) in *. set (a := log_abs l) in *.
  assert (Hs : a_first a <= i -> i <= a_last a -> log_slice i (i + 1) UINT64_MAX l = Ok (SOk (limit_size (a_slice a i (i + 1)) UINT64_MAX))).
  { intros. apply log_slice_abs; auto; try lia. fold a. lia. }
  assert (H1 : forall x, a_entry a i = Some x -> a_first a <= i /\ i <= a_last a /\ a_slice a i (i + 1) = [x]).
  { intros x Hx. unfold a_entry in Hx. destruct (N.ltb_spec (a_base a) i); [|discriminate].
    pose proof (nnth_Some_lt _ _ _ Hx). unfold a_first, a_last. split; [lia|]. split; [lia|].
    apply list_ext. intros k. rewrite nnth_slice. destruct (N.ltb_spec k (i + 1 - i)).
    - assert (k = 0) by lia. subst k. rewrite N.add_0_r, nnth_cons0. auto.
    - symmetry. apply nnth_None. rewrite nlen_cons. nl. }
  split.
  - intros H. destruct (N.leb_spec (a_first a) i); [destruct (N.leb_spec i (a_last a))|].
    + rewrite Hs in H by auto. assert (H3 : limit_size (a_slice a i (i + 1)) UINT64_MAX = [e]) by congruence. clear H.
      assert (Hx : exists x, a_entry a i = Some x).
      { unfold a_entry, a_first, a_last in *. destruct (N.ltb_spec (a_base a) i); [|lia].
        apply nnth_lt_Some. lia. }
      destruct Hx as [x Hx]. destruct (H1 x Hx) as (_ & _ & Hy). rewrite Hy in H3.
      destruct (limit_size_prefix [x] UINT64_MAX) as [r Hr]. rewrite H3 in Hr. inv Hr. auto.
    + destruct (log_slice_fatal i (i + 1) UINT64_MAX l Hw) as [w Hf]; auto; [fold a; lia|congruence].
    + rewrite log_slice_compacted in H by (fold a; lia). discriminate.
  - intros H. destruct (H1 _ H) as (B1 & B2 & B3). rewrite Hs by auto. rewrite B3. do 2 f_equal.
Qed.

(** One iteration of the Ready loop. *)
Lemma handle_delivery n n' rd : dinv n -> hspec n n' rd ->
  let a := node_applied n in let b := resume a rd in
  (sn_index (rd_snap rd) = 0 \/ a < sn_index (rd_snap rd)) /\
  contig (b + 1) (rd_committed rd) /\
  node_applied n' = b + nlen (rd_committed rd) /\
  rd_committed rd = limit_size (a_slice (log_abs (r_log (rn_raft n))) (b + 1) (node_commit n + 1)) (l_maxnext (r_log (rn_raft n))) /\
  b <= node_commit n /\ a_base (log_abs (r_log (rn_raft n))) <= b.
Proof.
  intros D H. cbv zeta. pose proof (hs_ready _ _ _ H) as R.
  destruct D as [[N1 N2 N3] D2 D3 D4 D5 D6 D7 D8 D9].
  pose proof (li_wf _ N1) as Hw. pose proof (lwf_com _ Hw) as Hc. pose proof (lwf_app _ Hw) as Ha.
  set (l := r_log (rn_raft n)) in *.
  change (node_applied n) with (l_applied l). change (node_commit n) with (l_committed l).
  assert (Hb : (sn_index (rd_snap rd) = 0 \/ l_applied l < sn_index (rd_snap rd)) /\
     resume (l_applied l) rd + 1 = N.max (l_applied l + 1) (a_first (log_abs l)) /\
     resume (l_applied l) rd <= l_committed l /\ a_base (log_abs l) <= resume (l_applied l) rd).
  { pose proof (ro_snap _ _ R) as Hrs. fold l in Hrs. pose proof (lp_pend _ N2) as Hp. unfold resume, a_first in *. unfold log_abs in *. fold l in D9.
    destruct (u_snap (l_us l)) as [s|] eqn:Hu.
    - cbn [a_base] in *. specialize (Hp s eq_refl). rewrite Hrs. destruct (N.eqb_spec (sn_index s) 0); [lia|].
      split; [auto|]. split; [lia|]. lia.
    - specialize (D9 eq_refl). rewrite Hrs. change (sn_index empty_snapshot =? 0) with true. cbv iota. cbn [a_base] in *. split; [auto|]. lia. }
  destruct Hb as (B1 & B2 & B3 & B4). split; [auto|].
  set (b := resume (l_applied l) rd) in *. clearbody b.
  assert (Hn : rd_committed rd = limit_size (a_slice (log_abs l) (b + 1) (l_committed l + 1)) (l_maxnext l)).
  { rewrite (hs_next _ _ _ H). fold l. unfold next_of. cbv zeta. rewrite <- B2.
    destruct (N.ltb_spec (b + 1) (l_committed l + 1)); auto.
    replace (l_committed l) with b by lia. rewrite slice_nil, limit_size_nil. auto. }
  assert (Hcg : contig (b + 1) (rd_committed rd)).
  { intros k e Hk. rewrite Hn in Hk.
    destruct (limit_size_prefix (a_slice (log_abs l) (b + 1) (l_committed l + 1)) (l_maxnext l)) as [rest Hp].
    assert (Hk2 : nnth (a_slice (log_abs l) (b + 1) (l_committed l + 1)) k = Some e).
    { rewrite Hp. rewrite nnth_app1 by (eapply nnth_Some_lt; eauto). auto. }
    rewrite nnth_slice in Hk2. destruct (_ <? _); [|discriminate]. pose proof (log_abs_wf _ (lwf_0 _ Hw)) as Hwf.
    rewrite (Hwf _ _ Hk2). lia. }
  split; [auto|]. split; [|auto].
  unfold node_applied, rn_status; cbn [ns_applied]. rewrite (hs_applied _ _ _ H). fold l. unfold applied_after, applied_cursor.
  destruct (rev (rd_committed rd)) as [|e es] eqn:Hrev.
  - assert (Hnil : rd_committed rd = []) by (rewrite <- (rev_involutive (rd_committed rd)), Hrev; auto).
    rewrite Hnil. nl. cbn [nlen]. rewrite (ro_snap _ _ R) in *. fold l in B1 |- *.
    pose proof (lp_pend _ N2) as Hp. fold l in D9. unfold a_first, log_abs in B2, B4, D9.
    destruct (u_snap (l_us l)) as [s|].
    + cbn [a_base] in *. specialize (Hp s eq_refl). destruct (N.ltb_spec 0 (sn_index s)); nl.
    + cbn [sn_index empty_snapshot] in *. cbn [a_base] in *. specialize (D9 eq_refl). change (0 <? 0) with false. cbv iota. nl.
  - pose proof (rev_contig _ _ _ _ Hcg Hrev) as He. pose proof (rev_last _ _ _ Hrev) as Hl.
    assert (0 < nlen (rd_committed rd)) by (rewrite Hl, nlen_app, nlen_cons; lia).
    destruct (N.ltb_spec 0 (e_index e)); lia.
Qed.

Lemma readys_cons o os : readys (o :: os) = readys [o] ++ readys os.
Proof. unfold readys. cbn. rewrite app_nil_r. auto. Qed.
Lemma readys_none o : o_ready o = None -> readys [o] = []. Proof. unfold readys; cbn. intros ->. auto. Qed.

Lemma deliver_run os : forall n n' outs, dinv n -> n_run_ok os n -> n_run os n = Ok (n', outs) ->
  gapless (node_applied n) (readys outs).
Proof.
  induction os as [|o os IH]; intros n n' outs D Hok H; cbn [n_run] in H; mon; [exact I|].
  destruct x as [n1 out]. mon. destruct x as [n2 outs']. mon. cbn [n_run_ok] in Hok. destruct Hok as [H1 H2].
  rewrite Hm in H2. destruct (n_step_dinv o n n1 out H1 Hm D) as [D1 X].
  specialize (IH _ _ _ D1 H2 Hm0). rewrite readys_cons.
  assert (Hnone : o_ready out = None -> node_applied n1 = node_applied n -> gapless (node_applied n) (readys [out] ++ readys outs')).
  { intros Ho Ha. rewrite readys_none by auto. rewrite <- Ha. exact IH. }
  assert (Hnp : nprs (rn_raft n) (rn_raft n1) -> node_applied n1 = node_applied n).
  { intros A. destruct (nprs_ninv _ _ A (di_ninv _ D)) as [_ K]. apply (lk_app _ _ K). }
  destruct o; try (destruct X as [X1 X2]; apply Hnone; auto; fail).
  - destruct X as (rd & -> & Hh). destruct (handle_delivery _ _ _ D Hh) as (A1 & A2 & A3 & _).
    unfold readys at 1; cbn [flat_map o_ready app]. cbn [gapless]. split; [auto|]. split; [exact A2|]. rewrite <- A3. exact IH.
  - destruct X as (s & -> & X2 & _). apply Hnone; auto.
  - destruct X as (s & -> & X2 & _). apply Hnone; auto.
Qed.

(** C19: over any disciplined history of calls on a node created on any well-formed storage, the
    snapshots and committed entries handed to the application continue, without gap and without
    repetition, from the index the node was started with. *)
Theorem C19_gapless_delivery c s tape n os n' outs :
  c_storage c = Some s -> storage_ok s -> rn_new c tape = Ok n ->
  n_run_ok os n -> n_run os n = Ok (n', outs) ->
  gapless (N.max (c_applied c) (ms_first_index s - 1)) (readys outs).
Proof.
  intros Hs Hok Hn Hrk Hr. destruct (dinv_new _ _ _ _ Hs Hok Hn) as (D & _).
  replace (N.max (c_applied c) (ms_first_index s - 1)) with (node_applied n); [eapply deliver_run; eauto|].
  apply rn_new_spec in Hn. destruct Hn as (r & Hn & ->). apply raft_new_spec in Hn.
  destruct Hn as (s' & cp & _ & Hs' & _ & _ & _ & Ha & F). assert (s' = s) by congruence. subst s'.
  unfold node_applied; cbn. rewrite (fr_log _ _ _ _ F). cbn.
  destruct (N.ltb_spec 0 (c_applied c)); lia.
Qed.

(** C19: each batch is exactly what is committed and not yet delivered, cut at the configured size
    (and never cut to nothing); the entries are those of the node's log, and by then they are in the
    application's storage. *)
Theorem C19_batch n n' out :
  node_at n -> n_step NHandle n = Ok (n', out) ->
  exists rd pend, o_ready out = Some rd /\
    nlen pend = node_commit n - resume (node_applied n) rd /\
    (forall k e, nnth pend k = Some e -> holds_entry n (resume (node_applied n) rd + 1 + k) e) /\
    size_limited pend (l_maxnext (r_log (rn_raft n))) (rd_committed rd) /\
    node_applied n' = resume (node_applied n) rd + nlen (rd_committed rd) /\
    (forall e, In e (rd_committed rd) ->
       ms_entries (e_index e) (e_index e + 1) UINT64_MAX (node_storage n') = Ok (SOk [e])).
Proof.
  intros Hn H. apply node_at_dinv in Hn. destruct (n_step_dinv NHandle n n' out) as [D' (rd & -> & Hh)]; auto; [split; cbn; auto|].
  destruct (handle_delivery _ _ _ Hn Hh) as (A1 & A2 & A3 & A4 & A5 & A6).
  set (b := resume (node_applied n) rd) in *. set (a := log_abs (r_log (rn_raft n))) in *.
  pose proof (lwf_com _ (li_wf _ (ni_log _ (di_ninv _ Hn)))) as Hc. change (l_committed (r_log (rn_raft n))) with (node_commit n) in Hc. fold a in Hc.
  exists rd, (a_slice a (b + 1) (node_commit n + 1)). split; [auto|]. split; [|split; [|split; [|split]]].
  - rewrite nlen_slice; [lia|unfold a_first; lia|lia|lia].
  - intros k e Hk. apply holds_abs; auto. fold a; fold b. rewrite nnth_slice in Hk. destruct (_ <? _); [|discriminate].
    unfold a_entry. destruct (N.ltb_spec (a_base a) (b + 1 + k)); [|lia]. rewrite <- Hk. clearbody a b. f_equal. lia.
  - rewrite A4. apply limit_size_spec.
  - exact A3.
  - intros e He. apply In_nnth in He. destruct He as [k Hk]. pose proof (A2 _ _ Hk) as Hi.
    assert (Hk2 : nnth (a_slice a (b + 1) (node_commit n + 1)) k = Some e).
    { destruct (limit_size_prefix (a_slice a (b + 1) (node_commit n + 1)) (l_maxnext (r_log (rn_raft n)))) as [r Hr].
      rewrite Hr, <- A4. rewrite nnth_app1; auto. eapply nnth_Some_lt; eauto. }
    rewrite nnth_slice in Hk2. destruct (_ <? _); [|discriminate]. pose proof (nnth_Some_lt _ _ _ Hk2) as Hlt.
    pose proof (hs_st _ _ _ Hh) as Hst. fold a in Hst.
    clearbody a b. rewrite ms_entries_abs; rewrite ?Hst; [|unfold a_first, a_last; lia|unfold a_first, a_last; lia|unfold a_first, a_last; lia|intros X; rewrite X in Hlt; nl].
    do 2 f_equal.
    assert (Hsl : a_slice a (e_index e) (e_index e + 1) = [e]).
    { apply list_ext. intros j. rewrite nnth_slice. destruct (N.ltb_spec j (e_index e + 1 - e_index e)).
      - assert (j = 0) by lia. subst j. rewrite nnth_cons0, <- Hk2. f_equal. lia.
      - symmetry. apply nnth_None. rewrite nlen_cons; nl. }
    rewrite Hsl. reflexivity.
Qed.

(** C19/C16: committed entries never change: whatever is committed now is, at any later point of the
    history, either still there unchanged or compacted away. *)
Theorem C19_committed_stable n os n' outs i e :
  node_at n -> n_run_ok os n -> n_run os n = Ok (n', outs) ->
  i <= node_commit n -> node_first n' <= i -> holds_entry n i e -> holds_entry n' i e.
Proof.
  intros Hn Hok Hr Hi Hf H. apply node_at_dinv in Hn. pose proof (n_run_dinv _ _ _ _ Hok Hr Hn) as D'.
  apply holds_abs in H; auto. apply holds_abs; auto. pose proof (n_run_cfix _ _ _ _ Hok Hr Hn) as [_ _ C3].
  rewrite C3; auto. unfold node_first in Hf. rewrite log_first_abs in Hf. unfold a_first in Hf. lia.
Qed.
End Props.

(** Non-vacuity: node 1 starts on [ex_storage] (applied 5, commit 6), is elected, replicates two
    entries, delivers them, compacts, then gets deposed and receives a snapshot of a later leader. *)
Definition ex_snap_msg : msg :=
  set_m_snap (mkSnapshot 20 4 ex_conf "state") (set_m_term 4 (set_m_from 2 (set_m_to 1 (new_msg MsgSnap)))).
Definition ex_app_msg : msg :=
  mkMsg MsgApp 1 2 4 4 20 [mkEntry 4 21 EntryNormal "x"; mkEntry 4 22 EntryNormal "y"] 21 empty_snapshot false 0 EmptyString.
Definition ex_life : list nop :=
  ex_elect ++ [NPropose "c"; NHandle; NStep (ex_app_resp 2 3 9); NHandle; NCreateSnapshot 8 None "s"; NCompact 7;
    NStep ex_snap_msg; NStep ex_app_msg; NHandle; NHandle].
Example ex_life_ok : run_ok (ex_new (ex_cfg 1)) (fun n => n_run_okb (E := ex_env) ex_life n = true).
Proof. vm_compute. reflexivity. Qed.
Example ex_life_storage : storage_ok ex_storage.
Proof. apply storage_okb_ok. reflexivity. Qed.
Example ex_life_delivers : run_ok (ex_run (ex_cfg 1) ex_life) (fun p =>
  map (fun rd => (sn_index (rd_snap rd), map e_index (rd_committed rd))) (readys (snd p)) =
  [(0, [6]); (0, []); (0, []); (0, [7;8;9]); (20, [21]); (0, [])]).
Proof. vm_compute. reflexivity. Qed.
