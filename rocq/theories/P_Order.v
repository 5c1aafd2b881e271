(** Applying the membership changes of a Ready before Advance or after it comes to the same, as long as
    no automatic leaving is due. *)
From Verif Require Import Prelude Types M_Util M_Quorum M_Inflights M_Progress M_Tracker.
From Verif Require Import M_Storage M_Unstable M_Log M_ReadOnly M_ConfPb M_ConfChange M_Raft M_RawNode.
From Verif Require Import Spec_Log P_Lists P_Storage P_Log P_Frame P_Prim P_Fields P_NodeLog P_Handle P_NodeRun Sys_Node Sys_Loop Spec_ConfChange P_ConfChange P_Conf P_Loop.

Section Order.
Context {E : Env}.

(** Two logs that answer alike. *)
Record leq (a b : rlog) : Prop := {
  le_abs : log_abs a = log_abs b;
  le_snap : log_snapshot a = log_snapshot b;
  le_a : lwf0 a;
  le_b : lwf0 b
}.
Section Sub.
Variable u : N.
Variable l0 : rlog.
Definition sub (r : raft) : raft := set_r_uncommitted u (set_r_log (set_l_committed (l_committed (r_log r)) l0) r).
Definition q (r : raft) : Prop := leq (r_log r) l0.

Lemma q_term i r : q r -> log_term i (r_log (sub r)) = log_term i (r_log r).
Proof. intros [A _ W1 W2]. rewrite !log_term_abs; auto. cbn [sub r_log set_r_uncommitted set_r_log]. rewrite log_abs_committed, A. reflexivity. Qed.
Lemma q_last r : q r -> log_last (r_log (sub r)) = log_last (r_log r).
Proof. intros [A _ W1 W2]. rewrite !log_last_abs; auto. cbn [sub r_log set_r_uncommitted set_r_log]. rewrite log_abs_committed, A. reflexivity. Qed.
Lemma q_entries i mx r : q r -> log_entries i mx (r_log (sub r)) = log_entries i mx (r_log r).
Proof.
  intros [A _ W1 W2]. assert (X : log_abs (r_log (sub r)) = log_abs (r_log r)) by (cbn [sub r_log set_r_uncommitted set_r_log]; rewrite log_abs_committed, A; reflexivity).
  assert (W3 : lwf0 (r_log (sub r))) by exact W2.
  destruct (N.lt_ge_cases i (a_first (log_abs (r_log r)))).
  - rewrite !log_entries_compacted; auto; rewrite X; auto.
  - rewrite !log_entries_abs; auto; rewrite X; auto.
Qed.
Lemma q_snap r : q r -> log_snapshot (r_log (sub r)) = log_snapshot (r_log r).
Proof. intros Q. symmetry. apply (le_snap _ _ Q). Qed.
Lemma q_com r : l_committed (r_log (sub r)) = l_committed (r_log r).
Proof. reflexivity. Qed.
Lemma q_same r r' : q r -> r_log r' = r_log r -> q r'.
Proof. unfold q. intros Q ->. exact Q. Qed.

Lemma send_sub m r r' : send m r = Ok r' -> send m (sub r) = Ok (sub r') /\ r_log r' = r_log r.
Proof.
  unfold send. cbv zeta. change (r_id (sub r)) with (r_id r). change (r_msgs (sub r)) with (r_msgs r). change (r_term (sub r)) with (r_term r).
  destruct (is_vote_family _).
  - destruct (_ =? 0); [discriminate|]. intros H. apply Ok_inj in H. subst r'. auto.
  - destruct (negb _); [discriminate|]. intros H. apply Ok_inj in H. subst r'. auto.
Qed.
Lemma put_sub id p r : put_progress id p (sub r) = sub (put_progress id p r). Proof. reflexivity. Qed.

Lemma send_app_sub to pr t es r r' : send_app_msg to pr t es r = Ok r' -> send_app_msg to pr t es (sub r) = Ok (sub r') /\ r_log r' = r_log r.
Proof.
  unfold send_app_msg. cbv zeta. rewrite q_com. destruct (rev es); [apply send_sub|]. destruct (p_state pr); [rewrite put_sub|  |discriminate].
  - intros H. apply send_sub in H. exact H.
  - intros H. apply bind_ok in H. destruct H as (i & -> & H). cbn [bind]. rewrite put_sub. apply send_sub in H. exact H.
Qed.
Lemma send_snap_sub to pr r r' b : q r -> send_snap_msg to pr r = Ok (r', b) -> send_snap_msg to pr (sub r) = Ok (sub r', b) /\ r_log r' = r_log r.
Proof.
  intros Q. unfold send_snap_msg. rewrite (q_snap _ Q). destruct (negb _); [intros H; apply Ok_inj, pair_equal_spec in H; destruct H as [<- <-]; auto|].
  destruct (log_snapshot (r_log r)) as [sn|e].
  - destruct (_ =? 0); [discriminate|]. cbv zeta. rewrite put_sub. intros H. apply bind_ok in H. destruct H as (r1 & H & Hx). apply Ok_inj, pair_equal_spec in Hx. destruct Hx as [<- <-].
    apply send_sub in H. destruct H as [-> H]. auto.
  - destruct e; try discriminate. intros H; apply Ok_inj, pair_equal_spec in H; destruct H as [<- <-]; auto.
Qed.
Lemma maybe_send_sub to e r r' b : q r -> maybe_send_append to e r = Ok (r', b) -> maybe_send_append to e (sub r) = Ok (sub r', b) /\ r_log r' = r_log r.
Proof.
  intros Q. unfold maybe_send_append. change (r_trk (sub r)) with (r_trk r). change (r_cfg (sub r)) with (r_cfg r). rewrite (q_term _ _ Q) || idtac.
  destruct (trk_get to (r_trk r)) as [pr|]; [|discriminate]. destruct (pr_is_paused pr); [intros H; apply Ok_inj, pair_equal_spec in H; destruct H as [<- <-]; auto|].
  rewrite (q_term _ _ Q), (q_entries _ _ _ Q). intros H. apply bind_ok in H. destruct H as (t & -> & H). cbn [bind]. apply bind_ok in H. destruct H as (es & -> & H). cbn [bind] in *. cbv zeta in *.
  destruct (_ && _); [apply Ok_inj, pair_equal_spec in H; destruct H as [<- <-]; auto|].
  destruct t as [t|]; [|apply send_snap_sub; auto]. destruct es as [es|]; [|apply send_snap_sub; auto].
  apply bind_ok in H. destruct H as (r1 & H & Hx). apply Ok_inj, pair_equal_spec in Hx. destruct Hx as [<- <-]. apply send_app_sub in H. destruct H as [-> H]. auto.
Qed.
Lemma mfold_sub (f : N -> raft -> res raft) : (forall id r r', q r -> f id r = Ok r' -> f id (sub r) = Ok (sub r') /\ r_log r' = r_log r) ->
  forall l r r', q r -> mfold f l r = Ok r' -> mfold f l (sub r) = Ok (sub r') /\ r_log r' = r_log r.
Proof.
  intros Hf l. induction l as [|x l IH]; intros r r' Q H; cbn [mfold] in *.
  - apply Ok_inj in H. subst r'. auto.
  - apply bind_ok in H. destruct H as (r1 & H1 & H). destruct (Hf _ _ _ Q H1) as [-> L1]. cbn [bind]. destruct (IH r1 r') as [A B]; auto; [eapply q_same; eauto|]. split; [exact A|congruence].
Qed.
Lemma bcast_sub r r' : q r -> bcast_append r = Ok r' -> bcast_append (sub r) = Ok (sub r') /\ r_log r' = r_log r.
Proof.
  intros Q. unfold bcast_append. change (peer_ids (sub r)) with (peer_ids r). apply mfold_sub; auto.
  intros id a b Qa H. unfold send_append in *. apply bind_ok in H. destruct H as ([r1 x] & H & Hx). apply Ok_inj in Hx. subst r1. destruct (maybe_send_sub _ _ _ _ _ Qa H) as [-> L]. auto.
Qed.
Lemma commit_sub r r' b : q r -> raft_maybe_commit r = Ok (r', b) -> raft_maybe_commit (sub r) = Ok (sub r', b) /\ q r'.
Proof.
  intros Q. unfold raft_maybe_commit. change (r_trk (sub r)) with (r_trk r). change (r_term (sub r)) with (r_term r). intros H. apply bind_ok in H. destruct H as (mci & -> & H). cbn [bind].
  apply bind_ok in H. destruct H as ([l ok] & H & Hx). apply Ok_inj, pair_equal_spec in Hx. destruct Hx as [<- <-].
  unfold log_maybe_commit in *. rewrite q_com, (q_term _ _ Q).
  destruct (l_committed (r_log r) <? mci) eqn:Hc.
  2:{ apply Ok_inj, pair_equal_spec in H. destruct H as [<- <-]. cbn [bind]. split; [|exact Q]. destruct r; reflexivity. }
  apply bind_ok in H. destruct H as (t & -> & H). cbn [bind]. apply bind_ok in H. destruct H as (z & -> & H). cbn [bind]. destruct (z =? r_term r).
  2:{ apply Ok_inj, pair_equal_spec in H. destruct H as [<- <-]. cbn [bind]. split; [|exact Q]. destruct r; reflexivity. }
  unfold log_commit_to in *. rewrite (q_last _ Q). change (l_committed (r_log (sub r))) with (l_committed (r_log r)). rewrite Hc in *. destruct (log_last (r_log r) <? mci); [discriminate|].
  cbn [bind] in *. apply Ok_inj, pair_equal_spec in H. destruct H as [<- <-]. split; [reflexivity|]. destruct Q as [A B C D]. constructor; auto.
Qed.
Lemma switch_leader_sub r r' : q r -> switch_leader r = Ok r' -> switch_leader (sub r) = Ok (sub r') /\ q r'.
Proof.
  intros Q. unfold switch_leader. intros H. apply bind_ok in H. destruct H as ([r1 c] & H1 & H). destruct (commit_sub _ _ _ Q H1) as [-> Q1]. cbn [bind].
  apply bind_ok in H. destruct H as (r2 & H2 & H).
  assert (X : (if c then bcast_append (sub r1) else mfold (fun id r => '(r', _) <- maybe_send_append id false r ;; Ok r') (keys (t_progress (r_trk (sub r1)))) (sub r1)) = Ok (sub r2) /\ q r2).
  { destruct c.
    - destruct (bcast_sub _ _ Q1 H2) as [A L]. split; [exact A|eapply q_same; eauto].
    - change (r_trk (sub r1)) with (r_trk r1). assert (Y := mfold_sub (fun id r => '(r', _) <- maybe_send_append id false r ;; Ok r')). destruct (Y) with (l := keys (t_progress (r_trk r1))) (r := r1) (r' := r2) as [A L]; auto; [|split; [exact A|eapply q_same; eauto]].
      intros id a b Qa Hb. apply bind_ok in Hb. destruct Hb as ([r3 x] & Hb & Hx). apply Ok_inj in Hx. subst r3. destruct (maybe_send_sub _ _ _ _ _ Qa Hb) as [-> L]. auto. }
  destruct X as [-> Q2]. cbn [bind]. change (r_trk (sub r2)) with (r_trk r2). change (r_transferee (sub r2)) with (r_transferee r2). cbv zeta in *.
  destruct (_ && _); apply Ok_inj in H; subst r'; auto.
Qed.
Lemma switch_sub cp r r' cs : q r -> switch_to_config cp r = Ok (r', cs) -> switch_to_config cp (sub r) = Ok (sub r', cs) /\ q r'.
Proof.
  intros Q H. unfold switch_to_config in *. cbv zeta in *. change (r_trk (sub r)) with (r_trk r).
  change (r_id (set_r_trk (set_t_progress (snd cp) (set_t_config (fst cp) (r_trk r))) (sub r))) with (r_id r).
  change (r_id (set_r_trk (set_t_progress (snd cp) (set_t_config (fst cp) (r_trk r))) r)) with (r_id r) in H.
  cbn [r_trk set_r_trk] in *.
  match type of H with context[set_r_learner ?b (set_r_trk ?t r)] => set (r0 := set_r_learner b (set_r_trk t r)) in * end.
  match goal with |- context[set_r_learner ?b (set_r_trk ?t (sub r))] => change (set_r_learner b (set_r_trk t (sub r))) with (sub r0) end.
  assert (Q0 : q r0) by exact Q. change (is_leader (sub r0)) with (is_leader r0).
  destruct ((_ || _) && _); [apply Ok_inj, pair_equal_spec in H; destruct H as [<- <-]; auto|].
  destruct (_ || _); [apply Ok_inj, pair_equal_spec in H; destruct H as [<- <-]; auto|].
  apply bind_ok in H. destruct H as (r1 & H & Hx). apply Ok_inj, pair_equal_spec in Hx. destruct Hx as [<- <-].
  destruct (switch_leader_sub _ _ Q0 H) as [-> Q1]. auto.
Qed.
Lemma apply_sub cc r r' cs : q r -> raft_apply_conf_change cc r = Ok (r', cs) -> raft_apply_conf_change cc (sub r) = Ok (sub r', cs) /\ q r'.
Proof.
  intros Q H. unfold raft_apply_conf_change in *. cbv zeta in *. change (r_trk (sub r)) with (r_trk r). unfold r_last in *. rewrite (q_last _ Q).
  apply bind_ok in H. destruct H as ([cp|] & -> & H); [|discriminate]. cbn [bind]. eapply switch_sub; eauto.
Qed.
Definition subn (ps : softstate) (ph : hardstate) (o : option ready) (n : rawnode) : rawnode := mkRN (sub (rn_raft n)) ps ph o.
Lemma rn_apply_sub ps ph o cc n n' cs : q (rn_raft n) -> rn_apply_conf_change cc n = Ok (n', cs) ->
  rn_apply_conf_change cc (subn ps ph o n) = Ok (subn ps ph o n', cs) /\ q (rn_raft n').
Proof.
  intros Q H. unfold rn_apply_conf_change in *. apply bind_ok in H. destruct H as (c & -> & H). cbn [bind]. apply bind_ok in H. destruct H as ([r1 c1] & H & Hx).
  apply Ok_inj, pair_equal_spec in Hx. destruct Hx as [<- <-]. destruct (apply_sub _ _ _ _ Q H) as [A B]. cbn [subn rn_raft]. rewrite A. auto.
Qed.
Lemma apply_confs_sub ps ph o es : forall n n', q (rn_raft n) -> apply_confs es n = Ok n' ->
  apply_confs es (subn ps ph o n) = Ok (subn ps ph o n') /\ q (rn_raft n').
Proof.
  induction es as [|e es IH]; intros n n' Q H; cbn [apply_confs] in *; [apply Ok_inj in H; subst; auto|].
  destruct (conf_of e) as [cc|]; [|auto]. apply bind_ok in H. destruct H as ([n1 c] & H1 & H). destruct (rn_apply_sub ps ph o _ _ _ _ Q H1) as [-> Q1]. cbn [bind]. auto.
Qed.
End Sub.

(** Advance when no automatic leaving is due: it only moves the application cursor and the unstable part. *)
Definition autol (r : raft) : bool := tc_auto_leave (t_config (r_trk r)).
Lemma advance_sub rd r c r2 ra : confed r r2 -> r_log r2 = set_l_committed c (r_log r) -> autol r = false -> autol r2 = false -> applied_cursor rd <= l_committed (r_log r) ->
  raft_advance rd r2 = Ok ra -> exists u l0, raft_advance rd r = Ok (sub u l0 r) /\ ra = sub u l0 r2.
Proof.
  intros C Hl A1 A2 Hap H. unfold raft_advance in *. cbv zeta in *.
  destruct (reduce_uncommitted_fields (rd_committed rd) r2) as [u Hu].
  assert (Hu1 : reduce_uncommitted (rd_committed rd) r = set_r_uncommitted u r).
  { pose proof (cf_unc _ _ C) as U. assert (X : r_uncommitted (reduce_uncommitted (rd_committed rd) r2) = u) by (rewrite Hu; reflexivity).
    clear Hu H. unfold reduce_uncommitted in *. rewrite U in X. destruct (r_uncommitted r =? 0); [rewrite <- X, U; destruct r; reflexivity|]. cbv zeta in *. destruct (_ <? _); cbn [r_uncommitted set_r_uncommitted] in X; rewrite <- X; reflexivity. }
  rewrite Hu in H. rewrite Hu1. cbn [r_log set_r_uncommitted] in *. rewrite Hl in H.
  apply bind_ok in H. destruct H as (rb & H1 & H). apply bind_ok in H. destruct H as (rc & H2 & H).
  set (a := if 0 <? applied_cursor rd then applied_cursor rd else l_applied (r_log r)).
  assert (B : rb = set_r_log (set_l_applied a (set_l_committed c (r_log r))) (set_r_uncommitted u r2) /\
    (if 0 <? applied_cursor rd then l <- log_applied_to (applied_cursor rd) (r_log r) ;; maybe_auto_leave (l_applied (r_log r)) (applied_cursor rd) (set_r_log l (set_r_uncommitted u r))
     else Ok (set_r_uncommitted u r)) = Ok (set_r_log (set_l_applied a (r_log r)) (set_r_uncommitted u r))).
  { unfold a. destruct (0 <? applied_cursor rd) eqn:Hz.
    - apply bind_ok in H1. destruct H1 as (l1 & H3 & H1). unfold log_applied_to in *. destruct (applied_cursor rd =? 0) eqn:Hz0; [lia|]. cbn [l_committed l_applied set_l_committed] in H3.
      destruct (_ || _) eqn:Hb in H3; [discriminate|]. apply Ok_inj in H3. subst l1.
      assert (Hb2 : ((l_committed (r_log r) <? applied_cursor rd) || (applied_cursor rd <? l_applied (r_log r)))%bool = false) by (apply orb_false_iff; apply orb_false_iff in Hb; split; [apply N.ltb_ge; exact Hap|apply Hb]).
      rewrite Hb2. cbn [bind]. unfold maybe_auto_leave in *. cbn [r_trk set_r_log set_r_uncommitted] in *. unfold autol in *. rewrite A2 in H1. rewrite A1. cbn [andb] in *. apply Ok_inj in H1. subst rb. auto.
    - apply Ok_inj in H1. subst rb. split.
      + replace (set_l_applied (l_applied (r_log r)) (set_l_committed c (r_log r))) with (set_l_committed c (r_log r)) by (destruct (r_log r); reflexivity). rewrite <- Hl. destruct r2; reflexivity.
      + f_equal. replace (set_l_applied (l_applied (r_log r)) (r_log r)) with (r_log r) by (destruct (r_log r); reflexivity). destruct r; reflexivity. }
  destruct B as [-> B]. rewrite B. cbn [bind]. clear H1 B.
  set (us := match rev (rd_ents rd) with [] => Ok (l_us (r_log r)) | e :: _ => us_stable_to (e_index e) (e_term e) (l_us (r_log r)) end).
  assert (D : exists us', us = Ok us' /\ rc = set_r_log (set_l_us us' (set_l_applied a (set_l_committed c (r_log r)))) (set_r_uncommitted u r2)).
  { unfold us. destruct (rev (rd_ents rd)) as [|e es].
    - apply Ok_inj in H2. subst rc. eexists. split; [reflexivity|]. destruct (r_log r); reflexivity.
    - apply bind_ok in H2. destruct H2 as (l1 & H2 & H3). apply Ok_inj in H3. subst rc. unfold log_stable_to in H2. cbn [r_log set_r_log l_us set_l_applied set_l_committed] in H2.
      apply bind_ok in H2. destruct H2 as (u1 & H2 & H3). apply Ok_inj in H3. subst l1. eexists. split; [exact H2|]. reflexivity. }
  destruct D as (us' & D1 & ->).
  assert (D2 : match rev (rd_ents rd) with
         | [] => Ok (set_r_log (set_l_applied a (r_log r)) (set_r_uncommitted u r))
         | e :: _ => l <- log_stable_to (e_index e) (e_term e) (set_l_applied a (r_log r)) ;; Ok (set_r_log l (set_r_log (set_l_applied a (r_log r)) (set_r_uncommitted u r)))
         end = Ok (set_r_log (set_l_us us' (set_l_applied a (r_log r))) (set_r_uncommitted u r))).
  { unfold us in D1. destruct (rev (rd_ents rd)) as [|e es].
    - apply Ok_inj in D1. subst us'. destruct (r_log r); reflexivity.
    - unfold log_stable_to. cbn [l_us set_l_applied]. rewrite D1. reflexivity. }
  change (r_log (set_r_log (set_l_applied a (r_log r)) (set_r_uncommitted u r))) with (set_l_applied a (r_log r)). rewrite D2. cbn [bind].
  exists u. destruct (sn_index (rd_snap rd) =? 0); apply Ok_inj in H; subst ra.
  - exists (set_l_us us' (set_l_applied a (r_log r))). split; [reflexivity|unfold sub; rewrite Hl; reflexivity].
  - exists (log_stable_snap_to (sn_index (rd_snap rd)) (set_l_us us' (set_l_applied a (r_log r)))). split; [reflexivity|unfold sub; rewrite Hl; reflexivity].
Qed.

(** What the iteration does, step by step; Advance leaves the configuration alone. *)
Lemma loop_steps n n' rd : dinv n -> n_loop n = Ok (n', rd) -> exists n1 s n2, rn_get_ready n = Ok (n1, rd) /\ persist_ready rd (node_storage n1) = Ok s /\
  apply_confs (rd_committed rd) (set_storage s n1) = Ok n2 /\ t_config (r_trk (rn_raft n')) = t_config (r_trk (rn_raft n2)).
Proof.
  intros D H.
  pose proof D as [[N1 N2 N3] _ _ _ _ _ _ _ _].
  unfold n_loop in H. apply bind_ok in H. destruct H as ([n1 rd1] & H1 & H).
  apply bind_ok in H. destruct H as (st & H2 & H). apply bind_ok in H. destruct H as (n2 & H3 & H). apply bind_ok in H. destruct H as (n3 & H4 & H).
  apply Ok_inj, pair_equal_spec in H. destruct H as [-> ->].
  pose proof H1 as G1. apply get_ready_inv in G1. destruct G1 as (R & Hr1 & Hs1 & Hp1 & Hrd1).
  assert (Hps : persisted_st (r_log (rn_raft n)) rd st).
  { destruct (persist_ready_ok n rd N1 R) as (s' & P1 & P2). pose proof H2 as G2. unfold node_storage in *. rewrite Hr1 in G2.
    cbn [r_log set_r_msgs set_r_read_states] in G2. rewrite P1 in G2. apply Ok_inj in G2. subst s'. auto. }
  destruct (set_st_log st _ N1 (ps_wf _ _ _ Hps) (ps_abs _ _ _ Hps)) as [Hw0 Habs0].
  set (nx := set_storage st n1) in *.
  assert (Hlx : r_log (rn_raft nx) = set_l_st st (r_log (rn_raft n))) by (unfold nx, set_storage, set_rn_raft; cbn [rn_raft r_log set_r_log]; rewrite Hr1; reflexivity).
  assert (Hsx : r_state (rn_raft nx) = RLeader -> 0 < r_term (rn_raft nx)) by (unfold nx, set_storage, set_rn_raft; cbn [rn_raft r_state r_term set_r_log]; rewrite Hr1; intros X; apply N3; left; exact X).
  destruct (apply_confs_confed (rd_committed rd) nx n2) as (C & E2 & _); auto; [rewrite Hlx; exact Hw0|].
  pose proof (cf_log _ _ C) as (c & Hc & _).
  assert (Hrx : rn_ready nx = Some rd) by (unfold nx, set_storage; exact Hrd1).
  assert (Hr2 : rn_ready n2 = Some rd) by (rewrite E2; exact Hrx).
  unfold rn_advance in H4. rewrite Hr2 in H4. apply bind_ok in H4. destruct H4 as (ra & H4 & H5). apply Ok_inj in H5. subst n'. cbn [rn_raft].
  exists n1, st, n2. split; [exact H1|]. split; [exact H2|]. split; [exact H3|]. cbn [rn_raft].
  destruct (advance_inv n rd st c (rn_raft n2) ra N1 R Hps) as (_ & u & rb & r1 & Hrb & _ & Hr1' & Hrn & _).
  - rewrite Hc, Hlx. reflexivity.
  - destruct (cf_log _ _ C) as (c' & Hc' & X). rewrite Hc in Hc'. injection Hc' as <-. rewrite Hlx, Habs0 in X. exact X.
  - rewrite (cf_state _ _ C), (cf_term _ _ C). exact Hsx.
  - exact H4.
  - rewrite Hrn. cbn [r_trk set_r_log]. destruct Hr1' as [[-> _]|(_ & r0 & Ha & -> & _)].
    + rewrite Hrb. reflexivity.
    + destruct (append_entry_fields _ _ _ Ha) as (lx & px & ux & ->). rewrite Hrb. reflexivity.
Qed.
Lemma loop_sub n n' rd : dinv n -> n_loop n = Ok (n', rd) -> autol (rn_raft n) = false -> autol (rn_raft n') = false ->
  exists n1 s n2 u l0 ps ph, rn_get_ready n = Ok (n1, rd) /\ persist_ready rd (node_storage n1) = Ok s /\
    apply_confs (rd_committed rd) (set_storage s n1) = Ok n2 /\ q l0 (rn_raft (set_storage s n1)) /\
    n_handle n = Ok (subn u l0 ps ph None (set_storage s n1), rd) /\ n' = subn u l0 ps ph None n2.
Proof.
  intros D H A1 A2. destruct (loop_dinv _ _ _ D H) as [D' LS]. destruct (loop_steps _ _ _ D H) as (m1 & s1 & m2 & Z1 & Z2 & Z3 & Z4).
  pose proof D as [[N1 N2 N3] _ _ _ _ _ _ _ _].
  unfold n_loop in H. apply bind_ok in H. destruct H as ([n1 rd1] & H1 & H).
  apply bind_ok in H. destruct H as (st & H2 & H). apply bind_ok in H. destruct H as (n2 & H3 & H). apply bind_ok in H. destruct H as (n3 & H4 & H).
  apply Ok_inj, pair_equal_spec in H. destruct H as [-> ->].
  pose proof H1 as G1. apply get_ready_inv in G1. destruct G1 as (R & Hr1 & Hs1 & Hp1 & Hrd1).
  assert (Hps : persisted_st (r_log (rn_raft n)) rd st).
  { destruct (persist_ready_ok n rd N1 R) as (s' & P1 & P2). pose proof H2 as G2. unfold node_storage in *. rewrite Hr1 in G2.
    cbn [r_log set_r_msgs set_r_read_states] in G2. rewrite P1 in G2. apply Ok_inj in G2. subst s'. auto. }
  destruct (set_st_log st _ N1 (ps_wf _ _ _ Hps) (ps_abs _ _ _ Hps)) as [Hw0 Habs0].
  set (nx := set_storage st n1) in *.
  assert (Hlx : r_log (rn_raft nx) = set_l_st st (r_log (rn_raft n))) by (unfold nx, set_storage, set_rn_raft; cbn [rn_raft r_log set_r_log]; rewrite Hr1; reflexivity).
  assert (Hsx : r_state (rn_raft nx) = RLeader -> 0 < r_term (rn_raft nx)) by (unfold nx, set_storage, set_rn_raft; cbn [rn_raft r_state r_term set_r_log]; rewrite Hr1; intros X; apply N3; left; exact X).
  destruct (apply_confs_confed (rd_committed rd) nx n2) as (C & E2 & _); auto; [rewrite Hlx; exact Hw0|].
  pose proof (cf_log _ _ C) as (c & Hc & _).
  assert (Hrx : rn_ready nx = Some rd) by (unfold nx, set_storage; exact Hrd1).
  assert (Hr2 : rn_ready n2 = Some rd) by (rewrite E2; exact Hrx).
  unfold rn_advance in H4. rewrite Hr2 in H4. apply bind_ok in H4. destruct H4 as (ra & H4 & H5). apply Ok_inj in H5. subst n'. cbn [rn_raft] in A2.
  assert (Ax : autol (rn_raft nx) = false) by (unfold autol, nx, set_storage, set_rn_raft; cbn [rn_raft r_trk set_r_log]; rewrite Hr1; exact A1).
  assert (Ap : applied_cursor rd <= l_committed (r_log (rn_raft nx))).
  { rewrite Hlx. cbn [l_committed set_l_st]. pose proof (ls_app_le _ _ _ LS) as X. unfold applied_after in X. destruct (N.ltb_spec 0 (applied_cursor rd)); lia. }
  assert (A3 : autol (rn_raft n2) = false).
  { rewrite H1 in Z1. apply Ok_inj, pair_equal_spec in Z1. destruct Z1 as [<- _]. rewrite H2 in Z2. apply Ok_inj in Z2. subst s1. fold nx in Z3. rewrite H3 in Z3. apply Ok_inj in Z3. subst m2.
    unfold autol in *. cbn [rn_raft] in Z4. rewrite <- Z4. exact A2. }
  destruct (advance_sub rd (rn_raft nx) c (rn_raft n2) ra C Hc Ax A3 Ap H4) as (u & l0 & V1 & V2).
  set (n0 := subn u l0 (rn_prev_soft nx) (if is_empty_hs (rd_hard rd) then rn_prev_hard nx else rd_hard rd) None nx).
  assert (Hh : n_handle n = Ok (n0, rd)).
  { unfold n_handle. rewrite H1. cbn [bind]. rewrite H2. cbn [bind]. fold nx. unfold rn_advance. rewrite Hrx, V1. reflexivity. }
  assert (Q : q l0 (rn_raft nx)).
  { destruct (handle_inv n n0 rd N1 (fun h => N3 (or_introl h)) Hh) as [_ _ _ _ _ HR]. cbv zeta in HR.
    destruct HR as (st' & u' & rb & r1 & Hps' & Hrb & Hr1' & Hrn & Hwb & Hab & Hwn & Han & _).
    assert (B1 : r1 = rb). { destruct Hr1' as [[X _]|(_ & r0 & _ & _ & _ & (X & _))]; auto. unfold autol in A1. congruence. }
    subst r1. change (rn_raft n0) with (sub u l0 (rn_raft nx)) in *.
    assert (U : l_us l0 = l_us (r_log (sub u l0 (rn_raft nx)))) by reflexivity. assert (S : l_st l0 = l_st (r_log (sub u l0 (rn_raft nx)))) by reflexivity.
    constructor.
    - change (log_abs l0) with (log_abs (r_log (sub u l0 (rn_raft nx)))). rewrite Han, Hab, Hlx. exact Habs0.
    - unfold log_snapshot. rewrite U, S, Hrn, Hlx, Hrb. cbn [r_log set_r_log l_us set_l_us u_snap l_st set_l_applied set_l_st]. unfold ms_snapshot. rewrite (ps_snap _ _ _ Hps'), (ps_snap _ _ _ Hps). destruct (u_snap (l_us (r_log (rn_raft n)))); reflexivity.
    - rewrite Hlx. apply lwf_0, Hw0.
    - apply lwf_0 in Hwn. exact Hwn. }
  exists n1, st, n2, u, l0. do 2 eexists. split; [exact H1|]. split; [exact H2|]. split; [exact H3|]. split; [exact Q|]. split; [exact Hh|].
  unfold subn. rewrite <- V2, E2. reflexivity.
Qed.
Lemma loop_order n n' rd : dinv n -> n_loop n = Ok (n', rd) -> autol (rn_raft n) = false -> autol (rn_raft n') = false ->
  exists n1, n_handle n = Ok (n1, rd) /\ apply_confs (rd_committed rd) n1 = Ok n'.
Proof.
  intros D H A1 A2. destruct (loop_sub _ _ _ D H A1 A2) as (n1 & s & n2 & u & l0 & ps & ph & _ & _ & H3 & Q & Hh & ->). eexists. split; [exact Hh|].
  destruct (apply_confs_sub u l0 ps ph None _ _ n2 Q H3) as [X _]. exact X.
Qed.
End Order.
