(** The converse of P_Order.v: when the Ready can be handled and the membership changes applied
    afterwards, the documented iteration succeeds. *)
From Verif Require Import Prelude Types M_Util M_Quorum M_Inflights M_Progress M_Tracker.
From Verif Require Import M_Storage M_Unstable M_Log M_ReadOnly M_ConfPb M_ConfChange M_Raft M_RawNode.
From Verif Require Import Spec_Log P_Lists P_Storage P_Log P_Frame P_Prim P_Fields P_NodeLog P_Handle P_NodeRun Sys_Node Sys_Loop Spec_ConfChange P_ConfChange P_Conf P_Loop P_Order.

Section Order.
Context {E : Env}.

Lemma set_com_com c d l : set_l_committed c (set_l_committed d l) = set_l_committed c l.
Proof. reflexivity. Qed.
Lemma advance_total rd r c r2 ra : r_uncommitted r2 = r_uncommitted r -> r_log r2 = set_l_committed c (r_log r) -> l_committed (r_log r) <= c -> autol r = false -> autol r2 = false ->
  raft_advance rd r = Ok ra -> exists rb, raft_advance rd r2 = Ok rb.
Proof.
  intros U Hl Hc A1 A2 H. unfold raft_advance in *. cbv zeta in *.
  destruct (reduce_uncommitted_fields (rd_committed rd) r) as [u Hu]. destruct (reduce_uncommitted_fields (rd_committed rd) r2) as [u2 Hu2].
  rewrite Hu in H. rewrite Hu2. clear Hu Hu2. cbn [r_log set_r_uncommitted] in *. rewrite Hl.
  apply bind_ok in H. destruct H as (rb & H1 & H). apply bind_ok in H. destruct H as (rc & H2 & H).
  set (a := if 0 <? applied_cursor rd then applied_cursor rd else l_applied (r_log r)).
  assert (B : l_us (r_log rb) = l_us (r_log r) /\ exists rb', (if 0 <? applied_cursor rd then l <- log_applied_to (applied_cursor rd) (set_l_committed c (r_log r)) ;; maybe_auto_leave (l_applied (set_l_committed c (r_log r))) (applied_cursor rd) (set_r_log l (set_r_uncommitted u2 r2))
     else Ok (set_r_uncommitted u2 r2)) = Ok rb' /\ l_us (r_log rb') = l_us (r_log r)).
  { destruct (0 <? applied_cursor rd) eqn:Hz.
    - apply bind_ok in H1. destruct H1 as (l1 & H3 & H1). unfold log_applied_to in *. destruct (applied_cursor rd =? 0) eqn:Hz0; [lia|]. cbn [l_committed l_applied set_l_committed].
      destruct (_ || _) eqn:Hb in H3; [discriminate|]. apply Ok_inj in H3. subst l1. unfold maybe_auto_leave in *. cbn [r_trk set_r_log set_r_uncommitted] in *. unfold autol in *. rewrite A1 in H1. rewrite A2. cbn [andb] in *.
      apply Ok_inj in H1. subst rb. split; [reflexivity|].
      replace ((c <? applied_cursor rd) || (applied_cursor rd <? l_applied (r_log r)))%bool with false; [eexists; split; [reflexivity|reflexivity]|].
      symmetry. apply orb_false_iff in Hb. destruct Hb as [Hb1 Hb2]. apply orb_false_iff. split; [apply N.ltb_ge; apply N.ltb_ge in Hb1; lia|exact Hb2].
    - apply Ok_inj in H1. subst rb. split; [reflexivity|]. eexists. split; [reflexivity|]. cbn [r_log set_r_uncommitted]. rewrite Hl. reflexivity. }
  destruct B as (B1 & rb' & B2 & B3). rewrite B2. cbn [bind].
  destruct (rev (rd_ents rd)) as [|e es].
  - cbn [bind]. destruct (sn_index (rd_snap rd) =? 0); eexists; reflexivity.
  - unfold log_stable_to in *. rewrite B3. apply bind_ok in H2. destruct H2 as (l1 & H2 & _). apply bind_ok in H2. destruct H2 as (us & H2 & _). rewrite B1 in H2. rewrite H2. cbn [bind].
    destruct (sn_index (rd_snap rd) =? 0); eexists; reflexivity.
Qed.

Lemma next_pos l es : log_next_ents l = Ok es -> es <> [] -> 0 < l_committed l.
Proof.
  unfold log_next_ents. cbv zeta. destruct (N.ltb_spec (N.max (l_applied l + 1) (log_first l)) (l_committed l + 1)); [lia|]. intros X. apply Ok_inj in X. congruence.
Qed.
(** Handling a Ready when no automatic leaving is due. *)
Lemma handle_sub n m rd : dinv n -> n_handle n = Ok (m, rd) -> autol (rn_raft n) = false ->
  exists n1 s u l0 ps ph, rn_get_ready n = Ok (n1, rd) /\ persist_ready rd (node_storage n1) = Ok s /\
    q l0 (rn_raft (set_storage s n1)) /\ m = subn u l0 ps ph None (set_storage s n1) /\
    lwf (r_log (rn_raft (set_storage s n1))) /\
    (r_state (rn_raft (set_storage s n1)) = RLeader -> 0 < r_term (rn_raft (set_storage s n1))) /\
    r_trk (rn_raft (set_storage s n1)) = r_trk (rn_raft n) /\ rn_ready (set_storage s n1) = Some rd /\
    raft_advance rd (rn_raft (set_storage s n1)) = Ok (sub u l0 (rn_raft (set_storage s n1))) /\
    (rd_committed rd <> [] -> 0 < l_committed (r_log (rn_raft (set_storage s n1)))).
Proof.
  intros D H A1. pose proof D as [[N1 N2 N3] _ _ _ _ _ _ _ _]. pose proof H as HH.
  unfold n_handle in H. apply bind_ok in H. destruct H as ([n1 rd1] & H1 & H).
  apply bind_ok in H. destruct H as (st & H2 & H). apply bind_ok in H. destruct H as (n3 & H4 & H).
  apply Ok_inj, pair_equal_spec in H. destruct H as [-> ->].
  pose proof H1 as G1. apply get_ready_inv in G1. destruct G1 as (R & Hr1 & Hs1 & Hp1 & Hrd1).
  assert (Hps : persisted_st (r_log (rn_raft n)) rd st).
  { destruct (persist_ready_ok n rd N1 R) as (s' & P1 & P2). pose proof H2 as G2. unfold node_storage in *. rewrite Hr1 in G2.
    cbn [r_log set_r_msgs set_r_read_states] in G2. rewrite P1 in G2. apply Ok_inj in G2. subst s'. auto. }
  destruct (set_st_log st _ N1 (ps_wf _ _ _ Hps) (ps_abs _ _ _ Hps)) as [Hw0 Habs0].
  set (nx := set_storage st n1) in *.
  assert (Hlx : r_log (rn_raft nx) = set_l_st st (r_log (rn_raft n))) by (unfold nx, set_storage, set_rn_raft; cbn [rn_raft r_log set_r_log]; rewrite Hr1; reflexivity).
  assert (Hsx : r_state (rn_raft nx) = RLeader -> 0 < r_term (rn_raft nx)) by (unfold nx, set_storage, set_rn_raft; cbn [rn_raft r_state r_term set_r_log]; rewrite Hr1; intros X; apply N3; left; exact X).
  assert (Htx : r_trk (rn_raft nx) = r_trk (rn_raft n)) by (unfold nx, set_storage, set_rn_raft; cbn [rn_raft r_trk set_r_log]; rewrite Hr1; reflexivity).
  assert (Hrx : rn_ready nx = Some rd) by (unfold nx, set_storage; exact Hrd1).
  assert (Ax : autol (rn_raft nx) = false) by (unfold autol in *; rewrite Htx; exact A1).
  assert (Wx : lwf (r_log (rn_raft nx))) by (rewrite Hlx; exact Hw0).
  assert (Hpos : rd_committed rd <> [] -> 0 < l_committed (r_log (rn_raft nx))).
  { intros X. rewrite Hlx. cbn [l_committed set_l_st]. eapply next_pos; [apply (ro_committed _ _ R)|exact X]. }
  unfold rn_advance in H4. rewrite Hrx in H4. apply bind_ok in H4. destruct H4 as (ra & H4 & H5). apply Ok_inj in H5. subst m.
  assert (Ap : applied_cursor rd <= l_committed (r_log (rn_raft nx))).
  { unfold raft_advance in H4. cbv zeta in H4. destruct (reduce_uncommitted_fields (rd_committed rd) (rn_raft nx)) as [u ->] in H4. apply bind_ok in H4. destruct H4 as (rb & H4 & _).
    destruct (N.ltb_spec 0 (applied_cursor rd)) as [Hz|Hz]; [|lia]. apply bind_ok in H4. destruct H4 as (l1 & H4 & _). unfold log_applied_to in H4. destruct (applied_cursor rd =? 0) eqn:Hz0; [lia|].
    cbn [r_log set_r_uncommitted] in H4. destruct (_ || _) eqn:Hb in H4; [discriminate|]. apply orb_false_iff in Hb. destruct Hb as [Hb _]. apply N.ltb_ge in Hb. exact Hb. }
  destruct (advance_sub rd (rn_raft nx) (l_committed (r_log (rn_raft nx))) (rn_raft nx) ra (confed_refl _ Wx) (eq_sym (set_com_id _)) Ax Ax Ap H4) as (u & l0 & V1 & V2).
  set (m := mkRN ra (rn_prev_soft nx) (if is_empty_hs (rd_hard rd) then rn_prev_hard nx else rd_hard rd) None) in *.
  assert (Q : q l0 (rn_raft nx)).
  { destruct (handle_inv n m rd N1 (fun h => N3 (or_introl h)) HH) as [_ _ _ _ _ HR]. cbv zeta in HR.
    destruct HR as (st' & u' & rb & r1 & Hps' & Hrb & Hr1' & Hrn & Hwb & Hab & Hwn & Han & _).
    assert (B1 : r1 = rb). { destruct Hr1' as [[X _]|(_ & r0 & _ & _ & _ & (X & _))]; auto. unfold autol in A1. congruence. }
    subst r1. change (rn_raft m) with ra in *. rewrite V2 in *.
    assert (U : l_us l0 = l_us (r_log (sub u l0 (rn_raft nx)))) by reflexivity. assert (S : l_st l0 = l_st (r_log (sub u l0 (rn_raft nx)))) by reflexivity.
    constructor.
    - change (log_abs l0) with (log_abs (r_log (sub u l0 (rn_raft nx)))). rewrite Han, Hab, Hlx. exact Habs0.
    - unfold log_snapshot. rewrite U, S, Hrn, Hlx, Hrb. cbn [r_log set_r_log l_us set_l_us u_snap l_st set_l_applied set_l_st]. unfold ms_snapshot. rewrite (ps_snap _ _ _ Hps'), (ps_snap _ _ _ Hps). destruct (u_snap (l_us (r_log (rn_raft n)))); reflexivity.
    - apply lwf_0, Wx.
    - apply lwf_0 in Hwn. exact Hwn. }
  exists n1, st, u, l0, (rn_prev_soft nx), (if is_empty_hs (rd_hard rd) then rn_prev_hard nx else rd_hard rd).
  split; [exact H1|]. split; [exact H2|]. split; [exact Q|]. split; [unfold m, subn; rewrite V2; reflexivity|]. split; [exact Wx|]. split; [exact Hsx|]. split; [exact Htx|]. split; [exact Hrx|]. split; [|exact Hpos]. fold nx. exact V1.
Qed.

(** Back from the state after Advance to the one before. *)
Lemma sub_back u l0 n ps ph : q l0 (rn_raft n) ->
  q (r_log (rn_raft n)) (rn_raft (subn u l0 ps ph None n)) /\
  subn (r_uncommitted (rn_raft n)) (r_log (rn_raft n)) (rn_prev_soft n) (rn_prev_hard n) (rn_ready n) (subn u l0 ps ph None n) = n.
Proof.
  intros [A B W1 W2]. split.
  - unfold subn, q. cbn [rn_raft sub r_log set_r_uncommitted set_r_log]. constructor; [rewrite log_abs_committed; symmetry; exact A|symmetry; exact B|exact W2|exact W1].
  - destruct n as [r pso pha o]. unfold subn. cbn [rn_raft rn_prev_soft rn_prev_hard rn_ready]. f_equal. unfold sub. destruct r as []. cbn. f_equal. destruct r_log; reflexivity.
Qed.
Lemma apply_back u l0 ps ph cc n m c : q l0 (rn_raft n) -> rn_apply_conf_change cc (subn u l0 ps ph None n) = Ok (m, c) ->
  exists n', rn_apply_conf_change cc n = Ok (n', c) /\ m = subn u l0 ps ph None n' /\ q l0 (rn_raft n').
Proof.
  intros Q H. destruct (sub_back u l0 n ps ph Q) as [Q2 B]. 
  destruct (rn_apply_sub (r_uncommitted (rn_raft n)) (r_log (rn_raft n)) (rn_prev_soft n) (rn_prev_hard n) (rn_ready n) _ _ _ _ Q2 H) as [X _]. rewrite B in X.
  eexists. split; [exact X|]. destruct (rn_apply_sub u l0 ps ph None _ _ _ _ Q X) as [Y Q3]. split; [|exact Q3]. rewrite Y in H. apply Ok_inj, pair_equal_spec in H. destruct H as [H _]. symmetry. exact H.
Qed.
Lemma loop_total n m rd n1 s n2 u l0 ps ph : dinv n -> n_handle n = Ok (m, rd) -> autol (rn_raft n) = false ->
  rn_get_ready n = Ok (n1, rd) -> persist_ready rd (node_storage n1) = Ok s ->
  raft_advance rd (rn_raft (set_storage s n1)) = Ok (sub u l0 (rn_raft (set_storage s n1))) ->
  lwf (r_log (rn_raft (set_storage s n1))) -> (r_state (rn_raft (set_storage s n1)) = RLeader -> 0 < r_term (rn_raft (set_storage s n1))) ->
  rn_ready (set_storage s n1) = Some rd -> r_trk (rn_raft (set_storage s n1)) = r_trk (rn_raft n) ->
  apply_confs (rd_committed rd) (set_storage s n1) = Ok n2 -> autol (rn_raft n2) = false ->
  m = subn u l0 ps ph None (set_storage s n1) -> q l0 (rn_raft (set_storage s n1)) ->
  n_loop n = Ok (subn u l0 ps ph None n2, rd).
Proof.
  intros D Hh A1 H1 H2 HA W Ht Hr Htr H3 A2 Hm Q.
  destruct (apply_confs_confed (rd_committed rd) _ _ W Ht H3) as (C & E2 & _). pose proof (cf_log _ _ C) as (c & Hc & Hlo & _).
  assert (Ax : autol (rn_raft (set_storage s n1)) = false) by (unfold autol in *; rewrite Htr; exact A1).
  destruct (advance_total rd _ c (rn_raft n2) _ (cf_unc _ _ C) Hc Hlo Ax A2 HA) as [rb Hb].
  assert (L : exists n', n_loop n = Ok (n', rd) /\ t_config (r_trk (rn_raft n')) = t_config (r_trk (rn_raft n2))).
  { assert (X : exists n', n_loop n = Ok (n', rd)).
    { unfold n_loop. rewrite H1. cbn [bind]. rewrite H2. cbn [bind]. rewrite H3. cbn [bind]. unfold rn_advance. assert (Hr2 : rn_ready n2 = Some rd) by (rewrite E2; exact Hr). rewrite Hr2, Hb. cbn [bind]. eexists. reflexivity. }
    destruct X as [n' X]. exists n'. split; [exact X|]. destruct (loop_steps _ _ _ D X) as (m1 & s1 & m2 & Z1 & Z2 & Z3 & Z4).
    rewrite H1 in Z1. apply Ok_inj, pair_equal_spec in Z1. destruct Z1 as [<- _]. rewrite H2 in Z2. apply Ok_inj in Z2. subst s1. rewrite H3 in Z3. apply Ok_inj in Z3. subst m2. exact Z4. }
  destruct L as (n' & L & L2). assert (A3 : autol (rn_raft n') = false) by (unfold autol in *; rewrite L2; exact A2).
  destruct (loop_order _ _ _ D L A1 A3) as (m' & M1 & M2). rewrite Hh in M1. apply Ok_inj, pair_equal_spec in M1. destruct M1 as [<- _].
  subst m. destruct (apply_confs_sub u l0 ps ph None _ _ _ Q H3) as [X _]. rewrite X in M2. apply Ok_inj in M2. rewrite M2. exact L.
Qed.
End Order.
