(** Read-index requests at one node in safe mode (C39). *)
From Verif Require Import Prelude Types M_Util M_Quorum M_Inflights M_Progress M_Tracker.
From Verif Require Import M_Storage M_Unstable M_Log M_ReadOnly M_ConfPb M_ConfChange M_Raft M_RawNode.
From Verif Require Import Spec_ReadOnly P_ReadOnly P_Frame P_Prim Sys_Node P_NodeRun P_Emit P_Read P_ReadQ P_ReadRun Spec_Node Spec_Read Spec_Quorum P_New.
From Verif Require Import Prop_Leader Ex_Env Ex_Node Ex_Check Ex_Case.

Section Props.
Context {E : Env}.

Lemma run_id os : forall n0 n, Forall nop_wf os -> reached n0 os n -> node_id n = node_id n0.
Proof.
  induction os as [|o os IH]; intros n0 n Hw (outs & H); cbn in H; [inv H; auto|].
  apply bind_ok in H. destruct H as ([n1 o1] & H1 & H). apply bind_ok in H. destruct H as ([n2 o2] & H2 & H). inv H.
  transitivity (node_id n1); [apply IH; [inv Hw; auto|eexists; eauto]|]. apply Forall_inv in Hw.
  change (k_id (r_cfg (rn_raft n1)) = k_id (r_cfg (rn_raft n0))). f_equal. destruct (plain_dec o) as [Hp|Hp].
  - destruct (n_step_rcall _ _ _ _ Hp Hw H1) as (im & l & _ & _ & r1 & h & A & _ & B). rewrite (sm_cfg _ _ (rbs_same _ _ _ _ _ _ B)). apply A.
  - apply (not_plain_qn _ _ _ _ Hp H1).
Qed.

(** Who asked, seen from the message. *)
Definition asker_of (id : N) (m : msg) : N := if (m_from m =? 0) || (m_from m =? id) then 0 else m_from m.
Lemma presents_asks id o m e es : presents o m -> nop_wf o -> m_entries m = e :: es -> asks id o (asker_of id m) (e_data e).
Proof.
  intros [H1 H2] Hw He. unfold asker_of. destruct o; cbn in *; try (exfalso; apply (proj1 H2); auto; fail).
  - subst. split; auto. split; [|eauto]. destruct Hw as [Hw _]. destruct (N.eqb_spec (m_from m0) 0); [contradiction|reflexivity].
  - subst. cbn in *. injection He as <- <-. auto.
Qed.

(** C39: whenever a leader in safe mode answers a read request, either it is alone in its
    configuration and the answer is its commit index, or the answer is the commit index it had when
    it took the request up; that was on the request's arrival, or, if it had committed nothing of
    its term yet, on the acknowledgement by which it did; at that moment the entry at the answered
    index was of its own term; and after that a quorum of its configuration acknowledged heartbeats
    of its term carrying the context of this request or of a later one. *)
Theorem C39_safe_read_index c s tape n0 os n o n' asker ctx idx :
  c_storage c = Some s -> c_ro c = RoSafe -> rn_new c tape = Ok n0 ->
  Forall nop_wf (os ++ [o]) -> reached n0 os n -> answers o n n' asker ctx idx ->
  node_role n' = RLeader /\
  (((exists v, node_incoming n' = [v]) /\ node_outgoing n' = [] /\ idx = node_commit n' /\
      (asks (node_id n0) o asker ctx \/ postponed n0 (os ++ [o]) asker ctx)) \/
   (exists os1 o1 os2 n1 ctx' S,
      os ++ [o] = os1 ++ o1 :: os2 /\ reached n0 (os1 ++ [o1]) n1 /\
      leads_committed n1 /\ node_term n1 = node_term n' /\ node_commit n1 = idx /\
      (asks (node_id n0) o1 asker ctx \/
       ((exists m, o1 = NStep m /\ m_type m = MsgAppResp) /\ postponed n0 os1 asker ctx)) /\
      majority (node_incoming n') S /\ majority (node_outgoing n') S /\
      (forall v, S v = true -> v = node_id n' \/ beat_acked os2 (node_term n') v ctx'))).
Proof.
  intros Hs Ho Hn Hw Hr [(out & H) A]. pose proof Hw as Hw'. apply Forall_app in Hw. destruct Hw as [Hw Hwo]. apply Forall_inv in Hwo.
  assert (Eid : node_id n' = node_id n0).
  { eapply run_id; [exact Hw'|]. destruct Hr as (outs & Hr). exists (outs ++ [out]). eapply n_run_snoc; eauto. }
  apply rn_new_spec in Hn. destruct Hn as (r0 & Hn & En). apply raft_new_spec in Hn. destruct Hn as (s' & cp & _ & _ & _ & _ & _ & _ & F).
  assert (I : rinv n0 (r_id (rn_raft n)) os (rn_raft n)).
  { apply rinv_run; auto; subst n0; cbn; rewrite ?(fr_ro _ _ _ _ F); auto; [apply ro_rel_new|apply F]. }
  clear F. destruct (rinv_step n0 _ _ _ _ _ I Hr Hwo H) as [I' P].
  assert (PP : forall os m e es, ppost n0 os m -> m_entries m = e :: es -> postponed n0 os (asker_of (node_id n0) m) (e_data e)).
  { intros os0 m e es (a & b & d & n1 & -> & X1 & X2 & X3 & X4) He. exists a, b, d, n1. split; auto. split; auto. split; auto. eapply presents_asks; eauto. }
  assert (G : exists p e es, m_entries (fst p) = e :: es /\ e_data e = ctx /\ asker_of (node_id n0) (fst p) = asker /\ snd p = idx /\ node_role n' = RLeader /\
     (good_now n0 os o (rn_raft n') p \/ good_conf n0 os o (rn_raft n') p)).
  { destruct (plain_dec o) as [Hp|Hp].
    - destruct (P Hp) as (im & r1 & h & l & P1 & P2 & P3 & P4 & P5). destruct (rbs_out _ _ _ _ _ _ P4) as (ms & rs & B1 & B2 & B3 & B4). pose proof (rbs_same _ _ _ _ _ _ P4) as S.
      destruct A as [(A1 & A2 & rs' & A3 & A4)|(A1 & ms' & x & e & es & A2 & A3 & A4 & A5 & A6 & A7 & A8)].
      + unfold node_reads in A3. rewrite B2, (qa_reads _ _ P3) in A3. apply app_inv_head in A3. subst rs'.
        assert (L : r_state r1 = RLeader) by (rewrite <- (sm_state _ _ S); exact A2).
        destruct (B4 _ A4 L) as (p & C1 & C0 & C2 & e & es & C3 & C4). cbn in C2, C4. exists p, e, es. split; auto. split; auto. split; [|split; auto].
        subst asker. unfold asker_of. rewrite <- Eid. unfold is_local_req in C0. unfold r_id in C0. rewrite <- (sm_cfg _ _ S) in C0. change (node_id n') with (k_id (r_cfg (rn_raft n'))). rewrite C0. auto.
      + unfold pending in A2. destruct (qa_msgs _ _ P3) as (m0 & M1 & M2). rewrite B1, M1, <- app_assoc in A2. apply app_inv_head in A2. subst ms'.
        apply in_app_or in A3. destruct A3 as [A3|A3]; [rewrite Forall_forall in M2; specialize (M2 x A3); unfold plainm in M2; rewrite A4 in M2; destruct M2|].
        destruct (B3 _ A3 A4) as (L & p & C1 & C2 & C3 & C4 & C5 & C6 & C7 & C8). exists p, e, es. split; [congruence|]. split; auto. split; [|split; [congruence|split; auto]; change (r_state (rn_raft n') = RLeader); rewrite (sm_state _ _ S); auto].
        subst asker. unfold asker_of. rewrite <- Eid. unfold is_local_req in C8. unfold r_id in C8. rewrite <- (sm_cfg _ _ S) in C8. change (node_id n') with (k_id (r_cfg (rn_raft n'))). rewrite C8. auto.
    - exfalso. destruct (not_plain_qn _ _ _ _ Hp H) as [_ _ _ _ _ _ Q1 Q2]. unfold node_reads, pending in A.
      destruct A as [(_ & _ & rs' & A3 & A4)|(_ & ms' & x & e & es & A2 & A3 & _)].
      + destruct Q1 as [Q1|Q1]; rewrite Q1 in A3; [|symmetry in A3; apply app_eq_nil in A3; destruct A3 as [_ ->]; destruct A4].
        rewrite <- (app_nil_r (r_read_states (rn_raft n))) in A3 at 1. apply app_inv_head in A3. subst. destruct A4.
      + destruct Q2 as [Q1'|Q1']; rewrite Q1' in A2; [|symmetry in A2; apply app_eq_nil in A2; destruct A2 as [_ ->]; destruct A3].
        rewrite <- (app_nil_r (r_msgs (rn_raft n))) in A2 at 1. apply app_inv_head in A2. subst. destruct A3. }
  destruct G as (p & e & es & G1 & G2 & G3 & G4 & G5 & G6). split; auto. destruct G6 as [(K1 & K2 & K3)|(x & os2 & c' & S & K1 & K2 & K3 & K4 & K5 & K6)].
  - left. unfold trk_is_singleton in K1. apply andb_prop in K1. destruct K1 as [J1 J2]. apply N.eqb_eq in J1, J2. split.
    { change (node_incoming n') with (tc_incoming (t_config (r_trk (rn_raft n')))). destruct (tc_incoming (t_config (r_trk (rn_raft n')))) as [|v [|w l]]; [discriminate|eauto|cbn in J1; rewrite !nlen_cons in J1; lia]. }
    split; [change (node_outgoing n') with (tc_outgoing (t_config (r_trk (rn_raft n')))); destruct (tc_outgoing (t_config (r_trk (rn_raft n')))); [auto|rewrite nlen_cons in J2; lia]|].
    split; [rewrite <- G4; exact K2|]. subst ctx asker. destruct K3 as [K3|K3]; [left; eapply presents_asks; eauto|right; eapply PP; eauto].
  - right. destruct K3 as (os1 & o1 & n1 & X1 & X2 & X3 & X4 & X5 & X6 & X7). exists os1, o1, os2, n1, c', S.
    split; auto. split; auto. split; auto. split; auto. split; [congruence|]. split.
    { rewrite K1 in X7. subst ctx asker. destruct X7 as [X7|[(m & -> & X7) X8]]; [left; eapply presents_asks; eauto|]. right. split; [eauto|].
      destruct X8 as (a & b & d & n2 & Y1 & Y2 & Y3 & Y4 & Y5). destruct d as [|z d] using rev_ind.
      - apply app_inj_tail in Y1. destruct Y1 as [-> <-]. destruct Y3 as [Y3 Y6]. cbn in Y6. rewrite Y6 in Y3. congruence.
      - rewrite app_comm_cons, app_assoc in Y1. apply app_inj_tail in Y1. destruct Y1 as [-> _]. eapply PP; eauto. exists a, b, d, n2. auto. }
    split; [exact K4|]. split; [exact K5|]. intros v Hv. destruct (K6 v Hv) as [->|Z]; auto.
Qed.
End Props.

(** A concrete node: asked before it committed anything of its term, it answers after the commit and
    a heartbeat round; a request of a peer is answered in the same round. *)
Definition ex_hbresp (from term : N) (ctx : string) : msg := mkMsg MsgHeartbeatResp 1 from term 0 0 [] 0 empty_snapshot false 0 ctx.
Definition ex_remote (from : N) (ctx : string) : msg := mkMsg MsgReadIndex 1 from 0 0 0 [mkEntry 0 0 EntryNormal ctx] 0 empty_snapshot false 0 EmptyString.
Definition ex_reads : list nop :=
  ex_elect ++ [NReadIndex "a"; ex_ack; NHandle; NStep (ex_remote 3 "b"); NHandle; NPropose "x"; NHandle; NStep (ex_app_resp 2 3 9); NHandle].
Section Ex.
#[local] Existing Instance ex_env.
Definition read_case (os : list nop) (o : nop) (chk : rawnode -> rawnode -> bool) : bool :=
  match rn_new (ex_cfg 1) ex_tape with
  | Ok n0 => forallb nop_wfb (os ++ [o]) && match n_run os n0 with Ok (n, _) => match n_step o n with Ok (n', _) => chk n n' | _ => false end | _ => false end
  | _ => false
  end.
Lemma read_case_ok os o chk : read_case os o chk = true ->
  exists n0 n n', rn_new (ex_cfg 1) ex_tape = Ok n0 /\ Forall nop_wf (os ++ [o]) /\ reached n0 os n /\ (exists out, n_step o n = Ok (n', out)) /\ chk n n' = true.
Proof.
  unfold read_case. destruct (rn_new (ex_cfg 1) ex_tape) as [n0| | |] eqn:H0; try discriminate. intros H. apply andb_prop in H. destruct H as [H1 H].
  destruct (n_run os n0) as [[n outs]| | |] eqn:Hr; try discriminate. destruct (n_step o n) as [[n' out]| | |] eqn:Ho; try discriminate.
  exists n0, n, n'. split; [auto|]. split; [|split; [exists outs; auto|split; eauto]]. apply Forall_forall. rewrite forallb_forall in H1. intros x Hx. specialize (H1 x Hx).
  destruct x; cbn in *; auto. apply peer_msg_wfb_ok; auto.
Qed.
Definition rs_eqb (a b : readstate) : bool := (rs_index a =? rs_index b) && String.eqb (rs_ctx a) (rs_ctx b).
Lemma rs_eqb_ok a b : rs_eqb a b = true -> a = b.
Proof. destruct a, b. unfold rs_eqb. cbn. intros H. apply andb_prop in H. destruct H as [H1 H2]. apply N.eqb_eq in H1. apply String.eqb_eq in H2. congruence. Qed.
Example C39_example : exists n0 n n', rn_new (ex_cfg 1) ex_tape = Ok n0 /\ Forall nop_wf (ex_reads ++ [NStep (ex_hbresp 2 3 "b")]) /\ reached n0 ex_reads n /\
  answers (NStep (ex_hbresp 2 3 "b")) n n' 0 "a" 8 /\ answers (NStep (ex_hbresp 2 3 "b")) n n' 3 "b" 8 /\ node_commit n' = 9.
Proof.
  destruct (read_case_ok ex_reads (NStep (ex_hbresp 2 3 "b")) (fun n n' =>
    is_nil (node_reads n) && is_nil (pending n) && existsb (rs_eqb (mkReadState 8 "a")) (node_reads n') && (match node_role n' with RLeader => true | _ => false end) &&
    existsb (fun x => mtype_eqb (m_type x) MsgReadIndexResp && (m_to x =? 3) && (m_index x =? 8) && match m_entries x with e :: _ => String.eqb (e_data e) "b" | [] => false end) (pending n') && (node_commit n' =? 9)))
    as (n0 & n & n' & H0 & H1 & H2 & H3 & H); [vm_compute; reflexivity|].
  exists n0, n, n'. split; [auto|]. split; [auto|]. split; [auto|]. clear H0 H1 H2.
  repeat (apply andb_prop in H; destruct H as [H ?]).
  assert (R0 : node_reads n = []) by (destruct (node_reads n); [auto|discriminate]).
  assert (P0 : pending n = []) by (destruct (pending n); [auto|discriminate]).
  split; [|split; [|apply N.eqb_eq; auto]]; (split; [exact H3|]).
  - left. split; [auto|]. split; [destruct (node_role n'); auto; discriminate|]. exists (node_reads n'). rewrite R0. split; [auto|].
    match goal with K : existsb (rs_eqb _) _ = true |- _ => apply existsb_exists in K; destruct K as (x & K1 & K2) end. apply rs_eqb_ok in K2. rewrite K2. auto.
  - right. split; [lia|]. match goal with K : existsb (fun x => _) _ = true |- _ => apply existsb_exists in K; destruct K as (x & K1 & K2) end.
    repeat (apply andb_prop in K2; destruct K2 as [K2 ?]). destruct (m_entries x) as [|e es] eqn:Ee; [discriminate|].
    exists (pending n'), x, e, es. rewrite P0. split; [auto|]. split; [auto|]. split; [apply mtype_eqb_eq; auto|]. split; [apply N.eqb_eq; auto|]. split; [apply N.eqb_eq; auto|]. split; [auto|]. apply String.eqb_eq; auto.
Qed.
End Ex.
