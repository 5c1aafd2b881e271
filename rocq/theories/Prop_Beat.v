(** Heartbeats (C61). *)
From Verif Require Import Prelude Types M_Util M_Quorum M_Inflights M_Progress M_Tracker.
From Verif Require Import M_Storage M_Unstable M_Log M_ReadOnly M_ConfPb M_ConfChange M_Raft M_RawNode.
From Verif Require Import P_Inflights Spec_Log P_Lists P_Storage P_Log Spec_Storage Sys_Storage P_StorageSeq Spec_RaftLog Sys_RaftLog P_RaftLogSeq.
From Verif Require Import Spec_Quorum P_Quorum Spec_Progress Spec_ConfChange P_ConfChange.
From Verif Require Import P_Frame P_Prim Sys_Node Sys_ConfChange P_Node P_Fields P_Vote Spec_Node P_Persist P_New P_Time P_Conf P_NodeLog P_Handle P_NodeRun P_Emit P_Ack.
From Verif Require Import Prop_Vote P_Lead P_Elect P_Beat R_Elig Spec_Flow Spec_Beat Prop_Deliver Prop_Msg Prop_Flow Prop_Elect Ex_Env Ex_Node Ex_Check Ex_Case.

Section Props.
Context {E : Env}.

Lemma made_period c n : made c n -> k_hb_timeout (r_cfg (rn_raft n)) = heartbeat_period c /\ 1 <= heartbeat_period c.
Proof.
  intros Hm. rewrite (mi_cfg _ _ (made_inv _ _ Hm)). split; [reflexivity|].
  destruct Hm as (tape & s & n0 & os & outs & H1 & H2 & H3 & H4 & H5).
  apply rn_new_spec in H3. destruct H3 as (r & H & _). apply raft_new_spec in H. destruct H as (s' & cp & V & _).
  unfold heartbeat_period. unfold validate in V. destruct (c_id c =? 0); [discriminate|].
  destruct (Z.leb_spec (c_heartbeat_tick c) 0); [discriminate|]. lia.
Qed.
Lemma made_step c o n n' out : made c n -> nop_ok o n -> n_step o n = Ok (n', out) -> made c n'.
Proof.
  intros (tape & s & n0 & os & outs & H1 & H2 & H3 & H4 & H5) Hk H.
  exists tape, s, n0, (os ++ [o]), (outs ++ [out]). split; [assumption|]. split; [assumption|]. split; [assumption|].
  clear H1 H2 H3. revert n0 outs H4 H5. induction os as [|a os IH]; intros n0 outs H4 H5; cbn [n_run n_run_ok app] in *.
  - apply Ok_inj, pair_equal_spec in H5. destruct H5 as [-> <-]. rewrite H. cbn. auto.
  - destruct H4 as [H4 H6]. apply bind_ok in H5. destruct H5 as ([n1 o1] & H5 & H7). rewrite H5 in *. apply bind_ok in H7. destruct H7 as ([n2 o2] & H7 & Hx).
    apply Ok_inj, pair_equal_spec in Hx. destruct Hx as [-> <-]. destruct (IH _ _ H6 H7) as [X Y]. cbn [bind]. rewrite Y. split; [split; auto|reflexivity].
Qed.
Lemma made_run c os : forall n n' outs, made c n -> n_run_ok os n -> n_run os n = Ok (n', outs) -> made c n'.
Proof.
  induction os as [|o os IH]; intros n n' outs M Hk H; cbn [n_run n_run_ok] in *.
  - apply Ok_inj, pair_equal_spec in H. destruct H as [-> _]. auto.
  - destruct Hk as [Hk1 Hk2]. apply bind_ok in H. destruct H as ([n1 o1] & H & H7). rewrite H in *. apply bind_ok in H7. destruct H7 as ([n2 o2] & H7 & Hx).
    apply Ok_inj, pair_equal_spec in Hx. destruct Hx as [-> <-]. apply (IH n1 n' o2); auto. exact (made_step _ _ _ _ _ M Hk1 H).
Qed.

Lemma n_tick n n' out : n_step NTick n = Ok (n', out) -> tick (rn_raft n) = Ok (rn_raft n').
Proof.
  cbn [n_step]. intros H. apply bind_ok in H. destruct H as (n1 & H & Hx). apply Ok_inj, pair_equal_spec in Hx. destruct Hx as [-> _].
  unfold rn_tick in H. apply bind_ok in H. destruct H as (r1 & H & Hx). apply Ok_inj in Hx. subst. exact H.
Qed.
(** One tick of a leader that stays one, in terms of the API. *)
Lemma tick_step c n n' out : made c n -> node_role n = RLeader -> node_role n' = RLeader -> n_step NTick n = Ok (n', out) ->
  (r_hb_elapsed (rn_raft n) + 1 < heartbeat_period c -> r_hb_elapsed (rn_raft n') = r_hb_elapsed (rn_raft n) + 1 /\ pending n' = pending n) /\
  (heartbeat_period c <= r_hb_elapsed (rn_raft n) + 1 -> r_hb_elapsed (rn_raft n') = 0 /\ beats_all n n').
Proof.
  intros Hm L L' H. apply n_tick in H. destruct (tick_beat _ _ L H L') as (T & A & B). destruct (made_period _ _ Hm) as [P _]. rewrite P in A, B.
  split; [exact A|]. intros X. destruct (B X) as (B1 & r1 & S & M). split; [exact B1|]. clear A B.
  exists (peer_ids r1), (map (hbmsg r1 (ro_last_ctx (r_ro (rn_raft n)))) (peer_ids r1)).
  pose proof (node_at_tok _ (made_at _ _ Hm)) as W.
  assert (Hs : msorted (t_progress (r_trk r1))) by (apply (hm_sorted _ _ S); apply W).
  assert (Hid : r_id r1 = node_id n) by (unfold r_id; rewrite (hm_cfg _ _ S); reflexivity).
  assert (Hp : forall id, peer n id <> None <-> mget id (t_progress (r_trk r1)) <> None).
  { intros id. rewrite peer_get by auto. pose proof (hm_match _ _ S id) as Y. unfold trk_get in *. cbn in Y.
    destruct (mget id (t_progress (r_trk r1))), (mget id (t_progress (r_trk (rn_raft n)))); try discriminate; split; congruence. }
  split; [|split; [|split; [exact M|]]].
  - unfold peer_ids. apply NoDup_filter. apply sorted_NoDup. exact Hs.
  - intros id. unfold peer_ids. rewrite filter_In, mget_key, Hp, Hid, negb_true_iff, N.eqb_neq. tauto.
  - clear M. assert (G : forall l, (forall id, In id l -> mget id (t_progress (r_trk r1)) <> None) -> Forall2 (beat_of n) l (map (hbmsg r1 (ro_last_ctx (r_ro (rn_raft n)))) l)).
    { induction l as [|a l IH]; intros Hl; cbn; constructor; [|apply IH; intros; apply Hl; right; auto].
      pose proof (proj2 (Hp a) (Hl a (or_introl eq_refl))) as Q. unfold beat_of. destruct (peer n a) as [p|] eqn:Ep; [|congruence].
      exists p. split; [auto|]. rewrite peer_get in Ep by auto. pose proof (hm_match _ _ S a) as Y. unfold hbmsg.
      cbn [r_trk set_r_hb_elapsed] in Y. rewrite Ep in Y. destruct (trk_get a (r_trk r1)) as [q|]; cbn in Y; [|discriminate]. injection Y as ->.
      rewrite (hm_term _ _ S), (hm_log _ _ S), Hid. reflexivity. }
    apply G. intros id Hi. unfold peer_ids in Hi. apply filter_In in Hi. apply mget_key. apply Hi.
Qed.

(** The heartbeat clock after a history of leading: the ticks since the start, modulo the period. *)
Lemma clock_run c t os : forall n n' outs, made c n -> n_run_ok os n -> n_run os n = Ok (n', outs) ->
  throughout (fun k => node_role k = RLeader /\ node_term k = t) os n -> r_hb_elapsed (rn_raft n) < heartbeat_period c ->
  r_hb_elapsed (rn_raft n') = (r_hb_elapsed (rn_raft n) + ticks os) mod heartbeat_period c /\ node_role n' = RLeader /\ node_term n' = t.
Proof.
  induction os as [|o os IH]; intros n n' outs M Hk H T Hlt; cbn [n_run n_run_ok] in *.
  - apply Ok_inj, pair_equal_spec in H. destruct H as [-> _]. split; [|apply T]. cbn. rewrite N.add_0_r, N.mod_small; auto.
  - destruct Hk as [Hk1 Hk2]. apply bind_ok in H. destruct H as ([n1 o1] & H & H7). rewrite H in *. apply bind_ok in H7. destruct H7 as ([n2 o2] & H7 & Hx).
    apply Ok_inj, pair_equal_spec in Hx. destruct Hx as [-> <-]. cbn [throughout] in T. destruct T as [[T1 T2] T3]. specialize (T3 _ _ H).
    pose proof (throughout_hd _ _ _ T3) as [T4 T5]. pose proof (made_step _ _ _ _ _ M Hk1 H) as M1.
    assert (D : o = NTick \/ o <> NTick) by (destruct o; auto; right; discriminate).
    assert (S : still_leads n n1) by (repeat split; auto; congruence).
    destruct D as [->|D].
    + destruct (tick_step _ _ _ _ M T1 T4 H) as [A B].
      unfold ticks. cbn [filter]. rewrite nlen_cons. fold (ticks os).
      destruct (N.ltb_spec (r_hb_elapsed (rn_raft n) + 1) (heartbeat_period c)) as [X|X].
      * destruct (A X) as [A1 _]. destruct (IH _ _ _ M1 Hk2 H7 T3) as (I1 & I2 & I3); [lia|]. split; [|auto]. rewrite I1, A1. f_equal. lia.
      * destruct (B X) as [B1 _]. destruct (IH _ _ _ M1 Hk2 H7 T3) as (I1 & I2 & I3); [lia|]. split; [|auto]. rewrite I1, B1.
        replace (r_hb_elapsed (rn_raft n) + (1 + ticks os)) with (ticks os + 1 * heartbeat_period c) by lia. rewrite N.mod_add by lia. reflexivity.
    + destruct (n_step_beats _ _ _ _ H D T4) as [(_ & _ & X)|[X _]]; [|exfalso; apply X; split; [exact T1|apply S]].
      destruct (IH _ _ _ M1 Hk2 H7 T3) as (I1 & I2 & I3); [lia|]. split; [|auto]. rewrite I1, X. f_equal. f_equal. unfold ticks. cbn [filter]. destruct o; reflexivity || congruence.
Qed.

(** C61: from the call that made the node leader on, exactly every [heartbeat_period]-th Tick() sends
    one heartbeat to every other member - and nothing else - and the other ticks send nothing,
    whatever happens in between, as long as the node leads. *)
Theorem C61_period c n o n1 out1 os n2 outs n3 out :
  made c n -> nop_ok o n -> n_step o n = Ok (n1, out1) -> node_role n1 = RLeader -> ~ still_leads n n1 ->
  n_run_ok os n1 -> n_run os n1 = Ok (n2, outs) ->
  throughout (fun k => node_role k = RLeader /\ node_term k = node_term n1) os n1 ->
  n_step NTick n2 = Ok (n3, out) -> node_role n3 = RLeader ->
  if (ticks os + 1) mod heartbeat_period c =? 0 then beats_all n2 n3 else pending n3 = pending n2.
Proof.
  intros M Hk H L Hn Hok Hr T Ht L3.
  pose proof (made_step _ _ _ _ _ M Hk H) as M1. pose proof (made_run _ _ _ _ _ M1 Hok Hr) as M2. destruct (made_period _ _ M1) as [_ P].
  assert (Z : r_hb_elapsed (rn_raft n1) = 0).
  { assert (D : o = NTick \/ o <> NTick) by (destruct o; auto; right; discriminate).
    assert (X : ~ (r_state (rn_raft n) = RLeader /\ r_term (rn_raft n1) = r_term (rn_raft n))).
    { intros [X Y]. apply Hn. repeat split; auto. }
    destruct D as [->|D]; [apply n_tick in H; eapply tick_beats; eauto|].
    destruct (n_step_beats _ _ _ _ H D L) as [(X1 & X2 & _)|[_ X1]]; [tauto|auto]. }
  destruct (clock_run c (node_term n1) os n1 n2 outs) as (C1 & C2 & C3); auto; [lia|]. rewrite Z, N.add_0_l in C1.
  destruct (tick_step _ _ _ _ M2 C2 L3 Ht) as [A B]. rewrite C1 in A, B.
  assert (Q : ticks os mod heartbeat_period c < heartbeat_period c) by (apply N.mod_lt; lia).
  destruct (N.eqb_spec ((ticks os + 1) mod heartbeat_period c) 0) as [X|X].
  - apply B. destruct (N.le_gt_cases (heartbeat_period c) (ticks os mod heartbeat_period c + 1)) as [|Y]; auto. exfalso.
    rewrite <- N.add_mod_idemp_l, N.mod_small in X by lia. lia.
  - apply A. destruct (N.le_gt_cases (heartbeat_period c) (ticks os mod heartbeat_period c + 1)) as [Y|]; auto. exfalso. apply X.
    rewrite <- N.add_mod_idemp_l by lia. replace (ticks os mod heartbeat_period c + 1) with (heartbeat_period c) by lia. apply N.mod_same. lia.
Qed.

(** What one call, or a run, emits. *)
Lemma step_emitted o n n' out : nop_ok o n -> dinv n -> n_step o n = Ok (n', out) -> exists new, emitted n [out] n' new.
Proof.
  intros Hk D H. pose proof (n_step_dinv _ _ _ _ Hk H D) as [_ Hout]. unfold emitted, sent, readys, pending. cbn.
  destruct (plain_dec o) as [Hpl|Hpl].
  - assert (Ho : o_ready out = None) by (destruct o; try (destruct Hpl; fail); apply Hout). rewrite Ho. cbn.
    destruct (n_step_qprs _ _ _ _ Hpl (proj1 Hk) H) as (r0 & S & Q). destruct (qprs_msgs _ _ _ Q) as (new & E1 & _). exists new. rewrite E1.
    destruct S as [->|(cc & cp & b & op & _ & _ & ->)]; reflexivity.
  - exists []. rewrite app_nil_r. destruct Hk as [_ Hk]. destruct o; try (exfalso; apply Hpl; exact Logic.I); try contradiction; cbn in Hout.
    + destruct Hout as (rd & -> & Hs). cbn. rewrite app_nil_r, (ro_msgs _ _ (hs_ready _ _ _ Hs)).
      destruct (not_plain_msgs _ _ _ _ Hpl H) as [X|X]; [|rewrite X, app_nil_r; reflexivity].
      cbn [n_step] in H. apply bind_ok in H. destruct H as ([n1 rd1] & H & Hx). inv Hx. unfold n_handle in H.
      apply bind_ok in H. destruct H as ([n2 rd2] & H & H1). apply bind_ok in H1. destruct H1 as (st & _ & H1).
      apply bind_ok in H1. destruct H1 as (n3 & H1 & Hx). inv Hx. apply advance_msgs in H1. rewrite H1. cbn.
      apply get_ready_inv in H. destruct H as (_ & -> & _). cbn. rewrite app_nil_r. reflexivity.
    + destruct Hout as (s & -> & Hr & _). rewrite Hr. cbn. reflexivity.
    + destruct Hout as (s & -> & Hr & _). rewrite Hr. cbn. reflexivity.
Qed.
Lemma run_emitted c os : forall n n' outs, made c n -> n_run_ok os n -> n_run os n = Ok (n', outs) -> exists ms, emitted n outs n' ms.
Proof.
  induction os as [|o os IH]; intros n n' outs M Hk H; cbn [n_run n_run_ok] in *.
  - apply Ok_inj, pair_equal_spec in H. destruct H as [<- <-]. exists []. unfold emitted. cbn. apply app_nil_r.
  - destruct Hk as [Hk1 Hk2]. apply bind_ok in H. destruct H as ([n1 o1] & H & H7). rewrite H in *. apply bind_ok in H7. destruct H7 as ([n2 o2] & H7 & Hx).
    apply Ok_inj, pair_equal_spec in Hx. destruct Hx as [<- <-].
    destruct (step_emitted _ _ _ _ Hk1 (mi_dinv _ _ (made_inv _ _ M)) H) as [a Ha].
    destruct (IH n1 n2 o2 (made_step _ _ _ _ _ M Hk1 H) Hk2 H7) as [b Hb]. exists (a ++ b). eapply emitted_cons; eauto.
Qed.
Lemma emitted_inj n outs n' a b : emitted n outs n' a -> emitted n outs n' b -> a = b.
Proof. unfold emitted. intros H1 H2. rewrite <- H2 in H1. apply app_inv_head in H1. auto. Qed.

(** C61: whoever leads for a whole period of ticks has sent a heartbeat of its term to everyone who
    was a member all the time. *)
Theorem C61_every_period c t to os : forall n n' outs ms, made c n -> n_run_ok os n -> n_run os n = Ok (n', outs) ->
  throughout (fun k => node_role k = RLeader /\ node_term k = t /\ peer k to <> None) os n -> to <> node_id n ->
  heartbeat_period c <= ticks os -> emitted n outs n' ms ->
  exists m, In m ms /\ m_type m = MsgHeartbeat /\ m_to m = to /\ m_from m = node_id n /\ m_term m = t.
Proof.
  assert (G : forall n n' outs ms, made c n -> n_run_ok os n -> n_run os n = Ok (n', outs) ->
    throughout (fun k => node_role k = RLeader /\ node_term k = t /\ peer k to <> None) os n -> to <> node_id n ->
    heartbeat_period c <= r_hb_elapsed (rn_raft n) + ticks os -> 1 <= ticks os -> emitted n outs n' ms ->
    exists m, In m ms /\ m_type m = MsgHeartbeat /\ m_to m = to /\ m_from m = node_id n /\ m_term m = t).
  { induction os as [|o os' IH]; intros n n' outs ms M Hk H T Hto Hge Hlt Em; cbn [n_run n_run_ok] in *.
    - cbn in Hlt. exfalso; revert Hlt; apply N.nle_gt; reflexivity.
    - destruct Hk as [Hk1 Hk2]. apply bind_ok in H. destruct H as ([n1 o1] & H & H7). rewrite H in *. apply bind_ok in H7. destruct H7 as ([n2 o2] & H7 & Hx).
      apply Ok_inj, pair_equal_spec in Hx. destruct Hx as [<- <-]. cbn [throughout] in T. destruct T as [(T1 & T2 & T0) T3]. specialize (T3 _ _ H).
      pose proof (throughout_hd _ _ _ T3) as (T4 & T5 & T6). pose proof (made_step _ _ _ _ _ M Hk1 H) as M1.
      destruct (step_emitted _ _ _ _ Hk1 (mi_dinv _ _ (made_inv _ _ M)) H) as [a Ha].
      destruct (run_emitted _ _ _ _ _ M1 Hk2 H7) as [b Hb]. pose proof (emitted_inj _ _ _ _ _ (emitted_cons _ _ _ _ _ _ _ Ha Hb) Em) as <-.
      assert (Hid : node_id n1 = node_id n).
      { unfold node_id, rn_status. cbn. unfold r_id. rewrite (mi_cfg _ _ (made_inv _ _ M1)), (mi_cfg _ _ (made_inv _ _ M)). reflexivity. }
      assert (Go : heartbeat_period c <= r_hb_elapsed (rn_raft n1) + ticks os' -> 1 <= ticks os' ->
        exists m, In m (a ++ b) /\ m_type m = MsgHeartbeat /\ m_to m = to /\ m_from m = node_id n /\ m_term m = t).
      { intros G1 G2. destruct (IH n1 n2 o2 b M1 Hk2 H7 T3 ltac:(congruence) G1 G2 Hb) as (m & I1 & I2 & I3 & I4 & I5).
        exists m. rewrite Hid in I4. split; [apply in_or_app; auto|auto]. }
      assert (D : o = NTick \/ o <> NTick) by (destruct o; auto; right; discriminate).
      destruct D as [->|D].
      + unfold ticks in Hge. cbn [filter] in Hge. rewrite nlen_cons in Hge. fold (ticks os') in Hge.
        destruct (tick_step _ _ _ _ M T1 T4 H) as [A B].
        destruct (N.ltb_spec (r_hb_elapsed (rn_raft n) + 1) (heartbeat_period c)) as [X|X]; [destruct (A X); apply Go; lia|].
        destruct (B X) as [B1 (ids & ms & B2 & B3 & B4 & B5)]. assert (In to ids) as Hin by (apply B3; auto).
        assert (a = ms).
        { cbn [n_step] in H. apply bind_ok in H. destruct H as (nx & _ & Hx). apply Ok_inj, pair_equal_spec in Hx. destruct Hx as [_ <-].
          unfold emitted in Ha. cbn in Ha. rewrite B4 in Ha. apply app_inv_head in Ha. auto. }
        subst a. clear - Hin B5 T2. revert Hin. induction B5 as [|x y l l' (p & _ & ->) _ IHl]; intros Hin; [destruct Hin|].
        destruct Hin as [->|Hin]; [eexists; split; [apply in_or_app; left; left; reflexivity|]; cbn [m_type m_to m_from m_term]; repeat split; auto|].
        destruct (IHl Hin) as (m & I1 & I2). exists m. split; [|auto]. cbn. right. auto.
      + destruct (n_step_beats _ _ _ _ H D T4) as [(_ & _ & X)|[X _]]; [|exfalso; apply X; split; [exact T1|exact (eq_trans T5 (eq_sym T2))]].
        unfold ticks in *. cbn [filter] in Hge, Hlt. apply Go; destruct o; try congruence; lia. }
  intros n n' outs ms M Hk H T Hto Hge Em.
  destruct (made_period _ _ M) as [_ P]. apply (G n n' outs); auto; lia.
Qed.
End Props.

(** Concrete case: the example node with a period of 3 ticks is elected by the vote of 2; ticks 1 and
    2 (with a proposal in between) send no heartbeat, tick 3 sends one to 2 and one to 3. *)
#[local] Existing Instance ex_env.
Definition ex_cfg_hb : config := mkConfig 1 10 3 (Some ex_storage) 0 1000 1000 0 4 true false RoSafe false.
Definition ex_beats (n n1 : rawnode) : bool :=
  negb (role_eqb (node_role n) RLeader) && role_eqb (node_role n1) RLeader &&
  (let os := [NTick; NHandle; NPropose "x"; NTick; NHandle] in
   n_run_okb os n1 && throughoutb (fun k => role_eqb (node_role k) RLeader && (node_term k =? node_term n1)) os n1 &&
   ((ticks os + 1) mod heartbeat_period ex_cfg_hb =? 0) &&
   match n_run os n1 with
   | Ok (n2, outs) => forallb (fun m => negb (mtype_eqb (m_type m) MsgHeartbeat)) (sent outs) && is_nil (pending n2) &&
       match n_step NTick n2 with
       | Ok (n3, _) => role_eqb (node_role n3) RLeader && (nlen (filter (fun m => mtype_eqb (m_type m) MsgHeartbeat) (pending n3)) =? 2)
       | _ => false
       end
   | _ => false
   end).
Example C61_example : exists n n1 out, node_at n /\ nop_ok (NStep (ex_vote_resp 2 3 false)) n /\ n_step (NStep (ex_vote_resp 2 3 false)) n = Ok (n1, out) /\ ex_beats n n1 = true.
Proof. apply (case_ok ex_cfg_hb ex_tape [NCampaign; NHandle] _ (fun n n1 _ => ex_beats n n1)). vm_compute. reflexivity. Qed.
