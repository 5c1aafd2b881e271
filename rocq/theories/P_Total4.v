(** Which calls return at all, continued: Tick, the Ready loop, the storage calls, and all calls of
    a node. *)
From Verif Require Import Prelude Types M_Util M_Quorum M_Inflights M_Progress M_Tracker.
From Verif Require Import M_Storage M_Unstable M_Log M_ReadOnly M_ConfPb M_ConfChange M_Raft M_RawNode.
From Verif Require Import Spec_Inflights P_Inflights Spec_ReadOnly P_ReadOnly Spec_Log P_Lists P_Storage P_Log P_Quorum P_Frame P_Prim.
From Verif Require Import Spec_ConfChange P_ConfChange P_Conf P_Fields P_RaftLogSeq P_New P_NodeLog P_Handle P_NodeRun P_Read P_ReadQ Sys_Node Prop_Api R_Elig P_Total P_Total2 Spec_Total P_Total3.

Section Total4.
Context {E : Env}.

Lemma live_el a b r : live r -> live (set_r_el_elapsed a (set_r_hb_elapsed b r)).
Proof.
  intros [L1 L2 L3 L4 L5 L6 L7 L8 L9 L10]. constructor; auto.
  - apply (ninv_log r); auto. intros H. apply L1. exact H.
  - destruct L6. constructor; auto.
Qed.
Lemma live_el1 a r : live r -> live (set_r_el_elapsed a r).
Proof. intros L. pose proof (live_el a (r_hb_elapsed r) r L) as X. replace (set_r_hb_elapsed (r_hb_elapsed r) r) with r in X by (destruct r; reflexivity). exact X. Qed.
Lemma tick_election_total r : live r -> total (tick_election r).
Proof.
  intros L. unfold tick_election. cbv zeta. destruct (_ && _); [|apply total_ok].
  destruct (step_total (set_m_from (r_id (set_r_el_elapsed (r_el_elapsed r + 1) r)) (new_msg MsgHup)) (set_r_el_elapsed 0 (set_r_el_elapsed (r_el_elapsed r + 1) r))) as [[r' o] ->].
  - apply live_el1, live_el1; auto.
  - exact Logic.I.
  - intros _. reflexivity.
  - apply total_ok.
Qed.
Lemma step_beat_total r : r_state r = RLeader -> total (step (set_m_from (r_id r) (new_msg MsgBeat)) r).
Proof.
  intros H. unfold step. cbn [m_term set_m_from new_msg]. rewrite N.eqb_refl. unfold step_dispatch. cbn [m_type set_m_from new_msg]. rewrite H.
  unfold step_leader. cbn [m_type set_m_from new_msg]. apply okr_total, bcast_hb_total.
Qed.
Lemma tick_heartbeat_total r : live r -> total (tick_heartbeat r).
Proof.
  intros L. unfold tick_heartbeat. cbv zeta. apply total_bind.
  - destruct (_ <=? _); [|apply total_ok]. apply total_bind.
    + destruct (k_check_quorum _); [|apply total_ok].
      match goal with |- context [step ?m ?x] => destruct (step_total m x) as [[r' o] ->] end.
      * apply live_el1, live_el; auto.
      * exact Logic.I.
      * intros _. reflexivity.
      * apply total_ok.
    + intros x _. destruct (_ && _); apply total_ok.
  - intros x _. destruct (is_leader x) eqn:Hl; cbn [negb]; [|apply total_ok]. destruct (_ <=? _); [|apply total_ok].
    destruct (step_beat_total (set_r_hb_elapsed 0 x)) as [[r' o] H]; [cbn; unfold is_leader in Hl; destruct (r_state x); try discriminate; auto|].
    change (r_id (set_r_hb_elapsed 0 x)) with (r_id x) in H. rewrite H. apply total_ok.
Qed.
Lemma tick_total r : live r -> total (tick r).
Proof. intros L. unfold tick. destruct (r_state r); auto using tick_election_total, tick_heartbeat_total. Qed.

(* ---- the Ready loop ---- *)
Lemma append_total0 es r : lwf (r_log r) -> 0 < r_term r -> trk_get (r_id r) (r_trk r) <> None -> es <> [] -> total (append_entry es r).
Proof.
  intros W T G Hes. unfold append_entry. set (es' := stamp _ _ _).
  assert (Hc : contig (r_last r + 1) es') by (subst es'; apply stamp_contig).
  assert (Hn : es' <> []) by (subst es'; destruct es; [congruence|cbn; discriminate]). clearbody es'.
  unfold increase_uncommitted. set (over := _ && _ && _). destruct over; [apply total_ok|].
  pose proof (log_append_abs es' (r_last r + 1) (r_log r) W Hc Hn ltac:(lia)) as A.
  unfold r_last in *. rewrite (log_last_abs _ (lwf_0 _ W)) in *. pose proof (lwf_com _ W) as HC.
  destruct (N.ltb_spec (a_last (log_abs (r_log r)) + 1 - 1) (l_committed (r_log r))); [lia|].
  destruct (N.ltb_spec (a_last (log_abs (r_log r)) + 1) (a_last (log_abs (r_log r)) + 1)); [lia|].
  destruct A as (l' & A1 & A2 & A3 & A4 & A5 & A6 & A7 & A8). cbn [r_log set_r_uncommitted set_r_log r_trk r_id]. rewrite A1. cbn [bind].
  assert (Hid : r_id (set_r_log l' (set_r_uncommitted (r_uncommitted r + payloads_size es') r)) = r_id r) by reflexivity. rewrite Hid.
  change (r_trk (set_r_log l' _)) with (r_trk r). destruct (trk_get (r_id r) (r_trk r)) as [pr|] eqn:Hg; [|congruence].
  destruct (pr_maybe_update _ pr) as [pr' u] eqn:Hu.
  set (r2 := put_progress _ _ _). destruct (maybe_commit_total r2 A2 T) as ([[r3 b] M] & _). rewrite M. apply total_ok.
Qed.
Lemma auto_leave_total a b r : lwf (r_log r) -> (r_state r = RLeader -> 0 < r_term r /\ trk_get (r_id r) (r_trk r) <> None) -> total (maybe_auto_leave a b r).
Proof.
  intros W H. unfold maybe_auto_leave. destruct (_ && is_leader r) eqn:Hc; [|apply total_ok]. apply andb_true_iff in Hc. destruct Hc as [_ Hl].
  destruct H as [H1 H2]; [unfold is_leader in Hl; destruct (r_state r); try discriminate; auto|].
  destruct (append_total0 [auto_leave_entry] r W H1 H2) as [[r'|] T]; [discriminate| |].
  - rewrite T. apply total_ok.
  - exfalso. apply append_entry_inv in T. cbv zeta in T.
    assert (Hp : payloads_size (stamp (r_term r) (r_last r + 1) [auto_leave_entry]) = 0) by reflexivity. rewrite Hp in T.
    rewrite andb_false_r in T. discriminate.
Qed.
Lemma stable_total i t l : lwf l -> total (log_stable_to i t l).
Proof.
  intros [W1 W2 W3 W4 W5]. unfold log_stable_to, us_stable_to. assert (T : total (us_maybe_term i (l_us l))).
  { unfold us_maybe_term. destruct (N.ltb_spec i (u_off (l_us l))).
    - destruct (u_snap (l_us l)) as [s|]; [destruct (_ =? _)|]; apply total_ok.
    - unfold us_maybe_last. destruct (u_ents (l_us l)) as [|e es] eqn:He.
      + destruct (u_snap (l_us l)) as [s|]; [|apply total_ok]. destruct (N.ltb_spec (sn_index s) i); [apply total_ok|lia].
      + rewrite <- He in *. destruct (N.ltb_spec (u_off (l_us l) + nlen (u_ents (l_us l)) - 1) i); [apply total_ok|].
        destruct (nnth (u_ents (l_us l)) (i - u_off (l_us l))) as [x|] eqn:Hn; [apply total_ok|].
        exfalso. revert Hn. apply nnth_in_range. rewrite He in *. rewrite nlen_cons in *. lia. }
  destruct T as [o ->]. cbn [bind]. destruct o as [gt|]; [destruct (_ && _)|]; apply total_ok.
Qed.
Lemma cursor_range n rd : ninv (rn_raft n) -> ready_of n rd -> 0 < applied_cursor rd ->
  l_applied (r_log (rn_raft n)) <= applied_cursor rd <= l_committed (r_log (rn_raft n)).
Proof.
  intros N R Hc. pose proof (li_wf _ (ni_log _ N)) as W. pose proof (lwf_0 _ W) as W0. pose proof (ro_committed _ _ R) as C.
  rewrite (log_next_ents_abs _ W) in C. apply Ok_inj in C. cbv zeta in C. unfold applied_cursor in *.
  pose proof (lwf_com _ W) as HC. destruct (rev (rd_committed rd)) as [|e t] eqn:Hr.
  - rewrite (ro_snap _ _ R) in *. destruct (u_snap (l_us (r_log (rn_raft n)))) as [s|] eqn:Hu; [|cbn in Hc; lia].
    pose proof (lp_pend _ (ni_pos _ N) _ Hu). split; [lia|]. unfold log_abs in HC. rewrite Hu in HC. cbn in HC. lia.
  - set (off := N.max _ _) in C. destruct (N.ltb_spec off (l_committed (r_log (rn_raft n)) + 1)) as [Ho|Ho]; [|rewrite <- C in Hr; discriminate].
    assert (Hct : contig off (rd_committed rd)).
    { rewrite <- C. destruct (limit_size_prefix (a_slice (log_abs (r_log (rn_raft n))) off (l_committed (r_log (rn_raft n)) + 1)) (l_maxnext (r_log (rn_raft n)))) as [rest Hx].
      assert (Hs : contig off (a_slice (log_abs (r_log (rn_raft n))) off (l_committed (r_log (rn_raft n)) + 1))).
      { unfold a_slice. apply contig_ntake. pose proof (contig_ndrop _ (off - a_first (log_abs (r_log (rn_raft n)))) _ (log_abs_wf _ W0)) as X.
        unfold a_first in *. replace (a_base (log_abs (r_log (rn_raft n))) + 1 + (off - (a_base (log_abs (r_log (rn_raft n))) + 1))) with off in X by (unfold off; lia). rewrite <- N.sub_add_distr. exact X. }
      rewrite Hx in Hs. apply contig_app in Hs. tauto. }
    assert (Hlen : nlen (rd_committed rd) <= l_committed (r_log (rn_raft n)) + 1 - off).
    { rewrite <- C. etransitivity; [apply limit_size_len|]. rewrite nlen_slice; try lia; unfold off, a_first; lia. }
    destruct (rd_committed rd) as [|x xs] eqn:Hx; [discriminate|]. pose proof (contig_rev_last _ _ _ _ _ Hct Hr) as He. rewrite nlen_cons in Hlen. unfold off in *. lia.
Qed.
Lemma handle_total n : ninv (rn_raft n) -> (r_state (rn_raft n) = RLeader -> trk_get (r_id (rn_raft n)) (r_trk (rn_raft n)) <> None) -> total (n_handle n).
Proof.
  intros N G. pose proof (ni_log _ N) as Hi. pose proof (li_wf _ Hi) as W. unfold n_handle.
  assert (T : total (rn_get_ready n)) by (unfold rn_get_ready, new_ready; rewrite (log_next_ents_abs _ W); cbn [bind]; apply total_ok).
  destruct T as [[n1 rd] T]. rewrite T. cbn [bind]. destruct (get_ready_inv _ _ _ T) as (R & Hr1 & _ & _ & Hrd). clear T.
  destruct (persist_ready_ok n rd Hi R) as (s & P1 & P2). unfold node_storage in *. rewrite Hr1. cbn [r_log set_r_msgs set_r_read_states]. rewrite P1. cbn [bind].
  apply total_bind; [|intros; apply total_ok]. unfold rn_advance, set_storage, set_rn_raft. cbn [rn_ready rn_raft]. rewrite Hrd, Hr1. cbn [r_log set_r_msgs set_r_read_states].
  apply total_bind; [|intros; apply total_ok]. set (rx := set_r_log _ _). unfold raft_advance. destruct (reduce_uncommitted_fields (rd_committed rd) rx) as [u ->].
  destruct (set_st_log s _ Hi (ps_wf _ _ _ P2) (ps_abs _ _ _ P2)) as [Hw Habs].
  apply total_bind.
  - destruct (N.ltb_spec 0 (applied_cursor rd)) as [Hc|Hc]; [|apply total_ok]. pose proof (cursor_range _ _ N R Hc) as Q.
    pose proof (log_applied_to_abs (applied_cursor rd) _ Hw) as A. destruct (N.eqb_spec (applied_cursor rd) 0); [lia|].
    cbn [l_committed l_applied set_l_st] in A. destruct (N.ltb_spec (l_committed (r_log (rn_raft n))) (applied_cursor rd)); [lia|].
    destruct (N.ltb_spec (applied_cursor rd) (l_applied (r_log (rn_raft n)))); [lia|]. cbn [orb] in A. destruct A as [A1 A2].
    unfold rx. cbn [r_log set_r_uncommitted set_r_log]. rewrite A1. cbn [bind]. apply auto_leave_total; [exact A2|]. intros Hs. split; [apply (ni_term _ N); auto|exact (G Hs)].
  - intros rb Hb. apply total_bind; [|intros; destruct (_ =? _); apply total_ok].
    assert (Hwb : lwf (r_log rb)).
    { destruct (N.ltb_spec 0 (applied_cursor rd)) as [Hc|Hc].
      - apply bind_ok in Hb. destruct Hb as (l & Hl & Hb). pose proof (log_applied_to_abs (applied_cursor rd) _ Hw) as A.
        change (r_log (set_r_uncommitted u rx)) with (set_l_st s (r_log (rn_raft n))) in Hl. destruct (N.eqb_spec (applied_cursor rd) 0); [lia|].
        destruct (_ || _) in A; [destruct A; congruence|]. destruct A as [A1 A2]. rewrite A1 in Hl. apply Ok_inj in Hl. subst l.
        unfold maybe_auto_leave in Hb. destruct (_ && is_leader _) eqn:Hcc in Hb; [|apply Ok_inj in Hb; subst rb; exact A2].
        apply bind_ok in Hb. destruct Hb as ([r0|] & Hb1 & Hb2); [|discriminate]. apply Ok_inj in Hb2. subst rb. cbn [r_log set_r_pending_conf].
        eapply append_log_w in Hb1; [apply Hb1|exact A2|]. apply (ni_term _ N). left. apply andb_true_iff in Hcc. destruct Hcc as [_ Hcc].
        unfold is_leader in Hcc. cbn in Hcc. destruct (r_state (rn_raft n)); try discriminate; auto.
      - apply Ok_inj in Hb. subst rb. exact Hw. }
    destruct (rev (rd_ents rd)) as [|e t]; [apply total_ok|]. tb; [apply stable_total; auto|apply total_ok].
Qed.
End Total4.
