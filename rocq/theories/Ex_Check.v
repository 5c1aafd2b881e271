(** Boolean checkers for the run preconditions, for use in examples. *)
From Verif Require Import Prelude Types M_Util M_Storage M_Unstable M_Log M_Raft M_RawNode.
From Verif Require Import Spec_Log P_Lists Sys_Node.

Definition mt_is := mtype_eqb.
Definition peer_msg_wfb (m : msg) : bool :=
  negb (m_from m =? 0) && (negb (m_term m =? 0) || mt_is (m_type m) MsgProp || mt_is (m_type m) MsgReadIndex || mt_is (m_type m) MsgTransferLeader).
Definition app_wfb (m : msg) : bool :=
  contigb (m_index m + 1) (m_entries m) && forallb (fun e => 0 <? e_term e) (m_entries m) &&
  (negb (m_logterm m =? 0) || (m_index m =? 0)).
Definition log_msg_wfb (m : msg) : bool :=
  (negb (mt_is (m_type m) MsgApp) || app_wfb m) &&
  (negb (mt_is (m_type m) MsgSnap) || (sn_index (m_snap m) =? 0) || (0 <? sn_term (m_snap m))).
Definition nop_wfb (o : nop) : bool := match o with NStep m => peer_msg_wfb m | _ => true end.
Definition nop_okb (o : nop) (n : rawnode) : bool :=
  match o with
  | NStep m => peer_msg_wfb m && log_msg_wfb m
  | NReady | NAdvance | NStorage _ => false
  | NCompact i | NCreateSnapshot i _ _ => i <=? l_applied (r_log (rn_raft n))
  | _ => true
  end.
Fixpoint n_run_okb {E : Env} (os : list nop) (n : rawnode) : bool :=
  match os with
  | [] => true
  | o :: t => nop_okb o n && match n_step o n with Ok (n', _) => n_run_okb t n' | _ => true end
  end.

Lemma mt_is_spec a b : mt_is a b = true <-> a = b.
Proof. apply mtype_eqb_eq. Qed.
Lemma peer_msg_wfb_ok m : peer_msg_wfb m = true -> peer_msg_wf m.
Proof.
  unfold peer_msg_wfb, peer_msg_wf. intros H. apply andb_prop in H. destruct H as [H1 H2]. split; [lia|].
  intros Hz. rewrite Hz in H2. cbn in H2. apply orb_prop in H2. destruct H2 as [H2|H2]; [|apply mt_is_spec in H2; auto].
  apply orb_prop in H2. destruct H2 as [H2|H2]; apply mt_is_spec in H2; auto.
Qed.
Lemma log_msg_wfb_ok m : log_msg_wfb m = true -> log_msg_wf m.
Proof.
  unfold log_msg_wfb, app_wfb. intros H. apply andb_prop in H. destruct H as [H1 H2]. split.
  - intros Ht. rewrite (proj2 (mt_is_spec _ _) Ht) in H1. cbn in H1. apply andb_prop in H1. destruct H1 as [H1 H3].
    apply andb_prop in H1. destruct H1 as [H1 H4]. split; [apply contigb_contig; auto|]. split; [|lia].
    intros e He. rewrite forallb_forall in H4. specialize (H4 e He). lia.
  - intros Ht Hi. rewrite (proj2 (mt_is_spec _ _) Ht) in H2. cbn in H2. lia.
Qed.
Lemma nop_okb_ok o n : nop_okb o n = true -> nop_ok o n.
Proof.
  intros H. destruct o; cbn in H; try discriminate; (split; [cbn; auto|]); cbn; auto; try lia.
  - apply andb_prop in H. apply peer_msg_wfb_ok. tauto.
  - apply andb_prop in H. apply log_msg_wfb_ok. tauto.
Qed.
Lemma n_run_okb_ok {E : Env} os : forall n, n_run_okb os n = true -> n_run_ok os n.
Proof.
  induction os as [|o os IH]; intros n H; cbn in *; auto. apply andb_prop in H. destruct H as [H1 H2].
  split; [apply nop_okb_ok; auto|]. destruct (n_step o n) as [[n1 out]| | |]; auto.
Qed.

Definition storage_okb (s : mstorage) : bool :=
  contigb (e_index (ms_dummy s) + 1) (ms_tail s) && forallb (fun e => 0 <? e_term e) (ms_tail s) &&
  ((e_index (ms_dummy s) =? 0) || (0 <? e_term (ms_dummy s))) &&
  ((sn_index (ms_snap s) =? 0) || (0 <? sn_term (ms_snap s))) &&
  (sn_index (ms_snap s) <=? hs_commit (restart_hs s)) &&
  (e_index (ms_dummy s) <=? hs_commit (restart_hs s)) && (hs_commit (restart_hs s) <=? ms_last_index s).
Lemma storage_okb_ok s : storage_okb s = true -> storage_ok s.
Proof.
  unfold storage_okb. intros H. repeat (apply andb_prop in H; destruct H as [H ?]).
  constructor; try lia; [apply contigb_contig; auto|]. intros e He. rewrite forallb_forall in *. specialize (H5 e He). lia.
Qed.
