(** C40: the queue of pending read-index requests.  Specification: Spec_ReadOnly.v. *)
From Verif Require Import Prelude Types M_ReadOnly Spec_ReadOnly Sys_ReadOnly P_ReadOnly.

(** C40: over every sequence of calls (with requests carrying a context) the implementation never
    fails, gives exactly the answers of the abstract queue, and its map and queue stay in bijection. *)
Theorem C40_read_only_queue : forall (opt : roption) (ops : list roop),
  Forall roop_ok ops ->
  exists ro, ro_run ops (new_readonly opt) = Ok (ro, snd (rq_run ops [])) /\
    ro_queue ro = map rq_ctx (fst (rq_run ops [])) /\ NoDup (ro_queue ro) /\
    (forall c, In c (ro_queue ro) <-> sget c (ro_pending ro) <> None) /\
    ro_last_ctx ro = last (map rq_ctx (fst (rq_run ops []))) EmptyString.
Proof.
  intros opt ops H. destruct (rq_run ops []) as [q rs] eqn:E. cbn.
  destruct (ro_run_ok _ _ _ _ _ (ro_rel_new opt) H E) as (ro & E1 & [R1 R2 R3 R4] & _).
  exists ro. split; auto. split; auto. split; [rewrite R2; auto|]. split.
  - intros c. rewrite R2, R1, sget_kv, <- has_ctx_In, has_ctx_find. destruct (find _ q); cbn; split; congruence.
  - unfold ro_last_ctx. rewrite R2. auto.
Qed.
Print Assumptions C40_read_only_queue.

(** C40, the abstract queue: Advance releases exactly the requests up to and including the given
    context, in arrival order, and keeps the others; a duplicate context is ignored. *)
Theorem C40_advance_prefix : forall (q : list rreq) c,
  (In c (map rq_ctx q) -> exists q' r, rq_step (RoAdvance c) q = (q', RrReleased (map released r)) /\
     q = r ++ q' /\ exists r' x, r = r' ++ [x] /\ rq_ctx x = c /\ ~ In c (map rq_ctx r')) /\
  (~ In c (map rq_ctx q) -> rq_step (RoAdvance c) q = (q, RrReleased [])).
Proof.
  intros q c. split; intros H.
  - apply has_ctx_In in H. cbn. rewrite H. exists (after c q), (upto c q). split; auto.
    split; [apply upto_after; auto|].
    induction q as [|y q IH]; cbn in *; [discriminate|].
    destruct (String.eqb (rq_ctx y) c) eqn:E; cbn in *.
    + exists [], y. apply String.eqb_eq in E. auto.
    + destruct (IH H) as (r' & x & -> & ? & Hn). exists (y :: r'), x. split; auto. split; auto.
      cbn. intros [X|X]; [|tauto]. apply String.eqb_neq in E. congruence.
  - cbn. destruct (has_ctx c q) eqn:E; auto. apply has_ctx_In in E. tauto.
Qed.
Print Assumptions C40_advance_prefix.
Theorem C40_duplicate_ignored : forall (q : list rreq) i m e es, m_entries m = e :: es ->
  In (e_data e) (map rq_ctx q) -> rq_step (RoAdd i m) q = (q, RrNone).
Proof. intros q i m e es E H. cbn. rewrite E. apply has_ctx_In in H. rewrite H. auto. Qed.
Print Assumptions C40_duplicate_ignored.

Definition C40_req (s : string) := set_m_entries [set_e_data s empty_entry] (new_msg MsgReadIndex).
Definition C40_ops := [RoAdd 3 (C40_req "a"); RoAdd 4 (C40_req "b"); RoAdd 9 (C40_req "a"); RoAck 2 "b";
  RoAdd 5 (C40_req "c"); RoAdvance "b"; RoAdvance "zz"].
Example C40_example : Forall roop_ok C40_ops /\
  snd (rq_run C40_ops []) = [RrNone; RrNone; RrNone; RrAcks [(2, true)]; RrNone;
    RrReleased [mkRIS (C40_req "a") 3 []; mkRIS (C40_req "b") 4 [(2, true)]]; RrReleased []] /\
  map rq_ctx (fst (rq_run C40_ops [])) = ["c"%string].
Proof. split; [repeat constructor; discriminate|]. split; reflexivity. Qed.
