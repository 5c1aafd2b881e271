(** C56: linearizable reads in a cluster whose nodes use kReadOnlySafe. *)
From Verif Require Import Prelude Types M_Util M_Quorum M_Inflights M_Progress M_Tracker.
From Verif Require Import M_Storage M_Unstable M_Log M_ReadOnly M_ConfPb M_ConfChange M_Raft M_RawNode.
From Verif Require Import P_Inflights Spec_Log Sys_Node Spec_Node Sys_Cluster Spec_Cluster Sys_Trace Spec_Linear.
From Verif Require Import A_Proto R_Sim R_Node R_Cluster R_Read R_Linear Ex_Env Ex_Cluster Ex_Trace.

Section C56.
Context {E : Env}.
(** A cluster runs from its start to [cl1] (events [tr1]) and on to [cl2] (events [tr2]).  If no
    application had asked for a read index under [c] before [cl1], then every read state an
    application is handed for [c] afterwards, on any node, covers every entry any application had been
    handed as committed before [cl1] -- whatever leaders were elected or deposed meanwhile, whatever
    the network did with messages other than presenting the same request to a leader twice. *)
Theorem C56_linearizable_reads cs cl0 tr1 cl1 tr2 cl2 c i a e :
  cluster_start cs cl0 -> (forall id n, runs cl0 id n -> safe_mode n) ->
  trace cs cl0 tr1 cl1 -> trace cs cl1 tr2 cl2 ->
  (forall x, In x (tr1 ++ tr2) -> safe_event (fst x)) ->
  NoDup (flat_map put_to_leader (tr1 ++ tr2)) ->
  ~ issued tr1 c -> read_given tr2 i c -> delivered cl1 a e -> e_index e <= i.
Proof.
  intros S0 Hs T1 T2 Hsafe Hnd Hni Hr Hd. pose proof (ct_voters _ _ S0) as Hv. destruct (start_inv _ _ S0) as (t0 & g & F & C0).
  pose proof (start_jv cs t0 g F cl0 C0 S0 Hs) as V0. rewrite flat_map_app in Hnd.
  destruct (trace_jv cs Hv t0 (fun _ => 0) (fun _ => []) [] (fun _ => False) (fun _ _ X => X) (fun _ _ _ _ _ _ X => match X with end) _ _ _ _ _ _ _ _ V0 T1) as [(g1 & F1 & regs & V1 & _) _].
  - intros x Hx. apply Hsafe, in_or_app. auto.
  - cbn [app]. eapply nodup_left; eauto.
  - cbn [app] in V1. apply jv_rebase in V1.
    destruct (trace_jv cs Hv t0 _ _ _ _ (j_I _ _ _ _ _ _ _ _ _ _ _ _ V1)
       (fun S t H1 H2 => ref_quorum cs Hv t0 _ F1 g1 t S (ci_g _ _ _ _ _ (j_c _ _ _ _ _ _ _ _ _ _ _ _ V1)) (fun _ => eq_refl) H1 H2) _ _ _ _ _ _ _ _ V1 T2) as [_ R].
    + intros x Hx. apply Hsafe, in_or_app. auto.
    + exact Hnd.
    + destruct (R _ _ Hr) as [[[]|X]|X]; [contradiction|].
      destruct (ci_hist _ _ _ _ _ (j_c _ _ _ _ _ _ _ _ _ _ _ _ V1) _ _ Hd) as (t & C & H1 & _ & H2 & H3).
      specialize (X t C H1). apply nnth_Some_lt in H3. lia.
Qed.
End C56.

(** *** Examples *)
#[local] Existing Instance ex_env.

Definition same_req (p q : N * string) : bool := (fst p =? fst q) && String.eqb (snd p) (snd q).
Fixpoint nodupb (l : list (N * string)) : bool := match l with [] => true | x :: t => negb (existsb (same_req x) t) && nodupb t end.
Lemma nodupb_ok l : nodupb l = true <-> NoDup l.
Proof.
  induction l as [|x l IH]; cbn; [split; [constructor|auto]|]. rewrite andb_true_iff, negb_true_iff, IH.
  assert (K : existsb (same_req x) l = true <-> In x l).
  { rewrite existsb_exists. unfold same_req. split.
    - intros (y & Hy & H). apply andb_prop in H. destruct H as [H1 H2]. apply N.eqb_eq in H1. apply String.eqb_eq in H2. destruct x, y. cbn in *. subst. auto.
    - intros H. exists x. rewrite N.eqb_refl, String.eqb_refl. auto. }
  split.
  - intros [H1 H2]. constructor; auto. rewrite <- K, H1. discriminate.
  - intros H. inversion_clear H. split; auto. destruct (existsb _ _); auto. exfalso. tauto.
Qed.
(** Runs of the example cluster as in the theorem, without its hypothesis on repeated requests. *)
Definition lin_case (tr1 : list (event * cluster)) (cl1 : cluster) (tr2 : list (event * cluster)) (cl2 : cluster) (c : string) (i a k : N) : Prop :=
  cluster_start exc_conf exc_start /\ (forall id n, runs exc_start id n -> safe_mode n) /\
  trace exc_conf exc_start tr1 cl1 /\ trace exc_conf cl1 tr2 cl2 /\ (forall x, In x (tr1 ++ tr2) -> safe_event (fst x)) /\
  ~ issued tr1 c /\ read_given tr2 i c /\ exists e, delivered cl1 a e /\ e_index e = k.
Definition lin_b (tr1 : list (event * cluster)) (cl1 : cluster) (tr2 : list (event * cluster)) (c : string) (i a k : N) : bool :=
  forallb (fun x => match fst x with ERestart _ c => match c_ro c with RoSafe => true | _ => false end | _ => true end) (tr1 ++ tr2) &&
  negb (existsb (fun x => match fst x with ECall _ (NReadIndex c') _ => String.eqb c' c | _ => false end) tr1) &&
  existsb (fun x => match fst x with ECall _ _ out => match o_ready out with
              | Some rd => existsb (fun s => (rs_index s =? i) && String.eqb (rs_ctx s) c) (rd_reads rd) | None => false end | _ => false end) tr2 &&
  existsb (fun p => (fst p =? a) && (e_index (snd p) =? k)) (cl_hist cl1).
Definition lin_run (l1 l2 : list cact) (f : list (event * cluster) -> cluster -> list (event * cluster) -> cluster -> bool) : bool :=
  match eacts l1 exc_start with Some (tr1, cl1) => match eacts l2 cl1 with Some (tr2, cl2) => f tr1 cl1 tr2 cl2 | None => false end | None => false end.
Lemma exc_start_safe id n : runs exc_start id n -> safe_mode n.
Proof.
  assert (H : forallb (fun p => match ro_option (r_ro (rn_raft (snd p))) with RoSafe => true | _ => false end) (cl_nodes exc_start) = true) by (vm_compute; reflexivity).
  unfold runs, safe_mode. revert H. generalize (cl_nodes exc_start). intros l. induction l as [|[j x] l IH]; cbn; [discriminate|]. intros H. apply andb_prop in H. destruct H as [H1 H2].
  destruct (id =? j); [|auto]. intros X. injection X as <-. destruct (ro_option _); auto; discriminate.
Qed.
Lemma lin_b_ok tr1 cl1 tr2 cl2 c i a k : trace exc_conf exc_start tr1 cl1 -> trace exc_conf cl1 tr2 cl2 -> lin_b tr1 cl1 tr2 c i a k = true -> lin_case tr1 cl1 tr2 cl2 c i a k.
Proof.
  intros T1 T2 H. unfold lin_b in H. apply andb_prop in H. destruct H as [H H4]. apply andb_prop in H. destruct H as [H H3]. apply andb_prop in H. destruct H as [H1 H2].
  split; [apply exc_start_ok|]. split; [apply exc_start_safe|]. split; auto. split; auto. split; [|split; [|split]].
  - rewrite forallb_forall in H1. intros [ev x] Hx. specialize (H1 _ Hx). cbn in *. destruct ev; cbn; auto. destruct (c_ro c0); auto; discriminate.
  - intros (id & out & x & Hx). apply negb_true_iff in H2. assert (X : existsb (fun x => match fst x with ECall _ (NReadIndex c') _ => String.eqb c' c | _ => false end) tr1 = true).
    { apply existsb_exists. eexists. split; [exact Hx|]. cbn. apply String.eqb_refl. } congruence.
  - apply existsb_exists in H3. destruct H3 as ([ev x] & Hx & H3). cbn in H3. destruct ev as [id o out| |]; try discriminate. destruct (o_ready out) as [rd|] eqn:Ho; [|discriminate].
    apply existsb_exists in H3. destruct H3 as ([ri rc] & Hs & H3). cbn in H3. apply andb_prop in H3. destruct H3 as [H3 H5]. apply N.eqb_eq in H3. apply String.eqb_eq in H5. subst.
    exists id, o, out, x, rd. auto.
  - apply existsb_exists in H4. destruct H4 as ([j e] & Hx & H4). cbn in H4. apply andb_prop in H4. destruct H4 as [H4 H5]. apply N.eqb_eq in H4, H5. subst. exists e. auto.
Qed.

(** Node 1 commits "x" and crashes; node 2 becomes leader, commits an entry of its own and answers
    a read of its own application and one forwarded by node 3, both asked for after that. *)
Definition lin_reads : list cact :=
  [ACall 2 (NReadIndex "r"); ACall 2 NHandle; ADeliver 20; ACall 3 NHandle; ACall 3 (NReadIndex "s"); ACall 3 NHandle;
   ADeliver 21; ACall 2 NHandle; ADeliver 22; ACall 2 NHandle; ADeliver 24; ACall 3 NHandle; ADeliver 25; ACall 2 NHandle;
   ADeliver 26; ACall 3 NHandle].
Example C56_example : exists tr1 cl1 tr2 cl2, lin_case tr1 cl1 tr2 cl2 "r" 8 2 8 /\ lin_case tr1 cl1 tr2 cl2 "s" 8 2 8 /\
  NoDup (flat_map put_to_leader (tr1 ++ tr2)) /\ exists c, In (ERestart 1 c) (List.map fst tr1).
Proof.
  assert (H : lin_run (exc_first ++ exc_second) lin_reads (fun tr1 cl1 tr2 cl2 => lin_b tr1 cl1 tr2 "r" 8 2 8 && lin_b tr1 cl1 tr2 "s" 8 2 8 &&
     nodupb (flat_map put_to_leader (tr1 ++ tr2)) && existsb (fun ev => match ev with ERestart 1 _ => true | _ => false end) (List.map fst tr1)) = true) by (vm_compute; reflexivity).
  unfold lin_run in H. destruct (eacts (exc_first ++ exc_second) exc_start) as [[tr1 cl1]|] eqn:H1; [|discriminate]. destruct (eacts lin_reads cl1) as [[tr2 cl2]|] eqn:H2; [|discriminate].
  apply andb_prop in H. destruct H as [H A4]. apply andb_prop in H. destruct H as [H A3]. apply andb_prop in H. destruct H as [A1 A2].
  apply (eacts_ok exc_conf) in H1, H2. exists tr1, cl1, tr2, cl2. split; [apply lin_b_ok; auto|]. split; [apply lin_b_ok; auto|]. split; [apply nodupb_ok; auto|].
  apply existsb_exists in A4. destruct A4 as (ev & X1 & X2). destruct ev as [| |id c]; try discriminate. exists c. destruct id as [|[| |]]; try discriminate. auto.
Qed.

(** The hypothesis on repeated requests is needed.  Node 1 (leader of term 2) answers the read "a" of
    node 2; nodes 2 and 3 elect node 2, which commits and delivers entry 8.  Then the application
    on node 1, which has heard of none of this, asks under the new context "b"; the network hands node
    1 the old request "a" again, and the old heartbeat response for "a": node 1 counts the queue up
    to "a" as confirmed and hands out "b" with index 7. *)
Definition dup_first : list cact := exc_first ++
  [ACall 2 (NReadIndex "a"); ACall 2 NHandle; ADeliver 10; ACall 1 NHandle; ADeliver 11; ACall 2 NHandle; ADeliver 13; ACall 1 NHandle;
   ACall 2 NCampaign; ACall 2 NHandle; ADeliver 16; ACall 3 NHandle; ADeliver 17; ACall 2 NHandle; ADeliver 19; ACall 3 NHandle;
   ADeliver 20; ACall 2 NHandle; ADeliver 21; ACall 3 NHandle; ADeliver 22; ACall 2 NHandle].
Definition dup_second : list cact := [ACall 1 (NReadIndex "b"); ADeliver 10; ADeliver 13; ACall 1 NHandle].
Example C56_repeated_request : exists tr1 cl1 tr2 cl2, lin_case tr1 cl1 tr2 cl2 "b" 7 2 8.
Proof.
  assert (H : lin_run dup_first dup_second (fun tr1 cl1 tr2 cl2 => lin_b tr1 cl1 tr2 "b" 7 2 8) = true) by (vm_compute; reflexivity).
  unfold lin_run in H. destruct (eacts dup_first exc_start) as [[tr1 cl1]|] eqn:H1; [|discriminate]. destruct (eacts dup_second cl1) as [[tr2 cl2]|] eqn:H2; [|discriminate].
  apply (eacts_ok exc_conf) in H1, H2. exists tr1, cl1, tr2, cl2. apply lin_b_ok; auto.
Qed.
