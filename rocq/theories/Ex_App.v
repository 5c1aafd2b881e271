(** Executable runs of a replicated state machine, and a concrete one: the state is the
    concatenation of everything applied. *)
From Coq Require Import Permutation.
From Verif Require Import Prelude Types M_Util M_Quorum M_Inflights M_Progress M_Tracker.
From Verif Require Import M_Storage M_Unstable M_Log M_ReadOnly M_ConfPb M_ConfChange M_Raft M_RawNode.
From Verif Require Import Spec_Log Sys_Node Spec_Node Sys_Cluster Spec_Cluster Ex_Env Ex_Check Ex_Cluster Sys_App.
#[local] Existing Instance ex_env.

Definition exv_apply (e : entry) (v : string) : string := (v ++ e_data e)%string.
Definition exv_id (v : string) : string := v.
Notation exv_rc := (rcluster string).
Definition heldb (id i : N) (d : string) (h : list (N * app string)) : bool :=
  existsb (fun '(j, (k, v)) => (j =? id) && (k =? i) && String.eqb v d) h.
Lemma heldb_ok id i d h : heldb id i d h = true -> In (id, (i, d)) h.
Proof.
  unfold heldb. intros H. apply existsb_exists in H. destruct H as ([j [k v]] & Hin & Hb).
  rewrite !andb_true_iff in Hb. destruct Hb as [[B1 B2] B3]. apply N.eqb_eq in B1, B2. apply String.eqb_eq in B3. subst. auto.
Qed.
Definition snapb (o : nop) (id : N) (h : list (N * app string)) : bool :=
  match o with NCreateSnapshot i _ d => heldb id i d h | _ => true end.

(** Calls and deliveries as in Ex_Cluster; a restarted node recovers what its application had
    ([Some]) or the snapshot in its storage ([None]). *)
Inductive ract := RA (a : cact) | RBack (id : N) (own : bool) (tape : list N).
Definition set_applied (i : N) (s : mstorage) (c : config) : config :=
  mkConfig (c_id c) (c_election_tick c) (c_heartbeat_tick c) (Some s) i (c_max_size c)
    (c_max_committed c) (c_max_uncommitted c) (c_max_inflight c) (c_check_quorum c) (c_pre_vote c) (c_ro c) (c_disable_fwd c).
Definition ract_step (x : ract) (rc : exv_rc) : option exv_rc :=
  match x with
  | RA (ACall id o) =>
      match mget id (cl_nodes (rc_cl rc)), mget id (rc_app rc) with
      | Some n, Some a => if call_okb o n && snapb o id (rc_held rc) then
          match n_step o n with
          | Ok (n', out) => Some (mkR (mkCluster (mset id n' (cl_nodes (rc_cl rc))) (cl_net (rc_cl rc) ++ out_msgs out) (cl_hist (rc_cl rc) ++ out_ents id out))
              (mset id (app_after string exv_apply exv_id out a) (rc_app rc)) ((id, app_after string exv_apply exv_id out a) :: rc_held rc))
          | _ => None
          end else None
      | _, _ => None
      end
  | RA (ADeliver k) =>
      match nnth (cl_net (rc_cl rc)) k with
      | Some m =>
          match mget (m_to m) (cl_nodes (rc_cl rc)) with
          | Some n => match n_step (NStep m) n with
                      | Ok (n', _) => Some (mkR (mkCluster (mset (m_to m) n' (cl_nodes (rc_cl rc))) (cl_net (rc_cl rc)) (cl_hist (rc_cl rc))) (rc_app rc) (rc_held rc))
                      | _ => None
                      end
          | None => None
          end
      | None => None
      end
  | RA (ARestart _ _ _) => None
  | RBack id own tape =>
      match mget id (cl_nodes (rc_cl rc)), mget id (rc_app rc) with
      | Some n, Some b =>
          let a := if own then b else if sn_index (ms_snap (node_storage n)) =? 0 then (0, EmptyString) else from_snap string exv_id (ms_snap (node_storage n)) in
          if (negb own || heldb id (fst a) (snd a) (rc_held rc)) && (ms_first_index (node_storage n) <=? fst a + 1) then
            match rn_new (set_applied (fst a) (node_storage n) (exc_cfg id)) tape with
            | Ok n' => Some (mkR (mkCluster (mset id n' (cl_nodes (rc_cl rc))) (cl_net (rc_cl rc)) (cl_hist (rc_cl rc)))
                     (mset id a (rc_app rc)) ((id, a) :: rc_held rc))
            | _ => None
            end
          else None
      | _, _ => None
      end
  end.
Fixpoint racts (l : list ract) (rc : exv_rc) : option exv_rc :=
  match l with
  | [] => Some rc
  | x :: t => match ract_step x rc with Some rc' => racts t rc' | None => None end
  end.
Notation ex_rstep := (rstep string exv_apply exv_id exv_id EmptyString).
Notation ex_rreach := (rreach string exv_apply exv_id exv_id EmptyString).
Lemma ract_step_ok cs x rc rc' : ract_step x rc = Some rc' -> ex_rstep cs rc rc'.
Proof.
  destruct x as [[id o|k|id c tape]|id own tape]; cbn [ract_step]; [| |discriminate|].
  - destruct (mget id (cl_nodes (rc_cl rc))) as [n|] eqn:Hn; [|discriminate]. destruct (mget id (rc_app rc)) as [a|] eqn:Ha; [|discriminate].
    destruct (call_okb o n && snapb o id (rc_held rc)) eqn:Hc; [|discriminate]. apply andb_true_iff in Hc. destruct Hc as [Hc Hsn].
    destruct (n_step o n) as [[n' out]| | |] eqn:Hs; try discriminate. intros H; injection H as <-.
    eapply RCall; eauto.
    + destruct o; cbn in Hc |- *; auto; try discriminate; try (apply N.leb_le; auto; fail).
      destruct cs0; [discriminate|]. split; auto. apply N.leb_le; auto.
    + intros i c d ->. exists d. split; auto. apply heldb_ok. exact Hsn.
  - destruct (nnth (cl_net (rc_cl rc)) k) as [m|] eqn:Hk; [|discriminate]. destruct (mget (m_to m) (cl_nodes (rc_cl rc))) as [n|] eqn:Hn; [|discriminate].
    destruct (n_step (NStep m) n) as [[n' out]| | |] eqn:Hs; try discriminate. intros H; injection H as <-.
    eapply RDeliver; eauto. unfold nnth in Hk. eapply nth_error_In; eauto.
  - destruct (mget id (cl_nodes (rc_cl rc))) as [n|] eqn:Hn; [|discriminate]. destruct (mget id (rc_app rc)) as [b|] eqn:Hb; [|discriminate].
    set (a := if own then b else if sn_index (ms_snap (node_storage n)) =? 0 then (0, EmptyString) else from_snap string exv_id (ms_snap (node_storage n))).
    destruct ((negb own || heldb id (fst a) (snd a) (rc_held rc)) && (ms_first_index (node_storage n) <=? fst a + 1)) eqn:Hc; [|discriminate].
    apply andb_true_iff in Hc. destruct Hc as [Hc Hf]. apply N.leb_le in Hf.
    destruct (rn_new (set_applied (fst a) (node_storage n) (exc_cfg id)) tape) as [n'| | |] eqn:Hs; try discriminate. intros H; injection H as <-.
    eapply (RRestart string exv_apply exv_id exv_id EmptyString cs rc id (set_applied (fst a) (node_storage n) (exc_cfg id)) tape n n' a Hn eq_refl eq_refl Hs); auto.
    destruct own; [left|right; reflexivity]. cbn [negb orb] in Hc. apply heldb_ok in Hc. destruct a. exact Hc.
Qed.
Lemma racts_ok i0 cs l : forall rc rc', ex_rreach i0 cs rc -> racts l rc = Some rc' -> ex_rreach i0 cs rc'.
Proof.
  induction l as [|x l IH]; intros rc rc' R; cbn; [intros H; injection H as <-; auto|].
  destruct (ract_step x rc) as [c1|] eqn:Ha; [|discriminate]. intros H. apply (IH c1); auto. eapply RrStep; eauto. eapply ract_step_ok; eauto.
Qed.

Definition exv_start : exv_rc := mkR exc_start [(1, (5, EmptyString)); (2, (5, EmptyString)); (3, (5, EmptyString))]
  [(1, (5, EmptyString)); (2, (5, EmptyString)); (3, (5, EmptyString))].
Definition exv_first : list ract := List.map RA exc_first.
Definition net_view (rc : exv_rc) : list (nat * (mtype * N * N * N * N)) :=
  combine (seq 0 (List.length (cl_net (rc_cl rc)))) (List.map (fun m => (m_type m, m_from m, m_to m, m_term m, m_index m)) (cl_net (rc_cl rc))).
Definition exv_second : list ract :=
  [RBack 1 true [3;4;5;6]; RA (ACall 2 NCampaign); RA (ACall 2 NHandle); RA (ADeliver 11); RA (ACall 3 NHandle); RA (ADeliver 12);
   RA (ACall 2 NHandle); RA (ADeliver 14); RA (ACall 3 NHandle); RA (ADeliver 15); RA (ACall 2 NHandle); RA (ADeliver 16); RA (ACall 3 NHandle);
   RA (ADeliver 17); RA (ACall 2 NHandle); RA (ACall 2 (NPropose "y")); RA (ACall 2 NHandle)].
Definition exv_third : list ract :=
  [RA (ADeliver 18); RA (ADeliver 19); RA (ACall 3 NHandle); RA (ADeliver 21); RA (ACall 2 NHandle);
   RA (ACall 2 (NCreateSnapshot 9 None "xy")); RA (ACall 2 (NCompact 9)); RA (ACall 2 NTick); RA (ACall 2 NHandle)].
Definition exv_fourth : list ract :=
  [RA (ADeliver 23); RA (ACall 1 NHandle); RA (ADeliver 25); RA (ACall 2 NHandle); RA (ADeliver 26); RA (ACall 1 NHandle)].
(** After a second crash node 1 has nothing but the snapshot it was sent. *)
Definition exv_all : list ract := exv_first ++ exv_second ++ exv_third ++ exv_fourth ++ [RBack 1 false [3;4;5]].

Lemma exv_start_ok : rstart string exv_id EmptyString 5 exc_conf exv_start.
Proof.
  constructor; cbn [rc_cl rc_app rc_held exv_start].
  - apply exc_start_ok.
  - assert (K : forall id n, mget id (cl_nodes exc_start) = Some n -> id = 1 \/ id = 2 \/ id = 3).
    { intros id n H. assert (X : List.map fst (cl_nodes exc_start) = [1;2;3]) by (vm_compute; reflexivity).
      assert (Y : In id (List.map fst (cl_nodes exc_start))).
      { revert H. generalize (cl_nodes exc_start). induction n0 as [|[k x] m IH]; cbn; [discriminate|]. destruct (N.eqb_spec id k); auto. }
      rewrite X in Y. cbn in Y. intuition. }
    intros id n H.
    assert (S : option_map (fun n => (sn_index (ms_snap (node_storage n)), sn_data (ms_snap (node_storage n)))) (mget id (cl_nodes exc_start)) = Some (5, EmptyString)).
    { destruct (K _ _ H) as [->|[->| ->]]; vm_compute; reflexivity. }
    rewrite H in S. cbn [option_map] in S. injection S as S1 S2. rewrite S1, S2.
    split; auto. destruct (K _ _ H) as [->|[->| ->]]; reflexivity.
  - intros id a H. cbn [mget] in H. repeat match type of H with (if ?b then _ else _) = _ => destruct b eqn:? end; try discriminate.
    + apply N.eqb_eq in Heqb. inv H. cbn; auto.
    + apply N.eqb_eq in Heqb0. inv H. cbn; auto.
    + apply N.eqb_eq in Heqb1. inv H. cbn; auto.
  - intros id a [H|[H|[H|[]]]]; inv H; auto.
Qed.
Lemma exv_run : exists rc, ex_rreach 5 exc_conf rc /\ racts exv_all exv_start = Some rc.
Proof.
  destruct (racts exv_all exv_start) as [rc|] eqn:H; [|vm_compute in H; discriminate].
  exists rc. split; auto. eapply racts_ok; [apply RrStart, exv_start_ok|exact H].
Qed.
Lemma exv_eq {A} (f : exv_rc -> A) rc x : racts exv_all exv_start = Some rc -> option_map f (racts exv_all exv_start) = Some x -> f rc = x.
Proof. intros ->. cbn. congruence. Qed.
