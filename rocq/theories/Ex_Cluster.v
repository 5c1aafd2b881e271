(** Executable cluster runs, and a concrete cluster for the examples. *)
From Coq Require Import Permutation.
From Verif Require Import Prelude Types M_Util M_Quorum M_Inflights M_Progress M_Tracker.
From Verif Require Import M_Storage M_Unstable M_Log M_ReadOnly M_ConfPb M_ConfChange M_Raft M_RawNode.
From Verif Require Import Spec_Log Sys_Node Spec_Node Sys_Cluster Spec_Cluster Ex_Env Ex_Check.

Section Run.
Context {E : Env}.
Inductive cact :=
| ACall (id : N) (o : nop)
| ADeliver (k : N)                       (* the k-th message ever sent *)
| ARestart (id : N) (c : config) (tape : list N).

Definition call_okb (o : nop) (n : rawnode) : bool :=
  match o with
  | NStep _ | NApplyCC _ | NReady | NAdvance | NStorage _ => false
  | NCompact i => i <=? l_applied (r_log (rn_raft n))
  | NCreateSnapshot i None _ => i <=? l_applied (r_log (rn_raft n))
  | NCreateSnapshot _ (Some _) _ => false
  | _ => true
  end.
Definition cact_step (a : cact) (cl : cluster) : option cluster :=
  match a with
  | ACall id o =>
      match mget id (cl_nodes cl) with
      | Some n => if call_okb o n then
          match n_step o n with
          | Ok (n', out) => Some (mkCluster (mset id n' (cl_nodes cl)) (cl_net cl ++ out_msgs out) (cl_hist cl ++ out_ents id out))
          | _ => None
          end else None
      | None => None
      end
  | ADeliver k =>
      match nnth (cl_net cl) k with
      | Some m =>
          match mget (m_to m) (cl_nodes cl) with
          | Some n => match n_step (NStep m) n with
                      | Ok (n', _) => Some (mkCluster (mset (m_to m) n' (cl_nodes cl)) (cl_net cl) (cl_hist cl))
                      | _ => None
                      end
          | None => None
          end
      | None => None
      end
  | ARestart id c tape =>
      match mget id (cl_nodes cl) with
      | Some n =>
          if c_id c =? id then
            match rn_new (mkConfig id (c_election_tick c) (c_heartbeat_tick c) (Some (node_storage n)) (c_applied c) (c_max_size c)
                            (c_max_committed c) (c_max_uncommitted c) (c_max_inflight c) (c_check_quorum c) (c_pre_vote c) (c_ro c) (c_disable_fwd c)) tape with
            | Ok n' => Some (mkCluster (mset id n' (cl_nodes cl)) (cl_net cl) (cl_hist cl))
            | _ => None
            end
          else None
      | None => None
      end
  end.
Fixpoint cacts (l : list cact) (cl : cluster) : option cluster :=
  match l with
  | [] => Some cl
  | a :: t => match cact_step a cl with Some cl' => cacts t cl' | None => None end
  end.

Lemma cact_step_ok cs a cl cl' : cact_step a cl = Some cl' -> cstep cs cl cl'.
Proof.
  destruct a as [id o|k|id c tape]; cbn [cact_step].
  - destruct (mget id (cl_nodes cl)) as [n|] eqn:Hn; [|discriminate]. destruct (call_okb o n) eqn:Hc; [|discriminate].
    destruct (n_step o n) as [[n' out]| | |] eqn:Hs; try discriminate. intros H; injection H as <-.
    eapply CCall; eauto. destruct o; cbn in *; auto; try discriminate; try (apply N.leb_le; auto; fail).
    destruct cs0; [discriminate|]. split; auto. apply N.leb_le; auto.
  - destruct (nnth (cl_net cl) k) as [m|] eqn:Hk; [|discriminate]. destruct (mget (m_to m) (cl_nodes cl)) as [n|] eqn:Hn; [|discriminate].
    destruct (n_step (NStep m) n) as [[n' out]| | |] eqn:Hs; try discriminate. intros H; injection H as <-.
    eapply CDeliver; eauto. unfold nnth in Hk. eapply nth_error_In; eauto.
  - destruct (mget id (cl_nodes cl)) as [n|] eqn:Hn; [|discriminate]. destruct (N.eqb_spec (c_id c) id); [|discriminate].
    destruct (rn_new _ tape) as [n'| | |] eqn:Hs; try discriminate. intros H; injection H as <-.
    eapply CRestart; [exact Hn| | |exact Hs]; auto.
Qed.
Lemma cacts_ok cs l cl cl' : cacts l cl = Some cl' -> csteps cs cl cl'.
Proof.
  revert cl. induction l as [|a l IH]; intros cl; cbn; [intros H; injection H as <-; constructor|].
  destruct (cact_step a cl) as [c1|] eqn:Ha; [|discriminate]. intros H. econstructor; [eapply cact_step_ok; eauto|eauto].
Qed.
Lemma reachable_steps cs cl cl' : reachable cs cl -> csteps cs cl cl' -> reachable cs cl'.
Proof. intros R H. induction H; auto. apply IHcsteps. eapply CrStep; eauto. Qed.
End Run.

(** Three nodes starting from a snapshot (index 5, term 1). *)
Definition exc_conf : confstate := mkConfState [1;2;3] [] [] [] false.
Definition exc_storage : mstorage :=
  mkMS (mkHardState 1 0 5) (mkSnapshot 5 1 exc_conf EmptyString) (mkEntry 1 5 EntryNormal EmptyString) [].
Definition exc_cfg (id : N) : config :=
  mkConfig id 10 1 (Some exc_storage) 0 1000 1000 0 4 true false RoSafe false.
Definition exc_new (id : N) : res rawnode := @rn_new ex_env (exc_cfg id) [3; 4; 5; 6; 7; 3; 4; 5].
Definition exc_nodes : res (nmap rawnode) :=
  a <- exc_new 1 ;; b <- exc_new 2 ;; c <- exc_new 3 ;; Ok [(1, a); (2, b); (3, c)].
Definition exc_start : cluster :=
  mkCluster (match exc_nodes with Ok x => x | _ => [] end) [] [].

Lemma exc_start_ok : cluster_start (E := ex_env) exc_conf exc_start.
Proof.
  assert (H : exists a b c, exc_new 1 = Ok a /\ exc_new 2 = Ok b /\ exc_new 3 = Ok c /\ exc_start = mkCluster [(1, a); (2, b); (3, c)] [] []).
  { destruct (exc_new 1) as [a| | |] eqn:Ha; [|vm_compute in Ha; discriminate..].
    destruct (exc_new 2) as [b| | |] eqn:Hb; [|vm_compute in Hb; discriminate..].
    destruct (exc_new 3) as [c| | |] eqn:Hc; [|vm_compute in Hc; discriminate..].
    exists a, b, c. repeat (split; auto). unfold exc_start, exc_nodes. rewrite Ha, Hb, Hc. reflexivity. }
  destruct H as (a & b & c & Ha & Hb & Hc & ->).
  constructor; cbn [cl_net cl_hist cl_nodes]; auto; [cbn; discriminate|].
  exists 5, 1. split; [discriminate|]. intros id n Hg.
  assert (Hs : start_storage exc_conf 5 1 exc_storage).
  { constructor.
    - apply storage_okb_ok. vm_compute. reflexivity.
    - reflexivity.
    - split; reflexivity.
    - split; reflexivity.
    - split; apply Permutation_refl.
    - split; [reflexivity|vm_compute; discriminate]. }
  cbn [mget] in Hg.
  destruct (N.eqb_spec id 1) as [->|]; [injection Hg as <-; exists (exc_cfg 1), [3; 4; 5; 6; 7; 3; 4; 5], exc_storage; auto|].
  destruct (N.eqb_spec id 2) as [->|]; [injection Hg as <-; exists (exc_cfg 2), [3; 4; 5; 6; 7; 3; 4; 5], exc_storage; auto|].
  destruct (N.eqb_spec id 3) as [->|]; [injection Hg as <-; exists (exc_cfg 3), [3; 4; 5; 6; 7; 3; 4; 5], exc_storage; auto|discriminate].
Qed.

(** Node 1 is elected (term 2), commits "x" with node 2, and crashes; node 2 is elected (term 3)
    with the vote of node 3, brings node 3 up to date and commits. *)
Definition exc_first : list cact :=
  [ACall 1 NCampaign; ACall 1 NHandle; ADeliver 0; ACall 2 NHandle; ADeliver 2; ACall 1 NHandle;
   ADeliver 3; ACall 2 NHandle; ADeliver 5; ACall 1 NHandle; ACall 1 (NPropose "x"); ACall 1 NHandle;
   ADeliver 7; ACall 2 NHandle; ADeliver 8; ACall 1 NHandle; ACall 2 NHandle].
Definition exc_second : list cact :=
  [ARestart 1 (exc_cfg 1) [3;4;5;6]; ACall 2 NCampaign; ACall 2 NHandle; ADeliver 11; ACall 3 NHandle; ADeliver 12;
   ACall 2 NHandle; ADeliver 14; ACall 3 NHandle; ADeliver 15; ACall 2 NHandle; ADeliver 16; ACall 3 NHandle;
   ADeliver 17; ACall 2 NHandle].
Definition exc_x : entry := mkEntry 2 7 EntryNormal "x".

(** Boolean forms of what the examples show. *)
Definition role_term (cl : cluster) (id : N) : option (role * N) := option_map (fun n => (node_role n, node_term n)) (mget id (cl_nodes cl)).
Definition entry_at (cl : cluster) (id i : N) : option (res (st (list entry))) :=
  option_map (fun n => @log_slice ex_env i (i + 1) UINT64_MAX (r_log (rn_raft n))) (mget id (cl_nodes cl)).
Lemma role_term_leader cl id t : role_term cl id = Some (RLeader, t) -> leader_of cl id t.
Proof. unfold role_term, leader_of, runs. destruct (mget id (cl_nodes cl)) as [n|]; [|discriminate]. cbn. intros H. injection H as H1 H2. eauto. Qed.
Lemma entry_at_holds cl id i e : entry_at cl id i = Some (Ok (SOk [e])) -> exists n, runs cl id n /\ @holds_entry ex_env n i e.
Proof. unfold entry_at, runs, holds_entry. destruct (mget id (cl_nodes cl)) as [n|]; [|discriminate]. cbn. intros H. injection H as H. eauto. Qed.

Lemma exc_run : exists mid fin, reachable (E := ex_env) exc_conf mid /\ csteps (E := ex_env) exc_conf mid fin /\ reachable (E := ex_env) exc_conf fin /\
  @cacts ex_env exc_first exc_start = Some mid /\ @cacts ex_env exc_second mid = Some fin.
Proof.
  destruct (@cacts ex_env exc_first exc_start) as [mid|] eqn:H1; [|vm_compute in H1; discriminate].
  destruct (@cacts ex_env exc_second mid) as [fin|] eqn:H2.
  2:{ assert (X : match @cacts ex_env exc_first exc_start with Some c => match @cacts ex_env exc_second c with Some _ => true | None => false end | None => false end = true)
        by (vm_compute; reflexivity). rewrite H1, H2 in X. discriminate. }
  assert (R : reachable (E := ex_env) exc_conf mid).
  { eapply reachable_steps; [apply CrStart, exc_start_ok|]. eapply cacts_ok; eauto. }
  assert (S : csteps (E := ex_env) exc_conf mid fin) by (eapply cacts_ok; eauto).
  exists mid, fin. split; auto. split; auto. split; auto. eapply reachable_steps; eauto.
Qed.
Definition at_mid {A} (f : cluster -> A) : option A := option_map f (@cacts ex_env exc_first exc_start).
Definition at_fin {A} (f : cluster -> A) : option A :=
  match @cacts ex_env exc_first exc_start with Some m => option_map f (@cacts ex_env exc_second m) | None => None end.
Lemma at_mid_eq {A} (f : cluster -> A) mid x : @cacts ex_env exc_first exc_start = Some mid -> at_mid f = Some x -> f mid = x.
Proof. unfold at_mid. intros ->. cbn. congruence. Qed.
Lemma at_fin_eq {A} (f : cluster -> A) mid fin x : @cacts ex_env exc_first exc_start = Some mid -> @cacts ex_env exc_second mid = Some fin ->
  at_fin f = Some x -> f fin = x.
Proof. unfold at_fin. intros -> ->. cbn. congruence. Qed.
Definition handed (cl : cluster) : list (N * N) := List.map (fun '(i, e) => (i, e_index e)) (cl_hist cl).
