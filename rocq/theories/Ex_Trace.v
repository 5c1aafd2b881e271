(** Executable cluster runs with their events. *)
From Verif Require Import Prelude Types M_Util M_Quorum M_Inflights M_Progress M_Tracker.
From Verif Require Import M_Storage M_Unstable M_Log M_ReadOnly M_ConfPb M_ConfChange M_Raft M_RawNode.
From Verif Require Import Spec_Log Sys_Node Spec_Node Sys_Cluster Spec_Cluster Sys_Trace Spec_Linear Ex_Env Ex_Check Ex_Cluster.

Section Run.
Context {E : Env}.
Definition eact_step (a : cact) (cl : cluster) : option (event * cluster) :=
  match a with
  | ACall id o =>
      match mget id (cl_nodes cl) with
      | Some n => if call_okb o n then
          match n_step o n with
          | Ok (n', out) => Some (ECall id o out, mkCluster (mset id n' (cl_nodes cl)) (cl_net cl ++ out_msgs out) (cl_hist cl ++ out_ents id out))
          | _ => None
          end else None
      | None => None
      end
  | ADeliver k =>
      match nnth (cl_net cl) k with
      | Some m =>
          match mget (m_to m) (cl_nodes cl) with
          | Some n => match n_step (NStep m) n with
                      | Ok (n', _) => Some (EDeliver (m_to m) m, mkCluster (mset (m_to m) n' (cl_nodes cl)) (cl_net cl) (cl_hist cl))
                      | _ => None
                      end
          | None => None
          end
      | None => None
      end
  | ARestart id c tape =>
      match mget id (cl_nodes cl) with
      | Some n =>
          let c' := mkConfig id (c_election_tick c) (c_heartbeat_tick c) (Some (node_storage n)) (c_applied c) (c_max_size c)
                            (c_max_committed c) (c_max_uncommitted c) (c_max_inflight c) (c_check_quorum c) (c_pre_vote c) (c_ro c) (c_disable_fwd c) in
          match rn_new c' tape with
          | Ok n' => Some (ERestart id c', mkCluster (mset id n' (cl_nodes cl)) (cl_net cl) (cl_hist cl))
          | _ => None
          end
      | None => None
      end
  end.
Fixpoint eacts (l : list cact) (cl : cluster) : option (list (event * cluster) * cluster) :=
  match l with
  | [] => Some ([], cl)
  | a :: t => match eact_step a cl with
              | Some (ev, cl') => match eacts t cl' with Some (tr, fin) => Some ((ev, cl') :: tr, fin) | None => None end
              | None => None
              end
  end.
Lemma eact_step_ok cs a cl ev cl' : eact_step a cl = Some (ev, cl') -> estep cs cl ev cl'.
Proof.
  destruct a as [id o|k|id c tape]; cbn [eact_step].
  - destruct (mget id (cl_nodes cl)) as [n|] eqn:Hn; [|discriminate]. destruct (call_okb o n) eqn:Hc; [|discriminate].
    destruct (n_step o n) as [[n' out]| | |] eqn:Hs; try discriminate. intros H; injection H as <- <-.
    eapply ESCall; eauto. destruct o; cbn in *; auto; try discriminate; try (apply N.leb_le; auto; fail).
    destruct cs0; [discriminate|]. split; auto. apply N.leb_le; auto.
  - destruct (nnth (cl_net cl) k) as [m|] eqn:Hk; [|discriminate]. destruct (mget (m_to m) (cl_nodes cl)) as [n|] eqn:Hn; [|discriminate].
    destruct (n_step (NStep m) n) as [[n' out]| | |] eqn:Hs; try discriminate. intros H; injection H as <- <-.
    eapply ESDeliver; eauto. unfold nnth in Hk. eapply nth_error_In; eauto.
  - destruct (mget id (cl_nodes cl)) as [n|] eqn:Hn; [|discriminate]. cbv zeta.
    destruct (rn_new _ tape) as [n'| | |] eqn:Hs; try discriminate. intros H; injection H as <- <-.
    eapply ESRestart; [exact Hn| | |exact Hs]; auto.
Qed.
Lemma eacts_ok cs l cl tr cl' : eacts l cl = Some (tr, cl') -> trace cs cl tr cl'.
Proof.
  revert cl tr. induction l as [|a l IH]; intros cl tr; cbn; [intros H; injection H as <- <-; constructor|].
  destruct (eact_step a cl) as [[ev c1]|] eqn:Ha; [|discriminate]. destruct (eacts l c1) as [[t f]|] eqn:Hf; [|discriminate]. intros H. injection H as <- <-.
  econstructor; [eapply eact_step_ok; eauto|eauto].
Qed.
End Run.
