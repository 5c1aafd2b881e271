(** Concrete cases: from a boolean computation to the hypotheses of the theorems about one node. *)
From Verif Require Import Prelude Types M_Util M_Storage M_Unstable M_Log M_Raft M_RawNode.
From Verif Require Import Spec_Log P_Lists Sys_Node Spec_Node Ex_Env Ex_Node Ex_Check.

Section Case.
Context {E : Env}.
Definition case_b (c : config) (tape : list N) (os : list nop) (o : nop) (chk : rawnode -> rawnode -> nout -> bool) : bool :=
  match c_storage c with
  | None => false
  | Some s => storage_okb s &&
      match rn_new c tape with
      | Ok n0 => n_run_okb os n0 &&
          match n_run os n0 with
          | Ok (n, _) => nop_okb o n && match n_step o n with Ok (n', out) => chk n n' out | _ => false end
          | _ => false
          end
      | _ => false
      end
  end.
Lemma case_ok c tape os o chk : case_b c tape os o chk = true ->
  exists n n' out, node_at n /\ nop_ok o n /\ n_step o n = Ok (n', out) /\ chk n n' out = true.
Proof.
  unfold case_b. destruct (c_storage c) as [s|] eqn:Hs; [|discriminate]. intros H. apply andb_prop in H. destruct H as [H1 H].
  destruct (rn_new c tape) as [n0| | |] eqn:H0; try discriminate. apply andb_prop in H. destruct H as [H2 H].
  destruct (n_run os n0) as [[n outs]| | |] eqn:Hr; try discriminate. apply andb_prop in H. destruct H as [H3 H].
  destruct (n_step o n) as [[n' out]| | |] eqn:Ho; try discriminate.
  exists n, n', out. split; [|split; [apply nop_okb_ok; exact H3|auto]].
  exists c, tape, s, n0, os, outs. split; [exact Hs|]. split; [apply storage_okb_ok; exact H1|]. split; [exact H0|].
  split; [apply n_run_okb_ok; exact H2|exact Hr].
Qed.
(** Some message emitted by [o] passes [chk]. *)
Lemma emit_case_ok c tape os o (chk : msg -> bool) :
  case_b c tape os o (fun n n' _ => is_nil (pending n) && existsb chk (pending n')) = true ->
  exists n n' x, node_at n /\ nop_ok o n /\ emits o n n' x /\ chk x = true.
Proof.
  intros H. apply case_ok in H. destruct H as (n & n' & out & H1 & H2 & H3 & H4). apply andb_prop in H4. destruct H4 as [H4 H5].
  apply existsb_exists in H5. destruct H5 as (x & H5 & H6). exists n, n', x. split; [exact H1|]. split; [exact H2|]. split; [|exact H6].
  exists out, (pending n'). split; [exact H3|]. split; [|exact H5]. destruct (pending n); [reflexivity|discriminate].
Qed.
End Case.
Definition ex_tape : list N := [3; 4; 5; 6; 7].
