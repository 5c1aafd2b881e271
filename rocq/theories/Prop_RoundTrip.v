(** A candidate whose request reaches a willing majority is the leader when their answers are in (C78). *)
From Verif Require Import Prelude Types M_Util M_Quorum M_Inflights M_Progress M_Tracker.
From Verif Require Import M_Storage M_Unstable M_Log M_ReadOnly M_ConfPb M_ConfChange M_Raft M_RawNode.
From Verif Require Import P_Inflights Spec_Log P_Lists P_Storage P_Log Spec_Storage Sys_Storage P_StorageSeq Spec_RaftLog Sys_RaftLog P_RaftLogSeq.
From Verif Require Import Spec_Quorum P_Quorum Spec_Progress Spec_ConfChange P_ConfChange.
From Verif Require Import P_Frame P_Prim Sys_Node Sys_ConfChange P_Node P_Fields P_Vote Spec_Node P_Persist P_New P_Time P_Conf P_NodeLog P_Handle P_NodeRun P_Emit P_Ack.
From Verif Require Import Prop_Vote P_Lead P_Elect R_Elig Spec_Flow Spec_Elect Spec_Snap Spec_Resp Prop_Deliver Prop_Msg Prop_Flow Prop_Answer Ex_Env Ex_Node Ex_Check Ex_Case.
From Verif Require Import Prop_Elect Prop_Ballot Spec_RoundTrip.

Section Props.
Context {E : Env}.

Definition yes (t : N) (a : msg) : Prop := m_type a = MsgVoteResp /\ m_term a = t /\ m_reject a = false.

(** A willing voter grants. *)
Lemma answered_yes n j a : answered_by n j a -> yes (node_term n) a /\ m_from a = j /\ m_to a = node_id n.
Proof.
  intros [(c & v & v' & out & req & lt & M & J & (A1 & A2 & A3 & A4 & A5 & A6) & Hok & H & P & Hlt & Hm & S & U)].
  assert (Hle : node_term v <= m_term req) by lia.
  destruct (C59_vote_answered c v req v' out M Hok A1 H Hle) as (a' & lt' & P' & (B1 & B2 & B3) & B4 & _ & _ & _ & _ & _ & S' & G).
  { unfold must_answer. destruct Hm as [Hm|Hm]; [left; lia|right; exact Hm]. }
  rewrite P in P'. apply app_inv_head in P'. injection P' as <-.
  assert (lt' = lt) by (unfold shows in *; congruence). subst lt'.
  cbv zeta in G. unfold yes. repeat split; try congruence.
  destruct G as [(_ & _ & G & _)|(G & _ & _)]; [exact G|]. exfalso. apply G. split; [|exact U]. destruct Hlt as [Hlt|[Hlt [F|F]]]; [left; lia|right; left; congruence|right; right; exact F].
Qed.

(** A leader goes on leading. *)
Lemma lead_step t m n n' out : 0 < t -> yes t m -> node_role n = RLeader -> node_term n = t -> n_step (NStep m) n = Ok (n', out) ->
  node_role n' = RLeader /\ node_term n' = t.
Proof.
  intros Ht (Y1 & Y2 & Y3) R T H. cbn [n_step] in H. apply bind_ok in H. destruct H as ([n1 e1] & H & Hx). injection Hx as <- _.
  unfold rn_step in H. rewrite Y1 in H. cbn [is_local_msg is_response_msg negb] in H. cbv zeta in H.
  destruct (trk_get _ _) eqn:Hg; cbn [orb] in H; [|injection H as <- _; auto].
  unfold rn_raft_step in H. apply bind_ok in H. destruct H as ([r1 e2] & H & Hx). injection Hx as <- _.
  change (r_term (rn_raft n) = t) in T. change (r_state (rn_raft n) = RLeader) in R.
  unfold step in H. rewrite Y2, T in H. destruct (N.eqb_spec t 0); [lia|]. rewrite N.ltb_irrefl in H.
  unfold step_dispatch in H. rewrite Y1, R in H. unfold step_leader in H. rewrite Y1, Hg in H. injection H as <- _. auto.
Qed.


(** Granted votes alone are never hopeless. *)
Lemma first_true l : (forall i b, In (i, b) l -> b = true) -> forall i, first_vote l i = if existsb (fun p => fst p =? i) l then Some true else None.
Proof.
  induction l as [|[a b] l IH]; intros Hl i; [reflexivity|]. cbn [first_vote existsb fst]. destruct (a =? i); cbn [orb].
  - rewrite (Hl a b (or_introl eq_refl)). reflexivity.
  - apply IH. intros. apply (Hl i0). right. auto.
Qed.
Lemma all_hopeful n l : (forall i b, In (i, b) l -> b = true) -> ~ hopeless n (first_vote l).
Proof.
  intros Hl H. apply (not_hopeless n (node_id n)). intros w Hw. intros Hel. apply (H (fun _ => Some true)).
  - intros i b. rewrite (first_true l Hl). destruct (existsb _ _); congruence.
  - assert (M : forall c, majority c (voted_yes (fun _ : N => Some true))).
    { intros [|a l0]; [left; auto|right]. assert (Cc : forall l1, count (voted_yes (fun _ : N => Some true)) l1 = nlen l1).
      { clear. induction l1 as [|a l1 IH]; [reflexivity|]. rewrite count_cons, IH, nlen_cons. cbn. lia. }
      rewrite Cc, nlen_cons. lia. }
    split; apply M.
Qed.

(** A candidate that gets a granted vote leads or goes on. *)
Lemma yes_step t id l m n n' out : candidate RCandidate t id l n -> (forall i b, In (i, b) l -> b = true) -> nop_ok (NStep m) n -> yes t m ->
  n_step (NStep m) n = Ok (n', out) ->
  (node_role n' = RLeader /\ node_term n' = t) \/
  (candidate RCandidate t id (l ++ [(m_from m, true)]) n' /\ node_incoming n' = node_incoming n /\ node_outgoing n' = node_outgoing n).
Proof.
  intros C Hl Hok (Y1 & Y2 & Y3) H. pose proof (cd_term _ _ _ _ _ C) as T. pose proof (cd_state _ _ _ _ _ C) as R.
  assert (Cx : candidacy RCandidate) by (left; auto).
  assert (Bl : ballot RCandidate t (NStep m) = [(m_from m, true)]) by (cbn; rewrite Y1, Y2, Y3, N.eqb_refl; reflexivity).
  assert (Cn : counts RCandidate (r_term (rn_raft n)) m = true) by (unfold counts; rewrite Y1, Y2, T, N.eqb_refl; reflexivity).
  pose proof (agree_next RCandidate t id l n (NStep m) n Cx C eq_refl eq_refl) as A. rewrite Bl in A.
  assert (Q : (r_state (rn_raft n') = RLeader /\ r_term (rn_raft n') = t) \/ (r_state (rn_raft n') = RCandidate /\ r_term (rn_raft n') = t)).
  { pose proof H as H0. cbn [n_step] in H. apply bind_ok in H. destruct H as ([n1 e1] & H & Hx). injection Hx as <- _.
    unfold rn_step in H. rewrite Y1 in H. cbn [is_local_msg is_response_msg negb] in H. cbv zeta in H.
    destruct (trk_get _ _) eqn:Hg; cbn [orb] in H; [|injection H as <- _; auto].
    unfold rn_raft_step in H. apply bind_ok in H. destruct H as ([r1 e2] & H & Hx). injection Hx as <- _. cbn [rn_raft set_rn_raft].
    destruct Hok as [[Hf Hz] _].
    destruct (step_cands _ _ _ _ H) as [K V].
    { intros Z. apply Hz in Z. rewrite Y1 in Z. destruct Z as [Z|[Z|Z]]; discriminate. }
    { rewrite Y1. discriminate. }
    specialize (V RCandidate (or_introl eq_refl) R Cn). assert (V' : verdict RCandidate m (rn_raft n) r1) by (apply V; congruence). clear V.
    assert (Bo : ballot_of RCandidate t (rn_raft n) (NStep m) = poll_votes m (t_votes (r_trk (rn_raft n)))).
    { unfold ballot_of. rewrite <- T, Cn, Hg. reflexivity. }
    rewrite Bo in A.
    unfold verdict in V'. destruct (tc_vote_result _ _) eqn:Hv.
    - right. split; [exact V'|]. destruct (K RCandidate (or_introl eq_refl) V') as [KK|[St _]]; [rewrite (kc_term _ _ _ _ KK); exact T|].
      exfalso. unfold starts in St. destruct St as [St|[_ [St|St]]]; congruence.
    - exfalso. apply (verdict_hopeless n _ _ A) in Hv. eapply all_hopeful; [|exact Hv].
      intros i b [X|X]; [injection X as _ <-; reflexivity|]. apply in_app_or in X. destruct X as [X|[X|[]]]; [exact (Hl _ _ X)|]. injection X as _ <-. reflexivity.
    - left. rewrite <- T. exact V'. }
  destruct Q as [Q|[Q T']]; [left; exact Q|right].
  assert (Kp : ckept RCandidate (NStep m) (rn_raft n) (rn_raft n')).
  { destruct (n_step_cands RCandidate (NStep m) n n' out Cx Hok (cd_dinv _ _ _ _ _ C)) as [K|[St F]]; auto; [discriminate|].
    exfalso. pose proof (fc_term _ _ _ F) as Ft. cbn in Ft. lia. }
  split; [rewrite <- Bl; apply (candidate_step RCandidate t id l n (NStep m) n' out Cx C Hok); auto|].
  unfold node_incoming, node_outgoing. cbn. rewrite (ck_conf _ _ _ _ Kp). auto.
Qed.
Lemma lead_run t ms : forall n n' outs, 0 < t -> Forall (yes t) ms -> n_run (map NStep ms) n = Ok (n', outs) ->
  node_role n = RLeader -> node_term n = t -> node_role n' = RLeader /\ node_term n' = t.
Proof.
  induction ms as [|m ms IH]; intros n n' outs Ht Hy H L T; cbn [map n_run] in *.
  - injection H as <- _. auto.
  - apply bind_ok in H. destruct H as ([n1 o1] & H1 & H). apply bind_ok in H. destruct H as ([n2 o2] & H2 & Hx). injection Hx as <- _.
    inversion Hy as [|? ? Y Ys]; subst x l. destruct (lead_step t m n n1 o1 Ht Y L T H1) as [L1 T1]. exact (IH n1 n2 o2 Ht Ys H2 L1 T1).
Qed.
Lemma yes_run t id ms : forall l n n' outs,
  0 < t -> Forall (yes t) ms -> n_run_ok (map NStep ms) n -> n_run (map NStep ms) n = Ok (n', outs) ->
  candidate RCandidate t id l n -> (forall i b, In (i, b) l -> b = true) ->
  (node_role n' = RLeader /\ node_term n' = t) \/
  (candidate RCandidate t id (l ++ map (fun m => (m_from m, true)) ms) n' /\ node_incoming n' = node_incoming n /\ node_outgoing n' = node_outgoing n).
Proof.
  induction ms as [|m ms IH]; intros l n n' outs Ht Hy Hok H C Hl; cbn [map n_run n_run_ok] in *.
  - injection H as <- _. rewrite app_nil_r. auto.
  - apply bind_ok in H. destruct H as ([n1 o1] & H1 & H). apply bind_ok in H. destruct H as ([n2 o2] & H2 & Hx). injection Hx as <- _.
    rewrite H1 in Hok. destruct Hok as [Hok Hok2]. inversion Hy as [|? ? Y Ys]; subst x l0.
    destruct (yes_step t id l m n n1 o1 C Hl Hok Y H1) as [[L T]|(C1 & I1 & O1)].
    + left. exact (lead_run t ms n1 n2 o2 Ht Ys H2 L T).
    + destruct (IH (l ++ [(m_from m, true)]) n1 n2 o2 Ht Ys Hok2 H2 C1) as [G|(G & G1 & G2)].
      { intros i b X. apply in_app_or in X. destruct X as [X|[X|[]]]; [exact (Hl _ _ X)|]. injection X as _ <-. reflexivity. }
      { left; exact G. }
      right. rewrite <- app_assoc in G. split; [exact G|]. split; congruence.
Qed.

(** C78: an election takes one exchange of messages.  A node started a campaign for the term of
    [n1]; its request reached [voters], each willing and none with a more up-to-date log, and
    their answers ([answers]) came back, in any order and possibly with the same voter twice.  If the
    node and [voters] form a majority of both halves of its configuration, the node now leads that term. *)
Theorem C78_one_round_trip n o n1 out1 voters answers n2 outs :
  node_at n -> nop_ok o n -> (forall cc, o <> NApplyCC cc) -> n_step o n = Ok (n1, out1) -> campaigns RCandidate n n1 ->
  Forall2 (answered_by n1) voters answers ->
  n_run_ok (map NStep answers) n1 -> n_run (map NStep answers) n1 = Ok (n2, outs) ->
  majority (node_incoming n1) (backs n1 voters) -> majority (node_outgoing n1) (backs n1 voters) ->
  node_role n2 = RLeader /\ node_term n2 = node_term n1.
Proof.
  intros Ha Hok1 Hcc H1 Hc Hv Hok H M1 M2. assert (Hx : candidacy RCandidate) by (left; auto).
  pose proof (node_at_dinv _ Ha) as D. pose proof (proj1 (n_step_dinv _ _ _ _ Hok1 H1 D)) as D1.
  pose proof (campaigns_fresh RCandidate o n n1 out1 Hx Hok1 D Hcc H1 Hc) as F.
  pose proof (fresh_candidate RCandidate n n1 Hx D1 (n_step_tok _ _ _ _ (proj1 Hok1) H1 (node_at_tok _ Ha)) F) as C1.
  change (r_term (rn_raft n1)) with (node_term n1) in C1. pose proof (cd_id _ _ _ _ _ C1) as Id.
  change (node_id n1 = node_id n) in Id. change (r_id (rn_raft n)) with (node_id n) in C1. rewrite <- Id in C1.
  assert (Ht : 0 < node_term n1) by (destruct Hc as [_ Hc]; lia).
  assert (Hy : Forall (yes (node_term n1)) answers /\ map m_from answers = voters).
  { clear - Hv. induction Hv as [|j a voters answers A Hv [IH1 IH2]]; [auto|]. destruct (answered_yes _ _ _ A) as (Y & J & _). split; [constructor; auto|]. cbn. congruence. }
  destruct Hy as [Hy Hm].
  destruct (yes_run (node_term n1) (node_id n1) answers [] n1 n2 outs Ht Hy Hok H C1) as [G|(G & I & O)]; [intros ? ? []|exact G|].
  exfalso. pose proof (cd_open _ _ _ _ _ G) as P. pose proof (cd_agree _ _ _ _ _ G) as A. cbn [app] in A.
  assert (W : elects n2 (first_vote ((node_id n1, true) :: map (fun m => (m_from m, true)) answers))).
  { assert (B : forall j, backs n1 voters j = voted_yes (first_vote ((node_id n1, true) :: map (fun m => (m_from m, true)) answers)) j).
    { intros j. unfold voted_yes. rewrite first_true.
      - unfold backs. rewrite <- Hm. cbn [existsb fst]. rewrite (N.eqb_sym (node_id n1) j). destruct (j =? node_id n1); cbn [orb]; [reflexivity|].
        clear. induction answers as [|a l IH]; [reflexivity|]. cbn. rewrite (N.eqb_sym (m_from a) j). destruct (j =? m_from a); cbn; auto.
      - intros i b [X|X]; [injection X as _ <-; reflexivity|]. apply in_map_iff in X. destruct X as (a & X & _). injection X as _ <-. reflexivity. }
    split; [rewrite I|rewrite O]; eapply majority_agree; try eassumption; intros; apply B. }
  apply (verdict_elects n2 _ _ A) in W. congruence.
Qed.
End Props.

(** A concrete case: node 1 of the group 1, 2, 3 campaigns, node 2 gets the request it sent and
    answers, and node 1 gets the answer. *)
Definition ex_trip (v n n1 : rawnode) : bool :=
  role_eqb (node_role n1) RCandidate && (node_term n <? node_term n1) &&
  match find (fun m => m_to m =? 2) (pending n1) with
  | Some req =>
      mtype_eqb (m_type req) MsgVote && (m_from req =? node_id n1) && (m_to req =? 2) && (m_term req =? node_term n1) &&
      (m_index req =? node_last n1) && nop_okb (NStep req) v && (node_id v =? 2) && (node_term v <? node_term n1) && (node_lead v =? 0) &&
      (node_last v <=? m_index req) &&
      match log_term (node_last n1) (r_log (rn_raft n1)), log_term (node_last v) (r_log (rn_raft v)) with
      | Ok (SOk t), Ok (SOk t') => (t =? m_logterm req) && (t' =? m_logterm req) | _, _ => false end &&
      match @n_step ex_env (NStep req) v with
      | Ok (v', _) =>
          match pending v, pending v' with
          | [], [a] => @n_run_okb ex_env [NStep a] n1 && match @n_run ex_env [NStep a] n1 with Ok (n2, _) => role_eqb (node_role n2) RLeader | _ => false end
          | _, _ => false
          end
      | _ => false
      end
  | _ => false
  end.
Lemma ex_trip_ok v n n1 : @made ex_env (ex_cfg 2) v -> ex_trip v n n1 = true -> @campaigns RCandidate n n1 /\
  exists a n2 outs, @answered_by ex_env n1 2 a /\ @n_run_ok ex_env [NStep a] n1 /\ @n_run ex_env [NStep a] n1 = Ok (n2, outs) /\ node_role n2 = RLeader.
Proof.
  unfold ex_trip. intros Mv H. repeat (apply andb_prop in H; destruct H as [H ?H]).
  destruct (find _ _) as [req|] eqn:Hf; [|discriminate].
  match goal with X : (_ && _) = true |- _ => rename X into G end.
  repeat (apply andb_prop in G; destruct G as [G ?G]).
  repeat match goal with X : (_ =? _) = true |- _ => apply N.eqb_eq in X | X : (_ <? _) = true |- _ => apply N.ltb_lt in X | X : (_ <=? _) = true |- _ => apply N.leb_le in X end.
  split; [split; [destruct (node_role n1); try discriminate; reflexivity|assumption]|].
  destruct (@n_step ex_env (NStep req) v) as [[v' out]| | |] eqn:Hs; try discriminate.
  destruct (pending v) as [|? ?] eqn:P0; try discriminate. destruct (pending v') as [|a [|? ?]] eqn:P1; try discriminate.
  match goal with X : n_run_okb _ _ && _ = true |- _ => apply andb_prop in X; destruct X as [X1 X2] end.
  destruct (@n_run ex_env [NStep a] n1) as [[n2 outs]| | |] eqn:Hr; [|discriminate|discriminate|discriminate].
  match goal with X : match log_term _ _ with _ => _ end = true |- _ => rename X into L end.
  destruct (log_term (node_last n1) _) as [[t|]| | |] eqn:L1; try discriminate.
  destruct (log_term (node_last v) _) as [[t'|]| | |] eqn:L2; try discriminate.
  apply andb_prop in L. destruct L as [La Lb]. apply N.eqb_eq in La, Lb. subst t t'.
  exists a, n2, outs. split; [|split; [apply n_run_okb_ok; exact X1|split; [exact Hr|destruct (node_role n2); try discriminate; reflexivity]]].
  constructor. exists (ex_cfg 2), v, v', out, req, (m_logterm req).
  split; [exact Mv|].
  split; [assumption|]. split; [repeat split; auto; apply mtype_eqb_eq; assumption|]. split; [apply nop_okb_ok; assumption|]. split; [exact Hs|].
  split; [rewrite P0, P1; reflexivity|]. split; [left; assumption|]. split; [auto|]. split; [exact L2|]. right. auto.
Qed.
Definition ex_majb (c : list N) (p : N -> bool) : bool := match c with [] => true | _ => nlen c <? 2 * count p c end.
Lemma ex_trip_case (v : rawnode) (n n1 : rawnode) out : @made ex_env (ex_cfg 2) v -> @node_at ex_env n -> nop_ok NCampaign n -> @n_step ex_env NCampaign n = Ok (n1, out) ->
  ex_trip v n n1 && ex_majb (node_incoming n1) (backs n1 [2]) &&
      ex_majb (node_outgoing n1) (backs n1 [2]) = true ->
  exists n n1 out a n2 outs, @node_at ex_env n /\ nop_ok NCampaign n /\ @n_step ex_env NCampaign n = Ok (n1, out) /\ campaigns RCandidate n n1 /\
  Forall2 (@answered_by ex_env n1) [2] [a] /\ @n_run_ok ex_env (map NStep [a]) n1 /\ @n_run ex_env (map NStep [a]) n1 = Ok (n2, outs) /\
  majority (node_incoming n1) (backs n1 [2]) /\ majority (node_outgoing n1) (backs n1 [2]) /\ node_role n2 = RLeader.
Proof.
  intros Mv H1 H2 H3 H4. apply andb_prop in H4. destruct H4 as [H4 H6]. apply andb_prop in H4. destruct H4 as [H4 H5].
  destruct (ex_trip_ok _ _ _ Mv H4) as (C & a & n2 & outs & A & B & R & L). exists n, n1, out, a, n2, outs.
  assert (M : forall c, ex_majb c (backs n1 [2]) = true -> majority c (backs n1 [2])).
  { intros [|x c] X; [left; auto|right; apply N.ltb_lt; exact X]. }
  split; [exact H1|]. split; [exact H2|]. split; [exact H3|]. split; [exact C|]. split; [constructor; [exact A|constructor]|].
  split; [exact B|]. split; [exact R|]. split; [apply M; exact H5|]. split; [apply M; exact H6|exact L].
Qed.
Example C78_example : exists n n1 out a n2 outs, @node_at ex_env n /\ nop_ok NCampaign n /\ @n_step ex_env NCampaign n = Ok (n1, out) /\ campaigns RCandidate n n1 /\
  Forall2 (@answered_by ex_env n1) [2] [a] /\ @n_run_ok ex_env (map NStep [a]) n1 /\ @n_run ex_env (map NStep [a]) n1 = Ok (n2, outs) /\
  majority (node_incoming n1) (backs n1 [2]) /\ majority (node_outgoing n1) (backs n1 [2]) /\ node_role n2 = RLeader.
Proof.
  assert (B : match @rn_new ex_env (ex_cfg 2) ex_tape, @rn_new ex_env (ex_cfg 1) ex_tape with
    | Ok v, Ok n => match @n_step ex_env NCampaign n with
        | Ok (n1, _) => ex_trip v n n1 && ex_majb (node_incoming n1) (backs n1 [2]) && ex_majb (node_outgoing n1) (backs n1 [2]) | _ => false end
    | _, _ => false end = true) by (vm_compute; reflexivity).
  assert (Mk : forall id n, @rn_new ex_env (ex_cfg id) ex_tape = Ok n -> @made ex_env (ex_cfg id) n).
  { intros id n H. exists ex_tape, ex_storage, n, [], []. split; [reflexivity|]. split; [apply storage_okb_ok; vm_compute; reflexivity|].
    split; [exact H|]. split; [exact Logic.I|reflexivity]. }
  generalize (Mk 1), (Mk 2). revert B. generalize (@rn_new ex_env (ex_cfg 2) ex_tape), (@rn_new ex_env (ex_cfg 1) ex_tape).
  intros rv rn B M1 M2. destruct rv as [v| | |]; [|discriminate B..]. destruct rn as [n| | |]; [|discriminate B..].
  destruct (@n_step ex_env NCampaign n) as [[n1 out]| | |] eqn:Hs; [|discriminate B..].
  refine (ex_trip_case v n n1 out (M2 _ eq_refl) (made_at _ _ (M1 _ eq_refl)) _ Hs B). split; exact Logic.I.
Qed.
