(** Read requests at one node, seen against an earlier moment of the cluster: the terms [T1], the
    contexts registered [R1], the facts [F1] and the contexts issued [A1] at that moment. *)
From Verif Require Import Prelude Types M_Util M_Quorum M_Inflights M_Progress M_Tracker.
From Verif Require Import M_Storage M_Unstable M_Log M_ReadOnly M_ConfPb M_ConfChange M_Raft M_RawNode.
From Coq Require Import Permutation.
From Verif Require Import Spec_ReadOnly Sys_ReadOnly P_ReadOnly P_Inflights Spec_Log P_Lists P_Log P_Frame P_Prim Sys_Node P_Node P_Fields P_NodeRun P_Read P_ReadQ P_ReadRun A_Proto.

Section RRead.
Context {E : Env}.
Variables (T1 : N -> N) (R1 : N -> list string) (F1 : list fact) (A1 : string -> Prop).
Hypothesis RA : forall i c, In c (R1 i) -> A1 c.

Definition goodi (i : N) : Prop := forall t C, In (FCom t C) F1 -> nlen C <= i.
Definition idxok (t i : N) : Prop := forall t' C, In (FCom t' C) F1 -> t' <= t -> nlen C <= i.

(** One entry with a context that was issued. *)
Definition one (I : string -> Prop) (m : msg) : Prop := exists e, m_entries m = [e] /\ I (e_data e).
Definition mok (regs : N -> list string) (I : string -> Prop) (m : msg) : Prop :=
  match m_type m with
  | MsgHeartbeat => m_ctx m = EmptyString \/ In (m_ctx m) (regs (m_from m))
  | MsgHeartbeatResp => m_ctx m = EmptyString \/ (In (m_ctx m) (regs (m_to m)) /\ (In (m_ctx m) (R1 (m_to m)) \/ T1 (m_from m) <= m_term m))
  | MsgReadIndex => one I m
  | MsgReadIndexResp => one I m /\ (A1 (ctx0 m) \/ goodi (m_index m))
  | _ => True
  end.
Definition rok (I : string -> Prop) (x : readstate) : Prop := I (rs_ctx x) /\ (A1 (rs_ctx x) \/ goodi (rs_index x)).

(** A request taken up after the moment. *)
Definition fresh (id t : N) (x : rreq) : Prop :=
  ~ In (rq_ctx x) (R1 id) /\ idxok t (rq_index x) /\ forall v b, mget v (rq_acks x) = Some b -> T1 v <= t.
Fixpoint qgood (id t : N) (q : list rreq) : Prop :=
  match q with [] => True | x :: b => (In (rq_ctx x) (R1 id) \/ Forall (fresh id t) (x :: b)) /\ qgood id t b end.
Definition pok (I : string -> Prop) (p : msg * N) : Prop := one I (fst p) /\ (A1 (ctx0 (fst p)) \/ goodi (snd p)).

Record nok (regs : N -> list string) (asked : list string) (I : string -> Prop) (h : list msg) (r : raft) : Prop := {
  nk_opt : ro_option (r_ro r) = RoSafe;
  nk_nd : NoDup (regs (r_id r) ++ List.map ctx0 (h ++ r_pend_reads r));
  nk_ask : incl (regs (r_id r) ++ List.map ctx0 (h ++ r_pend_reads r)) asked;
  nk_old : incl (R1 (r_id r)) (regs (r_id r));
  nk_one : forall m, In m (h ++ r_pend_reads r) -> one I m;
  nk_iss : forall c, In c (regs (r_id r)) -> I c;
  nk_q : exists q, ro_rel (r_ro r) q /\ (r_state r <> RLeader -> q = []) /\ incl (List.map rq_ctx q) (regs (r_id r)) /\
     (forall x, In x q -> one I (rq_msg x) /\ ctx0 (rq_msg x) = rq_ctx x) /\ qgood (r_id r) (r_term r) q;
  nk_rs : forall x, In x (r_read_states r) -> rok I x;
  nk_ms : Forall (mok regs I) (r_msgs r)
}.

Lemma qgood_ack id t from c q : (~ In c (R1 id) -> In c (List.map rq_ctx q) -> T1 from <= t) -> qgood id t q -> qgood id t (acked_q from c q).
Proof.
  intros Hf. assert (K : forall q', incl (List.map rq_ctx q') (List.map rq_ctx q) -> qgood id t q' -> qgood id t (acked_q from c q')).
  { assert (F : forall x, In (rq_ctx x) (List.map rq_ctx q) -> fresh id t x -> fresh id t (if String.eqb (rq_ctx x) c then add_ack from x else x)).
    { intros x Hx (H1 & H2 & H3). destruct (String.eqb_spec (rq_ctx x) c) as [Ec|]; [|split; auto]. split; [auto|]. split; [auto|]. cbn. intros v b Hv. rewrite mget_mset in Hv.
      destruct (N.eqb_spec v from) as [->|]; eauto. apply Hf; congruence. }
    induction q' as [|x b IH]; cbn [acked_q List.map qgood]; auto. intros Hi [H1 H2]. split; [|apply IH; auto; intros y Hy; apply Hi; right; auto].
    destruct H1 as [H1|H1]; [left; destruct (String.eqb _ _); auto|right].
    change (Forall (fresh id t) (List.map (fun x => if String.eqb (rq_ctx x) c then add_ack from x else x) (x :: b))). apply Forall_forall. intros y Hy. apply in_map_iff in Hy.
    destruct Hy as (z & <- & Hz). rewrite Forall_forall in H1. apply F; auto. apply Hi. change (In (rq_ctx z) (List.map rq_ctx (x :: b))). apply in_map. auto. }
  apply K. apply incl_refl.
Qed.
Lemma qgood_reg id t q x : qgood id t q -> fresh id t x -> qgood id t (q ++ [x]).
Proof.
  intros H Hx. induction q as [|y b IH]; cbn [app qgood]; [split; auto; right; auto|]. destruct H as [[H1|H1] H2]; split; auto.
  right. change (y :: b ++ [x]) with ((y :: b) ++ [x]). apply Forall_app; auto.
Qed.
Lemma qgood_after id t c q : qgood id t q -> qgood id t (after c q).
Proof. induction q as [|x b IH]; cbn; auto. intros [_ H]. destruct (String.eqb _ _); auto. Qed.
Lemma qgood_upto id t c q : qgood id t q -> In c (List.map rq_ctx q) ->
  ((forall v b, mget v (ack_of c q) = Some b -> T1 v <= t) -> forall t' C, In (FCom t' C) F1 -> t' <= t) ->
  forall x, In x (upto c q) -> A1 (rq_ctx x) \/ goodi (rq_index x).
Proof.
  intros H Hc Hq x Hx. induction q as [|y b IH]; [destruct Hc|]. cbn [qgood] in H. destruct H as [H1 H2].
  assert (G : A1 (rq_ctx y) \/ goodi (rq_index y)).
  { destruct H1 as [H1|H1]; [left; eapply RA; eauto|right]. rewrite Forall_forall in H1.
    assert (Ht : forall t' C, In (FCom t' C) F1 -> t' <= t).
    { apply Hq. intros v bb Hv. unfold ack_of in Hv. destruct (find _ (y :: b)) as [z|] eqn:Y; [|discriminate]. apply find_some in Y. destruct Y as [Y1 _].
      destruct (H1 z Y1) as (_ & _ & Z). eauto. }
    intros t' C HC. destruct (H1 y (or_introl eq_refl)) as (_ & Z & _). eauto. }
  cbn in Hx. destruct (String.eqb (rq_ctx y) c) eqn:Ey.
  - destruct Hx as [<-|[]]. auto.
  - destruct Hx as [<-|Hx]; auto. destruct Hc as [Hc|Hc]; [rewrite Hc, String.eqb_refl in Ey; discriminate|]. apply IH; auto.
    unfold ack_of in *. cbn [find] in Hq. rewrite Ey in Hq. auto.
Qed.

Lemma one_mono (I J : string -> Prop) m : (forall c, I c -> J c) -> one I m -> one J m.
Proof. intros H (e & H1 & H2). exists e. auto. Qed.
Lemma mok_mono regs regs' (I J : string -> Prop) m : (forall i, incl (regs i) (regs' i)) -> (forall c, I c -> J c) -> mok regs I m -> mok regs' J m.
Proof.
  intros H1 H2. unfold mok. destruct (m_type m); auto; try apply one_mono; auto.
  - intros [H|H]; auto. right. apply H1. auto.
  - intros [H|[H K]]; auto. right. split; auto. apply H1. auto.
  - intros [H K]. split; auto. eapply one_mono; eauto.
Qed.
Lemma nok_mono regs regs' asked asked' (I J : string -> Prop) h r : (forall i, incl (regs i) (regs' i)) -> regs' (r_id r) = regs (r_id r) -> incl asked asked' ->
  (forall c, I c -> J c) -> nok regs asked I h r -> nok regs' asked' J h r.
Proof.
  intros H1 H2 H3 H4 []. constructor; rewrite ?H2; auto.
  - eapply incl_tran; eauto.
  - intros m Hm. eapply one_mono; eauto.
  - destruct nk_q0 as (q & Q1 & Q2 & Q3 & Q4 & Q5). exists q. split; auto. split; auto. split; auto. split; auto. intros x Hx. destruct (Q4 x Hx). split; auto. eapply one_mono; eauto.
  - intros x Hx. destruct (nk_rs0 x Hx). split; auto.
  - eapply Forall_impl; [|exact nk_ms0]. intros m. apply mok_mono; auto.
Qed.

(** Work that has nothing to do with requests. *)
Lemma plainm_mok regs I m : plainm m -> mok regs I m.
Proof. unfold plainm, mok. destruct (m_type m); tauto. Qed.
Lemma qa_nok regs asked I r r' : qa r r' -> nok regs asked I [] r -> nok regs asked I [] r'.
Proof.
  intros Q []. assert (Eid : r_id r' = r_id r) by (unfold r_id; rewrite (qa_cfg _ _ Q); auto).
  constructor; rewrite ?Eid, ?(qa_pend _ _ Q), ?(qa_reads _ _ Q); auto.
  - rewrite (qa_opt _ _ Q). auto.
  - destruct nk_q0 as (q & Q1 & Q2 & Q3 & Q4 & Q5). destruct (qa_opt_q _ _ _ Q Q1 Q2) as (q' & B1 & B2 & [->|[-> B3]]).
    + exists []. split; auto. split; auto. split; [intros c []|]. split; [intros x []|exact Logic.I].
    + exists q. rewrite B3. auto.
  - destruct (qa_msgs _ _ Q) as (ms & -> & M). apply Forall_app. split; auto. eapply Forall_impl; [|exact M]. intros. apply plainm_mok; auto.
Qed.

Section Rb.
Variables (asked : list string) (I : string -> Prop) (im : msg).
Hypothesis Hwf : wf_in im.
Variable r0 : raft.
Hypothesis Hto : m_type im = MsgHeartbeatResp -> m_to im = r_id r0.
Hypothesis HT : T1 (r_id r0) <= r_term r0.
Hypothesis Hown : r_state r0 = RLeader -> committed_entry_in_current_term r0 = Ok true -> idxok (r_term r0) (l_committed (r_log r0)).
Hypothesis Hsing : r_state r0 = RLeader -> trk_is_singleton (r_trk r0) = true -> goodi (l_committed (r_log r0)).
Hypothesis Hquo : forall acks, r_state r0 = RLeader -> tc_vote_result (t_config (r_trk r0)) acks = VoteWon -> (forall v b, mget v acks = Some b -> T1 v <= r_term r0) ->
  forall t' C, In (FCom t' C) F1 -> t' <= r_term r0.

Definition rext (id : N) (regs regs' : N -> list string) : Prop := (forall i, incl (regs i) (regs' i)) /\ forall i, i <> id -> regs' i = regs i.
Lemma rext_refl id regs : rext id regs regs. Proof. split; intros; auto. apply incl_refl. Qed.
Lemma rext_trans id a b c : rext id a b -> rext id b c -> rext id a c.
Proof. intros [A B] [C D]. split; [intros; eapply incl_tran; eauto|]. intros. rewrite D, B; auto. Qed.

Lemma one_ctx m : one I m -> entry0_data m = Ok (ctx0 m).
Proof. intros (e & He & _). unfold entry0_data, ctx0. rewrite He. auto. Qed.
Lemma one_I m : one I m -> I (ctx0 m).
Proof. intros (e & He & H). unfold ctx0. rewrite He. auto. Qed.

(** Messages and read states a step adds. *)
Lemma outs_ok regs regs' h r h' r' l : same r r0 -> mok regs I im -> (forall i, incl (regs i) (regs' i)) -> nok regs asked I h r ->
  (forall p, In p l -> pok I p) -> rb im h r h' r' l ->
  (forall x, In x (r_read_states r') -> rok I x) /\ Forall (mok regs' I) (r_msgs r').
Proof.
  intros S M Hr [_ _ _ _ _ _ (q & Q1 & Q2 & Q3 & Q4 & Q5) K8 K9] Hl H.
  assert (Eid : r_id r = r_id r0) by (unfold r_id; rewrite (sm_cfg _ _ S); auto).
  destruct (rb_out _ _ _ _ _ _ H) as (ms & rs & A1' & A2 & A3 & A4). rewrite A1', A2. split.
  - intros x Hx. apply in_app_or in Hx. destruct Hx as [Hx|Hx]; auto. destruct (A4 x Hx) as [(_ & p & P1 & P2 & P3 & e & es & P4 & P5)|(_ & P1 & e & P2 & ->)].
    + destruct (Hl p P1) as [(e' & X1 & X2) X3]. rewrite X1 in P4. injection P4 as <- <-. unfold ctx0 in X3. rewrite X1, P5 in X3. unfold rok. rewrite P3, <- P5. rewrite P5 in *. auto.
    + unfold mok in M. rewrite P1 in M. destruct M as [(e' & X1 & X2) X3]. rewrite X1 in P2. injection P2 as ->. unfold ctx0 in X3. rewrite X1 in X3. split; auto.
  - apply Forall_app. split; [eapply Forall_impl; [|exact K9]; intros m; apply mok_mono; auto|]. apply Forall_forall. intros x Hx.
    destruct (A3 x Hx) as [P|[(P1 & c & (P2 & P3 & P4 & P5) & P6)|[(P1 & P2 & ->)|[(P1 & P2 & P3 & ->)|(P1 & p & P2 & P3 & P4 & P5 & P6 & P7 & P8 & P9)]]]].
    + apply plainm_mok; auto.
    + unfold mok. rewrite P2, P3, P4. destruct P6 as [P6|P6]; [auto|right]. apply Hr, Q3. destruct Q1 as [R1' R2' R3' R4'].
      destruct P6 as [P6|P6]; [rewrite <- R2'; auto|]. rewrite R1' in P6. clear - P6. induction q as [|y q IH]; cbn in *; [congruence|]. destruct (String.eqb_spec c (rq_ctx y)); auto.
    + unfold mok in *. rewrite P1 in M. cbn. destruct M as [M|M]; [auto|right]. split; [apply Hr; auto|]. right. rewrite Eid, <- (sm_term _ _ S). exact HT.
    + unfold mok in M. rewrite P1 in M. assert (X : m_type (outm r (set_m_to (r_lead r) im)) = MsgReadIndex /\ m_entries (outm r (set_m_to (r_lead r) im)) = m_entries im).
      { clear - P1. destruct im as [ty a b c d e f g hh i j k]. unfold outm. cbn in *. subst ty. destruct (b =? 0); auto. }
      destruct X as [X1 X2]. unfold mok, one. rewrite X1, X2. exact M.
    + unfold mok. rewrite P3. destruct (Hl p P2) as [(e' & X1 & X2) X3]. unfold one, ctx0. rewrite P5, X1, P4. unfold ctx0 in X3. rewrite X1 in X3. split; eauto.
Qed.

Definition step_reg (id : N) (c : string) (regs : N -> list string) : N -> list string := fun i => if i =? id then regs i ++ [c] else regs i.

Lemma rb_nok regs h r h' r' l : same r r0 -> mok regs I im -> nok regs asked I h r -> (forall m, In m h -> True) -> rb im h r h' r' l ->
  exists regs', rext (r_id r0) regs regs' /\ nok regs' asked I h' r' /\ forall p, In p l -> pok I p.
Proof.
  intros S M K _ H. pose proof (rb_same _ _ _ _ _ _ H) as S'.
  assert (Eid : r_id r = r_id r0) by (unfold r_id; rewrite (sm_cfg _ _ S); auto).
  assert (Eid' : r_id r' = r_id r) by (unfold r_id; rewrite (sm_cfg _ _ S'); auto).
  assert (Et : r_term r' = r_term r) by apply S'. assert (Es : r_state r' = r_state r) by apply S'.
  assert (Ht0 : r_term r0 = r_term r) by apply S. assert (Hs0 : r_state r0 = r_state r) by apply S. assert (Hl0 : r_log r0 = r_log r) by apply S.
  (* enough: the requests *)
  assert (FIN : forall regs', rext (r_id r0) regs regs' -> (forall p, In p l -> pok I p) ->
     NoDup (regs' (r_id r) ++ List.map ctx0 (h' ++ r_pend_reads r')) -> incl (regs' (r_id r) ++ List.map ctx0 (h' ++ r_pend_reads r')) asked ->
     (forall m, In m (h' ++ r_pend_reads r') -> one I m) -> (forall c, In c (regs' (r_id r)) -> I c) ->
     (exists q, ro_rel (r_ro r') q /\ (r_state r <> RLeader -> q = []) /\ incl (List.map rq_ctx q) (regs' (r_id r)) /\
        (forall x, In x q -> one I (rq_msg x) /\ ctx0 (rq_msg x) = rq_ctx x) /\ qgood (r_id r) (r_term r) q) ->
     exists regs', rext (r_id r0) regs regs' /\ nok regs' asked I h' r' /\ forall p, In p l -> pok I p).
  { intros regs' X1 X2 X3 X4 X5 X6 X7. exists regs'. split; auto. split; auto.
    destruct (outs_ok regs regs' h r h' r' l S M (proj1 X1) K X2 H) as [Y1 Y2].
    constructor; rewrite ?Eid', ?Es, ?Et; auto.
    - rewrite <- (nk_opt _ _ _ _ _ K). apply S'.
    - eapply incl_tran; [apply (nk_old _ _ _ _ _ K)|apply X1]. }
  destruct K as [K1 K2 K3 K4 K5 K6 (q & Q1 & Q2 & Q3 & Q4 & Q5) K8 K9].
  assert (SAME : h' = h -> r_pend_reads r' = r_pend_reads r -> r_ro r' = r_ro r -> l = [] ->
     exists regs', rext (r_id r0) regs regs' /\ nok regs' asked I h' r' /\ forall p, In p l -> pok I p).
  { intros X1 X2 X3 X4. subst h' l. apply (FIN regs); auto using rext_refl; rewrite ?X2, ?X3; auto; [intros p []|]. exists q. auto. }
  assert (DROP : forall m hh, h = m :: hh -> NoDup (regs (r_id r) ++ List.map ctx0 (hh ++ r_pend_reads r)) /\
     incl (regs (r_id r) ++ List.map ctx0 (hh ++ r_pend_reads r)) asked /\ ~ In (ctx0 m) (regs (r_id r)) /\ one I m /\ (forall x, In x (hh ++ r_pend_reads r) -> one I x)).
  { intros m hh ->. cbn in K2, K3, K5. split; [eapply NoDup_remove_1; eauto|]. split; [intros c Hc; apply K3; apply in_app_or in Hc; apply in_or_app; cbn; tauto|].
    split; [|split; auto]. intros X. apply NoDup_remove_2 in K2. apply K2, in_or_app. auto. }
  destruct H.
  - apply SAME; auto; [apply H|apply H].
  - apply SAME; auto.
  - apply SAME; auto.
  - apply SAME; auto.
  - apply SAME; auto.
  - (* Pend *) cbn in K2, K3, K5. assert (P : Permutation (regs (r_id r) ++ ctx0 im :: List.map ctx0 (r_pend_reads r)) (regs (r_id r) ++ List.map ctx0 ([] ++ r_pend_reads r ++ [im]))).
    { apply Permutation_app_head. cbn [app]. rewrite map_app. cbn. apply Permutation_cons_append. }
    apply (FIN regs); auto using rext_refl; cbn [r_pend_reads set_r_pend_reads].
    + intros p [].
    + eapply Permutation_NoDup; eauto.
    + intros c Hc. apply K3. eapply Permutation_in; [apply Permutation_sym; exact P|exact Hc].
    + intros m Hm. apply K5. cbn [app] in Hm. apply in_app_or in Hm. destruct Hm as [Hm|[<-|[]]]; auto.
    + exists q. auto.
  - (* Unpend *) cbn in K2, K3, K5. apply (FIN regs); auto using rext_refl; cbn [r_pend_reads set_r_pend_reads]; rewrite ?app_nil_r; auto; [intros p []|]. exists q. auto.
  - (* Add *) destruct (DROP m h eq_refl) as (D1 & D2 & D3 & D4 & D5). pose proof (one_ctx m D4) as Ed. rewrite H2 in Ed. injection Ed as ->.
    assert (Hn : ~ In (ctx0 m) (List.map rq_ctx q)) by (intros X; apply D3, Q3; auto).
    destruct D4 as (e & Em & Ie).
    destruct (ro_step_ok (RoAdd (l_committed (r_log r)) m) (r_ro r) q _ _ Q1 ltac:(cbn; rewrite Em; discriminate) eq_refl) as (rx & X1 & X2 & X3).
    cbn in X1. rewrite H3 in X1. cbn in X1. injection X1 as <-. cbn in X2. fold (ctx0 m) in X2.
    destruct (has_ctx (ctx0 m) q) eqn:Hh; [exfalso; apply Hn, has_ctx_In; auto|]. cbn [fst] in X2. destruct (recv_ack_q _ _ _ _ _ _ X2 H4) as (Y1 & _ & _).
    unfold acked_q in Y1. rewrite map_app in Y1. fold (acked_q (r_id r) (ctx0 m) q) in Y1. rewrite acked_none in Y1 by auto. cbn in Y1. rewrite String.eqb_refl in Y1.
    set (x := add_ack (r_id r) (mkRReq (ctx0 m) m (l_committed (r_log r)) [])) in *.
    assert (Er : step_reg (r_id r) (ctx0 m) regs (r_id r) = regs (r_id r) ++ [ctx0 m]) by (unfold step_reg; rewrite N.eqb_refl; auto).
    apply (FIN (step_reg (r_id r) (ctx0 m) regs)).
    + split; unfold step_reg; intros i; rewrite <- ?Eid; [destruct (_ =? _); [apply incl_appl, incl_refl|apply incl_refl]|]. intros Hi. destruct (N.eqb_spec i (r_id r)); congruence.
    + intros p [].
    + rewrite Er, <- app_assoc. exact K2.
    + rewrite Er, <- app_assoc. exact K3.
    + exact D5.
    + rewrite Er. intros c Hc. apply in_app_or in Hc. destruct Hc as [Hc|[<-|[]]]; auto. unfold ctx0. rewrite Em. auto.
    + exists (q ++ [x]). split; [exact Y1|]. split; [intros X; contradiction|]. rewrite Er, map_app. split; [apply incl_app; [apply incl_appl; auto|apply incl_appr, incl_refl]|]. split.
      * intros y Hy. apply in_app_or in Hy. destruct Hy as [Hy|[<-|[]]]; auto. cbn. split; auto. exists e. auto.
      * apply qgood_reg; auto. split; [cbn; intros X; apply D3, K4; auto|]. split.
        -- cbn. rewrite <- Hl0, <- Ht0. apply Hown; [congruence|]. rewrite (com_same _ _ S). auto.
        -- cbn. intros v b Hv. destruct (N.eqb_spec v (r_id r)) as [->|]; [|discriminate]. rewrite Eid, <- Ht0. auto.
  - (* Now *) destruct (DROP m h eq_refl) as (D1 & D2 & D3 & D4 & D5). destruct (response_same _ _ _ _ H1) as (_ & E1 & E2).
    apply (FIN regs); auto using rext_refl; rewrite ?E1, ?E2; auto; [|exists q; auto].
    intros p [<-|[]]. split; auto. right. cbn [snd]. rewrite <- Hl0. apply Hsing; [congruence|]. destruct H0 as [H0|[H0 _]]; [|congruence].
    unfold trk_is_singleton in *. assert (Ec : t_config (r_trk r0) = t_config (r_trk r)) by apply S. rewrite Ec. auto.
  - (* Ack *) destruct (recv_ack_q _ _ _ _ _ _ Q1 H4) as (Y1 & _ & _).
    apply (FIN regs); auto using rext_refl; [intros p []|]. exists (acked_q (m_from im) (m_ctx im) q). split; [exact Y1|]. split; [intros X; contradiction|].
    rewrite acked_q_ctx. split; auto. split; [|apply qgood_ack; auto].
    + intros x Hx. unfold acked_q in Hx. apply in_map_iff in Hx. destruct Hx as (y & <- & Hy). destruct (String.eqb _ _); auto. cbn. auto.
    + intros X _. unfold mok in M. rewrite H0 in M. destruct M as [M|[_ [M|M]]]; [contradiction|rewrite (Hto H0), <- Eid in M; contradiction|]. rewrite (H1 Hwf) in M. auto.
  - (* Confirm *) destruct (recv_ack_q _ _ _ _ _ _ Q1 H4) as (Y1 & Y2 & _). subst a.
    assert (E1 : r_ro r' = ro').
    { apply (mfold_inv _ (fun r r' => r_ro r' = r_ro r)) in H7; auto; [intros; congruence|]. intros x s s' _ Hs. eapply response_same; eauto. }
    assert (E2 : r_pend_reads r' = r_pend_reads r).
    { apply (mfold_inv _ (fun r r' => r_pend_reads r' = r_pend_reads r)) in H7; auto; [intros; congruence|]. intros x s s' _ Hs. eapply response_same; eauto. }
    set (w := acked_q (m_from im) (m_ctx im) q) in *.
    assert (W1 : List.map rq_ctx w = List.map rq_ctx q) by apply acked_q_ctx.
    assert (W2 : forall x, In x w -> one I (rq_msg x) /\ ctx0 (rq_msg x) = rq_ctx x).
    { intros x Hx. unfold w, acked_q in Hx. apply in_map_iff in Hx. destruct Hx as (y & <- & Hy). destruct (String.eqb _ _); auto. cbn. auto. }
    assert (W3 : qgood (r_id r) (r_term r) w).
    { apply qgood_ack; auto. intros X _. unfold mok in M. rewrite H0 in M. destruct M as [M|[_ [M|M]]]; [contradiction|rewrite (Hto H0), <- Eid in M; contradiction|]. rewrite (H1 Hwf) in M. auto. }
    destruct (advance_q _ _ _ _ _ Y1 H6) as [(Z1 & Z2 & Z3)|(Z1 & Z2 & Z3)]; subst rss.
    + apply (FIN regs); auto using rext_refl; rewrite ?E2; auto.
      * rewrite map_map. intros p Hp. apply in_map_iff in Hp. destruct Hp as (x & <- & Hx). cbn [released ris_req ris_index]. unfold pok. cbn [fst snd].
        assert (Hw : In x w). { rewrite (upto_after (m_ctx im) w) by (apply has_ctx_In; auto). apply in_or_app. auto. }
        destruct (W2 x Hw) as [O1 O2]. split; auto. rewrite O2. eapply qgood_upto; [exact W3|exact Z1| |exact Hx].
        intros Ha. rewrite <- Ht0 in *. eapply Hquo; [congruence| |exact Ha]. assert (Ec : t_config (r_trk r0) = t_config (r_trk r)) by apply S. rewrite Ec. auto.
      * rewrite E1. exists (after (m_ctx im) w). split; auto. split; [intros X; contradiction|]. split.
        { intros c Hc. apply in_map_iff in Hc. destruct Hc as (x & <- & Hx). apply after_incl in Hx. apply Q3. rewrite <- W1. apply in_map. auto. }
        split; [intros x Hx; apply W2; eapply after_incl; eauto|apply qgood_after; auto].
    + apply (FIN regs); auto using rext_refl; rewrite ?E2; auto; [intros p []|]. rewrite E1. exists w. rewrite W1. split; auto. split; [intros X; contradiction|auto].
Qed.
Lemma rbs_nok h r h' r' l : rbs im h r h' r' l -> forall regs, same r' r0 -> mok regs I im -> nok regs asked I h r ->
  exists regs', rext (r_id r0) regs regs' /\ nok regs' asked I h' r'.
Proof.
  induction 1 as [|h r h1 r1 l h2 r2 l' H1 H2 IH]; intros regs S M K; [exists regs; split; auto using rext_refl|].
  assert (S1 : same r1 r0) by (eapply same_trans; [eapply rbs_same; eauto|exact S]).
  destruct (rb_nok regs h r h1 r1 l (same_trans _ _ _ (rb_same _ _ _ _ _ _ H1) S1) M K) as (regs1 & A1' & A2 & _); auto.
  destruct (IH regs1 S) as (regs2 & B1 & B2); auto; [eapply mok_mono; [apply A1'| |exact M]; auto|]. exists regs2. split; auto. eapply rext_trans; eauto.
Qed.
End Rb.

(** One plain call. *)
Lemma rcall_nok regs asked asked' (I J : string -> Prop) im r r' l :
  (forall c, I c -> J c) -> incl asked asked' -> wf_in im -> (m_type im = MsgHeartbeatResp -> m_to im = r_id r') -> T1 (r_id r') <= r_term r' ->
  (r_state r' = RLeader -> committed_entry_in_current_term r' = Ok true -> idxok (r_term r') (l_committed (r_log r'))) ->
  (r_state r' = RLeader -> trk_is_singleton (r_trk r') = true -> goodi (l_committed (r_log r'))) ->
  (forall acks, r_state r' = RLeader -> tc_vote_result (t_config (r_trk r')) acks = VoteWon -> (forall v b, mget v acks = Some b -> T1 v <= r_term r') ->
     forall t' C, In (FCom t' C) F1 -> t' <= r_term r') ->
  mok regs J im -> nok regs asked I [] r -> rcall im r r' l ->
  (m_type im = MsgReadIndex -> r_state r' = RLeader -> ~ In (ctx0 im) asked /\ In (ctx0 im) asked') ->
  exists regs', rext (r_id r') regs regs' /\ nok regs' asked' J [] r'.
Proof.
  intros HI Hi Hw Hto HT Ho Hs Hq M K (r1 & h & Q & T & R) Hask. apply (qa_nok _ _ _ _ _ Q) in K. pose proof (rbs_same _ _ _ _ _ _ R) as S.
  assert (Eid : r_id r1 = r_id r') by (unfold r_id; rewrite (sm_cfg _ _ S); auto).
  eapply (rbs_nok asked' J im Hw r' Hto HT Ho Hs Hq); [exact R|apply same_refl|exact M|].
  destruct T as [->|(-> & T1' & T2)]; [eapply nok_mono; [..|exact K]; auto; intros; apply incl_refl|].
  destruct (Hask T1') as [N1 N2]; [rewrite (sm_state _ _ S); auto|].
  assert (K' : nok regs asked' J [] r1) by (eapply nok_mono; [..|exact K]; auto; intros; apply incl_refl).
  destruct K'. constructor; auto; cbn [app List.map].
  - cbn in nk_nd0. apply NoDup_Add with (a := ctx0 im) (l := regs (r_id r1) ++ List.map ctx0 (r_pend_reads r1)); [apply Add_app|]. split; auto.
    intros X. apply N1. apply (nk_ask _ _ _ _ _ K). exact X.
  - intros c Hc. apply in_app_or in Hc. destruct Hc as [Hc|[<-|Hc]]; auto; apply nk_ask0; apply in_or_app; auto.
  - intros m [<-|Hm]; [|apply nk_one0; auto]. unfold mok in M. rewrite T1' in M. auto.
Qed.
(** The other calls. *)
Lemma qn_nok regs asked I r r' : qn r r' -> nok regs asked I [] r -> nok regs asked I [] r'.
Proof.
  intros [] []. assert (Eid : r_id r' = r_id r) by (unfold r_id; congruence).
  constructor; rewrite ?Eid, ?qn_ro, ?qn_pend, ?qn_term, ?qn_state; auto.
  - destruct qn_reads as [->| ->]; auto. intros x [].
  - destruct qn_msgs as [->| ->]; auto.
Qed.
End RRead.
