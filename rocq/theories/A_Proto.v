(** The protocol the cluster proofs refine to.  This file is proof infrastructure: it is not a model
    of any part of the code (the code's models are the M_ files, and P_Sim relates the two).

    A node is a term, a vote, a log (all entries from index 1, whether or not the node still stores
    them), a commit index and a role.  The network is a growing list of facts. *)
From Verif Require Import Prelude Types P_Lists.

Definition pre {A} (a b : list A) : Prop := ntake (nlen a) b = a.
Lemma pre_len {A} (a b : list A) : pre a b -> nlen a <= nlen b.
Proof. intros H. unfold pre in H. apply (f_equal nlen) in H. rewrite nlen_ntake in H. lia. Qed.
Lemma pre_refl {A} (a : list A) : pre a a. Proof. apply ntake_all. lia. Qed.
Lemma pre_nil {A} (a : list A) : pre [] a. Proof. apply ntake_0. Qed.
Lemma pre_take_eq {A} m (a b : list A) : pre a b -> m <= nlen a -> ntake m a = ntake m b.
Proof. intros H Hm. unfold pre in H. rewrite <- H, ntake_ntake. f_equal. lia. Qed.
Lemma pre_ntake {A} k (b : list A) : pre (ntake k b) b.
Proof. unfold pre. rewrite nlen_ntake. destruct (N.le_ge_cases k (nlen b)); [f_equal; lia|]. rewrite N.min_r by lia. rewrite !ntake_all by lia. auto. Qed.
Lemma pre_trans {A} (a b c : list A) : pre a b -> pre b c -> pre a c.
Proof. intros H1 H2. unfold pre. rewrite <- (pre_take_eq _ _ _ H2); [exact H1|]. apply pre_len; auto. Qed.
Lemma pre_app {A} (a c : list A) : pre a (a ++ c).
Proof. unfold pre. rewrite ntake_app, N.sub_diag, ntake_0, app_nil_r. apply ntake_all. lia. Qed.
Lemma pre_in_take {A} m (a b : list A) : pre a b -> nlen a <= m -> pre a (ntake m b).
Proof. intros H Hm. unfold pre. rewrite ntake_ntake, N.min_l by lia. exact H. Qed.
Lemma pre_cmp {A} (a b x : list A) : pre a x -> pre b x -> nlen a <= nlen b -> pre a b.
Proof. intros Ha Hb Hl. unfold pre in *. rewrite <- Hb, ntake_ntake, N.min_l by lia. exact Ha. Qed.
Lemma pre_eq {A} (a b : list A) : pre a b -> nlen b <= nlen a -> a = b.
Proof. intros H Hl. unfold pre in H. rewrite ntake_all in H by lia. auto. Qed.
Lemma nnth_ntake' {A} m (l : list A) k : nnth (ntake m l) k = if k <? m then nnth l k else None.
Proof.
  unfold nnth, ntake. destruct (N.ltb_spec k m).
  - rewrite <- (firstn_skipn (N.to_nat m) l) at 2. destruct (Nat.lt_ge_cases (N.to_nat k) (List.length (firstn (N.to_nat m) l))).
    + rewrite nth_error_app1; auto.
    + rewrite nth_error_app2 by auto. rewrite firstn_length in *. rewrite (proj2 (nth_error_None _ _)) by (rewrite firstn_length; lia).
      symmetry. apply nth_error_None. rewrite skipn_length. lia.
  - apply nth_error_None. rewrite firstn_length. lia.
Qed.
Lemma pre_nnth {A} (a b : list A) i e : pre a b -> nnth a i = Some e -> nnth b i = Some e.
Proof. intros H He. unfold pre in H. rewrite <- H, nnth_ntake' in He. destruct (_ <? _); [auto|discriminate]. Qed.
Lemma pre_take {A} k (a b : list A) : pre a b -> pre (ntake k a) b.
Proof. intros H. eapply pre_trans; [apply pre_ntake|exact H]. Qed.
Lemma nnth_some_len {A} (l : list A) k e : nnth l k = Some e -> k < nlen l.
Proof. unfold nnth, nlen. intros H. assert (X : nth_error l (N.to_nat k) <> None) by congruence. apply nth_error_Some in X. lia. Qed.
Lemma nnth_len_some {A} (l : list A) k : k < nlen l -> exists e, nnth l k = Some e.
Proof. unfold nnth, nlen. intros H. destruct (nth_error l (N.to_nat k)) eqn:E; [eauto|]. apply nth_error_None in E. lia. Qed.

Definition lastterm (l : list entry) : N := match rev l with e :: _ => e_term e | [] => 0 end.
Lemma lastterm_nth l : l <> [] -> exists e, nnth l (nlen l - 1) = Some e /\ lastterm l = e_term e.
Proof.
  intros H. unfold lastterm. destruct (rev l) as [|e t] eqn:R.
  - apply (f_equal (@rev _)) in R. rewrite rev_involutive in R. cbn in R. congruence.
  - exists e. split; auto. apply rev_last in R. rewrite R. unfold nnth. rewrite nlen_app, nlen_cons, nlen_nil.
    rewrite nth_error_app2 by (unfold nlen; lia). replace (N.to_nat _ - List.length (rev t))%nat with 0%nat by (unfold nlen; lia). reflexivity.
Qed.
Lemma lastterm_take l k e : nnth l k = Some e -> lastterm (ntake (k + 1) l) = e_term e.
Proof.
  intros H. pose proof (nnth_some_len _ _ _ H) as Hl. destruct (lastterm_nth (ntake (k + 1) l)) as (e' & E1 & E2).
  - intros X. apply (f_equal nlen) in X. rewrite nlen_ntake, nlen_nil in X. lia.
  - rewrite E2. rewrite nlen_ntake in E1. replace (N.min (k + 1) (nlen l) - 1) with k in E1 by lia. rewrite nnth_ntake' in E1.
    destruct (_ <? _); congruence.
Qed.

Definition tsorted (l : list entry) : Prop := forall i j a b, i <= j -> nnth l i = Some a -> nnth l j = Some b -> e_term a <= e_term b.
Definition tbound (t : N) (l : list entry) : Prop := forall i e, nnth l i = Some e -> e_term e <= t.
Lemma tsorted_pre a b : pre a b -> tsorted b -> tsorted a.
Proof. intros H S i j x y Hij Hx Hy. eapply S; [exact Hij| |]; eapply pre_nnth; eauto. Qed.
Lemma tbound_pre t a b : pre a b -> tbound t b -> tbound t a.
Proof. intros H S i x Hx. eapply S. eapply pre_nnth; eauto. Qed.
Lemma tbound_last l : tsorted l -> tbound (lastterm l) l.
Proof.
  intros S i e H. destruct (lastterm_nth l) as (x & X1 & ->); [intros ->; unfold nnth in H; destruct (N.to_nat i); discriminate|].
  eapply S; [|exact H|exact X1]. apply nnth_some_len in H. lia.
Qed.
Lemma lastterm_bound t l : tbound t l -> lastterm l <= t.
Proof.
  intros H. destruct l as [|e l']; [cbn; lia|]. destruct (lastterm_nth (e :: l')) as (x & X1 & ->); [discriminate|]. eapply H; eauto.
Qed.
Lemma lastterm_pre a b : pre a b -> tsorted b -> lastterm a <= lastterm b.
Proof. intros H S. apply lastterm_bound. eapply tbound_pre; [exact H|apply tbound_last; auto]. Qed.
Lemma tbound_le t t' l : t <= t' -> tbound t l -> tbound t' l.
Proof. intros H B i e He. specialize (B i e He). lia. Qed.
Lemma tsorted_app l es t : tsorted l -> tbound t l -> (forall e, In e es -> e_term e = t) -> tsorted (l ++ es).
Proof.
  intros S B H i j a b Hij Ha Hb. unfold nnth in *.
  destruct (Nat.lt_ge_cases (N.to_nat j) (List.length l)) as [Hj|Hj].
  - rewrite nth_error_app1 in Ha, Hb by lia. eapply S; eauto.
  - rewrite nth_error_app2 in Hb by lia. apply nth_error_In in Hb. rewrite (H _ Hb).
    destruct (Nat.lt_ge_cases (N.to_nat i) (List.length l)) as [Hi|Hi].
    + rewrite nth_error_app1 in Ha by lia. eapply B; eauto.
    + rewrite nth_error_app2 in Ha by lia. apply nth_error_In in Ha. rewrite (H _ Ha). lia.
Qed.
Lemma tbound_app l es t : tbound t l -> (forall e, In e es -> e_term e = t) -> tbound t (l ++ es).
Proof.
  intros B H i e He. unfold nnth in He. destruct (Nat.lt_ge_cases (N.to_nat i) (List.length l)) as [Hi|Hi].
  - rewrite nth_error_app1 in He by lia. eapply B; eauto.
  - rewrite nth_error_app2 in He by lia. apply nth_error_In in He. rewrite (H _ He). lia.
Qed.

(** log [a] is at least as up to date as [b] *)
Definition utd (a b : list entry) : Prop := lastterm b < lastterm a \/ (lastterm a = lastterm b /\ nlen b <= nlen a).

Inductive arole := AFollow | ACand | ALead.
Record anode := mkA { an_term : N; an_vote : N; an_log : list entry; an_com : N; an_role : arole }.

Inductive fact :=
| FReq (t c : N) (L : list entry)     (* c stands for t with log L *)
| FVote (t v c : N) (L : list entry)  (* v, with log L, gave its vote of t to c *)
| FLead (t l : N) (L : list entry)    (* l leads t and has log L *)
| FAck (t v : N) (L : list entry)     (* v holds L, a prefix of the log of the leader of t *)
| FCom (t : N) (L : list entry).      (* the leader of t has committed L *)

Section Proto.
(** The quorums: any two share a member. *)
Variable quorum : list N -> Prop.
Hypothesis quorum_meet : forall a b, quorum a -> quorum b -> exists v, In v a /\ In v b.
(** Who may stand for election. *)
Variable vot : N -> Prop.

Inductive lstep (n : N) : anode * list fact -> anode * list fact -> Prop :=
| LTerm s F t : an_term s < t -> lstep n (s, F) (mkA t 0 (an_log s) (an_com s) AFollow, F)
| LDown s F : lstep n (s, F) (mkA (an_term s) (an_vote s) (an_log s) (an_com s) AFollow, F)
| LCamp s F : n <> 0 -> vot n ->
    lstep n (s, F) (mkA (an_term s + 1) n (an_log s) (an_com s) ACand,
                    FVote (an_term s + 1) n n (an_log s) :: FReq (an_term s + 1) n (an_log s) :: F)
| LGrant s F c Lc : c <> 0 -> In (FReq (an_term s) c Lc) F -> an_vote s = 0 -> utd Lc (an_log s) ->
    lstep n (s, F) (mkA (an_term s) c (an_log s) (an_com s) (an_role s), FVote (an_term s) n c (an_log s) :: F)
| LWin s F S e : an_role s = ACand -> quorum S -> (forall v, In v S -> exists L, In (FVote (an_term s) v n L) F) -> e_term e = an_term s ->
    lstep n (s, F) (mkA (an_term s) (an_vote s) (an_log s ++ [e]) (an_com s) ALead,
                    FAck (an_term s) n (an_log s ++ [e]) :: FLead (an_term s) n (an_log s ++ [e]) :: F)
| LProp s F es : an_role s = ALead -> (forall e, In e es -> e_term e = an_term s) ->
    lstep n (s, F) (mkA (an_term s) (an_vote s) (an_log s ++ es) (an_com s) ALead,
                    FAck (an_term s) n (an_log s ++ es) :: FLead (an_term s) n (an_log s ++ es) :: F)
| LCommit s F k S : an_role s = ALead -> an_com s <= k <= nlen (an_log s) -> lastterm (ntake k (an_log s)) = an_term s -> quorum S ->
    (forall v, In v S -> exists L, In (FAck (an_term s) v L) F /\ k <= nlen L) ->
    lstep n (s, F) (mkA (an_term s) (an_vote s) (an_log s) k ALead, FCom (an_term s) (ntake k (an_log s)) :: F)
| LKeep s F l L m : In (FLead (an_term s) l L) F -> m <= nlen L -> m <= nlen (an_log s) -> ntake m (an_log s) = ntake m L ->
    lstep n (s, F) (s, FAck (an_term s) n (ntake m L) :: F)
| LTake s F l L m : an_role s <> ALead -> In (FLead (an_term s) l L) F -> m <= nlen L -> ntake m (an_log s) <> ntake m L ->
    lstep n (s, F) (mkA (an_term s) (an_vote s) (ntake m L) (an_com s) AFollow, FAck (an_term s) n (ntake m L) :: F)
| LLearn s F k t C : an_com s <= k <= nlen (an_log s) -> In (FCom t C) F -> t <= an_term s -> pre (ntake k (an_log s)) C ->
    lstep n (s, F) (mkA (an_term s) (an_vote s) (an_log s) k (an_role s), F).

Inductive lsteps (n : N) : anode * list fact -> anode * list fact -> Prop :=
| LsNil a : lsteps n a a
| LsCons a b c : lstep n a b -> lsteps n b c -> lsteps n a c.
Lemma lsteps_trans n a b c : lsteps n a b -> lsteps n b c -> lsteps n a c.
Proof. induction 1; auto. intros. econstructor; eauto. Qed.
Lemma lsteps_one n a b : lstep n a b -> lsteps n a b.
Proof. intros. econstructor; [eauto|constructor]. Qed.

(** Facts are only added. *)
Lemma lstep_grow n s F s' F' : lstep n (s, F) (s', F') -> exists O, F' = O ++ F.
Proof.
  intros H. inversion H; subst; try (exists []; reflexivity).
  - eexists [_; _]; reflexivity.
  - eexists [_]; reflexivity.
  - eexists [_; _]; reflexivity.
  - eexists [_; _]; reflexivity.
  - eexists [_]; reflexivity.
  - eexists [_]; reflexivity.
  - eexists [_]; reflexivity.
Qed.
(** More facts do not disable a step. *)
Lemma lstep_mono n s F s' O G : lstep n (s, F) (s', O ++ F) -> incl F G -> lstep n (s, G) (s', O ++ G).
Proof.
  intros H Hi. remember (s, F) as a eqn:Ea. remember (s', O ++ F) as b eqn:Eb.
  destruct H; inversion Ea; subst; inversion Eb; subst;
  match goal with
  | H : ?X = ?O ++ ?X |- _ => assert (O = []) by (destruct O as [|f O']; auto; apply (f_equal (@List.length _)) in H; cbn in H; rewrite app_length in H; lia)
  | H : ?f :: ?X = ?O ++ ?X |- _ => assert (O = [f]) by (change (f :: X) with ([f] ++ X) in H; apply app_inv_tail in H; auto)
  | H : ?f :: ?g :: ?X = ?O ++ ?X |- _ => assert (O = [f; g]) by (change (f :: g :: X) with ([f; g] ++ X) in H; apply app_inv_tail in H; auto)
  end; subst O; cbn [app].
  - constructor; auto.
  - constructor.
  - constructor; auto.
  - econstructor; eauto.
  - eapply LWin; eauto. intros v Hv. match goal with H : forall v, In v S -> _ |- _ => destruct (H v Hv) as [L HL] end. eauto.
  - constructor; auto.
  - eapply LCommit; eauto. intros v Hv. match goal with H : forall v, In v S -> _ |- _ => destruct (H v Hv) as (L & HL & Hk) end. eauto.
  - eapply LKeep; eauto.
  - eapply LTake; eauto.
  - eapply LLearn; eauto.
Qed.
Lemma lsteps_mono n s F s' F' G : lsteps n (s, F) (s', F') -> incl F G -> exists O, F' = O ++ F /\ lsteps n (s, G) (s', O ++ G).
Proof.
  intros H. remember (s, F) as a eqn:Ea. remember (s', F') as b eqn:Eb. revert s F G s' F' Ea Eb.
  induction H as [a|a b c H Hs IH]; intros s F G s' F' Ea Eb Hi.
  - rewrite Ea in Eb. inversion Eb; subst. exists []. split; auto. constructor.
  - subst a c. destruct b as [s1 F1]. destruct (lstep_grow _ _ _ _ _ H) as [O1 ->].
    pose proof (lstep_mono _ _ _ _ _ G H Hi) as H1.
    destruct (IH s1 (O1 ++ F) (O1 ++ G) s' F' eq_refl eq_refl) as (O2 & E2 & H2).
    { intros x Hx. apply in_app_or in Hx. apply in_or_app. destruct Hx; auto. }
    exists (O2 ++ O1). split; [rewrite E2, app_assoc; auto|]. econstructor; [exact H1|]. rewrite <- app_assoc. exact H2.
Qed.

(** * The invariant *)
(** Every leader strictly between the two terms has [C]. *)
Definition carried (F : list fact) (t : N) (C : list entry) (t' : N) : Prop :=
  forall u l L, In (FLead u l L) F -> t < u < t' -> pre C L.
Definition good (F : list fact) (X : list entry) : Prop :=
  forall i e, nnth X i = Some e -> exists l L, In (FLead (e_term e) l L) F /\ ntake (i + 1) L = ntake (i + 1) X /\ i < nlen L.
(** [v]'s log at its vote in [T] has what [v] acknowledged before [T]. *)
Definition kept (F : list fact) (T v : N) (Lv : list entry) : Prop :=
  forall t L C, In (FAck t v L) F -> t < T -> pre C L -> carried F t C T -> pre C Lv.
Definition elected (F : list fact) (T l : N) (L : list entry) : Prop :=
  exists Lc S, In (FReq T l Lc) F /\ pre Lc L /\ quorum S /\
    forall v, In v S -> exists Lv, In (FVote T v l Lv) F /\ utd Lc Lv /\ kept F T v Lv.

Variable t0 : N.
Variable L0 : list entry.

Record ginv (g : N -> anode) (F : list fact) : Prop := {
  (* logs *)
  gi_good : forall n, good F (an_log (g n));
  gi_sort : forall n, tsorted (an_log (g n));
  gi_bnd : forall n, tbound (an_term (g n)) (an_log (g n));
  gi_com : forall n, an_com (g n) <= nlen (an_log (g n)) /\
             exists t C, In (FCom t C) F /\ t <= an_term (g n) /\ pre (ntake (an_com (g n)) (an_log (g n))) C;
  gi_t0 : forall n, t0 <= an_term (g n);
  (* candidates *)
  gi_req : forall t c L, In (FReq t c L) F -> t0 < t <= an_term (g c) /\ good F L /\ tsorted L /\ (forall i e, nnth L i = Some e -> e_term e < t);
  gi_req1 : forall t c L L', In (FReq t c L) F -> In (FReq t c L') F -> L = L';
  gi_cand : forall n, an_role (g n) = ACand -> In (FReq (an_term (g n)) n (an_log (g n))) F /\ forall L, ~ In (FLead (an_term (g n)) n L) F;
  (* votes *)
  gi_vote : forall t v c L, In (FVote t v c L) F -> c <> 0 /\ t <= an_term (g v) /\ (t = an_term (g v) -> an_vote (g v) = c) /\
              good F L /\ tsorted L /\ exists Lc, In (FReq t c Lc) F /\ utd Lc L;
  gi_vote1 : forall t v c c' L L', In (FVote t v c L) F -> In (FVote t v c' L') F -> c = c';
  gi_kept : forall t v c L, In (FVote t v c L) F -> (forall l M, ~ In (FLead t l M) F) -> kept F t v L;
  (* leaders *)
  gi_lead : forall t l L, In (FLead t l L) F -> good F L /\ tsorted L /\ tbound t L /\
              ((t = t0 /\ l = 0) \/ (t0 < t /\ t <= an_term (g l) /\ elected F t l L));
  gi_lead1 : forall t l l' L L', In (FLead t l L) F -> In (FLead t l' L') F -> l = l' /\ (pre L L' \/ pre L' L);
  gi_top : forall n, an_role (g n) = ALead -> t0 < an_term (g n) /\ In (FLead (an_term (g n)) n (an_log (g n))) F /\
              forall l L, In (FLead (an_term (g n)) l L) F -> pre L (an_log (g n));
  (* acknowledgements *)
  gi_ack : forall t v L, In (FAck t v L) F -> t <= an_term (g v) /\ exists l M, In (FLead t l M) F /\ pre L M;
  gi_ret : forall t v L C, In (FAck t v L) F -> pre C L -> carried F t C (an_term (g v) + 1) -> pre C (an_log (g v));
  (* commitment *)
  gi_fcom : forall t C, In (FCom t C) F -> lastterm C = t /\ (exists l L, In (FLead t l L) F /\ pre C L) /\
              exists S, quorum S /\ forall v, In v S -> exists L, In (FAck t v L) F /\ pre C L;
  gi_lc : forall t C t' l L, In (FCom t C) F -> In (FLead t' l L) F -> t < t' -> pre C L
}.

Definition upd (g : N -> anode) (n : N) (s : anode) : N -> anode := fun k => if k =? n then s else g k.
Lemma upd_same g n s : upd g n s n = s. Proof. unfold upd. rewrite N.eqb_refl. auto. Qed.
Lemma upd_other g n s k : k <> n -> upd g n s k = g k. Proof. unfold upd. intros H. destruct (N.eqb_spec k n); congruence. Qed.

(** * Consequences *)
Lemma good_pre F a b : pre a b -> good F b -> good F a.
Proof.
  intros H G i e He. destruct (G i e) as (l & L & H1 & H2 & H3); [eapply pre_nnth; eauto|]. exists l, L. split; auto. split; auto.
  rewrite H2. symmetry. apply pre_take_eq; auto. apply nnth_some_len in He. lia.
Qed.
Lemma good_mono F G X : incl F G -> good F X -> good G X.
Proof. intros Hi H i e He. destruct (H i e He) as (l & L & H1 & H2). exists l, L. split; auto. Qed.
Lemma carried_anti F G t C T : incl F G -> carried G t C T -> carried F t C T.
Proof. intros Hi H u l L Hl. apply H with (l := l). auto. Qed.

Lemma lead_agree g F i t l l' L L' : ginv g F -> In (FLead t l L) F -> In (FLead t l' L') F -> i <= nlen L -> i <= nlen L' -> ntake i L = ntake i L'.
Proof.
  intros G H1 H2 Hi Hi'. destruct (gi_lead1 _ _ G _ _ _ _ _ H1 H2) as [_ [P|P]]; [apply pre_take_eq; auto|symmetry; apply pre_take_eq; auto].
Qed.
(** Log matching. *)
Lemma matching g F X Y i a b : ginv g F -> good F X -> good F Y -> nnth X i = Some a -> nnth Y i = Some b -> e_term a = e_term b ->
  ntake (i + 1) X = ntake (i + 1) Y.
Proof. clear vot.
  intros G GX GY Ha Hb E. destruct (GX _ _ Ha) as (l & L & H1 & H2 & H3). destruct (GY _ _ Hb) as (l' & L' & H1' & H2' & H3'). rewrite <- E in H1'.
  rewrite <- H2, <- H2'. eapply lead_agree; eauto; lia.
Qed.
(** A candidate elected over voters that kept [C] has [C]. *)
Lemma contains g F T l Lc S S' t C : ginv g F -> In (FReq T l Lc) F -> quorum S ->
  (forall v, In v S -> exists Lv, In (FVote T v l Lv) F /\ utd Lc Lv /\ kept F T v Lv) ->
  quorum S' -> (forall v, In v S' -> exists L, In (FAck t v L) F /\ pre C L) ->
  lastterm C = t -> tsorted C -> t < T -> carried F t C T -> pre C Lc.
Proof.
  intros G Hr HS HSv HS' HSv' Ht Hs HtT Hc.
  destruct (quorum_meet _ _ HS HS') as (v & V1 & V2). destruct (HSv v V1) as (Lv & Hv & Hu & Hk). destruct (HSv' v V2) as (La & Ha & Hp).
  assert (HC : pre C Lv) by (eapply Hk; eauto).
  destruct (gi_req _ _ G _ _ _ Hr) as (_ & Gc & Sc & Bc). destruct (gi_vote _ _ G _ _ _ _ Hv) as (_ & _ & _ & Gv & Sv & _).
  pose proof (lastterm_pre _ _ HC Sv) as Hlt. rewrite Ht in Hlt.
  destruct Hu as [Hu|[Hu1 Hu2]].
  - destruct (lastterm_nth Lc) as (e & E1 & E2); [intros ->; cbn in Hu; lia|].
    destruct (Gc _ _ E1) as (l' & L' & H1 & H2 & H3). pose proof (nnth_some_len _ _ _ E1) as Hlen.
    replace (nlen Lc - 1 + 1) with (nlen Lc) in H2 by lia.
    assert (PL : pre Lc L') by (unfold pre; rewrite H2; apply ntake_all; lia).
    assert (HTb : e_term e < T) by (eapply Bc; eauto).
    assert (PC : pre C L') by (eapply Hc; [exact H1|lia]).
    destruct (N.le_gt_cases (nlen C) (nlen Lc)) as [Hle|Hgt]; [exact (pre_cmp _ _ _ PC PL Hle)|].
    exfalso. pose proof (pre_cmp _ _ _ PL PC ltac:(lia)) as X. pose proof (pre_nnth _ _ _ _ X E1) as Y.
    pose proof (tbound_last _ Hs _ _ Y). lia.
  - destruct (N.eq_dec (nlen Lv) 0) as [Hz|Hz].
    { apply nlen_0 in Hz. subst Lv. apply pre_len in HC. rewrite nlen_nil in HC. assert (X : nlen C = 0) by lia. apply nlen_0 in X. subst C. apply pre_nil. }
    destruct (lastterm_nth Lv) as (e & E1 & E2); [intros X; subst Lv; cbn in Hz; auto|].
    destruct (lastterm_nth Lc) as (e' & E1' & E2'); [intros X; subst Lc; rewrite nlen_nil in Hu2; lia|].
    destruct (Gv _ _ E1) as (l1 & L1 & H1 & H2 & H3). destruct (Gc _ _ E1') as (l2 & L2 & H1' & H2' & H3').
    replace (nlen Lv - 1 + 1) with (nlen Lv) in H2 by lia. replace (nlen Lc - 1 + 1) with (nlen Lc) in H2' by lia.
    rewrite (ntake_all (nlen Lv) Lv) in H2 by lia. rewrite (ntake_all (nlen Lc) Lc) in H2' by lia.
    eapply pre_trans; [exact HC|]. unfold pre. rewrite <- H2', ntake_ntake, N.min_l by lia.
    assert (Et : e_term e' = e_term e) by congruence. rewrite Et in H1'.
    rewrite <- H2 at 2. eapply lead_agree; eauto; lia.
Qed.
(** State machine safety. *)
Lemma fcom_cmp g F t C t' C' : ginv g F -> In (FCom t C) F -> In (FCom t' C') F -> nlen C <= nlen C' -> pre C C'.
Proof.
  intros G H H' Hl. destruct (gi_fcom _ _ G _ _ H) as (_ & (l & L & HL & HC) & _). destruct (gi_fcom _ _ G _ _ H') as (_ & (l' & L' & HL' & HC') & _).
  destruct (N.lt_trichotomy t t') as [X|[X|X]].
  - eapply pre_cmp; [eapply gi_lc; [exact G|exact H|exact HL'|exact X]|exact HC'|exact Hl].
  - subst t'. destruct (gi_lead1 _ _ G _ _ _ _ _ HL HL') as [_ [P|P]].
    + eapply pre_cmp; [eapply pre_trans; [exact HC|exact P]|exact HC'|exact Hl].
    + eapply pre_cmp; [exact HC|eapply pre_trans; [exact HC'|exact P]|exact Hl].
  - pose proof (gi_lc _ _ G _ _ _ _ _ H' HL X) as P. eapply pre_cmp; [exact HC|exact P|exact Hl].
Qed.
(** What is committed by term [T] is comparable with the log of [T]'s leader. *)
Lemma com_lead g F t C T l L : ginv g F -> In (FCom t C) F -> In (FLead T l L) F -> t <= T -> pre C L \/ pre L C \/ exists M, In (FLead T l M) F /\ pre C M.
Proof. clear vot.
  intros G H HL Hle. destruct (N.eq_dec t T) as [->|Hne]; [|left; eapply gi_lc; eauto; lia].
  destruct (gi_fcom _ _ G _ _ H) as (_ & (l' & M & HM & HC) & _). destruct (gi_lead1 _ _ G _ _ _ _ _ HL HM) as [<- _].
  right. right. eauto.
Qed.

(** * Preservation *)
Ltac node k n := destruct (N.eqb_spec k n) as [->|?]; [rewrite ?upd_same in *|rewrite ?upd_other in * by auto]; cbn [an_term an_vote an_log an_com an_role] in *.

(** The node forgets its role, or moves to a later term. *)
Lemma ginv_down g F n t v : ginv g F -> an_term (g n) <= t -> (t = an_term (g n) -> v = an_vote (g n)) ->
  ginv (upd g n (mkA t v (an_log (g n)) (an_com (g n)) AFollow)) F.
Proof.
  intros G Ht Hv. constructor.
  - intros k. node k n; apply (gi_good _ _ G).
  - intros k. node k n; apply (gi_sort _ _ G).
  - intros k. node k n; [eapply tbound_le; [exact Ht|]|]; apply (gi_bnd _ _ G).
  - intros k. node k n; [|apply (gi_com _ _ G)]. destruct (gi_com _ _ G n) as (A & t1 & C & B1 & B2 & B3). split; auto. exists t1, C. split; auto. split; [lia|auto].
  - intros k. node k n; [pose proof (gi_t0 _ _ G n); lia|apply (gi_t0 _ _ G)].
  - intros t1 c L H. destruct (gi_req _ _ G _ _ _ H) as (A & B). split; auto. node c n; lia.
  - apply (gi_req1 _ _ G).
  - intros k. node k n; [discriminate|apply (gi_cand _ _ G)].
  - intros t1 k c L H. destruct (gi_vote _ _ G _ _ _ _ H) as (A1 & A2 & A3 & A4). split; auto. node k n; [|auto]. split; [lia|]. split; [|auto]. intros ->. rewrite Hv; [apply A3|]; lia.
  - apply (gi_vote1 _ _ G).
  - apply (gi_kept _ _ G).
  - intros t1 l L H. destruct (gi_lead _ _ G _ _ _ H) as (A1 & A2 & A3 & A4). split; auto. split; auto. split; auto. destruct A4 as [A4|(A4 & A5 & A6)]; [auto|right].
    split; auto. split; auto. node l n; lia.
  - apply (gi_lead1 _ _ G).
  - intros k. node k n; [discriminate|apply (gi_top _ _ G)].
  - intros t1 k L H. destruct (gi_ack _ _ G _ _ _ H) as (A1 & A2). split; auto. node k n; lia.
  - intros t1 k L C H HC Hc. node k n; [|eapply (gi_ret _ _ G); eauto].
    eapply (gi_ret _ _ G); eauto. intros u l M HM Hu. eapply Hc; [exact HM|]. lia.
  - apply (gi_fcom _ _ G).
  - apply (gi_lc _ _ G).
Qed.
(** Facts that add no acknowledgements of the past keep the election records. *)
Definition quiet (n T : N) (f : fact) : Prop := match f with FAck t v _ => t = T /\ v = n | _ => True end.
Lemma kept_grow F f n T t v L : quiet n T f -> (v = n -> t <= T) -> kept F t v L -> kept (f :: F) t v L.
Proof.
  intros Q Ht K t1 L1 C H1 H2 H3 H4. apply (K t1 L1 C); auto.
  - destruct H1 as [->|H1]; auto. destruct Q as [-> ->]. specialize (Ht eq_refl). lia.
  - eapply carried_anti; [|exact H4]. right; auto.
Qed.
Lemma elected_grow F f n T t l L : quiet n T f -> (forall v c M, In (FVote t v c M) F -> v = n -> t <= T) -> elected F t l L -> elected (f :: F) t l L.
Proof.
  intros Q Ht (Lc & S & H1 & H2 & H3 & H4). exists Lc, S. split; [right; auto|]. split; auto. split; auto. intros v Hv. destruct (H4 v Hv) as (Lv & A1 & A2 & A3).
  exists Lv. split; [right; auto|]. split; auto. eapply kept_grow; eauto.
Qed.
Ltac infact H := destruct H as [H|H]; [try discriminate H|].
Lemma incl_cons_r {A} (f : A) F : incl F (f :: F). Proof. right; auto. Qed.

(** A candidate announces itself. *)
Lemma ginv_req g F n : ginv g F -> t0 < an_term (g n) -> (forall L, ~ In (FReq (an_term (g n)) n L) F) ->
  (forall i e, nnth (an_log (g n)) i = Some e -> e_term e < an_term (g n)) -> ginv g (FReq (an_term (g n)) n (an_log (g n)) :: F).
Proof.
  intros G Ht Hn Hb. pose proof (incl_cons_r (FReq (an_term (g n)) n (an_log (g n))) F) as Hi. constructor.
  - intros k. eapply good_mono; [exact Hi|apply (gi_good _ _ G)].
  - apply (gi_sort _ _ G).
  - apply (gi_bnd _ _ G).
  - intros k. destruct (gi_com _ _ G k) as (A & t & C & B1 & B2). split; auto. exists t, C. split; [right; auto|auto].
  - apply (gi_t0 _ _ G).
  - intros t c L H. infact H; [injection H as <- <- <-; split; [lia|]; split; [eapply good_mono; [exact Hi|apply (gi_good _ _ G)]|split; [apply (gi_sort _ _ G)|exact Hb]]|].
    destruct (gi_req _ _ G _ _ _ H) as (A1 & A2 & A3). split; auto. split; [eapply good_mono; eauto|auto].
  - intros t c L L' H H'. infact H; infact H'.
    + congruence.
    + injection H as <- <- <-. exfalso. eapply Hn; eauto.
    + injection H' as <- <- <-. exfalso. eapply Hn; eauto.
    + eapply (gi_req1 _ _ G); eauto.
  - intros k Hk. destruct (gi_cand _ _ G k Hk) as [A B]. split; [right; auto|]. intros L H. infact H. eapply B; eauto.
  - intros t v c L H. infact H. destruct (gi_vote _ _ G _ _ _ _ H) as (A1 & A2 & A3 & A4 & A5 & Lc & A6 & A7). split; auto. split; auto. split; auto. split; [eapply good_mono; eauto|]. split; auto. exists Lc. split; [right; auto|auto].
  - intros t v c c' L L' H H'. infact H; infact H'. eapply (gi_vote1 _ _ G); eauto.
  - intros t v c L H Hl. infact H. apply (kept_grow F _ n (an_term (g n))); [exact I| |].
    + intros ->. apply (gi_vote _ _ G _ _ _ _ H).
    + eapply (gi_kept _ _ G); eauto. intros l M HM. eapply Hl; right; eauto.
  - intros t l L H. infact H. destruct (gi_lead _ _ G _ _ _ H) as (A1 & A2 & A3 & A4). split; [eapply good_mono; eauto|]. split; auto. split; auto. destruct A4 as [A4|(A4 & A5 & A6)]; [auto|right].
    split; auto. split; auto. apply (elected_grow F _ n (an_term (g n))); [exact I| |auto]. intros v c M HM ->. apply (gi_vote _ _ G _ _ _ _ HM).
  - intros t l l' L L' H H'. infact H; infact H'. eapply (gi_lead1 _ _ G); eauto.
  - intros k Hk. destruct (gi_top _ _ G k Hk) as (A1 & A2 & A3). split; auto. split; [right; auto|]. intros l L H. infact H. eapply A3; eauto.
  - intros t v L H. infact H. destruct (gi_ack _ _ G _ _ _ H) as (A1 & l & M & A2 & A3). split; auto. exists l, M. split; [right; auto|auto].
  - intros t v L C H HC Hc. infact H. eapply (gi_ret _ _ G); eauto. eapply carried_anti; eauto.
  - intros t C H. infact H. destruct (gi_fcom _ _ G _ _ H) as (A1 & (l & L & A2 & A3) & S & A4 & A5). split; auto. split; [exists l, L; split; [right; auto|auto]|].
    exists S. split; auto. intros v Hv. destruct (A5 v Hv) as (M & B1 & B2). exists M. split; [right; auto|auto].
  - intros t C t' l L H H'. infact H; infact H'. eapply (gi_lc _ _ G); eauto.
Qed.

(** A vote is given. *)
Lemma ginv_grant g F n c Lc : ginv g F -> c <> 0 -> an_vote (g n) = 0 -> In (FReq (an_term (g n)) c Lc) F -> utd Lc (an_log (g n)) ->
  ginv (upd g n (mkA (an_term (g n)) c (an_log (g n)) (an_com (g n)) (an_role (g n)))) (FVote (an_term (g n)) n c (an_log (g n)) :: F).
Proof.
  intros G Hc0 Hv Hr Hu. set (f := FVote (an_term (g n)) n c (an_log (g n))). pose proof (incl_cons_r f F) as Hi.
  assert (Hnew : forall c' L, ~ In (FVote (an_term (g n)) n c' L) F).
  { intros c' L H. destruct (gi_vote _ _ G _ _ _ _ H) as (A1 & A2 & A3 & _). specialize (A3 eq_refl). congruence. }
  constructor.
  - intros k. eapply good_mono; [exact Hi|]. node k n; apply (gi_good _ _ G).
  - intros k. node k n; apply (gi_sort _ _ G).
  - intros k. node k n; apply (gi_bnd _ _ G).
  - intros k. assert (A : an_log (upd g n (mkA (an_term (g n)) c (an_log (g n)) (an_com (g n)) (an_role (g n))) k) = an_log (g k) /\
       an_com (upd g n (mkA (an_term (g n)) c (an_log (g n)) (an_com (g n)) (an_role (g n))) k) = an_com (g k) /\
       an_term (upd g n (mkA (an_term (g n)) c (an_log (g n)) (an_com (g n)) (an_role (g n))) k) = an_term (g k)) by (node k n; auto).
    destruct A as (-> & -> & ->). destruct (gi_com _ _ G k) as (A & t & C & B1 & B2). split; auto. exists t, C. split; [right; auto|auto].
  - intros k. node k n; apply (gi_t0 _ _ G).
  - intros t k L H. infact H. destruct (gi_req _ _ G _ _ _ H) as (A1 & A2 & A3). split; [node k n; auto|]. split; [eapply good_mono; eauto|auto].
  - intros t k L L' H H'. infact H; infact H'. eapply (gi_req1 _ _ G); eauto.
  - intros k Hk. assert (Hk' : an_role (g k) = ACand) by (node k n; auto). destruct (gi_cand _ _ G k Hk') as [A B]. split; [right; node k n; auto|].
    intros L H. infact H. eapply (B L). node k n; auto.
  - intros t v c' L H. infact H.
    + injection H as <- <- <- <-. rewrite upd_same. cbn. split; auto. split; [lia|]. split; auto. split; [eapply good_mono; [exact Hi|apply (gi_good _ _ G)]|split; [apply (gi_sort _ _ G)|]].
      exists Lc. split; [right; auto|auto].
    + destruct (gi_vote _ _ G _ _ _ _ H) as (A1 & A2 & A3 & A4 & A5 & Lx & A6 & A7). split; auto. split; [node v n; auto|]. split.
      * node v n; auto. intros ->. exfalso. eapply Hnew; eauto.
      * split; [eapply good_mono; eauto|]. split; auto. exists Lx. split; [right; auto|auto].
  - intros t v c1 c2 L L' H H'. infact H; infact H'.
    + congruence.
    + injection H as <- <- <- <-. exfalso. eapply Hnew; eauto.
    + injection H' as <- <- <- <-. exfalso. eapply Hnew; eauto.
    + eapply (gi_vote1 _ _ G); eauto.
  - intros t v c' L H Hl. infact H.
    + injection H as <- <- <- <-. intros t1 L1 C H1 H2 H3 H4. infact H1. eapply (gi_ret _ _ G); eauto.
      intros u l M HM Hu'. destruct (N.eq_dec u (an_term (g n))) as [->|Hne]; [exfalso; eapply Hl; right; eauto|]. eapply H4; [right; exact HM|lia].
    + apply (kept_grow F _ n (an_term (g n))); [exact I| |].
      * intros ->. apply (gi_vote _ _ G _ _ _ _ H).
      * eapply (gi_kept _ _ G); eauto. intros l M HM. eapply Hl; right; eauto.
  - intros t l L H. infact H. destruct (gi_lead _ _ G _ _ _ H) as (A1 & A2 & A3 & A4). split; [eapply good_mono; eauto|]. split; auto. split; auto. destruct A4 as [A4|(A4 & A5 & A6)]; [auto|right].
    split; auto. split; [node l n; auto|]. apply (elected_grow F _ n (an_term (g n))); [exact I| |auto]. intros v c' M HM ->. apply (gi_vote _ _ G _ _ _ _ HM).
  - intros t l l' L L' H H'. infact H; infact H'. eapply (gi_lead1 _ _ G); eauto.
  - intros k Hk. assert (Hk' : an_role (g k) = ALead) by (node k n; auto). destruct (gi_top _ _ G k Hk') as (A1 & A2 & A3).
    node k n; (split; [auto|]; split; [right; auto|]; intros l L H; infact H; eapply A3; eauto).
  - intros t v L H. infact H. destruct (gi_ack _ _ G _ _ _ H) as (A1 & l & M & A2 & A3). split; [node v n; auto|]. exists l, M. split; [right; auto|auto].
  - intros t v L C H HC Hc. infact H. apply (carried_anti F) in Hc; [|exact Hi]. node v n; eapply (gi_ret _ _ G); eauto.
  - intros t C H. infact H. destruct (gi_fcom _ _ G _ _ H) as (A1 & (l & L & A2 & A3) & S & A4 & A5). split; auto. split; [exists l, L; split; [right; auto|auto]|].
    exists S. split; auto. intros v Hv'. destruct (A5 v Hv') as (M & B1 & B2). exists M. split; [right; auto|auto].
  - intros t C t' l L H H'. infact H; infact H'. eapply (gi_lc _ _ G); eauto.
Qed.

(** Standing for election. *)
Lemma ginv_role g F n : ginv g F -> In (FReq (an_term (g n)) n (an_log (g n))) F -> (forall L, ~ In (FLead (an_term (g n)) n L) F) ->
  ginv (upd g n (mkA (an_term (g n)) (an_vote (g n)) (an_log (g n)) (an_com (g n)) ACand)) F.
Proof.
  intros G Hr Hl. pose proof (ginv_down g F n (an_term (g n)) (an_vote (g n)) G ltac:(lia) ltac:(auto)) as G1.
  set (s := mkA (an_term (g n)) (an_vote (g n)) (an_log (g n)) (an_com (g n)) ACand).
  set (s1 := mkA (an_term (g n)) (an_vote (g n)) (an_log (g n)) (an_com (g n)) AFollow) in *.
  assert (X : forall k, an_term (upd g n s k) = an_term (upd g n s1 k) /\ an_vote (upd g n s k) = an_vote (upd g n s1 k) /\
    an_log (upd g n s k) = an_log (upd g n s1 k) /\ an_com (upd g n s k) = an_com (upd g n s1 k)) by (intros k; node k n; auto).
  assert (Xt : forall k, an_term (upd g n s k) = an_term (upd g n s1 k)) by apply X. assert (Xv : forall k, an_vote (upd g n s k) = an_vote (upd g n s1 k)) by apply X.
  assert (Xl : forall k, an_log (upd g n s k) = an_log (upd g n s1 k)) by apply X. assert (Xc : forall k, an_com (upd g n s k) = an_com (upd g n s1 k)) by apply X.
  destruct G1 as [A1 A2 A3 A4 A5 A6 A7 A8 A9 A10 A11 A12 A13 A14 A15 A16 A17 A18].
  constructor; try (intros k; rewrite ?Xt, ?Xv, ?Xl, ?Xc; auto; fail); auto.
  - intros t c L H. rewrite Xt. auto.
  - intros k Hk. node k n; [split; auto|]. destruct (gi_cand _ _ G k Hk); auto.
  - intros t v c L H. rewrite Xt, Xv. auto.
  - intros t l L H. rewrite Xt. auto.
  - intros k Hk. node k n; [discriminate|]. apply (gi_top _ _ G k Hk).
  - intros t v L H. rewrite Xt. auto.
  - intros t v L C H. rewrite Xt, Xl. apply A16. exact H.
Qed.

(** The commit index moves. *)
Lemma ginv_com g F n k t C : ginv g F -> k <= nlen (an_log (g n)) -> In (FCom t C) F -> t <= an_term (g n) -> pre (ntake k (an_log (g n))) C ->
  ginv (upd g n (mkA (an_term (g n)) (an_vote (g n)) (an_log (g n)) k (an_role (g n)))) F.
Proof.
  intros G Hk Hf Ht Hp. set (s := mkA (an_term (g n)) (an_vote (g n)) (an_log (g n)) k (an_role (g n))).
  assert (X : forall i, an_term (upd g n s i) = an_term (g i) /\ an_vote (upd g n s i) = an_vote (g i) /\
    an_log (upd g n s i) = an_log (g i) /\ an_role (upd g n s i) = an_role (g i)) by (intros i; node i n; auto).
  assert (Xt : forall i, an_term (upd g n s i) = an_term (g i)) by apply X. assert (Xv : forall i, an_vote (upd g n s i) = an_vote (g i)) by apply X.
  assert (Xl : forall i, an_log (upd g n s i) = an_log (g i)) by apply X. assert (Xr : forall i, an_role (upd g n s i) = an_role (g i)) by apply X.
  destruct G as [A1 A2 A3 A4 A5 A6 A7 A8 A9 A10 A11 A12 A13 A14 A15 A16 A17 A18].
  constructor; try (intros i; rewrite ?Xt, ?Xv, ?Xl, ?Xr; auto; fail); auto.
  - intros i. node i n; [|auto]. split; auto. exists t, C. auto.
  - intros t1 c L H. rewrite Xt. auto.
  - intros t1 v c L H. rewrite Xt, Xv. auto.
  - intros t1 l L H. rewrite Xt. auto.
  - intros t1 v L H. rewrite Xt. auto.
  - intros t1 v L C1 H. rewrite Xt, Xl. apply A16. exact H.
Qed.

(** An acknowledgement. *)
Lemma ginv_ack g F n L l M : ginv g F -> pre L (an_log (g n)) -> In (FLead (an_term (g n)) l M) F -> pre L M ->
  ginv g (FAck (an_term (g n)) n L :: F).
Proof.
  intros G Hp HM HLM. set (f := FAck (an_term (g n)) n L). pose proof (incl_cons_r f F) as Hi.
  assert (Q : quiet n (an_term (g n)) f) by (split; reflexivity). constructor.
  - intros k. eapply good_mono; [exact Hi|apply (gi_good _ _ G)].
  - apply (gi_sort _ _ G).
  - apply (gi_bnd _ _ G).
  - intros k. destruct (gi_com _ _ G k) as (A & t & C & B1 & B2). split; auto. exists t, C. split; [right; auto|auto].
  - apply (gi_t0 _ _ G).
  - intros t c X H. infact H. destruct (gi_req _ _ G _ _ _ H) as (A1 & A2 & A3). split; auto. split; [eapply good_mono; eauto|auto].
  - intros t c X L' H H'. infact H; infact H'. eapply (gi_req1 _ _ G); eauto.
  - intros k Hk. destruct (gi_cand _ _ G k Hk) as [A B]. split; [right; auto|]. intros X H. infact H. eapply B; eauto.
  - intros t v c X H. infact H. destruct (gi_vote _ _ G _ _ _ _ H) as (A1 & A2 & A3 & A4 & A5 & Lc & A6 & A7). split; auto. split; auto. split; auto. split; [eapply good_mono; eauto|]. split; auto. exists Lc. split; [right; auto|auto].
  - intros t v c c' X L' H H'. infact H; infact H'. eapply (gi_vote1 _ _ G); eauto.
  - intros t v c X H Hl. infact H. apply (kept_grow F _ n (an_term (g n))); [exact Q| |].
    + intros ->. apply (gi_vote _ _ G _ _ _ _ H).
    + eapply (gi_kept _ _ G); eauto. intros l' M' HM'. eapply Hl; right; eauto.
  - intros t l' X H. infact H. destruct (gi_lead _ _ G _ _ _ H) as (A1 & A2 & A3 & A4). split; [eapply good_mono; eauto|]. split; auto. split; auto. destruct A4 as [A4|(A4 & A5 & A6)]; [auto|right].
    split; auto. split; auto. apply (elected_grow F _ n (an_term (g n))); [exact Q| |auto]. intros v c M' HM' ->. apply (gi_vote _ _ G _ _ _ _ HM').
  - intros t l1 l' X L' H H'. infact H; infact H'. eapply (gi_lead1 _ _ G); eauto.
  - intros k Hk. destruct (gi_top _ _ G k Hk) as (A1 & A2 & A3). split; auto. split; [right; auto|]. intros l' X H. infact H. eapply A3; eauto.
  - intros t v X H. infact H.
    + injection H as <- <- <-. split; [lia|]. exists l, M. split; [right; auto|auto].
    + destruct (gi_ack _ _ G _ _ _ H) as (A1 & l' & M' & A2 & A3). split; auto. exists l', M'. split; [right; auto|auto].
  - intros t v X C H HC Hc. infact H.
    + injection H as <- <- <-. eapply pre_trans; eauto.
    + eapply (gi_ret _ _ G); eauto. eapply carried_anti; eauto.
  - intros t C H. infact H. destruct (gi_fcom _ _ G _ _ H) as (A1 & (l' & X & A2 & A3) & S & A4 & A5). split; auto. split; [exists l', X; split; [right; auto|auto]|].
    exists S. split; auto. intros v Hv. destruct (A5 v Hv) as (M' & B1 & B2). exists M'. split; [right; auto|auto].
  - intros t C t' l' X H H'. infact H; infact H'. eapply (gi_lc _ _ G); eauto.
Qed.

(** A commitment. *)
Lemma ginv_fcom g F T C l M S : ginv g F -> t0 <= T -> lastterm C = T -> In (FLead T l M) F -> pre C M -> quorum S ->
  (forall v, In v S -> exists L, In (FAck T v L) F /\ pre C L) -> ginv g (FCom T C :: F).
Proof.
  intros G H0 Hlt HM HCM HS HSv. set (f := FCom T C). pose proof (incl_cons_r f F) as Hi.
  assert (Q : forall n t, quiet n t f) by (intros; exact I).
  assert (SC : tsorted C) by (eapply tsorted_pre; [exact HCM|apply (gi_lead _ _ G _ _ _ HM)]).
  assert (LC : forall t' l' L', In (FLead t' l' L') F -> T < t' -> pre C L').
  { intros t'. induction t' as [t' IH] using (well_founded_induction N.lt_wf_0). intros l' L' HL' Ht'.
    destruct (gi_lead _ _ G _ _ _ HL') as (_ & _ & _ & [[A _]|(A1 & A2 & Lc & S' & B1 & B2 & B3 & B4)]); [lia|].
    eapply pre_trans; [|exact B2]. eapply (contains g F t' l' Lc S' S T C); eauto.
    intros u l1 L1 HL1 Hu. eapply IH; [|exact HL1|]; lia. }
  constructor.
  - intros k. eapply good_mono; [exact Hi|apply (gi_good _ _ G)].
  - apply (gi_sort _ _ G).
  - apply (gi_bnd _ _ G).
  - intros k. destruct (gi_com _ _ G k) as (A & t & C' & B1 & B2). split; auto. exists t, C'. split; [right; auto|auto].
  - apply (gi_t0 _ _ G).
  - intros t c X H. infact H. destruct (gi_req _ _ G _ _ _ H) as (A1 & A2 & A3). split; auto. split; [eapply good_mono; eauto|auto].
  - intros t c X L' H H'. infact H; infact H'. eapply (gi_req1 _ _ G); eauto.
  - intros k Hk. destruct (gi_cand _ _ G k Hk) as [A B]. split; [right; auto|]. intros X H. infact H. eapply B; eauto.
  - intros t v c X H. infact H. destruct (gi_vote _ _ G _ _ _ _ H) as (A1 & A2 & A3 & A4 & A5 & Lc & A6 & A7). split; auto. split; auto. split; auto. split; [eapply good_mono; eauto|]. split; auto. exists Lc. split; [right; auto|auto].
  - intros t v c c' X L' H H'. infact H; infact H'. eapply (gi_vote1 _ _ G); eauto.
  - intros t v c X H Hl. infact H. apply (kept_grow F _ v (an_term (g v))); [apply Q| |].
    + intros _. apply (gi_vote _ _ G _ _ _ _ H).
    + eapply (gi_kept _ _ G); eauto. intros l' M' HM'. eapply Hl; right; eauto.
  - intros t l' X H. infact H. destruct (gi_lead _ _ G _ _ _ H) as (A1 & A2 & A3 & A4). split; [eapply good_mono; eauto|]. split; auto. split; auto. destruct A4 as [A4|(A4 & A5 & A6)]; [auto|right].
    split; auto. split; auto. apply (elected_grow F _ 0 t); [apply Q| |auto]. intros; lia.
  - intros t l1 l' X L' H H'. infact H; infact H'. eapply (gi_lead1 _ _ G); eauto.
  - intros k Hk. destruct (gi_top _ _ G k Hk) as (A1 & A2 & A3). split; auto. split; [right; auto|]. intros l' X H. infact H. eapply A3; eauto.
  - intros t v X H. infact H. destruct (gi_ack _ _ G _ _ _ H) as (A1 & l' & M' & A2 & A3). split; auto. exists l', M'. split; [right; auto|auto].
  - intros t v X C' H HC Hc. infact H. eapply (gi_ret _ _ G); eauto. eapply carried_anti; eauto.
  - intros t C' H. infact H.
    + injection H as <- <-. split; auto. split; [exists l, M; split; [right; auto|auto]|]. exists S. split; auto.
      intros v Hv. destruct (HSv v Hv) as (M' & B1 & B2). exists M'. split; [right; auto|auto].
    + destruct (gi_fcom _ _ G _ _ H) as (A1 & (l' & X & A2 & A3) & S1 & A4 & A5). split; auto. split; [exists l', X; split; [right; auto|auto]|].
      exists S1. split; auto. intros v Hv. destruct (A5 v Hv) as (M' & B1 & B2). exists M'. split; [right; auto|auto].
  - intros t C' t' l' X H H' Ht. infact H'. infact H; [injection H as <- <-; eapply LC; eauto|eapply (gi_lc _ _ G); eauto].
Qed.

(** A follower's log is replaced by a prefix of the leader's. *)
Lemma take_keeps m (a P L : list entry) : pre P a -> (pre P L \/ pre L P \/ exists M, pre P M /\ (pre L M \/ pre M L)) -> m <= nlen L -> ntake m a <> ntake m L -> pre P (ntake m L).
Proof.
  intros Hp Hc Hm Hne.
  assert (X : pre P L \/ pre L P).
  { destruct Hc as [X|[X|(M & X1 & [X2|X2])]]; auto.
    - destruct (N.le_ge_cases (nlen P) (nlen L)); [left|right]; eapply pre_cmp; eauto.
    - left. eapply pre_trans; eauto. }
  destruct (N.le_gt_cases (nlen P) m) as [Hle|Hgt].
  - destruct X as [X|X]; [apply pre_in_take; auto|]. assert (Y : P = L) by (symmetry; apply pre_eq; auto; lia). subst P. apply pre_in_take; [apply pre_refl|lia].
  - exfalso. apply Hne. rewrite <- (pre_take_eq m P a) by (auto; lia). destruct X as [X|X]; [apply pre_take_eq; auto; lia|symmetry; apply pre_take_eq; auto].
Qed.
Lemma ginv_take g F n l L m : ginv g F -> In (FLead (an_term (g n)) l L) F -> m <= nlen L -> ntake m (an_log (g n)) <> ntake m L ->
  ginv (upd g n (mkA (an_term (g n)) (an_vote (g n)) (ntake m L) (an_com (g n)) AFollow)) F.
Proof.
  intros G HL Hm Hne. destruct (gi_lead _ _ G _ _ _ HL) as (G1 & G2 & G3 & _).
  assert (PL : pre (ntake m L) L) by apply pre_ntake.
  assert (KC : pre (ntake (an_com (g n)) (an_log (g n))) (ntake m L)).
  { destruct (gi_com _ _ G n) as (A & t & C & B1 & B2 & B3). apply (take_keeps m (an_log (g n))); auto; [apply pre_ntake|].
    destruct (com_lead _ _ _ _ _ _ _ G B1 HL B2) as [X|[X|(M & X1 & X2)]].
    - left. eapply pre_trans; eauto.
    - right. right. exists C. split; auto.
    - right. right. exists M. split; [eapply pre_trans; eauto|]. apply (gi_lead1 _ _ G _ _ _ _ _ HL X1). }
  constructor.
  - intros k. node k n; [eapply good_pre; eauto|apply (gi_good _ _ G)].
  - intros k. node k n; [eapply tsorted_pre; eauto|apply (gi_sort _ _ G)].
  - intros k. node k n; [eapply tbound_pre; eauto|apply (gi_bnd _ _ G)].
  - intros k. node k n; [|apply (gi_com _ _ G)]. destruct (gi_com _ _ G n) as (A & t & C & B1 & B2 & B3).
    pose proof (pre_len _ _ KC) as Hl. rewrite nlen_ntake in Hl. split; [lia|]. exists t, C. split; auto. split; auto.
    unfold pre in KC. rewrite nlen_ntake in KC. rewrite N.min_l in KC by lia. rewrite KC. auto.
  - intros k. node k n; apply (gi_t0 _ _ G).
  - intros t1 c X H. destruct (gi_req _ _ G _ _ _ H) as (A & B). split; auto. node c n; lia.
  - apply (gi_req1 _ _ G).
  - intros k. node k n; [discriminate|apply (gi_cand _ _ G)].
  - intros t1 k c X H. destruct (gi_vote _ _ G _ _ _ _ H) as (A1 & A2 & A3 & A4). split; auto. node k n; auto.
  - apply (gi_vote1 _ _ G).
  - apply (gi_kept _ _ G).
  - intros t1 l' X H. destruct (gi_lead _ _ G _ _ _ H) as (A1 & A2 & A3 & A4). split; auto. split; auto. split; auto. destruct A4 as [A4|(A4 & A5 & A6)]; [auto|right].
    split; auto. split; auto. node l' n; lia.
  - apply (gi_lead1 _ _ G).
  - intros k. node k n; [discriminate|apply (gi_top _ _ G)].
  - intros t1 k X H. destruct (gi_ack _ _ G _ _ _ H) as (A1 & A2). split; auto. node k n; lia.
  - intros t1 k X C H HC Hc. node k n; [|eapply (gi_ret _ _ G); eauto].
    pose proof (gi_ret _ _ G _ _ _ _ H HC Hc) as Y. destruct (gi_ack _ _ G _ _ _ H) as (A1 & l' & M & A2 & A3).
    apply (take_keeps m (an_log (g n))); auto. destruct (N.eq_dec t1 (an_term (g n))) as [->|Hn].
    + right. right. exists M. split; [exact (pre_trans _ _ _ HC A3)|]. apply (gi_lead1 _ _ G _ _ _ _ _ HL A2).
    + left. eapply Hc; [exact HL|lia].
  - apply (gi_fcom _ _ G).
  - apply (gi_lc _ _ G).
Qed.

(** A leader's log. *)
Lemma ginv_lead g F n es : ginv g F -> let s := g n in let T := an_term s in t0 < T ->
  (forall e, In e es -> e_term e = T) -> (forall l L, In (FLead T l L) F -> l = n /\ pre L (an_log s)) -> elected F T n (an_log s) ->
  (forall t C, In (FCom t C) F -> t < T -> pre C (an_log s)) ->
  ginv (upd g n (mkA T (an_vote s) (an_log s ++ es) (an_com s) ALead)) (FLead T n (an_log s ++ es) :: F).
Proof.
  cbv zeta. intros G H0 He Hone Hel Hcom. set (f := FLead (an_term (g n)) n (an_log (g n) ++ es)). pose proof (incl_cons_r f F) as Hi.
  assert (Q : forall k t, quiet k t f) by (intros; exact I).
  assert (PL : pre (an_log (g n)) (an_log (g n) ++ es)) by apply pre_app.
  assert (GL : good (f :: F) (an_log (g n) ++ es)).
  { intros i e Hn. destruct (N.lt_ge_cases i (nlen (an_log (g n)))) as [Hl|Hl].
    - assert (X : nnth (an_log (g n)) i = Some e). { unfold nnth in *. rewrite nth_error_app1 in Hn by (unfold nlen in Hl; lia). auto. }
      destruct (gi_good _ _ G n i e X) as (l & L & A1 & A2 & A3). exists l, L. split; [right; auto|]. split; auto.
      rewrite A2. apply pre_take_eq; auto. lia.
    - assert (X : e_term e = an_term (g n)). { apply He. unfold nnth in Hn. rewrite nth_error_app2 in Hn by (unfold nlen in Hl; lia). eapply nth_error_In; eauto. }
      rewrite X. exists n, (an_log (g n) ++ es). split; [left; reflexivity|]. split; auto. eapply nnth_some_len; eauto. }
  constructor.
  - intros k. node k n; [exact GL|]. eapply good_mono; [exact Hi|apply (gi_good _ _ G)].
  - intros k. node k n; [eapply tsorted_app; [apply (gi_sort _ _ G)|apply (gi_bnd _ _ G)|auto]|apply (gi_sort _ _ G)].
  - intros k. node k n; [apply tbound_app; [apply (gi_bnd _ _ G)|auto]|apply (gi_bnd _ _ G)].
  - intros k. node k n.
    + destruct (gi_com _ _ G n) as (A & t & C & B1 & B2 & B3). split; [rewrite nlen_app; lia|]. exists t, C. split; [right; auto|]. split; auto.
      rewrite <- (pre_take_eq _ _ _ PL); auto.
    + destruct (gi_com _ _ G k) as (A & t & C & B1 & B2). split; auto. exists t, C. split; [right; auto|auto].
  - intros k. node k n; apply (gi_t0 _ _ G).
  - intros t c X H. infact H. destruct (gi_req _ _ G _ _ _ H) as (A1 & A2 & A3). split; [node c n; auto|]. split; [eapply good_mono; eauto|auto].
  - intros t c X L' H H'. infact H; infact H'. eapply (gi_req1 _ _ G); eauto.
  - intros k Hk. node k n; [discriminate|]. destruct (gi_cand _ _ G k Hk) as [A B]. split; [right; auto|]. intros X H. infact H; [injection H as _ H _; congruence|]. eapply B; eauto.
  - intros t v c X H. infact H. destruct (gi_vote _ _ G _ _ _ _ H) as (A1 & A2 & A3 & A4 & A5 & Lc & A6 & A7). split; auto. split; [node v n; auto|]. split; [node v n; auto|].
    split; [eapply good_mono; eauto|]. split; auto. exists Lc. split; [right; auto|auto].
  - intros t v c c' X L' H H'. infact H; infact H'. eapply (gi_vote1 _ _ G); eauto.
  - intros t v c X H Hl. infact H. apply (kept_grow F _ v (an_term (g v))); [apply Q| |].
    + intros _. apply (gi_vote _ _ G _ _ _ _ H).
    + eapply (gi_kept _ _ G); eauto. intros l' M' HM'. eapply Hl; right; eauto.
  - intros t l' X H. infact H.
    + injection H as <- <- <-. split; [exact GL|]. split; [eapply tsorted_app; [apply (gi_sort _ _ G)|apply (gi_bnd _ _ G)|auto]|].
      split; [apply tbound_app; [apply (gi_bnd _ _ G)|auto]|]. right. split; auto. split; [rewrite upd_same; cbn; lia|].
      apply (elected_grow F _ 0 (an_term (g n))); [apply Q|intros; lia|]. destruct Hel as (Lc & S & B1 & B2 & B3). exists Lc, S. split; auto. split; auto. eapply pre_trans; eauto.
    + destruct (gi_lead _ _ G _ _ _ H) as (A1 & A2 & A3 & A4). split; [eapply good_mono; eauto|]. split; auto. split; auto. destruct A4 as [A4|(A4 & A5 & A6)]; [auto|right].
      split; auto. split; [node l' n; auto|]. apply (elected_grow F _ 0 t); [apply Q|intros; lia|auto].
  - intros t l1 l' X L' H H'. infact H; infact H'.
    + injection H as <- <- <-. injection H' as <- <-. split; auto. left. apply pre_refl.
    + injection H as <- <- <-. destruct (Hone _ _ H') as [-> P]. split; auto. right. eapply pre_trans; eauto.
    + injection H' as <- <- <-. destruct (Hone _ _ H) as [-> P]. split; auto. left. eapply pre_trans; eauto.
    + eapply (gi_lead1 _ _ G); eauto.
  - intros k Hk. node k n.
    + split; auto. split; [left; reflexivity|]. intros l X H. infact H; [injection H as <- <-; apply pre_refl|]. destruct (Hone _ _ H) as [_ P]. eapply pre_trans; eauto.
    + destruct (gi_top _ _ G k Hk) as (A1 & A2 & A3). split; auto. split; [right; auto|]. intros l X H. infact H; [|eapply A3; eauto].
      exfalso. injection H as H <- _. rewrite <- H in A2. destruct (Hone _ _ A2) as [X2 _]. congruence.
  - intros t v X H. infact H. destruct (gi_ack _ _ G _ _ _ H) as (A1 & l' & M' & A2 & A3). split; [node v n; auto|]. exists l', M'. split; [right; auto|auto].
  - intros t v X C' H HC Hc. infact H. apply (carried_anti F) in Hc; [|exact Hi]. pose proof (gi_ret _ _ G t v X C' H HC) as Y.
    node v n; [eapply pre_trans; [apply Y; auto|exact PL]|auto].
  - intros t C' H. infact H. destruct (gi_fcom _ _ G _ _ H) as (A1 & (l' & X & A2 & A3) & S1 & A4 & A5). split; auto. split; [exists l', X; split; [right; auto|auto]|].
    exists S1. split; auto. intros v Hv. destruct (A5 v Hv) as (M' & B1 & B2). exists M'. split; [right; auto|auto].
  - intros t C' t' l' X H H' Ht. infact H. infact H'; [injection H' as <- <- <-; eapply pre_trans; [eapply Hcom; eauto|exact PL]|eapply (gi_lc _ _ G); eauto].
Qed.

Lemma win_conditions g F n S : ginv g F -> an_role (g n) = ACand -> quorum S -> (forall v, In v S -> exists L, In (FVote (an_term (g n)) v n L) F) ->
  t0 < an_term (g n) /\ (forall l L, ~ In (FLead (an_term (g n)) l L) F) /\ elected F (an_term (g n)) n (an_log (g n)) /\
  (forall t C, In (FCom t C) F -> t < an_term (g n) -> pre C (an_log (g n))).
Proof.
  intros G Hr HS HSv. destruct (gi_cand _ _ G n Hr) as [Hq Hno]. destruct (gi_req _ _ G _ _ _ Hq) as ([H0 _] & _ & _ & _).
  assert (N1 : forall l L, ~ In (FLead (an_term (g n)) l L) F).
  { intros l L HL. destruct (gi_lead _ _ G _ _ _ HL) as (_ & _ & _ & [[A _]|(A1 & A2 & Lc & S' & B1 & B2 & B3 & B4)]); [lia|].
    destruct (quorum_meet _ _ HS B3) as (v & V1 & V2). destruct (HSv v V1) as (X & HX). destruct (B4 v V2) as (Y & HY & _).
    pose proof (gi_vote1 _ _ G _ _ _ _ _ _ HX HY). subst l. eapply Hno; eauto. }
  assert (E1 : forall v, In v S -> exists Lv, In (FVote (an_term (g n)) v n Lv) F /\ utd (an_log (g n)) Lv /\ kept F (an_term (g n)) v Lv).
  { intros v Hv. destruct (HSv v Hv) as (Lv & HL). exists Lv. split; auto. destruct (gi_vote _ _ G _ _ _ _ HL) as (_ & _ & _ & _ & _ & Lc & C1 & C2).
    rewrite <- (gi_req1 _ _ G _ _ _ _ C1 Hq). split; auto. eapply (gi_kept _ _ G); eauto. }
  split; auto. split; auto. split; [exists (an_log (g n)), S; split; auto; split; [apply pre_refl|auto]|].
  intros t C HC Ht. destruct (gi_fcom _ _ G _ _ HC) as (A1 & (l & L & A2 & A3) & S1 & A4 & A5).
  eapply (contains g F _ n _ S S1 t C G Hq HS E1 A4 A5 A1); auto.
  - eapply tsorted_pre; [exact A3|]. apply (gi_lead _ _ G _ _ _ A2).
  - intros u l1 L1 HL1 Hu. eapply (gi_lc _ _ G); [exact HC|exact HL1|lia].
Qed.

Lemma upd_upd g n s s' k : upd (upd g n s) n s' k = upd g n s' k.
Proof. unfold upd. destruct (k =? n); auto. Qed.
Lemma ginv_ext g g' F : (forall k, g k = g' k) -> ginv g F -> ginv g' F.
Proof.
  intros X [A1 A2 A3 A4 A5 A6 A7 A8 A9 A10 A11 A12 A13 A14 A15 A16 A17 A18].
  constructor; try (intros k; rewrite <- ?X; auto; fail); auto.
  - intros t c L. rewrite <- X. auto.
  - intros t v c L. rewrite <- X. auto.
  - intros t l L. rewrite <- X. auto.
  - intros t v L. rewrite <- X. auto.
  - intros t v L C. rewrite <- X. apply A16.
Qed.

Theorem lstep_ginv g F n s' F' : ginv g F -> lstep n (g n, F) (s', F') -> ginv (upd g n s') F'.
Proof.
  intros G H. remember (g n, F) as a eqn:Ea. remember (s', F') as b eqn:Eb. destruct H as [s F1 t H|s F1|s F1 H|s F1 c Lc H1 H2 H3 H4|s F1 S e H1 HS H3 H4|s F1 es H1 H2|s F1 k S H1 H2 H3 HS H5|s F1 l L m H1 H2 H3 H4|s F1 l L m H1 H2 H3 H4|s F1 k t C H1 H2 H3 H4];
    injection Ea as -> <-; injection Eb as <- <-.
  - apply ginv_down; auto; lia.
  - apply ginv_down; auto; lia.
  - (* campaign *)
    set (T := an_term (g n) + 1). pose proof (ginv_down g F1 n T 0 G ltac:(unfold T; lia) ltac:(unfold T; lia)) as G1.
    set (g1 := upd g n (mkA T 0 (an_log (g n)) (an_com (g n)) AFollow)) in *.
    assert (X1 : g1 n = mkA T 0 (an_log (g n)) (an_com (g n)) AFollow) by (unfold g1; apply upd_same).
    assert (G2 : ginv g1 (FReq T n (an_log (g n)) :: F1)).
    { pose proof (ginv_req g1 F1 n G1) as Y. rewrite X1 in Y. cbn [an_term an_log] in Y. apply Y.
      - pose proof (gi_t0 _ _ G n). unfold T. lia.
      - intros L HL. apply (gi_req _ _ G) in HL. unfold T in HL. lia.
      - intros i e He. pose proof (gi_bnd _ _ G n i e He). unfold T. lia. }
    assert (G3 : ginv (upd g1 n (mkA T n (an_log (g n)) (an_com (g n)) AFollow)) (FVote T n n (an_log (g n)) :: FReq T n (an_log (g n)) :: F1)).
    { pose proof (ginv_grant g1 _ n n (an_log (g n)) G2) as Y. rewrite X1 in Y. cbn [an_term an_log an_vote an_com an_role] in Y. apply Y; auto.
      - left; reflexivity.
      - right. split; auto. lia. }
    set (g2 := upd g1 n (mkA T n (an_log (g n)) (an_com (g n)) AFollow)) in *.
    assert (X2 : g2 n = mkA T n (an_log (g n)) (an_com (g n)) AFollow) by (unfold g2; apply upd_same).
    pose proof (ginv_role g2 _ n G3) as Y. rewrite X2 in Y. cbn [an_term an_log an_vote an_com an_role] in Y.
    eapply ginv_ext; [|apply Y].
    + intros k. unfold g2, g1. rewrite !upd_upd. reflexivity.
    + right. left. reflexivity.
    + intros L HL. infact HL. infact HL. destruct (gi_lead _ _ G _ _ _ HL) as (_ & _ & _ & [[A B]|(A1 & A2 & _)]); [congruence|]. unfold T in A2. lia.
  - eapply ginv_grant; eauto.
  - (* win *)
    rename H1 into Hr.
    destruct (win_conditions g F1 n S G Hr HS ltac:(assumption)) as (W1 & W2 & W3 & W4).
    assert (G1 : ginv (upd g n (mkA (an_term (g n)) (an_vote (g n)) (an_log (g n) ++ [e]) (an_com (g n)) ALead)) (FLead (an_term (g n)) n (an_log (g n) ++ [e]) :: F1)).
    { apply (ginv_lead g F1 n [e]); auto.
      - intros x [<-|[]]. auto.
      - intros l L HL. exfalso. eapply W2; eauto. }
    pose proof (ginv_ack _ _ n (an_log (g n) ++ [e]) n (an_log (g n) ++ [e]) G1) as Y. rewrite upd_same in Y. cbn [an_term an_log] in Y. apply Y; try apply pre_refl. left; reflexivity.
  - (* propose *)
    rename H1 into Hr. destruct (gi_top _ _ G n Hr) as (W1 & W2 & W3).
    assert (G1 : ginv (upd g n (mkA (an_term (g n)) (an_vote (g n)) (an_log (g n) ++ es) (an_com (g n)) ALead)) (FLead (an_term (g n)) n (an_log (g n) ++ es) :: F1)).
    { apply (ginv_lead g F1 n es); auto.
      - intros l L HL. split; [apply (gi_lead1 _ _ G _ _ _ _ _ HL W2)|eauto].
      - destruct (gi_lead _ _ G _ _ _ W2) as (_ & _ & _ & [[A _]|(A1 & A2 & A3)]); [lia|auto].
      - intros t C HC Ht. eapply (gi_lc _ _ G); eauto. }
    pose proof (ginv_ack _ _ n (an_log (g n) ++ es) n (an_log (g n) ++ es) G1) as Y. rewrite upd_same in Y. cbn [an_term an_log] in Y. apply Y; try apply pre_refl. left; reflexivity.
  - (* commit *)
    rename H1 into Hr. destruct (gi_top _ _ G n Hr) as (W1 & W2 & W3).
    assert (G1 : ginv g (FCom (an_term (g n)) (ntake k (an_log (g n))) :: F1)).
    { eapply (ginv_fcom g F1 _ _ n (an_log (g n)) S); eauto; [lia|apply pre_ntake|]. intros v Hv.
      match goal with H : forall v, In v S -> _ |- _ => destruct (H v Hv) as (L & HL & Hk) end. exists L. split; auto.
      destruct (gi_ack _ _ G _ _ _ HL) as (_ & l & M & A2 & A3).
      eapply pre_cmp; [apply pre_ntake|eapply pre_trans; [exact A3|eauto]|]. rewrite nlen_ntake. lia. }
    rewrite <- Hr. eapply ginv_com; [exact G1| |left; reflexivity|lia|apply pre_refl]. lia.
  - (* keep *)
    eapply ginv_ext; [|eapply ginv_ack; eauto].
    + intros j. node j n; auto.
    + match goal with H : ntake m _ = ntake m L |- _ => rewrite <- H end. apply pre_ntake.
    + apply pre_ntake.
  - (* take *)
    assert (G1 : ginv (upd g n (mkA (an_term (g n)) (an_vote (g n)) (ntake m L) (an_com (g n)) AFollow)) F1) by (eapply ginv_take; eauto).
    pose proof (ginv_ack _ _ n (ntake m L) l L G1) as Y. rewrite upd_same in Y. cbn [an_term an_log] in Y. apply Y; auto using pre_refl, pre_ntake.
  - eapply ginv_com; eauto. lia.
Qed.
Theorem lsteps_ginv n a b : lsteps n a b -> forall g, ginv g (snd a) -> g n = fst a -> ginv (upd g n (fst b)) (snd b).
Proof.
  induction 1 as [a|a b c H Hs IH]; intros g G E.
  - eapply ginv_ext; [|exact G]. intros k. node k n; auto.
  - destruct a as [s F], b as [s1 F1]. cbn in *. rewrite <- E in H. pose proof (lstep_ginv _ _ _ _ _ G H) as G1.
    eapply ginv_ext; [|apply (IH _ G1); apply upd_same]. intros k. apply upd_upd.
Qed.

(** The common beginning: every node has the log [L0] of one term. *)
Definition init_facts (Q : list N) : list fact := FCom t0 L0 :: FLead t0 0 L0 :: List.map (fun v => FAck t0 v L0) Q.
Lemma ginv_init g Q : quorum Q -> lastterm L0 = t0 -> (forall e, In e L0 -> e_term e = t0) ->
  (forall n, t0 <= an_term (g n) /\ an_vote (g n) = 0 /\ an_log (g n) = L0 /\ an_com (g n) = nlen L0 /\ an_role (g n) = AFollow) ->
  ginv g (init_facts Q).
Proof. clear vot.
  intros HQ Hlt Hall Hg.
  assert (Hl : forall t l L, In (FLead t l L) (init_facts Q) -> t = t0 /\ l = 0 /\ L = L0).
  { intros t l L H. infact H. infact H; [injection H as <- <- <-; auto|]. apply in_map_iff in H. destruct H as (v & H & _). discriminate. }
  assert (Ha : forall t v L, In (FAck t v L) (init_facts Q) -> t = t0 /\ L = L0).
  { intros t v L H. infact H. infact H. apply in_map_iff in H. destruct H as (v' & H & _). injection H as <- <- <-. auto. }
  assert (Hc : forall t L, In (FCom t L) (init_facts Q) -> t = t0 /\ L = L0).
  { intros t L H. infact H; [injection H as <- <-; auto|]. infact H. apply in_map_iff in H. destruct H as (v' & H & _). discriminate. }
  assert (Hr : forall t c L, ~ In (FReq t c L) (init_facts Q)).
  { intros t c L H. infact H. infact H. apply in_map_iff in H. destruct H as (v' & H & _). discriminate. }
  assert (Hv : forall t v c L, ~ In (FVote t v c L) (init_facts Q)).
  { intros t v c L H. infact H. infact H. apply in_map_iff in H. destruct H as (v' & H & _). discriminate. }
  assert (GL : good (init_facts Q) L0).
  { intros i e He. exists 0, L0. rewrite (Hall e) by (eapply nnth_In; eauto). split; [right; left; auto|]. split; auto. eapply nnth_some_len; eauto. }
  assert (SL : tsorted L0). { intros i j a b _ Hi Hj. rewrite (Hall a), (Hall b) by (eapply nnth_In; eauto). lia. }
  assert (BL : tbound t0 L0). { intros i a Hi. rewrite (Hall a) by (eapply nnth_In; eauto). lia. }
  constructor.
  - intros n. destruct (Hg n) as (A1 & A2 & -> & A4 & A5). auto.
  - intros n. destruct (Hg n) as (A1 & A2 & -> & A4 & A5). auto.
  - intros n. destruct (Hg n) as (A1 & A2 & -> & A4 & A5). eapply tbound_le; eauto.
  - intros n. destruct (Hg n) as (A1 & A2 & -> & -> & A5). split; [lia|]. exists t0, L0. split; [left; auto|]. split; auto. apply pre_ntake.
  - intros n. apply Hg.
  - intros t c L H. exfalso. eapply Hr; eauto.
  - intros t c L L' H. exfalso. eapply Hr; eauto.
  - intros n H. destruct (Hg n) as (A1 & A2 & A3 & A4 & A5). congruence.
  - intros t v c L H. exfalso. eapply Hv; eauto.
  - intros t v c c' L L' H. exfalso. eapply Hv; eauto.
  - intros t v c L H. exfalso. eapply Hv; eauto.
  - intros t l L H. apply Hl in H. destruct H as (-> & -> & ->). repeat (split; [auto|]). auto.
  - intros t l l' L L' H H'. apply Hl in H. apply Hl in H'. destruct H as (-> & -> & ->), H' as (_ & -> & ->). split; auto. left. apply pre_refl.
  - intros n H. destruct (Hg n) as (A1 & A2 & A3 & A4 & A5). congruence.
  - intros t v L H. apply Ha in H. destruct H as (-> & ->). split; [apply Hg|]. exists 0, L0. split; [right; left; auto|apply pre_refl].
  - intros t v L C H HC _. apply Ha in H. destruct H as (-> & ->). destruct (Hg v) as (A1 & A2 & -> & A4 & A5). auto.
  - intros t C H. apply Hc in H. destruct H as (-> & ->). split; auto. split; [exists 0, L0; split; [right; left; auto|apply pre_refl]|].
    exists Q. split; auto. intros v Hin. exists L0. split; [right; right; apply in_map_iff; eauto|apply pre_refl].
  - intros t C t' l L H H' Ht. apply Hc in H. apply Hl in H'. lia.
Qed.
End Proto.
