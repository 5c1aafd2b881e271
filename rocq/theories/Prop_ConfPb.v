(** C24-C27: ConfState comparison, textual conf changes, V1/V2 classification. *)
From Verif Require Import Prelude Types M_Util M_ConfPb P_ConfPb.

(** C24 *)
Theorem C24_confstate_eq : forall a b : confstate,
  confstate_eqb a b = true <->
  Permutation (cs_voters a) (cs_voters b) /\ Permutation (cs_learners a) (cs_learners b) /\
  Permutation (cs_outgoing a) (cs_outgoing b) /\
  Permutation (cs_learners_next a) (cs_learners_next b) /\ cs_auto_leave a = cs_auto_leave b.
Proof.
  intros a b. unfold confstate_eqb. rewrite !andb_true_iff, !list_eqb_eq, !nsort_eq, Bool.eqb_true_iff. tauto.
Qed.
Print Assumptions C24_confstate_eq.
Example C24_example :
  confstate_eqb (mkConfState [3; 1; 2] [5] [2; 1] [] true) (mkConfState [1; 2; 3] [5] [1; 2] [] true) = true /\
  confstate_eqb (mkConfState [1; 1; 2] [] [] [] false) (mkConfState [1; 2; 2] [] [] [] false) = false.
Proof. split; reflexivity. Qed.

(** C25: node ids are uint64. *)
Theorem C25_string_round_trip : forall ccs : list ccsingle,
  (forall c, In c ccs -> cc_node c < 2 ^ 64) ->
  cc_from_string (cc_to_string ccs) = Some ccs.
Proof. intros ccs H. apply cc_round_trip. apply Forall_forall. exact H. Qed.
Print Assumptions C25_string_round_trip.
Example C25_example :
  let l := [mkCC CcAddNode 1; mkCC CcRemoveNode 18446744073709551615; mkCC CcAddLearnerNode 0; mkCC CcUpdateNode 42] in
  (forall c, In c l -> cc_node c < 2 ^ 64) /\ cc_to_string l = "v1 r18446744073709551615 l0 u42"%string.
Proof. split; [|reflexivity]. intros c; cbn. intuition (subst; cbn; lia). Qed.

(** C26: a well-formed token is a known letter followed by a non-empty decimal number. *)
Definition known_letter (c : ascii) : bool :=
  (Ascii.eqb c "v" || Ascii.eqb c "l" || Ascii.eqb c "r" || Ascii.eqb c "u")%bool.
Definition decimal_char (c : ascii) : bool := ((48 <=? N_of_ascii c) && (N_of_ascii c <=? 57))%bool.
Definition wf_token (t : string) : Prop :=
  exists c d, t = String c d /\ known_letter c = true /\ d <> EmptyString /\
              Forall (fun x => decimal_char x = true) (list_ascii_of_string d).
(** The property as stated is false: strtoull does not throw, so "vx" and "v1x" are accepted. *)
Theorem C26_malformed_rejected_refuted :
  exists t v, ~ wf_token t /\ cc_from_string t = Some v /\ v = [mkCC CcAddNode 0].
Proof.
  exists "vx"%string. eexists. split; [|split; reflexivity].
  intros (c & d & E & _ & _ & Hf). inv E. inv Hf. discriminate.
Qed.
Print Assumptions C26_malformed_rejected_refuted.
(** What holds: a list of space-separated tokens is rejected iff some token is shorter than two
    characters or starts with an unknown letter. *)
Definition good_head (t : string) : Prop :=
  exists c c' d, t = String c (String c' d) /\ known_letter c = true.
Theorem C26_bad_head_rejected_partial : forall (toks : list string),
  toks <> [] -> (forall t, In t toks -> t <> EmptyString /\ ~ In " "%char (list_ascii_of_string t)) ->
  (cc_from_string (String.concat " " toks) = None <-> exists t, In t toks /\ ~ good_head t).
Proof.
  intros toks Hne H.
  assert (HF : Forall (fun t => nosp t = true /\ t <> EmptyString) toks).
  { apply Forall_forall. intros t Ht. destruct (H t Ht) as [H1 H2]. split; auto. clear - H2. unfold nosp.
    induction t as [|c t IH]; cbn in *; auto.
    destruct (Ascii.eqb_spec c " "); [subst; tauto|]. cbn. apply IH. tauto. }
  destruct toks as [|t0 toks]; [congruence|]. clear Hne.
  destruct (concat_last _ _ HF) as [HL HN].
  unfold cc_from_string, trim.
  assert (HD : drop_leading " " (String.concat " " (t0 :: toks)) = String.concat " " (t0 :: toks)).
  { inversion HF as [|? ? [Hs Ht] _]; subst. destruct t0 as [|c t0]; [congruence|]. cbn in Hs.
    apply andb_true_iff in Hs. destruct Hs as [Hs _]. apply negb_true_iff in Hs.
    destruct toks; cbn; rewrite Hs; reflexivity. }
  rewrite HD, drop_trailing_id by auto.
  rewrite split_concat by (eapply Forall_impl; [|exact HF]; cbn; tauto).
  assert (String.eqb t0 EmptyString = false) as ->.
  { inversion HF as [|? ? [_ Ht] _]; subst. apply String.eqb_neq; auto. }
  assert (G : forall t, parse_token t = None <-> ~ good_head t).
  { intros t. unfold good_head, known_letter. destruct t as [|c [|c' d]]; cbn.
    - split; auto. intros _ (? & ? & ? & E & _); discriminate.
    - split; auto. intros _ (? & ? & ? & E & _); discriminate.
    - split.
      + intros Hn (x & y & z & E & Hk). inv E.
        destruct (Ascii.eqb x "v"), (Ascii.eqb x "l"), (Ascii.eqb x "r"), (Ascii.eqb x "u"); discriminate.
      + intros Hn. destruct (Ascii.eqb c "v") eqn:E1; [exfalso; apply Hn; exists c, c', d; rewrite E1; auto|].
        destruct (Ascii.eqb c "l") eqn:E2; [exfalso; apply Hn; exists c, c', d; rewrite E1, E2; auto|].
        destruct (Ascii.eqb c "r") eqn:E3; [exfalso; apply Hn; exists c, c', d; rewrite E1, E2, E3; auto|].
        destruct (Ascii.eqb c "u") eqn:E4; [exfalso; apply Hn; exists c, c', d; rewrite E1, E2, E3, E4; auto|auto]. }
  clear - G. induction (t0 :: toks) as [|t l IH]; cbn.
  - split; [discriminate|]. intros (? & [] & _).
  - destruct (parse_token t) eqn:E.
    + destruct (parse_tokens l) eqn:E2.
      * split; [discriminate|]. intros (x & [<-|Hx] & Hb).
        { apply G in Hb. congruence. }
        assert (Some l0 = None) by (apply IH; eauto). discriminate.
      * split; [intros _|auto]. destruct (proj1 IH eq_refl) as (x & ? & ?). eauto.
    + split; [intros _|auto]. exists t. split; auto. apply G; auto.
Qed.
Print Assumptions C26_bad_head_rejected_partial.
Example C26_example : cc_from_string "v1 x2" = None /\ cc_from_string "v1 l" = None /\
  cc_from_string "v1x u7" = Some [mkCC CcAddNode 1; mkCC CcUpdateNode 7].
Proof. repeat split. Qed.

(** C27 *)
Theorem C27_enter_joint : forall (c : confchangev2) auto joint, enter_joint c = (auto, joint) ->
  (joint = true <-> c2_trans c <> TrAuto \/ 1 < nlen (c2_changes c)) /\
  (auto = true <-> joint = true /\ c2_trans c <> TrJointExplicit).
Proof.
  intros c auto joint. unfold enter_joint.
  destruct (c2_trans c) eqn:E; cbn [orb].
  - destruct (N.ltb_spec 1 (nlen (c2_changes c))); intros X; inv X; intuition (try congruence; try lia).
  - intros X; inv X; intuition congruence.
  - intros X; inv X; intuition congruence.
Qed.
Print Assumptions C27_enter_joint.
Theorem C27_leave_joint : forall (c : confchangev2),
  leave_joint c = true <-> c2_changes c = [] /\ c2_trans c = TrAuto.
Proof.
  intros c. unfold leave_joint. destruct (c2_changes c), (c2_trans c); cbn; intuition congruence.
Qed.
Print Assumptions C27_leave_joint.
Theorem C27_v1_is_simple : forall (c : confchange), exists v,
  cci_as_v2 (CCv1 c) = Ok v /\ c2_changes v = [mkCC (c1_type c) (c1_node c)] /\ c2_ctx v = c1_ctx c /\
  enter_joint v = (false, false) /\ leave_joint v = false.
Proof. intros c. eexists. split; [reflexivity|]. repeat split. Qed.
Print Assumptions C27_v1_is_simple.
(** A proposal keeps its kind: V1 changes are marshalled as EntryConfChange, V2 as EntryConfChangeV2. *)
Theorem C27_marshal : forall {E : Env} (c1 : confchange) (c2 : confchangev2),
  cci_marshal (CCv1 c1) = Ok (EntryConfChange, enc_cc c1) /\
  cci_marshal (CCv2 c2) = Ok (EntryConfChangeV2, enc_ccv2 c2).
Proof. split; reflexivity. Qed.
Print Assumptions C27_marshal.
Example C27_example :
  enter_joint (mkConfChangeV2 TrAuto [mkCC CcAddNode 1; mkCC CcRemoveNode 2] "x") = (true, true) /\
  enter_joint (mkConfChangeV2 TrJointExplicit [mkCC CcAddNode 1] "") = (false, true) /\
  leave_joint (mkConfChangeV2 TrAuto [] "ctx") = true.
Proof. repeat split. Qed.
