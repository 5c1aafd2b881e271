(** Terms, votes and the messages each primitive emits. *)
From Verif Require Import Prelude Types M_Util M_Quorum M_Inflights M_Progress M_Tracker.
From Verif Require Import M_Storage M_Unstable M_Log M_ReadOnly M_ConfPb M_ConfChange M_Raft M_RawNode.
From Verif Require Import P_Inflights P_Frame P_Prim Sys_Node P_Node P_Fields.

Section Vote.
Context {E : Env}.

(** Term and vote move forward. *)
Definition tv_le (t v t' v' : N) : Prop := t < t' \/ (t' = t /\ (v' = v \/ v = 0)).
Definition tv (r r' : raft) : Prop := tv_le (r_term r) (r_vote r) (r_term r') (r_vote r').
Lemma tv_le_refl t v : tv_le t v t v. Proof. right; auto. Qed.
Lemma tv_le_trans t v t' v' t'' v'' : tv_le t v t' v' -> tv_le t' v' t'' v'' -> tv_le t v t'' v''.
Proof. unfold tv_le. intros [H|[H [H1|H1]]] [K|[K [K1|K1]]]; subst; try lia; auto. Qed.
Lemma tv_refl r : tv r r. Proof. apply tv_le_refl. Qed.
Lemma tv_same r r' : r_term r' = r_term r -> r_vote r' = r_vote r -> tv r r'.
Proof. intros H1 H2. unfold tv. rewrite H1, H2. apply tv_le_refl. Qed.

Lemma append_term es r r' : append_entry es r = Ok (Some r') ->
  r_cfg r' = r_cfg r /\ r_term r' = r_term r /\ r_vote r' = r_vote r /\ r_state r' = r_state r /\ r_msgs r' = r_msgs r /\
  r_lead r' = r_lead r.
Proof. intros H. apply append_entry_fields in H. destruct H as (l & p & u & ->). cbn; auto 10. Qed.

(** The messages a primitive emits. *)
Inductive pmsg (im : msg) (r r' : raft) : msg -> Prop :=
| PmSend m : r_state r = RLeader -> smsg r m -> pmsg im r r' m
| PmMisc m : misc im r m -> pmsg im r r' m
| PmVoteReq to lt ctx : r_state r = RCandidate -> log_last_term (r_log r) = Ok lt -> r_term r <> 0 ->
    pmsg im r r' (mkMsg MsgVote to (r_id r) (r_term r) lt (r_last r) [] 0 empty_snapshot false 0 ctx)
| PmGrant : m_type im = MsgVote -> m_term im = r_term r -> r_term r <> 0 ->
    (r_vote r = m_from im \/ r_vote r = 0 /\ r_lead r = 0) -> r_vote r' = m_from im -> r_term r' = r_term r ->
    log_is_up_to_date (m_index im) (m_logterm im) (r_log r) = Ok true ->
    pmsg im r r' (mk_resp MsgVoteResp (m_from im) (r_id r) (m_term im) 0 0 false 0 EmptyString)
| PmAppResp i : m_type im = MsgApp \/ m_type im = MsgSnap -> m_term im = r_term r ->
    pmsg im r r' (app_resp im i r).

Lemma prim_spec im r r' : prim im r r' ->
  r_cfg r' = r_cfg r /\ tv r r' /\
  exists new, r_msgs r' = r_msgs r ++ new /\ Forall (pmsg im r r') new.
Proof.
  intros H.
  assert (N0 : forall r'', r_msgs r'' = r_msgs r -> exists new, r_msgs r'' = r_msgs r ++ new /\ Forall (pmsg im r r'') new).
  { intros r'' Hx. exists []. rewrite app_nil_r. auto. }
  assert (N1 : forall r'' m, r_msgs r'' = r_msgs r ++ [m] -> pmsg im r r'' m -> exists new, r_msgs r'' = r_msgs r ++ new /\ Forall (pmsg im r r'') new).
  { intros r'' m Hx Hy. exists [m]. auto. }
  destruct H as [r' K|r' Hl S|m Hm|t l Ht _|r' Hc|r' Hc|Hs|Hs|to lt ctx Hs Hlt Hz|Ht Hm Hz Hv Hu|r' Hs Hv Hb|
                 es r1 r' Hs Ht He Hf Ha|p p' Hs Ht Hr Hm Hg|r' b Hs Hc|Hg Hm Hs|l last Ht Hm Hs Hc Ha|
                 l Ht Hm Hs Hc|l Ht Hm Hs Hc Hmt Hct|r1 Ht Hm Hs Hr].
  - destruct K. auto using tv_same.
  - destruct S as [[] _ _ (ms & E1 & E2)]. split; auto. split; [apply tv_same; auto|]. exists ms. split; auto.
    eapply Forall_impl; [|exact E2]. intros; constructor; auto.
  - split; auto. split; [apply tv_same; reflexivity|]. eapply N1; [reflexivity|]. constructor 2; auto.
  - destruct (become_follower_fields t l r _ eq_refl) as (A1&A2&A3&A4&A5&A6&A7&A8&A9&A10&A11).
    split; auto. split; auto. unfold tv. rewrite A2, A3. destruct Ht as [->|[Ht _]]; [rewrite N.eqb_refl; apply tv_le_refl|left; auto].
  - apply become_candidate_all in Hc. destruct Hc as (A0&A1&A2&A3&A4&A5&A6&A7&_). split; auto. split; auto. left. lia.
  - apply become_pre_all in Hc. destruct Hc as (A0&A1&A2&A3&A4&A5&A6&A7&_). auto using tv_same.
  - split; auto. split; [apply tv_same; auto|]. apply N0. auto.
  - split; auto. split; [apply tv_same; auto|]. apply N0. auto.
  - split; auto. split; [apply tv_same; reflexivity|]. eapply N1; [reflexivity|]. apply PmVoteReq; auto.
  - split; auto. split; [right; cbn; split; auto; destruct Hv as [<-|[Hv _]]; auto|]. eapply N1; [reflexivity|]. apply PmGrant; auto.
  - apply become_leader_all in Hb. destruct Hb as (A0&A1&A2&A3&A4&A5&A6&_). auto using tv_same.
  - destruct (prop_fields _ _ _ _ _ Hf Ha) as (A1&A2&A3&A4&A5&A6&_). auto using tv_same.
  - split; auto. split; [apply tv_same; auto|]. apply N0. auto.
  - apply raft_commit_fields in Hc. destruct Hc as (A1&A2&A3&A4&A5&A6&_). auto using tv_same.
  - split; auto. split; [apply tv_same; reflexivity|]. eapply N1; [reflexivity|]. apply PmAppResp; auto. tauto.
  - split; auto. split; [apply tv_same; auto|]. eapply N1; [reflexivity|]. apply (PmAppResp im r); auto.
  - split; auto. split; [apply tv_same; auto|]. apply N0. auto.
  - split; auto. split; [apply tv_same; auto|]. eapply N1; [reflexivity|]. apply (PmAppResp im r); auto.
  - destruct (restore_fields _ _ _ Hs Hr) as (A1&A2&A3&A4&A5&A6&_). split; [exact A1|].
    split; [apply tv_same; [exact A2|exact A3]|]. eapply N1; [cbn; rewrite A6; reflexivity|].
    replace (app_resp im (r_last r1) r1) with (app_resp im (r_last r1) r); [apply PmAppResp; auto|].
    unfold app_resp, r_id. rewrite A1, A2. reflexivity.
Qed.

Lemma apr_tv ms r ms' r' : apr (ms, r) (ms', r') -> r_cfg r' = r_cfg r /\ tv r r'.
Proof.
  intros H. inversion H; subst; auto using tv_same, tv_refl.
  - match goal with H : prim _ _ _ |- _ => apply prim_spec in H; tauto end.
  - apply append_term in H5. destruct H5 as (A1&A2&A3&A4&A5&A6). split; [exact A1|apply tv_same; auto].
Qed.
Lemma aprs_tv a b : aprs a b -> r_cfg (snd b) = r_cfg (snd a) /\ tv (snd a) (snd b).
Proof.
  revert a b. apply aprs_ind_rel; [auto using tv_refl| |].
  - intros a b c [H1 H2] [H3 H4]. split; [congruence|]. unfold tv in *. eapply tv_le_trans; eauto.
  - intros [] [] H. apply apr_tv in H. exact H.
Qed.

(** Granted votes. *)
Definition granted (m : msg) : Prop := m_type m = MsgVoteResp /\ m_reject m = false.
(** The hard state (t, v) records the vote granted by [m]. *)
Definition recorded (t v : N) (m : msg) : Prop := m_term m <> 0 /\ (m_term m < t \/ (m_term m = t /\ m_to m = v /\ v <> 0)).
Lemma recorded_tv t v t' v' m : recorded t v m -> tv_le t v t' v' -> recorded t' v' m.
Proof.
  unfold recorded, tv_le. intros [H0 [H|(H&H1&H2)]] [K|[K [K1|K1]]]; subst; split; auto; try lia; try (left; lia).
Qed.
Definition vinv (s : nst) : Prop :=
  (forall m, In m (fst s ++ r_msgs (snd s)) -> granted m -> recorded (r_term (snd s)) (r_vote (snd s)) m) /\
  (forall m1 m2, In m1 (fst s ++ r_msgs (snd s)) -> In m2 (fst s ++ r_msgs (snd s)) ->
     granted m1 -> granted m2 -> m_term m1 = m_term m2 -> m_to m1 = m_to m2).

Lemma granted_pmsg im r r' m : pmsg im r r' m -> granted m ->
  m = mk_resp MsgVoteResp (m_from im) (r_id r) (m_term im) 0 0 false 0 EmptyString /\
  m_type im = MsgVote /\ m_term im = r_term r /\ r_term r <> 0 /\
  (r_vote r = m_from im \/ r_vote r = 0 /\ r_lead r = 0) /\ r_vote r' = m_from im /\ r_term r' = r_term r /\
  log_is_up_to_date (m_index im) (m_logterm im) (r_log r) = Ok true.
Proof.
  intros H [G1 G2]. destruct H as [m Hl S|m Hm|to lt ctx| |i].
  - destruct S; discriminate.
  - destruct Hm as [| | | | | | |? ? ? Ht]; try discriminate.
    exfalso. unfold outm in G1. cbn in G1. destruct Ht as [Ht|[Ht|Ht]].
    all: destruct (m_from im =? 0); cbn in G1; rewrite Ht in G1; cbn in G1; rewrite ?Ht in G1; discriminate.
  - discriminate.
  - auto 10.
  - discriminate.
Qed.

Lemma in_ok_vote_from im : in_ok im -> m_type im = MsgVote -> m_from im <> 0.
Proof. intros [[H _]|[_ H]] Ht; auto. rewrite Ht in H. discriminate. Qed.

Lemma vinv_apr a b : vinv a -> apr a b -> vinv b.
Proof.
  intros [V1 V2] H. destruct a as [ms r], b as [ms' r']. cbn [fst snd] in *.
  destruct (apr_tv _ _ _ _ H) as [_ Htv].
  assert (Hsame : (forall m, In m (ms' ++ r_msgs r') -> In m (ms ++ r_msgs r)) -> vinv (ms', r')).
  { intros Hin. split; cbn [fst snd]; intros; [|apply V2; auto].
    eapply recorded_tv; [apply V1; auto|exact Htv]. }
  inversion H; subst; try (apply Hsame; cbn; auto; fail).
  - match goal with H : prim _ _ _ |- _ => apply prim_spec in H; destruct H as (_ & _ & new & Hn & Hf) end.
    rewrite Forall_forall in Hf.
    assert (Hcase : forall m, In m (ms' ++ r_msgs r') -> granted m ->
       recorded (r_term r) (r_vote r) m /\ In m (ms' ++ r_msgs r) \/
       (m_to m = r_vote r' /\ m_term m = r_term r' /\ r_vote r' <> 0 /\ r_term r' <> 0)).
    { intros m Hi Hg. rewrite Hn, app_assoc in Hi. apply in_app_or in Hi. destruct Hi as [Hi|Hi]; [left; auto|].
      right. apply Hf in Hi. destruct (granted_pmsg _ _ _ _ Hi Hg) as (-> & A1 & A2 & A3 & A4 & A5 & A6 & A7).
      rewrite A5, A6. cbn. repeat split; auto. eapply in_ok_vote_from; eauto. }
    split; cbn [fst snd].
    + intros m Hi Hg. destruct (Hcase m Hi Hg) as [[Hr _]|(A1&A2&A3&A4)].
      * eapply recorded_tv; eauto.
      * split; [congruence|]. right. auto.
    + intros m1 m2 I1 I2 G1 G2 Et.
      destruct (Hcase m1 I1 G1) as [[R1 J1]|(A1&A2&A3&A4)], (Hcase m2 I2 G2) as [[R2 J2]|(B1&B2&B3&B4)].
      * apply V2; auto.
      * pose proof (recorded_tv _ _ _ _ _ R1 Htv) as [_ [R|(R&R'&_)]]; [lia|congruence].
      * pose proof (recorded_tv _ _ _ _ _ R2 Htv) as [_ [R|(R&R'&_)]]; [lia|congruence].
      * congruence.
  - apply Hsame. cbn. intros m Hi. rewrite app_nil_r in Hi. exact Hi.
  - apply append_term in H5. destruct H5 as (A1&A2&A3&A4&A5&A6). apply Hsame. cbn. rewrite A5. auto.
Qed.
Lemma vinv_aprs a b : aprs a b -> vinv a -> vinv b.
Proof. apply aprs_ind_inv. apply vinv_apr. Qed.

End Vote.
