(** The logical log of a node: what each primitive and each handled Ready does to it. *)
From Verif Require Import Prelude Types M_Util M_Quorum M_Inflights M_Progress M_Tracker.
From Verif Require Import M_Storage M_Unstable M_Log M_ReadOnly M_ConfPb M_ConfChange M_Raft M_RawNode.
From Verif Require Import P_Inflights Spec_Log P_Lists P_Storage P_Log Spec_Storage Sys_Storage P_StorageSeq Spec_RaftLog Sys_RaftLog P_RaftLogSeq.
From Verif Require Import P_Frame P_Prim Sys_Node P_Node P_Fields.

Section NodeLog.
Context {E : Env}.

(** Append at the end. *)
Definition a_app (a : alog) (es : list entry) : alog := mkALog (a_base a) (a_bterm a) (a_ents a ++ es).
Lemma a_app_replace a es : a_replace a (a_last a + 1) es = a_app a es.
Proof. unfold a_replace, a_app, a_last. f_equal. f_equal. apply ntake_all. lia. Qed.
Lemma a_app_nil a : a_app a [] = a.
Proof. unfold a_app. rewrite app_nil_r. destruct a; auto. Qed.
Lemma a_last_app a es : a_last (a_app a es) = a_last a + nlen es.
Proof. unfold a_last, a_app; cbn. rewrite nlen_app. lia. Qed.
Lemma a_term_app a es i : a_wf a -> i <= a_last a -> a_term (a_app a es) i = a_term a i.
Proof.
  intros Hw Hi. unfold a_term, a_entry, a_app; cbn. destruct (i =? a_base a); auto.
  destruct (N.ltb_spec (a_base a) i); auto. f_equal. apply nnth_app1. unfold a_last in Hi. lia.
Qed.

Lemma stamp_len t : forall es i, nlen (stamp t i es) = nlen es.
Proof. induction es as [|e es IH]; intros i; cbn [stamp]; auto. rewrite !nlen_cons, IH. auto. Qed.
Lemma stamp_contig t : forall es i, contig i (stamp t i es).
Proof.
  induction es as [|e es IH]; intros i; cbn [stamp]; [apply contig_nil|]. apply contig_cons. split; auto.
Qed.
Lemma stamp_term t : forall es i e, In e (stamp t i es) -> e_term e = t.
Proof. induction es as [|x es IH]; intros i e; cbn [stamp]; [intros []|]. intros [<-|H]; eauto. Qed.

Lemma linv_committed c l : linv l -> l_committed l <= c <= a_last (log_abs l) -> linv (set_l_committed c l).
Proof.
  intros [[W1 W2 W3 W4 W5] Ha Hs] Hc. constructor.
  - constructor; auto; cbn [l_committed set_l_committed l_applied]; [|lia]. rewrite log_abs_committed. lia.
  - exact Ha.
  - cbn [u_snap l_us set_l_committed l_st l_committed]. destruct (u_snap (l_us l)); auto. lia.
Qed.

(** MaybeCommit *)
Lemma commit_log_w r r' b : lwf (r_log r) -> 0 < r_term r -> raft_maybe_commit r = Ok (r', b) ->
  exists mci, trk_committed (r_trk r) = Ok mci /\
    b = (l_committed (r_log r) <? mci) && (a_term0 (log_abs (r_log r)) mci =? r_term r) /\
    r' = (if b then set_r_log (set_l_committed mci (r_log r)) r else r) /\ lwf (r_log r') /\
    (b = true -> a_term (log_abs (r_log r)) mci = Some (r_term r)).
Proof.
  intros Hw Ht H. unfold raft_maybe_commit in H. apply bind_ok in H. destruct H as (mci & Hm & H).
  apply bind_ok in H. destruct H as ([l b'] & Hl & H). inv H. exists mci. split; auto.
  pose proof (log_maybe_commit_abs mci (r_term r) (r_log r) Hw Ht) as HC.
  destruct ((l_committed (r_log r) <? mci) && (a_term0 (log_abs (r_log r)) mci =? r_term r)) eqn:Hb.
  - destruct HC as (A1 & A2 & A3). rewrite A2 in Hl. inv Hl. auto.
  - rewrite HC in Hl. inv Hl. split; auto. split; [destruct r; auto|]. split; [cbn; auto|discriminate].
Qed.
Lemma commit_log r r' b : linv (r_log r) -> 0 < r_term r -> raft_maybe_commit r = Ok (r', b) ->
  exists mci, trk_committed (r_trk r) = Ok mci /\
    b = (l_committed (r_log r) <? mci) && (a_term0 (log_abs (r_log r)) mci =? r_term r) /\
    r' = (if b then set_r_log (set_l_committed mci (r_log r)) r else r) /\ linv (r_log r') /\
    (b = true -> a_term (log_abs (r_log r)) mci = Some (r_term r)).
Proof.
  intros Hi Ht H. destruct (commit_log_w r r' b (li_wf _ Hi) Ht H) as (mci & A1 & A2 & A3 & A4 & A5).
  exists mci. split; [auto|]. split; [auto|]. split; [auto|]. split; auto. rewrite A3. destruct b; auto. cbn.
  apply linv_committed; auto. specialize (A5 eq_refl). apply a_term_range in A5. lia.
Qed.

Lemma log_append_tail es l l' i : lwf l -> contig (a_last (log_abs l) + 1) es -> log_append es l = Ok (l', i) ->
  l' = set_l_us (mkUnstable (u_snap (l_us l)) (u_ents (l_us l) ++ es) (u_off (l_us l))) l /\
  lwf l' /\ log_abs l' = a_app (log_abs l) es /\ i = a_last (log_abs l) + nlen es.
Proof.
  intros Hw Hc H. pose proof (lwf_0 _ Hw) as Hw0. destruct es as [|e0 es].
  - cbn in H. inv H. rewrite !a_app_nil, app_nil_r, log_last_abs by auto.
    split; [destruct l' as [? [] ? ? ?]; auto|]. split; auto. split; auto. nl.
  - pose proof (log_append_abs (e0 :: es) (a_last (log_abs l) + 1) l Hw Hc ltac:(discriminate) ltac:(lia)) as HA.
    destruct (lwf_com _ Hw) as [C1 C2].
    destruct (N.ltb_spec (a_last (log_abs l) + 1 - 1) (l_committed l)); [lia|].
    destruct (N.ltb_spec (a_last (log_abs l) + 1) (a_last (log_abs l) + 1)); [lia|].
    destruct HA as (l1 & A1 & A2 & A3 & A4 & A5 & A6 & A7 & A8). rewrite A1 in H. inv H.
    rewrite a_app_replace in A3. split; [|repeat split; auto; try apply A2; rewrite nlen_cons; lia].
    pose proof (log_off_abs _ Hw0) as [O1 O2].
    unfold log_append in A1. pose proof (Hc 0 e0 ltac:(apply nnth_cons0)) as Hx. rewrite N.add_0_r in Hx.
    destruct (_ <? _); [discriminate|]. apply bind_ok in A1. destruct A1 as (u & Hu & A1). inv A1.
    unfold us_truncate_and_append in Hu. rewrite Hx, O1, N.eqb_refl in Hu. inv Hu. auto.
Qed.

Definition tail_log (c : N) (es : list entry) (l : rlog) : rlog :=
  set_l_committed c (set_l_us (mkUnstable (u_snap (l_us l)) (u_ents (l_us l) ++ es) (u_off (l_us l))) l).

Lemma append_log_w es r r' : lwf (r_log r) -> 0 < r_term r -> append_entry es r = Ok (Some r') ->
  let a := log_abs (r_log r) in let l := r_log r in let l' := r_log r' in
  let es' := stamp (r_term r) (a_last a + 1) es in
  lwf l' /\ log_abs l' = a_app a es' /\ l' = tail_log (l_committed l') es' l /\
  exists pr pr' u mci, trk_get (r_id r) (r_trk r) = Some pr /\
    pr_maybe_update (a_last a + nlen es) pr = (pr', u) /\ r_trk r' = trk_put (r_id r) pr' (r_trk r) /\
    trk_committed (r_trk r') = Ok mci /\
    l_committed l' = (if (l_committed l <? mci) && (a_term0 (log_abs l') mci =? r_term r) then mci else l_committed l) /\
    l_committed l <= l_committed l' /\
    (l_committed l' <> l_committed l -> l_committed l' = mci /\ a_term (log_abs l') mci = Some (r_term r)) /\
    r_uncommitted r' = r_uncommitted r + payloads_size es' /\
    (0 < r_uncommitted r -> 0 < payloads_size es' -> r_uncommitted r + payloads_size es' <= k_max_uncommitted (r_cfg r)).
Proof.
  intros Hi Ht H. cbv zeta. apply append_entry_inv in H. cbv zeta in H.
  unfold r_last in H. rewrite log_last_abs in H by (apply lwf_0, Hi).
  set (es' := stamp (r_term r) (a_last (log_abs (r_log r)) + 1) es) in *.
  destruct H as (Hov & l0 & li & pr & pr' & u & b & H1 & H2 & H3 & H4).
  destruct (log_append_tail es' (r_log r) l0 li Hi (stamp_contig _ _ _) H1) as (A0&A1&A2&A3).
  assert (Hn : nlen es' = nlen es) by apply stamp_len.
  match type of H4 with raft_maybe_commit ?x = _ => hide x rx Ex end.
  assert (B : r_log rx = l0 /\ r_term rx = r_term r /\ r_trk rx = trk_put (r_id r) pr' (r_trk r) /\ r_uncommitted rx = r_uncommitted r + payloads_size es').
  { rewrite Ex. repeat split. }
  clear Ex. destruct B as (B1 & B2 & B3 & B4).
  destruct (commit_log_w rx r' b ltac:(rewrite B1; auto) ltac:(lia) H4) as (mci & C1 & C2 & C3 & C4 & C5).
  rewrite B1, B2 in *.
  assert (A5 : l_committed l0 = l_committed (r_log r)) by (rewrite A0; auto).
  assert (D : log_abs (r_log r') = log_abs l0 /\ r_trk r' = r_trk rx /\ r_uncommitted r' = r_uncommitted rx /\
     l_committed (r_log r') = (if b then mci else l_committed l0) /\ r_log r' = set_l_committed (if b then mci else l_committed l0) l0).
  { rewrite C3. destruct b; cbn; rewrite ?B1; repeat split; auto. destruct l0; auto. }
  destruct D as (D1&D6&D7&D8&D9).
  split; auto. split; [congruence|]. split; [rewrite D8, D9; unfold tail_log; rewrite A0; auto|].
  exists pr, pr', u, mci. split; auto. split; [rewrite <- Hn, <- A3; auto|]. split; [congruence|]. split; [congruence|].
  split; [rewrite D8, D1, A5, C2; rewrite A5; auto|].
  split. { rewrite D8, A5. destruct b; lia. }
  split. { rewrite D8, D1. intros Hx. destruct b; [auto|congruence]. }
  split; [congruence|]. intros. destruct (N.ltb_spec (k_max_uncommitted (r_cfg r)) (r_uncommitted r + payloads_size es')); [|lia].
  destruct (N.ltb_spec 0 (r_uncommitted r)); [|lia]. destruct (N.ltb_spec 0 (payloads_size es')); [|lia]. discriminate.
Qed.
Lemma append_log es r r' : linv (r_log r) -> 0 < r_term r -> append_entry es r = Ok (Some r') ->
  let a := log_abs (r_log r) in let l := r_log r in let l' := r_log r' in
  let es' := stamp (r_term r) (a_last a + 1) es in
  linv l' /\ log_abs l' = a_app a es' /\
  l_st l' = l_st l /\ l_applied l' = l_applied l /\ l_maxnext l' = l_maxnext l /\ u_snap (l_us l') = u_snap (l_us l) /\
  exists pr pr' u mci, trk_get (r_id r) (r_trk r) = Some pr /\
    pr_maybe_update (a_last a + nlen es) pr = (pr', u) /\ r_trk r' = trk_put (r_id r) pr' (r_trk r) /\
    trk_committed (r_trk r') = Ok mci /\
    l_committed l' = (if (l_committed l <? mci) && (a_term0 (log_abs l') mci =? r_term r) then mci else l_committed l) /\
    l_committed l <= l_committed l' /\
    (l_committed l' <> l_committed l -> l_committed l' = mci /\ a_term (log_abs l') mci = Some (r_term r)) /\
    r_uncommitted r' = r_uncommitted r + payloads_size es' /\
    (0 < r_uncommitted r -> 0 < payloads_size es' -> r_uncommitted r + payloads_size es' <= k_max_uncommitted (r_cfg r)).
Proof.
  intros Hi Ht H. cbv zeta. destruct (append_log_w es r r' (li_wf _ Hi) Ht H) as (A1 & A2 & A3 & X).
  cbv zeta in *. split.
  - destruct Hi as [_ Ha Hs]. destruct X as (pr & pr' & u & mci & _ & _ & _ & _ & _ & X & _).
    constructor; auto; [rewrite A3; auto|].
    replace (l_st (r_log r')) with (l_st (r_log r)) by (rewrite A3; auto).
    replace (u_snap (l_us (r_log r'))) with (u_snap (l_us (r_log r))) by (rewrite A3; auto).
    destruct (u_snap (l_us (r_log r))); auto. lia.
  - split; auto. split; [rewrite A3; auto|]. split; [rewrite A3; auto|]. split; [rewrite A3; auto|]. split; [rewrite A3; auto|]. exact X.
Qed.

(* ---------- follower side ---------- *)

Lemma a_term0_some a i t : a_term0 a i = t -> (t = 0 -> a_term a i <> None) -> a_term a i = Some t.
Proof. unfold a_term0. destruct (a_term a i); intros; subst; auto. exfalso. apply H0; auto. Qed.

Lemma maybe_append_log m l l' last : linv l -> app_wf m -> l_committed l <= m_index m ->
  log_maybe_append (m_index m) (m_logterm m) (m_commit m) (m_entries m) l = Ok (l', Some last) ->
  let a := log_abs l in let k := match_len a (m_entries m) in
  linv l' /\ last = m_index m + nlen (m_entries m) /\ a_term a (m_index m) = Some (m_logterm m) /\
  conflict_at a (m_entries m) k /\
  (k < nlen (m_entries m) -> l_committed l < m_index m + 1 + k) /\
  log_abs l' = (if k <? nlen (m_entries m) then a_replace a (m_index m + 1 + k) (ndrop k (m_entries m)) else a) /\
  l_committed l' = N.max (l_committed l) (N.min (m_commit m) last) /\
  l_applied l' = l_applied l /\ l_st l' = l_st l /\ l_maxnext l' = l_maxnext l /\ u_snap (l_us l') = u_snap (l_us l).
Proof.
  intros Hi (W1 & W2 & W3) Hc H. cbv zeta. pose proof (li_wf _ Hi) as Hw. pose proof (lwf_0 _ Hw) as Hw0.
  destruct (N.eqb_spec (a_term0 (log_abs l) (m_index m)) (m_logterm m)) as [Hm|Hm];
    [|rewrite log_maybe_append_mismatch in H; [discriminate|auto|auto]].
  assert (Ht : a_term (log_abs l) (m_index m) = Some (m_logterm m)).
  { apply a_term0_some; auto. intros Hz. specialize (W3 Hz). pose proof (lwf_com _ Hw).
    unfold a_term. destruct (N.eqb_spec (m_index m) (a_base (log_abs l))); [discriminate|lia]. }
  destruct (log_maybe_append_match (m_index m) (m_logterm m) (m_commit m) (m_entries m) l Hw W1 W2 Ht) as (k & K & HM).
  pose proof (conflict_at_unique _ _ _ _ K (match_len_spec (log_abs l) (m_entries m))) as Ek. subst k.
  destruct ((match_len (log_abs l) (m_entries m) <? nlen (m_entries m)) &&
            (m_index m + 1 + match_len (log_abs l) (m_entries m) <=? l_committed l)) eqn:Hb.
  { destruct HM as [w HM]. rewrite HM in H. discriminate. }
  destruct HM as (l1 & A1 & A2 & A3 & A4 & A5 & A6 & A7 & A8).
  pose proof (log_maybe_append_off _ _ _ _ _ _ _ A1) as Ho. rewrite A1 in H. inv H.
  split.
  - destruct Hi as [_ Ha Hs]. constructor; auto.
    + rewrite A5. pose proof (lwf_app _ Hw).
      destruct Ho as [O|O]; [|lia|lia]. intros e He. apply In_nnth in He. destruct He as [k Hk]. rewrite (W1 _ _ Hk). lia.
    + rewrite A8, A6, A4. destruct (u_snap (l_us l)); auto. lia.
  - split; [auto|]. split; [auto|]. split; [auto|]. split; [lia|]. split; [exact A3|]. split; [exact A4|]. auto 10.
Qed.

Lemma commit_to_log c l l' : linv l -> log_commit_to c l = Ok l' ->
  linv l' /\ l' = set_l_committed (N.max (l_committed l) c) l /\ c <= a_last (log_abs l).
Proof.
  intros Hi H. pose proof (log_commit_to_abs c l (li_wf _ Hi)) as HC.
  destruct (N.ltb_spec (a_last (log_abs l)) c); [destruct HC as [w HC]; congruence|].
  destruct HC as [HC HW]. rewrite HC in H. inv H. split; [|auto].
  apply linv_committed; auto. pose proof (lwf_com _ (li_wf _ Hi)). lia.
Qed.

Lemma restore_log s l : linv l -> l_committed l < sn_index s ->
  linv (log_restore s l) /\ log_abs (log_restore s l) = mkALog (sn_index s) (sn_term s) [].
Proof.
  intros [Hw Ha Hs] Hc. pose proof (lwf_app _ Hw) as Hap. destruct (log_restore_abs s l Hw ltac:(lia)) as [A B]. split; auto.
  constructor; auto; cbn; [lia|]. destruct (u_snap (l_us l)) as [s0|] eqn:Hu; [|lia].
  pose proof (lwf_com _ Hw) as Hc'. unfold log_abs in Hc'. rewrite Hu in Hc'. cbn in Hc'. lia.
Qed.

(** Everything in the log and in the storage carries a non-zero term. *)
Record apos (a : alog) : Prop := {
  ap_ents : forall e, In e (a_ents a) -> 0 < e_term e;
  ap_base : a_base a <> 0 -> 0 < a_bterm a
}.
Record lpos (l : rlog) : Prop := {
  lp_log : apos (log_abs l);
  lp_st : apos (ms_abs (l_st l));
  lp_snap : sn_index (ms_snap (l_st l)) <> 0 -> 0 < sn_term (ms_snap (l_st l));
  lp_pend : forall s, u_snap (l_us l) = Some s -> l_applied l < sn_index s
}.
Lemma apos_term a i t : apos a -> a_term a i = Some t -> i <> 0 -> 0 < t.
Proof.
  intros [P1 P2] H Hi. unfold a_term, a_entry in H. destruct (N.eqb_spec i (a_base a)) as [->|].
  - inv H. auto.
  - destruct (a_base a <? i); [|discriminate]. destruct (nnth _ _) as [e|] eqn:Hn; [|discriminate]. inv H.
    apply P1. eapply nnth_In; eauto.
Qed.
Lemma lpos_same l l' : log_abs l' = log_abs l -> l_st l' = l_st l -> l_applied l' = l_applied l ->
  u_snap (l_us l') = u_snap (l_us l) -> lpos l -> lpos l'.
Proof. intros H1 H2 H3 H4 []. constructor; rewrite ?H1, ?H2, ?H3, ?H4; auto. Qed.
Lemma in_replace a i es e : In e (a_ents (a_replace a i es)) -> In e (a_ents a) \/ In e es.
Proof.
  unfold a_replace; cbn. intros H. apply in_app_or in H. destruct H; auto. left.
  rewrite <- (ntake_ndrop (i - a_base a - 1) (a_ents a)). apply in_or_app; auto.
Qed.
Lemma lpos_replace i es l l' : log_abs l' = a_replace (log_abs l) i es -> l_st l' = l_st l ->
  l_applied l' = l_applied l -> u_snap (l_us l') = u_snap (l_us l) ->
  (forall e, In e es -> 0 < e_term e) -> lpos l -> lpos l'.
Proof.
  intros H1 H2 H4 H5 H3 [[P1 P2] P3 P4 P5]. constructor; rewrite ?H1, ?H2, ?H4, ?H5; auto.
  constructor; auto. intros e He. apply in_replace in He. destruct He; auto.
Qed.

Record ninv (r : raft) : Prop := {
  ni_log : linv (r_log r);
  ni_pos : lpos (r_log r);
  ni_term : r_state r = RLeader \/ r_state r = RCandidate -> 0 < r_term r
}.

(** What a primitive transition does to the log, and under which conditions. *)
Inductive leff (im : msg) (r r' : raft) : Prop :=
| LeSame : r_log r' = r_log r -> leff im r r'
| LeAppend es mci pr pr' u t0 :
    r_state r' = RLeader -> r_term r' = r_term r -> 0 < r_term r ->
    (r_state r = RLeader /\ (m_type im = MsgProp /\ t0 = r_trk r) \/
     r_state r = RCandidate /\ es = [empty_entry] /\ t_config t0 = t_config (r_trk r) /\
       tc_vote_result (t_config (r_trk r)) (t_votes (r_trk r)) = VoteWon) ->
    r_log r' = tail_log (l_committed (r_log r')) (stamp (r_term r) (a_last (log_abs (r_log r)) + 1) es) (r_log r) ->
    log_abs (r_log r') = a_app (log_abs (r_log r)) (stamp (r_term r) (a_last (log_abs (r_log r)) + 1) es) ->
    trk_get (r_id r) t0 = Some pr -> pr_maybe_update (a_last (log_abs (r_log r)) + nlen es) pr = (pr', u) ->
    r_trk r' = trk_put (r_id r) pr' t0 -> trk_committed (r_trk r') = Ok mci ->
    l_committed (r_log r) <= l_committed (r_log r') ->
    (l_committed (r_log r') <> l_committed (r_log r) ->
       l_committed (r_log r') = mci /\ a_term (log_abs (r_log r')) mci = Some (r_term r)) ->
    leff im r r'
| LeCommit mci : r_state r = RLeader -> 0 < r_term r -> l_committed (r_log r) < mci ->
    trk_committed (r_trk r) = Ok mci -> a_term (log_abs (r_log r)) mci = Some (r_term r) ->
    r' = set_r_log (set_l_committed mci (r_log r)) r -> leff im r r'
| LeApp l : m_type im = MsgApp -> m_term im = r_term r -> r_state r = RFollower ->
    l_committed (r_log r) <= m_index im ->
    a_term (log_abs (r_log r)) (m_index im) = Some (m_logterm im) ->
    (let a := log_abs (r_log r) in let k := match_len a (m_entries im) in
     let last := m_index im + nlen (m_entries im) in
     conflict_at a (m_entries im) k /\
     (k < nlen (m_entries im) -> l_committed (r_log r) < m_index im + 1 + k) /\
     log_abs l = (if k <? nlen (m_entries im) then a_replace a (m_index im + 1 + k) (ndrop k (m_entries im)) else a) /\
     l_committed l = N.max (l_committed (r_log r)) (N.min (m_commit im) last) /\
     l_applied l = l_applied (r_log r) /\ l_st l = l_st (r_log r) /\ l_maxnext l = l_maxnext (r_log r) /\
     u_snap (l_us l) = u_snap (l_us (r_log r)) /\
     r' = emit (app_resp im last r) (set_r_log l r)) -> leff im r r'
| LeBeat c : (m_type im = MsgHeartbeat /\ c = m_commit im \/
              m_type im = MsgSnap /\ c = sn_index (m_snap im) /\ l_committed (r_log r) < c /\
                a_term (log_abs (r_log r)) c = Some (sn_term (m_snap im))) ->
    m_term im = r_term r -> r_state r = RFollower -> c <= a_last (log_abs (r_log r)) ->
    r_log r' = set_l_committed (N.max (l_committed (r_log r)) c) (r_log r) -> leff im r r'
| LeRestore r1 : m_type im = MsgSnap -> m_term im = r_term r -> r_state r = RFollower ->
    l_committed (r_log r) < sn_index (m_snap im) ->
    a_term (log_abs (r_log r)) (sn_index (m_snap im)) <> Some (sn_term (m_snap im)) ->
    raft_restore (m_snap im) r = Ok (r1, true) -> r_log r1 = log_restore (m_snap im) (r_log r) ->
    log_abs (r_log r') = mkALog (sn_index (m_snap im)) (sn_term (m_snap im)) [] ->
    r' = emit (app_resp im (r_last r1) r1) r1 -> leff im r r'.

Lemma ninv_same r r' : r_log r' = r_log r -> r_term r' = r_term r -> r_state r' = r_state r -> ninv r -> ninv r'.
Proof. intros H1 H2 H3 []. constructor; rewrite ?H1, ?H2, ?H3; auto. Qed.
Lemma ninv_follower r r' : r_log r' = r_log r -> r_state r' = RFollower \/ r_state r' = RPreCandidate -> ninv r -> ninv r'.
Proof. intros H1 H2 []. constructor; rewrite ?H1; auto. intros [X|X]; destruct H2; congruence. Qed.

Lemma ninv_append es r r' : ninv r -> 0 < r_term r -> append_entry es r = Ok (Some r') -> ninv r'.
Proof.
  intros [N1 N2 N3] Ht H. destruct (append_log es r r' N1 Ht H) as (A1&A2&A3&A4&A5&A6&_).
  destruct (append_entry_fields _ _ _ H) as (l & p & u & E0). constructor; auto.
  - rewrite <- a_app_replace in A2. eapply lpos_replace; eauto. intros e He. apply stamp_term in He. lia.
  - rewrite E0. cbn. auto.
Qed.

Lemma prim_log im r r' : log_msg_wf im -> ninv r -> prim im r r' -> ninv r' /\ leff im r r'.
Proof.
  intros [Hw1 Hw2] Hn H. pose proof Hn as [N1 N2 N3].
  destruct H as [r' K|r' Hl S|m Hm|t l Ht _|r' Hc|r' Hc|Hs|Hs|to lt ctx Hs Hlt Hz|Ht Hm Hz Hv Hu|r' Hs Hv Hb|
                 es r1 r' Hs Ht He Hf Ha|p p' Hs Ht Hr Hm Hg|r' b Hs Hc|Hg Hm Hs|l last Ht Hm Hs Hc Ha|
                 l Ht Hm Hs Hc|l Ht Hm Hs Hc Hmt Hct|r1 Ht Hm Hs Hr];
    try (split; [apply (ninv_same r); auto; fail|apply LeSame; reflexivity]).
  - destruct K. split; [eapply ninv_same; eauto|apply LeSame; auto].
  - destruct S as [[] _ _ _]. split; [eapply ninv_same; eauto|apply LeSame; auto].
  - hide (become_follower t l r) rx Ex. destruct (become_follower_fields t l r _ Ex) as (A1&A2&A3&A4&A5&_).
    clear Ex. split; [eapply ninv_follower; eauto|apply LeSame; auto].
  - apply become_candidate_all in Hc. destruct Hc as (A0&A1&A2&A3&A4&A5&A6&A7&_). split; [|apply LeSame; auto].
    constructor; rewrite ?A4; auto. intros _. lia.
  - apply become_pre_all in Hc. destruct Hc as (A0&A1&A2&A3&A4&A5&A6&A7&_). split; [eapply ninv_follower; eauto|apply LeSame; auto].
  - specialize (N3 (or_intror Hs)). apply become_leader_inv in Hb. destruct Hb as (pr & r1 & u & B1 & B2 & B3 & B4).
    hide (reset (r_term r) r) r0 Er0. destruct (reset_fields _ _ _ Er0) as (C1&C2&C3&C4&C5&C6&C7&C8&C9&C10&C11). clear Er0.
    match type of B3 with append_entry _ ?x = _ => hide x rx Ex end.
    assert (G : r_log rx = r_log r /\ r_term rx = r_term r /\ r_id rx = r_id r /\ t_config (r_trk rx) = t_config (r_trk r) /\ r_state rx = RLeader).
    { rewrite Ex. unfold r_id in *. cbn. rewrite ?C4, ?C2, ?C1, ?C8. auto. }
    clear Ex. destruct G as (G1 & G2 & G3 & G4 & G5).
    assert (Hnx : ninv rx) by (constructor; rewrite ?G1, ?G2; auto).
    assert (Hr : r_log r' = r_log r1 /\ r_term r' = r_term r1 /\ r_state r' = r_state r1 /\ r_trk r' = r_trk r1) by (rewrite B4; auto).
    destruct Hr as (R1 & R2 & R3 & R4). clear B4.
    destruct (append_entry_fields _ _ _ B3) as (lx & px & ux & Ef).
    assert (R5 : r_term r1 = r_term rx /\ r_state r1 = r_state rx) by (rewrite Ef; auto). destruct R5 as [R5 R6]. clear Ef.
    split; [apply (ninv_same r1); auto; refine (ninv_append _ _ _ Hnx _ B3); congruence|].
    destruct (append_log _ _ _ (ni_log _ Hnx) ltac:(rewrite G2; auto) B3) as (A1&A2&A3&A4&A5&A6&pr1&pr2&u2&mci&D1&D2&D3&D4&D5&D6&D7&D8&D9).
    destruct (append_log_w _ _ _ (li_wf _ (ni_log _ Hnx)) ltac:(rewrite G2; auto) B3) as (_&_&A7&_).
    cbv zeta in *. rewrite G1, G2, G3 in *.
    eapply (LeAppend im r r' [empty_entry] mci pr1 pr2 u2 (r_trk rx)); rewrite ?R1, ?R2, ?R3, ?R4; auto; try congruence.
  - destruct (filter_prop_fields _ _ _ _ _ Hf) as [k ->].
    assert (Hk : ninv (set_r_pending_conf k r)) by (apply (ninv_same r); auto).
    destruct Ha as [Ha|[_ ->]]; [|split; auto; apply LeSame; auto].
    specialize (N3 (or_introl Hs)).
    split; [eapply ninv_append; eauto|].
    destruct (append_entry_fields _ _ _ Ha) as (lx & px & ux & Ef).
    assert (R5 : r_term r' = r_term r /\ r_state r' = r_state r) by (rewrite Ef; auto). destruct R5 as [R5 R6]. clear Ef.
    destruct (append_log _ _ _ (ni_log _ Hk) N3 Ha) as (A1&A2&A3&A4&A5&A6&pr1&pr2&u2&mci&D1&D2&D3&D4&D5&D6&D7&D8&D9).
    destruct (append_log_w _ _ _ (li_wf _ (ni_log _ Hk)) N3 Ha) as (_&_&A7&_). cbv zeta in *.
    eapply (LeAppend im r r' es mci pr1 pr2 u2 (r_trk r)); auto. congruence.
  - specialize (N3 (or_introl Hs)). destruct (commit_log r r' b N1 N3 Hc) as (mci & C1 & C2 & C3 & C4 & C5).
    split.
    + constructor; auto; [eapply lpos_same; [| | | |exact N2]|]; rewrite C3; destruct b; auto.
    + destruct b; [|apply LeSame; rewrite C3; auto]. eapply LeCommit; eauto. lia.
  - destruct (maybe_append_log im (r_log r) l last N1 (Hw1 Ht) Hc Ha) as (A1&A2&A3&A4&A5&A6&A7&A8&A9&A10&A11).
    split.
    + constructor; cbn; auto. destruct (_ <? _); [|eapply lpos_same; eauto].
      eapply lpos_replace; eauto. intros e He. apply (Hw1 Ht).
      match type of He with In _ (ndrop ?k _) => rewrite <- (ntake_ndrop k (m_entries im)) end. apply in_or_app; auto.
    + subst last. eapply (LeApp im r _ l); auto. cbv zeta. auto 20.
  - destruct (commit_to_log _ _ _ N1 Hc) as (A1 & A2 & A3). split.
    + constructor; cbn; auto. eapply lpos_same; [| | | |exact N2]; rewrite A2; auto.
    + eapply (LeBeat im r _ (m_commit im)); auto.
  - destruct (commit_to_log _ _ _ N1 Hct) as (A1 & A2 & A3). split.
    + constructor; cbn; auto. eapply lpos_same; [| | | |exact N2]; rewrite A2; auto.
    + eapply (LeBeat im r _ (sn_index (m_snap im))); auto. right. split; auto. split; auto. split; auto.
      rewrite log_match_term_abs in Hmt by (apply lwf_0, N1). apply Ok_inj in Hmt.
      apply a_term0_some; [apply N.eqb_eq; auto|]. intros Hz. exfalso. specialize (Hw2 Ht ltac:(lia)). lia.
  - pose proof (restore_inv _ _ _ Hs Hr) as (B1 & _ & B2 & _).
    destruct (restore_fields _ _ _ Hs Hr) as (A1&A2&A3&A4&A5&A6&A7).
    destruct (restore_log (m_snap im) (r_log r) N1 B1) as [C1 C2].
    split.
    + constructor; cbn; rewrite ?A4, ?A2; auto; [|rewrite A5; intros [X|X]; discriminate].
      destruct N2 as [P1 P2 P3 P4]. constructor; rewrite ?C2; cbn; auto; [|intros s Hx; inv Hx; pose proof (lwf_app _ (li_wf _ N1)); lia].
      constructor; cbn; auto; tauto.
    + eapply LeRestore; eauto; cbn [r_log emit set_r_msgs]; rewrite ?A4; auto.
      rewrite log_match_term_abs in B2 by (apply lwf_0, N1). apply Ok_inj in B2. unfold a_term0 in B2.
      destruct (a_term _ _); [|discriminate]. intros X. inv X. lia.
Qed.
Lemma ninv_prim im r r' : log_msg_wf im -> ninv r -> prim im r r' -> ninv r'.
Proof. intros. eapply prim_log; eauto. Qed.
Lemma ninv_prims im r r' : log_msg_wf im -> ninv r -> prims im r r' -> ninv r'.
Proof. intros Hw Hn H. revert Hn. apply (prims_ind_inv im ninv); auto. intros; eapply ninv_prim; eauto. Qed.

(** The part of the log no call but GetReady/Advance touches; the commit index only grows. *)
Record lkeep (l l' : rlog) : Prop := {
  lk_com : l_committed l <= l_committed l';
  lk_app : l_applied l' = l_applied l;
  lk_st : l_st l' = l_st l;
  lk_max : l_maxnext l' = l_maxnext l;
  lk_snap : forall s, u_snap (l_us l') = Some s -> u_snap (l_us l) = Some s \/ l_committed l < sn_index s;
  lk_base : u_snap (l_us l') = None -> u_snap (l_us l) = None /\ a_base (log_abs l') = a_base (log_abs l);
  lk_bmono : a_base (log_abs l) <= a_base (log_abs l');
  lk_pref : forall i, a_base (log_abs l') < i -> i <= l_committed l -> a_entry (log_abs l') i = a_entry (log_abs l) i
}.
Lemma lkeep_refl l : lkeep l l. Proof. constructor; auto; try lia. Qed.
Lemma lkeep_trans a b c : lkeep a b -> lkeep b c -> lkeep a c.
Proof.
  intros [A1 A2 A3 A4 A5 A6 A7 A8] [B1 B2 B3 B4 B5 B6 B7 B8]. constructor; try congruence; try lia.
  - intros s Hs. destruct (B5 s Hs) as [X|X]; [auto|right; lia].
  - intros Hs. destruct (B6 Hs) as [X1 X2]. destruct (A6 X1). split; congruence.
  - intros i H1 H2. rewrite B8 by lia. apply A8; lia.
Qed.
Lemma a_entry_app a es i : i <= a_last a -> a_entry (a_app a es) i = a_entry a i.
Proof.
  unfold a_entry, a_app, a_last; cbn. intros. destruct (N.ltb_spec (a_base a) i); auto. rewrite nnth_app1 by lia. auto.
Qed.
Lemma a_entry_replace a j es i : i < j -> i <= a_last a -> a_entry (a_replace a j es) i = a_entry a i.
Proof.
  unfold a_entry, a_replace, a_last; cbn. intros. destruct (N.ltb_spec (a_base a) i); auto.
  rewrite nnth_app1 by (rewrite nlen_ntake; lia). rewrite nnth_ntake.
  destruct (N.ltb_spec (i - a_base a - 1) (j - a_base a - 1)); auto; lia.
Qed.
Lemma leff_keep im r r' : ninv r -> leff im r r' -> lkeep (r_log r) (r_log r').
Proof.
  intros Hn. pose proof (lwf_com _ (li_wf _ (ni_log _ Hn))) as Hc.
  intros [H|es mci pr pr' u t0 H1 H2 H3 H4 H5 H6 H7 H8 H9 H10 H11 H12|mci H1 H2 H3 H4 H5 H6|l H1 H2 H3 H4 H5 H6|c H1 H2 H3 H4 H5|r1 H1 H2 H3 H4 H5 H6 H7 H8 H9].
  - rewrite H. apply lkeep_refl.
  - constructor; auto; try (rewrite H5; auto; fail).
    + intros Hs. rewrite H6. split; [|reflexivity]. rewrite H5 in Hs. auto.
    + rewrite H6. cbn. lia.
    + intros i Hi Hi2. rewrite H6. apply a_entry_app. lia.
  - rewrite H6. constructor; cbn; auto; try lia. change (log_abs (set_l_committed mci (r_log r))) with (log_abs (r_log r)). lia.
  - cbv zeta in H6. destruct H6 as (A1&A2&A3&A4&A5&A6&A7&A8&->). constructor; cbn; auto; rewrite ?A8; auto; try lia.
    + intros Hs. split; auto. rewrite A3. destruct (_ <? _); auto.
    + rewrite A3. destruct (_ <? _); cbn; lia.
    + intros i Hi Hi2. rewrite A3. destruct (N.ltb_spec (match_len (log_abs (r_log r)) (m_entries im)) (nlen (m_entries im))); auto.
      apply a_entry_replace; lia.
  - rewrite H5. constructor; cbn; auto; try lia. change (log_abs (set_l_committed (N.max (l_committed (r_log r)) c) (r_log r))) with (log_abs (r_log r)). lia.
  - rewrite H9 in *. cbn [r_log emit set_r_msgs] in *. rewrite H7 in *. constructor; cbn; auto; rewrite ?H8; cbn; try lia.
    + intros s Hs. inv Hs. auto.
    + discriminate.

Qed.
End NodeLog.
