(** Catching a member up over a link (C74). *)
From Coq Require Import Sorting.Sorted.
From Verif Require Import Prelude Types M_Util M_Quorum M_Inflights M_Progress M_Tracker.
From Verif Require Import M_Storage M_Unstable M_Log M_ReadOnly M_ConfPb M_ConfChange M_Raft M_RawNode.
From Verif Require Import P_Inflights Spec_Log P_Lists P_Storage P_Log Spec_Storage Sys_Storage P_StorageSeq Spec_RaftLog Sys_RaftLog P_RaftLogSeq.
From Verif Require Import Spec_Quorum P_Quorum Spec_Progress Spec_ConfChange P_ConfChange Spec_Inflights Sys_ConfChange.
From Verif Require Import P_Frame P_Prim Sys_Node P_Node P_Fields P_Vote Spec_Node P_Persist P_New P_Time P_NodeLog P_Handle P_NodeRun P_Emit P_Lead P_Ack P_Flow P_Window P_FlowRun P_Elect P_Beat P_Commit P_Feed P_Bcast.
From Verif Require Import Prop_Vote Prop_Deliver Prop_Msg Prop_Flow Prop_Elect Prop_Beat Prop_Commit Prop_Leader R_Elig Spec_Flow Spec_Beat Spec_Commit Spec_Feed Spec_Snap Spec_Resp Prop_Answer Prop_Feed Spec_Probe Spec_Link Prop_Probe Prop_Snap Prop_Made P_Quiet Sys_Cluster Spec_Cluster A_Proto R_Log R_Sim R_Node R_Cluster Prop_Cluster Ex_Env Ex_Node Ex_Check Ex_Case.

Section Props.
Context {E : Env}.

Lemma made_id c n n' : made c n -> made c n' -> node_id n' = node_id n.
Proof.
  intros M M'. change (k_id (r_cfg (rn_raft n')) = k_id (r_cfg (rn_raft n))).
  rewrite (mi_cfg _ _ (made_inv _ _ M)), (mi_cfg _ _ (made_inv _ _ M')). reflexivity.
Qed.
Lemma made_dinv c n : made c n -> dinv n. Proof. intros M. apply node_at_dinv, (made_node_at _ _ M). Qed.
Lemma tm_holds n i e : dinv n -> holds_entry n i e -> tm n i = e_term e /\ i <= node_last n.
Proof.
  intros D H. apply holds_abs in H; auto. unfold node_last. rewrite log_last_abs by (apply lwf_0, li_wf, ni_log, di_ninv; auto).
  unfold tm, a_term0, a_term. pose proof H as H0. unfold a_entry in H. destruct (N.ltb_spec (a_base (log_abs (r_log (rn_raft n)))) i); [|discriminate].
  destruct (N.eqb_spec i (a_base (log_abs (r_log (rn_raft n))))); [lia|]. rewrite H0. cbn. split; [reflexivity|]. apply nnth_Some_lt in H. unfold a_last. lia.
Qed.

(** ** The member accepts *)
Lemma accepted c F x F' a : made c F -> replies F x F' a -> m_type x = MsgApp -> m_reject a = false ->
  made c F' /\ m_type a = MsgAppResp /\ m_from a = node_id F /\ m_term a = m_term x /\
  ((m_index x < node_commit F /\ m_index a = node_commit F /\ (forall i, tm F' i = tm F i) /\ node_last F' = node_last F /\ node_commit F' = node_commit F) \/
   (node_commit F <= m_index x /\ m_index a = m_index x + nlen (m_entries x) /\ m_index a <= node_last F' /\ node_commit F' <= m_index a /\ tm F (m_index x) = m_logterm x /\
    (m_entries x = [] -> tm F' (m_index x) = m_logterm x) /\ (forall e, In e (m_entries x) -> tm F' (e_index e) = e_term e))).
Proof.
  intros M (Hk & Hl & out & H & Hp) Ht Hr. pose proof (made_node_at _ _ M) as Ha. pose proof (made_dinv _ _ M) as D.
  pose proof (made_step _ _ _ _ _ M Hk H) as M'. pose proof (made_dinv _ _ M') as D'. split; [exact M'|].
  destruct (C58_append_answered _ _ _ _ Ha Hk Ht H Hl) as (_ & a' & A1 & (A2 & A3 & A4) & A5 & A6).
  rewrite Hp in A1. apply app_inv_head in A1. injection A1 as <-. split; [exact A5|]. split; [exact A3|]. split; [exact A4|].
  destruct (nstep_raft _ _ _ _ (or_introl Ht) (proj1 Hk) H) as (Hz & r' & e & Hs & HF').
  apply lead_step in Hs; auto. destruct Hl as [L1 L2]. change (r_term (rn_raft F) <= m_term x) in L1. change (~ (m_term x = r_term (rn_raft F) /\ r_state (rn_raft F) = RLeader)) in L2.
  destruct Hs as [[X _]|[(H1 & H2 & _)|(_ & _ & r0 & C1 & C2 & C3 & C4 & C5 & C6 & C7 & Hh)]]; [lia|tauto|].
  unfold lead_handle in Hh. rewrite Ht in Hh. unfold handle_append_entries in Hh. rewrite C2 in Hh.
  destruct A6 as [(B1 & _ & B3 & B4 & B5)|[(B1 & B2 & _ & B4 & B5 & _ & _ & B6 & B7)|(_ & _ & B & _)]]; [left|right|congruence].
  - change (node_commit F) with (l_committed (r_log (rn_raft F))) in B1. destruct (N.ltb_spec (m_index x) (l_committed (r_log (rn_raft F)))); [|lia].
    apply send_ok in Hh. destruct Hh as [-> _]. assert (Q : r_log (rn_raft F') = r_log (rn_raft F)) by (rewrite HF'; exact C2).
    split; [exact B1|]. split; [exact B3|]. split; [intros i; unfold tm; rewrite Q; reflexivity|]. split; [unfold node_last; rewrite Q; reflexivity|exact B5].
  - split; [exact B1|]. split; [exact B4|]. split; [exact B5|]. split; [lia|]. unfold has_prev in B2. rewrite (tm_shows _ _ _ D) in B2. split; [exact B2|].
    split; [|intros e0 He; destruct (B6 _ He) as (y & Y1 & Y2 & _); destruct (tm_holds _ _ _ D' Y1); congruence].
    intros En. rewrite En in Hh. change (node_commit F) with (l_committed (r_log (rn_raft F))) in B1. destruct (N.ltb_spec (m_index x) (l_committed (r_log (rn_raft F)))); [lia|].
    pose proof (li_wf _ (ni_log _ (di_ninv _ D))) as W. destruct Hk as [_ [Hw _]]. destruct (Hw Ht) as (_ & _ & W3).
    assert (Hm : a_term (log_abs (r_log (rn_raft F))) (m_index x) = Some (m_logterm x)).
    { unfold tm, a_term0 in B2. destruct (a_term (log_abs (r_log (rn_raft F))) (m_index x)) eqn:Q; [congruence|].
      symmetry in B2. apply W3 in B2. destruct (a_term_in (log_abs (r_log (rn_raft F))) (m_index x)) as [t Qt]; [|congruence].
      pose proof (proj1 (lwf_com _ W)). rewrite B2 in *. lia. }
    destruct (log_maybe_append_match (m_index x) (m_logterm x) (m_commit x) [] _ W ltac:(intros ? ? Z; unfold nnth in Z; destruct (N.to_nat k); discriminate) ltac:(intros ? []) Hm) as (k & _ & G).
    rewrite nlen_nil in G. destruct (N.ltb_spec k 0); [lia|]. cbn [andb] in G. destruct G as (l' & G & _ & Gl & _).
    rewrite G in Hh. cbn [bind] in Hh. apply send_ok in Hh. destruct Hh as [-> _]. subst F'. unfold tm. cbn. rewrite Gl. exact B2.
Qed.
(** The member refuses. *)
Lemma refused c F x F' a : made c F -> replies F x F' a -> m_type x = MsgApp -> m_reject a = true ->
  shows F 0 0 -> forall j, m_hint a < j -> j <= N.min (m_index x) (node_last F) -> m_logterm x < tm F j.
Proof.
  intros M (Hk & Hl & out & H & Hp) Ht Hr F0 j J1 J2. pose proof (made_dinv _ _ M) as D.
  destruct (C58_append_answered _ _ _ _ (made_node_at _ _ M) Hk Ht H Hl) as (_ & a' & A1 & (A2 & A3 & A4) & A5 & A6).
  rewrite Hp in A1. apply app_inv_head in A1. injection A1 as <-.
  destruct A6 as [(_ & A6 & _)|[(_ & _ & A6 & _)|(B1 & B2 & _ & B4 & _ & _ & B7 & B8)]]; [congruence|congruence|].
  destruct (B8 F0) as (_ & _ & B9). apply (B9 j _ J1 J2). apply tm_shows; auto.
Qed.

(** ** The leader gets the answer *)
Definition stays (L L' : rawnode) : Prop :=
  node_role L' = RLeader /\ node_term L' = node_term L /\ log_abs (r_log (rn_raft L')) = log_abs (r_log (rn_raft L)).
Lemma stays_log c L L' : made c L -> made c L' -> stays L L' -> (forall i, tm L' i = tm L i) /\ node_last L' = node_last L /\ node_first L' = node_first L /\
  (forall i e, holds_entry L' i e <-> holds_entry L i e) /\ (forall i t, shows L' i t <-> shows L i t) /\ (forall x, carries L' x <-> carries L x).
Proof.
  intros M M' (_ & _ & Q). pose proof (made_dinv _ _ M) as D. pose proof (made_dinv _ _ M') as D'.
  destruct (same_log_abs _ _ D D' Q) as (S1 & S2 & S3).
  assert (T : forall i, tm L' i = tm L i) by (intros i; unfold tm; rewrite Q; reflexivity).
  assert (Sh : forall i t, shows L' i t <-> shows L i t) by (intros; rewrite !tm_shows by auto; rewrite T; tauto).
  repeat (split; [assumption|]). intros x. unfold carries, has_prev. rewrite S1, S2, Sh. split; intros (X1 & X2 & X3 & X4); repeat split; auto; intros e He; apply S3; auto.
Qed.
Lemma accept_stays m p r r' : m_reject m = false -> leader_app_resp m p r = Ok r' ->
  r_state r' = r_state r /\ r_term r' = r_term r /\ log_abs (r_log r') = log_abs (r_log r).
Proof.
  intros Hr H. unfold leader_app_resp in H. rewrite Hr in H. unfold leader_app_resp_accept in H. cbv zeta in H.
  destruct (pr_maybe_update (m_index m) (set_p_active true p)) as [p1 u]. destruct u; [|apply Ok_inj in H; subst r'; auto].
  apply bind_ok in H. destruct H as (p2 & _ & H). apply bind_ok in H. destruct H as ([r2 cm] & Hc & H). apply commit_last in Hc. destruct Hc as (k & Hc).
  apply bind_ok in H. destruct H as (r3 & H3 & H). apply bind_ok in H. destruct H as (r4 & H4 & H).
  assert (F2 : r_state r2 = r_state r /\ r_term r2 = r_term r /\ log_abs (r_log r2) = log_abs (r_log r)) by (rewrite Hc; auto). clear Hc.
  assert (S3 : sends r2 r3).
  { destruct cm; [|match type of H3 with (if ?c then _ else _) = _ => destruct c end; [eapply send_append_sends; eauto|inv H3; apply sends_refl]].
    apply bind_ok in H3. destruct H3 as (r5 & H5 & H3). eapply sends_trans; [apply release_sends; eauto|eapply bcast_append_sends; eauto]. }
  pose proof (sd_same _ _ S3) as Q3. pose proof (sd_same _ _ (send_all_sends _ _ _ _ H4)) as Q4.
  assert (Q : r_state r' = r_state r4 /\ r_term r' = r_term r4 /\ r_log r' = r_log r4).
  { match type of H with (if ?c then _ else _) = _ => destruct c end; [apply send_ok in H; destruct H as [-> _]; auto|inv H; auto]. }
  destruct Q as (-> & -> & ->). rewrite (sm_state _ _ Q4), (sm_state _ _ Q3), (sm_term _ _ Q4), (sm_term _ _ Q3), (sm_log _ _ Q4), (sm_log _ _ Q3). exact F2.
Qed.
(** Nothing new. *)
Lemma old_ack c L a L' out new p : made c L -> node_role L = RLeader -> m_from a <> node_id L -> peer L (m_from a) = Some p ->
  m_type a = MsgAppResp -> m_term a = node_term L -> m_reject a = false -> m_index a = p_match p -> p_match p < p_next p ->
  nop_ok (NStep a) L -> n_step (NStep a) L = Ok (L', out) -> pending L' = pending L ++ new ->
  made c L' /\ stays L L' /\ new = [] /\ peer L' (m_from a) = Some (set_p_active true p).
Proof.
  intros M R Hid Hp Ht T Hr Hi Hn Hk H Hnew. pose proof (made_step _ _ _ _ _ M Hk H) as M'. split; [exact M'|].
  destruct (peer_win _ _ _ _ M R Hid Hp) as (G & _).
  destruct (nstep_resp _ _ _ _ _ (or_introl Ht) (proj1 Hk) R T G H) as (r' & H1 & HL). rewrite Ht in H1.
  destruct (accept_stays _ _ _ _ Hr H1) as (S1 & S2 & S3).
  assert (RL : node_role L' = RLeader) by (subst L'; change (r_state r' = RLeader); rewrite S1; exact R).
  split; [split; [exact RL|]; subst L'; split; [exact S2|exact S3]|].
  unfold leader_app_resp in H1. rewrite Hr in H1. unfold leader_app_resp_accept, pr_maybe_update in H1. cbn [p_match set_p_active p_next] in H1.
  destruct (N.ltb_spec (p_match p) (m_index a)); [lia|]. apply Ok_inj in H1. subst r'. rewrite peer_get by exact RL. subst L'.
  split. { unfold pending in Hnew. cbn [rn_raft set_rn_raft] in Hnew. change (r_msgs (rn_raft L) = r_msgs (rn_raft L) ++ new) in Hnew.
    rewrite <- (app_nil_r (r_msgs (rn_raft L))) in Hnew at 1. apply app_inv_head in Hnew. auto. }
  cbn [rn_raft set_rn_raft]. rewrite get_put. f_equal. cbn [fst p_next set_p_active].
  replace (N.max (p_next p) (m_index a + 1)) with (p_next p) by lia. destruct p; reflexivity.
Qed.

(** No snapshot is sent while replicating from an index the leader's log has. *)
Definition onapp (to : N) (r : raft) : Prop :=
  exists p, trk_get to (r_trk r) = Some p /\ p_state p = StReplicate /\ log_first (r_log r) <= p_next p.
Lemma onapp_eq to r r' : r_trk r' = r_trk r -> r_log r' = r_log r -> onapp to r -> onapp to r'.
Proof. intros H1 H2 (p & A & B & C). exists p. rewrite H1, H2. auto. Qed.
Lemma msa_onapp to id b r r' x : lwf0 (r_log r) -> onapp to r -> maybe_send_append id b r = Ok (r', x) -> onapp to r' /\ r_log r' = r_log r.
Proof.
  intros W (p & G & Hs & Hf) H. pose proof W as W0.
  assert (El : r_log r' = r_log r) by apply (sd_same _ _ (maybe_send_append_sends _ _ _ _ _ H)). split; [|exact El].
  destruct (N.eq_dec to id) as [<-|Hne].
  2:{ exists p. rewrite (maybe_send_other _ _ _ _ _ _ H Hne), El. auto. }
  unfold maybe_send_append in H. rewrite G in H. destruct (pr_is_paused p); [injection H as <- _; exists p; auto|].
  rewrite log_term_abs in H by auto. rewrite log_entries_abs in H by (auto; rewrite <- log_first_abs; exact Hf). cbn [bind] in H. cbv zeta in H.
  match type of H with (if ?c then _ else _) = _ => destruct c end; [injection H as <- _; exists p; auto|].
  apply bind_ok in H. destruct H as (r1 & H & Hx). assert (r1 = r') by congruence. subst r1. clear Hx.
  unfold send_app_msg in H. match type of H with context [rev ?l] => set (es := l) in *; destruct (rev es) as [|e t] eqn:Hr end.
  { apply send_ok in H. destruct H as [-> _]. exists p. auto. }
  rewrite Hs in H. apply bind_ok in H. destruct H as (inf & Hi & H). apply send_ok in H. destruct H as [-> _].
  exists (set_p_infl inf (pr_optimistic_update (e_index e) p)). split; [apply (get_put to _ r)|]. split; [exact Hs|].
  cbn [emit r_log set_r_msgs put_progress set_r_trk p_next set_p_infl pr_optimistic_update set_p_next].
  assert (He : In e es) by (apply in_rev; rewrite Hr; left; reflexivity). unfold es in He. match type of He with In _ (limit_size ?l ?mx) => destruct (limit_size_prefix l mx) as (rest & Hp); assert (He2 : In e l) by (rewrite Hp; apply in_or_app; left; exact He) end. clear He Hp. rename He2 into He. apply In_nth_error in He. destruct He as [k He].
  pose proof (log_abs_wf _ W0) as C. unfold a_wf, contig in C. change (nth_error (ndrop (p_next p - a_first (log_abs (r_log r))) (a_ents (log_abs (r_log r)))) k = Some e) in He.
  assert (He' : nnth (ndrop (p_next p - a_first (log_abs (r_log r))) (a_ents (log_abs (r_log r)))) (N.of_nat k) = Some e) by (unfold nnth; rewrite Nat2N.id; exact He).
  rewrite R_Log.nnth_ndrop in He'. rewrite (C _ _ He'). rewrite log_first_abs in Hf |- *. unfold a_first in *. lia.
Qed.
Lemma send_all_onapp to f : forall id r r', lwf0 (r_log r) -> onapp to r -> send_all f id r = Ok r' -> onapp to r' /\ r_log r' = r_log r.
Proof.
  induction f as [|f IH]; intros id r r' W O H; [discriminate|]. cbn [send_all] in H. apply bind_ok in H. destruct H as ([r1 b] & H1 & H).
  destruct (msa_onapp _ _ _ _ _ _ W O H1) as [O1 E1]. destruct b; [|injection H as <-; auto].
  destruct (IH id r1 r' ltac:(rewrite E1; exact W) O1 H) as [O2 E2]. split; [exact O2|congruence].
Qed.
Lemma bcast_onapp to : forall ids r r', lwf0 (r_log r) -> onapp to r -> mfold send_append ids r = Ok r' -> onapp to r' /\ r_log r' = r_log r.
Proof.
  induction ids as [|id ids IH]; intros r r' W O H; cbn [mfold] in H; [injection H as <-; auto|]. apply bind_ok in H. destruct H as (r1 & H1 & H).
  unfold send_append in H1. apply bind_ok in H1. destruct H1 as ([r2 b] & H1 & Hx). assert (r2 = r1) by congruence. subst r2.
  destruct (msa_onapp _ _ _ _ _ _ W O H1) as [O1 E1]. destruct (IH r1 r' ltac:(rewrite E1; exact W) O1 H) as [O2 E2]. split; [exact O2|congruence].
Qed.
Lemma accept_onapp m p p2 r r' : lwf0 (r_log r) -> trk_get (m_from m) (r_trk r) = Some p -> m_reject m = false -> p_match p < m_index m ->
  leader_app_resp m p r = Ok r' -> onack (m_index m) p p2 -> p_state p2 = StReplicate -> log_first (r_log r) <= p_next p2 -> onapp (m_from m) r'.
Proof.
  intros W G Hr Hi H Ha Hs Hf. unfold leader_app_resp in H. rewrite Hr in H. unfold leader_app_resp_accept in H. cbv zeta in H. unfold onack in Ha.
  destruct (pr_maybe_update (m_index m) (set_p_active true p)) as [p1 u] eqn:Hu. 
  assert (u = true). { unfold pr_maybe_update in Hu. cbn [p_match set_p_active] in Hu. destruct (N.ltb_spec (p_match p) (m_index m)); [|lia]. injection Hu as _ <-. reflexivity. }
  subst u. rewrite Ha in H. cbn [bind] in H. apply bind_ok in H. destruct H as ([r2 cm] & Hc & H). apply commit_last in Hc. destruct Hc as (k & Hc).
  apply bind_ok in H. destruct H as (r3 & H3 & H). apply bind_ok in H. destruct H as (r4 & H4 & H).
  assert (W2 : lwf0 (r_log r2)) by (rewrite Hc; exact W).
  assert (O2 : onapp (m_from m) r2).
  { exists p2. rewrite Hc. split; [exact (get_put _ _ r)|]. split; [exact Hs|exact Hf]. }
  assert (O3 : onapp (m_from m) r3 /\ r_log r3 = r_log r2).
  { destruct cm.
    - apply bind_ok in H3. destruct H3 as (r5 & H5 & H3). pose proof (release_trk _ _ H5) as T5. pose proof (sm_log _ _ (sd_same _ _ (release_sends _ _ H5))) as L5.
      unfold bcast_append in H3. destruct (bcast_onapp (m_from m) _ _ _ ltac:(rewrite L5; exact W2) (onapp_eq _ _ _ T5 L5 O2) H3) as [X1 X2]. split; [exact X1|congruence].
    - match type of H3 with (if ?c then _ else _) = _ => destruct c end; [|injection H3 as <-; auto].
      unfold send_append in H3. apply bind_ok in H3. destruct H3 as ([r5 b] & H3 & Hx). assert (r5 = r3) by congruence. subst r5. eapply msa_onapp; eauto. }
  destruct O3 as [O3 L3]. destruct (send_all_onapp (m_from m) _ _ _ _ ltac:(rewrite L3; exact W2) O3 H4) as [O4 L4].
  match type of H with (if ?c then _ else _) = _ => destruct c end; [|injection H as <-; exact O4].
  apply send_ok in H. destruct H as [-> _]. eapply onapp_eq; [| |exact O4]; reflexivity.
Qed.

(** What the leader sends after good news. *)
Definition app_of (L : rawnode) (x : msg) : Prop :=
  m_type x = MsgApp /\ m_from x = node_id L /\ m_term x = node_term L /\ carries L x /\
  (forall k e, nnth (m_entries x) k = Some e -> e_index e = m_index x + 1 + k).
Lemma sent_app c o L L' x max : made c L -> nop_ok o L -> emits o L L' x -> m_type x = MsgApp -> app_content max (r_log (rn_raft L')) x -> app_of L' x.
Proof.
  intros M Hk Em Ht [A1 _ _ A4 A5]. destruct (C45_append_content _ _ _ _ _ M Hk Em Ht) as (_ & B1 & B2 & _ & B3 & _ & B4 & _ & B5).
  split; [exact Ht|]. split; [exact B1|]. split; [exact B2|]. split; [|intros k e He; apply (B3 _ _ He)].
  split; [exact B5|]. split; [exact A5|]. split; [|exact B4]. intros e He. apply In_nth_error in He. destruct He as [k He].
  destruct (B3 (N.of_nat k) e) as [X Y]; [unfold nnth; rewrite Nat2N.id; exact He|]. rewrite Y. exact X.
Qed.
Lemma new_ack c L a L' out new p : made c L -> node_role L = RLeader -> m_from a <> node_id L -> peer L (m_from a) = Some p ->
  m_type a = MsgAppResp -> m_term a = node_term L -> m_reject a = false -> p_match p < m_index a ->
  nop_ok (NStep a) L -> n_step (NStep a) L = Ok (L', out) -> pending L' = pending L ++ new ->
  made c L' /\ stays L L' /\ exists p1 p', onack (m_index a) p p1 /\ pflow (m_from a) p1 new p' /\ peer L' (m_from a) = Some p' /\
    p_match p' = m_index a /\ served (max_inflight c) L' p' /\ (forall x, In x new -> m_type x = MsgApp -> app_of L' x /\ appgood x) /\
    (p_state p1 = StReplicate -> node_first L <= p_next p1 -> p_state p' = StReplicate).
Proof.
  intros M R Hid Hp Ht T Hr Hi Hk H Hnew. pose proof (made_step _ _ _ _ _ M Hk H) as M'. split; [exact M'|].
  destruct (peer_win _ _ _ _ M R Hid Hp) as (G & _).
  destruct (nstep_resp _ _ _ _ _ (or_introl Ht) (proj1 Hk) R T G H) as (r' & H1 & HL). rewrite Ht in H1.
  destruct (accept_stays _ _ _ _ Hr H1) as (S1 & S2 & S3).
  assert (RL : node_role L' = RLeader) by (subst L'; change (r_state r' = RLeader); rewrite S1; exact R).
  assert (TL : node_term L' = node_term L) by (subst L'; exact S2).
  split; [split; [exact RL|]; split; [exact TL|]; subst L'; exact S3|].
  assert (On : forall p1, onack (m_index a) p p1 -> p_state p1 = StReplicate -> node_first L <= p_next p1 -> onapp (m_from a) (rn_raft L')).
  { intros p1 O1 O2 O3. subst L'. eapply (accept_onapp a p p1); [apply lwf_0, li_wf, ni_log, di_ninv, (made_dinv _ _ M)|exact G|exact Hr|exact Hi|exact H1|exact O1|exact O2|exact O3]. }
  clear r' H1 HL S1 S2 S3.
  destruct (C63_ack_continues _ _ _ _ _ _ M Hk H R Ht T Hid Hr Hp Hi RL) as (p' & Q1 & Q2 & Q3).
  destruct (peer_step _ _ _ _ _ _ _ (made_inv _ _ M) Hk H (conj R (conj RL TL)) Hid Hp ltac:(intros cc X; discriminate)) as (p1 & new' & p2 & G2 & Em & Hin & Fl & Hg).
  assert (p2 = p') by congruence. subst p2.
  assert (new' = new).
  { unfold emitted in Em. pose proof (n_step_dinv _ _ _ _ Hk H (made_dinv _ _ M)) as [_ Ho]. cbn in Ho. unfold sent, readys in Em. cbn in Em.
    assert (Hn : o_ready out = None) by apply Ho. rewrite Hn in Em. cbn in Em. rewrite Hnew in Em. apply app_inv_head in Em. exact Em. }
  subst new'. exists p1, p'.
  assert (Pm : forall to p ms q, pflow to p ms q -> p_match q = p_match p).
  { clear. intros to p ms q. induction 1 as [p|p m ms p' Ho Hp IH|p m ms p1 p' Hto Hty Hpa Hi Haa Hp IH|p m ms p' Hto Hty Hpa Hac Hp IH]; auto.
    rewrite IH. unfold after_app in Haa. destruct (rev _); [subst; auto|]. destruct (p_state p); [subst; auto| |contradiction]. destruct Haa as (i & _ & ->). reflexivity. }
  assert (Ak : onack (m_index a) p p1).
  { destruct Hin as [[b ->]|(m & im & X1 & X2 & X3 & X4)]; [apply Pm in Fl; cbn in Fl; lia|].
    cbn in X1. destruct X2 as [[-> _]| ->]; [|exact (False_ind _ X4)]. subst m. unfold rin in X4. rewrite Ht, Hr in X4. exact X4. }
  repeat (split; [assumption|]). split.
  - intros x Hx Hty. destruct (Hg _ Hx Hty) as [X1 X2]. split; [|exact X1].
    refine (sent_app c (NStep a) L L' x _ M Hk _ Hty X2). exists out, new. auto.
  - intros X1 X2. destruct (On _ Ak X1 X2) as (p3 & Y1 & Y2 & _). rewrite peer_get in G2 by exact RL. congruence.
Qed.

Fixpoint chained (L : rawnode) (i : N) (q : list msg) (j : N) : Prop :=
  match q with
  | [] => j = i
  | x :: t => app_of L x /\ m_index x = i /\ chained L (i + nlen (m_entries x)) t j
  end.
Lemma chained_app L q1 : forall i j q2 k, chained L i q1 j -> chained L j q2 k -> chained L i (q1 ++ q2) k.
Proof. induction q1 as [|x q IH]; cbn; intros i j q2 k H1 H2; [subst; auto|]. destruct H1 as (A & B & C). split; [exact A|]. split; [exact B|]. eapply IH; eauto. Qed.
Lemma chained_le L q : forall i j, chained L i q j -> i <= j /\ forall x, In x q -> i <= m_index x.
Proof.
  induction q as [|x q IH]; cbn; intros i j H; [subst; split; [lia|intros ? []]|]. destruct H as (_ & B & C). destruct (IH _ _ C) as [D1 D2].
  split; [lia|]. intros y [<-|Hy]; [lia|]. specialize (D2 _ Hy). lia.
Qed.
Lemma app_of_stays c L L' x : made c L -> made c L' -> stays L L' -> app_of L x -> app_of L' x.
Proof.
  intros M M' S (A1 & A2 & A3 & A4 & A5). destruct (stays_log _ _ _ M M' S) as (_ & _ & _ & _ & _ & Q). destruct S as (_ & S & _).
  split; [exact A1|]. rewrite (made_id _ _ _ M M'), S. split; [exact A2|]. split; [exact A3|]. split; [apply Q; exact A4|exact A5].
Qed.
Lemma chained_stays c L L' q : made c L -> made c L' -> stays L L' -> forall i j, chained L i q j -> chained L' i q j.
Proof.
  intros M M' S. induction q as [|x q IH]; cbn; intros i j H; [exact H|]. destruct H as (A & B & C). split; [exact (app_of_stays _ _ _ _ M M' S A)|]. split; [exact B|]. apply IH; exact C.
Qed.
Definition snaps (q : list msg) : Prop := exists s, In s q /\ m_type s = MsgSnap.
Lemma link_cons to m ms : link to (m :: ms) = (if (m_to m =? to) && (mtype_eqb (m_type m) MsgApp || mtype_eqb (m_type m) MsgSnap) then [m] else []) ++ link to ms.
Proof. unfold link. cbn [filter]. destruct (_ && _); reflexivity. Qed.
Lemma pflow_link L to p ms p' : pflow to p ms p' -> (forall x, In x ms -> m_type x = MsgApp -> app_of L x) -> p_state p = StReplicate -> 1 <= p_next p ->
  snaps (link to ms) \/ (p_state p' = StReplicate /\ 1 <= p_next p' /\ chained L (p_next p - 1) (link to ms) (p_next p' - 1)).
Proof.
  induction 1 as [p|p m ms p' Ho Hp IH|p m ms p1 p' Hto Hty Hpa Hi Haa Hp IH|p m ms p' Hto Hty Hpa Hac Hp IH]; intros Hg Hs H1.
  - right. cbn. auto.
  - rewrite link_cons.
    assert (X : (m_to m =? to) && (mtype_eqb (m_type m) MsgApp || mtype_eqb (m_type m) MsgSnap) = false).
    { destruct Ho as [Ho|[Ho1 Ho2]]; [destruct (N.eqb_spec (m_to m) to); [congruence|reflexivity]|].
      destruct (mtype_eqb (m_type m) MsgApp) eqn:E1; [apply mtype_eqb_eq in E1; congruence|]. destruct (mtype_eqb (m_type m) MsgSnap) eqn:E2; [apply mtype_eqb_eq in E2; congruence|].
      apply andb_false_r. }
    rewrite X. cbn [app]. apply IH; auto. intros; apply Hg; [right|]; auto.
  - rewrite link_cons, Hto, Hty, N.eqb_refl. change (mtype_eqb MsgApp MsgApp) with true. cbn [andb orb app].
    assert (Hm : app_of L m) by (apply Hg; [left|]; auto).
    assert (W : m_index m = p_next p - 1) by (rewrite Hi; unfold wsub; destruct (N.leb_spec 1 (p_next p)); lia).
    assert (Y : p_state p1 = StReplicate /\ 1 <= p_next p1 /\ p_next p1 - 1 = p_next p - 1 + nlen (m_entries m)).
    { unfold after_app in Haa. destruct (rev (m_entries m)) as [|e t] eqn:Hr.
      - subst p1. assert (En : m_entries m = []) by (rewrite <- (rev_involutive (m_entries m)), Hr; reflexivity). rewrite En, nlen_nil. repeat split; auto. lia.
      - rewrite Hs in Haa. destruct Haa as (inf & _ & ->). cbn. split; [exact Hs|]. apply rev_last in Hr.
        assert (Hn : nnth (m_entries m) (nlen (m_entries m) - 1) = Some e).
        { rewrite Hr. replace (nlen (rev t ++ [e]) - 1) with (nlen (rev t)) by (rewrite nlen_app, nlen_cons; nl; lia). rewrite nnth_app2 by lia. rewrite N.sub_diag. reflexivity. }
        destruct Hm as (_ & _ & _ & _ & Hm). rewrite (Hm _ _ Hn). assert (0 < nlen (m_entries m)) by (rewrite Hr, nlen_app, nlen_cons; lia). lia. }
    destruct Y as (Y1 & Y2 & Y3). destruct (IH ltac:(intros; apply Hg; [right|]; auto) Y1 Y2) as [(s & S1 & S2)|(B1 & B2 & B3)].
    + left. exists s. split; [right; exact S1|exact S2].
    + right. split; [exact B1|]. split; [exact B2|]. cbn [chained]. rewrite <- Y3. auto.
  - left. exists m. split; [|exact Hty]. rewrite link_cons, Hto, Hty, N.eqb_refl. left. reflexivity.
Qed.

Lemma pflow_snapshot to p ms p' : pflow to p ms p' -> p_state p = StSnapshot -> p' = p.
Proof.
  induction 1 as [p|p m ms p' Ho Hp IH|p m ms p1 p' Hto Hty Hpa Hi Haa Hp IH|p m ms p' Hto Hty Hpa Hac Hp IH]; intros Hs; auto;
    unfold pr_is_paused in Hpa; rewrite Hs in Hpa; discriminate.
Qed.
Lemma pflow_nosnap to p ms p' : pflow to p ms p' -> p_state p' = StReplicate -> ~ snaps (link to ms).
Proof.
  induction 1 as [p|p m ms p' Ho Hp IH|p m ms p1 p' Hto Hty Hpa Hi Haa Hp IH|p m ms p' Hto Hty Hpa Hac Hp IH]; intros Hs (x & Hx & Ht).
  - destruct Hx.
  - rewrite link_cons in Hx. apply in_app_or in Hx. destruct Hx as [Hx|Hx]; [|apply IH; [exact Hs|exists x; auto]].
    destruct (_ && _) eqn:B in Hx; [|destruct Hx]. destruct Hx as [<-|[]]. apply andb_prop in B. destruct B as [B _]. apply N.eqb_eq in B. destruct Ho as [Ho|[_ Ho]]; congruence.
  - rewrite link_cons in Hx. apply in_app_or in Hx. destruct Hx as [Hx|Hx]; [|apply IH; [exact Hs|exists x; auto]].
    destruct (_ && _) in Hx; [|destruct Hx]. destruct Hx as [<-|[]]. congruence.
  - rewrite (pflow_snapshot _ _ _ _ Hp eq_refl) in Hs. discriminate.
Qed.

(** ** Replication *)
Record repl (cl cf : config) (L F : rawnode) (q : list msg) (m : N) : Prop := {
  rp_lead : made cl L; rp_mem : made cf F; rp_role : node_role L = RLeader; rp_id : node_id F <> node_id L;
  rp_first : node_first L <= m + 1; rp_last : m <= node_last L /\ m <= node_last F; rp_com : node_commit F <= m; rp_tm : tm F m = tm L m;
  rp_peer : exists p w, peer L (node_id F) = Some p /\ p_state p = StReplicate /\ p_match p = m /\ 1 <= p_next p /\
    win p w /\ (forall i, In i w -> m < i) /\ chained L m q (p_next p - 1) /\ served (max_inflight cl) L p
}.
Lemma last_entry i es : contig (i + 1) es -> es <> [] -> exists e, In e es /\ e_index e = i + nlen es.
Proof.
  intros C H. assert (0 < nlen es) by (destruct es; [congruence|rewrite nlen_cons; lia]). destruct (nnth_lt_Some es (nlen es - 1)) as [e He]; [lia|].
  exists e. split; [unfold nnth in He; eapply nth_error_In; eauto|]. rewrite (C _ _ He). lia.
Qed.
Lemma drop_le_gt i q x : sorted q -> In x (drop_le i q) -> i < x.
Proof.
  induction q as [|y q IH]; cbn; intros S Hx; [destruct Hx|]. destruct (N.leb_spec y i).
  - apply IH; auto. apply (sorted_app_r [y] q). exact S.
  - destruct Hx as [<-|Hx]; [lia|]. pose proof (sorted_cons_lt _ _ S x Hx). lia.
Qed.
Lemma lasts_gt L to ms i x : (forall m, In m ms -> m_type m = MsgApp -> app_of L m) -> (forall m, In m (link to ms) -> i <= m_index m) -> In x (lasts to ms) -> i < x.
Proof.
  intros Hg Hl Hx. unfold lasts in Hx. apply in_flat_map in Hx. destruct Hx as (m & Hm & Hx). unfold last_of in Hx.
  destruct (mtype_eqb (m_type m) MsgApp && (m_to m =? to)) eqn:B; [|destruct Hx]. apply andb_prop in B. destruct B as [B1 B2].
  assert (Hi : i <= m_index m). { apply Hl. unfold link. apply filter_In. split; [exact Hm|]. rewrite B1, B2. reflexivity. }
  apply mtype_eqb_eq in B1. destruct (rev (m_entries m)) as [|e t] eqn:Hr; [destruct Hx|]. destruct Hx as [<-|[]].
  assert (He : In e (m_entries m)) by (apply in_rev; rewrite Hr; left; reflexivity). apply In_nth_error in He. destruct He as [k He].
  destruct (Hg _ Hm B1) as (_ & _ & _ & _ & Hn). rewrite (Hn (N.of_nat k) e); [lia|unfold nnth; rewrite Nat2N.id; exact He].
Qed.
(** Good news puts the leader in (or keeps it in) replication. *)
Lemma replicates_on cl cf L F F' q a L' out new p w : made cl L -> node_role L = RLeader -> node_id F <> node_id L -> peer L (node_id F) = Some p -> made cf F -> made cf F' ->
  m_type a = MsgAppResp -> m_from a = node_id F -> m_term a = node_term L -> m_reject a = false -> p_match p < m_index a ->
  nop_ok (NStep a) L -> n_step (NStep a) L = Ok (L', out) -> pending L' = pending L ++ new ->
  win p w -> (p_state p = StProbe /\ q = [] \/ p_state p = StReplicate /\ 1 <= p_next p /\ chained L (m_index a) q (p_next p - 1) \/ p_state p = StSnapshot /\ q = [] /\ p_pending p <= m_index a) ->
  node_first L <= m_index a + 1 -> m_index a <= node_last L -> m_index a <= node_last F' -> node_commit F' <= m_index a -> tm F' (m_index a) = tm L (m_index a) ->
  node_last L' = node_last L /\ repl cl cf L' F' (q ++ link (node_id F) new) (m_index a).
Proof.
  intros M R Hid Hp MF MF' Ht Hf T Hr Hi Hk H Hnew W Hst I1 I2 I3 I4 I5.
  rewrite <- Hf in Hid, Hp. destruct (new_ack _ _ _ _ _ _ _ M R Hid Hp Ht T Hr Hi Hk H Hnew) as (M' & St & p1 & p' & Ak & Fl & Hp' & Hm' & Sv & Hg & Hrs).
  rewrite <- Hf. destruct (stays_log _ _ _ M M' St) as (Q1 & Q2 & Q3 & _). split; [exact Q2|].
  assert (P1 : p_state p1 = StReplicate /\ 1 <= p_next p1 /\ exists w1, win p1 w1 /\ (forall i, In i w1 -> m_index a < i) /\ chained L (m_index a) q (p_next p1 - 1)).
  { pose proof Ak as Ak0. unfold onack, pr_maybe_update in Ak. cbn [p_match set_p_active] in Ak. destruct (N.ltb_spec (p_match p) (m_index a)); [|lia].
    unfold ack_progress in Ak. cbn [p_state set_p_next set_p_probe_sent set_p_match set_p_active] in Ak.
    destruct Hst as [[Hs ->]|[(Hs & Hn & Hc)|(Hs & -> & Hpe)]]; rewrite Hs in Ak.
    - apply Ok_inj in Ak. subst p1. split; [reflexivity|]. split; [cbn; lia|]. exists []. split; [|split; [intros ? []|cbn; lia]].
      eapply win_replicate. eapply (win_next p _ w W); try reflexivity. cbn. lia.
    - apply bind_ok in Ak. destruct Ak as (inf & Hfr & Ak). apply Ok_inj in Ak.
      destruct (chained_le _ _ _ _ Hc) as [Hle _].
      assert (Hx : N.max (p_next p) (m_index a + 1) = p_next p) by lia.
      destruct W as (W1 & W2 & W3 & W4). cbn [p_infl set_p_next set_p_probe_sent set_p_match set_p_active] in Hfr.
      destruct (free_le_ok (m_index a) _ _ W1 W2) as (y & F1 & F2 & F3 & F4). assert (y = inf) by congruence. subst y.
      subst p1. cbn [p_state set_p_infl set_p_next set_p_probe_sent set_p_match set_p_active p_next p_infl]. rewrite Hx. split; [exact Hs|]. split; [exact Hn|].
      exists (drop_le (m_index a) w). split; [|split; [intros i X; eapply drop_le_gt; [apply W3|exact X]|exact Hc]].
      split; [exact F2|]. split; [exact F3|]. split; [|intros X; exfalso; apply X; exact Hs].
      cbn [p_next set_p_infl set_p_next set_p_probe_sent set_p_match set_p_active]. apply chain_drop. exact W3.
    - cbn [p_pending p_match set_p_next set_p_probe_sent set_p_match set_p_active] in Ak. destruct (N.leb_spec (p_pending p) (m_index a)); [|lia].
      apply Ok_inj in Ak. subst p1. split; [reflexivity|].
      assert (Hnx : forall z, p_match z = m_index a -> p_next (pr_become_replicate z) = m_index a + 1) by (intros z <-; reflexivity).
      assert (Hmp : forall z, p_match (pr_become_probe z) = p_match z) by (intros z; unfold pr_become_probe; destruct (p_state z); reflexivity).
      rewrite Hnx by (rewrite Hmp; reflexivity). split; [lia|]. exists []. split; [|split; [intros ? []|cbn; lia]].
      eapply win_replicate, win_probe, (win_next p _ w W); try reflexivity. cbn. lia. }
  destruct P1 as (P1 & P2 & w1 & W1 & P3 & P4).
  assert (Hrp : p_state p' = StReplicate) by (apply Hrs; [exact P1|]; pose proof (proj1 (chained_le _ _ _ _ P4)); lia).
  destruct (pflow_link L' _ _ _ _ Fl ltac:(intros; apply Hg; auto) P1 P2) as [Sn|(B1 & B2 & B3)]; [destruct (pflow_nosnap _ _ _ _ Fl Hrp Sn)|].
  destruct (chained_le _ _ _ _ P4) as [Hle _]. destruct (chained_le _ _ _ _ B3) as [_ Hge].
  destruct (pflow_win _ _ _ _ Fl ltac:(intros; apply Hg; auto) _ W1) as (_ & w' & W' & Hw). destruct (Hw B1) as [_ ->].
  constructor; auto.
  - apply St.
  - rewrite (made_id _ _ _ MF MF'), (made_id _ _ _ M M'), <- Hf. exact Hid.
  - rewrite Q3. exact I1.
  - rewrite Q2. auto.
  - rewrite Q1. exact I5.
  - rewrite (made_id _ _ _ MF MF'), <- Hf. exists p', (w1 ++ lasts (m_from a) new). split; [exact Hp'|]. split; [exact B1|]. split; [exact Hm'|]. split; [exact B2|].
    split; [exact W'|]. split.
    { intros i X. apply in_app_or in X. destruct X as [X|X]; [apply P3; exact X|]. eapply (lasts_gt L' (m_from a) new); [intros; apply Hg; auto| |exact X].
      intros m Hm. specialize (Hge _ Hm). lia. }
    split; [|exact Sv]. eapply chained_app; [|exact B3]. eapply chained_stays; [exact M|exact M'|exact St|exact P4].
Qed.
Lemma repl_step cl cf L F q m L' F' q' : repl cl cf L F q m -> exchange (mkPair L F q) (mkPair L' F' q') ->
  node_last L' = node_last L /\
  ((repl cl cf L' F' q' m /\ (List.length q' < List.length q)%nat) \/ exists m', m < m' <= node_last L /\ repl cl cf L' F' q' m').
Proof.
  intros [A1 A2 A3 A4 A5 [A6 A7] A8 A9 (p & w & B1 & B2 & B3 & B4 & B5 & B6 & B7 & B8)] X. inversion X as [? ? x q0 ? a ? out new X2 X3 X4 X5]; subst. clear X.
  cbn in B7. destruct B7 as (C1 & C2 & C3). pose proof C1 as (X1 & C5 & C6 & (D1 & D2 & D3 & D4) & C7).
  pose proof (made_dinv _ _ A1) as DL. pose proof (made_dinv _ _ A2) as DF. unfold has_prev in D2. rewrite (tm_shows _ _ _ DL) in D2.
  assert (Rj : m_reject a = false).
  { destruct (m_reject a) eqn:Hr; [|reflexivity]. exfalso. destruct (refused_answer _ _ _ _ (made_node_at _ _ A2) X2 X1 Hr) as (_ & _ & Y & _).
    apply Y. unfold has_prev. rewrite (tm_shows _ _ _ DF). rewrite C2 in *. congruence. }
  destruct (accepted _ _ _ _ _ A2 X2 X1 Rj) as (MF' & E1 & E2 & E3 & [(Y & _)|(G1 & G2 & G3 & G4 & G5 & G6 & G7)]); [lia|].
  destruct (chained_le _ _ _ _ C3) as [Hle _].
  assert (Wx : contig (m_index x + 1) (m_entries x)) by (destruct X2 as ((_ & Q1 & _) & _); apply (Q1 X1)).
  destruct (m_entries x) as [|e0 es0] eqn:En.
  - rewrite nlen_nil in *. assert (Ia : m_index a = p_match p) by lia. rewrite <- E2 in A4, B1.
    destruct (old_ack _ _ _ _ _ _ _ A1 A3 A4 B1 E1 ltac:(congruence) Rj Ia ltac:(lia) X3 X4 X5) as (M' & St & -> & Hp').
    destruct (stays_log _ _ _ A1 M' St) as (Q1 & Q2 & Q3 & _). split; [exact Q2|]. left. split; [|rewrite app_nil_r; cbn; lia].
    constructor; auto.
    + apply St.
    + rewrite (made_id _ _ _ A2 MF'), (made_id _ _ _ A1 M'), <- E2. exact A4.
    + rewrite Q3. lia.
    + rewrite Q2. lia.
    + lia.
    + rewrite Q1. rewrite <- C2, G6; congruence.
    + rewrite (made_id _ _ _ A2 MF'), <- E2. exists (set_p_active true p), w. split; [exact Hp'|]. cbn. split; [exact B2|]. split; [reflexivity|]. split; [exact B4|].
      split; [exact B5|]. split; [exact B6|]. split; [cbn; rewrite app_nil_r; rewrite N.add_0_r in C3; exact (chained_stays _ _ _ _ A1 M' St _ _ C3)|].
      unfold served in *. rewrite Q2, Q3. destruct B8 as [B8|[B8|B8]]; [left|right; left|right; right]; exact B8.
  - destruct (last_entry _ _ Wx ltac:(discriminate)) as (e & He & Hi). rewrite <- G2 in Hi.
    assert (Hne : 0 < nlen (e0 :: es0)) by (rewrite nlen_cons; lia).
    destruct (tm_holds _ _ _ DL (D3 _ He)) as [Te Le]. rewrite Hi in *.
    destruct (replicates_on cl cf L F F' q0 a L' out new p w A1 A3 A4 B1 A2 MF' E1 E2 ltac:(congruence) Rj ltac:(lia) X3 X4 X5 B5) as [K1 K2]; auto; try lia.
    + right. left. split; [exact B2|]. split; [exact B4|]. rewrite G2, C2. exact C3.
    + rewrite Te. rewrite <- Hi. apply G7. exact He.
    + split; [exact K1|]. right. exists (m_index a). split; [lia|exact K2].
Qed.

(** ** Probing *)
Record prob (cl cf : config) (L F : rawnode) (x : msg) : Prop := {
  pb_lead : made cl L; pb_mem : made cf F; pb_ol : ordered L; pb_of : ordered F; pb_pr : probing L F x; pb_car : carries L x; pb_tru : truthful L F;
  pb_vou : forall s, node_snapshot L = SOk s -> vouches L F s;
  pb_match : exists p, peer L (node_id F) = Some p /\ p_match p <= m_index x
}.
(** A snapshot message is on its way. *)
Record snapg (cl cf : config) (L F : rawnode) (y : msg) : Prop := {
  sg_lead : made cl L; sg_mem : made cf F; sg_role : node_role L = RLeader; sg_id : node_id F <> node_id L;
  sg_type : m_type y = MsgSnap; sg_term : m_term y = node_term L; sg_vou : vouches L F (m_snap y); sg_com : agree L F (node_commit F);
  sg_peer : exists p, peer L (node_id F) = Some p /\ p_state p = StSnapshot /\ p_pending p = sn_index (m_snap y) /\ p_match p < sn_index (m_snap y)
}.
Lemma pflow_match to p ms q : pflow to p ms q -> p_match q = p_match p.
Proof.
  induction 1 as [p|p m ms p' Ho Hp IH|p m ms p1 p' Hto Hty Hpa Hi Haa Hp IH|p m ms p' Hto Hty Hpa Hac Hp IH]; auto.
  rewrite IH. unfold after_app in Haa. destruct (rev _); [subst; auto|]. destruct (p_state p); [subst; auto| |contradiction]. destruct Haa as (i & _ & ->). reflexivity.
Qed.
(** A refusal. *)
Lemma refused_step cl cf L F x F' a L' out new : prob cl cf L F x -> replies F x F' a -> m_reject a = true ->
  nop_ok (NStep a) L -> n_step (NStep a) L = Ok (L', out) -> pending L' = pending L ++ new ->
  node_last L' = node_last L /\ ((exists y, link (node_id F) new = [y] /\ snapg cl cf L' F' y) \/ exists y, link (node_id F) new = [y] /\ prob cl cf L' F' y /\ m_index y < m_index x).
Proof.
  intros [ML MF OL OF P C [T1 T2] V (p0 & Hp0 & Hm0)] R1 R2 R3 H Hnew.
  pose proof (made_dinv _ _ ML) as DL. pose proof (made_dinv _ _ MF) as DF. pose proof P as (P1 & P2 & (p & P3 & P4 & P5) & P6 & P7 & P8 & P9).
  assert (p0 = p) by congruence. subst p0.
  destruct (refused_answer _ _ _ _ (made_node_at _ _ MF) R1 P6 R2) as (K & A1 & A2 & A3 & A4 & A5 & A6 & A7 & A8 & A9).
  destruct (A9 (proj1 OF)) as [A10 A11]. clear A9. pose proof (refused _ _ _ _ _ MF R1 P6 R2 (proj1 OF)) as A12.
  assert (Wx : app_wf x) by (destruct R1 as ((_ & Q1 & _) & _); auto). destruct Wx as (_ & _ & Wx).
  pose proof (made_step _ _ _ _ _ ML R3 H) as ML'.
  assert (T : m_term a = node_term L) by congruence.
  rewrite <- A4 in P2, P3. destruct (peer_win _ _ _ _ ML P1 P2 P3) as (G & _).
  destruct (nstep_resp _ _ _ _ _ (or_introl A3) (proj1 R3) P1 T G H) as (r' & H1 & HL'). rewrite A3 in H1.
  pose proof (li_wf _ (ni_log _ (di_ninv _ DL))) as W.
  destruct (reject_exact a p (rn_raft L) r' W G P4 ltac:(congruence) R2 H1) as (h & y & p2 & E1 & E2 & E3 & E4 & E5 & E5s).
  assert (new = [y]).
  { unfold pending in Hnew. rewrite HL' in Hnew. cbn [rn_raft set_rn_raft] in Hnew. rewrite E2 in Hnew. apply app_inv_head in Hnew. auto. }
  subst new.
  assert (RL : node_role L' = RLeader) by (subst L'; change (r_state r' = RLeader); rewrite (sm_state _ _ E3); exact P1).
  assert (KL : r_log (rn_raft L') = r_log (rn_raft L)) by (subst L'; exact (sm_log _ _ E3)).
  assert (TL : node_term L' = node_term L) by (subst L'; exact (sm_term _ _ E3)).
  assert (SL : node_last L' = node_last L /\ node_first L' = node_first L) by (unfold node_last, node_first; rewrite KL; auto). destruct SL as [SL1 SL2].
  split; [exact SL1|].
  destruct OL as [L0 LO]. pose proof OF as [F0 FO]. rewrite (tm_shows _ _ _ DL) in L0. rewrite (tm_shows _ _ _ DF) in F0. rewrite (tm_shows _ _ _ DF) in A8.
  unfold has_prev in P9, A2. rewrite (tm_shows _ _ _ DL) in P9. rewrite (tm_shows _ _ _ DF) in A2.
  assert (I0 : m_index x <> 0) by (intros X; apply A2; rewrite X in *; congruence).
  assert (T0 : m_logterm x <> 0) by (intros X; apply I0, Wx; exact X).
  assert (Il : m_index x <= node_last L) by (destruct (N.le_gt_cases (m_index x) (node_last L)) as [X|X]; [exact X|rewrite tm_out in P9; auto; congruence]).
  (* the message that follows *)
  destruct (C63_reject_retries cl a L L' out p ML R3 H P1 A3 T P2 R2 ltac:(lia) P3) as (next & (z & Z1 & Z2 & Z3 & Z4 & Z5) & _); [unfold news; rewrite P4; congruence|].
  assert (z = y).
  { destruct Z1 as (o2 & n2 & Y1 & Y2 & Y3). unfold pending in Hnew. assert (n2 = [y]) by (unfold pending in Y2; rewrite Y2 in Hnew; apply app_inv_head in Hnew; exact Hnew).
    subst n2. destruct Y3 as [<-|[]]. reflexivity. }
  subst z. rewrite A4 in Z2.
  (* what the two logs agree on is not above the place tried next *)
  assert (Low : forall c, c <= m_index x -> c <= node_last L -> c <= node_last F -> tm L c = tm F c -> c + 1 <= retry_at (m_index x) h).
  { intros c C1 C2 C3 C4. unfold retry_at.
    assert (C5 : tm L c <= m_logterm x) by (eapply (LO c (m_index x)); [exact C1|exact Il|apply tm_shows; auto|apply tm_shows; auto]).
    assert (C6 : c <= m_hint a) by (destruct (N.le_gt_cases c (m_hint a)) as [X|X]; [exact X|]; specialize (A12 c X ltac:(lia)); lia).
    assert (Cx : c <> m_index x) by (intros X; apply A2; rewrite <- X in *; congruence).
    destruct (N.ltb_spec 0 (m_logterm a)) as [Ta|Ta].
    - destruct (log_fcbt_abs (m_hint a) (m_logterm a) _ (lwf_0 _ W) L0) as (h' & X1 & _ & X2). rewrite X1 in E1. apply Ok_inj in E1. subst h'.
      assert (X0 : m_hint a <= a_last (log_abs (r_log (rn_raft L)))) by (rewrite <- log_last_abs by (apply lwf_0; auto); change (m_hint a <= node_last L); lia).
      destruct (X2 X0) as (X2' & X3 & X4).
      assert (c <= h); [|lia]. destruct (N.le_gt_cases c h) as [X|X]; [exact X|exfalso].
      assert (Y1 : m_logterm a < tm L c) by (refine (X4 c _ _); lia).
      assert (Y2 : tm F c <= m_logterm a) by (eapply (FO c (m_hint a)); [exact C6|lia|apply tm_shows; auto|apply tm_shows; auto]). lia.
    - apply Ok_inj in E1. subst h. lia. }
  assert (ShF : forall i t, shows F' i t <-> shows F i t) by (intros; unfold shows; rewrite (proj1 K); tauto).
  assert (ShL : forall i t, shows L' i t <-> shows L i t) by (intros; unfold shows; rewrite KL; tauto).
  assert (LF : node_last F' = node_last F /\ node_commit F' = node_commit F) by (unfold node_last; rewrite (proj1 K); split; [reflexivity|change (l_committed (r_log (rn_raft F')) = l_committed (r_log (rn_raft F))); rewrite (proj1 K); reflexivity]).
  destruct LF as [LF1 LF2].
  assert (Ag : forall i, agree L' F' i <-> agree L F i).
  { intros i. unfold agree. rewrite SL1, SL2, LF1. split; (intros [X|(X1 & X2 & t & X3 & X4)]; [left; exact X|right; split; [exact X1|]; split; [exact X2|]; exists t; split; first [apply ShL|apply ShF]; assumption]). }
  assert (Vs : forall s, vouches L F s -> vouches L' F' s).
  { intros s (V1 & V2 & V3 & V4). unfold vouches. rewrite SL1, SL2, (proj2 K). split; [exact V1|]. split; [exact V2|]. split; [apply ShL; exact V3|exact V4]. }
  assert (Lo : forall c, c <= m_index x -> agree L F c -> c + 1 < node_first L \/ c + 1 <= retry_at (m_index x) h).
  { intros c C1 [C2|(C2 & C3 & t & C4 & C5)]; [left; exact C2|right]. apply Low; auto. apply (tm_shows _ _ _ DL) in C4. apply (tm_shows _ _ _ DF) in C5. congruence. }
  destruct Z5 as [(Z5 & Z6 & Z7 & Z8)|[Z5 _]].
  2:{ left. exists y. split. { unfold link. cbn [filter]. rewrite Z2, Z5, N.eqb_refl. reflexivity. }
    destruct (E5s Z5) as (S1 & S2 & S3 & S4 & S5 & S6). rewrite A7 in S1. change (retry_at (m_index x) h < node_first L) in S1.
    assert (Q : forall c, c <= m_index x -> agree L F c -> c + 1 < node_first L) by (intros c C1 C2; destruct (Lo c C1 C2); lia).
    assert (Mi : p_match p + 1 < node_first L).
    { destruct (N.le_gt_cases (p_match p) (node_commit F)) as [X|X].
      - pose proof (Q (node_commit F) A1 T1). lia.
      - apply Q; [exact Hm0|]. apply T2; [rewrite <- A4; exact P3|exact X]. }
    pose proof (V _ S2) as Vy. pose proof Vy as (V1 & _).
    assert (MF' : made cf F') by (destruct R1 as (Q1 & _ & o & Q2 & _); eapply made_step; eauto).
    constructor; auto.
    - rewrite (proj2 K), (made_id _ _ _ ML ML'), <- A4. exact P2.
    - rewrite TL. exact S3.
    - rewrite LF2. apply Ag. exact T1.
    - exists p2. rewrite (proj2 K), <- A4. split; [rewrite peer_get by exact RL; subst L'; exact E4|]. rewrite S6. split; [exact S4|]. split; [exact S5|lia]. }
  right. exists y. split. { unfold link. cbn [filter]. rewrite Z2, Z5, N.eqb_refl. reflexivity. }
  assert (Rf : refusal L F x L' F' y) by (exists a; repeat (split; [assumption|]); exact Z5).
  destruct (refusal_step _ _ _ _ _ _ _ _ ML MF (conj (proj2 (tm_shows _ _ _ DL) L0) LO) (proj1 OF) P Rf) as (_ & MF' & KK & _ & P' & Hi & _).
  split; [|exact Hi]. destruct (C45_append_content _ _ _ _ _ ML R3 Z1 Z5) as (_ & B1 & B2 & _ & B3 & _ & B4 & _ & B5).
  (* the match index stays *)
  assert (Hpm : exists p', peer L' (node_id F') = Some p' /\ p_match p' = p_match p).
  { destruct (peer_step _ _ _ _ _ _ _ (made_inv _ _ ML) R3 H (conj P1 (conj RL TL)) P2 P3 ltac:(intros cc X; discriminate)) as (p1 & nw & p3 & G2 & _ & Hin & Fl & _).
    rewrite (proj2 K), <- A4. exists p3. split; [exact G2|]. rewrite (pflow_match _ _ _ _ Fl).
    destruct Hin as [[b ->]|(m & im & X1 & X2 & X3 & X4)]; [reflexivity|]. cbn in X1. subst m. destruct X2 as [[-> _]| ->]; [|exact (False_ind _ X4)].
    unfold rin in X4. rewrite A3, R2 in X4. destruct X4 as (hh & X4). unfold onrej, pr_maybe_decr_to in X4. cbn [p_state set_p_active p_match p_next] in X4. rewrite P4 in X4.
    destruct (negb _) in X4; cbn [andb p_state set_p_probe_sent set_p_next set_p_active] in X4; rewrite ?P4 in X4; cbn [pstate_eqb] in X4; subst p1; reflexivity. }
  destruct Hpm as (p' & Hp' & Hm').
  (* the new probe is not below what is known *)
  assert (Lo' : forall c, c <= m_index x -> agree L F c -> c <= m_index y).
  { intros c C1 C2. destruct (E5 Z5) as (E6 & _). rewrite A7 in E6. destruct (Lo c C1 C2) as [X|X]; [rewrite SL2 in *|]; lia. }
  assert (Mi : p_match p <= m_index y).
  { destruct (N.le_gt_cases (p_match p) (node_commit F)) as [X|X].
    - pose proof (Lo' (node_commit F) A1 T1). lia.
    - apply Lo'; [exact Hm0|]. apply T2; [rewrite <- A4; exact P3|exact X]. }
  constructor; auto.
  - eapply kept_ordered; [exact ML|exact ML'|exact KK|split; [apply tm_shows; auto|exact LO]].
  - eapply kept_ordered; [exact MF|exact MF'|exact K|exact OF].
  - destruct P' as (_ & _ & _ & _ & _ & _ & P9'). split; [rewrite <- SL2 in *; lia|]. split; [exact P9'|]. split; [|exact B4].
    intros e He. apply In_nth_error in He. destruct He as [k He]. destruct (B3 (N.of_nat k) e) as [X Y]; [unfold nnth; rewrite Nat2N.id; exact He|]. rewrite Y. exact X.
  - split; [rewrite LF2; apply Ag; exact T1|]. intros pp Hpp. assert (pp = p') by congruence. subst pp. rewrite LF2, Hm'. intros X. apply Ag, T2; [rewrite <- A4; exact P3|exact X].
  - unfold node_snapshot. rewrite KL. intros s Hs. apply Vs, V. exact Hs.
  - exists p'. rewrite Hm'. auto.
Qed.
(** The member takes the snapshot. *)
Lemma snap_accepted cl cf L F y F' a : snapg cl cf L F y -> replies F y F' a ->
  made cf F' /\ m_type a = MsgAppResp /\ m_from a = node_id F /\ m_term a = m_term y /\ m_reject a = false /\
  sn_index (m_snap y) <= m_index a /\ m_index a <= node_last L /\ m_index a <= node_last F' /\ node_commit F' <= m_index a /\ tm F' (m_index a) = tm L (m_index a).
Proof.
  intros [ML MF R Hid Ht Tm (V1 & V2 & V3 & V4) Com _] (Hk & Hl & out & H & Hp).
  pose proof (made_dinv _ _ ML) as DL. pose proof (made_dinv _ _ MF) as DF.
  pose proof (made_step _ _ _ _ _ MF Hk H) as MF'. split; [exact MF'|]. pose proof (made_dinv _ _ MF') as DF'.
  rewrite (tm_shows _ _ _ DL) in V3. set (s := m_snap y) in *. apply (self_in_spec F s) in V4.
  cbn [n_step] in H. apply bind_ok in H. destruct H as ([n1 e1] & H & Hx). apply Ok_inj, pair_equal_spec in Hx. destruct Hx as [<- _].
  destruct Hk as [[Hfr Hz] [_ Hlw]]. specialize (Hlw Ht). fold s in Hlw.
  unfold rn_step in H. rewrite Ht in H. cbn [is_local_msg is_response_msg negb] in H. rewrite orb_true_r in H.
  unfold rn_raft_step in H. apply bind_ok in H. destruct H as ([r1 e2] & H & Hx). apply Ok_inj, pair_equal_spec in Hx. destruct Hx as [<- _].
  assert (Hm0 : m_term y <> 0) by (intros X; apply Hz in X; rewrite Ht in X; destruct X as [X|[X|X]]; discriminate).
  apply snap_step in H; auto. destruct H as [(-> & H)|(L1 & L2 & r0 & B1 & B2 & B3 & B4 & B5 & B6 & H)].
  { exfalso. destruct Hl as [X1 X2]. unfold node_term, node_hard in X1. cbn in X1. destruct H as [H|[H1 H2]]; [lia|]. apply X2. split; [exact H1|exact H2]. }
  unfold handle_snapshot in H. apply bind_ok in H. destruct H as ([r2 b] & Hr & H). apply send_ok in H. destruct H as [-> _].
  pose proof (li_wf _ (ni_log _ (di_ninv _ DF))) as W. pose proof (lwf_com _ W) as Wc. pose proof (lwf_app _ W) as Wa.
  apply restore_cases in Hr; [|auto|rewrite B2; auto]. destruct Hr as (C1 & C2 & C3 & C4 & C5). rewrite B2 in C5. fold s in C5.
  assert (Cs : self_in r0 s = self_in (rn_raft F) s) by (unfold self_in, r_id; rewrite B4; reflexivity). rewrite Cs in C5.
  match type of Hp with pending ?n = _ => set (n' := n) in * end.
  set (am := set_m_index (if b then r_last r2 else l_committed (r_log r2)) (set_m_to (m_from y) (new_msg MsgAppResp))) in *.
  assert (N1 : rn_raft n' = emit (outm r2 am) r2) by reflexivity.
  assert (N2 : r_log (rn_raft n') = r_log r2) by (rewrite N1; reflexivity).
  assert (Ea : a = outm r2 am).
  { unfold pending in Hp. rewrite N1 in Hp. unfold emit in Hp. cbn [r_msgs set_r_msgs] in Hp. rewrite C3, B5 in Hp. apply app_inv_head in Hp. injection Hp as ->. reflexivity. }
  assert (Q1 : m_type a = MsgAppResp) by (rewrite Ea; reflexivity). assert (Q2 : m_from a = node_id F).
  { rewrite Ea. transitivity (r_id r2); [reflexivity|]. unfold r_id. rewrite C4, B4. reflexivity. }
  assert (Q3 : m_term a = m_term y) by (rewrite Ea; transitivity (r_term r2); [reflexivity|congruence]).
  assert (Q4 : m_reject a = false) by (rewrite Ea; reflexivity).
  assert (Q5 : m_index a = if b then r_last r2 else l_committed (r_log r2)) by (rewrite Ea; reflexivity).
  do 4 (split; [assumption|]). 
  assert (N6 : node_commit n' = l_committed (r_log r2)) by (rewrite <- N2; reflexivity).
  assert (N8 : node_last n' = a_last (log_abs (r_log r2))) by (unfold node_last; rewrite log_last_abs by (apply lwf_0; exact (li_wf _ (ni_log _ (di_ninv _ DF')))); rewrite N2; reflexivity).
  assert (N9 : forall i, tm n' i = a_term0 (log_abs (r_log r2)) i) by (intros i; unfold tm; rewrite N2; reflexivity).
  pose proof (lwf_com _ (li_wf _ (ni_log _ (di_ninv _ DF')))) as Wc'. rewrite N2 in Wc'.
  rewrite Q5, N6, N8, N9. clear Q5 Ea N1 N2 N6 N8 N9.
  destruct C5 as [(Eb & C5 & C6 & C7)|(C5 & C6 & [(Eb & C7 & C8 & C9)|(Eb & C7 & C8 & cs' & C9 & C10)])]; subst b.
  - destruct C5 as [C5|C5]; [|congruence]. rewrite C6 in *. change (l_committed (r_log (rn_raft F))) with (node_commit F) in *.
    destruct Com as [X|(X1 & X2 & t & X3 & X4)]; [lia|]. apply (tm_shows _ _ _ DL) in X3. apply (tm_shows _ _ _ DF) in X4.
    split; [lia|]. split; [exact X1|]. split; [lia|]. split; [lia|]. change (tm F (node_commit F) = tm L (node_commit F)). congruence.
  - rewrite C8 in *. cbn [l_committed set_l_committed] in *. rewrite log_abs_committed in *. split; [lia|]. split; [exact V2|]. split; [lia|]. split; [lia|]. congruence.
  - unfold r_last. rewrite C8 in *. destruct (log_restore_abs s _ W) as [R1 R2]; [lia|]. rewrite (log_last_abs _ (lwf_0 _ R1)). rewrite R2 in *.
    unfold a_last in *. cbn [a_base a_ents] in *. rewrite nlen_nil, N.add_0_r in *. change (l_committed (log_restore s (r_log (rn_raft F)))) with (sn_index s).
    split; [lia|]. split; [exact V2|]. split; [lia|]. split; [lia|]. rewrite V3. unfold a_term0, a_term. cbn [a_base]. rewrite N.eqb_refl. reflexivity.
Qed.
Lemma snapg_step cl cf L F y L' F' q' : snapg cl cf L F y -> exchange (mkPair L F [y]) (mkPair L' F' q') ->
  node_last L' = node_last L /\ exists m, m <= node_last L /\ repl cl cf L' F' q' m.
Proof.
  intros S X. inversion X as [? ? ? ? ? a ? out new X2 X3 X4 X5]; subst. clear X. cbn [app].
  destruct (snap_accepted _ _ _ _ _ _ _ S X2) as (MF' & E1 & E2 & E3 & E4 & E5 & E6 & E7 & E8 & E9).
  destruct S as [ML MF R Hid Ht Tm (V1 & V2 & V3 & V4) Com (p & P1 & P2 & P3 & P4)].
  destruct (peer_win _ _ _ _ ML R Hid P1) as (_ & _ & _ & w & W).
  destruct (replicates_on cl cf L F F' [] a L' out new p w ML R Hid P1 MF MF' E1 E2 ltac:(congruence) E4 ltac:(lia) X3 X4 X5 W) as [K1 K2]; auto.
  - right. right. split; [exact P2|]. split; [reflexivity|lia].
  - lia.
  - split; [exact K1|]. exists (m_index a). auto.
Qed.
Lemma prob_step cl cf L F x L' F' q' : prob cl cf L F x -> exchange (mkPair L F [x]) (mkPair L' F' q') ->
  node_last L' = node_last L /\
  ((exists y, q' = [y] /\ snapg cl cf L' F' y) \/ (exists y, q' = [y] /\ prob cl cf L' F' y /\ m_index y < m_index x) \/ (q' = [] /\ caught_up L' F') \/ exists m, m <= node_last L /\ repl cl cf L' F' q' m).
Proof.
  intros Pb X. inversion X as [? ? ? ? ? a ? out new X2 X3 X4 X5]; subst. clear X. cbn [app].
  pose proof (pb_pr _ _ _ _ _ Pb) as (_ & _ & _ & X1 & _).
  destruct (m_reject a) eqn:Rj.
  { destruct (refused_step _ _ _ _ _ _ _ _ _ _ Pb X2 Rj X3 X4 X5) as [K1 [K2|K2]]; split; auto. }
  destruct Pb as [ML MF OL OF P (D1 & D2 & D3 & D4) [T1 T2] V (p0 & Hp0 & Hm0)].
  pose proof (made_dinv _ _ ML) as DL. pose proof (made_dinv _ _ MF) as DF. pose proof P as (P1 & P2 & (p & P3 & P4 & P5) & P6 & P7 & P8 & P9).
  assert (p0 = p) by congruence. subst p0. clear Hp0. unfold has_prev in D2. rewrite (tm_shows _ _ _ DL) in D2.
  destruct (accepted _ _ _ _ _ MF X2 X1 Rj) as (MF' & E1 & E2 & E3 & Cs).
  assert (Wx : app_wf x) by (destruct X2 as ((_ & Q1 & _) & _); apply (Q1 X1)). destruct Wx as (Wx & _ & Wx0).
  assert (Il : m_index x <= node_last L).
  { destruct (N.le_gt_cases (m_index x) (node_last L)) as [Y|Y]; [exact Y|]. rewrite tm_out in D2 by auto. symmetry in D2. apply Wx0 in D2. lia. }
  destruct (peer_win _ _ _ _ ML P1 P2 P3) as (_ & _ & _ & w & W).
  destruct (N.eq_dec (m_index a) (p_match p)) as [Hold|Hnew].
  { (* the member already has everything *)
    destruct Cs as [(G1 & G2 & _)|(G1 & G2 & G3 & G4 & G5 & G6 & _)]; [lia|]. assert (Hz : nlen (m_entries x) = 0) by lia.
    assert (En : m_entries x = []) by (destruct (m_entries x); [reflexivity|rewrite nlen_cons in Hz; lia]).
    assert (Le : m_index x = node_last L) by (destruct (N.lt_ge_cases (m_index x) (node_last L)) as [Y|Y]; [destruct (D4 Y En)|lia]).
    rewrite <- E2 in P2, P3.
    destruct (old_ack _ _ _ _ _ _ _ ML P1 P2 P3 E1 ltac:(congruence) Rj Hold ltac:(lia) X3 X4 X5) as (M' & St & -> & Hp').
    destruct (stays_log _ _ _ ML M' St) as (Q1 & Q2 & Q3 & _). split; [exact Q2|]. right. right. left. split; [reflexivity|].
    split; [exists (set_p_active true p); rewrite (made_id _ _ _ MF MF'), <- E2; split; [exact Hp'|cbn; rewrite Q2; lia]|]. rewrite Q2. split; [lia|].
    exists (m_logterm x). split; (apply tm_shows; [eapply made_dinv; eassumption|]); [rewrite Q1|]; rewrite <- Le; auto. }
  assert (Big : p_match p < m_index a) by (destruct Cs as [(G1 & G2 & _)|(G1 & G2 & _)]; lia).
  assert (Fa : m_index a <= node_last L /\ m_index a <= node_last F' /\ node_commit F' <= m_index a /\ tm F' (m_index a) = tm L (m_index a)).
  { destruct Cs as [(G1 & G2 & G3 & G4 & G5)|(G1 & G2 & G3 & G4 & G5 & G6 & G7)].
    - destruct T1 as [T1|(T1 & T3 & t & T4 & T5)]; [lia|]. apply (tm_shows _ _ _ DL) in T4. apply (tm_shows _ _ _ DF) in T5. rewrite G4, G5, G3. rewrite G2. repeat split; first [lia|congruence].
    - destruct (m_entries x) as [|e0 es0] eqn:En; [rewrite nlen_nil, N.add_0_r in G2; rewrite G2; repeat split; first [lia|rewrite G6; congruence]|].
      destruct (last_entry _ _ Wx ltac:(discriminate)) as (e & He & Hi). rewrite <- G2 in Hi. destruct (tm_holds _ _ _ DL (D3 _ He)) as [Te Le]. rewrite Hi in *.
      split; [lia|]. split; [lia|]. split; [lia|]. rewrite Te, <- Hi. apply G7. exact He. }
  destruct Fa as (Fa1 & Fa2 & Fa3 & Fa4).
  destruct (replicates_on cl cf L F F' [] a L' out new p w ML P1 P2 P3 MF MF' E1 E2 ltac:(congruence) Rj Big X3 X4 X5 W) as [K1 K2]; auto; [destruct Cs as [(G1 & G2 & _)|(G1 & G2 & _)]; lia|].
  split; [exact K1|]. right. right. right. exists (m_index a). auto.
Qed.

(** ** Every run ends *)
Definition after (s' s : pair) : Prop := exchange s s'.
Lemma repl_acc cl cf : forall d n L F q m, repl cl cf L F q m -> (N.to_nat (node_last L - m) <= d)%nat -> (List.length q <= n)%nat -> Acc after (mkPair L F q).
Proof.
  induction d as [|d IHd]; induction n as [|n IHn]; intros L F q m R Hd Hn; constructor; intros [L' F' q'] Hex;
    (destruct (repl_step _ _ _ _ _ _ _ _ _ R Hex) as [K1 [[K2 K3]|(m' & K2 & K3)]]).
  all: try lia; try (eapply IHn; [exact K2|rewrite K1; exact Hd|lia]).
  all: eapply (IHd (List.length q')); [exact K3|rewrite K1; lia|lia].
Qed.
Lemma snapg_acc cl cf L F y : snapg cl cf L F y -> Acc after (mkPair L F [y]).
Proof.
  intros S. constructor. intros [L' F' q'] Hex. destruct (snapg_step _ _ _ _ _ _ _ _ S Hex) as (_ & m & _ & K). eapply repl_acc; [exact K|apply Nat.le_refl|apply Nat.le_refl].
Qed.
Lemma prob_acc cl cf : forall n L F x, prob cl cf L F x -> (N.to_nat (m_index x) <= n)%nat -> Acc after (mkPair L F [x]).
Proof.
  induction n as [|n IH]; intros L F x Pb Hn; constructor; intros [L' F' q'] Hex;
    (destruct (prob_step _ _ _ _ _ _ _ _ Pb Hex) as [K1 [(y & -> & K2)|[(y & -> & K2 & K3)|[[-> K2]|(m & K2 & K3)]]]];
      [eapply snapg_acc; exact K2| |constructor; intros s Hs; inversion Hs|eapply repl_acc; [exact K3|apply Nat.le_refl|apply Nat.le_refl]]).
  - lia.
  - eapply IH; [exact K2|lia].
Qed.

(** ** Where it ends *)
Definition onway (cl cf : config) (B : N) (s : pair) : Prop :=
  node_last (pa_lead s) = B /\
  ((exists x, pa_wire s = [x] /\ prob cl cf (pa_lead s) (pa_mem s) x) \/ (exists y, pa_wire s = [y] /\ snapg cl cf (pa_lead s) (pa_mem s) y) \/
   (pa_wire s = [] /\ caught_up (pa_lead s) (pa_mem s)) \/ exists m, repl cl cf (pa_lead s) (pa_mem s) (pa_wire s) m).
Lemma onway_step cl cf B s s' : onway cl cf B s -> exchange s s' -> onway cl cf B s'.
Proof.
  intros [HB O] Hex. destruct s as [L F q], s' as [L' F' q']. unfold onway in *. cbn [pa_lead pa_mem pa_wire] in *.
  destruct O as [(x & -> & O)|[(y & -> & O)|[[-> O]|(m & O)]]].
  - destruct (prob_step _ _ _ _ _ _ _ _ O Hex) as [K1 [(y & -> & K2)|[(y & -> & K2 & _)|[[-> K2]|(m & _ & K3)]]]]; (split; [congruence|]).
    + right. left. exists y. auto.
    + left. exists y. auto.
    + right. right. left. auto.
    + right. right. right. exists m. exact K3.
  - destruct (snapg_step _ _ _ _ _ _ _ _ O Hex) as (K1 & m & _ & K). split; [congruence|]. right. right. right. exists m. exact K.
  - inversion Hex.
  - destruct (repl_step _ _ _ _ _ _ _ _ _ O Hex) as [K1 [[K2 _]|(m' & _ & K3)]]; (split; [congruence|]); right; right; right.
    + exists m. exact K2.
    + exists m'. exact K3.
Qed.
Lemma onway_run cl cf B s s' : exchanges s s' -> onway cl cf B s -> onway cl cf B s'.
Proof. induction 1 as [|s s1 s2 H1 H2 IH]; auto. intros O. apply IH. eapply onway_step; eauto. Qed.
Lemma repl_done cl cf L F m : repl cl cf L F [] m -> caught_up L F.
Proof.
  intros [A1 A2 A3 A4 A5 [A6 A7] A8 A9 (p & w & B1 & B2 & B3 & B4 & B5 & B6 & B7 & B8)]. cbn in B7.
  destruct (peer_win _ _ _ _ A1 A3 A4 B1) as (_ & K1 & K2 & _).
  assert (Hw : w = []).
  { destruct w as [|i w]; [reflexivity|exfalso]. assert (m < i) by (apply B6; left; reflexivity).
    destruct B5 as (_ & _ & B5 & _). destruct B5 as [_ B5]. specialize (B5 i (or_introl eq_refl)). lia. }
  subst w. destruct B8 as [B8|[B8|B8]].
  - exfalso. unfold paused in B8. rewrite B2 in B8. destruct B5 as (_ & B5 & _). destruct B5 as (B5 & _). rewrite nlen_nil in B5. lia.
  - assert (Hm : m = node_last L) by lia. rewrite Hm in *. split; [exists p; auto|]. split; [lia|]. exists (tm L (node_last L)). split; apply tm_shows; auto; eapply made_dinv; eassumption.
  - lia.
Qed.

(** C74: the two logs being in order, what the leader believes of the member being true, and one probe
    being on its way with what the leader has after it: the exchange of messages ends, whatever the
    lengths of the logs. *)
Lemma starts_prob cl cf L F x : made cl L -> made cf F -> starts L F x -> prob cl cf L F x.
Proof. intros ML MF (S1 & S2 & S3 & S4 & S5 & S6 & S7). constructor; auto. Qed.
Theorem C74_ends cl cf L F x : made cl L -> made cf F -> starts L F x -> Acc (fun s' s => exchange s s') (mkPair L F [x]).
Proof. intros ML MF S. eapply prob_acc; [apply starts_prob; eassumption|apply Nat.le_refl]. Qed.
(** C74: when no message is left on the way the member has the leader's log to its last index, and
    the leader knows. *)
Theorem C74_caught_up cl cf L F x L' F' : made cl L -> made cf F -> starts L F x ->
  exchanges (mkPair L F [x]) (mkPair L' F' []) -> caught_up L' F' /\ node_last L' = node_last L.
Proof.
  intros ML MF S Hx. pose proof (onway_run cl cf (node_last L) _ _ Hx) as O. cbn [pa_lead pa_mem pa_wire] in O.
  destruct O as [HB O]; cbn [pa_lead pa_mem pa_wire] in *.
  - split; [reflexivity|]. left. exists x. split; [reflexivity|]. apply starts_prob; assumption.
  - split; [|exact HB]. destruct O as [(y & Y & _)|[(y & Y & _)|[[_ O]|(m & O)]]]; [discriminate|discriminate|exact O|eapply repl_done; exact O].
Qed.

(** C74: in every reachable cluster what a leader believes of a member that is not in a later term is
    true, and so is what the member has committed. *)
Lemma agree_pre cs F a b sa sb na nb C : vrel cs a F sa (rn_raft na) -> vrel cs b F sb (rn_raft nb) -> dinv na -> dinv nb ->
  pre C (an_log sa) -> pre C (an_log sb) -> node_commit nb <= nlen C -> agree na nb (nlen C).
Proof.
  intros Va Vb Da Db Pa Pb Hc. pose proof (v_log _ _ _ _ _ Va) as La. pose proof (v_log _ _ _ _ _ Vb) as Lb.
  pose proof (li_wf _ (ni_log _ (di_ninv _ Da))) as Wa. pose proof (li_wf _ (ni_log _ (di_ninv _ Db))) as Wb.
  pose proof (pre_len _ _ Pa) as Na. pose proof (pre_len _ _ Pb) as Nb.
  unfold agree. unfold node_first. rewrite log_first_abs. unfold a_first.
  destruct (N.lt_ge_cases (nlen C) (a_base (log_abs (r_log (rn_raft na))))) as [X|X]; [left; lia|right].
  pose proof (proj1 (lwf_com _ Wb)) as Bb. change (node_commit nb) with (l_committed (r_log (rn_raft nb))) in Hc.
  unfold node_last. rewrite (log_last_abs _ (lwf_0 _ Wa)), (log_last_abs _ (lwf_0 _ Wb)), (lr_last _ _ La), (lr_last _ _ Lb).
  split; [exact Na|]. split; [exact Nb|]. exists (lastterm C).
  split; apply tm_shows; auto; unfold tm; [rewrite (lr_tm _ _ _ La) by assumption|rewrite (lr_tm _ _ _ Lb) by assumption].
  - destruct (N.ltb_spec (nlen C) (a_base (log_abs (r_log (rn_raft na))))); [lia|]. f_equal. exact Pa.
  - destruct (N.ltb_spec (nlen C) (a_base (log_abs (r_log (rn_raft nb))))); [lia|]. f_equal. exact Pb.
Qed.
Theorem C74_truthful cs cl a na b nb : reachable cs cl -> runs cl a na -> runs cl b nb -> a <> b ->
  node_role na = RLeader -> node_term nb <= node_term na -> truthful na nb.
Proof.
  intros R Ha Hb Hne Hl Ht. destruct (reachable_inv _ _ R) as [Hv (t0 & g & F & I)].
  destruct (publish2 cs Hv t0 _ _ _ _ _ _ _ I Ha Hb Hne) as (sa & sb & F2 & G & Va & Vb & Da & Db).
  assert (Ga : (upd (upd g a sa) b sb) a = sa) by (rewrite upd_other, upd_same by auto; reflexivity).
  assert (Gb : (upd (upd g a sa) b sb) b = sb) by apply upd_same.
  assert (Rl : an_role sa = ALead) by (rewrite (v_role _ _ _ _ _ Va); change (r_state (rn_raft na)) with (node_role na); rewrite Hl; reflexivity).
  assert (Ta : an_term sa = node_term na) by apply (v_term _ _ _ _ _ Va). assert (Tb : an_term sb = node_term nb) by apply (v_term _ _ _ _ _ Vb).
  split.
  - destruct (gi_com _ _ _ _ G b) as (C1 & t & C & C2 & C3 & C4). rewrite Gb in *.
    assert (Hc : an_com sb = node_commit nb) by apply (v_com _ _ _ _ _ Vb).
    assert (Hn : nlen (ntake (an_com sb) (an_log sb)) = node_commit nb) by (rewrite nlen_ntake; lia).
    rewrite <- Hn. eapply agree_pre; eauto; [|apply pre_ntake|lia].
    eapply pre_trans; [exact C4|]. eapply com_in_leader; [exact G|exact Ga|exact Rl|exact C2|lia].
  - intros p Hp Hm. rewrite peer_get in Hp by exact Hl. assert (Ib : node_id nb = b) by apply (v_id _ _ _ _ _ Vb). rewrite Ib in Hp.
    destruct (v_match _ _ _ _ _ Va Hl b p Hp) as [X|(L & X1 & X2)]; [lia|].
    destruct (gi_ack _ _ _ _ G _ _ _ X1) as (X3 & l & M & X4 & X5).
    destruct (gi_top _ _ _ _ G a) as (_ & _ & X6); [rewrite Ga; exact Rl|]. rewrite Ga in X6. change (r_term (rn_raft na)) with (node_term na) in *. rewrite Ta in X6.
    pose proof (X6 _ _ X4) as X7.
    assert (Hn : nlen (ntake (p_match p) L) = p_match p) by (rewrite nlen_ntake; lia).
    rewrite <- Hn. eapply agree_pre; eauto; [| |lia].
    + eapply pre_trans; [apply pre_ntake|]. eapply pre_trans; eauto.
    + rewrite <- Gb. eapply (gi_ret _ _ _ _ G); [exact X1|apply pre_ntake|]. intros u l' M' _ Hu. rewrite Gb in Hu. lia.
Qed.
(** C74: in a reachable cluster the member's log then is the leader's, entry for entry. *)
Theorem C74_whole_log cs cl a na b nb : reachable cs cl -> runs cl a na -> runs cl b nb -> caught_up na nb ->
  forall i e, holds_entry na i e -> i < node_first nb \/ holds_entry nb i e.
Proof.
  intros R Ha Hb (_ & C2 & t & C3 & C4) i e He.
  destruct (reachable_inv _ _ R) as [Hv (t0 & g & F & I)].
  destruct (publish1 cs Hv t0 _ _ _ _ _ I Ha) as (_ & _ & _ & _ & _ & Da). destruct (publish1 cs Hv t0 _ _ _ _ _ I Hb) as (_ & _ & _ & _ & _ & Db).
  destruct (N.lt_ge_cases i (node_first nb)) as [X|X]; [left; exact X|right].
  destruct (tm_holds _ _ _ Da He) as [_ Hi].
  assert (Q : forall n j, dinv n -> node_first n <= j <= node_last n -> exists x, holds_entry n j x).
  { intros n j D [J1 J2]. pose proof (li_wf _ (ni_log _ (di_ninv _ D))) as W. unfold node_first in J1. rewrite log_first_abs in J1. unfold node_last in J2.
    rewrite (log_last_abs _ (lwf_0 _ W)) in J2. unfold a_first in J1. unfold a_last in J2.
    destruct (nnth_lt_Some (a_ents (log_abs (r_log (rn_raft n)))) (j - a_base (log_abs (r_log (rn_raft n))) - 1)) as [x Hx]; [lia|].
    exists x. apply holds_abs; auto. unfold a_entry. destruct (N.ltb_spec (a_base (log_abs (r_log (rn_raft n)))) j); [exact Hx|lia]. }
  destruct (Q nb i Db ltac:(lia)) as (y & Hy).
  assert (Fa : node_first na <= i).
  { apply holds_abs in He; auto. unfold a_entry in He. destruct (N.ltb_spec (a_base (log_abs (r_log (rn_raft na)))) i); [|discriminate].
    unfold node_first. rewrite log_first_abs. unfold a_first. lia. }
  destruct (Q na (node_last na) Da ltac:(lia)) as (ea & Hea). destruct (Q nb (node_last na) Db ltac:(lia)) as (eb & Heb).
  rewrite (tm_shows _ _ _ Da) in C3. rewrite (tm_shows _ _ _ Db) in C4. destruct (tm_holds _ _ _ Da Hea) as [T1 _]. destruct (tm_holds _ _ _ Db Heb) as [T2 _].
  assert (Eq : e = y) by (eapply (C53_log_matching cs cl a na b nb (node_last na) ea eb R Ha Hb Hea Heb ltac:(congruence) i); eauto).
  rewrite Eq. exact Hy.
Qed.
(** C74: in every reachable cluster the snapshot a node has fits its log, and is for the voters. *)
Theorem C74_snapshot cs cl id n s F : reachable cs cl -> runs cl id n -> node_snapshot n = SOk s -> node_first n <= sn_index s + 1 ->
  In (node_id F) (cs_voters cs) \/ In (node_id F) (cs_outgoing cs) -> vouches n F s.
Proof.
  intros R Hr Hs Hf Hm. destruct (reachable_inv _ _ R) as [Hv (t0 & g & Fa & I)].
  destruct (publish1 cs Hv t0 _ _ _ _ _ I Hr) as (a & O & _ & G & V & D).
  pose proof (v_log _ _ _ _ _ V) as Lr. pose proof (li_wf _ (ni_log _ (di_ninv _ D))) as W.
  assert (Q : same_voters cs (sn_conf s) /\ sn_index s <= node_last n /\ shows n (sn_index s) (sn_term s)).
  { rewrite (tm_shows _ _ _ D). unfold node_last, tm. rewrite (log_last_abs _ (lwf_0 _ W)). unfold node_snapshot, log_snapshot in Hs.
    destruct (u_snap (l_us (r_log (rn_raft n)))) as [s'|] eqn:Hu.
    - injection Hs as ->. split; [eapply v_usnap; eauto|]. unfold log_abs. rewrite Hu. unfold a_last, a_term0, a_term. cbn [a_base a_ents a_bterm]. rewrite N.eqb_refl. split; [lia|reflexivity].
    - unfold ms_snapshot in Hs. injection Hs as <-. destruct (v_ssnap _ _ _ _ _ V) as (S1 & S2 & S3). split; [exact S3|].
      assert (Hl : sn_index (ms_snap (l_st (r_log (rn_raft n)))) <= a_last (log_abs (r_log (rn_raft n)))).
      { pose proof (lwf_com _ W). pose proof (v_com _ _ _ _ _ V) as Vc. lia. }
      split; [exact Hl|]. rewrite (lr_tm _ _ _ Lr) by (rewrite <- (lr_last _ _ Lr); exact Hl).
      unfold node_first in Hf. rewrite log_first_abs in Hf. unfold a_first in Hf. destruct (N.ltb_spec (sn_index (ms_snap (l_st (r_log (rn_raft n))))) (a_base (log_abs (r_log (rn_raft n))))); [lia|]. congruence. }
  destruct Q as ((P1 & P2) & Q2 & Q3). split; [exact Hf|]. split; [exact Q2|]. split; [exact Q3|].
  destruct Hm as [Hm|Hm]; [left|right; right]; eapply Permutation_in; eauto.
Qed.
(** C74: so in every reachable cluster a leader and a voter that is not in a later term start from there,
    and the exchange ends with the voter caught up; unless the leader has compacted its log past the
    snapshot it has. *)
Theorem C74_cluster cs cl a na b nb x : reachable cs cl -> runs cl a na -> runs cl b nb -> a <> b ->
  In b (cs_voters cs) \/ In b (cs_outgoing cs) -> node_term nb <= node_term na ->
  probing na nb x -> carries na x -> (forall p, peer na (node_id nb) = Some p -> p_match p <= m_index x) ->
  (forall s, node_snapshot na = SOk s -> node_first na <= sn_index s + 1) ->
  Acc (fun s' s => exchange s s') (mkPair na nb [x]) /\
  forall na' nb', exchanges (mkPair na nb [x]) (mkPair na' nb' []) -> caught_up na' nb' /\ node_last na' = node_last na.
Proof.
  intros R Ha Hb Hne Hm Ht P C M S. destruct (C75_made _ _ _ _ R Ha) as (ca & _ & Ma). destruct (C75_made _ _ _ _ R Hb) as (cb & Ib & Mb).
  assert (St : starts na nb x).
  { pose proof P as (P1 & _ & (p & P2 & _) & _). split; [exact (C73_terms_ordered _ _ _ _ R Ha)|]. split; [exact (C73_terms_ordered _ _ _ _ R Hb)|]. split; [exact P|]. split; [exact C|].
    split; [exact (C74_truthful _ _ _ _ _ _ R Ha Hb Hne P1 Ht)|]. split; [|exists p; auto].
    intros s Hs. eapply C74_snapshot; eauto.
    assert (In_b : node_id nb = b). { change (k_id (r_cfg (rn_raft nb)) = b). rewrite (mi_cfg _ _ (made_inv _ _ Mb)). exact Ib. } rewrite In_b. exact Hm. }
  split; [eapply C74_ends; eassumption|]. intros na' nb' Hx. eapply C74_caught_up; eassumption.
Qed.
End Props.

(** A concrete case, that of C73: two refusals, then everything. *)
#[local] Existing Instance ex_env.
Definition agreeb (L F : rawnode) (i : N) : bool :=
  (i + 1 <? node_first L) || ((i <=? node_last L) && (i <=? node_last F) && (tm L i =? tm F i)).
Lemma agreeb_ok L F i : dinv L -> dinv F -> agreeb L F i = true -> agree L F i.
Proof.
  intros DL DF H. unfold agreeb in H. apply orb_prop in H. destruct H as [H|H]; [left; apply N.ltb_lt; exact H|right].
  apply andb_prop in H. destruct H as [H H3]. apply andb_prop in H. destruct H as [H1 H2]. apply N.leb_le in H1, H2. apply N.eqb_eq in H3.
  split; [exact H1|]. split; [exact H2|]. exists (tm L i). split; apply tm_shows; auto.
Qed.
Ltac exchanged := match goal with |- exchanges (mkPair ?L ?F (?x :: ?q)) _ => eapply ExMore; [eapply (Exchange L F x q); [
    split; [apply nop_okb_ok; vm_compute; reflexivity|]; split; [vm_compute; split; [discriminate|intros [_ X]; discriminate]|eexists; split; vm_compute; reflexivity]|
    apply nop_okb_ok; vm_compute; reflexivity|vm_compute; reflexivity|vm_compute; reflexivity]|];
    match goal with |- exchanges (mkPair ?a ?b ?w) ?z => let v := eval vm_compute in w in change (exchanges (mkPair a b v) z) end end.
Ltac starting M M' := split; [apply orderedb_ok; [exact M|vm_compute; reflexivity]|]; split; [apply orderedb_ok; [exact M'|vm_compute; reflexivity]|];
    split; [split; [reflexivity|]; split; [vm_compute; discriminate|]; split; [eexists; split; [vm_compute; reflexivity|]; split; reflexivity|]; repeat split; vm_compute; reflexivity|];
    split; [split; [vm_compute; discriminate|]; split; [vm_compute; reflexivity|]; split; [|intros _; discriminate];
      intros e [<-|[]]; apply holds_abs; [exact M|vm_compute; reflexivity]|];
    split; [split; [apply agreeb_ok; [exact M|exact M'|vm_compute; reflexivity]|];
      intros p Hp; vm_compute in Hp; injection Hp as <-; vm_compute; discriminate|];
    split; [intros s Hs; vm_compute in Hs; injection Hs as <-; split; [vm_compute; discriminate|]; split; [vm_compute; discriminate|]; split; [vm_compute; reflexivity|left; vm_compute; auto]|];
    eexists; split; [vm_compute; reflexivity|]; vm_compute; discriminate.
Lemma exchange_eq s a b : exchange s a -> a = b -> exchange s b.
Proof. intros H <-. exact H. Qed.
Example C74_example : exists L F L' F', made (exp_cfg 1 exp_s1) L /\ made (exp_cfg 2 exp_s2) F /\ starts L F exp_x /\
  In exp_x (pending L) /\ exchanges (mkPair L F [exp_x]) (mkPair L' F' []) /\ node_last F <> node_last L /\ node_last F' = node_last L.
Proof.
  eexists _, _, _, _.
  match goal with |- ?P /\ _ => assert (M : P) end.
  { exists ex_tape, exp_s1. eexists _, exp_lead, _. split; [reflexivity|]. split; [apply storage_okb_ok; reflexivity|].
    split; [vm_compute; reflexivity|]. split; [apply n_run_okb_ok; vm_compute; reflexivity|]. vm_compute; reflexivity. }
  split; [exact M|].
  match goal with |- ?P /\ _ => assert (M' : P) end.
  { exists ex_tape, exp_s2. eexists _, [NHandle], _. split; [reflexivity|]. split; [apply storage_okb_ok; reflexivity|].
    split; [vm_compute; reflexivity|]. split; [apply n_run_okb_ok; vm_compute; reflexivity|]. vm_compute; reflexivity. }
  split; [exact M'|]. apply made_dinv in M. apply made_dinv in M'.
  split; [starting M M'|].
  split; [vm_compute; tauto|].
  split; [repeat exchanged; apply ExNone|]. split; [vm_compute; discriminate|vm_compute; reflexivity].
Qed.
(** A second case: the member's log (2..3) ends before what the leader's still has (6..9), so that one
    refusal is followed by a snapshot and then the entries after it. *)
Definition exp_s3 : mstorage :=
  mkMS (mkHardState 5 0 2) (mkSnapshot 2 1 ex_conf EmptyString) (mkEntry 1 2 EntryNormal EmptyString) [exp_ent 1 3].
Example C74_example_snapshot : exists L F L' F' y L1 F1, made (exp_cfg 1 exp_s1) L /\ made (exp_cfg 2 exp_s3) F /\ starts L F exp_x /\
  In exp_x (pending L) /\ exchange (mkPair L F [exp_x]) (mkPair L1 F1 [y]) /\ m_type y = MsgSnap /\
  exchanges (mkPair L1 F1 [y]) (mkPair L' F' []) /\ node_last F' = node_last L /\ node_commit F = 2 /\ node_first F' = 6.
Proof.
  eexists _, _, _, _, _, _, _.
  match goal with |- ?P /\ _ => assert (M : P) end.
  { exists ex_tape, exp_s1. eexists _, exp_lead, _. split; [reflexivity|]. split; [apply storage_okb_ok; reflexivity|].
    split; [vm_compute; reflexivity|]. split; [apply n_run_okb_ok; vm_compute; reflexivity|]. vm_compute; reflexivity. }
  split; [exact M|].
  match goal with |- ?P /\ _ => assert (M' : P) end.
  { exists ex_tape, exp_s3. eexists _, [NHandle], _. split; [reflexivity|]. split; [apply storage_okb_ok; reflexivity|].
    split; [vm_compute; reflexivity|]. split; [apply n_run_okb_ok; vm_compute; reflexivity|]. vm_compute; reflexivity. }
  split; [exact M'|]. apply made_dinv in M. apply made_dinv in M'.
  split; [starting M M'|].
  split; [vm_compute; tauto|].
  split.
  { match goal with |- exchange (mkPair ?L ?F (?x :: ?q)) _ => let v := constr:(Exchange L F x q) in idtac end.
    eapply exchange_eq; [eapply (Exchange _ _ exp_x []); [
      split; [apply nop_okb_ok; vm_compute; reflexivity|]; split; [vm_compute; split; [discriminate|intros [_ X]; discriminate]|eexists; split; vm_compute; reflexivity]|
      apply nop_okb_ok; vm_compute; reflexivity|vm_compute; reflexivity|vm_compute; reflexivity]|vm_compute; reflexivity]. }
  split; [reflexivity|]. split; [repeat exchanged; apply ExNone|]. split; [vm_compute; reflexivity|]. split; vm_compute; reflexivity.
Qed.

(** The snapshot must not be older than what the leader's log starts with: the documentation only asks
    that nothing is compacted that has not been applied, but here the leader has applied and compacted
    index 6 with a snapshot of index 5, and the member, sent that snapshot twice, stays behind. *)
Definition exp_s4 : mstorage :=
  mkMS (mkHardState 5 0 6) (mkSnapshot 5 1 ex_conf EmptyString) (mkEntry 1 6 EntryNormal EmptyString) [exp_ent 2 7; exp_ent 4 8].
Example C74_stale_snapshot : exists L F L' F' p, made (exp_cfg 1 exp_s4) L /\ made (exp_cfg 2 exp_s3) F /\ ordered L /\ ordered F /\
  probing L F exp_x /\ carries L exp_x /\ truthful L F /\ node_first L = 7 /\ (exists s, node_snapshot L = SOk s /\ sn_index s = 5) /\
  exchanges (mkPair L F [exp_x]) (mkPair L' F' []) /\ node_last L' = 9 /\ node_last F' = 5 /\
  peer L' 2 = Some p /\ p_match p = 5 /\ p_state p = StSnapshot.
Proof.
  eexists _, _, _, _, _.
  match goal with |- ?P /\ _ => assert (M : P) end.
  { exists ex_tape, exp_s4. eexists _, exp_lead, _. split; [reflexivity|]. split; [apply storage_okb_ok; reflexivity|].
    split; [vm_compute; reflexivity|]. split; [apply n_run_okb_ok; vm_compute; reflexivity|]. vm_compute; reflexivity. }
  split; [exact M|].
  match goal with |- ?P /\ _ => assert (M' : P) end.
  { exists ex_tape, exp_s3. eexists _, [NHandle], _. split; [reflexivity|]. split; [apply storage_okb_ok; reflexivity|].
    split; [vm_compute; reflexivity|]. split; [apply n_run_okb_ok; vm_compute; reflexivity|]. vm_compute; reflexivity. }
  split; [exact M'|]. apply made_dinv in M. apply made_dinv in M'.
  split; [apply orderedb_ok; [exact M|vm_compute; reflexivity]|]. split; [apply orderedb_ok; [exact M'|vm_compute; reflexivity]|].
  split; [split; [reflexivity|]; split; [vm_compute; discriminate|]; split; [eexists; split; [vm_compute; reflexivity|]; split; reflexivity|]; repeat split; vm_compute; reflexivity|].
  split; [split; [vm_compute; discriminate|]; split; [vm_compute; reflexivity|]; split; [|intros _; discriminate];
      intros e [<-|[]]; apply holds_abs; [exact M|vm_compute; reflexivity]|].
  split; [split; [apply agreeb_ok; [exact M|exact M'|vm_compute; reflexivity]|]; intros p Hp; vm_compute in Hp; injection Hp as <-; vm_compute; discriminate|].
  split; [vm_compute; reflexivity|]. split; [eexists; split; vm_compute; reflexivity|].
  split; [repeat exchanged; apply ExNone|]. repeat split; vm_compute; reflexivity.
Qed.
