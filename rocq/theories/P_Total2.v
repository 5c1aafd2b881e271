(** Which calls return at all, continued: elections, appending, followers, Step, Tick. *)
From Verif Require Import Prelude Types M_Util M_Quorum M_Inflights M_Progress M_Tracker.
From Verif Require Import M_Storage M_Unstable M_Log M_ReadOnly M_ConfPb M_ConfChange M_Raft M_RawNode.
From Verif Require Import Spec_Inflights P_Inflights Spec_ReadOnly P_ReadOnly Spec_Log P_Lists P_Storage P_Log P_Quorum P_Frame P_Prim.
From Verif Require Import Spec_ConfChange P_ConfChange P_Conf P_Fields P_RaftLogSeq P_New P_NodeLog P_Read P_ReadQ Sys_Node Prop_Api R_Elig P_Total.

Section Total2.
Context {E : Env}.

(** The snapshot in the storage covers a compacted log. *)
Definition cov (s : mstorage) : Prop := e_index (ms_dummy s) <> 0 -> sn_index (ms_snap s) <> 0.
Lemma snapok_cov l : linv l -> cov (l_st l) -> snapok l.
Proof.
  intros [W _ S] C i Hi Hf. unfold log_snapshot, log_first, us_maybe_first in *.
  destruct (u_snap (l_us l)) as [sn|].
  - exists sn. split; auto. lia.
  - exists (ms_snap (l_st l)). split; [reflexivity|]. apply C. unfold ms_first_index in Hf. lia.
Qed.

Record live (r : raft) : Prop := {
  lv_n : ninv r;
  lv_tok : tok r;
  lv_el : elig r;
  lv_prs : prok r;
  lv_max : 0 < t_max_inflight (r_trk r);
  lv_rd : rdok r;
  lv_cov : cov (l_st (r_log r));
  lv_z : a_term0 (log_abs (r_log r)) 0 = 0;
  lv_base : u_snap (l_us (r_log r)) = None -> a_base (log_abs (r_log r)) <= l_applied (r_log r);
  lv_zero : r_term r = 0 -> a_last (log_abs (r_log r)) = 0
}.
Lemma live_lwf r : live r -> lwf (r_log r).
Proof. intros L. exact (li_wf _ (ni_log _ (lv_n _ L))). Qed.
Lemma live_sok r : live r -> sok r.
Proof. intros L. constructor; [apply live_lwf; auto|apply L|]. apply snapok_cov; [apply (lv_n _ L)|apply L]. Qed.

Lemma pok_new n mi l a : 0 < mi -> 1 <= n -> pok (new_progress n 0 mi l a).
Proof.
  intros H1 H2. unfold pok, infl_ok, new_progress. cbn. split; [|auto]. split; [apply iwf_new|]. exists [].
  split; [reflexivity|]. intros i Hi. destruct (N.nlt_0_r _ Hi).
Qed.
Lemma prok_reset t r r' : r' = reset t r -> 0 < t_max_inflight (r_trk r) -> prok r'.
Proof.
  intros H Hm id p Hg. destruct (reset_more _ _ _ H) as (_&_&_&_&_&_&_&_&A&_). unfold trk_get in Hg. rewrite A, mget_mmap in Hg.
  destruct (mget id (t_progress (r_trk r))) as [q|]; [|discriminate]. cbn in Hg. injection Hg as <-.
  destruct (id =? r_id r); [apply pok_match|]; apply pok_new; auto; lia.
Qed.
Lemma rdok_reset t r r' : r' = reset t r -> rdok r -> rdok r'.
Proof.
  intros H [R1 R2]. destruct (reset_more _ _ _ H) as (_&A2&A3&_). constructor; [rewrite A3; auto|].
  rewrite A2. exists []. apply ro_rel_new.
Qed.
Lemma tracked_reset t r r' id : r' = reset t r -> trk_get id (r_trk r) <> None -> trk_get id (r_trk r') <> None.
Proof.
  intros H G. destruct (reset_more _ _ _ H) as (_&_&_&_&_&_&_&_&A&_). unfold trk_get in *. rewrite A, mget_mmap.
  destruct (mget id _); [discriminate|congruence].
Qed.
Lemma voter_tracked r : tok r -> voter_of r -> trk_get (r_id r) (r_trk r) <> None.
Proof. intros T V. apply (cw_trk _ _ T). destruct V; auto. Qed.

Lemma ninv_log r r' : r_log r' = r_log r -> (r_state r' = RLeader \/ r_state r' = RCandidate -> 0 < r_term r') -> ninv r -> ninv r'.
Proof. intros H1 H2 [N1 N2 N3]. constructor; rewrite ?H1; auto. Qed.

Lemma bf_reset t l r r' : r' = become_follower t l r -> exists r0, r0 = reset t r /\ r_trk r' = r_trk r0 /\ r_pend_reads r' = r_pend_reads r0 /\ r_ro r' = r_ro r0.
Proof.
  unfold become_follower. hide (reset t r) r0 Er0. intros ->. exists r0. clear Er0. auto.
Qed.
Lemma live_follower t l r r' : r' = become_follower t l r -> r_term r <= t -> live r -> live r'.
Proof.
  intros H Ht L. destruct (become_follower_fields _ _ _ _ H) as (A1&A2&A3&A4&A5&A6&A7&A8&A9&A10&A11).
  destruct (bf_reset _ _ _ _ H) as (r0 & E0 & HT & HR1 & HR2). clear H. constructor.
  - apply (ninv_log r); auto; [|apply L]. rewrite A5. intros [?|?]; discriminate.
  - apply (tok_eq r0); auto. eapply tok_reset; eauto. apply L.
  - intros X. congruence.
  - intros id p. rewrite HT. eapply prok_reset; eauto. apply L.
  - rewrite A11. apply L.
  - destruct (rdok_reset _ _ _ E0 (lv_rd _ L)) as [R1 R2]. constructor; [rewrite HR1|rewrite HR2]; auto.
  - rewrite A4. apply L.
  - rewrite A4. apply L.
  - rewrite A4. apply L.
  - rewrite A2, A4. intros ->. apply L. lia.
Qed.

(* ---- appending ---- *)
Lemma append_total es r : lwf (r_log r) -> prok r -> snapok (r_log r) -> 0 < r_term r -> trk_get (r_id r) (r_trk r) <> None -> es <> [] ->
  total (append_entry es r) /\
  (forall r', append_entry es r = Ok (Some r') -> sok r' /\ l_st (r_log r') = l_st (r_log r)).
Proof.
  intros W P S T G Hes. unfold append_entry. set (es' := stamp _ _ _).
  assert (Hc : contig (r_last r + 1) es') by (subst es'; apply stamp_contig).
  assert (Hn : es' <> []) by (subst es'; destruct es; [congruence|cbn; discriminate]). clearbody es'.
  unfold increase_uncommitted. set (over := _ && _ && _). destruct over; [split; [apply total_ok|intros r' X; discriminate]|].
  pose proof (log_append_abs es' (r_last r + 1) (r_log r) W Hc Hn ltac:(lia)) as A.
  unfold r_last in *. rewrite (log_last_abs _ (lwf_0 _ W)) in *. pose proof (lwf_com _ W) as HC.
  destruct (N.ltb_spec (a_last (log_abs (r_log r)) + 1 - 1) (l_committed (r_log r))); [lia|].
  destruct (N.ltb_spec (a_last (log_abs (r_log r)) + 1) (a_last (log_abs (r_log r)) + 1)); [lia|].
  destruct A as (l' & A1 & A2 & A3 & A4 & A5 & A6 & A7 & A8). cbn [r_log set_r_uncommitted set_r_log r_trk r_id]. rewrite A1. cbn [bind].
  assert (Hid : r_id (set_r_log l' (set_r_uncommitted (r_uncommitted r + payloads_size es') r)) = r_id r) by reflexivity. rewrite Hid.
  change (r_trk (set_r_log l' _)) with (r_trk r). destruct (trk_get (r_id r) (r_trk r)) as [pr|] eqn:Hg; [|congruence].
  destruct (pr_maybe_update _ pr) as [pr' u] eqn:Hu.
  set (r2 := put_progress _ _ _). assert (W2 : lwf (r_log r2)) by exact A2. assert (T2 : 0 < r_term r2) by exact T.
  assert (P2 : prok r2) by (apply prok_put; [exact P|]; eapply pok_update; eauto).
  assert (S2 : snapok (r_log r2)).
  { unfold r2. cbn. intros i Hi Hf. destruct (S i Hi) as (sn & Q1 & Q2).
    - revert Hf. unfold log_first, us_maybe_first. rewrite A8, A4. auto.
    - exists sn. split; auto. unfold log_snapshot in *. rewrite A8, A4. auto. }
  assert (L2 : l_st (r_log r2) = l_st (r_log r)) by exact A4. clearbody r2. destruct (maybe_commit_total r2 W2 T2) as ([[r3 b] M] & F). rewrite M. cbn [bind].
  split; [apply total_ok|]. intros r' X. injection X as <-. destruct (F _ _ M) as (c & _ & -> & F2). split; [|exact L2].
  constructor; cbn; auto.
Qed.

(* ---- elections ---- *)
Lemma become_leader_total r : live r -> r_state r <> RFollower -> 0 < r_term r ->
  total (become_leader r) /\ (forall r', become_leader r = Ok r' -> sok r').
Proof.
  intros L Hs Ht. pose proof (voter_tracked _ (lv_tok _ L) (lv_el _ L Hs)) as G. unfold become_leader.
  destruct (role_eqb (r_state r) RFollower) eqn:Er; [destruct (r_state r); try discriminate; congruence|].
  hide (reset (r_term r) r) r0 E0. destruct (reset_fields _ _ _ E0) as (A1&A2&A3&A4&A5&A6&A7&A8&A9&A10&A11).
  pose proof (prok_reset _ _ _ E0 (lv_max _ L)) as P0. pose proof (tracked_reset _ _ _ _ E0 G) as G0.
  destruct (reset_more _ _ _ E0) as (_&_&_&_&_&U0&_). assert (I0 : r_id r0 = r_id r) by (unfold r_id; congruence). clear E0.
  unfold become_leader_reset. rewrite <- I0 in G0. destruct (trk_get (r_id r0) (r_trk r0)) as [pr|] eqn:Hg; [|congruence].
  destruct (append_total [empty_entry] (lead_base pr r0)) as [[o T1] T2].
  - cbn. rewrite A4. apply live_lwf; auto.
  - unfold lead_base. cbv zeta. intros id p Hp. eapply (prok_put (r_id r0)); [exact P0| |exact Hp]. apply pok_replicate. eauto.
  - cbn. rewrite A4. apply (live_sok _ L).
  - cbn. rewrite A2. auto.
  - unfold lead_base. cbv zeta. unfold trk_get. cbn. rewrite mget_mset. change (r_id r0) with (k_id (r_cfg r0)). rewrite N.eqb_refl. discriminate.
  - discriminate.
  - rewrite T1. cbn [bind]. destruct o as [r'|].
    + split; [apply total_ok|]. intros r2 X. injection X as <-. destruct (T2 _ T1) as [S _].
      destruct (reduce_uncommitted_fields [empty_entry] r') as [u ->]. destruct S as [S1 S2 S3]. constructor; auto.
    + exfalso. apply append_entry_inv in T1. cbn in T1. rewrite U0 in T1. discriminate.
Qed.

Lemma reqs_total t tm tr l : is_vote_family t = true -> tm <> 0 -> forall r, lwf (r_log r) -> total (mfold (send_vote_req t tm tr) l r).
Proof.
  intros Hf Htm. intros r W. apply total_mfold with (P := fun r => lwf (r_log r)); auto.
  - intros to s _ Ws. unfold send_vote_req. destruct (log_last_term_abs _ (lwf_0 _ Ws)) as (lt & _ & ->). cbn [bind]. apply send_total.
    destruct tr; cbn; rewrite Hf; auto.
  - intros to s s' _ Ws H. unfold send_vote_req in H. apply bind_ok in H. destruct H as (lt & _ & H).
    apply send_ok in H. destruct H as [-> _]. exact Ws.
Qed.
Lemma live_poll id v r r' x : live r -> poll id v r = (r', x) -> live r' /\ r_state r' = r_state r /\ r_term r' = r_term r /\ r_cfg r' = r_cfg r /\ r_log r' = r_log r.
Proof.
  intros [L1 L2 L3 L4 L5 L6 L7 L8 L9 L10] H. unfold poll in H. injection H as <- _. split; [|cbn; auto].
  constructor; auto.
  - apply (ninv_log r); auto. intros S. apply L1. exact S.
  - unfold tok in *. unfold trk_record_vote. cbn. destruct (mget id (t_votes (r_trk r))); cbn; auto.
  - unfold elig, voter_of in *. cbn. unfold trk_record_vote. destruct (mget id (t_votes (r_trk r))); cbn; auto.
  - intros i p. cbn. unfold trk_record_vote, trk_get. destruct (mget id (t_votes (r_trk r))); cbn; apply L4.
  - cbn. unfold trk_record_vote. destruct (mget id (t_votes (r_trk r))); cbn; auto.
  - destruct L6. constructor; auto.
Qed.
Lemma live_candidate r r1 : live r -> voter_of r -> become_candidate r = Ok r1 -> live r1.
Proof.
  intros L V H. destruct (become_candidate_all _ _ H) as (A0&A1&A2&A3&A4&A5&A6&A7&A8&A9&A10&A11). unfold become_candidate in H.
  destruct (is_leader r); [discriminate|]. apply Ok_inj in H. hide (reset (r_term r + 1) r) r0 E0.
  assert (HT : r_trk r1 = r_trk r0) by (subst r1; auto). assert (HR1 : r_pend_reads r1 = r_pend_reads r0) by (subst r1; auto).
  assert (HR2 : r_ro r1 = r_ro r0) by (subst r1; auto). clear H. constructor.
  - apply (ninv_log r); auto; [|apply L]. intros _. lia.
  - apply (tok_eq r0); auto. eapply tok_reset; eauto. apply L.
  - intros _. apply (voter_same r); auto. unfold r_id. rewrite A1. reflexivity.
  - intros id p. rewrite HT. eapply prok_reset; eauto. apply L.
  - rewrite A11. apply L.
  - destruct (rdok_reset _ _ _ E0 (lv_rd _ L)) as [R1 R2]. constructor; [rewrite HR1|rewrite HR2]; auto.
  - rewrite A4. apply L.
  - rewrite A4. apply L.
  - rewrite A4. apply L.
  - rewrite A2. lia.
Qed.
Lemma live_pre r r1 : live r -> voter_of r -> become_pre_candidate r = Ok r1 -> live r1.
Proof.
  intros L V H. destruct (become_pre_all _ _ H) as (A0&A1&A2&A3&A4&A5&A6&A7&A8&A9&A10&A11&A12). unfold become_pre_candidate in H.
  destruct (is_leader r); [discriminate|]. apply Ok_inj in H.
  assert (HR1 : r_pend_reads r1 = r_pend_reads r) by (subst r1; auto).
  assert (HR2 : r_ro r1 = r_ro r) by (subst r1; auto). clear H. constructor.
  - apply (ninv_log r); auto; [|apply L]. rewrite A5. intros [?|?]; discriminate.
  - unfold tok. rewrite A9, A12. apply L.
  - intros _. apply (voter_same r); auto. unfold r_id. rewrite A1. reflexivity.
  - intros id p. unfold trk_get. rewrite A12. apply L.
  - rewrite A11. apply L.
  - destruct (lv_rd _ L) as [R1 R2]. constructor; [rewrite HR1|rewrite HR2]; auto.
  - rewrite A4. apply L.
  - rewrite A4. apply L.
  - rewrite A4. apply L.
  - rewrite A2, A4. apply L.
Qed.
Lemma campaign_real_total b r : live r -> voter_of r -> r_state r <> RLeader -> total (campaign_real b r).
Proof.
  intros L V Hs. unfold campaign_real. tb.
  - unfold become_candidate, is_leader. destruct (r_state r); try congruence; apply total_ok.
  - pose proof (live_candidate _ _ L V H) as L1. destruct (become_candidate_all _ _ H) as (_&_&A2&_&_&A5&_).
    destruct (poll (r_id x) true x) as [r2 res_] eqn:Hp. destruct (live_poll _ _ _ _ _ L1 Hp) as (L2 & B1 & B2 & _).
    destruct res_; [apply reqs_total; auto; [lia|apply live_lwf; auto]|apply reqs_total; auto; [lia|apply live_lwf; auto]|].
    apply become_leader_total; auto; [rewrite B1, A5; discriminate|lia].
Qed.
Lemma campaign_total t r : live r -> voter_of r -> r_state r <> RLeader -> total (campaign t r).
Proof.
  intros L V Hs. destruct t; cbn [campaign]; [|apply campaign_real_total; auto|apply campaign_real_total; auto]. tb.
  - unfold become_pre_candidate, is_leader. destruct (r_state r); try congruence; apply total_ok.
  - pose proof (live_pre _ _ L V H) as L1. destruct (become_pre_all _ _ H) as (_&A1&A2&_&_&A5&_&_&_&A9&_).
    destruct (poll (r_id x) true x) as [r2 res_] eqn:Hp. destruct (live_poll _ _ _ _ _ L1 Hp) as (L2 & B1 & B2 & B3 & _).
    destruct res_; [apply reqs_total; auto; [lia|apply live_lwf; auto]|apply reqs_total; auto; [lia|apply live_lwf; auto]|].
    apply campaign_real_total; auto; [|rewrite B1, A5; discriminate]. apply (lv_el _ L2). rewrite B1, A5. discriminate.
Qed.
Lemma hup_total t r : live r -> total (hup t r).
Proof.
  intros L. unfold hup. destruct (is_leader r) eqn:Hl; [apply total_ok|]. destruct (promotable r) eqn:Hp; [|apply total_ok]. cbn [negb].
  pose proof (live_lwf _ L) as W. assert (Hu : u_snap (l_us (r_log r)) = None).
  { unfold promotable, log_has_pending_snapshot in Hp. destruct (trk_get _ _); [|discriminate]. apply andb_true_iff in Hp. destruct Hp as [_ Hp].
    destruct (u_snap (l_us (r_log r))) as [sn|] eqn:Hu; auto. exfalso. pose proof (lp_pend _ (ni_pos _ (lv_n _ L)) _ Hu) as Q.
    destruct (N.eqb_spec (sn_index sn) 0) as [Hz|Hz]; [lia|]. cbn in Hp. congruence. }
  pose proof (lv_base _ L Hu) as Hb. pose proof (lwf_com _ W) as HC. pose proof (lwf_app _ W) as HA.
  rewrite (log_slice_abs _ _ _ _ (lwf_0 _ W)); [|unfold a_first; lia|lia|lia]. cbn [bind].
  destruct (negb _ && _); [apply total_ok|]. apply campaign_total; auto; [apply promotable_voter; auto; apply L|].
  unfold is_leader in Hl. destruct (r_state r); try discriminate; congruence.
Qed.
End Total2.
