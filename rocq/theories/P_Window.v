(** The inflight window of every follower a leader tracks. *)
From Verif Require Import Prelude Types M_Util M_Quorum M_Inflights M_Progress M_Tracker.
From Verif Require Import M_Storage M_Unstable M_Log M_ReadOnly M_ConfPb M_ConfChange M_Raft M_RawNode.
From Verif Require Import Spec_Inflights P_Inflights Spec_Log P_Lists P_Storage P_Log P_RaftLogSeq P_NodeLog P_Frame P_Prim Sys_Node P_Node P_Fields P_Vote Spec_Node P_New P_Time P_Handle P_NodeRun P_Emit P_Lead P_Transfer P_Flow Spec_ConfChange Sys_ConfChange P_ConfChange P_Conf.

Section Win.
Context {E : Env}.

(** [q] is what is in flight: strictly increasing indexes below Next. *)
Definition chain (q : list N) (b : N) : Prop := sorted q /\ forall x, In x q -> x < b.
Lemma chain_nil b : chain [] b. Proof. split; [constructor|intros x []]. Qed.
Lemma chain_mono q a b : a <= b -> chain q a -> chain q b.
Proof. intros H [H1 H2]. split; auto. intros x Hx. specialize (H2 _ Hx). lia. Qed.
Lemma sorted_snoc q i : sorted q -> (forall x, In x q -> x < i) -> sorted (q ++ [i]).
Proof.
  unfold sorted. induction q as [|a q IH]; intros H Hi; cbn; [repeat constructor|].
  apply StronglySorted_inv in H. destruct H as [H1 H2]. constructor; [apply IH; auto; intros; apply Hi; right; auto|].
  apply Forall_app. split; auto. constructor; auto. apply Hi. left; auto.
Qed.
Lemma chain_snoc q b i : b <= i -> chain q b -> chain (q ++ [i]) (i + 1).
Proof.
  intros Hi [H1 H2]. split; [apply sorted_snoc; auto; intros x Hx; specialize (H2 _ Hx); lia|].
  intros x Hx. apply in_app_or in Hx. destruct Hx as [Hx|[<-|[]]]; [specialize (H2 _ Hx)|]; lia.
Qed.
Lemma drop_le_suffix to q : exists d, q = d ++ drop_le to q /\ forall x, In x d -> x <= to.
Proof.
  induction q as [|a q IH]; cbn; [exists []; split; [auto|intros x []]|].
  destruct (N.leb_spec a to); [|exists []; split; [auto|intros x []]].
  destruct IH as (d & E1 & E2). exists (a :: d). split; [cbn; congruence|]. intros x [<-|Hx]; auto.
Qed.
Lemma sorted_app_r (a b : list N) : sorted (a ++ b) -> sorted b.
Proof. unfold sorted. induction a; cbn; auto. intros H. apply StronglySorted_inv in H. apply IHa, H. Qed.
Lemma chain_drop to q b : chain q b -> chain (drop_le to q) b.
Proof.
  intros [H1 H2]. destruct (drop_le_suffix to q) as (d & E1 & _). rewrite E1 in H1, H2. split; [eapply sorted_app_r; eauto|].
  intros x Hx. apply H2. apply in_or_app. auto.
Qed.
(** Dropping the first element of a sorted window drops nothing else. *)
Lemma drop_le_head a q : sorted (a :: q) -> drop_le a (a :: q) = q.
Proof.
  intros H. cbn. rewrite N.leb_refl. destruct q as [|b q]; auto. cbn.
  pose proof (sorted_cons_lt _ _ H b (or_introl eq_refl)). destruct (N.leb_spec b a); [lia|auto].
Qed.

Definition win (p : progress) (q : list N) : Prop :=
  iwf (p_infl p) /\ holds (p_infl p) q /\ chain q (p_next p) /\ (p_state p <> StReplicate -> q = []).
Definition nz (p : progress) : Prop := p_state p = StReplicate -> 1 <= p_next p.
Definition pwin (K : N) (p : progress) : Prop := (i_size (p_infl p) = K /\ nz p) /\ exists q, win p q.
Lemma nz_rin m p p' : rin m p p' -> nz p -> nz p'.
Proof.
  unfold rin, nz. intros H Z. destruct (m_type m); try contradiction.
  - destruct (m_reject m).
    + destruct H as [h H]. unfold onrej, pr_maybe_decr_to in H. cbn [p_state set_p_active p_match] in H.
      destruct (p_state p) eqn:Hs.
      * destruct (negb _) in H; cbn in H; rewrite ?Hs in H; cbn in H; subst p'; cbn; rewrite Hs; discriminate.
      * destruct (m_index m <=? p_match p); cbn in H; rewrite ?Hs in H; cbn in H; subst p'; [cbn; auto|].
        unfold pr_become_probe. cbn. rewrite Hs. cbn. discriminate.
      * destruct (negb _) in H; cbn in H; rewrite ?Hs in H; cbn in H; subst p'; cbn; rewrite Hs; discriminate.
    + unfold onack in H. destruct (pr_maybe_update (m_index m) (set_p_active true p)) as [p1 u] eqn:Hu.
      assert (X : p_state p1 = p_state p /\ p_next p <= p_next p1).
      { unfold pr_maybe_update in Hu. cbn in Hu. destruct (p_match p <? m_index m); inv Hu; cbn; split; auto; lia. }
      destruct X as [X1 X2]. destruct u; [|subst p'; rewrite X1; intros Y; specialize (Z Y); lia].
      unfold ack_progress in H. rewrite X1 in H. destruct (p_state p) eqn:Hs.
      * inv H. cbn. lia.
      * apply bind_ok in H. destruct H as (inf & _ & H). apply Ok_inj in H. subst p'. cbn. intros _. specialize (Z eq_refl). lia.
      * destruct (p_pending p1 <=? p_match p1); inv H; [cbn; lia|]. rewrite X1. discriminate.
  - unfold onbeat in H. destruct (_ && _) in H; [destruct H as (inf & _ & ->)|subst p']; cbn; auto.
  - unfold onunreach in H. subst p'. destruct (pstate_eqb (p_state p) StReplicate) eqn:Hs; auto.
    unfold pr_become_probe. destruct (p_state p); cbn; discriminate.
  - unfold onstatus in H. destruct (p_state p) eqn:Hs; subst p'; rewrite ?Hs; auto.
    unfold pr_become_probe. destruct (m_reject m); cbn; rewrite Hs; cbn; discriminate.
Qed.
Lemma nz_flow to p ms p' : pflow to p ms p' -> nz p -> nz p'.
Proof.
  induction 1 as [p|p m ms p' Ho Hp IH|p m ms p1 p' Hto Hty Hpa Hi Haa Hp IH|p m ms p' Hto Hty Hpa Hac Hp IH]; auto; intros Z; apply IH.
  - unfold after_app in Haa. destruct (rev _); [subst p1; auto|]. destruct (p_state p) eqn:Hs; [subst p1; unfold nz; cbn; rewrite Hs; discriminate| |contradiction].
    destruct Haa as (inf & _ & ->). intros _. cbn. lia.
  - intros X. discriminate.
Qed.

Lemma win_uniq p q q' : win p q -> win p q' -> q = q'.
Proof.
  intros (_ & [A1 A2] & _) (_ & [B1 B2] & _). apply list_ext. intros k.
  destruct (N.ltb_spec k (nlen q)).
  - rewrite <- A2, <- B2 by lia. reflexivity.
  - destruct (nnth q k) eqn:E1; [apply nnth_Some_lt in E1; lia|]. destruct (nnth q' k) eqn:E2; auto. apply nnth_Some_lt in E2. lia.
Qed.
Lemma win_active b p q : win p q -> win (set_p_active b p) q. Proof. intros H; exact H. Qed.
Lemma win_learner b p q : win p q -> win (set_p_learner b p) q. Proof. intros H; exact H. Qed.
Lemma win_reset s p : iwf (p_infl p) -> (exists q, holds (p_infl p) q) -> win (pr_reset_state s p) [].
Proof.
  intros H1 [q H2]. destruct (step_ok IReset _ q H1 H2 I) as (x & E1 & E2 & E3 & _). cbn in E1. inv E1.
  repeat split; auto; try apply E2; try apply E3. constructor. intros x [].
Qed.
Lemma win_next p p' q : win p q -> p_infl p' = p_infl p -> p_state p' = p_state p -> p_next p <= p_next p' -> win p' q.
Proof. intros (H1 & H2 & H3 & H4) A B C. unfold win. rewrite A, B. repeat split; auto; try apply H1; try apply H2; try apply H3. intros x Hx. apply H3 in Hx. lia. Qed.
Lemma win_empty p p' q : win p q -> p_state p <> StReplicate -> p_infl p' = p_infl p -> win p' [].
Proof.
  intros (H1 & H2 & H3 & H4) A B. specialize (H4 A). subst q. unfold win. rewrite B. split; auto. split; auto. split; [apply chain_nil|auto].
Qed.
Lemma win_probe p q : win p q -> win (pr_become_probe p) [].
Proof.
  intros (H1 & H2 & _). unfold pr_become_probe. destruct (p_state p);
    (eapply (win_empty (pr_reset_state StProbe p)); [apply win_reset; eauto|discriminate|reflexivity]).
Qed.
Lemma win_replicate p q : win p q -> win (pr_become_replicate p) [].
Proof.
  intros (H1 & H2 & _). unfold pr_become_replicate. destruct (win_reset StReplicate p H1 (ex_intro _ q H2)) as (A & B & C & D).
  unfold win. cbn. split; auto. split; auto. split; [apply chain_nil|auto].
Qed.
Lemma win_snapshot i p q : win p q -> win (pr_become_snapshot i p) [].
Proof. intros (H1 & H2 & _). apply (win_reset StSnapshot p H1 (ex_intro _ q H2)). Qed.
Lemma size_probe p : i_size (p_infl (pr_become_probe p)) = i_size (p_infl p).
Proof. unfold pr_become_probe. destruct (p_state p); reflexivity. Qed.

Lemma new_win n m K l a : pwin K (new_progress n m K l a) /\ win (new_progress n m K l a) [].
Proof.
  assert (W : win (new_progress n m K l a) []).
  { split; [apply iwf_new|]. split; [apply holds_new|]. split; [apply chain_nil|auto]. }
  split; auto. split; [split; [reflexivity|discriminate]|eauto].
Qed.

(** Every event keeps the window well formed; while replicating, only acknowledged indexes leave it,
    except that a heartbeat response may free the oldest one. *)
Definition freed (m : msg) (q q' : list N) : Prop :=
  exists d, q = d ++ q' /\
    (d = [] \/ (m_type m = MsgAppResp /\ m_reject m = false /\ forall x, In x d -> x <= m_index m) \/
     (m_type m = MsgHeartbeatResp /\ exists x, d = [x])).
Lemma freed_refl m q : freed m q q. Proof. exists []. auto. Qed.

Lemma rin_win m p p' q : rin m p p' -> win p q ->
  i_size (p_infl p') = i_size (p_infl p) /\ exists q', win p' q' /\ (p_state p = StReplicate -> p_state p' = StReplicate -> freed m q q').
Proof.
  unfold rin. intros H W. destruct (m_type m) eqn:Ht; try contradiction.
  - destruct (m_reject m) eqn:Hr.
    + destruct H as [h H]. unfold onrej, pr_maybe_decr_to in H. cbn [p_state set_p_active p_match] in H.
      destruct (p_state p) eqn:Hs.
      * destruct (negb _) in H; cbn in H; rewrite ?Hs in H; cbn in H; subst p'; (split; [reflexivity|]).
        { exists q. split; [apply win_active; auto|]. discriminate. }
        { exists []. split; [|discriminate]. apply (win_empty p _ q); auto. congruence. }
      * destruct (m_index m <=? p_match p); cbn in H; rewrite ?Hs in H; cbn in H; subst p'.
        { split; [reflexivity|]. exists q. split; [apply win_active; auto|]. intros; apply freed_refl. }
        { split; [rewrite size_probe; reflexivity|]. exists []. split; [|unfold pr_become_probe; cbn; rewrite Hs; discriminate].
          destruct W as (W1 & W2 & _). unfold pr_become_probe. cbn. rewrite Hs.
          eapply (win_empty (pr_reset_state StProbe p)); [apply win_reset; eauto|discriminate|reflexivity]. }
      * destruct (negb _) in H; cbn in H; rewrite ?Hs in H; cbn in H; subst p'; (split; [reflexivity|]).
        { exists q. split; [apply win_active; auto|]. discriminate. }
        { exists []. split; [|discriminate]. apply (win_empty p _ q); auto. congruence. }
    + unfold onack in H. destruct (pr_maybe_update (m_index m) (set_p_active true p)) as [p1 u] eqn:Hu.
      assert (P1 : p_infl p1 = p_infl p /\ p_state p1 = p_state p /\ p_next p <= p_next p1).
      { unfold pr_maybe_update in Hu. cbn in Hu. destruct (p_match p <? m_index m); inv Hu; cbn; repeat split; lia. }
      destruct P1 as (I1 & I2 & I3). pose proof (win_next _ _ _ W I1 I2 I3) as W1.
      destruct u; [|subst p'; split; [congruence|]; exists q; split; auto; intros; apply freed_refl].
      unfold ack_progress in H. rewrite I2 in H. destruct (p_state p) eqn:Hs.
      * inv H. split; [cbn; congruence|]. exists []. split; [eapply win_replicate; eauto|discriminate].
      * apply bind_ok in H. destruct H as (inf & Hf & H). apply Ok_inj in H. subst p'.
        destruct W1 as (A & B & C & D). destruct (free_le_ok (m_index m) _ _ A B) as (x & F1 & F2 & F3 & F4).
        assert (x = inf) by congruence. subst x. split; [cbn; congruence|]. exists (drop_le (m_index m) q). split.
        { split; [exact F2|]. split; [exact F3|]. split; [apply chain_drop; exact C|]. cbn. congruence. }
        intros _ _. destruct (drop_le_suffix (m_index m) q) as (d & D1 & D2). exists d. split; [exact D1|right; left; auto].
      * destruct (p_pending p1 <=? p_match p1); inv H.
        { split; [cbn; rewrite size_probe; congruence|]. exists []. split; [eapply win_replicate, win_probe; eauto|discriminate]. }
        { split; [congruence|]. exists q. split; auto. discriminate. }
  - unfold onbeat in H. cbn [p_state set_p_probe_sent set_p_active p_infl] in H.
    assert (W1 : win (set_p_probe_sent false (set_p_active true p)) q) by exact W.
    destruct (pstate_eqb (p_state p) StReplicate && inf_full (p_infl p)); [|subst p'; split; [reflexivity|]; exists q; split; auto; intros; apply freed_refl].
    destruct H as (inf & Hf & ->). destruct W1 as (A & B & C & D). cbn in A, B, C, D.
    destruct q as [|x q].
    + unfold inf_free_first_one in Hf. destruct (nnth _ _) as [b|]; [|discriminate].
      destruct (free_le_ok b _ _ A B) as (x & F1 & F2 & F3 & F4). assert (x = inf) by congruence. subst x. cbn in F3.
      split; [cbn; congruence|]. exists []. split; [|intros; apply freed_refl]. split; [exact F2|]. split; [exact F3|]. split; [apply chain_nil|auto].
    + pose proof (step_ok IFreeFirst _ _ A B ltac:(discriminate)) as SO. cbn [q_step i_step] in SO. destruct SO as (y & F1 & F2 & F3 & F4).
      assert (y = inf) by congruence. subst y. rewrite drop_le_head in F3 by apply C.
      split; [cbn; congruence|]. exists q. split.
      * split; [exact F2|]. split; [exact F3|]. split; [|cbn; intros X; specialize (D X); discriminate].
        destruct C as [C1 C2]. split; [apply (sorted_app_r [x] q); auto|]. intros z Hz. apply C2. right; auto.
      * intros _ _. exists [x]. split; auto. right. right. split; auto. eauto.
  - unfold onunreach in H. subst p'. destruct (pstate_eqb (p_state p) StReplicate) eqn:Hs.
    + split; [apply size_probe|]. exists []. split; [eapply win_probe; eauto|]. unfold pr_become_probe. destruct (p_state p); discriminate.
    + split; auto. exists q. split; auto. intros; apply freed_refl.
  - unfold onstatus in H. destruct (p_state p) eqn:Hs; subst p'; try (split; auto; exists q; split; auto; intros; apply freed_refl).
    assert (W1 : win (if m_reject m then set_p_pending 0 p else p) q) by (destruct (m_reject m); exact W).
    split; [cbn; rewrite size_probe; destruct (m_reject m); reflexivity|]. exists []. split; [exact (win_probe _ _ W1)|discriminate].
Qed.

(** An append message starting right after [next - 1] ends at [next] or later. *)
Definition appgood (m : msg) : Prop := forall next e t, m_index m = wsub next 1 -> rev (m_entries m) = e :: t -> next <= e_index e.
(** The last indexes of the append messages with entries among [ms] for [to]. *)
Definition last_of (to : N) (m : msg) : list N :=
  if mtype_eqb (m_type m) MsgApp && (m_to m =? to) then match rev (m_entries m) with e :: _ => [e_index e] | [] => [] end else [].
Definition lasts (to : N) (ms : list msg) : list N := flat_map (last_of to) ms.

Lemma pflow_snap to p ms p' : pflow to p ms p' -> p_state p = StSnapshot -> p_state p' = StSnapshot.
Proof. induction 1; intros Hs; auto; unfold pr_is_paused in H1; rewrite Hs in H1; discriminate. Qed.
Lemma last_of_other to m : m_to m <> to \/ idle m -> last_of to m = [].
Proof.
  intros H. unfold last_of. destruct (mtype_eqb (m_type m) MsgApp) eqn:E1; auto. apply mtype_eqb_eq in E1.
  destruct H as [H|[H _]]; [|congruence]. destruct (N.eqb_spec (m_to m) to); [congruence|]. reflexivity.
Qed.
Lemma pflow_win to p ms p' : pflow to p ms p' -> (forall m, In m ms -> m_type m = MsgApp -> appgood m) -> forall q, win p q ->
  i_size (p_infl p') = i_size (p_infl p) /\ exists q', win p' q' /\
  (p_state p' = StReplicate -> p_state p = StReplicate /\ q' = q ++ lasts to ms).
Proof.
  induction 1 as [p|p m ms p' Ho Hp IH|p m ms p1 p' Hto Hty Hpa Hi Haa Hp IH|p m ms p' Hto Hty Hpa Hac Hp IH]; intros Hg q W.
  - split; auto. exists q. split; auto. intros Hs. cbn. rewrite app_nil_r. auto.
  - destruct (IH ltac:(intros; apply Hg; [right|]; auto) q W) as (A & q' & B & C). split; auto. exists q'. split; auto.
    intros Hs. destruct (C Hs) as [C1 C2]. split; auto. unfold lasts. cbn. rewrite last_of_other by exact Ho. exact C2.
  - assert (Hgm : appgood m) by (apply Hg; [left; auto|auto]).
    assert (Hl : last_of to m = match rev (m_entries m) with e :: _ => [e_index e] | [] => [] end).
    { unfold last_of. rewrite Hty, Hto, N.eqb_refl. reflexivity. }
    assert (K : i_size (p_infl p1) = i_size (p_infl p) /\ exists q1, win p1 q1 /\ (p_state p1 = StReplicate -> p_state p = StReplicate /\ q1 = q ++ last_of to m)).
    { rewrite Hl. unfold after_app in Haa. destruct (rev (m_entries m)) as [|e t] eqn:Hr.
      - subst p1. split; auto. exists q. split; auto. rewrite app_nil_r. auto.
      - destruct (p_state p) eqn:Hs; [| |contradiction].
        + subst p1. split; auto. exists q. split; [exact W|]. cbn. rewrite Hs. discriminate.
        + destruct Haa as (inf & Ha & ->). destruct W as (A & B & C & D).
          assert (Hne : nlen q <> i_size (p_infl p)).
          { unfold pr_is_paused in Hpa. rewrite Hs in Hpa. unfold inf_full in Hpa. apply N.eqb_neq in Hpa. destruct B as [B _]. lia. }
          destruct (add_ok (e_index e) _ _ A B Hne) as (x & F1 & F2 & F3 & F4). assert (x = inf) by congruence. subst x.
          split; [cbn; auto|]. exists (q ++ [e_index e]). split; [|auto].
          split; [exact F2|]. split; [exact F3|]. split; [|cbn; congruence]. cbn. eapply chain_snoc; [|exact C]. eapply Hgm; eauto. }
    destruct K as (K1 & q1 & K2 & K3). destruct (IH ltac:(intros; apply Hg; [right|]; auto) q1 K2) as (A & q' & B & C). split; [congruence|].
    exists q'. split; auto. intros Hs. destruct (C Hs) as [C1 C2]. destruct (K3 C1) as [K4 K5]. split; auto. unfold lasts. cbn. rewrite app_assoc, <- K5. exact C2.
  - pose proof (win_snapshot (sn_index (m_snap m)) _ _ W) as W1. destruct (IH ltac:(intros; apply Hg; [right|]; auto) [] W1) as (A & q' & B & C).
    split; [exact A|]. exists q'. split; auto. intros Hs. apply pflow_snap in Hp; [congruence|reflexivity].
Qed.

(** Paused followers. *)
Lemma pflow_paused to p ms p' : pflow to p ms p' -> pr_is_paused p = true -> p' = p /\ forall m, In m ms -> m_to m = to -> idle m.
Proof.
  induction 1; intros Hpa.
  - split; auto. intros m [].
  - destruct (IHpflow Hpa) as [A B]. split; auto. intros x [<-|Hx] Ht; auto. destruct H as [H|H]; [congruence|exact H].
  - congruence.
  - congruence.
Qed.

(** What a message emitted by the sending code carries. *)
Lemma smsg_app_good r m : lwf (r_log r) -> smsg r m -> m_type m = MsgApp -> appgood m.
Proof.
  intros Hw H Ht. destruct H as [to next t es pr H1 H2 H3 H4 H5| | | |]; cbn in Ht; try discriminate. clear Ht H2 H5 H3.
  intros next' e tl Hn Hr. cbn in Hn, Hr.
  destruct (N.le_gt_cases (a_first (log_abs (r_log r))) next) as [Hf|Hf].
  - rewrite log_entries_abs in H4 by (auto using lwf_0). inv H4.
    set (L := ndrop (next - a_first (log_abs (r_log r))) (a_ents (log_abs (r_log r)))) in *.
    destruct (limit_size_prefix L (k_max_msg_size (r_cfg r))) as (rest & HL).
    pose proof (log_abs_wf _ (lwf_0 _ Hw)) as Hc. unfold a_wf in Hc. apply (contig_ndrop _ (next - a_first (log_abs (r_log r)))) in Hc. fold L in Hc. rewrite HL in Hc.
    apply contig_app in Hc. destruct Hc as [Hc _]. apply rev_last in Hr. 
    rewrite Hr in Hc. apply contig_app in Hc. destruct Hc as [_ Hc]. cbn in Hc.
    assert (Hidx : next <= e_index e). { destruct (proj1 (contig_cons _ _ _) Hc) as [Hc1 _]. unfold a_first in *. lia. }
    unfold wsub in Hn. unfold a_first in Hf.
    destruct (N.leb_spec 1 next); [|lia]. destruct (N.leb_spec 1 next'); lia.
  - unfold log_entries in H4. rewrite log_last_abs in H4 by (auto using lwf_0). destruct (N.ltb_spec (a_last (log_abs (r_log r))) next) as [X|X].
    + inv H4. discriminate.
    + rewrite log_slice_compacted in H4 by (auto using lwf_0; try lia). discriminate.
Qed.
End Win.
