(** The ReadOnly implementation refines the queue of Spec_ReadOnly. *)
From Verif Require Import Prelude Types M_ReadOnly Spec_ReadOnly Sys_ReadOnly.

Definition kv (r : rreq) : string * ristatus := (rq_ctx r, released r).

Record ro_rel (ro : readonly) (q : list rreq) : Prop := {
  rr_pend : ro_pending ro = map kv q;
  rr_queue : ro_queue ro = map rq_ctx q;
  rr_nodup : NoDup (map rq_ctx q);
  rr_ctx : forall r, In r q -> exists e t, m_entries (rq_msg r) = e :: t /\ e_data e = rq_ctx r
}.

Lemma seqb_sym a b : String.eqb a b = String.eqb b a.
Proof. apply String.eqb_sym. Qed.

Lemma sget_kv c q : sget c (map kv q) = option_map released (find (fun r => String.eqb (rq_ctx r) c) q).
Proof.
  induction q as [|r q IH]; cbn; auto. rewrite (seqb_sym (rq_ctx r) c).
  destruct (String.eqb c (rq_ctx r)); auto.
Qed.
Lemma has_ctx_find c q : has_ctx c q = match find (fun r => String.eqb (rq_ctx r) c) q with Some _ => true | None => false end.
Proof. induction q as [|r q IH]; cbn; auto. destruct (String.eqb (rq_ctx r) c); auto. Qed.
Lemma has_ctx_In c q : has_ctx c q = true <-> In c (map rq_ctx q).
Proof.
  unfold has_ctx. rewrite existsb_exists, in_map_iff. split.
  - intros (r & Hr & E). apply String.eqb_eq in E. eauto.
  - intros (r & E & Hr). exists r. split; auto. apply String.eqb_eq; auto.
Qed.

Lemma sput_kv c r0 q : NoDup (map rq_ctx q) ->
  find (fun r => String.eqb (rq_ctx r) c) q = Some r0 -> forall from,
  sput c (mkRIS (rq_msg r0) (rq_index r0) (mset from true (rq_acks r0))) (map kv q) =
  map kv (map (fun r => if String.eqb (rq_ctx r) c then add_ack from r else r) q).
Proof.
  intros Hnd Hf from. induction q as [|r q IH]; cbn in *; [discriminate|].
  inv Hnd. rewrite (seqb_sym c (rq_ctx r)).
  destruct (String.eqb (rq_ctx r) c) eqn:E.
  - inv Hf. apply String.eqb_eq in E.
    assert (G : map (fun r => if String.eqb (rq_ctx r) c then add_ack from r else r) q = q).
    { rewrite <- (map_id q) at 2. apply map_ext_in. intros r Hr.
      destruct (String.eqb (rq_ctx r) c) eqn:E2; auto. apply String.eqb_eq in E2.
      exfalso. apply H1. apply in_map_iff. exists r. split; congruence. }
    rewrite G. cbn. unfold kv at 2, released; cbn. rewrite E. reflexivity.
  - cbn. f_equal. auto.
Qed.

Lemma ro_scan_ok c q : forall pend, (forall r, In r q -> sget (rq_ctx r) pend = Some (released r)) ->
  ro_scan c (map rq_ctx q) pend =
  Ok (if has_ctx c q then Some (map released (upto c q), map rq_ctx (after c q)) else None).
Proof.
  induction q as [|r q IH]; intros pend H; cbn; auto.
  rewrite H by (cbn; auto).
  destruct (String.eqb (rq_ctx r) c) eqn:E; cbn; auto.
  rewrite IH by (intros; apply H; cbn; auto). cbn. fold (has_ctx c q). destruct (has_ctx c q); auto.
Qed.

Lemma srem_notin c q : ~ In c (map rq_ctx q) -> srem c (map kv q) = map kv q.
Proof.
  induction q as [|r q IH]; cbn; auto. intros H.
  destruct (String.eqb c (rq_ctx r)) eqn:E; [apply String.eqb_eq in E; exfalso; apply H; auto|].
  cbn. f_equal. apply IH. tauto.
Qed.

Lemma ro_erase_ok c q : NoDup (map rq_ctx q) ->
  (forall r, In r q -> exists e t, m_entries (rq_msg r) = e :: t /\ e_data e = rq_ctx r) ->
  has_ctx c q = true ->
  ro_erase (map released (upto c q)) (map kv q) = Ok (map kv (after c q)).
Proof.
  intros Hnd Hc Hh. induction q as [|r q IH]; cbn in *; [discriminate|].
  inv Hnd. destruct (Hc r) as (e & t & E1 & E2); [auto|].
  assert (Hs : srem (rq_ctx r) (kv r :: map kv q) = map kv q).
  { cbn. rewrite String.eqb_refl. cbn. apply srem_notin; auto. }
  destruct (String.eqb (rq_ctx r) c) eqn:E; cbn [ro_erase map].
  - unfold entry0_data. cbn [released ris_req]. rewrite E1. cbn [bind]. rewrite E2. f_equal. exact Hs.
  - unfold entry0_data. cbn [released ris_req]. rewrite E1. cbn [bind]. rewrite E2.
    change (map kv (r :: q)) with (kv r :: map kv q). rewrite Hs. apply IH; auto.
Qed.

Lemma after_incl c q r : In r (after c q) -> In r q.
Proof.
  induction q as [|x q IH]; cbn; auto. destruct (String.eqb (rq_ctx x) c); auto.
Qed.
Lemma after_nodup c q : NoDup (map rq_ctx q) -> NoDup (map rq_ctx (after c q)).
Proof.
  induction q as [|x q IH]; cbn; auto. intros H; inv H. destruct (String.eqb (rq_ctx x) c); auto.
Qed.
Lemma upto_after c q : has_ctx c q = true -> q = upto c q ++ after c q.
Proof.
  induction q as [|x q IH]; cbn; [discriminate|]. destruct (String.eqb (rq_ctx x) c); cbn; auto.
  intros; f_equal; auto.
Qed.

Lemma sget_self q r : NoDup (map rq_ctx q) -> In r q -> sget (rq_ctx r) (map kv q) = Some (released r).
Proof.
  intros Hnd. induction q as [|x q IH]; cbn; [tauto|]. inv Hnd. intros [->|Hi].
  - rewrite String.eqb_refl. auto.
  - destruct (String.eqb (rq_ctx r) (rq_ctx x)) eqn:E; auto.
    apply String.eqb_eq in E. exfalso. apply H1. rewrite <- E. apply in_map; auto.
Qed.

Lemma ro_step_ok o ro q q' r : ro_rel ro q -> roop_ok o -> rq_step o q = (q', r) ->
  exists ro', ro_step o ro = Ok (ro', r) /\ ro_rel ro' q' /\ ro_option ro' = ro_option ro.
Proof.
  intros [Hp Hq Hn Hc] Hok Hs. destruct o as [i m|from c|c]; cbn in *.
  - destruct (m_entries m) as [|e es] eqn:Em; [congruence|].
    unfold ro_add_request, entry0_data. rewrite Em. cbn. rewrite Hp, sget_kv.
    rewrite has_ctx_find in Hs.
    destruct (find _ q) eqn:Ef; cbn; inv Hs.
    + exists ro. split; auto. split; [constructor; auto|auto].
    + eexists. split; [reflexivity|]. split; [|auto]. constructor; cbn.
      * rewrite map_app. reflexivity.
      * rewrite Hq, map_app. reflexivity.
      * rewrite map_app. cbn. apply NoDup_Add with (a := e_data e) (l := map rq_ctx q).
        { rewrite <- (app_nil_r (map rq_ctx q)) at 1. apply Add_app. }
        split; auto. intros Hi. apply has_ctx_In in Hi. rewrite has_ctx_find, Ef in Hi. discriminate.
      * intros r. rewrite in_app_iff. intros [Hr|[<-|[]]]; auto. cbn. eauto.
  - inv Hs. unfold ro_recv_ack. rewrite Hp, sget_kv.
    destruct (find (fun r => String.eqb (rq_ctx r) c) q) as [r0|] eqn:Ef; cbn.
    + eexists. split.
      { do 3 f_equal. unfold ack_of.
        assert (G : find (fun r => String.eqb (rq_ctx r) c)
          (map (fun r : rreq => if String.eqb (rq_ctx r) c then add_ack from r else r) q) = Some (add_ack from r0)).
        { clear - Ef. induction q as [|x q IH]; cbn in *; [discriminate|].
          destruct (String.eqb (rq_ctx x) c) eqn:E; cbn; rewrite E; auto. inv Ef; auto. }
        rewrite G. reflexivity. }
      split; [|auto]. constructor; cbn.
      * apply sput_kv; auto.
      * rewrite Hq, map_map. apply map_ext. intros r. destruct (String.eqb _ _); auto.
      * rewrite map_map. erewrite map_ext; [exact Hn|]. intros r. destruct (String.eqb _ _); auto.
      * intros r Hr. apply in_map_iff in Hr. destruct Hr as (x & <- & Hx).
        destruct (String.eqb _ _); cbn; auto.
    + assert (G : map (fun r : rreq => if String.eqb (rq_ctx r) c then add_ack from r else r) q = q).
      { rewrite <- (map_id q) at 2. apply map_ext_in. intros r Hr.
        rewrite (find_none _ _ Ef r Hr). auto. }
      rewrite G. exists ro. unfold ack_of. rewrite Ef. split; auto. split; [constructor; auto|auto].
  - unfold ro_advance. rewrite Hq, Hp, ro_scan_ok by (intros; apply sget_self; auto). cbn.
    destruct (has_ctx c q) eqn:Eh; inv Hs.
    + rewrite ro_erase_ok by auto. cbn. eexists. split; [reflexivity|]. split; [|auto].
      constructor; cbn; auto.
      * apply after_nodup; auto.
      * intros r Hr. apply Hc. eapply after_incl; eauto.
    + exists ro. split; auto. split; [constructor; auto|auto].
Qed.

Lemma ro_run_ok ops : forall ro q q' rs, ro_rel ro q -> Forall roop_ok ops -> rq_run ops q = (q', rs) ->
  exists ro', ro_run ops ro = Ok (ro', rs) /\ ro_rel ro' q' /\ ro_option ro' = ro_option ro.
Proof.
  induction ops as [|o ops IH]; intros ro q q' rs Hr Hok Hs; cbn in *.
  - inv Hs. eauto.
  - inv Hok. destruct (rq_step o q) as [q1 r1] eqn:E1. destruct (rq_run ops q1) as [q2 rs2] eqn:E2. inv Hs.
    destruct (ro_step_ok _ _ _ _ _ Hr H1 E1) as (ro1 & F1 & R1 & O1). rewrite F1. cbn.
    destruct (IH _ _ _ _ R1 H2 E2) as (ro2 & F2 & R2 & O2). rewrite F2. cbn.
    exists ro2. split; auto. split; auto. congruence.
Qed.

Lemma ro_rel_new o : ro_rel (new_readonly o) [].
Proof. constructor; cbn; auto; [constructor|tauto]. Qed.
