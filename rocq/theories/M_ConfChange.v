(** Model of src/confchange/confchange.{h,cc} and src/confchange/restore.cc.
    A Changer is a tracker plus last_index_; Status errors are [SErr (EOther _)]. *)
From Verif Require Import Prelude Types M_Quorum M_Inflights M_Progress M_Tracker.

(** src/confchange/confchange.h:136-139 *)
Record changer := mkChanger { ch_trk : tracker; ch_last : N }.

Definition cfgprs := (tconfig * nmap progress)%type.

(** src/confchange/confchange.cc:191-220 [InitProgress] *)
Definition init_progress (ch : changer) (id : N) (is_learner : bool) (cp : cfgprs) : cfgprs :=
  let '(cfg, prs) := cp in
  let cfg := if is_learner then set_tc_learners (sadd id (tc_learners cfg)) cfg
             else set_tc_incoming (sadd id (tc_incoming cfg)) cfg in
  (cfg, mset id (new_progress (ch_last ch) 0 (t_max_inflight (ch_trk ch)) is_learner true) prs).

(** src/confchange/confchange.cc:135-146 [MakeVoter] *)
Definition make_voter (ch : changer) (id : N) (cp : cfgprs) : cfgprs :=
  let '(cfg, prs) := cp in
  match mget id prs with
  | None => init_progress ch id false cp
  | Some pr =>
      let prs := mset id (set_p_learner false pr) prs in
      let cfg := set_tc_learners (sdel id (tc_learners cfg)) cfg in
      let cfg := set_tc_learners_next (sdel id (tc_learners_next cfg)) cfg in
      (set_tc_incoming (sadd id (tc_incoming cfg)) cfg, prs)
  end.

(** src/confchange/confchange.cc:175-189 [Remove] *)
Definition remove_node (id : N) (cp : cfgprs) : cfgprs :=
  let '(cfg, prs) := cp in
  match mget id prs with
  | None => cp
  | Some _ =>
      let cfg := set_tc_incoming (sdel id (tc_incoming cfg)) cfg in
      let cfg := set_tc_learners (sdel id (tc_learners cfg)) cfg in
      let cfg := set_tc_learners_next (sdel id (tc_learners_next cfg)) cfg in
      (cfg, if smem id (tc_outgoing cfg) then prs else mdel id prs)
  end.

(** src/confchange/confchange.cc:148-173 [MakeLearner] *)
Definition make_learner (ch : changer) (id : N) (cp : cfgprs) : cfgprs :=
  let '(cfg, prs) := cp in
  match mget id prs with
  | None => init_progress ch id true cp
  | Some pr =>
      if p_learner pr then cp
      else
        let '(cfg, prs) := remove_node id cp in
        if smem id (tc_outgoing cfg) then
          (set_tc_learners_next (sadd id (tc_learners_next cfg)) cfg, mset id pr prs)
        else
          (set_tc_learners (sadd id (tc_learners cfg)) cfg, mset id (set_p_learner true pr) prs)
  end.

(** src/confchange/confchange.cc:103-128: one change of [Apply] *)
Definition apply_one (ch : changer) (cc : ccsingle) (cp : cfgprs) : cfgprs :=
  if cc_node cc =? 0 then cp
  else match cc_type cc with
       | CcAddNode => make_voter ch (cc_node cc) cp
       | CcAddLearnerNode => make_learner ch (cc_node cc) cp
       | CcRemoveNode => remove_node (cc_node cc) cp
       | CcUpdateNode => cp
       end.
(** src/confchange/confchange.cc:101-133 [Apply] *)
Definition ch_apply (ch : changer) (ccs : list ccsingle) (cp : cfgprs) : st cfgprs :=
  let cp' := fold_left (fun acc cc => apply_one ch cc acc) ccs cp in
  if is_nil (tc_incoming (fst cp')) then SErr (EOther "removed all voters") else SOk cp'.

(** src/confchange/confchange.cc:222-286 [CheckInvariants] (pointer dereferences follow the
    existence checks) *)
Definition has_progress (prs : nmap progress) (id : N) : bool :=
  match mget id prs with Some _ => true | None => false end.
Definition marked_learner (prs : nmap progress) (id : N) : bool :=
  match mget id prs with Some p => p_learner p | None => false end.
Definition check_invariants (cfg : tconfig) (prs : nmap progress) : option err :=
  if negb (forallb (has_progress prs) (joint_ids (tc_incoming cfg) (tc_outgoing cfg)))
  then Some (EOther "no progress for voter")
  else if negb (forallb (has_progress prs) (tc_learners cfg))
  then Some (EOther "no progress for learner")
  else if negb (forallb (has_progress prs) (tc_learners_next cfg))
  then Some (EOther "no progress for next learner")
  else if negb (forallb (fun id => smem id (tc_outgoing cfg) && negb (marked_learner prs id))
                        (tc_learners_next cfg))
  then Some (EOther "LearnersNext not in Voters[1] or already marked as learner")
  else if negb (forallb (fun id => negb (smem id (tc_outgoing cfg)) &&
                                   negb (smem id (tc_incoming cfg)) && marked_learner prs id)
                        (tc_learners cfg))
  then Some (EOther "Learners intersect Voters or not marked as learner")
  else if negb (tc_joint cfg) then
    if negb (is_nil (tc_outgoing cfg)) then Some (EOther "cfg.Voters[1] must be nil when not joint")
    else if negb (is_nil (tc_learners_next cfg))
    then Some (EOther "cfg.LearnersNext must be nil when not joint")
    else if tc_auto_leave cfg then Some (EOther "AutoLeave must be false when not joint")
    else None
  else None.

(** src/confchange/confchange.cc:298-305 [CheckAndReturn] *)
Definition check_and_return (cp : cfgprs) : st cfgprs :=
  match check_invariants (fst cp) (snd cp) with
  | Some e => SErr e
  | None => SOk cp
  end.

(** src/confchange/confchange.cc:288-296 [CheckAndCopy] (the copies are deep) *)
Definition check_and_copy (ch : changer) : st cfgprs :=
  check_and_return (t_config (ch_trk ch), t_progress (ch_trk ch)).

(** src/confchange/confchange.cc:307-321 [Symdiff] *)
Definition symdiff (l r : nset) : N :=
  nlen (filter (fun id => negb (smem id r)) l) + nlen (filter (fun id => negb (smem id l)) r).

(** src/confchange/confchange.cc:24-54 [EnterJoint] *)
Definition ch_enter_joint (auto_leave : bool) (ccs : list ccsingle) (ch : changer) : st cfgprs :=
  match check_and_copy ch with
  | SErr e => SErr e
  | SOk (cfg, prs) =>
      if tc_joint cfg then SErr (EOther "config is already joint")
      else if is_nil (tc_incoming cfg) then SErr (EOther "can't make a zero-voter config joint")
      else
        let cfg := set_tc_outgoing (tc_incoming cfg) cfg in
        match ch_apply ch ccs (cfg, prs) with
        | SErr e => SErr e
        | SOk (cfg, prs) => check_and_return (set_tc_auto_leave auto_leave cfg, prs)
        end
  end.

(** src/confchange/confchange.cc:66-69, the learners_next loop; a missing progress is a null
    dereference *)
Fixpoint promote_next (ids : list N) (cp : cfgprs) : res cfgprs :=
  match ids with
  | [] => Ok cp
  | id :: t =>
      let '(cfg, prs) := cp in
      match mget id prs with
      | None => UB "null Progress"
      | Some pr =>
          promote_next t (set_tc_learners (sadd id (tc_learners cfg)) cfg,
                          mset id (set_p_learner true pr) prs)
      end
  end.
(** src/confchange/confchange.cc:56-83 [LeaveJoint] *)
Definition ch_leave_joint (ch : changer) : res (st cfgprs) :=
  match check_and_copy ch with
  | SErr e => Ok (SErr e)
  | SOk (cfg, prs) =>
      if negb (tc_joint cfg) then Ok (SErr (EOther "can't leave a non-joint config"))
      else
        '(cfg, prs) <- promote_next (tc_learners_next cfg) (cfg, prs) ;;
        let cfg := set_tc_learners_next [] cfg in
        let prs := fold_left (fun acc id =>
                     if negb (smem id (tc_incoming cfg)) && negb (smem id (tc_learners cfg))
                     then mdel id acc else acc) (tc_outgoing cfg) prs in
        let cfg := set_tc_auto_leave false (set_tc_outgoing [] cfg) in
        Ok (check_and_return (cfg, prs))
  end.

(** src/confchange/confchange.cc:85-99 [Simple] *)
Definition ch_simple (ccs : list ccsingle) (ch : changer) : st cfgprs :=
  match check_and_copy ch with
  | SErr e => SErr e
  | SOk (cfg, prs) =>
      if tc_joint cfg then SErr (EOther "can't apply simple config change in joint config")
      else
        match ch_apply ch ccs (cfg, prs) with
        | SErr e => SErr e
        | SOk (cfg', prs') =>
            if 1 <? symdiff (tc_incoming (t_config (ch_trk ch))) (tc_incoming cfg')
            then SErr (EOther "more than one voter changed without entering joint config")
            else check_and_return (cfg', prs')
        end
  end.

(** src/confchange/restore.cc:29-101 [toConfChangeSingle]: (outgoing, incoming) *)
Definition to_conf_change_single (cs : confstate) : list ccsingle * list ccsingle :=
  (map (mkCC CcAddNode) (cs_outgoing cs),
   map (mkCC CcRemoveNode) (cs_outgoing cs) ++ map (mkCC CcAddNode) (cs_voters cs) ++
   map (mkCC CcAddLearnerNode) (cs_learners cs) ++
   map (mkCC CcAddLearnerNode) (cs_learners_next cs)).

(** src/confchange/restore.cc:103-116 [chain] for a list of Simple operations *)
Definition ch_with (ch : changer) (cp : cfgprs) : changer :=
  mkChanger (set_t_progress (snd cp) (set_t_config (fst cp) (ch_trk ch))) (ch_last ch).
Fixpoint chain_simple (ccs : list ccsingle) (ch : changer) : st changer :=
  match ccs with
  | [] => SOk ch
  | cc :: t =>
      match ch_simple [cc] ch with
      | SErr e => SErr e
      | SOk cp => chain_simple t (ch_with ch cp)
      end
  end.

(** src/confchange/restore.cc:118-152 [Restore] *)
Definition cc_restore (ch : changer) (cs : confstate) : st cfgprs :=
  let '(outgoing, incoming) := to_conf_change_single cs in
  match outgoing with
  | [] =>
      match chain_simple incoming ch with
      | SErr e => SErr e
      | SOk ch' => SOk (t_config (ch_trk ch'), t_progress (ch_trk ch'))
      end
  | _ =>
      match chain_simple outgoing ch with
      | SErr e => SErr e
      | SOk ch' => ch_enter_joint (cs_auto_leave cs) incoming ch'
      end
  end.
