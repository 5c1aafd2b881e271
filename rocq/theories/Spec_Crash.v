(** A crash while the application persists a Ready (C68): specification only. *)
From Verif Require Import Prelude Types M_Util M_Storage M_Raft M_RawNode Sys_Node.

(** The three writes a Ready asks for (README.md:172: "Persist Entries, HardState, Snapshot"), each made
    by one call on the storage, and only if there is something to write. *)
Inductive pwrite := PEnts | PHard | PSnap.
Definition write_one (w : pwrite) (rd : ready) (s : mstorage) : res mstorage :=
  match w with
  | PEnts => ms_append (rd_ents rd) s
  | PHard => Ok (if is_empty_hs (rd_hard rd) then s else ms_set_hard_state (rd_hard rd) s)
  | PSnap => Ok (if sn_index (rd_snap rd) =? 0 then s else fst (ms_apply_snapshot (rd_snap rd) s))
  end.
(** What is on the disk after these writes, when the application crashes before the next one. *)
Fixpoint writes (ws : list pwrite) (rd : ready) (s : mstorage) : res mstorage :=
  match ws with [] => Ok s | w :: t => s1 <- write_one w rd s ;; writes t rd s1 end.

(** No node can be created on this storage, whatever the rest of the configuration says. *)
Definition unusable {E : Env} (s : mstorage) : Prop :=
  forall c tape n, c_storage c = Some s -> rn_new c tape <> Ok n.
