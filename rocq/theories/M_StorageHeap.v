(** MemoryStorage's snapshot_ as what it is in C++: a shared pointer (src/storage.h:158).
    Only the operations touching the snapshot object are repeated here, with an explicit heap of
    snapshot objects; everything else is M_Storage.v. *)
From Verif Require Import Prelude Types M_Util M_Storage.

Definition ptr := N.
(** [h_next] is the next fresh address; [h_obj] the snapshot objects. *)
Record heap := mkHeap { h_next : ptr; h_obj : nmap snapshot }.
Definition halloc (s : snapshot) (h : heap) : heap * ptr :=
  (mkHeap (h_next h + 1) (mset (h_next h) s (h_obj h)), h_next h).

(** A MemoryStorage whose [snapshot_] member is the pointer [hs_ptr]; [hs_st] holds the other
    members (its [ms_snap] is ignored). *)
Record hstorage := mkHS { hs_st : mstorage; hs_ptr : ptr }.

(** The snapshot object currently pointed to by [snapshot_]. *)
Definition hderef (p : ptr) (h : heap) : res snapshot :=
  match mget p (h_obj h) with Some s => Ok s | None => UB "dangling pointer" end.

(** src/storage.cc:26-38 (constructor: snapshot_ = make_shared<Snapshot>()) *)
Definition hnew (h : heap) : hstorage * heap :=
  let '(h', p) := halloc empty_snapshot h in (mkHS new_storage p, h').

(** src/storage.cc:112-115 [SnapShot]: hands out the pointer itself *)
Definition hsnapshot (s : hstorage) : ptr := hs_ptr s.

(** src/storage.cc:117-135 [ApplySnapshot]: keeps the caller's pointer *)
Definition happly_snapshot (p : ptr) (s : hstorage) (h : heap) : res (hstorage * option err) :=
  cur <- hderef (hs_ptr s) h ;;
  sn <- hderef p h ;;
  if sn_index sn <=? sn_index cur then Ok (s, Some ESnapOutOfDate)
  else Ok (mkHS (mkMS (ms_hs (hs_st s)) (ms_snap (hs_st s))
                  (mkEntry (sn_term sn) (sn_index sn) EntryNormal EmptyString) []) p, None).

(** src/storage.cc:137-161 [CreateSnapshot]: writes into the object [snapshot_] points to *)
Definition hcreate_snapshot (i : N) (cs : option confstate) (data : string) (s : hstorage) (h : heap)
  : res (heap * st ptr) :=
  cur <- hderef (hs_ptr s) h ;;
  if i <=? sn_index cur then Ok (h, SErr ESnapOutOfDate)
  else if ms_last_index (hs_st s) <? i then Fatal "snapshot is out of bound lastindex"
  else if i <? e_index (ms_dummy (hs_st s)) then UB "ents_[i - offset] out of range"
  else match nnth (ms_ents (hs_st s)) (i - e_index (ms_dummy (hs_st s))) with
       | None => UB "ents_[i - offset] out of range"
       | Some e =>
           let conf := match cs with Some c => c | None => sn_conf cur end in
           Ok (mkHeap (h_next h) (mset (hs_ptr s) (mkSnapshot i (e_term e) conf data) (h_obj h)),
               SOk (hs_ptr s))
       end.
