(** Model of src/read_only.{h,cc}. *)
From Verif Require Import Prelude Types.

(** src/read_only.h:33-41 *)
Record readstate := mkReadState { rs_index : N; rs_ctx : string }.
(** src/read_only.h:43-47 *)
Record ristatus := mkRIS { ris_req : msg; ris_index : N; ris_acks : nmap bool }.
(** src/read_only.h:51-65 *)
Inductive roption := RoSafe | RoLeaseBased.
Definition roption_eqb (a b : roption) : bool :=
  match a, b with RoSafe, RoSafe | RoLeaseBased, RoLeaseBased => true | _, _ => false end.

(** src/read_only.h:96-100; the std::map is an association list (its order is never used). *)
Record readonly := mkRO {
  ro_option : roption;
  ro_pending : list (string * ristatus);
  ro_queue : list string
}.
Definition new_readonly (o : roption) : readonly := mkRO o [] [].

Fixpoint sget (k : string) (m : list (string * ristatus)) : option ristatus :=
  match m with
  | [] => None
  | (k', v) :: t => if String.eqb k k' then Some v else sget k t
  end.
Fixpoint sput (k : string) (v : ristatus) (m : list (string * ristatus)) :=
  match m with
  | [] => [(k, v)]
  | (k', v') :: t => if String.eqb k k' then (k, v) :: t else (k', v') :: sput k v t
  end.
Definition srem (k : string) (m : list (string * ristatus)) : list (string * ristatus) :=
  filter (fun p => negb (String.eqb k (fst p))) m.

(** m->entries(0).data(); out of range is UB *)
Definition entry0_data (m : msg) : res string :=
  match m_entries m with
  | [] => UB "entries(0) of a message without entries"
  | e :: _ => Ok (e_data e)
  end.

(** src/read_only.cc:22-32 [AddRequest] *)
Definition ro_add_request (index : N) (m : msg) (ro : readonly) : res readonly :=
  s <- entry0_data m ;;
  match sget s (ro_pending ro) with
  | Some _ => Ok ro
  | None => Ok (mkRO (ro_option ro) (ro_pending ro ++ [(s, mkRIS m index [])])
                     (ro_queue ro ++ [s]))
  end.

(** src/read_only.cc:34-42 [RecvAck]: new state and the acks of the request *)
Definition ro_recv_ack (id : N) (context : string) (ro : readonly) : readonly * nmap bool :=
  match sget context (ro_pending ro) with
  | None => (ro, [])
  | Some rs =>
      let acks := mset id true (ris_acks rs) in
      (mkRO (ro_option ro) (sput context (mkRIS (ris_req rs) (ris_index rs) acks) (ro_pending ro))
            (ro_queue ro), acks)
  end.

(** src/read_only.cc:48-60: the scan of the queue; (collected statuses, rest of the queue) when
    [ctx] is found *)
Fixpoint ro_scan (ctx : string) (q : list string) (pending : list (string * ristatus))
  : res (option (list ristatus * list string)) :=
  match q with
  | [] => Ok None
  | k :: t =>
      match sget k pending with
      | None => Fatal "cannot find corresponding read state from pending map"
      | Some rs =>
          if String.eqb k ctx then Ok (Some ([rs], t))
          else
            r <- ro_scan ctx t pending ;;
            match r with
            | None => Ok None
            | Some (rss, rest) => Ok (Some (rs :: rss, rest))
            end
      end
  end.

(** src/read_only.cc:63-67: erase the collected requests from the map *)
Fixpoint ro_erase (rss : list ristatus) (pending : list (string * ristatus))
  : res (list (string * ristatus)) :=
  match rss with
  | [] => Ok pending
  | rs :: t => s <- entry0_data (ris_req rs) ;; ro_erase t (srem s pending)
  end.

(** src/read_only.cc:44-70 [Advance] *)
Definition ro_advance (ctx : string) (ro : readonly) : res (readonly * list ristatus) :=
  r <- ro_scan ctx (ro_queue ro) (ro_pending ro) ;;
  match r with
  | None => Ok (ro, [])
  | Some (rss, rest) =>
      p <- ro_erase rss (ro_pending ro) ;;
      Ok (mkRO (ro_option ro) p rest, rss)
  end.

(** src/read_only.cc:72-78 [LastPendingRequestCtx] *)
Definition ro_last_ctx (ro : readonly) : string := last (ro_queue ro) EmptyString.
