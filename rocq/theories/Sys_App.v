(** The replicated state machine: a cluster (Sys_Cluster) with an application next to every node.
    The application is any deterministic state machine; it does with a Ready what the example
    applications do (example/multi_mem_node.cc:109-159, example/single_mem_node.cc:33-85): when the
    Ready carries a snapshot it replaces its state by the one in the snapshot ("Apply snapshot", left
    as a comment in the examples), then it applies the committed entries in order.  The data of a
    snapshot it takes is an encoding of a state it had.
    Simplified: persisting, applying and Advance are one step, as in Sys_Node [NHandle]; a crash
    between them is a restart with an older state. *)
From Verif Require Import Prelude Types M_Storage M_Unstable M_Log M_Raft M_RawNode Spec_Log Sys_Node Sys_Cluster Sys_Trace.

(** What an application has: the index of the last entry it applied, and its state. *)
Definition app (V : Type) : Type := N * V.

(** [rc_app]: the application of each node now.  [rc_held]: everything any application ever had. *)
Record rcluster (V : Type) := mkR {
  rc_cl : cluster;
  rc_app : nmap (app V);
  rc_held : list (N * app V)
}.
Arguments mkR {V}. Arguments rc_cl {V}. Arguments rc_app {V}. Arguments rc_held {V}.

Section App.
Context {E : Env}.
Variable V : Type.
Variable apply : entry -> V -> V.   (* the state machine *)
Variable enc : V -> string.         (* writing a state into a snapshot *)
Variable dec : string -> V.         (* reading it back *)
Variable v0 : V.                    (* the common initial state *)

(** example/multi_mem_node.cc:118-122, :133-156 *)
Definition apply_one (a : app V) (e : entry) : app V := (e_index e, apply e (snd a)).
Definition from_snap (s : snapshot) : app V := (sn_index s, dec (sn_data s)).
Definition apply_ready (rd : ready) (a : app V) : app V :=
  fold_left apply_one (rd_committed rd) (if sn_index (rd_snap rd) =? 0 then a else from_snap (rd_snap rd)).
Definition app_after (out : nout) (a : app V) : app V :=
  match o_ready out with Some rd => apply_ready rd a | None => a end.

(** The state an application may come back with after a crash: one it had (on its own disk), or the
    one in the snapshot in the storage (the initial one if there is none). *)
Definition recovered (rc : rcluster V) (id : N) (n : rawnode) (a : app V) : Prop :=
  In (id, a) (rc_held rc) \/
  a = (if sn_index (ms_snap (node_storage n)) =? 0 then (0, v0) else from_snap (ms_snap (node_storage n))).

Inductive rstep (cs : confstate) (rc : rcluster V) : rcluster V -> Prop :=
| RCall id o n n' out a :
    mget id (cl_nodes (rc_cl rc)) = Some n -> mget id (rc_app rc) = Some a ->
    call_ok cs o n -> n_step o n = Ok (n', out) ->
    (* a snapshot is one of a state the application had *)
    (forall i c d, o = NCreateSnapshot i c d -> exists v, In (id, (i, v)) (rc_held rc) /\ d = enc v) ->
    rstep cs rc (mkR
      (mkCluster (mset id n' (cl_nodes (rc_cl rc))) (cl_net (rc_cl rc) ++ out_msgs out) (cl_hist (rc_cl rc) ++ out_ents id out))
      (mset id (app_after out a) (rc_app rc)) ((id, app_after out a) :: rc_held rc))
| RDeliver id m n n' out :
    mget id (cl_nodes (rc_cl rc)) = Some n -> In m (cl_net (rc_cl rc)) -> m_to m = id -> n_step (NStep m) n = Ok (n', out) ->
    rstep cs rc (mkR (mkCluster (mset id n' (cl_nodes (rc_cl rc))) (cl_net (rc_cl rc)) (cl_hist (rc_cl rc))) (rc_app rc) (rc_held rc))
| RRestart id c tape n n' a :
    mget id (cl_nodes (rc_cl rc)) = Some n -> c_id c = id -> c_storage c = Some (node_storage n) -> rn_new c tape = Ok n' ->
    (* the application tells the node what it has applied, and the storage still has what comes next *)
    recovered rc id n a -> c_applied c = fst a -> ms_first_index (node_storage n) <= fst a + 1 ->
    rstep cs rc (mkR (mkCluster (mset id n' (cl_nodes (rc_cl rc))) (cl_net (rc_cl rc)) (cl_hist (rc_cl rc)))
                     (mset id a (rc_app rc)) ((id, a) :: rc_held rc)).

(** The beginning: every application has the initial state, which is also the one in the common
    snapshot if there is one. *)
Record rstart (i0 : N) (cs : confstate) (rc : rcluster V) : Prop := {
  rs_cl : cluster_start cs (rc_cl rc);
  rs_app : forall id n, mget id (cl_nodes (rc_cl rc)) = Some n ->
    mget id (rc_app rc) = Some (i0, v0) /\ sn_index (ms_snap (node_storage n)) = i0 /\
    (i0 <> 0 -> dec (sn_data (ms_snap (node_storage n))) = v0);
  rs_only : forall id a, mget id (rc_app rc) = Some a -> In (id, a) (rc_held rc);
  rs_held : forall id a, In (id, a) (rc_held rc) -> a = (i0, v0)
}.
Inductive rreach (i0 : N) (cs : confstate) : rcluster V -> Prop :=
| RrStart rc : rstart i0 cs rc -> rreach i0 cs rc
| RrStep rc rc' : rreach i0 cs rc -> rstep cs rc rc' -> rreach i0 cs rc'.

(** A run with its events (the labels of Sys_Trace; the cluster part determines them). *)
Inductive rtrace (cs : confstate) (rc : rcluster V) : list (event * cluster) -> rcluster V -> Prop :=
| RtNil : rtrace cs rc [] rc
| RtCons ev rc1 tr rc2 : rstep cs rc rc1 -> estep cs (rc_cl rc) ev (rc_cl rc1) -> rtrace cs rc1 tr rc2 ->
    rtrace cs rc ((ev, rc_cl rc1) :: tr) rc2.
End App.
