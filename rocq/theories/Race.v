(** Which shared variables the goroutines access, and under which locks.

    The functions are those of Locks.v, with the accesses to the variables below put
    in: [erase] gives back the lock operations of Locks.v.

    Simplifications.
    - A section accesses its variables any number of times in any order.
    - Variables that are only accessed atomically, by one goroutine, or before the
      index is shared are left out; so are the contents of dependencies (the LRU
      caches and sync.Pool have their own locks), metrics and logging.
    - A vertex is one variable (Level, Connections, Maintenance, Committed; its Id and
      its Vector do not change once it is in the cache), and so are the slots of one
      shard of the vector cache. *)
From Coq Require Import Permutation.
From Verif Require Import Base Locks.

(** Lines at the constructors. *)
Inductive var :=
| XIndices          (* document.go:42, indices *)
| XTomb             (* index.go:107, tombstones *)
| XReset            (* index.go:53-54, resetCtx and its cancel function *)
| XVisited          (* pools.go:22, visitedLists *)
| XOnce             (* index.go:59, the pointer initialInsertOnce *)
| XEp               (* index.go:76, entryPointID *)
| XMaxl             (* index.go:71, currentMaximumLayer *)
| XSlot (k : N)     (* vector_cache.go:27, the slots [id] with id mod 512 = k *)
| XVertex (v : N).  (* vertex.go:18-27 *)
(** Lock operations and accesses; [MR] a read, [MW] a write.  Not in the code. *)
Inductive ev := EL (a : act) | EA (x : var) (m : mode).

(** As [Locks.cmd], with accesses; the predicates say which accesses are made.
    Not in the code: how the functions cited below lock and access. *)
Inductive acmd :=
| AAt (P : var -> mode -> Prop)
| APre (P : var -> mode -> Prop) (c : acmd)    (* accesses, then c *)
| APost (c : acmd) (P : var -> mode -> Prop)   (* c, then accesses *)
| AWith (l : lock) (m : mode) (c : acmd)
| ACrit (l : lock) (m : mode) (c : acmd)
| ACross (l1 l2 : lock) (c : acmd)
| AAllShards (n : nat) (c : acmd)
| ASeq (a b : acmd)
| AAlt (a b : acmd)
| AStar (c : acmd)
| AAny (f : N -> acmd).
(** Not in the code: see [acmd]. *)
Definition only (P : var -> mode -> Prop) (t : list ev) : Prop :=
  forall e, In e t -> exists x m, e = EA x m /\ P x m.
Inductive atraces : acmd -> list ev -> Prop :=
| A_At P t : only P t -> atraces (AAt P) t
| A_Pre P c t u : only P t -> atraces c u -> atraces (APre P c) (t ++ u)
| A_Post c P t u : atraces c t -> only P u -> atraces (APost c P) (t ++ u)
| A_With l m c t : atraces c t -> atraces (AWith l m c) (EL (Acq l m) :: t ++ [EL (Rel l)])
| A_Crit l m c t : atraces c t -> atraces (ACrit l m c) (EL (Acq l m) :: t ++ [EL (Rel l)])
| A_Cross l1 l2 c t : atraces c t ->
    atraces (ACross l1 l2 c) (EL (Acq l1 MW) :: EL (Acq l2 MW) :: t ++ [EL (Rel l1); EL (Rel l2)])
| A_All n c p t : Permutation p (seq 0 n) -> atraces c t ->
    atraces (AAllShards n c) (map (fun k => EL (Acq (LShard (N.of_nat k)) MW)) p ++ t
                              ++ map (fun k => EL (Rel (LShard (N.of_nat k)))) (seq 0 n))
| A_Seq a b t u : atraces a t -> atraces b u -> atraces (ASeq a b) (t ++ u)
| A_Alt1 a b t : atraces a t -> atraces (AAlt a b) t
| A_Alt2 a b t : atraces b t -> atraces (AAlt a b) t
| A_Star0 c : atraces (AStar c) []
| A_Star1 c t u : atraces c t -> atraces (AStar c) u -> atraces (AStar c) (t ++ u)
| A_Any f i t : atraces (f i) t -> atraces (AAny f) t.
(** Not in the code: see [acmd]. *)
Fixpoint erase (c : acmd) : cmd :=
  match c with
  | AAt _ => Skip
  | APre _ c | APost c _ => erase c
  | AWith l m c => With l m (erase c)
  | ACrit l m c => Crit l m (erase c)
  | ACross l1 l2 c => Cross l1 l2 (erase c)
  | AAllShards n c => AllShards n (erase c)
  | ASeq a b => Seq (erase a) (erase b)
  | AAlt a b => Alt (erase a) (erase b)
  | AStar c => Star (erase c)
  | AAny f => Any (fun i => erase (f i))
  end.
(** Not in the code: the lock operations of a trace. *)
Definition locks (t : list ev) : list act := flat_map (fun e => match e with EL a => [a] | EA _ _ => [] end) t.

(** Not in the code: see [acmd]. *)
Definition acc (l : list (var * mode)) : var -> mode -> Prop := fun x m => In (x, m) l.
Definition nothing : acmd := AAt (acc []).
Definition AOpt (c : acmd) : acmd := AAlt nothing c.
Definition AThen (a b : acmd) : acmd := ASeq a (AOpt b).
(** Reads and writes of one variable.  Not in the code. *)
Definition rd (x : var) : var -> mode -> Prop := acc [(x, MR)].
Definition rw (x : var) : var -> mode -> Prop := acc [(x, MR); (x, MW)].
(** All slots.  Not in the code. *)
Definition slots : var -> mode -> Prop := fun x m => exists k, k < shard_factor /\ x = XSlot (N.of_nat k).

(** vector_cache.go:75-85,100-120 *)
Definition a_get : acmd :=
  AAny (fun k => AThen (ACrit (LShard k) MR (AAt (rd (XSlot k)))) (ACrit (LShard k) MW (AAt (rw (XSlot k))))).
(** vector_cache.go:122-141 *)
Definition a_multiget : acmd := AStar a_get.
(** vector_cache.go:150-155: prefetch. *)
Definition a_prefetch : acmd := AAny (fun k => AWith (LShard k) MR (AAt (rd (XSlot k)))).
(** vector_cache.go:158-168: preload writes the slot under RLock. *)
Definition a_preload : acmd := AAny (fun k => AWith (LShard k) MR (AAt (rw (XSlot k)))).
(** vector_cache.go:88-98 *)
Definition a_cdel : acmd := AAny (fun k => AWith (LShard k) MW (AAt (rw (XSlot k)))).
(** vector_cache.go:205-216 *)
Definition a_delete_all : acmd := AAllShards shard_factor (AAt slots).
(** vector_cache.go:233-239; the counters are atomic. *)
Definition a_tick : acmd := AOpt (ACrit LMaint MW a_delete_all).
(** vector_cache.go:171-186: the length is read before anything is locked. *)
Definition a_grow : acmd := APre (rd (XSlot 0)) (AOpt (AWith LMaint MW (AAllShards shard_factor (AAt slots)))).

(** delete.go:579-584 *)
Definition a_has_tomb : acmd := AWith LTomb MR (AAt (rd XTomb)).
(** delete.go:586-598; delete.go:126-137 (tombstonesAsDenyList). *)
Definition a_add_tomb : acmd := AWith LTomb MW (AAt (rw XTomb)).
(** search.go:447-462 *)
Definition a_handle_deleted : acmd := AThen a_has_tomb a_add_tomb.
(** index.go:512-549 *)
Definition a_dist_vec : acmd := AThen a_get a_handle_deleted.
(** index.go:437-510 *)
Definition a_dist_nodes : acmd := ASeq a_get (AAlt a_handle_deleted (AThen a_get a_handle_deleted)).
(** vertex.go:29-46; search.go:215-243;
    delete.go:330-337,351-355,369-372,379-384,421-424,485-490,543-548. *)
Definition a_vertex : acmd := AAny (fun v => ACrit (LVertex v) MW (AAt (rw (XVertex v)))).
(** vertex.go:58-80 *)
Definition a_set_conns : acmd := AAny (fun v => AWith (LVertex v) MW (AAt (rw (XVertex v)))).

(** search.go:327-351 *)
Definition a_viable : acmd := AStar a_has_tomb.
(** search.go:164-325 *)
Definition a_layer : acmd :=
  ASeq (ACrit LVisited MW (AAt (rw XVisited)))
      (AThen a_viable
            (ASeq (AStar (ASeq a_vertex (AStar (ASeq a_has_tomb a_prefetch)))) (ACrit LVisited MW (AAt (rw XVisited))))).
(** heuristic.go:23-135 *)
Definition a_heuristic : acmd := ASeq a_multiget (AStar a_handle_deleted).
(** index.go:391-428 *)
Definition a_best_ep : acmd := AStar (AThen a_dist_vec (AThen a_layer a_vertex)).
(** index.go:579-584; delete.go:139-144; delete.go:561-566; index.go:677-682; insert.go:221-228,
    delete.go:237-258,272-279,300-303,458-475,477-479,536-538. *)
Definition a_read_index : acmd :=
  AAlt (AWith LIndex MR (AAt (acc [(XEp, MR); (XMaxl, MR)]))) (ACrit LIndex MR (AAt (acc [(XEp, MR); (XMaxl, MR)]))).
(** insert.go:181-199: LoadEntrypoint writes the entry point under RLock. *)
Definition a_load_ep : acmd :=
  AAlt (AWith LIndex MR (AAt (rw XEp))) (ACrit LIndex MR (AAt (rw XEp))).
(** delete.go:506-559; line 514 reads currentMaximumLayer without a lock. *)
Definition a_local_ep : acmd :=
  ASeq a_read_index (AAlt (APost a_read_index (rd XMaxl)) (AStar (AThen a_read_index a_vertex))).
(** neighbor_connections.go:246-316; so does line 287. *)
Definition a_pick_ep : acmd := AStar (AThen a_dist_vec (APre (rd XMaxl) a_local_ep)).
(** neighbor_connections.go:138-218 *)
Definition a_connect : acmd :=
  AThen (AOpt a_has_tomb)
       (AAny (fun v => AWith (LVertex v) MW
          (APre (rw (XVertex v)) (APost (AOpt (AThen a_dist_nodes (AThen (AStar a_dist_nodes) a_heuristic))) (rw (XVertex v)))))).
(** neighbor_connections.go:73-136,60-71 *)
Definition a_do_level : acmd :=
  AThen a_pick_ep (AThen a_layer (AThen a_heuristic (AThen a_set_conns (AStar a_connect)))).
Definition a_neighbors : acmd := AStar a_do_level.

(** insert.go:81-116 *)
Definition a_initial : acmd := AWith LIndex MW (APre (acc [(XEp, MW); (XMaxl, MW)]) (AOpt a_preload)).
(** insert.go:201-311; the new vertex is not shared before line 271. *)
Definition a_insert : acmd :=
  AWith LDelIns MR (APre (rd XOnce)
    (AThen (AOpt (AWith LOnce MW (AThen a_read_index a_initial)))
          (ASeq a_vertex (ASeq a_read_index (AThen (ACrit LIndex MW nothing)
             (ASeq a_preload (AThen a_best_ep (AThen a_neighbors (ASeq a_vertex
                (ACrit LIndex MW (AAt (acc [(XMaxl, MR); (XEp, MW); (XMaxl, MW)])))))))))))).
(** insert.go:57-79 *)
Definition a_add : acmd := AOpt (AWith LCompress MR a_insert).

(** search_with_max_dist.go:22-87; lines 30 and 41 read without a lock. *)
Definition a_max_dist : acmd :=
  APre (rd XEp) (AThen a_dist_vec (APre (rd XMaxl) (ASeq (AStar a_layer) a_layer))).
(** search.go:464-546; so do lines 470 and 480. *)
Definition a_knn : acmd :=
  AThen a_read_index (APre (rd XEp) (AThen a_dist_vec
    (APre (rd XMaxl) (ASeq (AStar (AThen a_layer (AStar (AAlt a_add_tomb a_vertex)))) a_layer)))).
(** flat_search.go:19-74 *)
Definition a_flat : acmd := AStar (AThen (ACrit LIndex MR (AOpt a_has_tomb)) a_dist_vec).
(** search.go:70-84 *)
Definition a_search : acmd := AWith LCompress MR (AAlt a_flat a_knn).
(** search.go:96-162 *)
Definition a_search_dist : acmd := ASeq a_search (AStar a_search).

(** delete.go:87-124 *)
Definition a_reset_if : acmd :=
  ACross LReset LIndex (AAt (acc [(XReset, MR); (XReset, MW); (XEp, MW); (XMaxl, MW); (XOnce, MW)])).
(** delete.go:443-503 *)
Definition a_global_ep : acmd :=
  ASeq a_read_index (AStar (ASeq a_read_index (AStar (AThen a_read_index (AThen a_read_index a_vertex))))).
(** delete.go:415-438 *)
Definition a_delete_ep : acmd :=
  AThen a_read_index (ASeq a_vertex (AThen a_global_ep (ACrit LIndex MW (AAt (acc [(XEp, MW); (XMaxl, MW)]))))).
(** delete.go:31-85,126-137 *)
Definition a_delete : acmd :=
  AWith LCompress MR (AWith LDelIns MW (AWith LDelete MW
    (AThen a_add_tomb (AStar (AThen a_read_index (ASeq a_add_tomb (AThen a_reset_if a_delete_ep))))))).
(** delete.go:146-168 *)
Definition a_copy_tombs : acmd := AWith LReset MW (AOpt (AWith LTomb MW (AAt (rd XTomb)))).
(** delete.go:292-397 *)
Definition a_reassign : acmd :=
  AWith LReset MW
    (AOpt (AThen a_read_index (AThen (AThen a_get a_handle_deleted) (AThen a_vertex (AThen a_best_ep
       (ASeq (AOpt (AThen a_read_index (AAlt a_vertex (AThen a_local_ep a_vertex))))
            (AOpt (ASeq a_vertex (ASeq a_vertex (AThen a_neighbors a_vertex)))))))))).
(** delete.go:271-290 *)
Definition a_reassign_all : acmd := AThen a_read_index (AStar a_reassign).
(** delete.go:220-269 *)
Definition a_replace_ep : acmd := AWith LReset MW (AStar (AThen a_read_index (ASeq a_read_index a_delete_ep))).
(** delete.go:600-632 *)
Definition a_remove : acmd := AStar (ASeq (ACrit LTomb MW (AAt (rw XTomb))) (ACrit LReset MW (AOpt a_cdel))).
(** delete.go:171-218 *)
Definition a_cleanup : acmd :=
  ASeq (ACrit LReset MW (AAt (rd XReset)))
       (AThen a_copy_tombs (AThen a_reassign_all (AThen a_replace_ep (AThen a_remove a_reset_if)))).

(** document.go:99-144,248-285 *)
Definition a_client : acmd := AWith LClient MW nothing.
(** document.go:146-246 *)
Definition a_collection : acmd := AWith LClient MW (AOpt (ACrit LIndices MW (AAt (rw XIndices)))).
(** document.go:303-338 *)
Definition a_open : acmd := AThen (AOpt (ACrit LIndices MW (AAt (rw XIndices)))) (ACrit LIndices MW (AAt (rd XIndices))).
(** Flush (insert.go:118-164): marshals and marks the vertices and reads the entry
    point without a lock. *)
Definition flush_acc : var -> mode -> Prop :=
  fun x m => (exists v, x = XVertex v) \/ (x = XEp /\ m = MR).
(** document.go:287-454; GetDocCount (insert.go:166-179) reads the entry point for its
    error message. *)
Definition a_add_docs : acmd := AThen a_open (APre (rd XEp) (APost (AStar a_add) flush_acc)).
(** document.go:456-651 *)
Definition a_near : acmd := AThen a_open (AThen a_load_ep a_max_dist).

(** The functions cited above. *)
Definition a_any_op : acmd :=
  AAlt a_client (AAlt a_collection (AAlt a_add_docs (AAlt a_near (AAlt a_search_dist (AAlt a_delete
    (AAlt a_cleanup (AAlt a_tick (AAlt a_grow a_read_index)))))))).
(** The operations of the index without Flush, LoadEntrypoint and the requests around
    them.  The functions cited above. *)
Definition a_index_op : acmd :=
  AAlt a_add (AAlt a_max_dist (AAlt a_search_dist (AAlt a_delete (AAlt a_cleanup (AAlt a_tick (AAlt a_grow a_read_index)))))).
(** What accesses the vector cache without adding: queries, deletions, clean-ups, ticks.
    The functions cited above. *)
Definition a_no_add_op : acmd :=
  AAlt a_near (AAlt a_search_dist (AAlt a_delete (AAlt a_cleanup (AAlt a_tick a_read_index)))).
(** All but clean-ups.  The functions cited above. *)
Definition a_no_cleanup_op : acmd :=
  AAlt a_client (AAlt a_collection (AAlt a_add_docs (AAlt a_near (AAlt a_search_dist (AAlt a_delete
    (AAlt a_tick (AAlt a_grow a_read_index))))))).
(** Additions, deletions and clean-ups.  The functions cited above. *)
Definition a_change_op : acmd :=
  AAlt a_add (AAlt a_delete (AAlt a_cleanup (AAlt a_tick (AAlt a_grow a_read_index)))).

(** The goroutines, as in Locks.v; an access is a step of its own.
    Go's sync package (library). *)
Record rthr := mkR { r_held : list (lock * mode); r_todo : list ev; r_wait : bool }.
Definition rstart (ps : list (list ev)) : list rthr := map (fun p => mkR [] p false) ps.
Definition has (t : rthr) (l : lock) : bool :=
  existsb (fun h => if lock_eq_dec (fst h) l then true else false) (r_held t).
Definition hasW (t : rthr) (l : lock) : bool :=
  existsb (fun h => if lock_eq_dec (fst h) l then match snd h with MW => true | MR => false end else false) (r_held t).
Definition rwaits (t : rthr) (l : lock) : bool :=
  r_wait t && match r_todo t with EL (Acq l' MW) :: _ => if lock_eq_dec l' l then true else false | _ => false end.
Definition rstep (s : list rthr) (i : nat) : option (list rthr) :=
  match nth_error s i with
  | None => None
  | Some t =>
      match r_todo t with
      | [] => None
      | EA _ _ :: k => Some (Locks.upd i (mkR (r_held t) k false) s)
      | EL (Rel l) :: k => Some (Locks.upd i (mkR (release l (r_held t)) k false) s)
      | EL (Acq l MR) :: k =>
          if existsb (fun t' => hasW t' l || rwaits t' l) s then None
          else Some (Locks.upd i (mkR ((l, MR) :: r_held t) k false) s)
      | EL (Acq l MW) :: k =>
          if r_wait t then
            if existsb (fun t' => has t' l) s then None
            else Some (Locks.upd i (mkR ((l, MW) :: r_held t) k false) s)
          else Some (Locks.upd i (mkR (r_held t) (r_todo t) true) s)
      end
  end.
(** Not in the code: a schedule. *)
Fixpoint rrun (s : list rthr) (sched : list nat) : list rthr :=
  match sched with
  | [] => s
  | i :: r => rrun (match rstep s i with Some s' => s' | None => s end) r
  end.
(** Two goroutines are about to access [x], one of them to write it (the Go memory
    model's data race). *)
Definition race (s : list rthr) (x : var) : Prop :=
  exists i j t u a b k k', i <> j /\ nth_error s i = Some t /\ nth_error s j = Some u /\
    r_todo t = EA x a :: k /\ r_todo u = EA x b :: k' /\ (a = MW \/ b = MW).
