(** The locks that concurrent requests take, and in which order.

    Every function is modelled by the lock operations it can perform: loops may
    run any number of times, branches are choices, vertex ids and shards are
    arbitrary.  The machine below runs any number of goroutines over them with the
    blocking rules of sync.Mutex and sync.RWMutex.

    Simplifications.
    - The goroutines a function starts and waits for (search.go:256-279,
      document.go:528-545, vector_cache.go:241-252) run inside the function, the
      acquisitions of [obtainAllLocks] in any order.
    - Locks of dependencies and of the no-op commit logger are left out: they are
      released before the call returns and no lock of this code is taken inside.
    - A panic runs the deferred unlocks and nothing else ([broken] below).  It is
      taken to happen anywhere but between Lock and Unlock of a section that is not
      unlocked by defer; these sections hold no operation that can panic, except the
      index expressions s.cache[id] of vector_cache.go:77,116,128 (see [leak_shard]).
    - A panic in a goroutine of its own (search.go:256-279, document.go:528-545) ends
      the process and is left out. *)
From Coq Require Import Permutation.
From Verif Require Import Base.

(** Lines at the constructors. *)
Inductive lock :=
| LClient          (* document.go:39, lock *)
| LIndices         (* document.go:40, hnswLock *)
| LCompress        (* index.go:155, compressActionLock *)
| LDelIns          (* index.go:149, deleteVsInsertLock *)
| LOnce            (* index.go:59, initialInsertOnce: the mutex of sync.Once *)
| LDelete          (* index.go:45, deleteLock *)
| LReset           (* index.go:50, resetLock *)
| LIndex           (* index.go:40, the RWMutex of hnsw itself *)
| LVertex (v : N)  (* vertex.go:19 *)
| LVisited         (* pools.go:23, visitedListsLock *)
| LTomb            (* index.go:47, tombstoneLock *)
| LMaint           (* vector_cache.go:40, maintenanceLock *)
| LShard (k : N).  (* vector_cache.go:26, shardedLocks *)
Inductive mode := MR | MW.
Inductive act := Acq (l : lock) (m : mode) | Rel (l : lock).

(** Not in the code. *)
Definition lock_eq_dec (a b : lock) : {a = b} + {a <> b}.
Proof. decide equality; apply N.eq_dec. Defined.

(** Lock behaviour of a piece of code.
    Not in the code: how the functions cited below lock and unlock. *)
Inductive cmd :=
| Skip
| With (l : lock) (m : mode) (c : cmd)      (* Lock; defer Unlock; c *)
| Crit (l : lock) (m : mode) (c : cmd)      (* Lock; c; Unlock (on every way out but a panic) *)
| Cross (l1 l2 : lock) (c : cmd)            (* Lock l1; Lock l2; c; Unlock l1; Unlock l2 *)
| AllShards (n : nat) (c : cmd)             (* Lock shards 0..n-1 in any order; c; Unlock them *)
| Seq (a b : cmd)
| Alt (a b : cmd)
| Star (c : cmd)
| Any (f : N -> cmd).
(** Not in the code: see [cmd]. *)
Inductive traces : cmd -> list act -> Prop :=
| T_Skip : traces Skip []
| T_With l m c t : traces c t -> traces (With l m c) (Acq l m :: t ++ [Rel l])
| T_Crit l m c t : traces c t -> traces (Crit l m c) (Acq l m :: t ++ [Rel l])
| T_Cross l1 l2 c t : traces c t -> traces (Cross l1 l2 c) (Acq l1 MW :: Acq l2 MW :: t ++ [Rel l1; Rel l2])
| T_All n c p t : Permutation p (seq 0 n) -> traces c t ->
    traces (AllShards n c) (map (fun k => Acq (LShard (N.of_nat k)) MW) p ++ t ++ map (fun k => Rel (LShard (N.of_nat k))) (seq 0 n))
| T_Seq a b t u : traces a t -> traces b u -> traces (Seq a b) (t ++ u)
| T_Alt1 a b t : traces a t -> traces (Alt a b) t
| T_Alt2 a b t : traces b t -> traces (Alt a b) t
| T_Star0 c : traces (Star c) []
| T_Star1 c t u : traces c t -> traces (Star c) u -> traces (Star c) (t ++ u)
| T_Any f i t : traces (f i) t -> traces (Any f) t.
(** Not in the code: see [cmd]. *)
Definition Opt (c : cmd) : cmd := Alt Skip c.
(** [a], then possibly an early return, then [b]. Not in the code: see [cmd]. *)
Definition Then (a b : cmd) : cmd := Seq a (Opt b).

(** vector_cache.go:43; the number of shards. *)
Definition shard_factor : nat := N.to_nat 512.

(** vector_cache.go:75-85,100-120: get, handleCacheMiss. *)
Definition c_get : cmd := Any (fun k => Then (Crit (LShard k) MR Skip) (Crit (LShard k) MW Skip)).
(** vector_cache.go:122-141: multiGet. *)
Definition c_multiget : cmd := Star c_get.
(** vector_cache.go:150-168: prefetch, preload. *)
Definition c_touch : cmd := Any (fun k => With (LShard k) MR Skip).
(** vector_cache.go:88-98: delete. *)
Definition c_cdel : cmd := Any (fun k => With (LShard k) MW Skip).
(** vector_cache.go:205-216: deleteAllVectors. *)
Definition c_delete_all : cmd := AllShards shard_factor Skip.
(** vector_cache.go:199-202: drop; the cancel channel is not a lock. *)
Definition c_drop : cmd := c_delete_all.
(** vector_cache.go:233-239: replaceIfFull. *)
Definition c_tick : cmd := Opt (Crit LMaint MW c_delete_all).
(** vector_cache.go:171-186: grow. *)
Definition c_grow : cmd := Opt (With LMaint MW (AllShards shard_factor Skip)).

(** delete.go:579-584,586-598. *)
Definition c_has_tomb : cmd := With LTomb MR Skip.
Definition c_add_tomb : cmd := With LTomb MW Skip.
(** search.go:447-462 *)
Definition c_handle_deleted : cmd := Then c_has_tomb c_add_tomb.
(** index.go:512-549: distBetweenNodeAndVec. *)
Definition c_dist_vec : cmd := Then c_get c_handle_deleted.
(** index.go:437-510: distBetweenNodes. *)
Definition c_dist_nodes : cmd := Seq c_get (Alt c_handle_deleted (Then c_get c_handle_deleted)).
(** vertex.go:29-46: the locked methods of a vertex; the sections of search.go:215-243,
    delete.go:330-337,351-355,369-372,379-384,421-424,485-490,543-548. *)
Definition c_vertex : cmd := Any (fun v => Crit (LVertex v) MW Skip).
(** vertex.go:58-80: setConnectionsAtLevel. *)
Definition c_set_conns : cmd := Any (fun v => With (LVertex v) MW Skip).

(** search.go:327-351: the entry points. *)
Definition c_viable : cmd := Star c_has_tomb.
(** search.go:164-325: searchLayerByVector; the distances (419-432) take no lock.
    Lines 168-170 borrow a visited list, 215-243 copy the links of a vertex,
    283-313 take the neighbours, 320-322 return the list. *)
Definition c_layer : cmd :=
  Seq (Crit LVisited MW Skip)
      (Then c_viable
            (Seq (Star (Seq c_vertex (Star (Seq c_has_tomb c_touch)))) (Crit LVisited MW Skip))).
(** heuristic.go:23-135 *)
Definition c_heuristic : cmd := Seq c_multiget (Star c_handle_deleted).
(** index.go:391-428: findBestEntrypointForNode. *)
Definition c_best_ep : cmd := Star (Then c_dist_vec (Then c_layer c_vertex)).
(** index.go:579-584; delete.go:139-144 (getEntrypoint); delete.go:561-566
    (isOnlyNode); insert.go:181-183 (LoadEntrypoint); index.go:677-682; without defer
    insert.go:221-228, delete.go:237-258,272-279,300-303,458-475,477-479,536-538. *)
Definition c_read_index : cmd := Alt (With LIndex MR Skip) (Crit LIndex MR Skip).
(** delete.go:506-559: findNewLocalEntrypoint. *)
Definition c_local_ep : cmd := Seq c_read_index (Alt c_read_index (Star (Then c_read_index c_vertex))).
(** neighbor_connections.go:246-316: pickEntrypoint, tryEpCandidate. *)
Definition c_pick_ep : cmd := Star (Then c_dist_vec c_local_ep).
(** neighbor_connections.go:138-218: connectNeighborAtLevel. *)
Definition c_connect : cmd :=
  Then (Opt c_has_tomb)
       (Any (fun v => With (LVertex v) MW (Opt (Then c_dist_nodes (Then (Star c_dist_nodes) c_heuristic))))).
(** neighbor_connections.go:73-136,60-71: doAtLevel, Do. *)
Definition c_do_level : cmd :=
  Then c_pick_ep (Then c_layer (Then c_heuristic (Then c_set_conns (Star c_connect)))).
Definition c_neighbors : cmd := Star c_do_level.

(** insert.go:81-116: insertInitialElement. *)
Definition c_initial : cmd := With LIndex MW (Opt c_touch).
(** insert.go:201-311: insert; 208-216 the first insertion. *)
Definition c_insert : cmd :=
  With LDelIns MR
    (Then (Opt (With LOnce MW (Then c_read_index c_initial)))
          (Seq c_vertex (Seq c_read_index (Then (Crit LIndex MW Skip)
             (Seq c_touch (Then c_best_ep (Then c_neighbors (Seq c_vertex (Crit LIndex MW Skip))))))))).
(** insert.go:57-79: Add. *)
Definition c_add : cmd := Opt (With LCompress MR c_insert).

(** search_with_max_dist.go:22-87 *)
Definition c_max_dist : cmd := Then c_dist_vec (Seq (Star c_layer) c_layer).
(** search.go:464-546: knnSearchByVector. *)
Definition c_knn : cmd :=
  Then c_read_index (Then c_dist_vec (Seq (Star (Then c_layer (Star (Alt c_add_tomb c_vertex)))) c_layer)).
(** flat_search.go:19-74 *)
Definition c_flat : cmd := Star (Then (Crit LIndex MR (Opt c_has_tomb)) c_dist_vec).
(** search.go:70-84 *)
Definition c_search : cmd := With LCompress MR (Alt c_flat c_knn).
(** search.go:96-162 *)
Definition c_search_dist : cmd := Seq c_search (Star c_search).

(** delete.go:87-109: resetIfEmpty, resetIfOnlyNode: the deferred unlocks run in
    reverse order of the defer statements. *)
Definition c_reset_if : cmd := Cross LReset LIndex Skip.
(** delete.go:443-503: findNewGlobalEntrypoint. *)
Definition c_global_ep : cmd :=
  Seq c_read_index (Star (Seq c_read_index (Star (Then c_read_index (Then c_read_index c_vertex))))).
(** delete.go:415-438: deleteEntrypoint. *)
Definition c_delete_ep : cmd := Then c_read_index (Seq c_vertex (Then c_global_ep (Crit LIndex MW Skip))).
(** delete.go:31-85: Delete; 126-137 tombstonesAsDenyList. *)
Definition c_delete : cmd :=
  With LCompress MR (With LDelIns MW (With LDelete MW
    (Then c_add_tomb (Star (Then c_read_index (Seq c_add_tomb (Then c_reset_if c_delete_ep))))))).
(** delete.go:146-168: copyTombstonesToAllowList. *)
Definition c_copy_tombs : cmd := With LReset MW (Opt (With LTomb MW Skip)).
(** delete.go:292-397: reassignNeighbor. *)
Definition c_reassign : cmd :=
  With LReset MW
    (Opt (Then c_read_index (Then (Then c_get c_handle_deleted) (Then c_vertex (Then c_best_ep
       (Seq (Opt (Then c_read_index (Alt c_vertex (Then c_local_ep c_vertex))))
            (Opt (Seq c_vertex (Seq c_vertex (Then c_neighbors c_vertex)))))))))).
(** delete.go:271-290: reassignNeighborsOf. *)
Definition c_reassign_all : cmd := Then c_read_index (Star c_reassign).
(** delete.go:220-269: replaceDeletedEntrypoint, on the ways out that release the
    index lock (see [leak_index]). *)
Definition c_replace_ep : cmd := With LReset MW (Star (Then c_read_index (Seq c_read_index c_delete_ep))).
(** delete.go:600-632: removeTombstonesAndNodes, on the ways out that release the
    reset lock (see [leak_reset]). *)
Definition c_remove : cmd := Star (Seq (Crit LTomb MW Skip) (Crit LReset MW (Opt c_cdel))).
(** delete.go:171-218: CleanUpTombstonedNodes. *)
Definition c_cleanup : cmd :=
  Seq (Crit LReset MW Skip) (Then c_copy_tombs (Then c_reassign_all (Then c_replace_ep (Then c_remove c_reset_if)))).

(** document.go:99-144: Login, OpenPod; document.go:248-285: GetCollections. *)
Definition c_client : cmd := With LClient MW Skip.
(** document.go:146-246: CreateCollection, DeleteCollection. *)
Definition c_collection : cmd := With LClient MW (Opt (Crit LIndices MW Skip)).
(** document.go:303-338: opening a collection and looking its index up. *)
Definition c_open : cmd := Then (Opt (Crit LIndices MW Skip)) (Crit LIndices MW Skip).
(** document.go:287-454: AddDocuments; Flush (insert.go:118-164) takes no lock. *)
Definition c_add_docs : cmd := Then c_open (Star c_add).
(** document.go:456-651: the nearest queries; LoadEntrypoint (insert.go:181-199). *)
Definition c_near : cmd := Then c_open (Then c_read_index c_max_dist).

(** What a goroutine of the process runs: any sequence of these.
    The functions cited above. *)
Definition c_any_op : cmd :=
  Alt c_client (Alt c_collection (Alt c_add_docs (Alt c_near (Alt c_search_dist (Alt c_delete
    (Alt c_cleanup (Alt c_tick (Alt c_grow c_read_index)))))))).
(** Not in the code: see [c_any_op]. *)
Definition c_goroutine : cmd := Star c_any_op.

(** The ways out of the clean-up that keep a lock: delete.go:245-258 returns
    without RUnlock, delete.go:610-613 returns without Unlock. *)
Definition leak_index : list act := [Acq LReset MW; Acq LIndex MR; Rel LIndex; Acq LIndex MR; Rel LReset].
Definition leak_reset : list act := [Acq LTomb MW; Rel LTomb; Acq LReset MW].

(** vector_cache.go:75-78: get of an id beyond the length of the cache panics between
    RLock and RUnlock. *)
Definition leak_shard (id : N) : list act := [Acq (LShard (id mod N.of_nat shard_factor)) MR].

(** The lock operations of [c] when it panics somewhere: what it did before, and the
    deferred unlocks.
    Not in the code: a panic runs the deferred calls (Go specification). *)
Inductive broken : cmd -> list act -> Prop :=
| B_Here c : broken c []
| B_With l m c t : broken c t -> broken (With l m c) (Acq l m :: t ++ [Rel l])
| B_Cross l1 l2 c t : broken c t -> broken (Cross l1 l2 c) (Acq l1 MW :: Acq l2 MW :: t ++ [Rel l1; Rel l2])
| B_Seq1 a b t : broken a t -> broken (Seq a b) t
| B_Seq2 a b t u : traces a t -> broken b u -> broken (Seq a b) (t ++ u)
| B_Alt1 a b t : broken a t -> broken (Alt a b) t
| B_Alt2 a b t : broken b t -> broken (Alt a b) t
| B_Star1 c t : broken c t -> broken (Star c) t
| B_Star2 c t u : traces c t -> broken (Star c) u -> broken (Star c) (t ++ u)
| B_Any f i t : broken (f i) t -> broken (Any f) t.
(** A goroutine that goes on after a panic: net/http recovers it and serves the next
    request. Library (net/http). *)
Inductive served (c : cmd) : list act -> Prop :=
| S_None : served c []
| S_Done t u : traces c t -> served c u -> served c (t ++ u)
| S_Panic t u : broken c t -> served c u -> served c (t ++ u).

(** Goroutines. Go's sync package (library), used at the lines of [lock]. *)
Record thr := mkT { t_held : list (lock * mode); t_todo : list act; t_wait : bool }.
(** Go's sync package (library), used at the lines of [lock]. *)
Definition threads := list thr.
(** Go's sync package (library), used at the lines of [lock]. *)
Definition start (ps : list (list act)) : threads := map (fun p => mkT [] p false) ps.

(** Go's sync package (library), used at the lines of [lock]. *)
Definition holds (t : thr) (l : lock) : bool := existsb (fun h => if lock_eq_dec (fst h) l then true else false) (t_held t).
(** Go's sync package (library), used at the lines of [lock]. *)
Definition holdsW (t : thr) (l : lock) : bool :=
  existsb (fun h => if lock_eq_dec (fst h) l then match snd h with MW => true | MR => false end else false) (t_held t).
(** Lock has announced itself and waits (rwmutex.go: readers that come later wait
    for it). *)
Definition waits (t : thr) (l : lock) : bool :=
  t_wait t && match t_todo t with Acq l' MW :: _ => if lock_eq_dec l' l then true else false | _ => false end.
Definition release (l : lock) (h : list (lock * mode)) : list (lock * mode) :=
  filter (fun x => if lock_eq_dec (fst x) l then false else true) h.
Fixpoint upd {A} (n : nat) (x : A) (l : list A) : list A :=
  match l, n with
  | [], _ => []
  | _ :: l', O => x :: l'
  | a :: l', S n' => a :: upd n' x l'
  end.

(** One step of goroutine [i]; [None] if it is finished or blocked.  RLock waits
    while a writer holds the lock or waits for it, Lock announces itself and waits
    until nobody holds the lock (sync.Mutex: only [MW]).
    Go's sync package (library), used at the lines of [lock]. *)
Definition lstep (s : threads) (i : nat) : option threads :=
  match nth_error s i with
  | None => None
  | Some t =>
      match t_todo t with
      | [] => None
      | Rel l :: k => Some (upd i (mkT (release l (t_held t)) k false) s)
      | Acq l MR :: k =>
          if existsb (fun t' => holdsW t' l || waits t' l) s then None
          else Some (upd i (mkT ((l, MR) :: t_held t) k false) s)
      | Acq l MW :: k =>
          if t_wait t then
            if existsb (fun t' => holds t' l) s then None
            else Some (upd i (mkT ((l, MW) :: t_held t) k false) s)
          else Some (upd i (mkT (t_held t) (t_todo t) true) s)
      end
  end.
(** A schedule; a goroutine that cannot step is passed over. Not in the code: a schedule. *)
Fixpoint lrun (s : threads) (sched : list nat) : threads :=
  match sched with
  | [] => s
  | i :: r => lrun (match lstep s i with Some s' => s' | None => s end) r
  end.
(** Not in the code: used in statements. *)
Definition finished (s : threads) : Prop := forall t, In t s -> t_todo t = [].
(** Not in the code: used in statements. *)
Definition stuck (s : threads) : Prop := forall i, lstep s i = None.
