(** Concurrent requests on the vertices of one collection: nodeByID
    (index.go:594-623), connecting a neighbour (neighbor_connections.go:138-169)
    and Flush (insert.go:118-141) as steps that goroutines interleave.

    A vertex is an object; the node cache holds pointers to objects, and a
    goroutine keeps the pointer it got.  No lock spans the steps: the lock of a
    vertex covers one [OLink], Flush takes none.  The steps of goroutine [t] on
    index [i] (a process has more than one index of a collection if two requests
    open it at the same time, document.go:303-336).

    Simplifications.
    - A vertex is its list of links at one layer and Committed; a link is added
      by appending (below the maximal number of links).
    - The bounded node cache drops any vertex at any time ([OEvict]; LRU.v has the
      policy, which drops the least recently used one of more than 10000); all store
      calls succeed.
    - json.Marshal reads a vertex in one step (the code does not lock it). *)
From Verif Require Import Base.

(** vertex.go:18-27 *)
Record obj := mkO { o_links : list N; o_comm : bool }.

(** What a goroutine is in the middle of.  [GLoaded]: the value is read from the
    table and not yet in the cache (index.go:610-619); [GHolds]: nodeByID
    returned this pointer; [GSnap]: Flush has marshalled the vertex
    (insert.go:129); [GPut]: it has written it (insert.go:133). *)
Inductive gost :=
| GLoaded (i id : N) (l : list N)
| GHolds (i id r : N)
| GSnap (i id r : N) (l : list N)
| GPut (i id r : N).

(** index.go:217, 610; vertex.go:18-27. *)
Record nstate := mkN {
  n_heap : nmap obj;             (* objects by pointer *)
  n_next : N;                    (* the next free pointer *)
  n_cache : nmap (nmap N);       (* per index: pointer by id (index.go:217) *)
  n_kv : nmap (list N);          (* the table *)
  n_go : nmap gost
}.
Definition n_start : nstate := mkN [] 0 [] [] [].

(** Lookup and Add of the node cache of index [i]. index.go:217. *)
Definition cache_of (s : nstate) (i : N) : nmap N := match mget i (n_cache s) with Some c => c | None => [] end.
(** index.go:600. *)
Definition cached (s : nstate) (i id : N) : option N := mget id (cache_of s i).
(** index.go:620, insert.go:271. *)
Definition cache_add (s : nstate) (i id r : N) : nmap (nmap N) := mset i (mset id r (cache_of s i)) (n_cache s).

(** Lines at the constructors. *)
Inductive nop :=
| ONew (t i id : N)     (* insert.go:232-271: a new vertex *)
| OGet (t i id : N)     (* index.go:600-616 *)
| OPublish (t : N)      (* index.go:620 *)
| OLink (t x : N)       (* neighbor_connections.go:146-169 *)
| ODone (t : N)         (* the caller of nodeByID drops the pointer *)
| OMarshal (t i id : N) (* insert.go:121-129 *)
| OPut (t : N)          (* insert.go:133 *)
| OMark (t : N)         (* insert.go:137-138 *)
| OEvict (i id : N)     (* golang-lru Add of another vertex: this one leaves the cache, unwritten *)
| ORestart.

(** Not in the code: a goroutine keeps a pointer. *)
Definition set_go (s : nstate) (t : N) (g : gost) : nstate :=
  mkN (n_heap s) (n_next s) (n_cache s) (n_kv s) (mset t g (n_go s)).
(** Not in the code: a goroutine drops its pointer. *)
Definition end_go (s : nstate) (t : N) : nstate :=
  mkN (n_heap s) (n_next s) (n_cache s) (n_kv s) (mdel t (n_go s)).

(** One step (lines at the constructors); a step that does not fit the state of
    the goroutine does nothing.
    index.go:594-623, neighbor_connections.go:138-169, insert.go:118-139. *)
Definition nstep (s : nstate) (o : nop) : nstate :=
  match o with
  | ONew t i id =>
      mkN (mset (n_next s) (mkO [] false) (n_heap s)) (n_next s + 1) (cache_add s i id (n_next s)) (n_kv s)
          (mset t (GHolds i id (n_next s)) (n_go s))
  | OGet t i id =>
      match cached s i id with
      | Some r => set_go s t (GHolds i id r)
      | None => match mget id (n_kv s) with
                | Some l => set_go s t (GLoaded i id l)
                | None => end_go s t
                end
      end
  | OPublish t =>
      match mget t (n_go s) with
      | Some (GLoaded i id l) =>
          mkN (mset (n_next s) (mkO l false) (n_heap s)) (n_next s + 1) (cache_add s i id (n_next s)) (n_kv s)
              (mset t (GHolds i id (n_next s)) (n_go s))
      | _ => s
      end
  | OLink t x =>
      match mget t (n_go s) with
      | Some (GHolds i id r) =>
          match mget r (n_heap s) with
          | Some o => mkN (mset r (mkO (o_links o ++ [x]) false) (n_heap s)) (n_next s)
                          (cache_add s i id r) (n_kv s) (n_go s)
          | None => s
          end
      | _ => s
      end
  | ODone t => end_go s t
  | OMarshal t i id =>
      match cached s i id with
      | Some r =>
          match mget r (n_heap s) with
          | Some o => if o_comm o then end_go s t else set_go s t (GSnap i id r (o_links o))
          | None => s
          end
      | None => end_go s t
      end
  | OPut t =>
      match mget t (n_go s) with
      | Some (GSnap i id r l) =>
          mkN (n_heap s) (n_next s) (n_cache s) (mset id l (n_kv s)) (mset t (GPut i id r) (n_go s))
      | _ => s
      end
  | OMark t =>
      match mget t (n_go s) with
      | Some (GPut i id r) =>
          match mget r (n_heap s) with
          | Some o => mkN (mset r (mkO (o_links o) true) (n_heap s)) (n_next s)
                          (cache_add s i id r) (n_kv s) (mdel t (n_go s))
          | None => s
          end
      | _ => s
      end
  | OEvict i id => mkN (n_heap s) (n_next s) (mset i (mdel id (cache_of s i)) (n_cache s)) (n_kv s) (n_go s)
  | ORestart => mkN [] 0 [] (n_kv s) []
  end.

(** Not in the code: steps in an order. *)
Fixpoint nrun (s : nstate) (os : list nop) : nstate :=
  match os with
  | [] => s
  | o :: os' => nrun (nstep s o) os'
  end.

(** The link a step adds: vertex and target. neighbor_connections.go:146-169. *)
Definition adds (s : nstate) (o : nop) : option (N * N) :=
  match o with
  | OLink t x =>
      match mget t (n_go s) with
      | Some (GHolds _ id r) => match mget r (n_heap s) with Some _ => Some (id, x) | None => None end
      | _ => None
      end
  | _ => None
  end.
(** Not in the code: used in statements. *)
Fixpoint added (s : nstate) (os : list nop) : list (N * N) :=
  match os with
  | [] => []
  | o :: os' => match adds s o with Some a => a :: added (nstep s o) os' | None => added (nstep s o) os' end
  end.

(** What nodeByID shows a later caller. index.go:594-623. *)
Definition links_of (s : nstate) (i id : N) : option (list N) :=
  match cached s i id with
  | Some r => option_map o_links (mget r (n_heap s))
  | None => mget id (n_kv s)
  end.
