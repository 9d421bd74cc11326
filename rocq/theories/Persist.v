(** Model of the write-back of an index: Flush, GetDocCount, LoadEntrypoint
    (pkg/hnsw/insert.go:118-199) and of opening the index again in a new process
    (index.go:213-290).

    Simplifications.
    - A key-value entry is the JSON text of a vertex; here it is the vertex
      itself.  encoding/json writes every field but [Committed]
      (vertex.go:18-27, tag "-"), prints a float32 so that it reads back exactly
      and refuses NaN and infinities.
    - The node cache is unbounded here as in [Graph]; LRU.v has the bounded one, and
      [run_bounded] histories in which it drops vertices.
    - The table is the dependency's (fairOS-dfs); a KVPut either stores the entry
      or fails without effect. *)
From Verif Require Import Base F32 PQ Graph Search Insert InsertHist.

(** encoding/json: UnsupportedValueError for NaN and infinities. insert.go:129 (library). *)
Definition is_finite_b (x : f32) : bool :=
  match x with S754_zero _ | S754_finite _ _ _ => true | _ => false end.
(** insert.go:129. *)
Definition json_ok (v : vertex) : bool := forallb is_finite_b (v_vec v).

(** What is read back (vertex.go:26: [Committed] is not stored). *)
Definition stored (v : vertex) : vertex := set_committed v false.

(** One KVPut of Flush (insert.go:133, 148, 159). *)
Inductive kvput :=
| PutNode (v : vertex)
| PutEp (id : N)
| PutCount (n : N).

(** Not in the code: the table after KVPut, insert.go:133, 147, 159. *)
Definition with_kv (h : hnsw) (kv : nmap vertex) (ep cnt : option N) : hnsw :=
  mkH (h_cache h) kv ep cnt (h_ep h) (h_maxl h) (h_tomb h) (h_once h).

(** KVPut, insert.go:133, 147, 159. *)
Definition do_put (h : hnsw) (w : kvput) : hnsw :=
  match w with
  | PutNode v => with_kv h (mset (v_id v) (stored v) (h_kv h)) (h_kv_ep h) (h_kv_count h)
  | PutEp id => with_kv h (h_kv h) (Some id) (h_kv_count h)
  | PutCount n => with_kv h (h_kv h) (h_kv_ep h) (Some n)
  end.

(** insert.go:119-141: the vertices written, and whether all could be
    marshalled.  [keys] is [indexCache.Keys()], in any order; a key that is not
    in [h_cache] is a vertex that was only loaded from the table (index.go:620)
    and is written back unchanged. *)
Fixpoint node_puts (h : hnsw) (keys : list N) : list kvput * bool :=
  match keys with
  | [] => ([], true)
  | k :: keys' =>
      match node_by_id h k with
      | None => node_puts h keys'
      | Some v =>
          if v_committed v then node_puts h keys'
          else if json_ok v then
            let (ws, ok) := node_puts h keys' in (PutNode v :: ws, ok)
          else ([], false)
      end
  end.

(** insert.go:118-163: all puts in order. *)
Definition flush_plan (h : hnsw) (keys : list N) (cnt : N) : list kvput * bool :=
  let (ws, ok) := node_puts h keys in
  if ok then (ws ++ [PutEp (h_ep h); PutCount cnt], true) else (ws, false).

(** insert.go:138-139: a written vertex is marked (only if it is cached). *)
Definition mark_put (h : hnsw) (w : kvput) : hnsw :=
  match w with
  | PutNode v => match mget (v_id v) (h_cache h) with
                 | Some _ => put_node h (set_committed v true)
                 | None => h
                 end
  | _ => h
  end.

(** insert.go:118-164, when the first [n] puts succeed and the next one, if
    any, fails.  The no-op commit log cannot fail to flush. *)
Definition flush (h : hnsw) (keys : list N) (cnt : N) (n : nat) : hnsw * res unit :=
  let (ws, ok) := flush_plan h keys cnt in
  let h' := fold_left (fun h w => mark_put (do_put h w) w) (firstn n ws) h in
  (h', if Nat.ltb n (length ws) then Err EStore else if ok then Ok tt else Err EMarshal).

(** insert.go:166-179; [None]: the key is missing (the client then uses 0,
    document.go:339-341). *)
Definition doc_count (h : hnsw) : option N := h_kv_count h.

(** insert.go:181-199: currentMaximumLayer is not touched. *)
Definition load_ep (h : hnsw) : hnsw :=
  with_ep h (match h_kv_ep h with Some e => e | None => 0%N end) (h_maxl h).

(** A new process opens the collection: the table is all that is left
    (index.go:213-290: zero entry point, zero maximum layer, no tombstones). *)
Definition restart (h : hnsw) : hnsw :=
  mkH [] (h_kv h) (h_kv_ep h) (h_kv_count h) 0 0 [] false.

(** Events in the life of a collection.  A crash during a write-back is a
    [EvFlush] with few puts followed by [EvRestart]. insert.go:57, 118; index.go:213-290. *)
Inductive event :=
| EvAdd (o : aop)
| EvQuery
| EvFlush (keys : list N) (cnt : N) (n : nat)
| EvRestart.

(** A query changes the index only through LoadEntrypoint
    (document.go:505,606). *)
Definition ev_step (h : hnsw) (e : event) : hnsw * res unit :=
  match e with
  | EvAdd o => add (a_env o) h (a_id o) (a_vec o) (a_lvl o)
  | EvQuery => (load_ep h, Ok tt)
  | EvFlush keys cnt n => flush h keys cnt n
  | EvRestart => (restart h, Ok tt)
  end.

(** Not in the code: events one after the other. *)
Fixpoint run_events (h : hnsw) (evs : list event) : hnsw :=
  match evs with
  | [] => h
  | e :: evs' => run_events (fst (ev_step h e)) evs'
  end.

(** The node cache holds 10000 vertices (index.go:217).  golang-lru drops one to make
    room for another and nobody writes it; here it may drop any vertex between two
    operations (NodeRace.v: also within one). *)
Definition evict (h : hnsw) (id : N) : hnsw := with_cache h (mdel id (h_cache h)).
Inductive bevent :=
| BEv (e : event)
| BEvict (id : N).
Definition bstep (h : hnsw) (e : bevent) : hnsw :=
  match e with
  | BEv e => fst (ev_step h e)
  | BEvict id => evict h id
  end.
Definition run_bounded (h : hnsw) (evs : list bevent) : hnsw := fold_left bstep evs h.

(** The nearest query of the client (document.go:505-512, 606-613) without the
    document fetch. *)
Definition near (E : env) (h : hnsw) (q : vec) (maxd : f32) (ef : Z) : res (list N * list f32) :=
  knn_max_dist E (load_ep h) q maxd ef None.
