(** Node store of the index: vertices, the node cache over the key-value table,
    and the vertex operations of pkg/hnsw/vertex.go.

    Simplifications: the node cache (an LRU of 10000 entries, index.go:213-290)
    is an unbounded map here; [LRU.v] models the bounded cache and shows when
    the two agree.  Loading a node from the key-value table copies it into the
    cache with [Committed = false] (index.go:610-621); the copy is equal to the
    table entry, so [node_by_id] is modelled as a lookup without side effect.
    Slice capacities of the connection lists are not modelled. *)
From Verif Require Import Base F32 PQ.

(** []float32, vertex.go:25. *)
Definition vec := list f32.

(** vertex.go:18-27 *)
Record vertex := mkV {
  v_id : N;
  v_level : nat;
  v_conns : list (list N);
  v_maint : bool;
  v_vec : vec;
  v_committed : bool
}.

(** Assignment to vertex.Connections, vertex.go:52-80. *)
Definition set_conns (v : vertex) (c : list (list N)) : vertex :=
  mkV (v_id v) (v_level v) c (v_maint v) (v_vec v) (v_committed v).
(** vertex.go:29-40. *)
Definition set_maint (v : vertex) (b : bool) : vertex :=
  mkV (v_id v) (v_level v) (v_conns v) b (v_vec v) (v_committed v).
(** insert.go:137; neighbor_connections.go:148. *)
Definition set_committed (v : vertex) (b : bool) : vertex :=
  mkV (v_id v) (v_level v) (v_conns v) (v_maint v) (v_vec v) b.
(** vertex.go:55. *)
Definition set_level (v : vertex) (l : nat) : vertex :=
  mkV (v_id v) l (v_conns v) (v_maint v) (v_vec v) (v_committed v).

(** vertex.go:48-50; [None] is the index-out-of-range panic. *)
Definition conns_at (v : vertex) (level : nat) : option (list N) :=
  nth_error (v_conns v) level.

(** vertex.go:52-57: pad the connection lists up to [level]. *)
Definition upgrade_level (v : vertex) (level : nat) : vertex :=
  set_level
    (set_conns v (firstn (S level) (v_conns v) ++ repeat [] (S level - length (v_conns v))))
    level.

(** vertex.go:59-80: both branches leave exactly [cs] at [level]. *)
Definition set_conns_at (v : vertex) (level : nat) (cs : list N) : res vertex :=
  if Nat.ltb level (length (v_conns v))
  then Ok (set_conns v (upd (v_conns v) level cs)) else Panic.

(** vertex.go:82-117: append one link; the reallocation logic only changes the
    capacity. *)
Definition append_conn_at (v : vertex) (level : nat) (c : N) : res vertex :=
  match nth_error (v_conns v) level with
  | None => Panic
  | Some cs => Ok (set_conns v (upd (v_conns v) level (cs ++ [c])))
  end.

(** vertex.go:119-121 *)
Definition reset_conns_at (v : vertex) (level : nat) : res vertex :=
  if Nat.ltb level (length (v_conns v))
  then Ok (set_conns v (upd (v_conns v) level [])) else Panic.

(** In-memory state of one index plus its key-value table (fields of the hnsw
    struct, index.go:38-160, that the modelled functions use).
    [h_cache]: indexCache; [h_kv]: node entries of the KV table;
    [h_kv_ep], [h_kv_count]: the entries under the keys "entrypoint" and
    "count"; [h_once]: whether initialInsertOnce has fired. *)
Record hnsw := mkH {
  h_cache : nmap vertex;
  h_kv : nmap vertex;
  h_kv_ep : option N;
  h_kv_count : option N;
  h_ep : N;
  h_maxl : nat;
  h_tomb : list N;
  h_once : bool
}.

(** Not in the code: replaces indexCache (index.go:217). *)
Definition with_cache (h : hnsw) (c : nmap vertex) : hnsw :=
  mkH c (h_kv h) (h_kv_ep h) (h_kv_count h) (h_ep h) (h_maxl h) (h_tomb h) (h_once h).
(** Assignment to entryPointID and currentMaximumLayer, insert.go:88-89, 197, 305-306. *)
Definition with_ep (h : hnsw) (ep : N) (maxl : nat) : hnsw :=
  mkH (h_cache h) (h_kv h) (h_kv_ep h) (h_kv_count h) ep maxl (h_tomb h) (h_once h).
(** h.initialInsertOnce.Do, insert.go:209-214. *)
Definition with_once (h : hnsw) : hnsw :=
  mkH (h_cache h) (h_kv h) (h_kv_ep h) (h_kv_count h) (h_ep h) (h_maxl h) (h_tomb h) true.
(** delete.go:586-597. *)
Definition with_tomb (h : hnsw) (t : list N) : hnsw :=
  mkH (h_cache h) (h_kv h) (h_kv_ep h) (h_kv_count h) (h_ep h) (h_maxl h) t (h_once h).

(** index.go:594-623 (see the header for the omitted cache fill). *)
Definition node_by_id (h : hnsw) (id : N) : option vertex :=
  match mget id (h_cache h) with
  | Some v => Some v
  | None => mget id (h_kv h)
  end.

(** [indexCache.Add(node.Id, node)] (insert.go:104,271; neighbor_connections.go:68,160,209). *)
Definition put_node (h : hnsw) (v : vertex) : hnsw :=
  with_cache h (mset (v_id v) v (h_cache h)).

(** index.go:579-592: the table has no entry at all (nodes, entrypoint, count);
    the error case of IsEmpty is not modelled. *)
Definition is_empty (h : hnsw) : bool :=
  match h_kv h, h_kv_ep h, h_kv_count h with
  | [], None, None => true
  | _, _, _ => false
  end.

(** delete.go:579-587 *)
Definition has_tombstone (h : hnsw) (id : N) : bool := memN id (h_tomb h).

(** Ids present in the store; only used to bound loops. *)
Definition stored_ids (h : hnsw) : list N := mkeys (h_cache h) ++ mkeys (h_kv h).

(** Distance provider (distancer/provider.go): [p_single a b] is
    SingleDist(a, b), [p_query q b] is New(q).Distance(b); [None] is the
    length-mismatch error.  [p_normalize] is what Add and the search entry
    points apply to incoming vectors (distancer.Normalize for "cosine-dot",
    insert.go:70-74, search_with_max_dist.go:25-29; identity otherwise). *)
Record provider := mkProv {
  p_single : vec -> vec -> option f32;
  p_query : vec -> vec -> option f32;
  p_normalize : vec -> vec
}.

(** Everything outside the index that a search depends on: the provider, the
    length of the visited list that the pool hands out, and the order in which
    the neighbour-distance goroutines finish (level, iteration, successful
    results in spawn order -> completion order).
    Not in the code: what a search depends on, index.go:38-160, search.go:164-325. *)
Record env := mkEnv {
  e_prov : provider;
  e_vcap : N;
  e_sched : nat -> nat -> list item -> list item
}.
