(** Model of the bounded node cache: lru.New(10000) (index.go:217), nodeByID
    (index.go:594-623), the Add calls of insertion (insert.go:104,271,
    neighbor_connections.go:68,160,209) and Flush (insert.go:118-141).

    The cache itself is a dependency (hashicorp/golang-lru); its contract is:
    Get and Add make a key the most recent one, Add drops the least recent key
    when the capacity is exceeded, Keys lists the keys oldest first.

    Simplifications.
    - A vertex is an opaque value; a mutation of a cached vertex through its
      pointer is a [Put] (the code calls Add after it).
    - All puts of a write-back succeed (Persist.v has the failing ones). *)
From Verif Require Import Base Graph.

Section LRU.
  Variable V : Type.
  Variable cap : nat.

  (** Most recent first; the flag is vertex.Committed. *)
  Local Notation centry := (N * (V * bool))%type.
  (** index.go:217 (golang-lru) and the table of index.go:610. *)
  Record lstore := mkL { l_cache : list centry; l_kv : nmap V }.

  (** index.go:217. *)
  Definition lempty : lstore := mkL [] [].

  (** golang-lru Add. Library, called at index.go:620, insert.go:271. *)
  Definition lru_add (k : N) (x : V * bool) (c : list centry) : list centry :=
    firstn cap ((k, x) :: mdel k c).
  (** golang-lru Get: moves the key to the front. Library, called at index.go:600. *)
  Definition lru_get (k : N) (c : list centry) : option (V * bool) * list centry :=
    match mget k c with
    | Some x => (Some x, (k, x) :: mdel k c)
    | None => (None, c)
    end.

  (** index.go:594-623; a loaded vertex has Committed unset. *)
  Definition node_get (s : lstore) (k : N) : lstore * option V :=
    match lru_get k (l_cache s) with
    | (Some (v, _), c) => (mkL c (l_kv s), Some v)
    | (None, _) =>
        match mget k (l_kv s) with
        | Some v => (mkL (lru_add k (v, false) (l_cache s)) (l_kv s), Some v)
        | None => (s, None)
        end
    end.

  (** insert.go:271 and the other Add calls. *)
  Definition node_set (s : lstore) (k : N) (v : V) : lstore :=
    mkL (lru_add k (v, false) (l_cache s)) (l_kv s).

  (** insert.go:121-139: one key of the write-back. *)
  Definition flush_key (s : lstore) (k : N) : lstore :=
    match lru_get k (l_cache s) with
    | (None, _) => s
    | (Some (v, true), c) => mkL c (l_kv s)
    | (Some (v, false), c) => mkL (lru_add k (v, true) c) (mset k v (l_kv s))
    end.
  (** insert.go:118-141 *)
  Definition lflush (s : lstore) : lstore :=
    fold_left flush_key (rev (map fst (l_cache s))) s.

  (** index.go:594, insert.go:271, 118. *)
  Inductive lop := LGet (k : N) | LPut (k : N) (v : V) | LFlush.

  (** index.go:594-623, insert.go:118-164, 104, 271. *)
  Definition lstep (s : lstore) (o : lop) : lstore * option (option V) :=
    match o with
    | LGet k => let (s', r) := node_get s k in (s', Some r)
    | LPut k v => (node_set s k v, None)
    | LFlush => (lflush s, None)
    end.

  (** Not in the code: calls one after the other. *)
  Fixpoint lrun (s : lstore) (ops : list lop) : lstore * list (option V) :=
    match ops with
    | [] => (s, [])
    | o :: ops' =>
        let (s1, r) := lstep s o in
        let (s2, rs) := lrun s1 ops' in
        (s2, match r with Some x => x :: rs | None => rs end)
    end.

  (** A new process: only the table is left. index.go:213-290. *)
  Definition lrestart (s : lstore) : lstore := mkL [] (l_kv s).
End LRU.
Arguments LGet {V} k.
Arguments LPut {V} k v.
Arguments LFlush {V}.
Arguments lempty {V}.
Arguments l_cache {V} l.
Arguments l_kv {V} l.
Arguments mkL {V} l_cache l_kv.
Arguments lrun {V} cap s ops.
Arguments lstep {V} cap s o.
Arguments lflush {V} cap s.
Arguments flush_key {V} cap s k.
Arguments node_get {V} cap s k.
Arguments node_set {V} cap s k v.
Arguments lru_add {V} cap k x c.
Arguments lru_get {V} k c.
Arguments lrestart {V} s.

(** index.go:217 *)
Definition node_cache_size : N := 10000.
