(** Model of the vector cache (pkg/hnsw/vector_cache.go) and of the document
    cache behind it (pkg/document/document.go:92, 161-167, 303-309, 381-424).

    The locks of vector_cache.go make single slot accesses atomic; a lookup that
    misses is three separate steps (read the slot, ask the vector source, write
    the slot), which other goroutines can interleave.  A step carries the number
    of its goroutine.

    Simplifications.
    - [prefetch] only computes an address; of it only the index check is kept.
    - The slots are a finite map; [vc_size] is the length of the slice.
    - dims, metrics and the log are left out. *)
From Verif Require Import Base.

Section VCache.
  Variable V : Type.
  Variable norm : V -> V.     (* distancer.Normalize if normalizeOnRead, else identity *)

  (** vector_cache.go:25-41; [vc_pend]: per goroutine the id and vector that a
      missed lookup is about to store (lines 110-116). *)
  Record vcache := mkVC {
    vc_slots : nmap V;
    vc_size : N;
    vc_count : Z;
    vc_max : Z;
    vc_pend : nmap (N * V)
  }.

  (** Not in the code: assignment to cache and count, vector_cache.go:27-41. *)
  Definition with_slots (c : vcache) (s : nmap V) (n : Z) : vcache :=
    mkVC s (vc_size c) n (vc_max c) (vc_pend c).

  (** vector_cache.go:47-68; maintainance.go:21 *)
  Definition initial_size : N := 25000.
  Definition new_vcache (maxsize : Z) : vcache := mkVC [] initial_size 0 maxsize [].

  (** Steps.  [VRead t id]: lines 76-82 and 127-129; [VFetch t id src]: lines
      101-112 with the answer of the source; [VStore t]: lines 114-119;
      [VPreload]: 158-168; [VDelete]: 88-98; [VPrefetch]: 150-155; [VGrow]:
      171-186; [VClear]: deleteAllVectors, 205-216; [VTick]: one tick of the
      watcher, 218-239; [VMax]: 261-263. *)
  Inductive vop :=
  | VRead (t id : N)
  | VFetch (t id : N) (src : res V)
  | VStore (t : N)
  | VPreload (id : N) (v : V)
  | VDelete (id : N)
  | VPrefetch (id : N)
  | VGrow (id : N)
  | VClear
  | VTick
  | VMax (m : Z).

  (** What the caller sees: [None] if the step answers nothing. vector_cache.go:70-239. *)
  Definition vstep (c : vcache) (o : vop) : vcache * option (res V) :=
    match o with
    | VRead t id =>
        if negb (N.ltb id (vc_size c)) then (c, Some Panic)
        else (c, match mget id (vc_slots c) with Some v => Some (Ok v) | None => None end)
    | VFetch t id src =>
        match src with
        | Ok v => (mkVC (vc_slots c) (vc_size c) (vc_count c) (vc_max c) (mset t (id, norm v) (vc_pend c)), None)
        | Err e => (c, Some (Err e))
        | Panic => (c, Some Panic)
        | OutOfFuel => (c, Some OutOfFuel)
        end
    | VStore t =>
        match mget t (vc_pend c) with
        | None => (c, None)
        | Some (id, v) =>
            let c1 := mkVC (vc_slots c) (vc_size c) (vc_count c + 1) (vc_max c) (mdel t (vc_pend c)) in
            if negb (N.ltb id (vc_size c)) then (c1, Some Panic)
            else (with_slots c1 (mset id v (vc_slots c)) (vc_count c1), Some (Ok v))
        end
    | VPreload id v =>
        if negb (N.ltb id (vc_size c)) then (with_slots c (vc_slots c) (vc_count c + 1), Some Panic)
        else (with_slots c (mset id v (vc_slots c)) (vc_count c + 1), None)
    | VDelete id =>
        match mget id (vc_slots c) with
        | None => (c, None)
        | Some _ =>
            if negb (N.ltb id (vc_size c)) then (c, None)
            else (with_slots c (mdel id (vc_slots c)) (vc_count c - 1), None)
        end
    | VPrefetch id => (c, if N.ltb id (vc_size c) then None else Some Panic)
    | VGrow id =>
        if N.ltb id (vc_size c) then (c, None)
        else (mkVC (vc_slots c) (id + 25000) (Z.of_N (id + 25000)) (vc_max c) (vc_pend c), None)
    | VClear => (with_slots c [] 0, None)
    | VTick => if (vc_max c <=? vc_count c)%Z then (with_slots c [] 0, None) else (c, None)
    | VMax m => (mkVC (vc_slots c) (vc_size c) (vc_count c) m (vc_pend c), None)
    end.

  (** Not in the code: steps one after the other. *)
  Fixpoint vrun (c : vcache) (ops : list vop) : vcache :=
    match ops with
    | [] => c
    | o :: ops' => vrun (fst (vstep c o)) ops'
    end.

  (** One lookup without interference (vector_cache.go:75-85, 100-120). *)
  Definition vget (c : vcache) (id : N) (src : res V) : vcache * res V :=
    match vstep c (VRead 0 id) with
    | (c1, Some r) => (c1, r)
    | (c1, None) =>
        match vstep c1 (VFetch 0 id src) with
        | (c2, Some r) => (c2, r)
        | (c2, None) =>
            match vstep c2 (VStore 0) with
            | (c3, Some r) => (c3, r)
            | (c3, None) => (c3, Err EOther)
            end
        end
    end.

  (** vector_cache.go:122-141: the answers in order; a panic ends the call. *)
  Fixpoint vmulti (c : vcache) (src : N -> res V) (ids : list N) : vcache * option (list (res V)) :=
    match ids with
    | [] => (c, Some [])
    | id :: ids' =>
        match vget c id (src id) with
        | (c1, Panic) => (c1, None)
        | (c1, OutOfFuel) => (c1, None)
        | (c1, r) => match vmulti c1 src ids' with
                     | (c2, Some rs) => (c2, Some (r :: rs))
                     | (c2, None) => (c2, None)
                     end
        end
    end.

  (* ---------------------------------------------------------------- *)
  (** The vector source of the client: the document cache, lru.New(1000)
      (document.go:92), keyed by collection and id (see [cache_key]); most recent
      entry first.  Only this collection's entries are kept here, so that other
      collections can only shorten the list. *)
  Definition dcache := nmap V.
  (** document.go:381, 391, 424 *)
  Definition dc_add (cap : nat) (id : N) (v : V) (d : dcache) : dcache := firstn cap (mset id v d).
  (** document.go:161-167: the vectorForID closure. *)
  Definition dc_get (id : N) (d : dcache) : dcache * res V :=
    match mget id d with
    | Some v => (mset id v d, Ok v)
    | None => (d, Err EVectorSource)
    end.
End VCache.
Arguments VRead {V} t id.
Arguments VFetch {V} t id src.
Arguments VStore {V} t.
Arguments VPreload {V} id v.
Arguments VDelete {V} id.
Arguments VPrefetch {V} id.
Arguments VGrow {V} id.
Arguments VClear {V}.
Arguments VTick {V}.
Arguments VMax {V} m.
Arguments mkVC {V} vc_slots vc_size vc_count vc_max vc_pend.
Arguments vc_slots {V} v.
Arguments vc_size {V} v.
Arguments vc_count {V} v.
Arguments vc_max {V} v.
Arguments vc_pend {V} v.
Arguments new_vcache {V} maxsize.
Arguments vstep {V} norm c o.
Arguments vrun {V} norm c ops.
Arguments vget {V} norm c id src.
Arguments vmulti {V} norm c src ids.
Arguments dc_add {V} cap id v d.
Arguments dc_get {V} id d.
