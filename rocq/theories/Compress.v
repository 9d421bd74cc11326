(** Model of the compressed vectors: Compress (pkg/hnsw/compress.go:40-110), the
    cache of the codes (pkg/hnsw/compressed_vector_cache.go), the insertion of
    further vectors (insert.go:106-109, 263-266), their removal (delete.go:614-615)
    and the preloading at start-up (startup.go:174-181).

    Simplifications.
    - The product quantizer (another library) is an arbitrary function [encode] of
      the vectors it was fitted to and of the vector.
    - A code is an arbitrary value; the checks for empty codes are left out.
    - The slots are a finite map; [cc_size] is the length of the slice.
    - The sharded locks make slot accesses atomic; the goroutines of
      ssdhelpers.Concurrently are one arbitrary order of their tasks.
    - dims, metrics and the log are left out; initCompressedStore, the quantizer's
      construction and AddPQ either work or fail. *)
From Verif Require Import Base VCache.

Section Compress.
  Variables V C : Type.
  Variable norm : V -> V.               (* as in VCache.v *)
  Variable encode : list V -> V -> C.   (* h.pq.Fit(data), then h.pq.Encode(v) *)

  (** compressed_vector_cache.go:25-40 *)
  Record ccache := mkCC { cc_slots : nmap C; cc_size : N; cc_count : Z; cc_max : Z }.
  (** compressed_vector_cache.go:42-58; maintainance.go:21 *)
  Definition new_ccache (maxsize : Z) : ccache := mkCC [] initial_size 0 maxsize.

  (** compressed_vector_cache.go:61-71, 92-94: an absent code is an error. *)
  Definition cget (c : ccache) (id : N) : res C :=
    if negb (N.ltb id (cc_size c)) then Panic
    else match mget id (cc_slots c) with Some b => Ok b | None => Err EOther end.
  (** compressed_vector_cache.go:127-136 *)
  Definition cpreload (id : N) (b : C) (c : ccache) : ccache * res unit :=
    if negb (N.ltb id (cc_size c)) then (mkCC (cc_slots c) (cc_size c) (cc_count c + 1) (cc_max c), Panic)
    else (mkCC (mset id b (cc_slots c)) (cc_size c) (cc_count c + 1) (cc_max c), Ok tt).
  (** compressed_vector_cache.go:79-89 *)
  Definition cdelete (id : N) (c : ccache) : ccache :=
    match mget id (cc_slots c) with
    | None => c
    | Some _ => if N.ltb id (cc_size c) then mkCC (mdel id (cc_slots c)) (cc_size c) (cc_count c - 1) (cc_max c) else c
    end.
  (** compressed_vector_cache.go:139-155: the count becomes the new length. *)
  Definition cgrow (node : N) (c : ccache) : ccache :=
    if N.ltb node (cc_size c) then c
    else mkCC (cc_slots c) (node + 25000) (Z.of_N (node + 25000)) (cc_max c).
  (** compressed_vector_cache.go:200-214: one tick of the watcher. *)
  Definition ctick (c : ccache) : ccache :=
    if (cc_max c <=? cc_count c)%Z then mkCC [] (cc_size c) 0 (cc_max c) else c.
  (** compressed_vector_cache.go:236-238 *)
  Definition cmax (m : Z) (c : ccache) : ccache := mkCC (cc_slots c) (cc_size c) (cc_count c) m.

  (** index.go:151-154: [cs_data]: the vectors the quantizer was fitted to. *)
  Record cstate := mkCS {
    cs_on : bool;
    cs_data : list V;
    cs_cache : ccache;
    cs_store : nmap C;
    cs_vecs : vcache V
  }.

  (** The ids below [n] in order. The range of compress.go:84-91. *)
  Definition ids_below (n : N) : list N :=
    snd (N.iter n (fun x => (N.pred (fst x), N.pred (fst x) :: snd x)) (n, [])).
  (** compress.go:84-91: the vectors of the cache without the empty slots. *)
  Definition clean (c : vcache V) : list V :=
    flat_map (fun id => match mget id (vc_slots c) with Some v => [v] | None => [] end) (ids_below (vc_size c)).

  (** compress.go:98-102, 117-124: one task; a failing put is only logged. *)
  Definition ctask (data : list V) (put_ok : N -> bool) (s : nmap C * ccache) (i : N) : nmap C * ccache * res unit :=
    match nth_error data (N.to_nat i) with
    | None => (s, Panic)
    | Some v =>
        let b := encode data v in
        let st := if put_ok i then mset i b (fst s) else fst s in
        let (c, r) := cpreload i b (snd s) in
        (st, c, r)
    end.
  Fixpoint ctasks (data : list V) (put_ok : N -> bool) (s : nmap C * ccache) (is : list N) : nmap C * ccache * res unit :=
    match is with
    | [] => (s, Ok tt)
    | i :: is' =>
        match ctask data put_ok s i with
        | (s', Ok tt) => ctasks data put_ok s' is'
        | (s', r) => (s', r)
        end
    end.

  (** What the outside answers: the node table has entries; the bucket opens; the
      table's entry for key "0"; the vector source for that id; the quantizer can
      be built; puts into the bucket; AddPQ.  [co_tasks]: order of the tasks.
      compress.go:40-110. *)
  Record corc := mkCO {
    co_empty : bool;
    co_init : bool;
    co_node0 : option N;
    co_source : res V;
    co_pq : bool;
    co_put : N -> bool;
    co_addpq : bool;
    co_tasks : list N
  }.

  (** compress.go:40-110.  [indexCache.Get(0)] never hits: the keys are uint64
      and 0 is an int (compress.go:52), so the vertex comes from the table. *)
  Definition compress (o : corc) (s : cstate) : cstate * res unit :=
    if co_empty o then (s, Err EOther)
    else if negb (co_init o) then (s, Err EStore)
    else
      match co_node0 o with
      | None => (s, Err EStore)
      | Some id0 =>
          match vget norm (cs_vecs s) id0 (co_source o) with
          | (vc, Ok _) =>
              let s1 := mkCS (cs_on s) (cs_data s) (cs_cache s) (cs_store s) vc in
              if negb (co_pq o) then (s1, Err EOther)
              else
                let data := clean vc in
                match ctasks data (co_put o) (cs_store s, cgrow (vc_size vc) (cs_cache s)) (co_tasks o) with
                | (st, c, Ok tt) =>
                    let s2 := mkCS (cs_on s) data c st vc in
                    if co_addpq o then (mkCS true data c st (fst (vstep norm vc VClear)), Ok tt)
                    else (s2, Err EOther)
                | (st, c, r) => (mkCS (cs_on s) data c st vc, r)
                end
          | (vc, Err _) => (mkCS (cs_on s) (cs_data s) (cs_cache s) (cs_store s) vc, Err EVectorSource)
          | (vc, _) => (mkCS (cs_on s) (cs_data s) (cs_cache s) (cs_store s) vc, Panic)
          end
      end.

  (** The changes after Compress: [CInsert]: insert.go:106-109, 263-266;
      [CRemove]: delete.go:614-615; [CTick]: the watcher; [CMax]:
      config_update.go:94-95. *)
  Inductive cop :=
  | CInsert (id : N) (v : V) (put_ok : bool)
  | CRemove (id : N)
  | CTick
  | CMax (m : Z).
  Definition cstep (s : cstate) (o : cop) : cstate * res unit :=
    match o with
    | CInsert id v put_ok =>
        let b := encode (cs_data s) v in
        let st := if put_ok then mset id b (cs_store s) else cs_store s in
        let (c, r) := cpreload id b (cs_cache s) in
        (mkCS (cs_on s) (cs_data s) c st (cs_vecs s), r)
    | CRemove id => (mkCS (cs_on s) (cs_data s) (cdelete id (cs_cache s)) (cs_store s) (cs_vecs s), Ok tt)
    | CTick => (mkCS (cs_on s) (cs_data s) (ctick (cs_cache s)) (cs_store s) (cs_vecs s), Ok tt)
    | CMax m => (mkCS (cs_on s) (cs_data s) (cmax m (cs_cache s)) (cs_store s) (cs_vecs s), Ok tt)
    end.
  Fixpoint crun (s : cstate) (ops : list cop) : cstate :=
    match ops with
    | [] => s
    | o :: ops' => crun (fst (cstep s o)) ops'
    end.

  (** startup.go:174-181: the bucket in the order of its cursor. *)
  Fixpoint cprefill (l : list (N * C)) (c : ccache) : ccache :=
    match l with
    | [] => c
    | (id, b) :: l' => cprefill l' (fst (cpreload id b (cgrow id c)))
    end.

  (** search.go:402-417, index.go:512-530: what a distance to a stored vector is
      computed from. *)
  Definition code_of (s : cstate) (id : N) : res C := cget (cs_cache s) id.
End Compress.

Arguments mkCC {C} cc_slots cc_size cc_count cc_max.
Arguments cc_slots {C} c.
Arguments cc_size {C} c.
Arguments cc_count {C} c.
Arguments cc_max {C} c.
Arguments new_ccache {C} maxsize.
Arguments cget {C} c id.
Arguments cpreload {C} id b c.
Arguments cdelete {C} id c.
Arguments cgrow {C} node c.
Arguments ctick {C} c.
Arguments cmax {C} m c.
Arguments mkCS {V C} cs_on cs_data cs_cache cs_store cs_vecs.
Arguments cs_on {V C} c.
Arguments cs_data {V C} c.
Arguments cs_cache {V C} c.
Arguments cs_store {V C} c.
Arguments cs_vecs {V C} c.
Arguments clean {V} c.
Arguments ctask {V C} encode data put_ok s i.
Arguments ctasks {V C} encode data put_ok s is.
Arguments mkCO {V} co_empty co_init co_node0 co_source co_pq co_put co_addpq co_tasks.
Arguments co_empty {V} c.
Arguments co_init {V} c.
Arguments co_node0 {V} c.
Arguments co_source {V} c.
Arguments co_pq {V} c.
Arguments co_put {V} c.
Arguments co_addpq {V} c.
Arguments co_tasks {V} c.
Arguments compress {V C} norm encode o s.
Arguments CInsert {V} id v put_ok.
Arguments CRemove {V} id.
Arguments CTick {V}.
Arguments CMax {V} m.
Arguments cstep {V C} encode s o.
Arguments crun {V C} encode s ops.
Arguments cprefill {C} l c.
Arguments code_of {V C} s id.
