(** Model of insertion: pkg/hnsw/heuristic.go, neighbor_connections.go,
    insert.go (Add, insert, insertInitialElement), findBestEntrypointForNode
    (index.go:391-428) and findNewLocalEntrypoint (delete.go:505-559).

    Simplifications.
    - One insertion runs to completion before the next starts (locking and
      concurrent insertions are not modelled here).
    - The commit log is the no-op logger the client installs
      (document.go:311, commit_logger_noop.go), so no log call fails.
    - The vector source ([h.vectorForID]/[h.multiVectorForID], i.e. the vector
      cache over the client's document cache) is an arbitrary oracle, possibly
      failing and possibly giving different answers at different times.  Its
      errors are never [storobj.ErrNotFound]: the client's thunk returns an
      untyped error (document.go:303-308).
    - The random layer ([-log(rand) * levelNormalizer], insert.go:232) is an
      argument; the probability-2^-53 case [rand = 0] is left out.
    - A node's connection slices and the cached vertex are one object in Go
      (pointers); here every in-place change is a [put_node].
    - Product quantisation ([h.compressed]) and metrics are left out. *)
From Verif Require Import Base F32 PQ Graph Search.

(** Parameters and oracles of one insertion.  [i_vs level owner id]: the answer
    of the vector source for [id] while the links of [owner] on [level] are
    being selected.  [i_vcsize]: slots of the vector cache (maintainance.go:21,
    vector_cache.go:52); [i_M]: maximumConnections; [i_efc]: efConstruction
    (document.go:318-321: 30 and 60). *)
Record ienv := mkI {
  i_env : env;
  i_vs : nat -> N -> N -> res vec;
  i_vcsize : N;
  i_M : nat;
  i_efc : Z
}.

(** neighbor_connections.go:238-244, index.go:243-246 *)
Definition max_conns (I : ienv) (level : nat) : nat :=
  match level with O => 2 * i_M I | S _ => i_M I end.

(** vector_cache.go:118-137 (multiGet): one answer per id; an error is kept per
    id, an out-of-range id panics. *)
Fixpoint fetch (get : N -> res vec) (ids : list N) : res (list (option vec)) :=
  match ids with
  | [] => Ok []
  | id :: ids' =>
      match get id with
      | Ok v => do! vs <- fetch get ids'; Ok (Some v :: vs)
      | Err _ => do! vs <- fetch get ids'; Ok (None :: vs)
      | Panic => Panic
      | OutOfFuel => OutOfFuel
      end
  end.

(** heuristic.go:36-42: items with their position. *)
Fixpoint with_index (i : nat) (l : list item) : list itemx :=
  match l with
  | [] => []
  | x :: l' => mkItemx (it_id x) i (it_dist x) :: with_index (S i) l'
  end.

(** heuristic.go:105-114: no selected item is closer to the current vector than
    the query is.  A failing SingleDist counts as distance 0. *)
Definition heur_good (P : provider) (vecs : list (option vec)) (cv : vec) (dq : f32)
           (ret : list itemx) : bool :=
  forallb (fun x =>
    let peer := match nth_error vecs (ix_index x) with
                | Some (Some v) => match p_single P cv v with Some d => d | None => f32_zero end
                | _ => f32_zero
                end in
    negb (flt peer dq)) ret.

(** heuristic.go:84-120; [l] is the pop order of closestFirst, which is only
    popped inside the loop. *)
Fixpoint heur_loop (P : provider) (deny : N -> bool) (vecs : list (option vec)) (max : nat)
         (l ret : list itemx) : res (list itemx) :=
  match l with
  | [] => Ok ret
  | c :: l' =>
      if Nat.leb max (length ret) then Ok ret
      else if deny (ix_id c) then heur_loop P deny vecs max l' ret
      else match nth_error vecs (ix_index c) with
           | Some (Some cv) =>
               heur_loop P deny vecs max l'
                 (if heur_good P vecs cv (ix_dist c) ret then ret ++ [c] else ret)
           | Some None => Err EVectorSource
           | None => Panic
           end
  end.

(** heuristic.go:23-135; [input] is a max queue in all callers. *)
Definition heuristic (P : provider) (get : N -> res vec) (deny : N -> bool)
           (input : list item) (max : nat) : res (list item) :=
  if Nat.ltb (length input) max then Ok input
  else
    let popped := pq_drain less_max input in
    do! vecs <- fetch get (map it_id popped);
    let closest := fold_left (fun q x => pq_insert less_minx x q) (with_index 0 popped) [] in
    do! ret <- heur_loop P deny vecs max (pq_drain less_minx closest) [];
    Ok (fold_left (fun q x => pq_insert less_max (mkItem (ix_id x) (ix_dist x)) q) ret []).

(** index.go:437-510 (uncompressed branch). *)
Definition dist_nodes (P : provider) (get : N -> res vec) (a b : N) : res f32 :=
  do! va <- get a;
  match va with
  | [] => Err EEmptyVector
  | _ =>
      do! vb <- get b;
      match vb with
      | [] => Err EEmptyVector
      | _ => match p_single P va vb with
             | Some d => Ok d
             | None => Err EDimMismatch
             end
      end
  end.

(** delete.go:522-555, the scan of one layer for an id below [n]. *)
Fixpoint scan_layer (h : hnsw) (deny : list N) (l : nat) (i : N) (n : nat) : option N :=
  match n with
  | O => None
  | S n' =>
      if memN i deny then scan_layer h deny l (i + 1) n'
      else match node_by_id h i with
           | Some v => if Nat.eqb (v_level v) l then Some i
                       else scan_layer h deny l (i + 1) n'
           | None => scan_layer h deny l (i + 1) n'
           end
  end.

(** delete.go:522-556 *)
Fixpoint scan_layers (h : hnsw) (deny : list N) (l : nat) (n : nat) : N :=
  match scan_layer h deny l 0 n with
  | Some i => i
  | None => match l with O => 0%N | S l' => scan_layers h deny l' n end
  end.

(** Entries of the key-value table (KVCount, delete.go:517-521): nodes,
    "entrypoint" and "count". *)
Definition kv_count (h : hnsw) : nat :=
  length (h_kv h) + (match h_kv_ep h with Some _ => 1 | None => 0 end)
  + (match h_kv_count h with Some _ => 1 | None => 0 end).

(** delete.go:505-559; a failing KVCount panics and is not modelled. *)
Definition new_local_ep (h : hnsw) (deny : list N) (old : N) : N :=
  if negb (N.eqb (h_ep h) old) then h_ep h
  else scan_layers h deny (h_maxl h) (Nat.max (kv_count h) (length (h_cache h))).

(** neighbor_connections.go:246-316 (pickEntrypoint with tryEpCandidate).  A
    candidate fails only if the node is missing; after three failures the loop
    repeats itself until the 60 s timeout. *)
Fixpoint pick_ep (P : provider) (h : hnsw) (q : vec) (fuel : nat) (deny : list N) (cand : N)
  : res (N * f32) :=
  match fuel with
  | O => Err ETimeout
  | S f =>
      match node_by_id h cand with
      | None => let deny' := cand :: deny in
                pick_ep P h q f deny' (new_local_ep h deny' cand)
      | Some _ => do! d <- dist_node_vec P h cand q; Ok (cand, d)
      end
  end.

Section Insert.
  Variable I : ienv.
  Let E := i_env I.
  Let P := e_prov E.

  (** neighbor_connections.go:173-187: queue the existing links. *)
  Fixpoint cand_dists (get : N -> res vec) (nb : N) (conns : list N) (q : list item)
    : res (list item) :=
    match conns with
    | [] => Ok q
    | c :: conns' =>
        do! d <- dist_nodes P get c nb;
        cand_dists get nb conns' (pq_insert less_max (mkItem c d) q)
    end.

  (** neighbor_connections.go:162-195: links of [nb] after selecting among its
      links [cs] and the new node. *)
  Definition reselect (nid nb : N) (level : nat) (cs : list N) : res (list N) :=
    let get := i_vs I level nb in
    do! d <- dist_nodes P get nid nb;
    do! q <- cand_dists get nb cs (pq_insert less_max (mkItem nid d) []);
    do! q' <- heuristic P get (fun _ => false) q (max_conns I level);
    Ok (map it_id (pq_drain less_max q')).

  (** neighbor_connections.go:138-236 (connectNeighborAtLevel, skipNeighbor).
      The pointer comparison [neighbor == n.node] is a comparison of ids. *)
  Definition connect_neighbor (h : hnsw) (nid : N) (level : nat) (nb : N) : hnsw * res unit :=
    match node_by_id h nb with
    | None => (h, Ok tt)
    | Some v =>
        if N.eqb nb nid then (h, Ok tt)
        else if has_tombstone h (v_id v) then (h, Ok tt)
        else
          let v1 := set_committed v false in
          let v2 := if Nat.ltb (v_level v1) level then upgrade_level v1 level else v1 in
          let h1 := put_node h v2 in
          match conns_at v2 level with
          | None => (h1, Panic)
          | Some cs =>
              if Nat.ltb (length cs) (max_conns I level) then
                match append_conn_at v2 level nid with
                | Ok v3 => (put_node h1 v3, Ok tt)
                | Err e => (h1, Err e)
                | Panic => (h1, Panic)
                | OutOfFuel => (h1, OutOfFuel)
                end
              else
                match reselect nid nb level cs with
                | Ok cs' => (put_node h1 (set_conns v2 (upd (v_conns v2) level cs')), Ok tt)
                | Err e => (h1, Err e)
                | Panic => (h1, Panic)
                | OutOfFuel => (h1, OutOfFuel)
                end
          end
    end.

  (** neighbor_connections.go:117-121 *)
  Fixpoint connect_all (h : hnsw) (nid : N) (level : nat) (nbs : list N) : hnsw * res unit :=
    match nbs with
    | [] => (h, Ok tt)
    | nb :: nbs' =>
        match connect_neighbor h nid level nb with
        | (h', Ok _) => connect_all h' nid level nbs'
        | r => r
        end
    end.

  (** neighbor_connections.go:78-100: entry point, layer search and selection.
      Gives the entry point used and the chosen neighbours in pop order
      (farthest first). *)
  Definition choose_neighbours (h : hnsw) (nid : N) (q : vec) (level : nat) (ep : N)
    : res (N * list N) :=
    do! e <- pick_ep P h q 4 [] ep;
    do! r <- search_layer E h q (i_efc I) level None
               (pq_insert less_min (mkItem (fst e) (snd e)) []);
    do! r' <- heuristic P (i_vs I level nid) (fun _ => false) r (i_M I);
    Ok (fst e, map it_id (pq_drain less_max r')).

  (** neighbor_connections.go:123-132: entry point for the next layer. *)
  Definition next_ep (nid ep : N) (nbs : list N) : N :=
    match nbs with
    | [] => ep
    | n :: _ => let nx := last nbs n in if N.eqb nx nid then ep else nx
    end.

  (** neighbor_connections.go:73-136 *)
  Definition do_at_level (h : hnsw) (nid : N) (q : vec) (level : nat) (ep : N)
    : hnsw * res N :=
    match choose_neighbours h nid q level ep with
    | Ok (ep', nbs) =>
        match node_by_id h nid with
        | None => (h, Panic)
        | Some v =>
            match set_conns_at v level nbs with
            | Ok v' =>
                match connect_all (put_node h v') nid level nbs with
                | (h', Ok _) => (h', Ok (next_ep nid ep' nbs))
                | (h', Err e) => (h', Err e)
                | (h', Panic) => (h', Panic)
                | (h', OutOfFuel) => (h', OutOfFuel)
                end
            | _ => (h, Panic)
            end
        end
    | Err e => (h, Err e)
    | Panic => (h, Panic)
    | OutOfFuel => (h, OutOfFuel)
    end.

  (** neighbor_connections.go:60-71; [l] is the current level, going down. *)
  Fixpoint connect_levels (h : hnsw) (nid : N) (q : vec) (l : nat) (ep : N) : hnsw * res unit :=
    match do_at_level h nid q l ep with
    | (h', Ok ep') =>
        match l with
        | O => (h', Ok tt)
        | S l' => connect_levels h' nid q l' ep'
        end
    | (h', Err e) => (h', Err e)
    | (h', Panic) => (h', Panic)
    | (h', OutOfFuel) => (h', OutOfFuel)
    end.

  (** index.go:391-428; [n] layers above the target, starting at layer
      [target + n]. *)
  Fixpoint best_entrypoint (h : hnsw) (q : vec) (target n : nat) (ep : N) : res N :=
    match n with
    | O => Ok ep
    | S n' =>
        do! d <- dist_node_vec P h ep q;
        do! r <- search_layer E h q 1 (target + n) None (pq_insert less_min (mkItem ep d) []);
        match pq_pop less_max r with
        | None => best_entrypoint h q target n' ep
        | Some (x, _) =>
            match node_by_id h (it_id x) with
            | Some v => best_entrypoint h q target n' (if v_maint v then ep else it_id x)
            | None => best_entrypoint h q target n' ep
            end
        end
    end.

  (** insert.go:219-271: the fresh vertex, under maintenance. *)
  Definition new_vertex (id : N) (q : vec) (target : nat) : vertex :=
    mkV id target (repeat [] (S target)) true q false.

  (** insert.go:81-116; the vector cache write (line 111) comes after the node
      is cached. *)
  Definition insert_initial (h : hnsw) (id : N) (q : vec) : hnsw * res unit :=
    let h' := put_node (with_ep h id 0) (mkV id 0 [[]] false q false) in
    if N.ltb id (i_vcsize I) then (h', Ok tt) else (h', Panic).

  (** insert.go:289-311: leave maintenance, raise the entry point. *)
  Definition finish_insert (h : hnsw) (id : N) (target : nat) : hnsw :=
    let h1 := match node_by_id h id with
              | Some v => put_node h (set_maint v false)
              | None => h
              end in
    if Nat.ltb (h_maxl h1) target then with_ep h1 id target else h1.

  (** insert.go:221-311, the part after the initial-insert check. *)
  Definition insert_linked (h : hnsw) (id : N) (q : vec) (target : nat) : hnsw * res unit :=
    if negb (N.ltb id (i_vcsize I)) then (h, Panic)
    else
      let h1 := put_node h (new_vertex id q target) in
      match best_entrypoint h1 q target (h_maxl h - target) (h_ep h) with
      | Ok ep =>
          match connect_levels h1 id q (Nat.min target (h_maxl h)) ep with
          | (h2, Ok _) => (finish_insert h2 id target, Ok tt)
          | r => r
          end
      | Err e => (h1, Err e)
      | Panic => (h1, Panic)
      | OutOfFuel => (h1, OutOfFuel)
      end.

  (** insert.go:201-311 *)
  Definition insert (h : hnsw) (id : N) (q : vec) (target : nat) : hnsw * res unit :=
    let h1 := with_once h in
    if negb (h_once h) && is_empty h then insert_initial h1 id q
    else insert_linked h1 id q target.

  (** insert.go:57-79 *)
  Definition add (h : hnsw) (id : N) (q0 : vec) (target : nat) : hnsw * res unit :=
    match q0 with
    | [] => (h, Err EEmptyVector)
    | _ => insert h id (p_normalize P q0) target
    end.
End Insert.
