(** Deletion and tombstone clean-up: pkg/hnsw/delete.go, and the history of an
    index with them.

    Simplifications.
    - One call runs to completion before the next starts: the locks only appear
      as the ones a failing clean-up never releases.
    - The commit log is the no-op logger, as in [Insert]; metrics and product
      quantisation are left out.
    - [isOnlyNodeUnsecured] (delete.go:568-577) always answers true.  Hence
      deleteEntrypoint (415-440) does nothing, findNewGlobalEntrypoint (443-503)
      is never called, and reassignNeighbor never gets to lines 363-376.
    - The vector source of the client returns no [storobj.ErrNotFound]
      (document.go:303-308), so lines 321-324 are not reached.
    - [Graph] models nodeByID as a lookup without side effect.  Here the copy it
      leaves in the node cache (index.go:620) matters, because clean-up deletes
      the node from the table and not from the cache: [load] is that copy.
      The copies that the searches of a clean-up make come from an oracle.  The
      cache is unbounded, as in [Graph]. *)
From Verif Require Import Base F32 PQ Graph Search Insert InsertHist Persist.

(** index.go:594-623, nodeByID: the side effect on the node cache. *)
Definition load (h : hnsw) (id : N) : hnsw :=
  match mget id (h_cache h) with
  | Some _ => h
  | None => match mget id (h_kv h) with
            | Some v => with_cache h (mset id v (h_cache h))
            | None => h
            end
  end.

(** ** findAndConnectNeighbors with a deny list *)

(** The functions of [Insert] with the deny list that reassignNeighbor passes
    (delete.go:389); an insertion passes an empty one (insert.go:285). *)
Section Deny.
  Variable I : ienv.
  Variable dl : list N.
  Let E := i_env I.
  Let P := e_prov E.

  (** neighbor_connections.go:162-195 *)
  Definition reselect_deny (nid nb : N) (level : nat) (cs : list N) : res (list N) :=
    let get := i_vs I level nb in
    do! d <- dist_nodes P get nid nb;
    do! q <- cand_dists I get nb cs (pq_insert less_max (mkItem nid d) []);
    do! q' <- heuristic P get (fun x => memN x dl) q (max_conns I level);
    Ok (map it_id (pq_drain less_max q')).

  (** neighbor_connections.go:138-236 *)
  Definition connect_neighbor_deny (h : hnsw) (nid : N) (level : nat) (nb : N) : hnsw * res unit :=
    match node_by_id h nb with
    | None => (h, Ok tt)
    | Some v =>
        if N.eqb nb nid then (h, Ok tt)
        else if has_tombstone h (v_id v) then (h, Ok tt)
        else
          let v1 := set_committed v false in
          let v2 := if Nat.ltb (v_level v1) level then upgrade_level v1 level else v1 in
          let h1 := put_node h v2 in
          match conns_at v2 level with
          | None => (h1, Panic)
          | Some cs =>
              if Nat.ltb (length cs) (max_conns I level) then
                match append_conn_at v2 level nid with
                | Ok v3 => (put_node h1 v3, Ok tt)
                | Err e => (h1, Err e)
                | Panic => (h1, Panic)
                | OutOfFuel => (h1, OutOfFuel)
                end
              else
                match reselect_deny nid nb level cs with
                | Ok cs' => (put_node h1 (set_conns v2 (upd (v_conns v2) level cs')), Ok tt)
                | Err e => (h1, Err e)
                | Panic => (h1, Panic)
                | OutOfFuel => (h1, OutOfFuel)
                end
          end
    end.

  (** neighbor_connections.go:117-121 *)
  Fixpoint connect_all_deny (h : hnsw) (nid : N) (level : nat) (nbs : list N) : hnsw * res unit :=
    match nbs with
    | [] => (h, Ok tt)
    | nb :: nbs' =>
        match connect_neighbor_deny h nid level nb with
        | (h', Ok _) => connect_all_deny h' nid level nbs'
        | r => r
        end
    end.

  (** neighbor_connections.go:78-100.  The node itself is in the graph and may be
      among the results. *)
  Definition choose_neighbours_deny (h : hnsw) (nid : N) (q : vec) (level : nat) (ep : N)
    : res (N * list N) :=
    do! e <- pick_ep P h q 4 dl ep;
    do! r <- search_layer E h q (i_efc I) level None
               (pq_insert less_min (mkItem (fst e) (snd e)) []);
    do! r' <- heuristic P (i_vs I level nid) (fun x => memN x dl) r (i_M I);
    Ok (fst e, map it_id (pq_drain less_max r')).

  (** neighbor_connections.go:73-136 *)
  Definition do_at_level_deny (h : hnsw) (nid : N) (q : vec) (level : nat) (ep : N)
    : hnsw * res N :=
    match choose_neighbours_deny h nid q level ep with
    | Ok (ep', nbs) =>
        match node_by_id h nid with
        | None => (h, Panic)
        | Some v =>
            match set_conns_at v level nbs with
            | Ok v' =>
                match connect_all_deny (put_node h v') nid level nbs with
                | (h', Ok _) => (h', Ok (next_ep nid ep' nbs))
                | (h', Err e) => (h', Err e)
                | (h', Panic) => (h', Panic)
                | (h', OutOfFuel) => (h', OutOfFuel)
                end
            | _ => (h, Panic)
            end
        end
    | Err e => (h, Err e)
    | Panic => (h, Panic)
    | OutOfFuel => (h, OutOfFuel)
    end.

  (** neighbor_connections.go:60-71 *)
  Fixpoint connect_levels_deny (h : hnsw) (nid : N) (q : vec) (l : nat) (ep : N)
    : hnsw * res unit :=
    match do_at_level_deny h nid q l ep with
    | (h', Ok ep') =>
        match l with
        | O => (h', Ok tt)
        | S l' => connect_levels_deny h' nid q l' ep'
        end
    | (h', Err e) => (h', Err e)
    | (h', Panic) => (h', Panic)
    | (h', OutOfFuel) => (h', OutOfFuel)
    end.
End Deny.

(** ** Delete *)

(** delete.go:586-598, addTombstone (the no-op log does not fail). *)
Definition add_tombstones (h : hnsw) (ids : list N) : hnsw :=
  with_tomb h (fold_left (fun t id => if memN id t then t else id :: t) ids (h_tomb h)).

(** delete.go:111-124, resetUnsecured: the nodes stay. *)
Definition reset (h : hnsw) : hnsw :=
  mkH (h_cache h) (h_kv h) (h_kv_ep h) (h_kv_count h) 0 0 (h_tomb h) false.

(** delete.go:48-82, one id: the node is loaded; the deletion of the entry point
    resets the index (resetIfOnlyNode, 99-109). *)
Definition delete_one (h : hnsw) (id : N) : hnsw :=
  match node_by_id h id with
  | None => h
  | Some _ => let h := load h id in if N.eqb (h_ep h) id then reset h else h
  end.

(** delete.go:31-85 *)
Definition delete (h : hnsw) (ids : list N) : hnsw :=
  fold_left delete_one ids (add_tombstones h ids).

(** ** Clean-up *)

(** Everything a clean-up depends on besides the index.  [k_env n], [k_vec n]:
    environment and vector (delete.go:317) while node [n] is re-linked.
    [k_loads]: nodes its searches copy into the node cache.  [k_break_*]: the
    answers of shouldBreak at delete.go:150, 224, 296 and 609.
    [k_count_fails], [k_delete_fails], [k_empty_fails]: KVCount (273), KVDelete
    (610) and IsEmpty (index.go:587) return an error. *)
Record korc := mkK {
  k_env : N -> ienv;
  k_vec : N -> res vec;
  k_loads : list N;
  k_break_copy : bool;
  k_break_reassign : N -> bool;
  k_break_replace : bool;
  k_break_remove : N -> bool;
  k_count_fails : bool;
  k_delete_fails : N -> bool;
  k_empty_fails : bool
}.

(** helpers.AllowList, a roaring bitmap: iterated in ascending order without
    duplicates (delete.go:157-160, 228, 601). *)
Fixpoint insert_asc (x : N) (l : list N) : list N :=
  match l with
  | [] => [x]
  | y :: l' => if (x <? y)%N then x :: l
               else if (x =? y)%N then l else y :: insert_asc x l'
  end.
Definition delete_list (h : hnsw) : list N := fold_right insert_asc [] (h_tomb h).

(** delete.go:399-409 *)
Definition points_to (conns : list (list N)) (dl : list N) : bool :=
  existsb (existsb (fun c => memN c dl)) conns.

(** delete.go:292-397, reassignNeighbor.  [Ok false]: interrupted. *)
Definition reassign (k : korc) (dl : list N) (h : hnsw) (n : N) : hnsw * res bool :=
  if k_break_reassign k n then (h, Ok false)
  else
    match node_by_id h n with
    | None => (h, Ok true)
    | Some v =>
        let h := load h n in
        let I := k_env k n in
        if memN (v_id v) dl then (h, Ok true)
        else
          match k_vec k n with
          | Ok q =>
              if negb (points_to (v_conns v) dl) then (h, Ok true)
              else
                match best_entrypoint I h q (v_level v) (h_maxl h - v_level v) (h_ep h) with
                | Ok ep =>
                    if N.eqb ep n
                    then (put_node h (set_conns v (repeat [] (S (v_level v)))), Ok true)
                    else
                      let v1 := set_maint (set_conns v (map (fun _ => []) (v_conns v))) true in
                      match connect_levels_deny I dl (put_node h v1) n q
                              (Nat.min (v_level v) (h_maxl h)) ep with
                      | (h2, Ok _) =>
                          (match node_by_id h2 n with
                           | Some v2 => put_node h2 (set_maint v2 false)
                           | None => h2
                           end, Ok true)
                      | (h2, Err e) => (h2, Err e)
                      | (h2, Panic) => (h2, Panic)
                      | (h2, OutOfFuel) => (h2, OutOfFuel)
                      end
                | Err e => (h, Err e)
                | Panic => (h, Panic)
                | OutOfFuel => (h, OutOfFuel)
                end
          | Err e => (h, Err e)
          | Panic => (h, Panic)
          | OutOfFuel => (h, OutOfFuel)
          end
    end.

(** delete.go:281-289: the ids from [n] on, [m] of them. *)
Fixpoint reassign_from (k : korc) (dl : list N) (h : hnsw) (n : N) (m : nat) : hnsw * res bool :=
  match m with
  | O => (h, Ok true)
  | S m =>
      match reassign k dl h n with
      | (h, Ok true) => reassign_from k dl h (n + 1) m
      | r => r
      end
  end.

(** delete.go:271-290: the ids below the number of entries of the table, which
    has two more entries than nodes after a Flush. *)
Definition reassign_all (k : korc) (dl : list N) (h : hnsw) : hnsw * res bool :=
  if k_count_fails k then (h, Err EStore)
  else reassign_from k dl h 0 (kv_count h).

(** delete.go:220-269: deleteEntrypoint changes nothing (see the header); a
    missing node is an error that leaves the read lock held (line 253). *)
Definition replace_ep (k : korc) (dl : list N) (h : hnsw) : res bool :=
  if k_break_replace k then Ok false
  else if memN (h_ep h) dl && match node_by_id h (h_ep h) with None => true | Some _ => false end
  then Err ENodeMissing
  else Ok true.

(** delete.go:604-606 and 608-624 for one id; [false]: KVDelete failed.  The
    vector cache (615-618) is not part of this state. *)
Definition remove_one (k : korc) (h : hnsw) (id : N) : hnsw * bool :=
  let h := with_tomb h (filter (fun x => negb (N.eqb x id)) (h_tomb h)) in
  if k_break_remove k id then (h, true)
  else if k_delete_fails k id then (h, false)
  else (with_kv h (mdel id (h_kv h)) (h_kv_ep h) (h_kv_count h), true).

(** delete.go:600-632 *)
Fixpoint remove_all (k : korc) (h : hnsw) (dl : list N) : hnsw * res unit :=
  match dl with
  | [] => (h, Ok tt)
  | id :: dl =>
      match remove_one k h id with
      | (h, true) => remove_all k h dl
      | (h, false) => (h, Err EStore)
      end
  end.

(** delete.go:87-97 with index.go:586-592: an error counts as empty. *)
Definition reset_if_empty (k : korc) (h : hnsw) : hnsw :=
  if k_empty_fails k || is_empty h then reset h else h.

(** The locks a failing clean-up leaves held: the reset lock (delete.go:612) and
    the read lock of the index (delete.go:253, 257). *)
Record locks := mkLocks { l_reset : bool; l_read : bool }.
Definition no_locks : locks := mkLocks false false.

(** delete.go:176-218: the index, whether anything was done, the locks left. *)
Definition cleanup (k : korc) (h : hnsw) : hnsw * res bool * locks :=
  let dl := delete_list h in
  if k_break_copy k then (h, Ok false, no_locks)
  else
    match dl with
    | [] => (h, Ok false, no_locks)
    | _ :: _ =>
        match reassign_all k dl h with
        | (h1, Ok true) =>
            let h1 := fold_left load (k_loads k) h1 in
            match replace_ep k dl h1 with
            | Ok true =>
                match remove_all k h1 dl with
                | (h2, Ok _) => (reset_if_empty k h2, Ok true, no_locks)
                | (h2, Err e) => (h2, Err e, mkLocks true false)
                | (h2, Panic) => (h2, Panic, no_locks)
                | (h2, OutOfFuel) => (h2, OutOfFuel, no_locks)
                end
            | Ok false => (h1, Ok true, no_locks)
            | Err e => (h1, Err e, mkLocks false true)
            | Panic => (h1, Panic, no_locks)
            | OutOfFuel => (h1, OutOfFuel, no_locks)
            end
        | (h1, Ok false) => (h1, Ok true, no_locks)
        | (h1, r) => (h1, r, no_locks)
        end
    end.

(** ** Histories *)

(** What can happen to an index, with deletions and clean-ups. delete.go:31, 171. *)
Inductive devent :=
| DEv (e : event)
| DDelete (ids : list N)
| DCleanup (k : korc).

(** One event on the index (Persist.v for the others). delete.go:31-85, 171-218. *)
Definition dstep (h : hnsw) (e : devent) : hnsw :=
  match e with
  | DEv e => fst (ev_step h e)
  | DDelete ids => delete h ids
  | DCleanup k => fst (fst (cleanup k h))
  end.

(** Not in the code: events one after the other. *)
Fixpoint drun (h : hnsw) (evs : list devent) : hnsw :=
  match evs with
  | [] => h
  | e :: evs => drun (dstep h e) evs
  end.

(** Whether a call returns, given the locks an earlier one left: a Delete of the
    stored entry point takes the reset lock (delete.go:100) and then the write
    lock (101); a clean-up takes the reset lock first (delete.go:180; the write
    lock it takes at its end, line 89, is left out here); an insertion takes the
    write lock (insert.go:82, 252). *)
Definition returns (l : locks) (h : hnsw) (e : devent) : bool :=
  match e with
  | DCleanup _ => negb (l_reset l)
  | DDelete ids =>
      negb ((l_reset l || l_read l)
            && existsb (fun id => N.eqb id (h_ep h)
                          && match node_by_id h id with Some _ => true | None => false end) ids)
  | DEv (EvAdd o) => match a_vec o with [] => true | _ => negb (l_read l) end
  | DEv _ => true
  end.
