(** Model of a query that runs while other requests change the index:
    KnnSearchByVectorMaxDist (pkg/hnsw/search_with_max_dist.go) takes no lock on
    the index (the client fetches the pointer under hnswLock and releases the lock,
    pkg/document/document.go:509-516 and 605-612; the RLock of search.go:206-208
    is commented out), so each access may see a different state.

    The index over time is a function [W] from instants to states; a clock says
    at which instant each access of the query happens.  Everything else is as
    in Search.v. *)
From Verif Require Import Base F32 PQ Graph Search Insert.

(** The accesses of one query.  The level and the iteration of the loop
    (search.go:198, counted by the fuel that is left) tell accesses apart. *)
Record clock := mkClock {
  t_ep : nat;                        (* h.entryPointID, search_with_max_dist.go:30 *)
  t_start : nat;                     (* the entry vertex, search_with_max_dist.go:31 *)
  t_maxl : nat;                      (* h.currentMaximumLayer, search_with_max_dist.go:41 *)
  t_pop : nat -> nat -> nat;         (* the popped candidate, search.go:207-243 *)
  t_dist : nat -> nat -> N -> nat;   (* one neighbour's goroutine, search.go:256-277, 422 *)
  t_tomb : nat -> nat -> N -> nat;   (* hasTombstone, search.go:294 and 345 *)
  t_worst : nat -> nat               (* the worst result, search.go:359 *)
}.

Section Moving.
  Variable E : env.
  Variable W : nat -> hnsw.
  Variable C : clock.
  Variable n : nat.          (* bound on the number of ids ever stored, for the fuel *)

  Section Layer.
    Variable q : vec.
    Variable ef : Z.
    Variable level : nat.
    Variable allow : option (N -> bool).

    (** search.go:256-277, [Search.neighbour_dists] with one instant for each
        goroutine. *)
    Fixpoint neighbour_dists_at (f : nat) (ids : list N) : list item :=
      match ids with
      | [] => []
      | id :: ids' =>
          match dist_float_node E (W (t_dist C level f id)) q id with
          | Some d => mkItem id d :: neighbour_dists_at f ids'
          | None => neighbour_dists_at f ids'
          end
      end.

    (** search.go:280-315 *)
    Definition step_at (f : nat) (s : sst) (nd : item) : sst :=
      step_nd (W (t_tomb C level f (it_id nd))) ef level allow s nd.

    (** search.go:198-316, [Search.search_loop]. *)
    Fixpoint search_loop_at (fuel : nat) (s : sst) : res sst :=
      match fuel with
      | O => OutOfFuel
      | S f =>
          match pq_pop less_min (s_cands s) with
          | None => Ok s
          | Some (c, cands') =>
              let s1 := mkS cands' (s_results s) (s_worst s) (s_visited s) in
              if fgt (it_dist c) (s_worst s) && (ef <=? Z.of_nat (length (s_results s)))%Z
              then Ok s1
              else
                match node_by_id (W (t_pop C level f)) (it_id c) with
                | None => search_loop_at f s1
                | Some v =>
                    if Nat.ltb (v_level v) level then search_loop_at f s1
                    else
                      match conns_at v level with
                      | None => Panic
                      | Some conns =>
                          let (ids, vis') := fresh conns (s_visited s) in
                          let nds := e_sched E level f (neighbour_dists_at f ids) in
                          search_loop_at f
                            (fold_left (step_at f) nds
                               (mkS cands' (s_results s) (s_worst s) vis'))
                      end
                end
          end
      end.

    (** search.go:164-325, [Search.search_layer]; the tombstone check of an
        entry point (line 345) counts as iteration [S n + length es]. *)
    Definition search_layer_at (eps : list item) : res (list item) :=
      let es := pq_drain less_min eps in
      let visited := visit_eps E (map it_id es) [] false in
      let (c, r) := fold_left
        (fun cr ep => add_ep (W (t_tomb C level (S (length es + n)) (it_id ep))) level allow cr ep)
        es ([], []) in
      do! w <- worst_dist E (W (t_worst C level)) q r;
      do! s <- search_loop_at (S (length es + n)) (mkS c r w visited);
      Ok (s_results s).
  End Layer.

  (** search_with_max_dist.go:41-56, [Search.descend]. *)
  Fixpoint descend_at (q : vec) (l : nat) (ep : N) (epd : f32) : res (N * f32) :=
    match l with
    | O => Ok (ep, epd)
    | S l' =>
        do! res <- search_layer_at q 1 l None (pq_insert less_min (mkItem ep epd) []);
        match pq_pop less_max res with
        | Some (best, _) => descend_at q l' (it_id best) (it_dist best)
        | None => descend_at q l' ep epd
        end
    end.

  (** search_with_max_dist.go:22-87, [Search.knn_max_dist]. *)
  Definition knn_max_dist_at (q0 : vec) (maxd : f32) (ef : Z) (allow : option (N -> bool))
    : res (list N * list f32) :=
    let q := p_normalize (e_prov E) q0 in
    let ep := h_ep (W (t_ep C)) in
    do! d0 <- dist_node_vec (e_prov E) (W (t_start C)) ep q;
    do! e <- descend_at q (h_maxl (W (t_maxl C))) ep d0;
    do! res <- search_layer_at q ef 0 allow
                 (pq_insert less_min (mkItem (fst e) (snd e)) []);
    let all := rev (pq_drain less_max res) in
    let kept := cut all maxd in
    Ok (map it_id kept,
        map it_dist kept ++ repeat f32_zero (length all - length kept)).
End Moving.

(** An insertion in the middle: what other requests can see of insert.go:219-287
    after [k] of the layers that the loop of neighbor_connections.go:61-66
    visits, from layer [l] downwards. *)
Fixpoint connect_some (I : ienv) (h : hnsw) (nid : N) (q : vec) (l k : nat) (ep : N) : hnsw * res N :=
  match k with
  | O => (h, Ok ep)
  | S k' =>
      match do_at_level I h nid q l ep with
      | (h', Ok ep') => connect_some I h' nid q (l - 1) k' ep'
      | (h', Err e) => (h', Err e)
      | (h', Panic) => (h', Panic)
      | (h', OutOfFuel) => (h', OutOfFuel)
      end
  end.

(** insert.go:219-287 up to there; the vertex has been put into the cache (line
    271). *)
Definition insert_part (I : ienv) (h : hnsw) (id : N) (q : vec) (target k : nat) : hnsw * res N :=
  let h1 := put_node h (new_vertex id q target) in
  match best_entrypoint I h1 q target (h_maxl h - target) (h_ep h) with
  | Ok ep => connect_some I h1 id q (Nat.min target (h_maxl h)) k ep
  | Err e => (h1, Err e)
  | Panic => (h1, Panic)
  | OutOfFuel => (h1, OutOfFuel)
  end.

(** A vector of layer 0 in the middle of its addition: its vertex has its own
    links (neighbor_connections.go:111), and the first [j] neighbours have
    their link back (lines 117-121). *)
Definition insert_ground (I : ienv) (h : hnsw) (id : N) (q : vec) (j : nat) : hnsw :=
  let h1 := put_node h (new_vertex id q 0) in
  match best_entrypoint I h1 q 0 (h_maxl h) (h_ep h) with
  | Ok ep =>
      match choose_neighbours I h1 id q 0 ep with
      | Ok (_, nbs) =>
          fst (connect_all I (put_node h1 (set_conns (new_vertex id q 0) [nbs])) id 0 (firstn j nbs))
      | _ => h1
      end
  | _ => h1
  end.

(** What other requests may see of an addition under way: the vertex without
    any links (insert.go:271), or one of the states above. *)
Definition insert_seen (I : ienv) (h : hnsw) (id : N) (q : vec) (target : nat) (s : option nat) : hnsw :=
  match s with
  | None => put_node h (new_vertex id q target)
  | Some j => insert_ground I h id q j
  end.
