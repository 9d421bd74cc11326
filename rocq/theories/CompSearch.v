(** Model of the branches of the search functions that run once the index is
    compressed (h.compressed), pkg/hnsw/search.go, search_with_max_dist.go and
    index.go.  The uncompressed branches are [Search.v].

    [C]: the codes of the product quantizer.  [bq q c] is
    h.pq.NewDistancer(q).Distance(c), which the library answers for every code;
    [bs q c] is h.pq.DistanceBetweenCompressedAndUncompressedVectors(q, c).
    Both belong to the weaviate library and are arbitrary functions here.  The
    code cache is [Compress.ccache]; a code is never empty, so the length check
    of index.go:525-527 is left out.  A panic in one of the goroutines of
    search.go:256-277 ends the process and is the panic of the search. *)
From Verif Require Import Base F32 PQ Graph Search Compress.

Section CompSearch.
  Variable C : Type.
  Variable bq : vec -> C -> f32.
  Variable bs : vec -> C -> f32.
  Variable E : env.
  Variable h : hnsw.
  Variable cc : ccache C.

  Section Layer.
    Variable q : vec.
    Variable ef : Z.
    Variable level : nat.
    Variable allow : option (N -> bool).

    (** search.go:402-417: no code is the error "Not implemented", which is not
        storobj.ErrNotFound, so no tombstone is set. *)
    Definition dist_byte_node (id : N) : res f32 :=
      do! c <- cget cc id; Ok (bq q c).

    (** search.go:378-400 *)
    Definition worst_dist_byte (results : list item) : res f32 :=
      match pq_top results with
      | None => Ok f32_max
      | Some x => dist_byte_node (it_id x)
      end.

    (** search.go:256-277: a neighbour without code is skipped. *)
    Fixpoint neighbour_dists_byte (ids : list N) : res (list item) :=
      match ids with
      | [] => Ok []
      | id :: ids' =>
          match dist_byte_node id with
          | Panic => Panic
          | Ok d => do! r <- neighbour_dists_byte ids'; Ok (mkItem id d :: r)
          | _ => neighbour_dists_byte ids'
          end
      end.

    (** search.go:198-316.  The prefetch of line 301 reads the slot of the
        nearest candidate, whose code has been read before. *)
    Fixpoint search_loop_byte (fuel : nat) (s : sst) : res sst :=
      match fuel with
      | O => OutOfFuel
      | S f =>
          match pq_pop less_min (s_cands s) with
          | None => Ok s
          | Some (c, cands') =>
              let s1 := mkS cands' (s_results s) (s_worst s) (s_visited s) in
              if fgt (it_dist c) (s_worst s) && (ef <=? Z.of_nat (length (s_results s)))%Z
              then Ok s1
              else
                match node_by_id h (it_id c) with
                | None => search_loop_byte f s1
                | Some v =>
                    if Nat.ltb (v_level v) level then search_loop_byte f s1
                    else
                      match conns_at v level with
                      | None => Panic
                      | Some conns =>
                          let (ids, vis') := fresh conns (s_visited s) in
                          do! nds <- neighbour_dists_byte ids;
                          search_loop_byte f
                            (fold_left (step_nd h ef level allow) (e_sched E level f nds)
                               (mkS cands' (s_results s) (s_worst s) vis'))
                      end
                end
          end
      end.

    (** search.go:164-325.  Only ids with a code become candidates, which
        bounds the loop. *)
    Definition search_layer_byte (eps : list item) : res (list item) :=
      let es := pq_drain less_min eps in
      let visited := visit_eps E (map it_id es) [] false in
      let (c, r) := fold_left (add_ep h level allow) es ([], []) in
      do! w <- worst_dist_byte r;
      do! s <- search_loop_byte (S (length es + length (cc_slots cc))) (mkS c r w visited);
      Ok (s_results s).
  End Layer.

  (** index.go:512-530: the vector of the query may be empty. *)
  Definition dist_node_vec_byte (id : N) (b : vec) : res f32 :=
    do! c <- cget cc id; Ok (bs b c).

  (** search_with_max_dist.go:41-56 *)
  Fixpoint descend_byte (q : vec) (l : nat) (ep : N) (epd : f32) : res (N * f32) :=
    match l with
    | O => Ok (ep, epd)
    | S l' =>
        do! res <- search_layer_byte q 1 l None (pq_insert less_min (mkItem ep epd) []);
        match pq_pop less_max res with
        | Some (best, _) => descend_byte q l' (it_id best) (it_dist best)
        | None => descend_byte q l' ep epd
        end
    end.

  (** search_with_max_dist.go:22-87 *)
  Definition knn_max_dist_byte (q0 : vec) (maxd : f32) (ef : Z) (allow : option (N -> bool))
    : res (list N * list f32) :=
    let q := p_normalize (e_prov E) q0 in
    do! d0 <- dist_node_vec_byte (h_ep h) q;
    do! e <- descend_byte q (h_maxl h) (h_ep h) d0;
    do! res <- search_layer_byte q ef 0 allow (pq_insert less_min (mkItem (fst e) (snd e)) []);
    let all := rev (pq_drain less_max res) in
    let kept := cut all maxd in
    Ok (map it_id kept,
        map it_dist kept ++ repeat f32_zero (length all - length kept)).

  (** search.go:480-521; the tombstone that line 501 sets for a result without
      node is not recorded (simplified: the theorem about this search assumes
      that every code belongs to a stored node, and then the line is not
      reached). *)
  Fixpoint descend_maint_byte (q : vec) (l : nat) (ep : N) (epd : f32) : res (N * f32) :=
    match l with
    | O => Ok (ep, epd)
    | S l' =>
        do! res <- search_layer_byte q 1 l None (pq_insert less_min (mkItem ep epd) []);
        match pick_entry h (pq_drain less_max res) with
        | Some best => descend_maint_byte q l' (it_id best) (it_dist best)
        | None => descend_maint_byte q l' ep epd
        end
    end.

  (** search.go:464-546 *)
  Definition knn_search_byte (q : vec) (k ef : Z) (allow : option (N -> bool))
    : res (list N * list f32) :=
    if is_empty h then Ok ([], [])
    else
      do! d0 <- dist_node_vec_byte (h_ep h) q;
      do! e <- descend_maint_byte q (h_maxl h) (h_ep h) d0;
      do! res <- search_layer_byte q ef 0 allow (pq_insert less_min (mkItem (fst e) (snd e)) []);
      if (k <? 0)%Z then Panic
      else
        let all := rev (pq_drain less_max (pop_to (length res) res k)) in
        Ok (map it_id all, map it_dist all).
End CompSearch.

Arguments dist_byte_node {C} bq cc q id.
Arguments worst_dist_byte {C} bq cc q results.
Arguments neighbour_dists_byte {C} bq cc q ids.
Arguments search_loop_byte {C} bq E h cc q ef level allow fuel s.
Arguments search_layer_byte {C} bq E h cc q ef level allow eps.
Arguments dist_node_vec_byte {C} bs cc id b.
Arguments descend_byte {C} bq E h cc q l ep epd.
Arguments knn_max_dist_byte {C} bq bs E h cc q0 maxd ef allow.
Arguments descend_maint_byte {C} bq E h cc q l ep epd.
Arguments knn_search_byte {C} bq bs E h cc q k ef allow.
