(** Model of the search functions of pkg/hnsw/search.go,
    search_with_max_dist.go and flat_search.go (uncompressed vectors only; for the
    [h.compressed] branches see CompSearch.v). *)
From Verif Require Import Base F32 PQ Graph.

(** Loop state of searchLayerByVector (search.go:164-325). *)
Record sst := mkS {
  s_cands : list item;     (* candidates, min-heap *)
  s_results : list item;   (* results, max-heap *)
  s_worst : f32;           (* worstResultDistance *)
  s_visited : list N       (* visited *)
}.

Section SearchLayer.
  Variable E : env.
  Variable h : hnsw.
  Variable q : vec.          (* queryVector *)
  Variable ef : Z.
  Variable level : nat.
  Variable allow : option (N -> bool).   (* allowList; None = nil *)

  (** search.go:419-432; [None]: node missing or length mismatch. *)
  Definition dist_float_node (id : N) : option f32 :=
    match node_by_id h id with
    | None => None
    | Some v => p_query (e_prov E) q (v_vec v)
    end.

  (** The check of search.go:284-292 and 335-343. *)
  Definition allowed (id : N) : bool :=
    match level, allow with
    | O, Some f => f id
    | _, _ => true
    end.

  (** search.go:332-333: [visitedList] is passed by value, so marks written
      after a resize are lost to the caller ([Visited.vl_visit_by_value]).
      [detached] says that the callee's copy has been resized. *)
  Fixpoint visit_eps (ids : list N) (visited : list N) (detached : bool) : list N :=
    match ids with
    | [] => visited
    | id :: ids' =>
        let detached' := detached || negb (N.ltb id (e_vcap E)) in
        visit_eps ids' (if detached' then visited else id :: visited) detached'
    end.

  (** search.go:334-349, one entry point. *)
  Definition add_ep (cr : list item * list item) (ep : item) : list item * list item :=
    let c := pq_insert less_min ep (fst cr) in
    if negb (allowed (it_id ep)) then (c, snd cr)
    else if has_tombstone h (it_id ep) then (c, snd cr)
    else (c, pq_insert less_max ep (snd cr)).

  (** search.go:353-376 *)
  Definition worst_dist (results : list item) : res f32 :=
    match pq_top results with
    | None => Ok f32_max
    | Some x => match dist_float_node (it_id x) with
                | Some d => Ok d
                | None => Err EOther
                end
    end.

  (** search.go:248-254: neighbours not visited yet, in order, now marked. *)
  Fixpoint fresh (conns : list N) (visited : list N) : list N * list N :=
    match conns with
    | [] => ([], visited)
    | id :: conns' =>
        if memN id visited then fresh conns' visited
        else let (ids, vis') := fresh conns' (id :: visited) in (id :: ids, vis')
    end.

  (** search.go:256-277: the goroutines that obtained a distance. *)
  Fixpoint neighbour_dists (ids : list N) : list item :=
    match ids with
    | [] => []
    | id :: ids' =>
        match dist_float_node id with
        | Some d => mkItem id d :: neighbour_dists ids'
        | None => neighbour_dists ids'
        end
    end.

  (** search.go:280-315, one element of [nds].  The queue cannot be empty at
      the Pop of line 308. *)
  Definition step_nd (s : sst) (nd : item) : sst :=
    if flt (it_dist nd) (s_worst s) || (Z.of_nat (length (s_results s)) <? ef)%Z then
      let c := pq_insert less_min nd (s_cands s) in
      if negb (allowed (it_id nd)) then mkS c (s_results s) (s_worst s) (s_visited s)
      else if has_tombstone h (it_id nd) then mkS c (s_results s) (s_worst s) (s_visited s)
      else
        let r1 := pq_insert less_max nd (s_results s) in
        let r2 := if (ef <? Z.of_nat (length r1))%Z
                  then match pq_pop less_max r1 with Some (_, r) => r | None => r1 end
                  else r1 in
        let w := match pq_top r2 with Some x => it_dist x | None => s_worst s end in
        mkS c r2 w (s_visited s)
    else s.

  (** search.go:198-316 *)
  Fixpoint search_loop (fuel : nat) (s : sst) : res sst :=
    match fuel with
    | O => OutOfFuel
    | S f =>
        match pq_pop less_min (s_cands s) with
        | None => Ok s
        | Some (c, cands') =>
            let s1 := mkS cands' (s_results s) (s_worst s) (s_visited s) in
            if fgt (it_dist c) (s_worst s) && (ef <=? Z.of_nat (length (s_results s)))%Z
            then Ok s1
            else
              match node_by_id h (it_id c) with
              | None => search_loop f s1
              | Some v =>
                  if Nat.ltb (v_level v) level then search_loop f s1
                  else
                    match conns_at v level with
                    | None => Panic
                    | Some conns =>
                        let (ids, vis') := fresh conns (s_visited s) in
                        let nds := e_sched E level f (neighbour_dists ids) in
                        search_loop f
                          (fold_left step_nd nds
                             (mkS cands' (s_results s) (s_worst s) vis'))
                    end
              end
        end
    end.

  (** search.go:164-325; [eps] is the entry point queue.  The result is the
      result max-heap.  The fuel is one more than the number of candidates
      that can ever be queued. *)
  Definition search_layer (eps : list item) : res (list item) :=
    let es := pq_drain less_min eps in
    let visited := visit_eps (map it_id es) [] false in
    let (c, r) := fold_left add_ep es ([], []) in
    do! w <- worst_dist r;
    do! s <- search_loop (S (length es + length (stored_ids h))) (mkS c r w visited);
    Ok (s_results s).
End SearchLayer.

(** index.go:512-549 (uncompressed branch). *)
Definition dist_node_vec (P : provider) (h : hnsw) (id : N) (b : vec) : res f32 :=
  match node_by_id h id with
  | None => Err ENodeMissing
  | Some v =>
      match v_vec v, b with
      | [], _ => Err EEmptyVector
      | _, [] => Err EEmptyVector
      | _, _ => match p_single P (v_vec v) b with
                | Some d => Ok d
                | None => Err EDimMismatch
                end
      end
  end.

Section Knn.
  Variable E : env.
  Variable h : hnsw.

  (** search_with_max_dist.go:41-56: descend from layer [l] to layer 1. *)
  Fixpoint descend (q : vec) (l : nat) (ep : N) (epd : f32) : res (N * f32) :=
    match l with
    | O => Ok (ep, epd)
    | S l' =>
        do! res <- search_layer E h q 1 l None (pq_insert less_min (mkItem ep epd) []);
        match pq_pop less_max res with
        | Some (best, _) => descend q l' (it_id best) (it_dist best)
        | None => descend q l' ep epd
        end
    end.

  (** search_with_max_dist.go:73-83: skip negative distances, stop at the first
      distance above the bound. *)
  Fixpoint cut (all : list item) (maxd : f32) : list item :=
    match all with
    | [] => []
    | x :: all' =>
        if flt (it_dist x) f32_zero then cut all' maxd
        else if fgt (it_dist x) maxd then []
        else x :: cut all' maxd
    end.

  (** search_with_max_dist.go:22-87.  The distance slice keeps its full length
      (line 86 only truncates the ids), padded with zeros. *)
  Definition knn_max_dist (q0 : vec) (maxd : f32) (ef : Z) (allow : option (N -> bool))
    : res (list N * list f32) :=
    let q := p_normalize (e_prov E) q0 in
    do! d0 <- dist_node_vec (e_prov E) h (h_ep h) q;
    do! e <- descend q (h_maxl h) (h_ep h) d0;
    do! res <- search_layer E h q ef 0 allow
                 (pq_insert less_min (mkItem (fst e) (snd e)) []);
    let all := rev (pq_drain less_max res) in
    let kept := cut all maxd in
    Ok (map it_id kept,
        map it_dist kept ++ repeat f32_zero (length all - length kept)).

  (** search.go:494-518: the first non-nil result that is not under
      maintenance, in pop order.  Tombstones added for nil nodes (line 501) are
      not recorded; a nil node cannot occur because every result has a
      vector. *)
  Fixpoint pick_entry (rs : list item) : option item :=
    match rs with
    | [] => None
    | x :: rs' =>
        match node_by_id h (it_id x) with
        | None => pick_entry rs'
        | Some v => if v_maint v then pick_entry rs' else Some x
        end
    end.

  (** search.go:480-521 *)
  Fixpoint descend_maint (q : vec) (l : nat) (ep : N) (epd : f32) : res (N * f32) :=
    match l with
    | O => Ok (ep, epd)
    | S l' =>
        do! res <- search_layer E h q 1 l None (pq_insert less_min (mkItem ep epd) []);
        match pick_entry (pq_drain less_max res) with
        | Some best => descend_maint q l' (it_id best) (it_dist best)
        | None => descend_maint q l' ep epd
        end
    end.

  (** search.go:528-530: pop while longer than [k]. *)
  Fixpoint pop_to (fuel : nat) (r : list item) (k : Z) : list item :=
    match fuel with
    | O => r
    | S f => if (k <? Z.of_nat (length r))%Z
             then match pq_pop less_max r with Some (_, r') => pop_to f r' k | None => r end
             else r
    end.

  (** search.go:464-546.  With [k < 0] Go pops from an empty queue and
      panics. *)
  Definition knn_search (q : vec) (k ef : Z) (allow : option (N -> bool))
    : res (list N * list f32) :=
    if is_empty h then Ok ([], [])
    else
      do! d0 <- dist_node_vec (e_prov E) h (h_ep h) q;
      do! e <- descend_maint q (h_maxl h) (h_ep h) d0;
      do! res <- search_layer E h q ef 0 allow
                   (pq_insert less_min (mkItem (fst e) (snd e)) []);
      if (k <? 0)%Z then Panic
      else
        let all := rev (pq_drain less_max (pop_to (length res) res k)) in
        Ok (map it_id all, map it_dist all).

  (** flat_search.go:25-58, the loop over the allow list. *)
  Fixpoint flat_loop (q : vec) (limit : Z) (cands : list N) (results : list item)
    : res (list item) :=
    match cands with
    | [] => Ok results
    | c :: cands' =>
        match node_by_id h c with
        | None => flat_loop q limit cands' results
        | Some _ =>
            if has_tombstone h c then flat_loop q limit cands' results
            else
              do! d <- dist_node_vec (e_prov E) h c q;
              if (Z.of_nat (length results) <? limit)%Z
              then flat_loop q limit cands' (pq_insert less_max (mkItem c d) results)
              else
                match pq_top results with
                | None => Panic
                | Some t =>
                    if fgt (it_dist t) d then
                      match pq_pop less_max results with
                      | None => Panic
                      | Some (_, r) => flat_loop q limit cands' (pq_insert less_max (mkItem c d) r)
                      end
                    else flat_loop q limit cands' results
                end
        end
    end.

  (** flat_search.go:19-74; [cands] is the allow list in iteration order
      (a roaring bitmap, hence distinct).  A negative [limit] panics in
      [make] (line 22). *)
  Definition flat_search (q : vec) (limit : Z) (cands : list N) : res (list N * list f32) :=
    if (limit <? 0)%Z then Panic
    else
      do! res <- flat_loop q limit cands [];
      let all := rev (pq_drain less_max res) in
      Ok (map it_id all, map it_dist all).
End Knn.
