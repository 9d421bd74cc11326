(** Properties C08, C45, C53, C54, C55: deletion and tombstone clean-up. *)
From Verif Require Import Base F32 PQ PQProofs Graph Search SearchProofs SearchLayer SearchKnn
  Insert InsertProofs InsertHist Distancer DistancerProofs TestGraph TestInsert
  Persist PersistProofs Delete DeleteProofs.

(* ------------------------------------------------------------------ *)
(** Fixtures: points of the line, ids in order; all nodes are linked with each
    other on the ground layer. *)

(** A clean-up in which nothing fails or interrupts. *)
Definition kplain (tab : list (N * vec)) : korc :=
  mkK (fun _ => ienv_of l2p tab) (src_of tab) [] false (fun _ => false) false (fun _ => false)
      false (fun _ => false) false.

Lemma kplain_sched tab n : sched_ok (i_env (k_env (kplain tab) n)).
Proof. apply env_rev_sched. Qed.

Definition tab_of (l : list (list Z * nat)) : list (N * vec) := enum 0 (map (fun p => q_of (fst p)) l).
Definition adds_of (l : list (list Z * nat)) : list devent :=
  map (fun o => DEv (EvAdd o)) (history (ienv_of l2p) l).
(** Flush writes everything back. *)
Definition flush_all (n : nat) : devent := DEv (EvFlush (map N.of_nat (seq 0 n)) (N.of_nat n) 100).
(** The ids answered to a query that asks for everything. *)
Definition ids_found (h : hnsw) : res (list N) :=
  do! r <- knn_max_dist (env_rev l2p) h (q_of [0]%Z) (f32_of_Z 1000) 100 None; Ok (fst r).

(** The last point becomes the entry point. *)
Definition pts4 : list (list Z * nat) := [([0]%Z, 0); ([1]%Z, 0); ([2]%Z, 0); ([3]%Z, 1)].
(** The first point stays the entry point. *)
Definition pts5 : list (list Z * nat) := [([0]%Z, 1); ([1]%Z, 0); ([2]%Z, 0); ([3]%Z, 0); ([4]%Z, 0)].
Definition hist4 : list devent := adds_of pts4 ++ [flush_all 4].
Definition hist5 : list devent := adds_of pts5 ++ [flush_all 5].
Definition kp4 : korc := kplain (tab_of pts4).
Definition kp5 : korc := kplain (tab_of pts5).

Lemma check_own h : all_nodes h (fun id v => N.eqb (v_id v) id) = true -> own h.
Proof. intros H id v Hv. apply N.eqb_eq. exact (all_nodes_spec h _ H id v Hv). Qed.
Lemma check_dense h : all_nodes h (fun id _ => N.ltb id (N.of_nat (kv_count h))) = true -> dense h.
Proof. intros H id v Hv. apply N.ltb_lt. exact (all_nodes_spec h _ H id v Hv). Qed.

(* ------------------------------------------------------------------ *)
(** C08.  Part 1: until the tombstones are cleaned up (or lost in a restart),
    a deleted id is not returned, whatever happens: failing additions, the id
    added again, the entry point deleted, interrupted write-backs. *)
Theorem C08_until_cleanup_partial : forall h0 evs E q maxd k ef allow id,
  forallb no_cleanup evs = true -> sched_ok E -> In id (deleted_ids evs) ->
  let h := drun h0 evs in
  (forall ids ds, knn_max_dist E h q maxd ef allow = Ok (ids, ds) -> ~ In id ids) /\
  (forall ids ds, knn_search E h q k ef allow = Ok (ids, ds) -> ~ In id ids) /\
  (forall ids ds, near E h q maxd ef = Ok (ids, ds) -> ~ In id ids).
Proof.
  intros h0 evs E q maxd k ef allow id Hc Hsc Hd h.
  assert (Ht : has_tombstone h id = true).
  { unfold has_tombstone. apply memN_In. apply (drun_tomb evs h0 Hc). auto. }
  assert (Hlay : forall h' q ef l allow ep r, has_tombstone h' id = true ->
    search_layer E h' q ef l allow (pq_insert less_min ep []) = Ok r -> ~ In id (map it_id r)).
  { intros h' q1 ef1 l a ep r Ht' Hr Hin. apply in_map_iff in Hin. destruct Hin as (x & Hx & Hin).
    destruct (layer_in E h' q1 ef1 l a (fun _ => True) ep r Hsc) with (x := x) as (_ & H); auto.
    rewrite Hx in H. congruence. }
  assert (Hk : forall h', has_tombstone h' id = true -> forall ids ds, knn_max_dist E h' q maxd ef allow = Ok (ids, ds) -> ~ In id ids).
  { intros h' Ht' ids ds H Hin. unfold knn_max_dist in H.
    apply bind_Ok in H. destruct H as (d & _ & H). apply bind_Ok in H. destruct H as (e & _ & H).
    apply bind_Ok in H. destruct H as (r & Hr & H). inversion H; subst.
    apply (Hlay _ _ _ _ _ _ _ Ht' Hr). apply in_map_iff in Hin. destruct Hin as (x & <- & Hx).
    apply cut_sub in Hx. destruct Hx as [Hx _]. apply in_rev in Hx. apply in_map.
    eapply Permutation_in; [symmetry; apply drain_perm|exact Hx]. }
  split; [exact (Hk h Ht)|]. split.
  - intros ids ds H Hin. unfold knn_search in H. destruct (is_empty h); [inversion H; subst; destruct Hin|].
    apply bind_Ok in H. destruct H as (d & _ & H). apply bind_Ok in H. destruct H as (e & _ & H).
    apply bind_Ok in H. destruct H as (r & Hr & H). destruct (k <? 0)%Z; [discriminate|]. inversion H; subst.
    apply (Hlay _ _ _ _ _ _ _ Ht Hr). apply in_map_iff in Hin. destruct Hin as (x & <- & Hx).
    apply in_rev in Hx. apply in_map. eapply pop_to_In.
    eapply Permutation_in; [symmetry; apply drain_perm|exact Hx].
  - intros ids ds H Hin. unfold near, knn_max_dist in H.
    apply bind_Ok in H. destruct H as (d & _ & H). apply bind_Ok in H. destruct H as (e & _ & H).
    apply bind_Ok in H. destruct H as (r & Hr & H). inversion H; subst.
    assert (Ht' : has_tombstone (load_ep h) id = true) by exact Ht.
    apply (Hlay _ _ _ _ _ _ _ Ht' Hr). apply in_map_iff in Hin. destruct Hin as (x & <- & Hx).
    apply cut_sub in Hx. destruct Hx as [Hx _]. apply in_rev in Hx. apply in_map.
    eapply Permutation_in; [symmetry; apply drain_perm|exact Hx].
Qed.
Print Assumptions C08_until_cleanup_partial.

Example C08_until_cleanup_nonvacuous :
  let evs := hist4 ++ [DDelete [1%N]] in
  forallb no_cleanup evs = true /\ In 1%N (deleted_ids evs) /\
  ids_found (drun empty_index hist4) = Ok [0; 1; 2; 3]%N /\
  ids_found (drun empty_index evs) = Ok [0; 2; 3]%N.
Proof. vm_compute. split; [reflexivity|]. split; [now left|]. split; reflexivity. Qed.

(** Part 2: with clean-ups.  [h0] is any index whose entry point is stored and
    not deleted.  After any orderly history (see [orderly]; clean-ups may fail or
    be interrupted anywhere) no search returns an id deleted in it or before.
    Missing for the full property, and false: see the refutations below. *)
Theorem C08_history_partial : forall h0 evs,
  (forall id v, node_by_id h0 id = Some v -> v_id v = id) ->
  (exists v, node_by_id h0 (h_ep h0) = Some v) -> ~ In (h_ep h0) (h_tomb h0) ->
  orderly_run (h_tomb h0) h0 evs ->
  forall E q maxd k ef allow id, sched_ok E -> In id (h_tomb h0) \/ In id (deleted_ids evs) ->
  let h := drun h0 evs in
  (forall ids ds, knn_max_dist E h q maxd ef allow = Ok (ids, ds) -> ~ In id ids) /\
  (forall ids ds, knn_search E h q k ef allow = Ok (ids, ds) -> ~ In id ids).
Proof.
  intros h0 evs Ho Hv Hn Hor E q maxd k ef allow id Hsc Hd h.
  pose proof (away_run evs _ _ (away_start h0 Ho Hv Hn) Hor) as Ha.
  assert (Hd' : In id (h_tomb h0 ++ deleted_ids evs)) by now apply in_or_app.
  split; intros ids ds H Hin.
  - exact (away_knn _ _ _ _ _ _ _ _ _ Ha Hsc H id Hin Hd').
  - exact (away_search _ _ _ _ _ _ _ _ _ Ha Hsc H id Hin Hd').
Qed.
Print Assumptions C08_history_partial.

(** Deletion, clean-up, query, another deletion, a clean-up that fails because the
    vector of the removed id is gone, query. *)
Definition kp5x : korc := kplain (mdel 1%N (tab_of pts5)).
Definition evs5 : list devent :=
  [DDelete [1%N]; DCleanup kp5; DEv EvQuery; DDelete [3%N]; DCleanup kp5x; DEv EvQuery].

Example C08_history_nonvacuous :
  let h0 := drun empty_index hist5 in
  (forall id v, node_by_id h0 id = Some v -> v_id v = id) /\
  (exists v, node_by_id h0 (h_ep h0) = Some v) /\ ~ In (h_ep h0) (h_tomb h0) /\
  orderly_run (h_tomb h0) h0 evs5 /\ deleted_ids evs5 = [1; 3]%N /\
  snd (fst (cleanup kp5 (drun h0 [DDelete [1%N]]))) = Ok true /\
  h_tomb (drun h0 [DDelete [1%N]; DCleanup kp5]) = [] /\
  ids_found (drun h0 [DDelete [1%N]; DCleanup kp5]) = Ok [0; 2; 3; 4]%N /\
  ids_found (drun h0 (firstn 4 evs5)) = Ok [0; 2; 4]%N /\ ids_found (drun h0 evs5) = Ok [0%N].
Proof.
  cbv zeta. split; [apply check_own; vm_compute; reflexivity|].
  split; [eexists; vm_compute; reflexivity|].
  split; [vm_compute; tauto|].
  split; [|split; [reflexivity|split; [vm_compute; reflexivity|split; [|split; [|split]]; vm_compute; reflexivity]]].
  assert (Ht : h_tomb (drun empty_index hist5) = []) by (vm_compute; reflexivity). rewrite Ht.
  unfold evs5. cbn [orderly_run orderly deleted_ids flat_map app].
  split; [vm_compute; intuition discriminate|].
  split.
  { split; [apply kplain_sched|]. split; [apply check_dense; vm_compute; reflexivity|].
    split; [vm_compute; discriminate|]. split; [reflexivity|].
    intros n v Hn Ht2. exfalso. apply Ht2.
    assert (Ht3 : h_tomb (dstep (drun empty_index hist5) (DDelete [1%N])) = [1%N]) by (vm_compute; reflexivity).
    rewrite Ht3. exact Hn. }
  split; [vm_compute; intuition discriminate|]. split; [vm_compute; intuition discriminate|].
  split; [|split; [vm_compute; intuition discriminate|exact Logic.I]].
  split; [apply kplain_sched|]. split; [apply check_dense; vm_compute; reflexivity|].
  split; [vm_compute; discriminate|]. split; [reflexivity|].
  intros n v Hn Ht2 _. right. destruct Hn as [<-|[<-|[]]]; [vm_compute; discriminate|].
  exfalso. apply Ht2. vm_compute. now left.
Qed.

(** False without a write-back before the clean-up: the number of table entries
    bounds the nodes that are re-linked (delete.go:271-290), so no link is
    removed, and the vertex stays in the node cache. *)
Theorem C08_unflushed_refuted : exists evs k,
  deleted_ids evs = [1%N] /\ snd (fst (cleanup k (drun empty_index evs))) = Ok true /\
  ids_found (drun empty_index (evs ++ [DCleanup k])) = Ok [0; 1; 2; 3]%N.
Proof. exists (adds_of pts4 ++ [DDelete [1%N]]), kp4. vm_compute. split; [reflexivity|]. split; reflexivity. Qed.
Print Assumptions C08_unflushed_refuted.

(** False after a restart: tombstones are not stored. *)
Theorem C08_restart_refuted : exists evs,
  deleted_ids evs = [1%N] /\ ids_found (drun empty_index evs) = Ok [0; 2; 3]%N /\
  ids_found (drun empty_index (evs ++ [flush_all 4; DEv EvRestart; DEv EvQuery])) = Ok [0; 1; 2; 3]%N.
Proof. exists (hist4 ++ [DDelete [1%N]]). vm_compute. split; [reflexivity|]. split; reflexivity. Qed.
Print Assumptions C08_restart_refuted.

(** False after a second clean-up: the vertex removed by the first one is still
    in the node cache (delete.go:610 only deletes it from the table), still links
    to a vertex the second one removes, and is linked into the graph again. *)
Theorem C08_second_cleanup_refuted : exists evs k,
  let h1 := drun empty_index (evs ++ [DDelete [1%N]; DCleanup k]) in
  let h2 := drun h1 [DDelete [2%N]; DCleanup k] in
  snd (fst (cleanup k (drun h1 [DDelete [2%N]]))) = Ok true /\
  ids_found h1 = Ok [3%N] /\ ids_found h2 = Ok [0; 1; 3]%N /\ h_tomb h2 = [].
Proof.
  exists hist4, kp4. cbv zeta. split; [vm_compute; reflexivity|]. split; [vm_compute; reflexivity|].
  split; vm_compute; reflexivity.
Qed.
Print Assumptions C08_second_cleanup_refuted.

(** False when the entry point is deleted: the table still names it, the node
    cache still has it, and a query of the client starts there. *)
Theorem C08_entry_point_refuted : exists evs k,
  deleted_ids evs = [3%N] /\ snd (fst (cleanup k (drun empty_index evs))) = Ok true /\
  ids_found (drun empty_index (evs ++ [DCleanup k])) = Ok [0; 1; 2]%N /\
  ids_found (drun empty_index (evs ++ [DCleanup k; DEv EvQuery])) = Ok [0; 1; 2; 3]%N.
Proof.
  exists (hist4 ++ [DDelete [3%N]]), kp4. split; [reflexivity|]. split; [vm_compute; reflexivity|].
  split; vm_compute; reflexivity.
Qed.
Print Assumptions C08_entry_point_refuted.

(** False for the flat search of the index, which reads every allowed id from the
    node cache: nothing but the tombstone hides a removed vertex.  The history is
    an orderly one. *)
Theorem C08_flat_refuted : exists evs,
  let h0 := drun empty_index hist5 in
  orderly_run (h_tomb h0) h0 evs /\ deleted_ids evs = [1%N] /\
  exists ds, flat_search (env_rev l2p) (drun h0 evs) (q_of [0]%Z) 10 [0; 1; 2]%N = Ok ([0; 1; 2]%N, ds).
Proof.
  exists [DDelete [1%N]; DCleanup kp5]. cbv zeta. split; [|split; [reflexivity|eexists; vm_compute; reflexivity]].
  assert (Ht : h_tomb (drun empty_index hist5) = []) by (vm_compute; reflexivity). rewrite Ht.
  cbn [orderly_run orderly deleted_ids flat_map app].
  split; [vm_compute; intuition discriminate|]. split; [|exact Logic.I].
  split; [apply kplain_sched|]. split; [apply check_dense; vm_compute; reflexivity|].
  split; [vm_compute; discriminate|]. split; [reflexivity|].
  intros n v Hn Ht2. exfalso. apply Ht2.
  assert (Ht3 : h_tomb (dstep (drun empty_index hist5) (DDelete [1%N])) = [1%N]) by (vm_compute; reflexivity).
  rewrite Ht3. exact Hn.
Qed.
Print Assumptions C08_flat_refuted.

(* ------------------------------------------------------------------ *)
(** C45.  [h] is any index; the clean-up runs to its end (removals may be skipped
    or the table may grow in any way).  If every stored id is smaller than the
    number of table entries, no vertex that was not deleted links to a deleted
    one afterwards, and no tombstone is left; if the entry point was stored and
    not deleted, and the table names one, it stays and is stored.
    Missing, and false: see the refutations below. *)
Theorem C45_no_dead_ends_partial : forall k h h' l,
  (forall n, sched_ok (i_env (k_env k n))) ->
  (forall id v, node_by_id h id = Some v -> v_id v = id) ->
  (forall id v, node_by_id h id = Some v -> (id < N.of_nat (kv_count h))%N) ->
  (forall n, k_break_reassign k n = false) -> k_break_copy k = false -> k_break_replace k = false ->
  cleanup k h = (h', Ok true, l) ->
  (forall id v cs c, ~ In id (h_tomb h) -> node_by_id h' id = Some v -> In cs (v_conns v) -> In c cs ->
     ~ In c (h_tomb h)) /\
  h_tomb h' = [] /\
  (h_kv_ep h <> None -> k_empty_fails k = false -> ~ In (h_ep h) (h_tomb h) ->
   node_by_id h (h_ep h) <> None -> h_ep h' = h_ep h /\ node_by_id h' (h_ep h') <> None).
Proof.
  intros k h h' l Hsc Ho Hd Hb1 Hb2 Hb3 Hc.
  pose proof (cleanup_cases k h Hsc Ho) as C. cbv zeta in C. rewrite Hc in C.
  destruct C as (h1 & K1 & N1 & _ & C).
  destruct C as [(_ & Hbr)|(Hsep & h2 & r2 & Er & C)].
  { exfalso. destruct (Hbr eq_refl) as [H|[(n & H)|H]]; [congruence|rewrite Hb1 in H; discriminate|congruence]. }
  specialize (Hsep Hd).
  destruct (remove_all_node k (delete_list h) h1) as (R1 & R2 & R3 & R4 & R5 & _ & R7 & _).
  rewrite Er in R1, R2, R3, R4, R5, R7. cbn [fst snd] in *.
  destruct C as [(-> & _ & ->)|(_ & H & _)]; [|congruence].
  assert (Hn : forall j, node_by_id (reset_if_empty k h2) j = node_by_id h2 j).
  { intros j. unfold reset_if_empty. destruct (k_empty_fails k || is_empty h2); reflexivity. }
  assert (Ht : h_tomb (reset_if_empty k h2) = h_tomb h2).
  { unfold reset_if_empty. destruct (k_empty_fails k || is_empty h2); reflexivity. }
  split; [|split].
  - intros id v cs c Hid Hv Hcs Hcc Hin. rewrite Hn in Hv. apply R2 in Hv.
    apply In_nth_error in Hcs. destruct Hcs as (i & Hcs). eapply Hsep; eauto.
  - rewrite Ht. destruct (h_tomb h2) as [|x t]; [reflexivity|]. exfalso.
    apply (R4 eq_refl x); [now left|]. apply delete_list_In.
    rewrite <- (proj1 (kp_tomb _ _ K1)). apply R3. now left.
  - intros Hk He Hne Hst. destruct (node_by_id h (h_ep h)) as [v|] eqn:Ev; [|congruence].
    assert (Heq : reset_if_empty k h2 = h2).
    { unfold reset_if_empty, is_empty. rewrite He, R7. destruct (kp_kv _ _ K1) as (_ & -> & _).
      destruct (h_kv_ep h); [|congruence]. destruct (h_kv h2); reflexivity. }
    rewrite Heq, R5, (proj1 (kp_ep _ _ K1)). split; [reflexivity|].
    destruct (kp_fw _ _ K1 _ _ Ev) as (v' & Hv' & _).
    rewrite R1, Hv'; [discriminate|]. intros Hi. apply Hne. now apply delete_list_In.
Qed.
Print Assumptions C45_no_dead_ends_partial.

Example C45_nonvacuous :
  let h := drun empty_index (hist5 ++ [DDelete [1; 3]%N]) in
  (forall id v, node_by_id h id = Some v -> v_id v = id) /\
  (forall id v, node_by_id h id = Some v -> (id < N.of_nat (kv_count h))%N) /\
  snd (fst (cleanup kp5 h)) = Ok true /\ h_tomb h = [3; 1]%N /\ h_ep h = 0%N /\
  option_map v_conns (node_by_id h 0) = Some [[1; 2; 3; 4]]%N /\
  option_map v_conns (node_by_id (dstep h (DCleanup kp5)) 0) = Some [[2; 4]]%N.
Proof.
  cbv zeta. split; [apply check_own; vm_compute; reflexivity|].
  split; [apply check_dense; vm_compute; reflexivity|].
  split; [vm_compute; reflexivity|]. split; [vm_compute; reflexivity|]. split; [vm_compute; reflexivity|].
  split; vm_compute; reflexivity.
Qed.

(** False if the ids are not below the number of table entries: before the first
    write-back, or with ids that leave gaps. *)
Theorem C45_unflushed_refuted : exists evs k,
  let h := drun empty_index evs in
  snd (fst (cleanup k h)) = Ok true /\ h_tomb h = [1%N] /\
  option_map v_conns (node_by_id (dstep h (DCleanup k)) 0) = Some [[1; 2; 3]]%N.
Proof. exists (adds_of pts4 ++ [DDelete [1%N]]), kp4. cbv zeta. split; [|split]; vm_compute; reflexivity. Qed.
Print Assumptions C45_unflushed_refuted.

(** Ids 0, 1, 9. *)
Definition tab_gap : list (N * vec) := [(0, q_of [0]%Z); (1, q_of [1]%Z); (9, q_of [2]%Z)]%N.
Definition hist_gap : list devent :=
  map (fun p => DEv (EvAdd (mkA (ienv_of l2p tab_gap) (fst p) (snd p) 0))) tab_gap
  ++ [DEv (EvFlush [0; 1; 9]%N 3 100); DDelete [1%N]].
Theorem C45_gap_refuted : exists evs k,
  let h := drun empty_index evs in
  snd (fst (cleanup k h)) = Ok true /\ h_tomb h = [1%N] /\ kv_count h = 5 /\
  option_map v_conns (node_by_id (dstep h (DCleanup k)) 0) = Some [[]] /\
  option_map v_conns (node_by_id (dstep h (DCleanup k)) 9) = Some [[0; 1]]%N.
Proof.
  exists hist_gap, (kplain tab_gap). cbv zeta. split; [vm_compute; reflexivity|]. split; [vm_compute; reflexivity|].
  split; [vm_compute; reflexivity|]. split; vm_compute; reflexivity.
Qed.
Print Assumptions C45_gap_refuted.

(** False for the entry point: a deleted one is replaced by id 0, whether or not
    that is stored; after a restart every query fails. *)
Theorem C45_entry_point_refuted : exists evs k,
  let h := drun empty_index evs in
  let h' := dstep h (DCleanup k) in
  snd (fst (cleanup k h)) = Ok true /\ h_tomb h = [3; 0]%N /\ h_ep h' = 0%N /\
  ids_found (drun h' [DEv EvRestart]) = Err ENodeMissing /\
  ids_found (drun h' [DEv EvRestart; DEv EvQuery]) = Err ENodeMissing.
Proof.
  exists (hist4 ++ [DDelete [0; 3]%N]), kp4. cbv zeta. split; [vm_compute; reflexivity|]. split; [vm_compute; reflexivity|].
  split; [vm_compute; reflexivity|]. split; vm_compute; reflexivity.
Qed.
Print Assumptions C45_entry_point_refuted.

(** False after a restart even if everything is written back: re-linking does not
    mark the vertex for the write-back unless another vertex links to it later
    (delete.go:378-397), so the table keeps the old links. *)
Theorem C45_restart_refuted : exists evs k,
  let h := drun empty_index evs in
  let h' := dstep h (DCleanup k) in
  let r := drun h' [flush_all 5; DEv EvRestart] in
  snd (fst (cleanup k h)) = Ok true /\ h_tomb h = [1%N] /\
  option_map v_conns (node_by_id h' 4) = Some [[0; 2; 3]]%N /\
  option_map v_conns (node_by_id r 4) = Some [[0; 1; 2; 3]]%N.
Proof.
  exists (hist5 ++ [DDelete [1%N]]), kp5. cbv zeta. split; [vm_compute; reflexivity|]. split; [vm_compute; reflexivity|].
  split; vm_compute; reflexivity.
Qed.
Print Assumptions C45_restart_refuted.

(* ------------------------------------------------------------------ *)
(** C53.  Any clean-up, also a failing or interrupted one, keeps every vector
    that is not deleted.  Missing, and false: that it is still found. *)
Theorem C53_vectors_kept_partial : forall k h id v,
  (forall n, sched_ok (i_env (k_env k n))) ->
  (forall id v, node_by_id h id = Some v -> v_id v = id) ->
  node_by_id h id = Some v -> ~ In id (h_tomb h) ->
  let h' := fst (fst (cleanup k h)) in
  (exists v', node_by_id h' id = Some v' /\ v_vec v' = v_vec v) /\ ~ In id (h_tomb h').
Proof.
  intros k h id v Hsc Ho Hv Hid h'. unfold h'. clear h'.
  pose proof (cleanup_cases k h Hsc Ho) as C. cbv zeta in C.
  destruct (cleanup k h) as [[h' r] l]. cbn [fst].
  destruct C as (h1 & K1 & _ & _ & C). destruct (kp_fw _ _ K1 _ _ Hv) as (v1 & Hv1 & Hvec).
  pose proof (proj1 (kp_tomb _ _ K1)) as Ht.
  destruct C as [(-> & _)|(_ & h2 & r2 & Er & C)].
  { rewrite Ht. split; eauto. }
  destruct (remove_all_node k (delete_list h) h1) as (R1 & _ & R3 & _).
  rewrite Er in R1, R3. cbn [fst] in *.
  assert (A : node_by_id h2 id = Some v1) by (rewrite R1; [exact Hv1|now rewrite delete_list_In]).
  assert (B : ~ In id (h_tomb h2)) by (intros H; apply Hid; rewrite <- Ht; auto).
  destruct C as [(_ & _ & ->)|(_ & _ & ->)]; [|eauto].
  unfold reset_if_empty. destruct (k_empty_fails k || is_empty h2); cbn [reset h_tomb]; split; auto; exists v1; auto.
Qed.
Print Assumptions C53_vectors_kept_partial.

Example C53_nonvacuous :
  let h := drun empty_index (hist4 ++ [DDelete [1%N]]) in
  (forall id v, node_by_id h id = Some v -> v_id v = id) /\
  node_by_id h 2 <> None /\ ~ In 2%N (h_tomb h) /\ snd (fst (cleanup kp4 h)) = Ok true.
Proof.
  cbv zeta. split; [apply check_own; vm_compute; reflexivity|]. split; [vm_compute; discriminate|].
  split; [vm_compute; intuition discriminate|vm_compute; reflexivity].
Qed.

(** One deletion cuts the entry point off: it has a link to the deleted vertex, is
    its own best entry point, and loses all links (delete.go:345-361).  No query
    finds anything but the entry point any more, also after a restart.  The
    re-linked vertices get links to themselves. *)
Theorem C53_findable_refuted : exists evs k,
  let h := drun empty_index evs in
  let h' := dstep h (DCleanup k) in
  ids_found h = Ok [0; 2; 3]%N /\ h_tomb h = [1%N] /\ snd (fst (cleanup k h)) = Ok true /\
  ids_found h' = Ok [3%N] /\
  ids_found (drun h' [flush_all 4; DEv EvRestart; DEv EvQuery]) = Ok [3%N] /\
  option_map v_conns (node_by_id h' 2) = Some [[0; 3; 2]]%N.
Proof.
  exists (hist4 ++ [DDelete [1%N]]), kp4. cbv zeta. split; [vm_compute; reflexivity|]. split; [vm_compute; reflexivity|].
  split; [vm_compute; reflexivity|]. split; [vm_compute; reflexivity|]. split; vm_compute; reflexivity.
Qed.
Print Assumptions C53_findable_refuted.

(* ------------------------------------------------------------------ *)
(** C54.  After a clean-up that ran to its end an id added again is stored with
    its new vector and not hidden by a tombstone.  Missing, and false: an id
    added again before the clean-up (refuted below). *)
Theorem C54_added_again_partial : forall k h h' l I id q t,
  (forall n, sched_ok (i_env (k_env k n))) ->
  (forall id v, node_by_id h id = Some v -> v_id v = id) ->
  (forall n, k_break_reassign k n = false) -> k_break_copy k = false -> k_break_replace k = false ->
  cleanup k h = (h', Ok true, l) ->
  snd (add I h' id q t) = Ok tt ->
  let h2 := fst (add I h' id q t) in
  ~ In id (h_tomb h2) /\
  exists v, node_by_id h2 id = Some v /\ v_vec v = p_normalize (e_prov (i_env I)) q.
Proof.
  intros k h h' l I id q t Hsc Ho Hb1 Hb2 Hb3 Hc Hadd h2.
  pose proof (cleanup_cases k h Hsc Ho) as C. cbv zeta in C. rewrite Hc in C.
  destruct C as (h1 & K1 & N1 & _ & C).
  destruct C as [(_ & Hbr)|(_ & h3 & r2 & Er & C)].
  { exfalso. destruct (Hbr eq_refl) as [H|[(n & H)|H]]; [congruence|rewrite Hb1 in H; discriminate|congruence]. }
  destruct (remove_all_node k (delete_list h) h1) as (R1 & R2 & R3 & R4 & _).
  rewrite Er in R1, R2, R3, R4. cbn [fst snd] in *.
  destruct C as [(-> & _ & ->)|(_ & H & _)]; [|congruence].
  assert (Hown : own (reset_if_empty k h3)).
  { unfold reset_if_empty. destruct (k_empty_fails k || is_empty h3);
      intros j w Hw; apply (kp_own _ _ K1 Ho), R2; exact Hw. }
  split; [|exact (add_stores I _ id q t Hown Hadd)].
  unfold h2. rewrite add_tomb.
  assert (Ht : h_tomb (reset_if_empty k h3) = h_tomb h3).
  { unfold reset_if_empty. destruct (k_empty_fails k || is_empty h3); reflexivity. }
  rewrite Ht. intros Hin. apply (R4 eq_refl id Hin). apply delete_list_In.
  rewrite <- (proj1 (kp_tomb _ _ K1)). auto.
Qed.
Print Assumptions C54_added_again_partial.

Example C54_nonvacuous :
  let h := drun empty_index (hist5 ++ [DDelete [1%N]]) in
  let h' := dstep h (DCleanup kp5) in
  (forall id v, node_by_id h id = Some v -> v_id v = id) /\
  snd (fst (cleanup kp5 h)) = Ok true /\
  snd (add (ienv_of l2p (tab_of pts5)) h' 1 (q_of [1]%Z) 0) = Ok tt /\
  ids_found (fst (add (ienv_of l2p (tab_of pts5)) h' 1 (q_of [1]%Z) 0)) = Ok [0; 1; 2; 3; 4]%N.
Proof.
  cbv zeta. split; [apply check_own; vm_compute; reflexivity|]. split; [vm_compute; reflexivity|].
  split; vm_compute; reflexivity.
Qed.

(** Adding an id again before the clean-up succeeds, but the tombstone stays: the
    vector is not found, and the clean-up then removes it from the table. *)
Theorem C54_before_cleanup_refuted : exists evs k,
  let h := drun empty_index evs in
  let o := mkA (ienv_of l2p (tab_of pts5)) 1 (q_of [1]%Z) 0 in
  let h2 := dstep h (DEv (EvAdd o)) in
  snd (ev_step h (EvAdd o)) = Ok tt /\ h_tomb h = [1%N] /\
  ids_found h2 = Ok [0; 2; 3; 4]%N /\
  ids_found (drun h2 [flush_all 5; DCleanup k; flush_all 5; DEv EvRestart; DEv EvQuery]) = Ok [0; 2; 3; 4]%N.
Proof.
  exists (hist5 ++ [DDelete [1%N]]), kp5. cbv zeta. split; [vm_compute; reflexivity|]. split; [vm_compute; reflexivity|].
  split; vm_compute; reflexivity.
Qed.
Print Assumptions C54_before_cleanup_refuted.

(* ------------------------------------------------------------------ *)
(** C55.  A clean-up, also an interrupted one or one whose vector source or count
    fails, leaves no lock held, if KVDelete does not fail and a deleted entry
    point is stored.  Missing, and false: these two errors. *)
Theorem C55_no_lock_left_partial : forall k h,
  (forall n, sched_ok (i_env (k_env k n))) ->
  (forall id v, node_by_id h id = Some v -> v_id v = id) ->
  (forall id, In id (h_tomb h) -> k_delete_fails k id = false) ->
  (In (h_ep h) (h_tomb h) -> node_by_id h (h_ep h) <> None) ->
  snd (cleanup k h) = no_locks /\ forall h' e, returns (snd (cleanup k h)) h' e = true.
Proof.
  intros k h Hsc Ho Hd Hep. pose proof (cleanup_locks k h Hsc Ho Hd Hep) as H. rewrite H.
  split; [reflexivity|]. intros h' e. destruct e as [[o| | |]|ids|k']; try reflexivity.
  cbn. destruct (a_vec o); reflexivity.
Qed.
Print Assumptions C55_no_lock_left_partial.

Example C55_nonvacuous :
  let h := drun empty_index (hist5 ++ [DDelete [3%N]]) in
  (forall id v, node_by_id h id = Some v -> v_id v = id) /\
  (In (h_ep h) (h_tomb h) -> node_by_id h (h_ep h) <> None) /\
  snd (fst (cleanup kp5x h)) = Err EVectorSource.
Proof.
  cbv zeta. split; [apply check_own; vm_compute; reflexivity|]. split; [vm_compute; discriminate|vm_compute; reflexivity].
Qed.

(** KVDelete fails: the reset lock stays locked (delete.go:608-613), the next
    clean-up cycle never returns, and neither does a Delete of the entry point;
    the tombstone is gone, the node is not. *)
Theorem C55_store_error_refuted : exists evs k,
  let h := drun empty_index evs in
  let '(h', r, l) := cleanup k h in
  h_tomb h = [1%N] /\ r = Err EStore /\ returns l h' (DCleanup k) = false /\ returns l h' (DDelete [h_ep h']) = false /\
  h_tomb h' = [] /\ node_by_id (restart h') 1 <> None.
Proof.
  exists (hist5 ++ [DDelete [1%N]]),
    (mkK (k_env kp5) (k_vec kp5) [] false (fun _ => false) false (fun _ => false) false (fun _ => true) false).
  vm_compute. split; [reflexivity|]. split; [reflexivity|]. split; [reflexivity|]. split; [reflexivity|].
  split; [reflexivity|discriminate].
Qed.
Print Assumptions C55_store_error_refuted.

(** A Delete of ids that were never added, the zero entry point among them: the
    clean-up fails with the read lock held (delete.go:235-253), and no insertion
    returns any more. *)
Theorem C55_missing_entry_point_refuted : exists evs k o,
  let h := drun empty_index evs in
  let '(h', r, l) := cleanup k h in
  r = Err ENodeMissing /\ returns l h' (DEv (EvAdd o)) = false /\ returns no_locks h' (DEv (EvAdd o)) = true.
Proof.
  exists [DDelete [0%N]], kp4, (mkA (ienv_of l2p (tab_of pts4)) 1 (q_of [1]%Z) 0).
  vm_compute. split; [reflexivity|]. split; reflexivity.
Qed.
Print Assumptions C55_missing_entry_point_refuted.

(** The locks a clean-up leaves, in general: none if it returns no error, and never
    both. *)
Theorem C55_locks_left : forall k h h' r l, cleanup k h = (h', r, l) ->
  ((forall e, r <> Err e) -> l = no_locks) /\ (l_reset l = false \/ l_read l = false).
Proof.
  intros k h h' r l. unfold cleanup.
  repeat match goal with
  | |- context [if ?b then _ else _] => destruct b
  | |- context [match ?x with _ => _ end] => destruct x
  end; intros [= <- <- <-]; (split; [intros He; try reflexivity; exfalso; eapply He; reflexivity|cbn; auto]).
Qed.
Print Assumptions C55_locks_left.
Example C55_locks_left_nonvacuous :
  let '(_, r, l) := cleanup (mkK (k_env kp5) (k_vec kp5) [] false (fun _ => false) false (fun _ => false) false (fun _ => true) false)
                      (drun empty_index (hist5 ++ [DDelete [1%N]])) in
  r = Err EStore /\ l = mkLocks true false /\ snd (cleanup kp4 (drun empty_index [DDelete [0%N]])) = mkLocks false true.
Proof. vm_compute. repeat split; reflexivity. Qed.
