(** Properties C01-C05, C09, C10 and C46 about searches, for an arbitrary link
    graph [h], environment [E] (distance provider, goroutine schedule, visited
    pool) and query.

    Vocabulary (SearchProofs.v, SearchKnn.v): [true_dist P h q id d]: id is
    stored and d is the distance function applied to q and its vector;
    [ldown h l a b]: b is reached from a by links of layers l, ..., 0;
    [answer out]: the (id, distance) pairs of an answer; [asc]: sorted by
    distance; [kbest k r all]: r is k smallest elements of all.
    [ids_small]: all ids are below the length of the pooled visited list. *)
From Verif Require Import Base F32 PQ PQProofs Graph Search SearchProofs SearchLayer SearchKnn
  SearchCount Distancer DistancerProofs PropDistancer TestGraph.

(** The provider hypothesis is true of every concrete provider. *)
Theorem known_provider_sym : forall P, known_provider P -> prov_sym P.
Proof. exact (fun P HP a b => let '(conj H1 (conj H2 H3)) := known_sym P a b HP in eq_trans H2 H3). Qed.

(* ---- C01 ---- *)
Theorem C01_results_real_distinct : forall E h q0 maxd ef allow out,
  sched_ok E -> prov_sym (e_prov E) -> ids_small E h ->
  knn_max_dist E h q0 maxd ef allow = Ok out ->
  NoDup (fst out) /\
  forall id, In id (fst out) ->
    (exists v, node_by_id h id = Some v) /\ ldown h (h_maxl h) (h_ep h) id.
Proof.
  exact (fun E h q0 maxd ef allow out Hsc Hsym Hsm H =>
    let '(conj Hnd (conj _ (conj _ Hin))) := knn_max_dist_sound E h Hsc Hsym Hsm q0 maxd ef allow out H in
    conj Hnd (fun id Hid =>
      let '(ex_intro _ i Hi) := In_nth_error _ _ Hid in
      let '(ex_intro _ d (conj _ (conj (ex_intro _ v (conj Hv _)) (conj Hl _)))) := Hin i id Hi in
      conj (ex_intro _ v Hv) Hl)).
Qed.
Print Assumptions C01_results_real_distinct.

Theorem C01_results_real_distinct_index : forall E h q k ef allow out,
  sched_ok E -> prov_sym (e_prov E) -> ids_small E h ->
  knn_search E h q k ef allow = Ok out ->
  NoDup (fst out) /\
  forall x, In x (answer out) ->
    true_dist (e_prov E) h q (it_id x) (it_dist x) /\ ldown h (h_maxl h) (h_ep h) (it_id x).
Proof.
  exact (fun E h q k ef allow out Hsc Hsym Hsm H =>
    let '(conj Hnd (conj _ (conj _ (conj Hin _)))) := knn_search_sound E h Hsc Hsym Hsm q k ef allow out H in
    conj Hnd (fun x Hx => let '(conj H1 (conj H2 _)) := Hin x Hx in conj H1 H2)).
Qed.
Print Assumptions C01_results_real_distinct_index.

Example C01_nonvacuous :
  sched_ok (env_rev l2p) /\ prov_sym l2p /\ ids_small (env_rev l2p) tg /\
  exists ds, knn_max_dist (env_rev l2p) tg (q_of [6]%Z) (f32_of_Z 30) 5 None = Ok ([2; 3; 1]%N, ds).
Proof.
  split; [apply env_rev_sched|]. split; [apply known_provider_sym; repeat constructor|].
  split; [apply check_small; vm_compute; reflexivity|]. eexists. vm_compute. reflexivity.
Qed.

(** Without [ids_small] distinctness fails: the mark of an entry point beyond
    the pooled list's length is lost (visited list passed by value). *)
Definition big_graph : hnsw :=
  mkH [] [(30000, vtx 30000 [[1]] [0]%Z); (1, vtx 1 [[30000]] [2]%Z)]%N (Some 30000%N) (Some 2%N) 30000 0 [] true.
Theorem C01_distinct_large_ids_refuted : exists E h q0 maxd ef out,
  sched_ok E /\ prov_sym (e_prov E) /\
  knn_max_dist E h q0 maxd ef None = Ok out /\ ~ NoDup (fst out).
Proof.
  exists (env_fwd l2p), big_graph, (q_of [0]%Z), (f32_of_Z 30), 10%Z. eexists.
  split; [apply env_fwd_sched|]. split; [apply known_provider_sym; repeat constructor|].
  split; [vm_compute; reflexivity|]. cbn. intros H. inversion H as [|a b H1 _]. apply H1. now left.
Qed.
Print Assumptions C01_distinct_large_ids_refuted.

(* ---- C02 ---- *)
Theorem C02_true_distances_sorted : forall E h q0 maxd ef allow out,
  sched_ok E -> prov_sym (e_prov E) -> ids_small E h ->
  dists_num (e_prov E) h (p_normalize (e_prov E) q0) ->
  knn_max_dist E h q0 maxd ef allow = Ok out ->
  length (fst out) <= length (snd out) /\
  (forall i id, nth_error (fst out) i = Some id ->
     exists d, nth_error (snd out) i = Some d /\
       true_dist (e_prov E) h (p_normalize (e_prov E) q0) id d) /\
  (forall i j di dj, i <= j < length (fst out) ->
     nth_error (snd out) i = Some di -> nth_error (snd out) j = Some dj -> flt dj di = false).
Proof. exact knn_max_dist_aligned. Qed.
Print Assumptions C02_true_distances_sorted.

Theorem C02_true_distances_sorted_index : forall E h q k ef allow out,
  sched_ok E -> prov_sym (e_prov E) -> ids_small E h -> dists_num (e_prov E) h q ->
  knn_search E h q k ef allow = Ok out ->
  length (fst out) = length (snd out) /\ asc (answer out) /\
  (forall x, In x (answer out) -> true_dist (e_prov E) h q (it_id x) (it_dist x)).
Proof.
  exact (fun E h q k ef allow out Hsc Hsym Hsm Hn H =>
    let '(conj _ (conj Hl (conj _ (conj Hin (conj _ (conj _ Ha)))))) :=
      knn_search_sound E h Hsc Hsym Hsm q k ef allow out H in
    conj Hl (conj (Ha Hn) (fun x Hx => proj1 (Hin x Hx)))).
Qed.
Print Assumptions C02_true_distances_sorted_index.

Example C02_nonvacuous : dists_num l2p tg (p_normalize l2p (q_of [6]%Z)) /\
  knn_max_dist (env_rev l2p) tg (q_of [6]%Z) (f32_of_Z 30) 5 None =
    Ok ([2; 3; 1]%N, [f32_of_Z 1; f32_of_Z 9; f32_of_Z 16; f32_zero; f32_zero]).
Proof. split; [apply check_dists|]; vm_compute; reflexivity. Qed.

(** With a NaN among the distances the order is lost. *)
Definition nan_graph : hnsw :=
  mkH [] [(0, vtx 0 [[1; 2; 3; 4]] [1]%Z); (1, mkV 1 0 [[0]] false [S754_nan] true);
          (2, vtx 2 [[0]] [2]%Z); (3, vtx 3 [[0]] [3]%Z); (4, vtx 4 [[0]] [4]%Z)]%N
      (Some 0%N) (Some 5%N) 0 0 [] true.
Theorem C02_sorted_nan_refuted : exists E h q0 maxd ef out,
  sched_ok E /\ prov_sym (e_prov E) /\ ids_small E h /\
  knn_max_dist E h q0 maxd ef None = Ok out /\
  exists i j di dj, i < j < length (fst out) /\ nth_error (snd out) i = Some di /\
    nth_error (snd out) j = Some dj /\ flt dj di = true.
Proof.
  exists (env_fwd l2p), nan_graph, (q_of [0]%Z), (f32_of_Z 30), 10%Z. eexists.
  split; [apply env_fwd_sched|]. split; [apply known_provider_sym; repeat constructor|].
  split; [apply check_small; vm_compute; reflexivity|].
  split; [vm_compute; reflexivity|]. cbn. exists 3, 4. do 2 eexists. repeat split; cbn; try lia.
Qed.
Print Assumptions C02_sorted_nan_refuted.

(* ---- C03 ---- *)
Theorem C03_bound_and_limit : forall E h q0 maxd ef allow out,
  sched_ok E -> prov_sym (e_prov E) -> ids_small E h ->
  knn_max_dist E h q0 maxd ef allow = Ok out ->
  (Z.of_nat (length (fst out)) <= Z.max ef 1)%Z /\
  forall i id, nth_error (fst out) i = Some id ->
    exists d, nth_error (snd out) i = Some d /\ fgt d maxd = false.
Proof.
  exact (fun E h q0 maxd ef allow out Hsc Hsym Hsm H =>
    let '(conj _ (conj _ (conj Hl Hin))) := knn_max_dist_sound E h Hsc Hsym Hsm q0 maxd ef allow out H in
    conj Hl (fun i id Hi =>
      let '(ex_intro _ d (conj H1 (conj _ (conj _ (conj _ (conj H2 _)))))) := Hin i id Hi in
      ex_intro _ d (conj H1 H2))).
Qed.
Print Assumptions C03_bound_and_limit.

Theorem C03_limit_index : forall E h q k ef allow out,
  sched_ok E -> prov_sym (e_prov E) -> ids_small E h ->
  knn_search E h q k ef allow = Ok out -> (Z.of_nat (length (fst out)) <= Z.max 0 k)%Z.
Proof.
  exact (fun E h q k ef allow out Hsc Hsym Hsm H =>
    proj1 (proj2 (proj2 (knn_search_sound E h Hsc Hsym Hsm q k ef allow out H)))).
Qed.
Print Assumptions C03_limit_index.

Example C03_nonvacuous : exists ds,
  knn_max_dist (env_fwd l2p) tg (q_of [6]%Z) (f32_of_Z 30) 2 None = Ok ([2; 3]%N, ds) /\
  knn_max_dist (env_fwd l2p) tg (q_of [6]%Z) (f32_of_Z 4) 5 None = Ok ([2]%N, f32_of_Z 1 :: repeat f32_zero 4).
Proof. eexists. split; vm_compute; reflexivity. Qed.

(* ---- C04 ---- *)
(** No graph makes a search run forever: the model's fuel (one more than the
    number of stored vectors, per layer) never runs out. *)
Theorem C04_terminates : forall E h q0 maxd ef allow,
  sched_ok E -> knn_max_dist E h q0 maxd ef allow <> OutOfFuel.
Proof. exact (fun E h q0 maxd ef allow Hsc => knn_max_dist_no_fuel E h Hsc q0 maxd ef allow). Qed.
Print Assumptions C04_terminates.

Theorem C04_terminates_index : forall E h q k ef allow,
  sched_ok E -> knn_search E h q k ef allow <> OutOfFuel.
Proof. exact (fun E h q k ef allow Hsc => knn_search_no_fuel E h Hsc q k ef allow). Qed.
Print Assumptions C04_terminates_index.

(** With connection lists for every layer a vector is on ([wf_levels], an
    invariant of insertion), the search also succeeds whenever the query can be
    compared with the entry point. *)
Theorem C04_succeeds : forall E h q0 maxd ef allow d0,
  sched_ok E -> prov_sym (e_prov E) -> ids_small E h -> wf_levels h ->
  dist_node_vec (e_prov E) h (h_ep h) (p_normalize (e_prov E) q0) = Ok d0 ->
  exists out, knn_max_dist E h q0 maxd ef allow = Ok out.
Proof. exact (fun E h q0 maxd ef allow d0 Hsc Hsym Hsm Hwf => knn_max_dist_total E h Hsc Hsym Hsm q0 maxd ef allow d0 Hwf). Qed.
Print Assumptions C04_succeeds.

(** Each id is evaluated at most once per layer, only ids that are linked on
    that layer are evaluated, and the entry point not again. *)
Theorem C04_each_id_evaluated_once : forall E h q ef level allow ep r log,
  search_layer_log E h q ef level allow (pq_insert less_min ep []) = Ok (r, log) ->
  NoDup log /\ (forall x, In x log -> linked h level x) /\
  ((it_id ep < e_vcap E)%N -> ~ In (it_id ep) log).
Proof. exact layer_log_once. Qed.
Print Assumptions C04_each_id_evaluated_once.

(** The logging search is the search. *)
Theorem C04_log_erases : forall E h q ef level allow eps,
  bind (search_layer_log E h q ef level allow eps) (fun p => Ok (fst p)) =
  search_layer E h q ef level allow eps.
Proof. exact layer_log_erase. Qed.
Print Assumptions C04_log_erases.

Example C04_nonvacuous :
  wf_levels tg /\ dist_node_vec l2p tg (h_ep tg) (q_of [6]%Z) = Ok f32_one /\
  exists r, search_layer_log (env_rev l2p) tg (q_of [6]%Z) 5 0 None
              (pq_insert less_min (mkItem 2 f32_one) []) = Ok (r, [4; 99; 3; 1; 0]%N).
Proof. split; [apply check_levels; vm_compute; reflexivity|]. split; [vm_compute; reflexivity|]. eexists. vm_compute. reflexivity. Qed.

(* ---- C05 ---- *)
(** [e] is the entry point of the ground layer. *)
Theorem C05_exhaustive : forall E h q0 maxd ef allow out,
  sched_ok E -> prov_sym (e_prov E) -> ids_small E h ->
  dists_num (e_prov E) h (p_normalize (e_prov E) q0) ->
  (forall id v, node_by_id h id = Some v ->
     exists d, p_query (e_prov E) (p_normalize (e_prov E) q0) (v_vec v) = Some d) ->
  knn_max_dist E h q0 maxd ef allow = Ok out ->
  exists e ve, node_by_id h e = Some ve /\
    (forall id, reach h 0 e id -> ldown h (h_maxl h) (h_ep h) id) /\
    forall R,
      (forall id v, reach h 0 e id -> node_by_id h id = Some v -> In id R) ->
      (Z.of_nat (length R) <= ef)%Z ->
      forall id d, reach h 0 e id ->
        true_dist (e_prov E) h (p_normalize (e_prov E) q0) id d ->
        has_tombstone h id = false -> (forall f, allow = Some f -> f id = true) ->
        flt d f32_zero = false -> fgt d maxd = false -> In (mkItem id d) (answer out).
Proof. exact exhaustive_spelled. Qed.
Print Assumptions C05_exhaustive.

(** If the ground layer is strongly connected and ef is at least the number of
    stored vectors, recall is 1. *)
Theorem C05_exhaustive_connected : forall E h q0 maxd ef allow out,
  sched_ok E -> prov_sym (e_prov E) -> ids_small E h ->
  dists_num (e_prov E) h (p_normalize (e_prov E) q0) ->
  (forall id v, node_by_id h id = Some v ->
     exists d, p_query (e_prov E) (p_normalize (e_prov E) q0) (v_vec v) = Some d) ->
  (forall a b va vb, node_by_id h a = Some va -> node_by_id h b = Some vb -> reach h 0 a b) ->
  (Z.of_nat (length (nodup N.eq_dec (stored_ids h))) <= ef)%Z ->
  knn_max_dist E h q0 maxd ef allow = Ok out ->
  forall id d, true_dist (e_prov E) h (p_normalize (e_prov E) q0) id d ->
    has_tombstone h id = false -> (forall f, allow = Some f -> f id = true) ->
    flt d f32_zero = false -> fgt d maxd = false -> In (mkItem id d) (answer out).
Proof. exact connected_spelled. Qed.
Print Assumptions C05_exhaustive_connected.

Example C05_nonvacuous :
  (forall id v, node_by_id tg id = Some v -> exists d, p_query l2p (q_of [6]%Z) (v_vec v) = Some d) /\
  (forall a b va vb, node_by_id tg a = Some va -> node_by_id tg b = Some vb -> reach tg 0 a b) /\
  length (nodup N.eq_dec (stored_ids tg)) = 5 /\
  exists ds, knn_max_dist (env_rev l2p) tg (q_of [6]%Z) (f32_of_Z 100) 5 None = Ok ([2; 3; 1; 0; 4]%N, ds).
Proof.
  split; [apply check_comparable; vm_compute; reflexivity|]. split.
  - assert (H0 : forall a va, node_by_id tg a = Some va -> reach tg 0 a 0%N /\ reach tg 0 0%N a).
    { intros a va Ha. apply node_in in Ha. cbn in Ha.
      repeat (destruct Ha as [Ha|Ha]); try contradiction; inversion Ha; subst; split;
        first [apply reach_refl
              | now (apply (path_reach tg 0 [])) | now (apply (path_reach tg 0 [1%N]))
              | now (apply (path_reach tg 0 [1; 3]%N)) | now (apply (path_reach tg 0 [3; 1]%N))]. }
    intros a b va vb Ha Hb. eapply reach_trans; [apply (H0 a va Ha)|apply (H0 b vb Hb)].
  - split; [vm_compute; reflexivity|]. eexists. vm_compute. reflexivity.
Qed.

(** The query also drops every vector with a negative distance, so the bound
    must be read together with "distance at least 0" ([flt d 0 = false]
    above).  With the dot distance that is the closest vectors. *)
Definition neg_graph : hnsw :=
  mkH [] [(0, vtx 0 [[1]] [3]%Z); (1, vtx 1 [[0]] [-1]%Z)]%N (Some 0%N) (Some 2%N) 0 0 [] true.
Theorem C05_negative_distance_refuted : exists E h q0 maxd ef out id d,
  sched_ok E /\ prov_sym (e_prov E) /\ ids_small E h /\
  dists_num (e_prov E) h (p_normalize (e_prov E) q0) /\
  knn_max_dist E h q0 maxd ef None = Ok out /\ (2 <= ef)%Z /\ length (stored_ids h) = 2 /\
  reach h 0 (h_ep h) id /\ true_dist (e_prov E) h (p_normalize (e_prov E) q0) id d /\
  fgt d maxd = false /\ ~ In id (fst out).
Proof.
  exists (env_fwd (dot_provider dot_go)), neg_graph, (q_of [2]%Z), (f32_of_Z 30), 10%Z.
  exists ([1%N], [f32_of_Z 2; f32_zero]), 0%N, (f32_of_Z (-6)).
  split; [apply env_fwd_sched|]. split; [apply known_provider_sym; repeat constructor|].
  split; [apply check_small; vm_compute; reflexivity|].
  split; [apply check_dists; vm_compute; reflexivity|].
  split; [vm_compute; reflexivity|]. split; [lia|]. split; [reflexivity|]. split; [constructor|].
  split; [eexists; split; vm_compute; reflexivity|]. split; [vm_compute; reflexivity|].
  cbn. intros [H|[]]. discriminate.
Qed.
Print Assumptions C05_negative_distance_refuted.

(* ---- C08, search part ---- *)
Theorem C08_tombstoned_never_returned : forall E h q0 maxd ef allow out,
  sched_ok E -> prov_sym (e_prov E) -> ids_small E h ->
  knn_max_dist E h q0 maxd ef allow = Ok out ->
  forall id, In id (fst out) -> has_tombstone h id = false.
Proof.
  exact (fun E h q0 maxd ef allow out Hsc Hsym Hsm H id Hid =>
    let '(conj _ (conj _ (conj _ Hin))) := knn_max_dist_sound E h Hsc Hsym Hsm q0 maxd ef allow out H in
    let '(ex_intro _ i Hi) := In_nth_error _ _ Hid in
    let '(ex_intro _ d (conj _ (conj _ (conj _ (conj _ (conj _ (conj Ht _))))))) := Hin i id Hi in Ht).
Qed.
Print Assumptions C08_tombstoned_never_returned.

Theorem C08_tombstoned_never_returned_index : forall E h q k ef allow out,
  sched_ok E -> prov_sym (e_prov E) -> ids_small E h ->
  knn_search E h q k ef allow = Ok out ->
  forall x, In x (answer out) -> has_tombstone h (it_id x) = false.
Proof.
  exact (fun E h q k ef allow out Hsc Hsym Hsm H x Hx =>
    let '(conj _ (conj _ (conj _ (conj Hin _)))) := knn_search_sound E h Hsc Hsym Hsm q k ef allow out H in
    proj1 (proj2 (proj2 (Hin x Hx)))).
Qed.
Print Assumptions C08_tombstoned_never_returned_index.

Example C08_search_nonvacuous : exists ds,
  ids_small (env_rev l2p) tg_del /\ has_tombstone tg_del 1 = true /\
  knn_max_dist (env_rev l2p) tg_del (q_of [3]%Z) (f32_of_Z 30) 5 None = Ok ([2; 0]%N, ds).
Proof. eexists. split; [apply check_small; vm_compute; reflexivity|]. split; vm_compute; reflexivity. Qed.

(* ---- C09 ---- *)
Theorem C09_allow_list : forall E h q k ef f out,
  sched_ok E -> prov_sym (e_prov E) -> ids_small E h ->
  knn_search E h q k ef (Some f) = Ok out ->
  forall id, In id (fst out) -> f id = true.
Proof. exact knn_search_allow. Qed.
Print Assumptions C09_allow_list.

Theorem C09_allow_list_max_dist : forall E h q0 maxd ef f out,
  sched_ok E -> prov_sym (e_prov E) -> ids_small E h ->
  knn_max_dist E h q0 maxd ef (Some f) = Ok out ->
  forall id, In id (fst out) -> f id = true.
Proof.
  exact (fun E h q0 maxd ef f out Hsc Hsym Hsm H id Hid =>
    let '(conj _ (conj _ (conj _ Hin))) := knn_max_dist_sound E h Hsc Hsym Hsm q0 maxd ef (Some f) out H in
    let '(ex_intro _ i Hi) := In_nth_error _ _ Hid in
    let '(ex_intro _ d (conj _ (conj _ (conj _ (conj _ (conj _ (conj _ Ha))))))) := Hin i id Hi in Ha f eq_refl).
Qed.
Print Assumptions C09_allow_list_max_dist.

Theorem C09_allow_list_flat : forall E h q k cands out,
  prov_sym (e_prov E) -> dists_num (e_prov E) h q -> (1 <= k)%Z -> NoDup cands ->
  flat_search E h q k cands = Ok out -> forall id, In id (fst out) -> In id cands.
Proof. exact flat_allow. Qed.
Print Assumptions C09_allow_list_flat.

Example C09_nonvacuous : exists ds,
  knn_search (env_rev l2p) tg (q_of [6]%Z) 3 5 (Some (fun x => N.even x)) = Ok ([2; 0; 4]%N, ds).
Proof. eexists. vm_compute. reflexivity. Qed.

(* ---- C10 ---- *)
Theorem C10_flat_search_exact : forall E h q k cands out,
  prov_sym (e_prov E) -> dists_num (e_prov E) h q -> (1 <= k)%Z -> NoDup cands ->
  flat_search E h q k cands = Ok out ->
  exists all, NoDup (map it_id all) /\
    (forall x, In x all <-> In (it_id x) cands /\ has_tombstone h (it_id x) = false /\
                            true_dist (e_prov E) h q (it_id x) (it_dist x)) /\
    kbest (Z.to_nat k) (answer out) all /\ asc (answer out) /\
    map it_id (answer out) = fst out /\ map it_dist (answer out) = snd out.
Proof. exact (fun E h q k cands out Hs Hn Hk => flat_search_spec E h q k Hs Hn Hk cands out). Qed.
Print Assumptions C10_flat_search_exact.

Theorem C10_flat_search_total : forall E h q k cands,
  (1 <= k)%Z ->
  (forall c v, In c cands -> node_by_id h c = Some v -> has_tombstone h c = false ->
     exists d, dist_node_vec (e_prov E) h c q = Ok d) ->
  exists out, flat_search E h q k cands = Ok out.
Proof. exact (fun E h q k cands Hk => flat_search_total E h q k Hk cands). Qed.
Print Assumptions C10_flat_search_total.

Example C10_nonvacuous : exists ds,
  dists_num l2p tg_del (q_of [6]%Z) /\ NoDup [0; 1; 3; 4; 77]%N /\
  flat_search (env_fwd l2p) tg_del (q_of [6]%Z) 2 [0; 1; 3; 4; 77]%N = Ok ([3; 0]%N, ds).
Proof.
  eexists. split; [apply check_dists; vm_compute; reflexivity|]. split; [|vm_compute; reflexivity].
  repeat constructor; cbn; intuition discriminate.
Qed.

(** k = 0 panics (Top of an empty queue) instead of returning nothing. *)
Theorem C10_limit_zero_refuted : exists E h q cands,
  prov_sym (e_prov E) /\ dists_num (e_prov E) h q /\ NoDup cands /\
  flat_search E h q 0 cands = Panic.
Proof.
  exists (env_fwd l2p), tg, (q_of [6]%Z), [0%N].
  split; [apply known_provider_sym; repeat constructor|].
  split; [apply check_dists; vm_compute; reflexivity|]. split; [repeat constructor; cbn; tauto|].
  vm_compute. reflexivity.
Qed.
Print Assumptions C10_limit_zero_refuted.

(* ---- C46 ---- *)
Theorem C46_descent_gets_closer_partial : forall E h q l ep epd e d,
  sched_ok E -> prov_sym (e_prov E) -> ids_small E h -> dists_num (e_prov E) h q ->
  (forall id, has_tombstone h id = false) ->
  true_dist (e_prov E) h q ep epd -> descend E h q l ep epd = Ok (e, d) ->
  true_dist (e_prov E) h q e d /\ flt epd d = false.
Proof.
  exact (fun E h q l ep epd e d Hsc Hsym Hsm Hn Ht Hd Hr =>
    conj (proj1 (descend_sound E h Hsc Hsm q l ep epd e d Hd Hr))
         (descend_closer E h Hsc Hsm q l Hn Ht ep epd e d Hd Hr)).
Qed.
Print Assumptions C46_descent_gets_closer_partial.

Example C46_nonvacuous :
  (forall id, has_tombstone tg id = false) /\
  true_dist l2p tg (q_of [13]%Z) 2 (f32_of_Z 64) /\
  descend (env_rev l2p) tg (q_of [13]%Z) 1 2 (f32_of_Z 64) = Ok (4%N, f32_of_Z 1).
Proof. split; [reflexivity|]. split; [eexists; split|]; vm_compute; reflexivity. Qed.

(** With a deleted entry point the descent can move away from the query. *)
Theorem C46_deleted_entry_refuted : exists E h q l ep epd e d,
  sched_ok E /\ prov_sym (e_prov E) /\ ids_small E h /\ dists_num (e_prov E) h q /\
  true_dist (e_prov E) h q ep epd /\ descend E h q l ep epd = Ok (e, d) /\ flt epd d = true.
Proof.
  exists (env_fwd l2p), (with_tomb tg [2%N]), (q_of [6]%Z), 1, 2%N, f32_one, 4%N, (f32_of_Z 64).
  split; [apply env_fwd_sched|]. split; [apply known_provider_sym; repeat constructor|].
  split; [apply check_small; vm_compute; reflexivity|].
  split; [apply check_dists; vm_compute; reflexivity|].
  split; [eexists; split; vm_compute; reflexivity|]. split; vm_compute; reflexivity.
Qed.
Print Assumptions C46_deleted_entry_refuted.
