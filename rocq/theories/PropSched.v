(** Property C07: independence of goroutine timing. *)
From Verif Require Import Base F32 PQ PQProofs Graph Search SearchProofs SearchLayer SearchKnn
  SearchSched Insert InsertProofs InsertHist InsertDim InsertFacts Distancer DistancerProofs PropDistancer
  TestGraph TestInsert PropSearch PropInsert.

(** Two environments that differ in the schedule only give the same answer,
    including distances, errors and panics, provided no two stored vectors are
    equally far from the query.  Missing: queries with ties, where it is false
    (below). *)
Theorem C07_schedule_independent_partial : forall E1 E2 h q0 maxd ef allow,
  sched_ok E1 -> sched_ok E2 -> e_prov E1 = e_prov E2 -> e_vcap E1 = e_vcap E2 ->
  prov_sym (e_prov E1) -> ids_small E1 h ->
  dists_num (e_prov E1) h (p_normalize (e_prov E1) q0) ->
  (forall a b da db, true_dist (e_prov E1) h (p_normalize (e_prov E1) q0) a da ->
     true_dist (e_prov E1) h (p_normalize (e_prov E1) q0) b db -> a <> b ->
     flt da db = true \/ flt db da = true) ->
  (1 <= ef)%Z ->
  knn_max_dist E1 h q0 maxd ef allow = knn_max_dist E2 h q0 maxd ef allow.
Proof.
  exact (fun E1 E2 h q0 maxd ef allow H1 H2 HP Hc Hs Hi Hn Hd He =>
    knn_max_dist_same E1 E2 h HP Hc H1 H2 Hs Hi q0 maxd ef allow Hn Hd He).
Qed.
Print Assumptions C07_schedule_independent_partial.

(** The same for a query by number of results (knnSearchByVector), whose vector
    is already normalised. *)
Theorem C07_schedule_independent_knn_partial : forall E1 E2 h q k ef allow,
  sched_ok E1 -> sched_ok E2 -> e_prov E1 = e_prov E2 -> e_vcap E1 = e_vcap E2 ->
  prov_sym (e_prov E1) -> ids_small E1 h -> dists_num (e_prov E1) h q ->
  (forall a b da db, true_dist (e_prov E1) h q a da -> true_dist (e_prov E1) h q b db -> a <> b ->
     flt da db = true \/ flt db da = true) ->
  (1 <= ef)%Z ->
  knn_search E1 h q k ef allow = knn_search E2 h q k ef allow.
Proof.
  exact (fun E1 E2 h q k ef allow H1 H2 HP Hc Hs Hi Hn Hd He =>
    knn_search_same E1 E2 h HP Hc H1 H2 Hs Hi q k ef allow Hn Hd He).
Qed.
Print Assumptions C07_schedule_independent_knn_partial.

Definition dist_of (P : provider) (q : vec) (v : vertex) : option f32 := p_query P q (v_vec v).
Definition check_distinct (P : provider) (h : hnsw) (q : vec) : bool :=
  all_nodes h (fun a va => all_nodes h (fun b vb => N.eqb a b ||
    match dist_of P q va, dist_of P q vb with
    | Some da, Some db => flt da db || flt db da
    | _, _ => true
    end)).
Lemma check_distinct_spec P h q : check_distinct P h q = true -> dists_distinct P h q.
Proof.
  intros H a b da db (va & Ha & Hda) (vb & Hb & Hdb) Hne.
  pose proof (all_nodes_spec _ _ H a va Ha) as H1. pose proof (all_nodes_spec _ _ H1 b vb Hb) as H2.
  cbn beta in H2. unfold dist_of in H2. rewrite Hda, Hdb in H2.
  destruct (N.eqb_spec a b) as [|_]; [contradiction|]. cbn [orb] in H2. now apply orb_true_iff in H2.
Qed.

Example C07_nonvacuous : sched_ok (env_fwd l2p) /\ sched_ok (env_rev l2p) /\ prov_sym l2p /\
  ids_small (env_fwd l2p) tg /\ dists_num l2p tg (q_of [6]%Z) /\ dists_distinct l2p tg (q_of [6]%Z) /\
  exists ds, knn_max_dist (env_rev l2p) tg (q_of [6]%Z) (f32_of_Z 99) 3 None = Ok ([2; 3; 1]%N, ds).
Proof.
  split; [apply env_fwd_sched|]. split; [apply env_rev_sched|].
  split; [apply known_provider_sym; repeat constructor|].
  split; [apply check_small; vm_compute; reflexivity|].
  split; [apply check_dists; vm_compute; reflexivity|].
  split; [apply check_distinct_spec; vm_compute; reflexivity|]. eexists. vm_compute. reflexivity.
Qed.

(** With two vectors at the same distance the answer depends on which distance
    arrives first: client parameters, three vectors, query for the single
    nearest. *)
Definition hist_tie : list aop :=
  history (ienv_of cosp) [([-1; 0]%Z, 0); ([0; 1]%Z, 0); ([0; -1]%Z, 0)].

Theorem C07_tie_refuted : exists E1 E2 ops q0 maxd,
  sched_ok E1 /\ sched_ok E2 /\ e_prov E1 = e_prov E2 /\ e_vcap E1 = e_vcap E2 /\
  Forall (call_ok 25500) ops /\ Forall (fun r => r = Ok tt) (snd (run_adds empty_index ops)) /\
  let h := fst (run_adds empty_index ops) in
  exists ds1 ds2,
    knn_max_dist E1 h q0 maxd 1 None = Ok ([1%N], ds1) /\
    knn_max_dist E2 h q0 maxd 1 None = Ok ([2%N], ds2).
Proof.
  exists (env_fwd cosp), (env_rev cosp), hist_tie, (q_of [1; 0]%Z), (f32_of_Z 2).
  split; [apply env_fwd_sched|]. split; [apply env_rev_sched|]. split; [reflexivity|]. split; [reflexivity|].
  split; [apply history_calls; [exact cosp_known|reflexivity]|].
  split; [vm_compute; repeat constructor|]. eexists _, _. split; vm_compute; reflexivity.
Qed.
Print Assumptions C07_tie_refuted.
