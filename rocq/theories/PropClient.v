(** Properties C03 (client part), C22-C27, C44, C47, C48: documents and requests. *)
From Coq Require Import String DecimalString.
From Verif Require Import Base F32 PQ PQProofs Graph Search SearchProofs SearchLayer SearchKnn
  SearchCong Insert HeuristicProofs InsertProofs InsertHist InsertTotal InsertDim InsertSmall InsertFacts InsertFind
  Distancer DistancerProofs PropDistancer TestGraph TestInsert PropSearch PropInsert PropFind
  Persist PersistProofs PersistHist LRU LRUProofs PropPersist Client ClientProofs ClientSafe ClientFacts ClientReq.
Local Open Scope string_scope.

(** Concrete oracles for the examples: everything succeeds. *)
Definition allkeys (h : hnsw) : list N := keys_of (h_cache h).
Definition rok : rorc := mkR true true true allkeys 100 true.
Definition rfail : rorc := mkR true true true allkeys 0 true.
Definition tab2 : list (N * vec) := [(0, q_of [1; 0]%Z); (1, q_of [0; 1]%Z); (2, q_of [1; 1]%Z)]%N.
Definition ook : dorc := mkD (ienv_of cosp tab2) 0 (fun _ => Ok (Some (q_of [1; 1]%Z))) true true.
Definition num (z : Z) : jval := JNum (NilZero.string_of_int (Z.to_int z)).
Definition docv (id : string) (x : list Z) : option docin * dorc :=
  (Some (mkDoc id [("name", JStr id); ("vector", JArr (map num x))]), ook).
Definition doct (id text : string) : option docin * dorc := (Some (mkDoc id [("text", JStr text)]), ook).
Definition qok (n : nat) : qorc := mkQ rok (env_rev cosp) (rev (seq 0 n)) (fun _ => true) (fun _ => 0).
Definition two : f32 := f32_of_Z 2.
(** The add request of the examples. *)
Definition req1 : creq := QAdd rok true ["text"] [docv "a" [1; 0]%Z; docv "b" [0; 1]%Z; doct "c" "hello"].

Lemma rok_ok : rorc_ok rok.
Proof. intros h. apply check_keys, forallb_forall. intros k Hk. now apply memN_In. Qed.

(* ------------------------------------------------------------------ *)
(** C03, client: at most [limit] documents, none beyond the distance, and a
    larger limit only appends (query by vector).  [docs] carries the index id
    of each document in [sd_hnsw]. *)
Theorem C03_client_bound_limit : forall Q st q maxd limit docs dists,
  sched_ok (q_env Q) -> prov_sym (e_prov (q_env Q)) -> ids_small (q_env Q) (c_h st) ->
  snd (near_by_vector Q st q maxd limit) = Ok (docs, dists) ->
  Permutation (q_order Q) (seq 0 (length docs)) ->
  (limit <> 0 -> Z.of_nat (length docs) <= limit)%Z /\
  forall i, i < length docs -> exists x, nth_error dists i = Some x /\ fgt x maxd = false.
Proof. exact near_vec_bound. Qed.
Print Assumptions C03_client_bound_limit.

Theorem C03_client_bound_limit_text : forall Q lookup corpi st maxd limit docs dists,
  sched_ok (q_env Q) -> prov_sym (e_prov (q_env Q)) -> ids_small (q_env Q) (c_h st) ->
  snd (near_by_text Q lookup corpi st maxd limit) = Ok (docs, dists) ->
  Permutation (q_order Q) (seq 0 (length docs)) ->
  (limit <> 0 -> Z.of_nat (length docs) <= limit)%Z /\
  forall i, i < length docs -> exists x, nth_error dists i = Some x /\ fgt x maxd = false.
Proof. exact near_text_bound. Qed.
Print Assumptions C03_client_bound_limit_text.

Theorem C03_larger_limit_appends : forall Q1 Q2 st q maxd l1 l2 docs1 dists1 docs2 dists2,
  (0 < l1 <= l2)%Z -> q_env Q1 = q_env Q2 ->
  snd (near_by_vector Q1 st q maxd l1) = Ok (docs1, dists1) ->
  snd (near_by_vector Q2 st q maxd l2) = Ok (docs2, dists2) ->
  Permutation (q_order Q1) (seq 0 (length docs1)) -> Permutation (q_order Q2) (seq 0 (length docs2)) ->
  length docs1 = Nat.min (Z.to_nat l1) (length docs2) /\
  forall i, i < length docs1 -> nth_error dists1 i = nth_error dists2 i /\
    exists d1 d2, nth_error docs1 i = Some (Some d1) /\ nth_error docs2 i = Some (Some d2) /\ sd_hnsw d1 = sd_hnsw d2.
Proof. exact near_vec_append. Qed.
Print Assumptions C03_larger_limit_appends.

Definition st1 : coll := run_reqs new_coll [req1].
(** What the examples look at. *)
Definition answer_ids (r : res (list (option sdoc) * list f32)) : option (list (option string)) :=
  match r with Ok (docs, _) => Some (map (option_map sd_id) docs) | _ => None end.
Definition sum_st1 (st : coll) : bool :=
  all_nodes (c_h st) (fun id _ => N.ltb id 25500) && c_reg st && c_open st &&
  Nat.eqb (length (c_docs st)) 3 && Nat.eqb (length (c_log st)) 0.
Example C03_client_nonvacuous :
  ids_small (env_rev cosp) (c_h st1) /\
  answer_ids (snd (near_by_vector (qok 1) st1 (q_of [0; 3]%Z) two 1)) = Some [Some "b"] /\
  answer_ids (snd (near_by_vector (qok 2) st1 (q_of [0; 3]%Z) two 2)) = Some [Some "b"; Some "c"] /\
  answer_ids (snd (near_by_text (qok 2) true (Ok (Some (q_of [0; 3]%Z))) st1 two 2)) = Some [Some "b"; Some "c"].
Proof.
  split; [apply check_small; vm_compute; reflexivity|]. split; [vm_compute; reflexivity|]. split; vm_compute; reflexivity.
Qed.

(* ------------------------------------------------------------------ *)
(** C22.  In a history where every add request succeeded or stored nothing
    ([clean]), no two documents have the same index id; and a new one is
    larger than all that were given before.
    Missing: requests that fail after storing documents, and requests at the
    same time; for both it is false (below). *)
Theorem C22_ids_unique_partial : forall P qs,
  Forall (req_ok P) qs -> clean new_coll qs ->
  let st := run_reqs new_coll qs in
  NoDup (map sd_hnsw (filter (fun d => Z.leb 0 (sd_hnsw d)) (c_docs st))) /\
  (forall d, In d (c_docs st) -> (sd_hnsw d < Z.of_N (first_id (c_h st)))%Z).
Proof. exact clean_unique. Qed.
Print Assumptions C22_ids_unique_partial.

Definition hist22 : list creq :=
  [req1; QAdd rok true ["text"] [(Some (mkDoc "bad" [("vector", JStr "x")]), ook)];
   QVec (qok 2) (q_of [1; 0]%Z) two 2; QRestart; QAdd rok true ["text"] [docv "d" [2; 1]%Z]; QCreate].
Example C22_nonvacuous : Forall (req_ok cosp) hist22 /\ clean new_coll hist22 /\
  map sd_hnsw (c_docs (run_reqs new_coll hist22)) = [3; 2; 1; 0]%Z.
Proof.
  split.
  { repeat constructor; try exact rok_ok; unfold docs_prov; repeat constructor. }
  split; [|vm_compute; reflexivity].
  cbn [clean hist22]. unfold clean_req, req1.
  split; [left; vm_compute; reflexivity|]. split; [right; vm_compute; reflexivity|]. split; [exact I|].
  split; [exact I|]. split; [left; vm_compute; reflexivity|]. split; [exact I|exact I].
Qed.

(** A request whose write-back fails leaves its documents stored but the count
    unchanged: the next request gives the same index ids again. *)
Definition hist_dupid : list creq :=
  [QAdd rfail true ["text"] [docv "a" [1; 0]%Z]; QAdd rok true ["text"] [docv "b" [0; 1]%Z]].
Theorem C22_failed_request_refuted : exists qs,
  Forall (req_ok cosp) qs /\
  let st := run_reqs new_coll qs in
  exists d1 d2, In d1 (c_docs st) /\ In d2 (c_docs st) /\ sd_id d1 <> sd_id d2 /\
    sd_hnsw d1 = 0%Z /\ sd_hnsw d2 = 0%Z.
Proof.
  exists hist_dupid. split.
  { repeat constructor; try exact rok_ok; try (intros h; apply rok_ok). }
  cbv zeta.
  assert (H : map (fun d => (sd_id d, sd_hnsw d)) (c_docs (run_reqs new_coll hist_dupid)) = [("b", 0%Z); ("a", 0%Z)])
    by (vm_compute; reflexivity).
  destruct (c_docs (run_reqs new_coll hist_dupid)) as [|d1 [|d2 [|d3 l]]]; try discriminate.
  injection H as E1 E2 E3 E4. exists d1, d2. cbn. rewrite E1, E2, E3, E4. repeat split; auto. discriminate.
Qed.
Print Assumptions C22_failed_request_refuted.

(** Two requests at the same time, both successful. *)
Theorem C22_concurrent_refuted : exists sched a b st,
  two_adds rok rok [] sched a b new_coll = (st, Ok tt, Ok tt) /\
  exists d1 d2, In d1 (c_docs st) /\ In d2 (c_docs st) /\ sd_id d1 <> sd_id d2 /\
    sd_hnsw d1 = 0%Z /\ sd_hnsw d2 = 0%Z.
Proof.
  exists [true; false], [docv "a" [1; 0]%Z], [docv "b" [0; 1]%Z].
  eexists. split; [vm_compute; reflexivity|]. cbn [c_docs].
  eexists _, _. split; [right; left; reflexivity|]. split; [left; reflexivity|].
  cbn [sd_id sd_hnsw]. repeat split; discriminate.
Qed.
Print Assumptions C22_concurrent_refuted.

(* ------------------------------------------------------------------ *)
(** C23.  If an add request answers "Added n documents", its document ids are
    distinct and no document was skipped (the log is unchanged), then n is the
    number of documents and each can be fetched by its id, with its properties
    (the vector is dropped and "id" and "hnswId" are set by the service).
    Missing: requests that skip a document and still answer success (below). *)
Theorem C23_acknowledged_stored_partial : forall R lookup orcs name rs keys st st' n,
  handle_add R lookup orcs name (Some rs) (Some keys) st = (st', Ok200 n) ->
  length orcs = length rs -> NoDup (map (option_map rd_id) rs) -> c_log st' = c_log st ->
  n = length rs /\
  forall r, In (Some r) rs -> forall R', r_isopen R' = true -> r_docopen R' = true ->
    exists s p, snd (get_document R' true (rd_id r) st') = Ok s /\ sd_id s = rd_id r /\ rd_props r = JObj p /\
      forall k, k <> "id" -> k <> "vector" -> k <> "hnswId" -> pget k (sd_props s) = pget k p.
Proof. exact acknowledged. Qed.
Print Assumptions C23_acknowledged_stored_partial.

Definition raws : list (option rawdoc) :=
  [Some (mkRaw "a" (JObj [("name", JStr "A"); ("vector", JArr [num 1; num 0])])); Some (mkRaw "b" (JObj [("text", JStr "hi")]))].
Example C23_nonvacuous : exists st',
  handle_add rok true [ook; ook] "coll" (Some raws) (Some ["text"]) new_coll = (st', Ok200 2) /\
  c_log st' = [] /\ NoDup (map (option_map rd_id) raws).
Proof.
  eexists. split; [vm_compute; reflexivity|]. split; [reflexivity|].
  repeat constructor; cbn; intuition congruence.
Qed.

(** The vectoriser fails for the second document: the answer is "Added 2
    documents", the document is not stored. *)
Definition obad : dorc := mkD (ienv_of cosp tab2) 0 (fun _ => Err EVectorizer) true true.
Theorem C23_skipped_refuted : exists R orcs rs st',
  handle_add R true orcs "coll" (Some rs) (Some ["text"]) new_coll = (st', Ok200 2) /\
  length rs = 2 /\ In (Some (mkRaw "b" (JObj [("text", JStr "hi")]))) rs /\
  snd (get_document rok true "b" st') = Err EDocNotFound.
Proof.
  exists rok, [ook; obad], raws. eexists. split; [vm_compute; reflexivity|]. split; [reflexivity|].
  split; [right; left; reflexivity|]. vm_compute. reflexivity.
Qed.
Print Assumptions C23_skipped_refuted.

(** The same with a vector of another length. *)
Theorem C23_dimension_refuted : exists R orcs rs st',
  handle_add R true orcs "coll" (Some rs) (Some ["text"]) new_coll = (st', Ok200 2) /\
  length rs = 2 /\ In (Some (mkRaw "b" (JObj [("vector", JArr [num 1; num 2; num 3])]))) rs /\
  snd (get_document rok true "b" st') = Err EDocNotFound.
Proof.
  exists rok, [ook; ook], [Some (mkRaw "a" (JObj [("vector", JArr [num 1; num 0])]));
    Some (mkRaw "b" (JObj [("vector", JArr [num 1; num 2; num 3])]))].
  eexists. split; [vm_compute; reflexivity|]. split; [reflexivity|].
  split; [right; left; reflexivity|]. vm_compute. reflexivity.
Qed.
Print Assumptions C23_dimension_refuted.

(* ------------------------------------------------------------------ *)
(** C24.  In clean histories the i-th document of an answer is one whose own
    vector (the one it was added with, [sd_vec]) is at the i-th distance.
    Missing: as for C22. *)
Theorem C24_paired_partial : forall P qs Q q maxd limit docs dists,
  Forall (req_ok P) qs -> clean new_coll qs ->
  let st := run_reqs new_coll qs in
  e_prov (q_env Q) = P -> sched_ok (q_env Q) -> prov_sym P -> ids_small (q_env Q) (c_h st) ->
  snd (near_by_vector Q st q maxd limit) = Ok (docs, dists) ->
  Permutation (q_order Q) (seq 0 (length docs)) ->
  forall i, i < length docs -> exists d v x,
    nth_error docs i = Some (Some d) /\ In d (c_docs st) /\ sd_vec d = Some v /\
    nth_error dists i = Some x /\ p_query P (p_normalize P q) (p_normalize P v) = Some x.
Proof. exact clean_paired. Qed.
Print Assumptions C24_paired_partial.

Theorem C24_paired_text_partial : forall P qs Q lookup corpi maxd limit docs dists,
  Forall (req_ok P) qs -> clean new_coll qs ->
  let st := run_reqs new_coll qs in
  e_prov (q_env Q) = P -> sched_ok (q_env Q) -> prov_sym P -> ids_small (q_env Q) (c_h st) ->
  snd (near_by_text Q lookup corpi st maxd limit) = Ok (docs, dists) ->
  Permutation (q_order Q) (seq 0 (length docs)) ->
  exists q, corpi = Ok (Some q) /\
  forall i, i < length docs -> exists d v x,
    nth_error docs i = Some (Some d) /\ In d (c_docs st) /\ sd_vec d = Some v /\
    nth_error dists i = Some x /\ p_query P (p_normalize P q) (p_normalize P v) = Some x.
Proof. exact clean_paired_text. Qed.
Print Assumptions C24_paired_text_partial.

Example C24_nonvacuous : prov_sym cosp /\ ids_small (env_rev cosp) (c_h (run_reqs new_coll hist22)) /\
  answer_ids (snd (near_by_vector (qok 4) (run_reqs new_coll hist22) (q_of [0; 3]%Z) two 0)) =
    Some [Some "b"; Some "c"; Some "d"; Some "a"].
Proof.
  split; [apply known_psym, cosp_known|]. split; [apply check_small; vm_compute; reflexivity|]. vm_compute. reflexivity.
Qed.

(** After a failed request, a hit on the reused id can yield the document with
    the other vector (DocFind may return either match). *)
Theorem C24_failed_request_refuted : exists qs Q q d x,
  Forall (req_ok cosp) qs /\
  snd (near_by_vector Q (run_reqs new_coll qs) q two 1) = Ok ([Some d], [x]) /\
  exists v, sd_vec d = Some v /\ p_query cosp (p_normalize cosp q) (p_normalize cosp v) <> Some x.
Proof.
  exists hist_dupid, (mkQ rok (env_rev cosp) [0] (fun _ => true) (fun _ => 1)), (q_of [0; 1]%Z).
  eexists _, _. split.
  { repeat constructor; try exact rok_ok; try (intros h; apply rok_ok). }
  split; [vm_compute; reflexivity|]. eexists. split; [reflexivity|]. vm_compute. discriminate.
Qed.
Print Assumptions C24_failed_request_refuted.

(* ------------------------------------------------------------------ *)
(** C25.  [near_ids] is the id list of the index, cut to the limit.  Whatever the
    order in which the fetches finish: a successful request returns for each
    id, at its position, a document stored under that id; and if some fetch
    fails or finds nothing, the request fails. *)
Theorem C25_complete_in_order : forall Q st q maxd ef limit docs dists,
  snd (near_docs Q st q maxd ef limit) = Ok (docs, dists) ->
  Permutation (q_order Q) (seq 0 (length docs)) ->
  exists ids,
    bind (knn_max_dist (q_env Q) (load_ep (c_h st)) q maxd ef None) (cut_limit limit) = Ok (ids, dists) /\
    length docs = length ids /\
    forall i id, nth_error ids i = Some id ->
      exists d, nth_error docs i = Some (Some d) /\ In d (c_docs st) /\ sd_hnsw d = Z.of_N id.
Proof. exact near_docs_spec. Qed.
Print Assumptions C25_complete_in_order.

Theorem C25_failing_fetch_fails : forall Q st q maxd ef limit ids dists i id,
  c_reg st = true ->
  bind (knn_max_dist (q_env Q) (load_ep (c_h st)) q maxd ef None) (cut_limit limit) = Ok (ids, dists) ->
  Permutation (q_order Q) (seq 0 (length ids)) -> nth_error ids i = Some id ->
  (q_ok Q i = false \/ forall d, In d (c_docs st) -> sd_hnsw d <> Z.of_N id) ->
  exists e, snd (near_docs Q st q maxd ef limit) = Err e.
Proof. exact near_docs_hole. Qed.
Print Assumptions C25_failing_fetch_fails.

(** Both endpoints consist of opening and [near_docs]. *)
Theorem C25_endpoints : forall Q st,
  (forall q maxd limit r, snd (near_by_vector Q st q maxd limit) = Ok r ->
     exists st1, open_coll (q_open Q) st = (st1, Ok tt) /\ snd (near_docs Q st1 q maxd 800 limit) = Ok r) /\
  (forall lookup corpi maxd limit r, snd (near_by_text Q lookup corpi st maxd limit) = Ok r ->
     exists st1 q, open_coll (q_open Q) st = (st1, Ok tt) /\ corpi = Ok (Some q) /\
       snd (near_docs Q st1 q maxd limit limit) = Ok r).
Proof. exact (fun Q st => conj (near_by_vector_open Q st) (fun lk c => near_by_text_open Q lk c st)). Qed.
Print Assumptions C25_endpoints.

(** Three hits; the same answer in all six orders; with a failing fetch none. *)
Definition orders3 : list (list nat) := [[0; 1; 2]; [0; 2; 1]; [1; 0; 2]; [1; 2; 0]; [2; 0; 1]; [2; 1; 0]].
Definition qord (o : list nat) : qorc := mkQ rok (env_rev cosp) o (fun _ => true) (fun _ => 0).
Example C25_nonvacuous :
  Forall (fun o => answer_ids (snd (near_docs (qord o) st1 (q_of [0; 3]%Z) two 800 0)) = Some [Some "b"; Some "c"; Some "a"]) orders3 /\
  snd (near_docs (mkQ rok (env_rev cosp) [1; 0; 2] (fun i => negb (Nat.eqb i 1)) (fun _ => 0)) st1 (q_of [0; 3]%Z) two 800 0) = Err EStore.
Proof. split; [repeat constructor; vm_compute; reflexivity|vm_compute; reflexivity]. Qed.

(* ------------------------------------------------------------------ *)
(** C26.  By vector with limit 0: on a strongly connected ground layer with at
    most 800 stored ids every indexed document within the distance is
    returned.
    Missing: the query by text, negative limits, larger collections; for the
    first two it is false (below). *)
Theorem C26_limit_zero_partial : forall P qs Q q maxd docs dists,
  Forall (req_ok P) qs -> clean new_coll qs ->
  let st := run_reqs new_coll qs in
  e_prov (q_env Q) = P -> sched_ok (q_env Q) -> prov_sym P -> ids_small (q_env Q) (c_h st) ->
  c_open st = true ->
  dists_num P (c_h st) (p_normalize P q) ->
  (forall id v, node_by_id (c_h st) id = Some v -> exists d, p_query P (p_normalize P q) (v_vec v) = Some d) ->
  (forall a b va vb, node_by_id (c_h st) a = Some va -> node_by_id (c_h st) b = Some vb -> reach (c_h st) 0 a b) ->
  (Z.of_nat (length (nodup N.eq_dec (stored_ids (c_h st)))) <= 800)%Z -> h_tomb (c_h st) = [] ->
  snd (near_by_vector Q st q maxd 0) = Ok (docs, dists) ->
  Permutation (q_order Q) (seq 0 (length docs)) ->
  forall d v x, In d (c_docs st) -> (0 <= sd_hnsw d)%Z -> sd_vec d = Some v ->
    p_query P (p_normalize P q) (p_normalize P v) = Some x ->
    flt x f32_zero = false -> fgt x maxd = false -> In (Some d) docs.
Proof. exact limit_zero. Qed.
Print Assumptions C26_limit_zero_partial.

Definition sum26 (h : hnsw) : bool :=
  all_nodes h (fun id _ => N.ltb id 25500) &&
  forallb (fun id => match p_query cosp (p_normalize cosp (q_of [0; 3]%Z)) match node_by_id h id with Some v => v_vec v | None => [] end with
             | Some d => is_num d | None => false end) [0; 1; 2; 3]%N &&
  all_nodes h (fun id v => match v_conns v with
     | cs :: _ => forallb (fun j => N.eqb j id || memN j cs) [0; 1; 2; 3]%N | [] => false end) &&
  Nat.leb (length (nodup N.eq_dec (stored_ids h))) 4 && Nat.eqb (length (h_tomb h)) 0 &&
  forallb (fun j => memN j [0; 1; 2; 3]%N) (stored_ids h).
Definition hist26 : list creq := [req1; QAdd rok true ["text"] [docv "d" [2; 1]%Z]].
Example C26_nonvacuous : let st := run_reqs new_coll hist26 in
  sum26 (c_h st) = true /\ c_open st = true /\ Forall (req_ok cosp) hist26 /\ clean new_coll hist26 /\
  answer_ids (snd (near_by_vector (qok 4) st (q_of [0; 3]%Z) two 0)) = Some [Some "b"; Some "c"; Some "d"; Some "a"].
Proof.
  cbv zeta. split; [vm_compute; reflexivity|]. split; [vm_compute; reflexivity|]. split.
  { repeat constructor; try exact rok_ok; unfold docs_prov; repeat constructor. }
  split; [|vm_compute; reflexivity]. cbn [clean hist26]. unfold clean_req, req1.
  split; [left; vm_compute; reflexivity|]. split; [left; vm_compute; reflexivity|exact I].
Qed.

(** By text the limit is also the search breadth: limit 0 gives one of the four
    documents. *)
Theorem C26_text_limit_zero_refuted : exists qs Q q docs dists,
  snd (near_by_text Q true (Ok (Some q)) (run_reqs new_coll qs) two 0) = Ok (docs, dists) /\
  length docs = 1 /\ length (filter (fun d => Z.leb 0 (sd_hnsw d)) (c_docs (run_reqs new_coll qs))) = 4 /\
  answer_ids (snd (near_by_vector (qok 4) (run_reqs new_coll qs) q two 0)) = Some [Some "b"; Some "c"; Some "d"; Some "a"].
Proof.
  exists hist26, (qok 1), (q_of [0; 3]%Z). eexists _, _. split; [vm_compute; reflexivity|].
  split; [reflexivity|]. split; vm_compute; reflexivity.
Qed.
Print Assumptions C26_text_limit_zero_refuted.

(** In general, the text query with limit 0 (or 1) returns at most one document,
    the other limits at most [limit]. *)
Theorem C26_text_breadth : forall Q lookup corpi st maxd docs dists,
  sched_ok (q_env Q) -> prov_sym (e_prov (q_env Q)) -> ids_small (q_env Q) (c_h st) ->
  snd (near_by_text Q lookup corpi st maxd 0) = Ok (docs, dists) ->
  Permutation (q_order Q) (seq 0 (length docs)) -> length docs <= 1.
Proof. exact near_text_zero. Qed.
Print Assumptions C26_text_breadth.

(** A negative limit slices with a negative bound: the handler panics. *)
Theorem C26_negative_limit_refuted : exists qs,
  (forall Q q limit, q_env Q = env_rev cosp -> q_open Q = rok -> q = q_of [0; 3]%Z -> (limit < 0)%Z ->
     snd (near_by_vector Q (run_reqs new_coll qs) q two limit) = Panic) /\
  exists Q, snd (near_by_text Q true (Ok (Some (q_of [0; 3]%Z))) (run_reqs new_coll qs) two (-1)) = Panic.
Proof.
  exists hist26. split.
  - intros Q q limit HE HO -> Hl. apply neg_limit with (n := 4); [exact Hl|rewrite HO; vm_compute; reflexivity|]. rewrite HE.
    vm_compute. reflexivity.
  - exists (qok 0). vm_compute. reflexivity.
Qed.
Print Assumptions C26_negative_limit_refuted.

(* ------------------------------------------------------------------ *)
(** C27 is false: without vectors every query fails. *)
Theorem C27_empty_refuted : exists st, (forall id, node_by_id (c_h st) id = None) /\ st = new_coll /\
  forall Q q maxd limit, r_kvopen (q_open Q) = true -> r_isopen (q_open Q) = true ->
    snd (near_by_vector Q st q maxd limit) = Err ENodeMissing /\
    snd (near_by_text Q true (Ok (Some q)) st maxd limit) = Err ENodeMissing.
Proof.
  exists new_coll. split; [reflexivity|]. split; [reflexivity|]. intros Q q maxd limit H1 H2.
  unfold near_by_vector, near_by_text, open_coll. rewrite H1, H2. cbn [negb c_open new_coll].
  split; apply near_docs_empty; reflexivity.
Qed.
Print Assumptions C27_empty_refuted.

(** It is so for every collection without vectors: the answer is an error, never
    a crash and never a document. *)
Theorem C27_empty_is_an_error_partial : forall Q st q maxd limit,
  (forall id, node_by_id (c_h st) id = None) -> c_open st = true -> c_reg st = true ->
  r_kvopen (q_open Q) = true -> r_isopen (q_open Q) = true ->
  snd (near_by_vector Q st q maxd limit) = Err ENodeMissing.
Proof. exact empty_vec. Qed.
Print Assumptions C27_empty_is_an_error_partial.

(** Documents without a vector are no vectors. *)
Example C27_nonvacuous :
  let st := run_reqs new_coll [QAdd rok true ["text"] [(Some (mkDoc "n" [("name", JStr "x")]), ook)]] in
  length (c_docs st) = 1 /\ h_cache (c_h st) = [] /\ h_kv (c_h st) = [] /\ c_open st = true /\ c_reg st = true.
Proof. vm_compute. repeat split; reflexivity. Qed.

(* ------------------------------------------------------------------ *)
(** C44.  An add request on a collection that is not half open (C47) answers with
    success or an error if every document is an object with object properties
    whose text properties are strings (or which has a vector), the vectoriser
    gives no nil vector and the ids fit the vector cache.
    Missing: the other requests; several of them crash (below). *)
Theorem C44_no_crash_partial : forall qs size R lookup orcs name docs keys,
  let st := run_reqs new_coll qs in
  (c_open st = true -> c_reg st = true) ->
  Forall (orc_fine size) orcs ->
  (forall rs, docs = Some rs ->
     length orcs = length rs /\ (first_id (c_h st) + N.of_nat (length rs) <= size)%N /\
     forall r, In r rs -> exists x p, r = Some x /\ rd_props x = JObj p /\
       forall ks, keys = Some ks -> doc_fine ks (mkDoc (rd_id x) p)) ->
  snd (handle_add R lookup orcs name docs keys st) <> Crash /\
  snd (handle_add R lookup orcs name docs keys st) <> Diverge.
Proof. exact no_crash. Qed.
Print Assumptions C44_no_crash_partial.

Lemma src_safe tab id : safe (src_of tab id).
Proof. unfold src_of. destruct (mget id tab); [apply safe_ok|apply safe_err]. Qed.
Lemma ook_fine : orc_fine 25000 ook.
Proof.
  split; [apply env_rev_sched|]. split; [reflexivity|]. split; [intros l ow id; apply src_safe|].
  intros t. split; [apply safe_ok|discriminate].
Qed.
(** An odd but harmless request: a vector of strings, a missing text, a vector of
    the wrong length. *)
Definition odd : list (option rawdoc) :=
  [Some (mkRaw "a" (JObj [("vector", JArr [num 1; num 0; num 2])])); Some (mkRaw "" (JObj []));
   Some (mkRaw "b" (JObj [("vector", JArr [JStr "1"])]))].
Example C44_nonvacuous :
  let st := run_reqs new_coll hist22 in
  c_reg st = true /\ Forall (orc_fine 25000) [ook; ook; ook] /\
  (first_id (c_h st) + N.of_nat (length odd) <= 25000)%N /\
  (forall r, In r odd -> exists x p, r = Some x /\ rd_props x = JObj p /\ doc_fine ["text"] (mkDoc (rd_id x) p)) /\
  snd (handle_add rok true [ook; ook; ook] "c" (Some odd) (Some ["text"]) st) = Bad400 EVecFormat.
Proof.
  cbv zeta. split; [vm_compute; reflexivity|]. split; [repeat constructor; apply ook_fine|]. split; [vm_compute; discriminate|].
  split; [|vm_compute; reflexivity]. intros r [<-|[<-|[<-|[]]]]; eexists _, _; (split; [reflexivity|]); (split; [reflexivity|]).
  - left. eexists. split; [reflexivity|discriminate].
  - right. intros k _ _. left. reflexivity.
  - left. eexists. split; [reflexivity|discriminate].
Qed.

(** A null document, properties that are no object, a text property that is no
    string: the handler panics. *)
Theorem C44_crash_refuted :
  (exists docs, snd (handle_add rok true [ook] "c" (Some docs) (Some ["text"]) new_coll) = Crash /\ docs = [None]) /\
  (exists docs, snd (handle_add rok true [ook] "c" (Some docs) (Some ["text"]) new_coll) = Crash /\
     docs = [Some (mkRaw "a" (JStr "x"))]) /\
  (exists docs, snd (handle_add rok true [ook] "c" (Some docs) (Some ["text"]) new_coll) = Crash /\
     docs = [Some (mkRaw "a" (JObj [("text", num 5)]))]).
Proof.
  split; [|split]; eexists; (split; [|reflexivity]); vm_compute; reflexivity.
Qed.
Print Assumptions C44_crash_refuted.

(* ------------------------------------------------------------------ *)
(** C47.  Fetching a document from an open collection changes nothing.
    Missing: a collection that is not open, where it is false (below). *)
Theorem C47_get_harmless_partial : forall R ok id st, c_open st = true -> fst (get_document R ok id st) = st.
Proof. exact get_open. Qed.
Print Assumptions C47_get_harmless_partial.
Example C47_nonvacuous : c_open (run_reqs new_coll hist22) = true /\
  exists d, snd (get_document rok true "a" (run_reqs new_coll hist22)) = Ok d.
Proof. split; [vm_compute; reflexivity|]. eexists. vm_compute. reflexivity. Qed.

(** A new process whose first request fetches a document: from then on every add
    request with documents and every nearest query panics. *)
Theorem C47_get_first_refuted : exists qs,
  let st := run_reqs new_coll qs in
  (exists d, snd (get_document rok true "a" (run_reqs new_coll [req1; QRestart])) = Ok d) /\
  qs = [req1; QRestart; QGet rok true "a"] /\
  (forall R lookup keys docs, r_kvopen R = true -> r_isopen R = true ->
     snd (add_documents R lookup keys docs st) = Panic) /\
  (forall Q q maxd limit, r_kvopen (q_open Q) = true -> r_isopen (q_open Q) = true ->
     snd (near_by_vector Q st q maxd limit) = Panic).
Proof.
  eexists. cbv zeta. split; [eexists; vm_compute; reflexivity|]. split; [reflexivity|].
  assert (Ho : c_open (run_reqs new_coll [req1; QRestart; QGet rok true "a"]) = true) by (vm_compute; reflexivity).
  assert (Hr : c_reg (run_reqs new_coll [req1; QRestart; QGet rok true "a"]) = false) by (vm_compute; reflexivity).
  revert Ho Hr. generalize (run_reqs new_coll [req1; QRestart; QGet rok true "a"]). intros st Ho Hr. split.
  - intros R lookup keys docs H1 H2. unfold add_documents, open_coll. rewrite H1, H2. cbn [negb]. rewrite Ho, Hr. reflexivity.
  - intros Q q maxd limit H1 H2. unfold near_by_vector, open_coll. rewrite H1, H2. cbn [negb]. rewrite Ho.
    unfold near_docs. rewrite Hr. reflexivity.
Qed.
Print Assumptions C47_get_first_refuted.

(* ------------------------------------------------------------------ *)
(** C48.  If every add request succeeded without skipping and with new document
    ids, every nearest query whose search succeeds returns the documents: no
    hit lacks its document.
    Missing: repeated document ids and documents that were skipped after their
    vector was indexed; for both it is false (below). *)
Theorem C48_hits_have_documents_partial : forall P qs Q q maxd limit ids dists st1,
  tidy new_coll qs ->
  let st := run_reqs new_coll qs in
  e_prov (q_env Q) = P -> sched_ok (q_env Q) -> prov_sym P -> ids_small (q_env Q) (c_h st) ->
  open_coll (q_open Q) st = (st1, Ok tt) -> c_reg st1 = true ->
  bind (knn_max_dist (q_env Q) (load_ep (c_h st1)) q maxd 800 None) (cut_limit limit) = Ok (ids, dists) ->
  Permutation (q_order Q) (seq 0 (length ids)) -> (forall i, i < length ids -> q_ok Q i = true) ->
  exists docs, snd (near_by_vector Q st q maxd limit) = Ok (docs, dists) /\ length docs = length ids.
Proof. exact hits_have_docs. Qed.
Print Assumptions C48_hits_have_documents_partial.

Definition hist48 : list creq := [req1; QRestart; QAdd rok true ["text"] [docv "d" [2; 1]%Z]].
Example C48_nonvacuous : tidy new_coll hist48 /\
  answer_ids (snd (near_by_vector (qok 4) (run_reqs new_coll hist48) (q_of [0; 3]%Z) two 0)) =
    Some [Some "b"; Some "c"; Some "d"; Some "a"].
Proof.
  split; [|vm_compute; reflexivity]. cbn [tidy hist48]. unfold tidy_req, req1, tidy_add.
  split; [|split; [exact I|split; [|exact I]]].
  - split; [vm_compute; reflexivity|]. split; [vm_compute; reflexivity|]. split.
    + cbn [map fst option_map docv doct di_id]. repeat constructor; cbn [In]; intros H; repeat (destruct H as [H|H]; [discriminate|]); exact H.
    + intros d o _. reflexivity.
  - split; [vm_compute; reflexivity|]. split; [vm_compute; reflexivity|]. split; [repeat constructor; intros []|].
    intros d o [Hin|[]]. unfold docv in Hin. injection Hin as <- <-. vm_compute. reflexivity.
Qed.

(** Adding a document again with a new vector: the old vector stays indexed but
    its document is gone, and queries that hit it fail. *)
Theorem C48_update_refuted : exists qs Q,
  Forall (req_ok cosp) qs /\ clean new_coll qs /\
  (forall i, q_ok Q i = true) /\
  snd (near_by_vector Q (run_reqs new_coll qs) (q_of [1; 0]%Z) two 0) = Err EDocNotFound.
Proof.
  exists [QAdd rok true ["text"] [docv "a" [1; 0]%Z]; QAdd rok true ["text"] [docv "a" [0; 1]%Z]], (qok 2).
  split; [repeat constructor; try exact rok_ok; unfold docs_prov; repeat constructor|].
  split; [cbn [clean]; unfold clean_req; repeat split; left; vm_compute; reflexivity|].
  split; [reflexivity|vm_compute; reflexivity].
Qed.
Print Assumptions C48_update_refuted.

(** A document whose properties cannot be marshalled is skipped after its vector
    was indexed. *)
Definition onomarsh : dorc := mkD (ienv_of cosp tab2) 0 (fun _ => Ok None) false true.
Theorem C48_skipped_refuted : exists qs Q,
  Forall (req_ok cosp) qs /\ clean new_coll qs /\ (forall i, q_ok Q i = true) /\
  snd (near_by_vector Q (run_reqs new_coll qs) (q_of [1; 0]%Z) two 0) = Err EDocNotFound.
Proof.
  exists [QAdd rok true ["text"] [(fst (docv "a" [1; 0]%Z), onomarsh)]], (qok 1).
  split; [repeat constructor; try exact rok_ok; unfold docs_prov; repeat constructor|].
  split; [cbn [clean]; unfold clean_req; repeat split; left; vm_compute; reflexivity|].
  split; [reflexivity|vm_compute; reflexivity].
Qed.
Print Assumptions C48_skipped_refuted.
