(** Properties C56-C58: what the document responses show, and what one request
    does to the following ones. *)
From Coq Require Import String.
From Verif Require Import Base F32 JsonNum JsonNumProofs PQ PQProofs Graph Search SearchProofs
  Insert InsertProofs InsertHist Distancer TestGraph TestInsert PropInsert
  Persist PersistProofs LRU LRUProofs PropPersist
  Client ClientProofs ClientSafe ClientFacts ClientReq PropClient ClientIds Handlers HandlersProofs PoisonProofs.
Local Open Scope string_scope.

(* ------------------------------------------------------------------ *)
(** C56: every document in a response of a nearest query is one that an earlier
    add request gave, with its id, its distance, and its properties with their
    values.  Missing: the properties "id", "vector", "hnswId" and "distance"
    ([reserved]), and numbers that a float64 cannot hold; see the refutations. *)
Theorem C56_near_vector_faithful_partial : forall qs Q name q maxd limit st' rs,
  handle_near_vector Q name q maxd limit (run_reqs new_coll qs) = (st', Ok200 rs) ->
  exists q0 docs dists, q = Some q0 /\ snd (near_by_vector Q (run_reqs new_coll qs) q0 maxd limit) = Ok (docs, dists) /\
  length rs = length docs /\
  forall i r, nth_error rs i = Some r ->
    (exists di, added qs di /\ ro_id r = di_id di /\
      forall k, ~ reserved k -> shows (di_props di) (ro_props r) k) /\
    exists x, nth_error dists i = Some x /\ rget "distance" (ro_props r) = Some (RDist x).
Proof. exact near_vector_shown. Qed.
Print Assumptions C56_near_vector_faithful_partial.

Theorem C56_near_text_faithful_partial : forall qs Q lookup corpi name text maxd limit st' rs,
  handle_near_text Q lookup corpi name text maxd limit (run_reqs new_coll qs) = (st', Ok200 rs) ->
  exists docs dists, snd (near_by_text Q lookup corpi (run_reqs new_coll qs) maxd limit) = Ok (docs, dists) /\
  length rs = length docs /\
  forall i r, nth_error rs i = Some r ->
    (exists di, added qs di /\ ro_id r = di_id di /\
      forall k, ~ reserved k -> shows (di_props di) (ro_props r) k) /\
    exists x, nth_error dists i = Some x /\ rget "distance" (ro_props r) = Some (RDist x).
Proof. exact near_text_shown. Qed.
Print Assumptions C56_near_text_faithful_partial.

(** Integers up to 2^53 are shown as they are. *)
Theorem C56_small_integers_shown : forall z, (Z.abs z < 2 ^ 53)%Z ->
  exists x, f64_of_num (int_text z) = Some x /\ f64_is x z.
Proof. exact f64_int. Qed.
Print Assumptions C56_small_integers_shown.

(** A document with properties of every kind. *)
Definition docp (id : string) (x : list Z) (p : props) : option docin * dorc :=
  (Some (mkDoc id (("vector", JArr (map num x)) :: p)), ook).
Definition props56 : props :=
  [("name", JStr "n"); ("age", JNum "42"); ("tags", JArr [JStr "t"; JBool true]); ("sub", JObj [("x", JNum "-7")])].
Definition hist56 : list creq := [QAdd rok true ["text"] [docp "a" [1; 0]%Z props56; docv "b" [0; 1]%Z]].
(** The value shown for property [k] of the first document. *)
Definition shown_value (k : string) (r : response (list rdoc)) : option rval :=
  match r with Ok200 (d :: _) => rget k (ro_props d) | _ => None end.
Definition shown_ids (r : response (list rdoc)) : option (list string) :=
  match r with Ok200 l => Some (map ro_id l) | _ => None end.
Definition f64_of_Z (z : Z) : f64 := binary_normalize prec64 emax64 z 0 false.
Example C56_nonvacuous :
  let r := snd (handle_near_vector (qok 2) "c" (Some (q_of [1; 0]%Z)) two 2 (run_reqs new_coll hist56)) in
  shown_ids r = Some ["a"; "b"] /\
  shown_value "name" r = Some (RStr "n") /\ shown_value "age" r = Some (RNum (f64_of_Z 42)) /\
  shown_value "tags" r = Some (RArr [RStr "t"; RBool true]) /\
  shown_value "sub" r = Some (RObj [("x", RNum (f64_of_Z (-7)))]) /\ shown_value "missing" r = None.
Proof. vm_compute. repeat split. Qed.
Example C56_text_nonvacuous :
  shown_ids (snd (handle_near_text (qok 2) true (Ok (Some (q_of [1; 0]%Z))) "c" "q" two 2 (run_reqs new_coll hist56)))
    = Some ["a"; "b"].
Proof. vm_compute. reflexivity. Qed.

(** A property "distance" of the document is replaced by the distance. *)
Definition hist56d : list creq := [QAdd rok true ["text"] [docp "a" [1; 0]%Z [("distance", JStr "far")]]].
Theorem C56_own_distance_refuted : exists qs Q q maxd limit st' r di,
  handle_near_vector Q "c" (Some q) maxd limit (run_reqs new_coll qs) = (st', Ok200 [r]) /\
  added qs di /\ ro_id r = di_id di /\ ~ shows (di_props di) (ro_props r) "distance".
Proof.
  exists hist56d, (qok 1), (q_of [1; 0]%Z), two, 1%Z. eexists. eexists.
  exists (mkDoc "a" [("vector", JArr (map num [1; 0]%Z)); ("distance", JStr "far")]).
  split; [vm_compute; reflexivity|]. split.
  - exists rok, true, ["text"], [docp "a" [1; 0]%Z [("distance", JStr "far")]], ook. split; now left.
  - split; [reflexivity|]. unfold shows. cbn. intros (v & [= <-] & H). inversion H.
Qed.
Print Assumptions C56_own_distance_refuted.

(** A property "hnswId" of the document is replaced by the index id; a document
    without it shows one. *)
Definition hist56h : list creq :=
  [QAdd rok true ["text"] [docp "a" [1; 0]%Z [("hnswId", JStr "mine")]; docv "b" [0; 1]%Z]].
Theorem C56_hnsw_id_refuted : exists qs Q q maxd limit st' r r' di di',
  handle_near_vector Q "c" (Some q) maxd limit (run_reqs new_coll qs) = (st', Ok200 [r; r']) /\
  added qs di /\ ro_id r = di_id di /\ added qs di' /\ ro_id r' = di_id di' /\
  ~ shows (di_props di) (ro_props r) "hnswId" /\ ~ shows (di_props di') (ro_props r') "hnswId".
Proof.
  exists hist56h, (qok 2), (q_of [1; 0]%Z), two, 2%Z. do 3 eexists.
  exists (mkDoc "a" [("vector", JArr (map num [1; 0]%Z)); ("hnswId", JStr "mine")]),
    (mkDoc "b" [("name", JStr "b"); ("vector", JArr (map num [0; 1]%Z))]).
  split; [vm_compute; reflexivity|]. split.
  { exists rok, true, ["text"]. do 2 eexists. split; [left; reflexivity|left; reflexivity]. }
  split; [reflexivity|]. split.
  { exists rok, true, ["text"]. do 2 eexists. split; [left; reflexivity|right; left; reflexivity]. }
  split; [reflexivity|]. split; unfold shows; cbn.
  - intros (v & [= <-] & H). inversion H.
  - intros [=].
Qed.
Print Assumptions C56_hnsw_id_refuted.

(** Two documents with different numbers show the same value. *)
Theorem C56_big_integers_refuted : exists s s' z z' x,
  s = int_text z /\ s' = int_text z' /\ z <> z' /\ f64_of_num s = Some x /\ f64_of_num s' = Some x.
Proof.
  exists "9007199254740992", "9007199254740993", 9007199254740992%Z, 9007199254740993%Z. eexists.
  split; [vm_compute; reflexivity|]. split; [vm_compute; reflexivity|]. split; [lia|]. split; vm_compute; reflexivity.
Qed.
Print Assumptions C56_big_integers_refuted.

(* ------------------------------------------------------------------ *)
(** C57: a document that an add request acknowledged can be read by its id, after
    any further requests that do not add the id again, and shows its properties.
    Missing: "vector" and "hnswId", numbers beyond float64 precision, requests
    that skip a document ([c_log]) and ids repeated within the request (C23,
    C22). *)
Theorem C57_acknowledged_readable_partial : forall qs qs' R lookup orcs name rs keys st' n r p R' name',
  handle_add R lookup orcs name (Some rs) (Some keys) (run_reqs new_coll qs) = (st', Ok200 n) ->
  length orcs = length rs -> NoDup (map (option_map rd_id) rs) -> c_log st' = c_log (run_reqs new_coll qs) ->
  Forall (req_size 25000) qs -> Forall (fun o => i_vcsize (do_env o) = 25000%N) orcs ->
  Forall (req_size 25000) qs' ->
  In (Some r) rs -> rd_props r = JObj p -> doc_nums p ->
  (forall di, added qs' di -> di_id di <> rd_id r) ->
  r_isopen R' = true -> r_docopen R' = true -> name' <> "" ->
  exists rd, snd (handle_get R' true name' (rd_id r) (run_reqs st' qs')) = Ok200 rd /\ ro_id rd = rd_id r /\
    forall k, k <> "id" -> k <> "vector" -> k <> "hnswId" -> shows p (ro_props rd) k.
Proof. exact readable. Qed.
Print Assumptions C57_acknowledged_readable_partial.

(** The response of the get request to the id. *)
Example C57_nonvacuous :
  let st := run_reqs new_coll [req1] in
  let raws' := [Some (mkRaw "x" (JObj (("vector", JArr [num 1; num 2]) :: props56)))] in
  let later := [QRestart; QAdd rok true ["text"] [docv "d" [2; 1]%Z]] in
  exists st' rd,
  handle_add rok true [ook] "c" (Some raws') (Some ["text"]) st = (st', Ok200 1) /\
  c_log st' = c_log st /\ Forall (req_size 25000) [req1] /\ Forall (fun o => i_vcsize (do_env o) = 25000%N) [ook] /\
  Forall (req_size 25000) later /\ doc_nums (("vector", JArr [num 1; num 2]) :: props56) /\
  (forall di, added later di -> di_id di <> "x") /\
  snd (handle_get rok true "c" "x" (run_reqs st' later)) = Ok200 rd /\
  rget "age" (ro_props rd) = Some (RNum (f64_of_Z 42)).
Proof.
  cbv zeta. do 2 eexists. split; [vm_compute; reflexivity|]. split; [vm_compute; reflexivity|].
  split; [repeat constructor|]. split; [repeat constructor|]. split; [repeat constructor|]. split.
  { intros k j Hj. cbn in Hj. repeat destruct Hj as [Hj|Hj]; try (injection Hj as <- <-; vm_compute; reflexivity). destruct Hj. }
  split.
  { intros di (R & lk & ks & docs & o & [H|[H|[]]] & Hin); [discriminate|]. injection H as <- <- <- <-.
    destruct Hin as [H|[]]. injection H as <- <-. discriminate. }
  split; vm_compute; reflexivity.
Qed.

(** Without the vector, and with "hnswId" replaced. *)
Theorem C57_vector_refuted : exists qs st' r p rd,
  handle_add rok true [ook] "c" (Some [Some r]) (Some ["text"]) (run_reqs new_coll qs) = (st', Ok200 1) /\
  rd_props r = JObj p /\ snd (handle_get rok true "c" (rd_id r) st') = Ok200 rd /\
  ~ shows p (ro_props rd) "vector" /\ ~ shows p (ro_props rd) "hnswId".
Proof.
  exists []. eexists. exists (mkRaw "x" (JObj [("vector", JArr [num 1; num 2]); ("hnswId", JStr "mine")])). do 2 eexists.
  split; [vm_compute; reflexivity|]. split; [reflexivity|]. split; [vm_compute; reflexivity|].
  split; unfold shows; cbn.
  - intros (v & [=] & _).
  - intros (v & [= <-] & H). inversion H.
Qed.
Print Assumptions C57_vector_refuted.

(* ------------------------------------------------------------------ *)
(** C58: a rejected request does not make later requests fail.  False: a vector
    component that is a float64 but not a float32, such as 1e39, becomes an
    infinity and NaN after normalisation.  The write-back of the index cannot
    marshal the vertex and rejects the request, but the vertex stays in the cache
    below the counter, so the write-back of every later add request fails too,
    until the process is restarted or an add request reaches the id of the
    vertex.  The nearest query over the vertex answers nothing: it panics while
    writing the response. *)
Definition vec58 : list vec :=
  [q_of [1; 0]; q_of [0; 1]; q_of [1; 1]; q_of [2; 1]; q_of [1; 2]; [S754_infinity false; S754_zero false]]%Z.
Definition o58 : dorc := mkD (ienv_of cosp (enum 0 vec58)) 0 (fun _ => Err EVectorizer) true true.
Definition doc58 (id : string) (l : list jval) : option docin * dorc := (Some (mkDoc id [("vector", JArr l)]), o58).
Definition docs3 : list (option docin * dorc) :=
  [doc58 "a" [num 1; num 0]; doc58 "b" [num 0; num 1]; doc58 "c" [num 1; num 1]].
Definition huge3 : list (option docin * dorc) :=
  [doc58 "d" [num 2; num 1]; doc58 "e" [num 1; num 2]; doc58 "h" [JNum "1e39"; num 0]].
Theorem C58_later_requests_fail_refuted : exists qs qbad,
  let st := run_reqs new_coll qs in
  snd (add_documents rok true [] qbad st) = Err EMarshal /\
  forall later, (* queries, reads and add requests of at most two documents *)
    Forall (fun q => match q with
                     | QAdd R _ _ docs => rorc_ok R /\ length docs <= 2
                     | QCreate | QRestart => False
                     | _ => True
                     end) later ->
    forall R lookup keys docs, rorc_ok R -> length docs <= 2 ->
    snd (add_documents R lookup keys docs (run_reqs (fst (add_documents rok true [] qbad st)) later)) <> Ok tt.
Proof.
  exists [QAdd rok true [] docs3], huge3. cbv zeta.
  split; [vm_compute; reflexivity|]. intros later Hl R lookup keys docs HR Hd.
  set (st := fst _).
  assert (Hf : first_id (c_h st) = 3%N) by (vm_compute; reflexivity).
  assert (Hs : stuck 5 st).
  { split; [|split; [vm_compute; reflexivity|]].
    - unfold st. apply add_documents_pinv, run_pinv, pinv_empty.
    - vm_compute. eexists. split; [reflexivity|]. split; reflexivity. }
  destruct (run_stuck 5 later st Hs) as [A B].
  { eapply Forall_impl; [|exact Hl]. intros q Hq. unfold keeping. destruct q; auto. rewrite Hf. destruct Hq. split; [assumption|lia]. }
  apply (add_documents_stuck R lookup keys docs _ 5 HR A). rewrite B, Hf. lia.
Qed.
Print Assumptions C58_later_requests_fail_refuted.

Theorem C58_query_crashes_refuted : exists qs qbad,
  let st := run_reqs new_coll qs in
  snd (add_documents rok true [] qbad st) = Err EMarshal /\
  snd (handle_near_vector (qok 3) "c" (Some (q_of [1; 0]%Z)) two 3 st) <> Crash /\
  snd (handle_near_vector (qok 3) "c" (Some (q_of [1; 0]%Z)) two 3 (fst (add_documents rok true [] qbad st))) = Crash.
Proof.
  exists [QAdd rok true [] docs3], huge3. cbv zeta.
  split; [vm_compute; reflexivity|]. split; [vm_compute; discriminate|]. vm_compute. reflexivity.
Qed.
Print Assumptions C58_query_crashes_refuted.

(** If all vectors that the requests give stay finite under the normalisation of
    the distance provider, no add request fails to marshal.  [fine] is any
    condition on the given vectors that ensures it. *)
Theorem C58_never_unmarshallable_partial : forall (fine : vec -> Prop) P,
  (forall v, fine v -> forallb is_finite_b (p_normalize P v) = true) ->
  forall qs R lookup keys docs, Forall (req_vecs_ok fine P) qs -> Forall (doc_vecs_ok fine P) docs ->
  snd (add_documents R lookup keys docs (run_reqs new_coll qs)) <> Err EMarshal.
Proof. exact never_unmarshallable. Qed.
Print Assumptions C58_never_unmarshallable_partial.

(** The requests of the first history meet the condition. *)
Definition fine58 (v : vec) : Prop := forallb is_finite_b (p_normalize cosp v) = true.
Example C58_nonvacuous : Forall (req_vecs_ok fine58 cosp) [QAdd rok true [] docs3] /\
  Forall (doc_vecs_ok fine58 cosp) [doc58 "d" [num 2; num 1]] /\ ~ Forall (doc_vecs_ok fine58 cosp) huge3.
Proof.
  assert (H : forall id l, match vector_of l with Some v => forallb is_finite_b (p_normalize cosp v) | None => true end = true ->
    doc_vecs_ok fine58 cosp (doc58 id l)).
  { intros id l Hv. split; [reflexivity|]. split; [discriminate|]. cbn [fst doc58]. intros d [= <-]. cbn [di_props].
    split; [|discriminate]. intros l' w [= <-] Hw. rewrite Hw in Hv. exact Hv. }
  assert (H3 : Forall (doc_vecs_ok fine58 cosp) docs3).
  { unfold docs3. constructor; [|constructor; [|constructor; [|constructor]]]; apply H; vm_compute; reflexivity. }
  split; [constructor; [exact H3|constructor]|]. split.
  { constructor; [|constructor]. apply H. vm_compute. reflexivity. }
  intros Hb. assert (Hx : doc_vecs_ok fine58 cosp (doc58 "h" [JNum "1e39"; num 0])).
  { apply (proj1 (Forall_forall _ _) Hb). right. right. now left. }
  destruct Hx as (_ & _ & Hx). destruct (Hx _ eq_refl) as [Hx1 _]. cbn [di_props doc58] in Hx1.
  assert (Ev : exists v, vector_of [JNum "1e39"; num 0] = Some v /\ forallb is_finite_b (p_normalize cosp v) = false).
  { eexists. split; [vm_compute; reflexivity|]. vm_compute. reflexivity. }
  destruct Ev as (v & E1 & E2). specialize (Hx1 _ v eq_refl E1). unfold fine58 in Hx1. congruence.
Qed.

(* ------------------------------------------------------------------ *)
(** C44: a request that lacks a part (the name, the documents, the properties to
    index, the text, the vector) is answered with 400 and changes nothing. *)
Theorem C44_incomplete_rejected : forall R lookup orcs name docs keys Q corpi text q maxd limit ok id st,
  (name = "" \/ docs = None \/ keys = None ->
     exists e, handle_add R lookup orcs name docs keys st = (st, Bad400 e)) /\
  (name = "" \/ text = "" -> exists e, handle_near_text Q lookup corpi name text maxd limit st = (st, Bad400 e)) /\
  (name = "" \/ q = None -> exists e, handle_near_vector Q name q maxd limit st = (st, Bad400 e)) /\
  (name = "" -> exists e, handle_get R ok name id st = (st, Bad400 e)).
Proof.
  intros R lookup orcs name docs keys Q corpi text q maxd limit ok id st.
  unfold handle_add, handle_near_text, handle_near_vector, handle_get. split; [|split; [|split]].
  - intros [->|[-> | ->]]; [eexists; reflexivity| |]; destruct (String.eqb name ""); try (eexists; reflexivity).
    destruct docs; eexists; reflexivity.
  - intros [-> | ->]; [eexists; reflexivity|]. destruct (String.eqb name ""); eexists; reflexivity.
  - intros [-> | ->]; [eexists; reflexivity|]. destruct (String.eqb name ""); eexists; reflexivity.
  - intros ->. eexists. reflexivity.
Qed.
Print Assumptions C44_incomplete_rejected.

(** A request that could not open the collection makes no difference to the requests
    after it: once the pod has the tables open they are answered as if it had not been,
    and leave the same state; before that they fail in the same way. *)
Theorem C58_failed_open : forall Rbad st st' e, open_coll Rbad st = (st', Err e) ->
  (forall R, snd (open_coll R st') = snd (open_coll R st)) /\
  (forall R lookup keys docs, r_kvopen R = true -> r_isopen R = true ->
     add_documents R lookup keys docs st' = add_documents R lookup keys docs st) /\
  (forall Q q maxd limit, r_kvopen (q_open Q) = true -> r_isopen (q_open Q) = true ->
     near_by_vector Q st' q maxd limit = near_by_vector Q st q maxd limit) /\
  (forall Q lookup corpi maxd limit, r_kvopen (q_open Q) = true -> r_isopen (q_open Q) = true ->
     near_by_text Q lookup corpi st' maxd limit = near_by_text Q lookup corpi st maxd limit).
Proof.
  intros Rbad st st' e H.
  assert (S : forall R, r_kvopen R = true -> r_isopen R = true -> open_coll R st' = open_coll R st).
  { intros R H1 H2. revert H. unfold open_coll. rewrite H1, H2. cbn [negb].
    destruct (r_kvopen Rbad), (r_isopen Rbad); cbn [negb]; try (intros [= <- <-]; reflexivity).
    destruct (c_open st); [discriminate|]. destruct (r_docopen Rbad); [discriminate|]. intros [= <- <-]. cbn.
    destruct (r_docopen R); reflexivity. }
  repeat split.
  - intros R. destruct (r_kvopen R) eqn:H1, (r_isopen R) eqn:H2; try (unfold open_coll; rewrite H1, ?H2; reflexivity). now rewrite S.
  - intros R lookup keys docs H1 H2. unfold add_documents. now rewrite S.
  - intros Q q maxd limit H1 H2. unfold near_by_vector. now rewrite S.
  - intros Q lookup corpi maxd limit H1 H2. unfold near_by_text. now rewrite S.
Qed.
Print Assumptions C58_failed_open.
Example C58_failed_open_nonvacuous :
  let st := mkC empty_index false false [] [] in
  let R := mkR true true false (r_keys rok) (r_puts rok) true in
  exists st', open_coll R st = (st', Err EStore) /\ snd (open_coll R st') = Err EStore /\ snd (open_coll rok st') = Ok tt.
Proof. cbv zeta. eexists. split; [reflexivity|]. split; reflexivity. Qed.
