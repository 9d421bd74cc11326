(** Properties C03, C24, C26, C34, C48 for histories of requests, and exact
    answers from the add request to the nearest query (C06, C18, C20, C26). *)
From Coq Require Import String Sorted.
From Verif Require Import Base F32 PQ PQProofs Graph Search SearchProofs SearchLayer SearchKnn
  SearchCong Insert HeuristicProofs InsertProofs InsertHist InsertTotal InsertDim InsertSmall InsertFacts InsertFind
  Distancer DistancerProofs PropDistancer TestGraph TestInsert PropSearch PropInsert PropFind
  Persist PersistProofs PersistHist LRU LRUProofs PropPersist InsertRestart Collections CollectionsProofs
  Client ClientProofs ClientSafe ClientFacts ClientReq PropClient VCache VCacheProofs VCacheFacts ClientIds ClientSmall.
Local Open Scope string_scope.

(** The vector cache of the client has 25000 slots (maintainance.go:21).  No history of requests stores a vector under a higher id: an
    id above crashes the insertion before the vertex is stored.  So the
    prefetch during a search never reads outside the cache. *)
Theorem C34_stored_ids_fit : forall qs,
  Forall (req_size 25000) qs ->
  forall id v, node_by_id (c_h (run_reqs new_coll qs)) id = Some v -> (id < 25000)%N.
Proof. exact (fun qs H => proj2 (run_below 25000 eq_refl qs H new_coll (new_below 25000))). Qed.
Print Assumptions C34_stored_ids_fit.

(** Hence the theorems on nearest queries hold in every history of requests. *)
Theorem C03_requests_bound_limit : forall qs Q q maxd limit docs dists,
  Forall (req_size 25000) qs -> (25000 <= e_vcap (q_env Q))%N ->
  sched_ok (q_env Q) -> prov_sym (e_prov (q_env Q)) ->
  snd (near_by_vector Q (run_reqs new_coll qs) q maxd limit) = Ok (docs, dists) ->
  Permutation (q_order Q) (seq 0 (length docs)) ->
  (limit <> 0 -> Z.of_nat (length docs) <= limit)%Z /\
  forall i, i < length docs -> exists x, nth_error dists i = Some x /\ fgt x maxd = false.
Proof.
  exact (fun qs Q q maxd limit docs dists Hq Hc Hs Hy =>
    near_vec_bound Q _ q maxd limit docs dists Hs Hy (requests_small 25000 eq_refl _ qs Hq Hc)).
Qed.
Print Assumptions C03_requests_bound_limit.

Theorem C03_requests_bound_limit_text : forall qs Q lookup corpi maxd limit docs dists,
  Forall (req_size 25000) qs -> (25000 <= e_vcap (q_env Q))%N ->
  sched_ok (q_env Q) -> prov_sym (e_prov (q_env Q)) ->
  snd (near_by_text Q lookup corpi (run_reqs new_coll qs) maxd limit) = Ok (docs, dists) ->
  Permutation (q_order Q) (seq 0 (length docs)) ->
  (limit <> 0 -> Z.of_nat (length docs) <= limit)%Z /\
  forall i, i < length docs -> exists x, nth_error dists i = Some x /\ fgt x maxd = false.
Proof.
  exact (fun qs Q lookup corpi maxd limit docs dists Hq Hc Hs Hy =>
    near_text_bound Q lookup corpi _ maxd limit docs dists Hs Hy (requests_small 25000 eq_refl _ qs Hq Hc)).
Qed.
Print Assumptions C03_requests_bound_limit_text.

(** As [C24_paired_partial]; the missing part is the same. *)
Theorem C24_requests_paired_partial : forall P qs Q q maxd limit docs dists,
  Forall (req_ok P) qs -> clean new_coll qs -> Forall (req_size 25000) qs -> (25000 <= e_vcap (q_env Q))%N ->
  let st := run_reqs new_coll qs in
  e_prov (q_env Q) = P -> sched_ok (q_env Q) -> prov_sym P ->
  snd (near_by_vector Q st q maxd limit) = Ok (docs, dists) ->
  Permutation (q_order Q) (seq 0 (length docs)) ->
  forall i, i < length docs -> exists d v x,
    nth_error docs i = Some (Some d) /\ In d (c_docs st) /\ sd_vec d = Some v /\
    nth_error dists i = Some x /\ p_query P (p_normalize P q) (p_normalize P v) = Some x.
Proof.
  exact (fun P qs Q q maxd limit docs dists Hr Hcl Hq Hc HP Hs Hy =>
    clean_paired P qs Q q maxd limit docs dists Hr Hcl HP Hs Hy (requests_small 25000 eq_refl _ qs Hq Hc)).
Qed.
Print Assumptions C24_requests_paired_partial.

Theorem C24_requests_paired_text_partial : forall P qs Q lookup corpi maxd limit docs dists,
  Forall (req_ok P) qs -> clean new_coll qs -> Forall (req_size 25000) qs -> (25000 <= e_vcap (q_env Q))%N ->
  let st := run_reqs new_coll qs in
  e_prov (q_env Q) = P -> sched_ok (q_env Q) -> prov_sym P ->
  snd (near_by_text Q lookup corpi st maxd limit) = Ok (docs, dists) ->
  Permutation (q_order Q) (seq 0 (length docs)) ->
  exists q, corpi = Ok (Some q) /\
  forall i, i < length docs -> exists d v x,
    nth_error docs i = Some (Some d) /\ In d (c_docs st) /\ sd_vec d = Some v /\
    nth_error dists i = Some x /\ p_query P (p_normalize P q) (p_normalize P v) = Some x.
Proof.
  exact (fun P qs Q lookup corpi maxd limit docs dists Hr Hcl Hq Hc HP Hs Hy =>
    clean_paired_text P qs Q lookup corpi maxd limit docs dists Hr Hcl HP Hs Hy (requests_small 25000 eq_refl _ qs Hq Hc)).
Qed.
Print Assumptions C24_requests_paired_text_partial.

(** As [C48_hits_have_documents_partial]; the missing part is the same. *)
Theorem C48_requests_hits_have_documents_partial : forall P qs Q q maxd limit ids dists st1,
  tidy new_coll qs -> Forall (req_size 25000) qs -> (25000 <= e_vcap (q_env Q))%N ->
  let st := run_reqs new_coll qs in
  e_prov (q_env Q) = P -> sched_ok (q_env Q) -> prov_sym P ->
  open_coll (q_open Q) st = (st1, Ok tt) -> c_reg st1 = true ->
  bind (knn_max_dist (q_env Q) (load_ep (c_h st1)) q maxd 800 None) (cut_limit limit) = Ok (ids, dists) ->
  Permutation (q_order Q) (seq 0 (length ids)) -> (forall i, i < length ids -> q_ok Q i = true) ->
  exists docs, snd (near_by_vector Q st q maxd limit) = Ok (docs, dists) /\ length docs = length ids.
Proof.
  exact (fun P qs Q q maxd limit ids dists st1 Ht Hq Hc HP Hs Hy =>
    hits_have_docs P qs Q q maxd limit ids dists st1 Ht HP Hs Hy (requests_small 25000 eq_refl _ qs Hq Hc)).
Qed.
Print Assumptions C48_requests_hits_have_documents_partial.

(** The histories of the earlier examples have this size. *)
Example C34_stored_nonvacuous :
  Forall (req_size 25000) hist22 /\ Forall (req_size 25000) hist48 /\ (25000 <= e_vcap (q_env (qok 1)))%N /\
  sched_ok (q_env (qok 1)) /\ prov_sym (e_prov (q_env (qok 1))).
Proof.
  split; [repeat constructor|]. split; [repeat constructor|]. split; [vm_compute; discriminate|].
  split; [apply env_rev_sched|apply known_psym, cosp_known].
Qed.

(* ------------------------------------------------------------------ *)
(** From the request to the answer.  A new collection gets one add request with
    at most 61 documents of distinct ids with vectors of one dimension, given in the
    request or computed from the text ([vt_ok]), and it answers success.  Then a
    query by vector, with limit 0 or one that is not too small, in this process or
    after a restart, returns exactly the documents within the distance
    ([exact_answer]: each returned document is one of the request with its own
    distance, every one of the request within the distance is returned, none
    twice, nearest first).  [m] is the number of hits; the fetches may finish in
    any order.
    Missing: more documents, where it is false ([C26_62_documents_refuted]); several
    requests are in PropHistory.v. *)
Theorem C26_one_request_exact_partial : forall n cap P R lookup keys ds,
  0 < n -> ds <> [] -> length ds <= 61 -> NoDup (map (fun d => di_id (vd_doc d)) ds) -> Forall (vt_ok lookup keys) ds ->
  Forall (fun d => e_prov (i_env (do_env (vd_orc d))) = P) ds ->
  Forall (find_call n 30 cap (map a_id (ops_of 0 ds))) (ops_of 0 ds) -> rorc_ok R ->
  snd (add_documents R lookup keys (map vd_pair ds) new_coll) = Ok tt ->
  let st := fst (add_documents R lookup keys (map vd_pair ds) new_coll) in
  forall st', st' = st \/ st' = restart_coll st ->
  forall E q maxd limit, sched_ok E -> e_prov E = P -> e_vcap E = cap -> length q = n -> (limit = 0 \/ Z.of_nat (length ds) <= limit)%Z ->
    (forall d x, In d ds -> p_query P (p_normalize P q) (p_normalize P (vd_vec d)) = Some x -> is_num x = true) ->
    exists m, forall Q, q_env Q = E ->
      r_kvopen (q_open Q) = true -> r_isopen (q_open Q) = true -> r_docopen (q_open Q) = true ->
      Permutation (q_order Q) (seq 0 m) -> (forall i, q_ok Q i = true) ->
      exists docs dists, snd (near_by_vector Q st' q maxd limit) = Ok (docs, dists) /\
        length docs <= length dists /\
        (forall i o, nth_error docs i = Some o -> exists s d x, o = Some s /\ In d ds /\ sd_id s = di_id (vd_doc d) /\
           nth_error dists i = Some x /\ p_query P (p_normalize P q) (p_normalize P (vd_vec d)) = Some x /\
           flt x f32_zero = false /\ fgt x maxd = false) /\
        (forall d x, In d ds -> p_query P (p_normalize P q) (p_normalize P (vd_vec d)) = Some x ->
           flt x f32_zero = false -> fgt x maxd = false ->
           exists i s, nth_error docs i = Some (Some s) /\ sd_id s = di_id (vd_doc d) /\ nth_error dists i = Some x) /\
        (forall i j s t, nth_error docs i = Some (Some s) -> nth_error docs j = Some (Some t) -> sd_id s = sd_id t -> i = j) /\
        (forall i j x y, i < j < length docs -> nth_error dists i = Some x -> nth_error dists j = Some y -> flt y x = false).
Proof. exact request_exact. Qed.
Print Assumptions C26_one_request_exact_partial.

(** Five documents, two on an upper layer. *)
Definition pts5 : list (string * (list Z * nat)) :=
  [("a", ([1; 0]%Z, 0)); ("b", ([0; 1]%Z, 1)); ("c", ([1; 1]%Z, 0)); ("d", ([2; 1]%Z, 0)); ("e", ([1; 3]%Z, 1))].
Definition tab5 : list (N * vec) := enum 0 (map (fun p => q_of (fst (snd p))) pts5).
Definition vd5 (p : string * (list Z * nat)) : vdoc :=
  mkVD (mkDoc (fst p) [("vector", JArr (map num (fst (snd p))))]) (map num (fst (snd p))) (q_of (fst (snd p)))
    (mkD (ienv_of cosp tab5) (snd (snd p)) (fun _ => Err EVectorizer) true true).
Definition ds5 : list vdoc := map vd5 pts5.
Lemma vs5 : forall l ow id, In id (map a_id (ops_of 0 ds5)) -> exists w, i_vs (ienv_of cosp tab5) l ow id = Ok w /\ length w = 2.
Proof. intros l ow id [<-|[<-|[<-|[<-|[<-|[]]]]]]; (eexists; split; reflexivity). Qed.
Example C26_one_request_nonvacuous :
  NoDup (map (fun d => di_id (vd_doc d)) ds5) /\ Forall (vt_ok true []) ds5 /\
  Forall (find_call 2 30 25500 (map a_id (ops_of 0 ds5))) (ops_of 0 ds5) /\
  snd (add_documents rok true [] (map vd_pair ds5) new_coll) = Ok tt /\
  (forall d x, In d ds5 -> p_query cosp (p_normalize cosp (q_of [0; 3]%Z)) (p_normalize cosp (vd_vec d)) = Some x -> is_num x = true) /\
  answer_ids (snd (near_by_vector (qok 4) (restart_coll (fst (add_documents rok true [] (map vd_pair ds5) new_coll)))
     (q_of [0; 3]%Z) (f32_div (f32_of_Z 9) (f32_of_Z 10)) 0)) = Some [Some "b"; Some "e"; Some "c"; Some "d"].
Proof.
  split; [repeat constructor; cbn; intuition discriminate|].
  split; [apply Forall_impl with (P := vd_ok); [intros d; left; assumption|repeat constructor]|]. split.
  { repeat constructor; try apply env_rev_sched; try exact cosp_known; try exact vs5; try reflexivity; cbn; try lia. }
  split; [vm_compute; reflexivity|]. split; [|vm_compute; reflexivity].
  intros d x Hd Hx.
  assert (H : forallb (fun d => match p_query cosp (p_normalize cosp (q_of [0; 3]%Z)) (p_normalize cosp (vd_vec d)) with
                                | Some d => is_num d | None => true end) ds5 = true) by (vm_compute; reflexivity).
  rewrite forallb_forall in H. specialize (H d Hd). rewrite Hx in H. exact H.
Qed.

(** The bound of 61 documents is tight, from the request to the answer.  All the
    hypotheses of [C26_one_request_exact_partial] but the bound hold for one add
    request with 62 documents: 61 with the vector [1,0], the last with [0,1].  It
    answers success.  The query for [0,1] with limit 0 and the distance 2, which
    excludes nothing, answers without an error with the other 61 documents.  The one
    at distance 0 is missing, in this process and after a restart. *)
Definition pts62 : list (list Z) := (repeat [1; 0]%Z 61 ++ [[0; 1]%Z])%list.
Definition tab62 : list (N * vec) := enum 0 (map q_of pts62).
Definition vd62 (p : N * list Z) : vdoc :=
  mkVD (mkDoc (decimal (fst p)) [("vector", JArr (map num (snd p)))]) (map num (snd p)) (q_of (snd p))
    (mkD (ienv_of cosp tab62) 0 (fun _ => Err EVectorizer) true true).
Definition ds62 : list vdoc := map vd62 (enum 0 pts62).
Definition missing62 (st : coll) : bool :=
  match answer_ids (snd (near_by_vector (qok 61) st (q_of [0; 1]%Z) two 0)) with
  | Some l => Nat.eqb (length l) 61 && forallb (fun o => match o with Some i => negb (String.eqb i "61") | None => false end) l
  | None => false
  end.
Definition lost62 (r : coll * res unit) : bool :=
  match snd r with Ok tt => true | _ => false end && missing62 (fst r) && missing62 (restart_coll (fst r)).
Lemma st62_lost : lost62 (add_documents rok true [] (map vd_pair ds62) new_coll) = true.
Proof. vm_cast_no_check (eq_refl true). Qed.
Lemma lost62_spec r : lost62 r = true -> snd r = Ok tt /\
  forall st', st' = fst r \/ st' = restart_coll (fst r) ->
  exists docs dists, snd (near_by_vector (qok 61) st' (q_of [0; 1]%Z) two 0) = Ok (docs, dists) /\ length docs = 61 /\
    Forall (fun o => exists s, o = Some s /\ sd_id s <> di_id (vd_doc (vd62 (61%N, [0; 1]%Z)))) docs.
Proof.
  intros HL. unfold lost62 in HL. apply andb_true_iff in HL. destruct HL as [HL H2].
  apply andb_true_iff in HL. destruct HL as [H0 H1].
  split; [destruct (snd r) as [[]| | |]; [reflexivity|discriminate..]|].
  assert (G : forall st, missing62 st = true -> exists docs dists,
     snd (near_by_vector (qok 61) st (q_of [0; 1]%Z) two 0) = Ok (docs, dists) /\ length docs = 61 /\
     Forall (fun o => exists s, o = Some s /\ sd_id s <> di_id (vd_doc (vd62 (61%N, [0; 1]%Z)))) docs).
  { intros st H. unfold missing62 in H.
    destruct (snd (near_by_vector (qok 61) st (q_of [0; 1]%Z) two 0)) as [[docs dists]| | |]; try discriminate.
    cbn [answer_ids] in H. apply andb_true_iff in H. destruct H as [Hl Hf]. apply Nat.eqb_eq in Hl. rewrite map_length in Hl.
    exists docs, dists. split; [reflexivity|]. split; [exact Hl|]. apply Forall_forall. intros o Ho.
    rewrite forallb_forall in Hf. specialize (Hf (option_map sd_id o) (in_map _ _ _ Ho)).
    destruct o as [s|]; [|discriminate]. exists s. split; [reflexivity|]. cbn [option_map] in Hf.
    apply negb_true_iff, String.eqb_neq in Hf. exact Hf. }
  intros st' [-> | ->]; apply G; assumption.
Qed.
Theorem C26_62_documents_refuted : exists ds d q,
  length ds = 62 /\ NoDup (map (fun d => di_id (vd_doc d)) ds) /\ Forall (vt_ok true []) ds /\
  Forall (fun d => e_prov (i_env (do_env (vd_orc d))) = cosp) ds /\
  Forall (find_call 2 30 25500 (map a_id (ops_of 0 ds))) (ops_of 0 ds) /\
  snd (add_documents rok true [] (map vd_pair ds) new_coll) = Ok tt /\
  In d ds /\ vd_vec d = q /\
  p_query cosp (p_normalize cosp q) (p_normalize cosp (vd_vec d)) = Some f32_zero /\
  let st := fst (add_documents rok true [] (map vd_pair ds) new_coll) in
  forall st', st' = st \/ st' = restart_coll st ->
  exists docs dists, snd (near_by_vector (qok 61) st' q two 0) = Ok (docs, dists) /\ length docs = 61 /\
    Forall (fun o => exists s, o = Some s /\ sd_id s <> di_id (vd_doc d)) docs.
Proof.
  assert (HE : Forall (fun d => do_env (vd_orc d) = ienv_of cosp tab62 /\ length (vd_vec d) = 2 /\ vd_ok d) ds62).
  { apply Forall_forall. intros d Hd. apply in_map_iff in Hd. destruct Hd as ([i z] & <- & Hz).
    assert (Hz' : z = [1; 0]%Z \/ z = [0; 1]%Z).
    { cut (forallb (fun p => match snd p with [1; 0]%Z => true | [0; 1]%Z => true | _ => false end) (enum 0 pts62) = true);
        [|vm_compute; reflexivity].
      rewrite forallb_forall. intros H. specialize (H _ Hz). cbn [snd] in H.
      repeat match type of H with context[match ?x with _ => _ end] => destruct x; try discriminate end; auto. }
    destruct Hz' as [-> | ->]; (split; [reflexivity|split; [reflexivity|repeat constructor]]). }
  exists ds62, (vd62 (61%N, [0; 1]%Z)), (q_of [0; 1]%Z).
  split; [vm_compute; reflexivity|]. split.
  { assert (H : map (fun d => di_id (vd_doc d)) ds62 = map decimal (map fst (enum 0 pts62))).
    { unfold ds62. rewrite !map_map. reflexivity. }
    rewrite H. apply FinFun.Injective_map_NoDup; [exact decimal_inj|].
    assert (G : forall (A : Type) (l : list A) i, NoDup (map fst (enum i l)) /\ Forall (fun n => (i <= n)%N) (map fst (enum i l))).
    { intros A. induction l as [|x l IH]; intros i; [split; constructor|]. cbn. destruct (IH (i + 1)%N) as [G1 G2].
      rewrite Forall_forall in G2. split; constructor; try lia; auto.
      - intros Hi. specialize (G2 _ Hi). lia.
      - apply Forall_forall. intros n Hn. specialize (G2 _ Hn). lia. }
    apply G. }
  split; [eapply Forall_impl; [|exact HE]; intros d (_ & _ & H); now left|].
  split; [eapply Forall_impl; [|exact HE]; intros d (H & _); now rewrite H|].
  split.
  { apply Forall_forall. intros o Ho.
    assert (Ha : forallb (fun o => N.ltb (a_id o) 62 && Nat.eqb (length (a_vec o)) 2 && Nat.eqb (a_lvl o) 0) (ops_of 0 ds62) = true)
      by (vm_compute; reflexivity).
    rewrite forallb_forall in Ha. pose proof (Ha _ Ho) as Hb.
    apply andb_true_iff in Hb. destruct Hb as [Hb H3]. apply andb_true_iff in Hb. destruct Hb as [H1 H2].
    apply N.ltb_lt in H1. apply Nat.eqb_eq in H2.
    assert (HI : a_env o = ienv_of cosp tab62).
    { clear - Ho HE. revert Ho. generalize 0%N. revert HE. generalize ds62.
      induction l as [|d l IH]; intros HE b Ho; [destruct Ho|]. inversion HE as [|x y (H & _) HE']; subst.
      cbn in Ho. destruct Ho as [<-|Ho]; [exact H|]. eapply IH; eassumption. }
    split; [|split; [exact H2|rewrite HI; split; [cbn; lia|split; [reflexivity|split; [cbn; lia|]]]]].
    { unfold call_ok. rewrite HI. cbn. split; [apply env_rev_sched|]. split; [exact cosp_known|]. split; [reflexivity|]. lia. }
    intros l ow id Hid. apply in_map_iff in Hid. destruct Hid as (o' & <- & Ho').
    pose proof (Ha _ Ho') as Hb. apply andb_true_iff in Hb. destruct Hb as [Hb _]. apply andb_true_iff in Hb. destruct Hb as [Hb _].
    apply N.ltb_lt in Hb. change (i_vs (ienv_of cosp tab62) l ow (a_id o')) with (src_of tab62 (a_id o')).
    assert (Hs : forallb (fun k => match src_of tab62 (N.of_nat k) with Ok w => Nat.eqb (length w) 2 | _ => false end) (seq 0 62) = true)
      by (vm_compute; reflexivity).
    rewrite forallb_forall in Hs. specialize (Hs (N.to_nat (a_id o'))). rewrite N2Nat.id in Hs.
    assert (Hin : In (N.to_nat (a_id o')) (seq 0 62)) by (apply in_seq; lia). specialize (Hs Hin).
    destruct (src_of tab62 (a_id o')) as [w| | |]; try discriminate. exists w. split; [reflexivity|now apply Nat.eqb_eq]. }
  destruct (lost62_spec _ st62_lost) as [H1 H2].
  split; [exact H1|]. split; [unfold ds62; apply in_map; apply (nth_error_In _ 61); reflexivity|].
  split; [reflexivity|]. split; [vm_compute; reflexivity|]. exact H2.
Qed.
Print Assumptions C26_62_documents_refuted.
