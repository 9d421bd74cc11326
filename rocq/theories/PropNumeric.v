(** Properties C41 and C58-C60, numerically: the floating-point distances against
    the exact ones.

    [rv] is the real value of a float; [norm] and [cosdist] are the exact norm
    and the exact cosine distance of the values of the components.  [moderate]:
    finite components, at most 65536 of them, none above 2^40 and one of at
    least 2^-40 in absolute value. *)
From Coq Require Import String Sorted ZArith Reals Psatz.
From Flocq Require Import Core.Core IEEE754.BinarySingleNaN.
From Verif Require Import Base F32 F32Real F32Norm F32Err JsonNum PQ PQProofs Graph Search SearchProofs SearchLayer SearchKnn
  SearchCong Insert HeuristicProofs InsertProofs InsertHist InsertTotal InsertDim InsertSmall InsertFacts InsertFind
  Distancer DistancerProofs DistancerDepth PropDistancer TestGraph TestInsert PropSearch PropInsert PropFind
  Persist PersistProofs PersistHist LRU LRUProofs PropPersist InsertRestart Collections
  Client ClientProofs ClientSafe ClientFacts ClientReq PropClient VCache VCacheProofs VCacheFacts ClientIds ClientSmall
  Handlers HandlersProofs PoisonProofs PropHandlers PropRequests F32Cos F32Cmp.
Local Open Scope R_scope.

(* ------------------------------------------------------------------ *)
(** C59: the distance that the index computes between two vectors as they were
    given is within (4 n + 24) 2^-24 of the exact cosine distance, for the Go
    loop and for the AVX2 kernel.
    Missing: vectors outside [moderate], where the claim is false (below). *)
Theorem C59_cosine_accurate_partial : forall dot a b,
  dot_impl dot -> moderate a -> moderate b -> length a = length b ->
  let P := cosine_provider dot in
  exists d, p_query P (p_normalize P a) (p_normalize P b) = Some d /\
    is_finite_b d = true /\
    Rabs (rv d - (1 - sumS (combine a b) / (norm a * norm b))) <= (4 * INR (length a) + 24) * / 16777216.
Proof.
  intros dot a b Hd Ha Hb Hl. destruct (cosine_query dot a b Hd Ha Hb Hl) as (d & E & _ & F & H).
  exists d. split; [exact E|]. split; [now rewrite fin_b|]. exact H.
Qed.
Print Assumptions C59_cosine_accurate_partial.

(** So distances stay within [0, 2] up to the error, and a vector is at distance
    0 from itself up to the error. *)
Theorem C59_cosine_range_partial : forall dot a b,
  dot_impl dot -> moderate a -> moderate b -> length a = length b ->
  let P := cosine_provider dot in let eps := (4 * INR (length a) + 24) * / 16777216 in
  exists d, p_query P (p_normalize P a) (p_normalize P b) = Some d /\ is_finite_b d = true /\
    - eps <= rv d <= 2 + eps /\ (a = b -> Rabs (rv d) <= eps).
Proof.
  intros dot a b Hd Ha Hb Hl P eps. destruct (cosine_query dot a b Hd Ha Hb Hl) as (d & E & _ & F & H).
  exists d. split; [exact E|]. split; [now rewrite fin_b|]. pose proof (cosdist_range a b Ha Hb Hl) as Hr.
  change (cos_eps (length a)) with eps in H. split; [apply Rabs_le_inv in H; lra|].
  intros <-. rewrite cosdist_self, Rminus_0_r in H; [exact H|].
  pose proof (moderate_sq a Ha) as [Hs _]. eapply Rlt_le_trans; [apply bpow_gt_0|exact Hs].
Qed.
Print Assumptions C59_cosine_range_partial.

(** C41: Go loop and AVX2 kernel give nearly the same cosine distance. *)
Theorem C41_cosine_close : forall a b, moderate a -> moderate b -> length a = length b ->
  exists d1 d2, p_query (cosine_provider dot_go) (normalize a) (normalize b) = Some d1 /\
    p_query (cosine_provider dot_avx) (normalize a) (normalize b) = Some d2 /\
    Rabs (rv d1 - rv d2) <= (8 * INR (length a) + 48) * / 16777216.
Proof.
  intros a b Ha Hb Hl. destruct (cosine_query dot_go a b dot_impl_go Ha Hb Hl) as (d & E & _ & _ & H).
  destruct (cosine_query dot_avx a b dot_impl_avx Ha Hb Hl) as (d' & E' & _ & _ & H').
  exists d, d'. split; [exact E|]. split; [exact E'|]. unfold cos_eps in *. change u with (/ 16777216) in *.
  replace (rv d - rv d') with ((rv d - cosdist a b) + - (rv d' - cosdist a b)) by ring.
  eapply Rle_trans; [apply Rabs_triang|]. rewrite Rabs_Ropp. lra.
Qed.
Print Assumptions C41_cosine_close.

Definition v59 : vec := q_of [3; 4; 0; -12; 84]%Z.
Definition w59 : vec := map (fun x => f32_div x (f32_of_Z 1000)) (q_of [7; -2; 11; 5; 1]%Z).
Example C59_nonvacuous : moderate v59 /\ moderate w59 /\ length v59 = length w59 /\
  p_query cosp (normalize v59) (normalize w59) <> None.
Proof. split; [apply moderate_check; vm_compute; reflexivity|]. split; [apply moderate_check; vm_compute; reflexivity|].
  split; [reflexivity|]. vm_compute. discriminate. Qed.

(** In a history of requests where none failed half-way ([clean], as for C24), the
    distance reported with a document is the exact cosine distance of the query
    to the vector the document was added with, up to the error; and a reported
    document is not further away than the requested distance, up to the error. *)
Theorem C59_answers_accurate_partial : forall dot qs Q q maxd limit docs dists,
  dot_impl dot ->
  Forall (req_ok (cosine_provider dot)) qs -> clean new_coll qs -> Forall (req_size 25000) qs ->
  (25000 <= e_vcap (q_env Q))%N -> e_prov (q_env Q) = cosine_provider dot -> sched_ok (q_env Q) ->
  snd (near_by_vector Q (run_reqs new_coll qs) q maxd limit) = Ok (docs, dists) ->
  Permutation (q_order Q) (seq 0 (length docs)) ->
  moderate q -> f32_valid maxd -> is_finite_b maxd = true ->
  let eps := (4 * INR (length q) + 24) * / 16777216 in
  forall i, (i < length docs)%nat -> exists d v x,
    nth_error docs i = Some (Some d) /\ In d (c_docs (run_reqs new_coll qs)) /\ sd_vec d = Some v /\ nth_error dists i = Some x /\
    (moderate v -> Rabs (rv x - cosdist q v) <= eps /\ cosdist q v <= rv maxd + eps).
Proof.
  intros dot qs Q q maxd limit docs dists Hd Hr Hcl Hsz Hcap HP Hsc Hok Hperm Hq Vm Fm eps i Hi.
  set (P := cosine_provider dot) in *. assert (Hsym : prov_sym P) by (apply known_psym; constructor; exact Hd).
  destruct (C24_requests_paired_partial P qs Q q maxd limit docs dists Hr Hcl Hsz Hcap HP Hsc Hsym Hok Hperm i Hi)
    as (d & v & x & H1 & H2 & H3 & H4 & H5).
  destruct (C03_requests_bound_limit qs Q q maxd limit docs dists Hsz Hcap Hsc) as [_ Hb]; [now rewrite HP|exact Hok|exact Hperm|].
  destruct (Hb i Hi) as (x' & Hx' & Hgt). rewrite H4 in Hx'. injection Hx' as <-.
  exists d, v, x. split; [exact H1|]. split; [exact H2|]. split; [exact H3|]. split; [exact H4|]. intros Hv.
  assert (Hl : length q = length v).
  { cbn in H5. unfold checked in H5. destruct (Nat.eqb_spec (length (normalize q)) (length (normalize v))) as [E|]; [|discriminate].
    now rewrite !norm_length in E. }
  destruct (cosine_query dot q v Hd Hq Hv Hl) as (y & Ey & Vy & Fy & Hy). cbn in H5, Ey. rewrite H5 in Ey. injection Ey as <-.
  change (cos_eps (length q)) with eps in Hy. split; [exact Hy|]. unfold fgt in Hgt. rewrite fin_b in Fm.
  apply flt_false in Hgt; auto. apply Rabs_le_inv in Hy. lra.
Qed.
Print Assumptions C59_answers_accurate_partial.

(** False for vectors of large components: the sum of the squares overflows, the
    vector becomes zero, and the distance to itself is 1 instead of 0.  The
    same happens for small components, whose squares underflow. *)
Lemma rv_pos x : flt f32_zero x = true -> f32_valid x -> fin x -> 0 < rv x.
Proof. intros H V F. apply (flt_real f32_zero x); try assumption; reflexivity. Qed.
Theorem C59_large_vectors_refuted : exists a,
  Forall f32_valid a /\ forallb is_finite_b a = true /\ cosdist a a = 0 /\
  p_query cosp (p_normalize cosp a) (p_normalize cosp a) = Some f32_one /\ rv f32_one = 1.
Proof.
  set (x := f32_of_Z (10 ^ 30)). assert (V : f32_valid x) by (vm_compute; reflexivity). assert (F : fin x) by (vm_compute; reflexivity).
  exists [x]. split; [constructor; [exact V|constructor]|]. split; [vm_compute; reflexivity|]. split; [|split; [vm_compute; reflexivity|apply one_real]].
  apply cosdist_self. unfold sq. cbn [combine]. rewrite sumS_cons. change (sumS []) with 0. cbn [fst snd].
  assert (0 < rv x) by (apply rv_pos; [vm_compute; reflexivity|exact V|exact F]). pose proof (Rmult_lt_0_compat _ _ H H). lra.
Qed.
Print Assumptions C59_large_vectors_refuted.
Theorem C59_small_vectors_refuted : exists a,
  Forall f32_valid a /\ forallb is_finite_b a = true /\ cosdist a a = 0 /\
  p_query cosp (p_normalize cosp a) (p_normalize cosp a) = Some f32_one /\ rv f32_one = 1.
Proof.
  set (x := S754_finite false 8388608 (-120)). assert (V : f32_valid x) by (vm_compute; reflexivity). assert (F : fin x) by (vm_compute; reflexivity).
  exists [x]. split; [constructor; [exact V|constructor]|]. split; [vm_compute; reflexivity|]. split; [|split; [vm_compute; reflexivity|apply one_real]].
  apply cosdist_self. unfold sq. cbn [combine]. rewrite sumS_cons. change (sumS []) with 0. cbn [fst snd].
  assert (0 < rv x) by (apply rv_pos; [vm_compute; reflexivity|exact V|exact F]). pose proof (Rmult_lt_0_compat _ _ H H). lra.
Qed.
Print Assumptions C59_small_vectors_refuted.

(* ------------------------------------------------------------------ *)
(** From the computed to the exact distances. *)
Lemma cosine_answer n P (ds : list vdoc) q maxd docs dists : let eps := (4 * INR n + 24) * / 16777216 in
  NoDup (map (fun d => di_id (vd_doc d)) ds) -> f32_valid maxd -> is_finite_b maxd = true ->
  (forall d, In d ds -> exists x, p_query P (p_normalize P q) (p_normalize P (vd_vec d)) = Some x /\ f32_valid x /\ fin x /\
            Rabs (rv x - cosdist q (vd_vec d)) <= eps) ->
  exact_answer P ds q maxd docs dists ->
  (forall i o, nth_error docs i = Some o -> exists s d x, o = Some s /\ In d ds /\ sd_id s = di_id (vd_doc d) /\
     nth_error dists i = Some x /\ Rabs (rv x - cosdist q (vd_vec d)) <= eps /\ cosdist q (vd_vec d) <= rv maxd + eps) /\
  (forall d, In d ds -> eps <= cosdist q (vd_vec d) <= rv maxd - eps ->
     exists i s, nth_error docs i = Some (Some s) /\ sd_id s = di_id (vd_doc d)) /\
  (forall i j s t, nth_error docs i = Some (Some s) -> nth_error docs j = Some (Some t) -> sd_id s = sd_id t -> i = j) /\
  (forall i j s t d d', (i < j)%nat -> nth_error docs i = Some (Some s) -> nth_error docs j = Some (Some t) ->
     In d ds -> In d' ds -> sd_id s = di_id (vd_doc d) -> sd_id t = di_id (vd_doc d') ->
     cosdist q (vd_vec d) <= cosdist q (vd_vec d') + 2 * eps).
Proof.
  intros eps Hids Vm Fm Hq2 (_ & Ha & Hb & Hc & Hs). rewrite fin_b in Fm.
  assert (Hx : forall d x, In d ds -> p_query P (p_normalize P q) (p_normalize P (vd_vec d)) = Some x ->
    f32_valid x /\ fin x /\ Rabs (rv x - cosdist q (vd_vec d)) <= eps).
  { intros d x Hin Ex. destruct (Hq2 d Hin) as (y & Ey & K). rewrite Ex in Ey. injection Ey as ->. exact K. }
  split; [|split; [|split]].
  - intros i o Ho. destruct (Ha i o Ho) as (s & d & x & Hs1 & Hin & Hid & Hxi & Hxq & Hx0 & Hxm).
    destruct (Hx d x Hin Hxq) as (Vx & Fx & Ex). exists s, d, x. split; [exact Hs1|]. split; [exact Hin|]. split; [exact Hid|]. split; [exact Hxi|].
    split; [exact Ex|]. unfold fgt in Hxm. apply flt_false in Hxm; auto. apply Rabs_le_inv in Ex. lra.
  - intros d Hin Hd2. destruct (Hq2 d Hin) as (x & Ex & Vx & Fx & Hxe). apply Rabs_le_inv in Hxe.
    destruct (Hb d x Hin Ex) as (i & s & K1 & K2 & _).
    + apply flt_false; auto; try reflexivity. change (rv f32_zero) with 0. lra.
    + unfold fgt. apply flt_false; auto. lra.
    + exists i, s. auto.
  - exact Hc.
  - intros i j s t d d' Hij Hi Hj Hin Hin' Hsd Htd.
    assert (Hinj : forall d d', In d ds -> In d' ds -> di_id (vd_doc d) = di_id (vd_doc d') -> d = d').
    { clear -Hids. induction ds as [|e ds IH]; intros d d' H H' E; [destruct H|]. cbn [map] in Hids. inversion Hids as [|? ? N1 N2]; subst.
      destruct H as [->|H], H' as [->|H']; auto; exfalso; apply N1; [rewrite E|rewrite <- E]; now apply (in_map (fun d => di_id (vd_doc d))). }
    destruct (Ha i _ Hi) as (s1 & d1 & x & [= <-] & Hin1 & Hid1 & Hxi & Hxq & _).
    destruct (Ha j _ Hj) as (t1 & e1 & y & [= <-] & Hin2 & Hid2 & Hyi & Hyq & _).
    assert (d1 = d) by (apply Hinj; auto; congruence). assert (e1 = d') by (apply Hinj; auto; congruence). subst d1 e1.
    destruct (Hx d x Hin Hxq) as (Vx & Fx & Ex). destruct (Hx d' y Hin' Hyq) as (Vy & Fy & Ey).
    assert (Hj' : (j < length docs)%nat) by (apply nth_error_Some; congruence).
    pose proof (Hs i j x y (conj Hij Hj') Hxi Hyi) as Hlt. apply flt_false in Hlt; auto.
    apply Rabs_le_inv in Ex, Ey. lra.
Qed.

(** C60: from the request to the true neighbours.  As [C26_one_request_exact_partial],
    but against the exact cosine distances: every document at an exact distance
    between eps and maxd - eps is returned, everything returned is one of the
    request and at an exact distance of at most maxd + eps, reported with its
    exact distance up to eps, and no document comes before one that is nearer by
    more than 2 eps.
    Missing: more documents (several requests: PropHistory.v); documents within eps of the query
    (false: below). *)
Theorem C60_true_neighbours_partial : forall n cap dot R lookup keys ds,
  dot_impl dot -> (0 < n)%nat -> ds <> [] -> (length ds <= 61)%nat -> NoDup (map (fun d => di_id (vd_doc d)) ds) -> Forall (vt_ok lookup keys) ds ->
  Forall (fun d => e_prov (i_env (do_env (vd_orc d))) = cosine_provider dot) ds -> Forall (fun d => moderate (vd_vec d)) ds ->
  Forall (find_call n 30 cap (map a_id (ops_of 0 ds))) (ops_of 0 ds) -> rorc_ok R ->
  snd (add_documents R lookup keys (map vd_pair ds) new_coll) = Ok tt ->
  let st := fst (add_documents R lookup keys (map vd_pair ds) new_coll) in
  forall st', st' = st \/ st' = restart_coll st ->
  forall E q maxd limit, sched_ok E -> e_prov E = cosine_provider dot -> e_vcap E = cap -> length q = n ->
    (limit = 0 \/ Z.of_nat (length ds) <= limit)%Z -> moderate q -> f32_valid maxd -> is_finite_b maxd = true ->
    let eps := (4 * INR n + 24) * / 16777216 in
    exists m, forall Q, q_env Q = E ->
      r_kvopen (q_open Q) = true -> r_isopen (q_open Q) = true -> r_docopen (q_open Q) = true ->
      Permutation (q_order Q) (seq 0 m) -> (forall i, q_ok Q i = true) ->
      exists docs dists, snd (near_by_vector Q st' q maxd limit) = Ok (docs, dists) /\
        (forall i o, nth_error docs i = Some o -> exists s d x, o = Some s /\ In d ds /\ sd_id s = di_id (vd_doc d) /\
           nth_error dists i = Some x /\ Rabs (rv x - cosdist q (vd_vec d)) <= eps /\ cosdist q (vd_vec d) <= rv maxd + eps) /\
        (forall d, In d ds -> eps <= cosdist q (vd_vec d) <= rv maxd - eps ->
           exists i s, nth_error docs i = Some (Some s) /\ sd_id s = di_id (vd_doc d)) /\
        (forall i j s t, nth_error docs i = Some (Some s) -> nth_error docs j = Some (Some t) -> sd_id s = sd_id t -> i = j) /\
        (forall i j s t d d', (i < j)%nat -> nth_error docs i = Some (Some s) -> nth_error docs j = Some (Some t) ->
           In d ds -> In d' ds -> sd_id s = di_id (vd_doc d) -> sd_id t = di_id (vd_doc d') ->
           cosdist q (vd_vec d) <= cosdist q (vd_vec d') + 2 * eps).
Proof.
  intros n cap dot R lookup keys ds Hd Hn Hne Hlen Hids Hvd HP Hmod Hf HR Hok st st' Hst E q maxd limit Hsc HEP Hcap Hq Hlim Hqm Vm Fm eps.
  set (P := cosine_provider dot) in *.
  assert (Hlv : forall d, In d ds -> length (vd_vec d) = n).
  { intros d Hin. apply In_nth_error in Hin. destruct Hin as [i Hi]. rewrite Forall_forall in Hf.
    assert (Ho : exists o, In o (ops_of 0 ds) /\ a_vec o = vd_vec d).
    { clear -Hi. revert i Hi. generalize 0%N. induction ds as [|e ds IH]; intros b [|i] Hi; try discriminate; cbn [ops_of].
      - injection Hi as ->. eexists. split; [left; reflexivity|reflexivity].
      - destruct (IH (N.succ b) i Hi) as (o & Ho & E). exists o. split; [right; exact Ho|exact E]. }
    destruct Ho as (o & Ho & <-). now destruct (Hf o Ho) as (_ & Hl & _). }
  rewrite Forall_forall in Hmod.
  assert (Hq2 : forall d, In d ds -> exists x, p_query P (p_normalize P q) (p_normalize P (vd_vec d)) = Some x /\ f32_valid x /\ fin x /\
            Rabs (rv x - cosdist q (vd_vec d)) <= eps).
  { intros d Hin. destruct (cosine_query dot q (vd_vec d) Hd Hqm (Hmod d Hin)) as (x & K); [now rewrite Hq, (Hlv d Hin)|].
    rewrite Hq in K. exists x. exact K. }
  destruct (C26_one_request_exact_partial n cap P R lookup keys ds Hn Hne Hlen Hids Hvd HP Hf HR Hok st' Hst E q maxd limit Hsc HEP Hcap Hq Hlim) as [m Hm].
  { intros d x Hin Hx. destruct (Hq2 d Hin) as (y & Ey & _ & Fy & _). rewrite Hx in Ey. injection Ey as ->. now destruct y. }
  exists m. intros Q HQ H1 H2 H3 H4 H5. destruct (Hm Q HQ H1 H2 H3 H4 H5) as (docs & dists & Hr & Ha).
  exists docs, dists. split; [exact Hr|]. now apply (cosine_answer n P).
Qed.
Print Assumptions C60_true_neighbours_partial.

(** The five documents of [C26_one_request_nonvacuous] meet the hypotheses. *)
Example C60_nonvacuous : e_prov (q_env (qok 4)) = cosine_provider dot_go /\
  Forall (fun d => e_prov (i_env (do_env (vd_orc d))) = cosine_provider dot_go) ds5 /\
  Forall (fun d => moderate (vd_vec d)) ds5 /\ moderate (q_of [0; 3]%Z) /\
  f32_valid (f32_div (f32_of_Z 9) (f32_of_Z 10)) /\ is_finite_b (f32_div (f32_of_Z 9) (f32_of_Z 10)) = true.
Proof.
  split; [reflexivity|]. split; [apply Forall_forall; intros d [<-|[<-|[<-|[<-|[<-|[]]]]]]; reflexivity|]. split.
  { assert (H : forallb (fun d => moderate_b (vd_vec d)) ds5 = true) by (vm_compute; reflexivity).
    rewrite forallb_forall in H. apply Forall_forall. intros d Hd. now apply moderate_check, H. }
  split; [apply moderate_check; vm_compute; reflexivity|]. split; vm_compute; reflexivity.
Qed.

(** An exact match can be missing: the computed distance of (1, 4) to itself is
    slightly negative, and the search drops negative distances
    (search_with_max_dist.go:74-76). *)
Definition vd60 : vdoc :=
  mkVD (mkDoc "a" [("vector", JArr (map num [1; 4]%Z))]%string) (map num [1; 4]%Z) (q_of [1; 4]%Z)
    (mkD (ienv_of cosp (enum 0 [q_of [1; 4]%Z])) 0 (fun _ => Err EVectorizer) true true).
Theorem C60_exact_match_refuted : exists d q,
  vd_ok d /\ moderate q /\ moderate (vd_vec d) /\ cosdist q (vd_vec d) = 0 /\
  snd (add_documents rok true [] [vd_pair d] new_coll) = Ok tt /\
  exists dists, snd (near_by_vector (qok 0) (fst (add_documents rok true [] [vd_pair d] new_coll)) q (f32_of_Z 2) 0) = Ok ([], dists).
Proof.
  exists vd60, (q_of [1; 4]%Z). assert (Hm : moderate (q_of [1; 4]%Z)) by (apply moderate_check; vm_compute; reflexivity).
  split; [repeat split|]. split; [exact Hm|]. split; [exact Hm|]. split.
  { apply cosdist_self. pose proof (moderate_sq _ Hm) as [Hs _]. eapply Rlt_le_trans; [apply bpow_gt_0|exact Hs]. }
  split; [vm_compute; reflexivity|]. eexists. vm_compute. reflexivity.
Qed.
Print Assumptions C60_exact_match_refuted.

(* ------------------------------------------------------------------ *)
(** C58: if all components given in requests are finite float32 numbers, no add
    request fails to marshal, whatever the known provider: the normalisation of
    a finite vector is finite.  Vectors from the vectorizer and vectors given
    as Go values ([JVec]) are in addition bit patterns of float32 numbers
    ([f32_valid]); for JSON numbers this is proved.
    Missing: requests with numbers beyond the float32 range
    ([C58_later_requests_fail_refuted]). *)
Definition doc_finite (P : provider) (p : option docin * dorc) : Prop :=
  e_prov (i_env (do_env (snd p))) = P /\
  (forall t v, do_corpi (snd p) t = Ok (Some v) -> Forall f32_valid v /\ forallb is_finite_b v = true) /\
  (forall d, fst p = Some d ->
     (forall l v, pget "vector" (di_props d) = Some (JArr l) -> vector_of l = Some v -> forallb is_finite_b v = true) /\
     (forall v, pget "vector" (di_props d) = Some (JVec v) -> Forall f32_valid v /\ forallb is_finite_b v = true)).
Definition req_finite (P : provider) (q : creq) : Prop :=
  match q with QAdd _ _ _ docs => Forall (doc_finite P) docs | _ => True end.

Lemma doc_finite_ok P p : doc_finite P p -> doc_vecs_ok okv P p.
Proof.
  intros (H1 & H2 & H3). split; [exact H1|]. split; [exact H2|]. intros d Hd. destruct (H3 d Hd) as [K1 K2].
  split; [|exact K2]. intros l v Hl Hv. split; [now apply (vector_of_valid l)|now apply (K1 l)].
Qed.
Theorem C58_finite_components_partial : forall P qs R lookup keys docs,
  known_provider P -> Forall (req_finite P) qs -> Forall (doc_finite P) docs ->
  snd (add_documents R lookup keys docs (run_reqs new_coll qs)) <> Err EMarshal.
Proof.
  intros P qs R lookup keys docs HP Hq Hd. apply (C58_never_unmarshallable_partial okv P).
  - intros v [V F]. destruct HP; cbn; try exact F. now destruct (normalize_finite v V F).
  - eapply Forall_impl; [|exact Hq]. intros q; destruct q; cbn; auto.
    intros H. eapply Forall_impl; [|exact H]. apply doc_finite_ok.
  - eapply Forall_impl; [|exact Hd]. apply doc_finite_ok.
Qed.
Print Assumptions C58_finite_components_partial.

Example C58_finite_nonvacuous : Forall (req_finite cosp) [QAdd rok true [] docs3] /\
  Forall (doc_finite cosp) [doc58 "d" [num 2; num 1]] /\ ~ Forall (doc_finite cosp) huge3.
Proof.
  assert (H : forall id l, match vector_of l with Some v => forallb is_finite_b v | None => true end = true ->
    doc_finite cosp (doc58 id l)).
  { intros id l Hv. split; [reflexivity|]. split; [discriminate|]. cbn [fst doc58]. intros d [= <-]. cbn [di_props].
    split; [|discriminate]. intros l' w [= <-] Hw. rewrite Hw in Hv. exact Hv. }
  assert (H3 : Forall (doc_finite cosp) docs3).
  { unfold docs3. constructor; [|constructor; [|constructor; [|constructor]]]; apply H; vm_compute; reflexivity. }
  split; [constructor; [exact H3|constructor]|]. split; [constructor; [apply H; vm_compute; reflexivity|constructor]|].
  intros Hb. assert (Hx : doc_finite cosp (doc58 "h" [JNum "1e39"; num 0])).
  { apply (proj1 (Forall_forall _ _) Hb). right. right. now left. }
  destruct Hx as (_ & _ & Hx). destruct (Hx _ eq_refl) as [Hx1 _]. cbn [di_props doc58] in Hx1.
  assert (Ev : exists v, vector_of [JNum "1e39"; num 0] = Some v /\ forallb is_finite_b v = false).
  { eexists. split; [vm_compute; reflexivity|]. vm_compute. reflexivity. }
  destruct Ev as (v & E1 & E2). specialize (Hx1 _ v eq_refl E1). congruence.
Qed.
