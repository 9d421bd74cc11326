(** Property C26 for every limit: the nearest documents are answered. *)
From Coq Require Import String.
From Verif Require Import Base F32 PQ PQProofs Graph Search SearchProofs Insert InsertProofs InsertHist InsertTotal InsertFind
  Distancer DistancerProofs PropDistancer TestGraph TestInsert PropSearch PropInsert Persist PersistProofs
  Collections Client ClientProofs ClientSafe ClientFacts ClientReq PropClient VCache VCacheFacts ClientIds ClientSmall
  PropRequests Vectorizer VectorizerProofs PropVectorizer PropNumeric ClientMany PropHistory PropReads PropOverlap PropOrder PropCut.
Local Open Scope nat_scope.

(** The answer does not depend on the order in which the fetches end. *)
Lemma fetch_reorder find ids o1 o2 docs : NoDup o1 -> fetch_docs find ids o1 = Ok docs ->
  (forall i o, nth_error docs i = Some o -> o <> None) -> Permutation o2 (seq 0 (length docs)) ->
  fetch_docs find ids o2 = Ok docs.
Proof.
  intros Hn Hf Hs Hp. pose proof (fetch_docs_len _ _ _ _ Hf) as Hl. rewrite Hl in Hp.
  pose proof (fetch_docs_spec find ids o2 Hp) as S2. unfold fetch_docs in Hf.
  destruct (run_fetch_spec find ids o1 (repeat None (length ids)) [] (repeat_length _ _) Hn) as (R1 & R2 & R3 & l & R4 & R5 & R6).
  destruct (run_fetch find ids o1 (repeat None (length ids)) []) as [s e]. cbn [fst snd] in *.
  destruct e as [|e0 e]; [|discriminate]. injection Hf as <-. cbn in R4. specialize (R5 (eq_sym R4)).
  assert (Hin : forall i, i < length ids -> In i o1).
  { intros i Hi. destruct (in_dec Nat.eq_dec i o1) as [|Hno]; [assumption|exfalso].
    specialize (R2 i Hno). rewrite nth_error_repeat in R2 by exact Hi. exact (Hs i None R2 eq_refl). }
  assert (Hfind : forall i id, nth_error ids i = Some id -> exists d, find i id = Ok d /\ nth_error s i = Some (Some d)).
  { intros i id Hi. assert (Hlt : i < length ids) by (apply nth_error_Some; congruence).
    destruct (R5 i id (Hin i Hlt) Hi) as (d & Hd). exists d. split; [exact Hd|]. exact (R3 i id d (Hin i Hlt) Hi Hd). }
  destruct (fetch_docs find ids o2) as [d2|e2| |]; try contradiction.
  - destruct S2 as [L2 S2]. f_equal. apply nth_error_ext'. intros i. destruct (nth_error ids i) as [id|] eqn:Ei.
    + destruct (Hfind i id Ei) as (d & A & B), (S2 i id Ei) as (d' & A' & B'). rewrite B, B'. congruence.
    + apply nth_error_None in Ei. rewrite (proj2 (nth_error_None d2 i)), (proj2 (nth_error_None s i)) by lia. reflexivity.
  - destruct S2 as (i & id & Hi & Hno). destruct (Hfind i id Hi) as (d & Hd & _). destruct (Hno d Hd).
Qed.

Lemma near_reorder Q o st q maxd limit docs dists : NoDup (q_order Q) ->
  snd (near_by_vector Q st q maxd limit) = Ok (docs, dists) ->
  (forall i x, nth_error docs i = Some x -> x <> None) -> Permutation o (seq 0 (length docs)) ->
  snd (near_by_vector (mkQ (q_open Q) (q_env Q) o (q_ok Q) (q_pick Q)) st q maxd limit) = Ok (docs, dists).
Proof.
  intros Hn H Hs Hp. revert H. unfold near_by_vector. cbn [q_open].
  destruct (open_coll (q_open Q) st) as [st' [u|e| |]]; try discriminate.
  unfold near_docs. destruct (negb (c_reg st')); [discriminate|]. cbn [snd q_env q_ok q_pick q_order].
  destruct (knn_max_dist _ _ _ _ _ _) as [out|e| |]; cbn [bind]; try discriminate.
  destruct (cut_limit limit out) as [out'|e| |]; cbn [bind]; try discriminate.
  destruct (fetch_docs _ (fst out') (q_order Q)) as [docs'|e| |] eqn:Ef; cbn [bind]; try discriminate.
  intros [= -> <-]. now rewrite (fetch_reorder _ _ _ _ _ Hn Ef Hs Hp).
Qed.

(** A history as in [C26_history_exact_partial], and any limit above zero: the
    answer lists different documents with their distances, in ascending order, and
    a document within the distance that is not listed is at least as far as every
    listed one, of which there are then as many as the limit allows.
    Missing: more than 61 documents; false for them ([C26_62_documents_refuted]). *)
Theorem C26_history_limit_partial : forall n cap P hs,
  let ds := hist_docs hs in
  0 < n -> ds <> [] -> length ds <= 61 -> NoDup (map (fun d => di_id (vd_doc d)) ds) ->
  Forall (fun d => e_prov (i_env (do_env (vd_orc d))) = P) ds ->
  Forall (many_call n 30 cap (map a_id (ops_of 0 ds))) (ops_of 0 ds) -> hist_ok new_coll hs ->
  let st := run_reqs new_coll (hist_reqs hs) in
  (c_open st = true -> c_reg st = true) ->
  forall E q maxd limit, sched_ok E -> e_prov E = P -> e_vcap E = cap -> length q = n -> (0 < limit)%Z ->
    (forall d x, In d ds -> p_query P (p_normalize P q) (p_normalize P (vd_vec d)) = Some x -> is_num x = true) ->
    exists m, (Z.of_nat m <= limit)%Z /\ forall Q, q_env Q = E ->
      r_kvopen (q_open Q) = true -> r_isopen (q_open Q) = true -> r_docopen (q_open Q) = true ->
      Permutation (q_order Q) (seq 0 m) -> (forall i, q_ok Q i = true) ->
      exists docs dists, snd (near_by_vector Q st q maxd limit) = Ok (docs, dists) /\ length docs = m /\
        (forall i o, nth_error docs i = Some o -> exists s d x, o = Some s /\ In d ds /\ sd_id s = di_id (vd_doc d) /\
           nth_error dists i = Some x /\ p_query P (p_normalize P q) (p_normalize P (vd_vec d)) = Some x /\
           flt x f32_zero = false /\ fgt x maxd = false) /\
        (forall i j s t, nth_error docs i = Some (Some s) -> nth_error docs j = Some (Some t) -> sd_id s = sd_id t -> i = j) /\
        (forall i j x y, i < j < length docs -> nth_error dists i = Some x -> nth_error dists j = Some y -> flt y x = false) /\
        (forall d x, In d ds -> p_query P (p_normalize P q) (p_normalize P (vd_vec d)) = Some x ->
           flt x f32_zero = false -> fgt x maxd = false ->
           (exists i s, nth_error docs i = Some (Some s) /\ sd_id s = di_id (vd_doc d) /\ nth_error dists i = Some x) \/
           Z.of_nat (length docs) = limit /\
           forall i y, i < length docs -> nth_error dists i = Some y -> flt x y = false).
Proof.
  intros n cap P hs ds Hn Hne Hlen Hids HP Hf Hok st Hreg E q maxd limit Hsc HEP Hcap Hq Hlim Hnum.
  destruct (C26_history_exact_partial n cap P hs Hn Hne Hlen Hids HP Hf Hok Hreg E q maxd 0%Z Hsc HEP Hcap Hq (or_introl eq_refl) Hnum) as (m0 & K0).
  fold ds st in K0.
  set (R := rok). set (Q0 := mkQ R E (seq 0 m0) (fun _ => true) (fun _ => 0)).
  destruct (K0 Q0 eq_refl eq_refl eq_refl eq_refl (Permutation_refl _) (fun _ => eq_refl)) as (docs0 & dists0 & H0 & U1 & U2 & U3 & U4 & U5).
  exists (Nat.min (Z.to_nat limit) (length docs0)). split; [lia|]. intros Q HQ O1 O2 O3 Hp Hfok.
  set (Q1 := mkQ (q_open Q) E (seq 0 m0) (fun _ => true) (q_pick Q)).
  destruct (K0 Q1 eq_refl O1 O2 O3 (Permutation_refl _) (fun _ => eq_refl)) as (docs1 & dists1 & H1 & V1 & V2 & V3 & V4 & V5).
  assert (Hs : forall i x, nth_error docs1 i = Some x -> x <> None).
  { intros i x Hx. destruct (V2 i x Hx) as (s & _ & _ & -> & _). discriminate. }
  assert (Hlen01 : length docs0 = length docs1).
  { set (S := fun id x => exists d, In d ds /\ di_id (vd_doc d) = id /\ p_query P (p_normalize P q) (p_normalize P (vd_vec d)) = Some x /\
       flt x f32_zero = false /\ fgt x maxd = false).
    assert (A : lists_all S docs0 dists0).
    { split; [exact U1|]. split; [|split; [|split; [exact U4|exact U5]]].
      - intros i o Hi. destruct (U2 i o Hi) as (s & d & x & -> & X1 & X2 & X3 & X4). exists s, x. split; [reflexivity|]. split; [exact X3|].
        exists d. now split; [|split].
      - intros id x (d & X1 & <- & X3 & X4 & X5). exact (U3 d x X1 X3 X4 X5). }
    assert (B : lists_all S docs1 dists1).
    { split; [exact V1|]. split; [|split; [|split; [exact V4|exact V5]]].
      - intros i o Hi. destruct (V2 i o Hi) as (s & d & x & -> & X1 & X2 & X3 & X4). exists s, x. split; [reflexivity|]. split; [exact X3|].
        exists d. now split; [|split].
      - intros id x (d & X1 & <- & X3 & X4 & X5). exact (V3 d x X1 X3 X4 X5). }
    exact (proj1 (lists_same S _ _ _ _ A B)). }
  rewrite Hlen01 in *.
  pose proof (near_reorder Q1 (seq 0 (length docs1)) st q maxd 0 docs1 dists1 (seq_NoDup _ _) H1 Hs (Permutation_refl _)) as H2.
  cbn [q_open q_env q_ok q_pick] in H2.
  set (r := Nat.min (Z.to_nat limit) (length docs1)) in *.
  destruct (C99_limit_cuts Q _ st q maxd limit docs1 dists1 (eq_refl : q_open Q = q_open (mkQ (q_open Q) E (seq 0 (length docs1)) (fun _ => true) (q_pick Q)))
    HQ eq_refl Hfok H2 (Permutation_refl _) Hlim Hp) as (dists & Ha & Hd). fold r in Ha, Hd.
  assert (Hnd : forall i, i < r -> nth_error dists i = nth_error dists1 i).
  { intros i Hi. rewrite <- (nth_error_firstn_lt dists r i Hi), <- (nth_error_firstn_lt dists1 r i Hi). now rewrite Hd. }
  assert (Hlr : length (firstn r docs1) = r) by (rewrite firstn_length; lia).
  assert (Hlt : forall i o, nth_error (firstn r docs1) i = Some o -> i < r /\ nth_error docs1 i = Some o).
  { intros i o Hi. assert (X : i < length (firstn r docs1)) by (apply nth_error_Some; congruence). rewrite Hlr in X.
    rewrite nth_error_firstn_lt in Hi by exact X. now split. }
  exists (firstn r docs1), dists. split; [exact Ha|]. split; [exact Hlr|]. rewrite Hlr. split; [|split; [|split]].
  - intros i o Hi. apply Hlt in Hi. destruct Hi as [Hi Ho]. destruct (V2 i o Ho) as (s & d & x & A1 & A2 & A3 & A4 & A5).
    exists s, d, x. rewrite Hnd by exact Hi. now repeat split.
  - intros i j s t Hi Hj. apply Hlt in Hi, Hj. apply (V4 i j s t); tauto.
  - intros i j x y Hij. rewrite !Hnd by lia. apply V5. lia.
  - intros d x A1 A2 A3 A4. destruct (V3 d x A1 A2 A3 A4) as (i & s & B1 & B2 & B3).
    destruct (Nat.lt_ge_cases i r) as [Hi|Hi].
    + left. exists i, s. rewrite nth_error_firstn_lt, Hnd by exact Hi. now split.
    + right. assert (X : i < length docs1) by (apply nth_error_Some; congruence). split; [lia|].
      intros j y Hj Hy. rewrite Hnd in Hy by exact Hj. exact (V5 j i y x ltac:(lia) Hy B3).
Qed.
Print Assumptions C26_history_limit_partial.

(** The history of C26 with five documents: limit 2 of the four within 9/10. *)
Example C26_history_limit_nonvacuous :
  length (hist_docs hist26) = 5 /\ hist_ok new_coll hist26 /\
  answer_ids (snd (near_by_vector (qok 4) (run_reqs new_coll (hist_reqs hist26)) (q_of [0; 3]%Z) far9 0)) =
    Some [Some "b"; Some "e"; Some "c"; Some "d"]%string /\
  answer_ids (snd (near_by_vector (qok 2) (run_reqs new_coll (hist_reqs hist26)) (q_of [0; 3]%Z) far9 2)) =
    Some [Some "b"; Some "e"]%string.
Proof. split; [reflexivity|]. split; [apply C26_history_nonvacuous|]. split; vm_compute; reflexivity. Qed.
