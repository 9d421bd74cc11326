(** Property C98 for every limit: by vector, and by text. *)
From Coq Require Import String Sorted.
From Verif Require Import Base F32 PQ PQProofs Graph Search SearchProofs SearchLayer SearchKnn
  SearchCong Insert HeuristicProofs InsertProofs InsertHist InsertTotal InsertDim InsertSmall InsertFacts InsertFind
  Distancer DistancerProofs PropDistancer TestGraph TestInsert PropSearch PropInsert PropFind
  Persist PersistProofs PersistHist LRU LRUProofs PropPersist InsertRestart Collections
  Client ClientProofs ClientSafe ClientFacts ClientReq PropClient VCache VCacheProofs VCacheFacts ClientIds ClientSmall ClientMany
  PropRequests Vectorizer VectorizerProofs PropVectorizer PropNumeric PropHistory PropReads PropOverlap PropOrder PropCut PropLimit
  PropTextLimit ClientComplete PropTextHistory PropTextCut.
Local Open Scope nat_scope.

(** The same documents in two orders. *)
Lemma same_distance P ds1 ds2 q maxd :
  Permutation (map (fun d => (di_id (vd_doc d), vd_vec d)) ds1) (map (fun d => (di_id (vd_doc d), vd_vec d)) ds2) ->
  forall p, in_distance P ds2 q maxd p -> in_distance P ds1 q maxd p.
Proof.
  intros Hp p (d & H1 & H2 & H3 & H4). apply (in_map (fun d => (di_id (vd_doc d), vd_vec d))) in H1.
  apply (Permutation_in _ (Permutation_sym Hp)) in H1. apply in_map_iff in H1. destruct H1 as (e & [= E1 E2] & E3).
  exists e. rewrite E1, E2. auto.
Qed.
Lemma nearest_ext (S T : string * f32 -> Prop) k l : (forall p, S p <-> T p) -> nearest S k l -> nearest T k l.
Proof.
  intros H (A1 & A2 & A3 & A4 & A5). split; [intros p Hp; apply H; auto|]. split; [exact A2|]. split; [exact A3|].
  split; [exact A4|]. intros p Hp. apply A5. now apply H.
Qed.
Lemma apart P ds q maxd :
  NoDup (map (fun d => di_id (vd_doc d)) ds) ->
  (forall d e x y, In d ds -> In e ds -> di_id (vd_doc d) <> di_id (vd_doc e) ->
     p_query P (p_normalize P q) (p_normalize P (vd_vec d)) = Some x ->
     p_query P (p_normalize P q) (p_normalize P (vd_vec e)) = Some y -> flt x y = true \/ flt y x = true) ->
  forall p r, in_distance P ds q maxd p -> in_distance P ds q maxd r -> p = r \/ flt (snd p) (snd r) = true \/ flt (snd r) (snd p) = true.
Proof.
  intros Hids Hdif [a x] [b y] (d & X1 & X2 & X3 & X4) (e & Y1 & Y2 & Y3 & Y4). cbn [fst snd] in *.
  destruct (string_dec a b) as [->|Hab].
  - left. f_equal. assert (d = e); [|subst e; congruence].
    apply In_nth_error in X1, Y1. destruct X1 as (i & X1), Y1 as (j & Y1).
    assert (i = j); [|subst j; congruence].
    apply (proj1 (NoDup_nth_error _) Hids); [rewrite map_length; apply nth_error_Some; congruence|].
    rewrite !nth_error_map, X1, Y1. cbn. congruence.
  - right. apply (Hdif d e x y); auto; congruence.
Qed.

(** An answer by vector ([C26_history_limit_partial]) lists the nearest. *)
Lemma vector_nearest P ds q maxd limit docs dists : (0 < limit)%Z -> (Z.of_nat (length docs) <= limit)%Z ->
  (forall i o, nth_error docs i = Some o -> exists s d x, o = Some s /\ In d ds /\ sd_id s = di_id (vd_doc d) /\
     nth_error dists i = Some x /\ p_query P (p_normalize P q) (p_normalize P (vd_vec d)) = Some x /\
     flt x f32_zero = false /\ fgt x maxd = false) ->
  (forall i j s t, nth_error docs i = Some (Some s) -> nth_error docs j = Some (Some t) -> sd_id s = sd_id t -> i = j) ->
  (forall i j x y, i < j < length docs -> nth_error dists i = Some x -> nth_error dists j = Some y -> flt y x = false) ->
  (forall d x, In d ds -> p_query P (p_normalize P q) (p_normalize P (vd_vec d)) = Some x ->
     flt x f32_zero = false -> fgt x maxd = false ->
     (exists i s, nth_error docs i = Some (Some s) /\ sd_id s = di_id (vd_doc d) /\ nth_error dists i = Some x) \/
     Z.of_nat (length docs) = limit /\ forall i y, i < length docs -> nth_error dists i = Some y -> flt x y = false) ->
  exists l, map (option_map sd_id) docs = map (fun p => Some (fst p)) l /\ firstn (length docs) dists = map snd l /\
    nearest (in_distance P ds q maxd) (Z.to_nat limit) l.
Proof.
  intros Hlim H1 H2 H3 H4 H5.
  set (name := fun o : option sdoc => match o with Some s => sd_id s | None => ""%string end).
  set (l := combine (map name docs) dists).
  assert (Hnth : forall i s x, nth_error docs i = Some (Some s) -> nth_error dists i = Some x -> nth_error l i = Some (sd_id s, x)).
  { intros i s x Hi Hx. apply ClientSmall.nth_combine; [|exact Hx]. rewrite nth_error_map, Hi. reflexivity. }
  assert (Hinv : forall i p, nth_error l i = Some p -> exists s d, nth_error docs i = Some (Some s) /\ sd_id s = fst p /\ nth_error dists i = Some (snd p) /\
     In d ds /\ di_id (vd_doc d) = fst p /\ p_query P (p_normalize P q) (p_normalize P (vd_vec d)) = Some (snd p) /\
     flt (snd p) f32_zero = false /\ fgt (snd p) maxd = false).
  { intros i p Hp. apply nth_combine_inv in Hp. destruct Hp as [Hp1 Hp2]. rewrite nth_error_map in Hp1.
    destruct (nth_error docs i) as [o|] eqn:Eo; [|discriminate]. cbn in Hp1. injection Hp1 as Hp1.
    destruct (H2 i o Eo) as (s & d & x & -> & X1 & X2 & X3 & X4 & X5 & X6). cbn [name] in Hp1.
    assert (x = snd p) by congruence. subst x. exists s, d. repeat split; auto; congruence. }
  assert (Hle : length docs <= length dists).
  { destruct (Nat.le_gt_cases (length docs) (length dists)) as [|Hgt]; [assumption|exfalso].
    destruct (nth_error docs (length dists)) as [o|] eqn:Eo; [|apply nth_error_None in Eo; lia].
    destruct (H2 _ _ Eo) as (s & d & x & _ & _ & _ & Hx & _). assert (length dists < length dists) by (apply nth_error_Some; congruence). lia. }
  assert (Hlen : length l = length docs) by (unfold l; rewrite combine_length, map_length; lia).
  assert (Hnd : NoDup l).
  { apply NoDup_nth_error. intros i j Hi Hij.
    destruct (nth_error l i) as [p|] eqn:Ei; [|apply nth_error_None in Ei; lia].
    destruct (Hinv i p Ei) as (s & _ & Y1 & Y2 & _), (Hinv j p (eq_sym Hij)) as (t & _ & Z1 & Z2 & _).
    apply (H3 i j s t); auto. congruence. }
  exists l. split; [|split].
  - apply nth_error_ext'. intros i. rewrite !nth_error_map. destruct (nth_error l i) as [p|] eqn:Ei; cbn [option_map].
    + destruct (Hinv i p Ei) as (s & _ & Y1 & Y2 & _). rewrite Y1. cbn. now rewrite Y2.
    + apply nth_error_None in Ei. rewrite (proj2 (nth_error_None docs i)) by lia. reflexivity.
  - rewrite <- Hlen. apply nth_error_ext'. intros i. rewrite nth_error_map. destruct (nth_error l i) as [p|] eqn:Ei; cbn [option_map].
    + rewrite nth_error_firstn_lt by (apply nth_error_Some; congruence). destruct (Hinv i p Ei) as (s & _ & _ & _ & Y3 & _). exact Y3.
    + apply nth_error_None in Ei. apply nth_error_None. rewrite firstn_length. lia.
  - split; [|split; [exact Hnd|split; [|split]]].
    + intros p Hp. apply In_nth_error in Hp. destruct Hp as (i & Hi). destruct (Hinv i p Hi) as (s & d & _ & _ & _ & Y). exists d. exact Y.
    + assert (G : forall i j p r, i < j -> nth_error l i = Some p -> nth_error l j = Some r -> nearer p r).
      { intros i j p r Hij Hi Hj. destruct (Hinv i p Hi) as (_ & _ & _ & _ & Y & _), (Hinv j r Hj) as (_ & _ & _ & _ & Z & _).
        apply (H4 i j); auto. split; [exact Hij|]. rewrite <- Hlen. apply nth_error_Some. congruence. }
      clear - G. induction l as [|a t IH]; constructor.
      * apply IH. intros i j p r Hij Hi Hj. apply (G (S i) (S j)); auto. lia.
      * apply Forall_forall. intros x Hx. apply In_nth_error in Hx. destruct Hx as (i & Hi). apply (G 0 (S i)); auto. lia.
    + lia.
    + intros p (d & D1 & D2 & D3 & D4 & D5). destruct (H5 d (snd p) D1 D3 D4 D5) as [(i & s & Y1 & Y2 & Y3)|(O1 & O2)].
      * left. apply (nth_error_In l i). rewrite (Hnth i s (snd p) Y1 Y3), Y2, D2. now destruct p.
      * right. split; [lia|]. intros r Hr. apply In_nth_error in Hr. destruct Hr as (i & Hi).
        destruct (Hinv i r Hi) as (s & _ & _ & _ & Y & _). apply (O2 i); [|exact Y]. rewrite <- Hlen. apply nth_error_Some. congruence.
Qed.

(** Two lists of the nearest, as answers. *)
Lemma answers_prefix P ds q maxd k1 k2 (docs1 docs2 : list (option sdoc)) (dists1 dists2 : list f32) l1 l2 :
  (forall p r, in_distance P ds q maxd p -> in_distance P ds q maxd r -> p = r \/ flt (snd p) (snd r) = true \/ flt (snd r) (snd p) = true) ->
  k1 <= k2 ->
  map (option_map sd_id) docs1 = map (fun p => Some (fst p)) l1 -> firstn (length docs1) dists1 = map snd l1 -> nearest (in_distance P ds q maxd) k1 l1 ->
  map (option_map sd_id) docs2 = map (fun p => Some (fst p)) l2 -> firstn (length docs2) dists2 = map snd l2 -> nearest (in_distance P ds q maxd) k2 l2 ->
  length docs1 <= length docs2 /\
  map (option_map sd_id) docs1 = firstn (length docs1) (map (option_map sd_id) docs2) /\
  firstn (length docs1) dists1 = firstn (length docs1) dists2.
Proof.
  intros HD Hk M1 D1 L1 M2 D2 L2. pose proof (nearest_prefix _ _ _ _ _ HD Hk L1 L2) as Hpre.
  assert (E1 : length l1 = length docs1).
  { pose proof (f_equal (@List.length _) M1) as X. rewrite !map_length in X. auto. }
  assert (E2 : length l2 = length docs2).
  { pose proof (f_equal (@List.length _) M2) as X. rewrite !map_length in X. auto. }
  assert (Hm : length docs1 <= length docs2).
  { pose proof (f_equal (@List.length _) Hpre) as X. rewrite firstn_length in X. lia. }
  split; [exact Hm|]. rewrite M1, M2, firstn_map, <- E1, <- Hpre. split; [reflexivity|].
  rewrite E1, D1, Hpre, <- firstn_map, <- D2, firstn_firstn. f_equal. lia.
Qed.

(** Two histories as in [C98_same_answers_partial] and a query to which no two documents
    are equally far: the answer by vector after one history for a limit begins the answer
    after the other one for every limit that is not smaller; for the same limit both are the same.
    Missing: more than 61 documents; false for them ([C98_layers_refuted]). *)
Theorem C98_any_limit_partial : forall n cap P hs1 hs2,
  let ds1 := hist_docs hs1 in let ds2 := hist_docs hs2 in
  0 < n -> ds1 <> [] -> length ds1 <= 61 -> NoDup (map (fun d => di_id (vd_doc d)) ds1) ->
  Permutation (map (fun d => (di_id (vd_doc d), vd_vec d)) ds1) (map (fun d => (di_id (vd_doc d), vd_vec d)) ds2) ->
  Forall (fun d => e_prov (i_env (do_env (vd_orc d))) = P) (ds1 ++ ds2) ->
  Forall (many_call n 30 cap (map a_id (ops_of 0 ds1))) (ops_of 0 ds1) -> hist_ok new_coll hs1 ->
  Forall (many_call n 30 cap (map a_id (ops_of 0 ds2))) (ops_of 0 ds2) -> hist_ok new_coll hs2 ->
  let st1 := run_reqs new_coll (hist_reqs hs1) in let st2 := run_reqs new_coll (hist_reqs hs2) in
  (c_open st1 = true -> c_reg st1 = true) -> (c_open st2 = true -> c_reg st2 = true) ->
  forall E1 E2 q maxd limit1 limit2,
    sched_ok E1 -> e_prov E1 = P -> e_vcap E1 = cap -> sched_ok E2 -> e_prov E2 = P -> e_vcap E2 = cap -> length q = n ->
    (0 < limit1 <= limit2)%Z ->
    (forall d x, In d ds1 -> p_query P (p_normalize P q) (p_normalize P (vd_vec d)) = Some x -> is_num x = true) ->
    (forall d e x y, In d ds1 -> In e ds1 -> di_id (vd_doc d) <> di_id (vd_doc e) ->
       p_query P (p_normalize P q) (p_normalize P (vd_vec d)) = Some x ->
       p_query P (p_normalize P q) (p_normalize P (vd_vec e)) = Some y -> flt x y = true \/ flt y x = true) ->
    exists m1 m2, forall Q1 Q2, q_env Q1 = E1 -> q_env Q2 = E2 ->
      Forall (fun Q => r_kvopen (q_open Q) = true /\ r_isopen (q_open Q) = true /\ r_docopen (q_open Q) = true /\
                       forall i, q_ok Q i = true) [Q1; Q2] ->
      Permutation (q_order Q1) (seq 0 m1) -> Permutation (q_order Q2) (seq 0 m2) ->
      exists docs1 dists1 docs2 dists2,
        snd (near_by_vector Q1 st1 q maxd limit1) = Ok (docs1, dists1) /\
        snd (near_by_vector Q2 st2 q maxd limit2) = Ok (docs2, dists2) /\
        length docs1 = m1 /\ length docs2 = m2 /\ m1 <= m2 /\ (limit1 = limit2 -> m1 = m2) /\
        map (option_map sd_id) docs1 = firstn m1 (map (option_map sd_id) docs2) /\
        firstn m1 dists1 = firstn m1 dists2.
Proof.
  intros n cap P hs1 hs2 ds1 ds2 Hn Hne Hlen Hids Hperm HP Hm1 Ho1 Hm2 Ho2 st1 st2 Hr1 Hr2
    E1 E2 q maxd limit1 limit2 S1 P1 C1 S2 P2 C2 Hq Hlim Hnum Hdif.
  apply Forall_app in HP. destruct HP as [HP1 HP2].
  assert (Hl : length ds2 = length ds1).
  { apply Permutation_length in Hperm. now rewrite !map_length in Hperm. }
  assert (Hne2 : ds2 <> []).
  { intros E. apply Hne. destruct ds1; [reflexivity|]. rewrite E in Hl. discriminate. }
  assert (Hids2 : NoDup (map (fun d => di_id (vd_doc d)) ds2)).
  { pose proof (Permutation_NoDup (Permutation_map fst Hperm)) as X. rewrite !map_map in X. cbn [fst] in X. auto. }
  assert (Hnum2 : forall d x, In d ds2 -> p_query P (p_normalize P q) (p_normalize P (vd_vec d)) = Some x -> is_num x = true).
  { intros d x Hd Hx. apply (in_map (fun d => (di_id (vd_doc d), vd_vec d))) in Hd. apply (Permutation_in _ (Permutation_sym Hperm)) in Hd.
    apply in_map_iff in Hd. destruct Hd as (e & [= A B] & C). apply (Hnum e x C). now rewrite B. }
  destruct (C26_history_limit_partial n cap P hs1 Hn Hne Hlen Hids HP1 Hm1 Ho1 Hr1 E1 q maxd limit1 S1 P1 C1 Hq ltac:(lia) Hnum) as (m1 & B1 & K1).
  destruct (C26_history_limit_partial n cap P hs2 Hn Hne2 ltac:(fold ds2; lia) Hids2 HP2 Hm2 Ho2 Hr2 E2 q maxd limit2 S2 P2 C2 Hq ltac:(lia) Hnum2) as (m2 & B2 & K2).
  exists m1, m2. intros Q1 Q2 HQ1 HQ2 HQ O1 O2. inversion HQ as [|? ? (W1 & W2 & W3 & W4) HQ']; subst.
  inversion HQ' as [|? ? (V1 & V2 & V3 & V4) _]; subst.
  destruct (K1 Q1 eq_refl W1 W2 W3 O1 W4) as (docs1 & dists1 & X1 & X2 & X3 & X4 & X5 & X6).
  destruct (K2 Q2 eq_refl V1 V2 V3 O2 V4) as (docs2 & dists2 & Y1 & Y2 & Y3 & Y4 & Y5 & Y6).
  exists docs1, dists1, docs2, dists2. split; [exact X1|]. split; [exact Y1|]. split; [exact X2|]. split; [exact Y2|]. subst m1 m2.
  destruct (vector_nearest (e_prov (q_env Q1)) ds1 q maxd limit1 docs1 dists1 ltac:(lia) B1 X3 X4 X5 X6) as (l1 & A1 & A2 & A3).
  destruct (vector_nearest (e_prov (q_env Q1)) ds2 q maxd limit2 docs2 dists2 ltac:(lia) B2 Y3 Y4 Y5 Y6) as (l2 & D1 & D2 & D3).
  assert (Hext : forall p, in_distance (e_prov (q_env Q1)) ds2 q maxd p <-> in_distance (e_prov (q_env Q1)) ds1 q maxd p).
  { intros p. split; apply same_distance; [exact Hperm|now symmetry]. }
  apply (nearest_ext _ _ _ _ Hext) in D3. pose proof (apart _ ds1 q maxd Hids Hdif) as HD.
  assert (Hkk : Z.to_nat limit1 <= Z.to_nat limit2) by lia.
  destruct (answers_prefix _ ds1 q maxd _ _ docs1 docs2 dists1 dists2 l1 l2 HD Hkk A1 A2 A3 D1 D2 D3) as (G1 & G2 & G3).
  split; [exact G1|]. split; [|split; [exact G2|exact G3]]. intros El. subst limit2.
  destruct (answers_prefix _ ds1 q maxd _ _ docs2 docs1 dists2 dists1 l2 l1 HD (Nat.le_refl _) D1 D2 D3 A1 A2 A3) as (G & _). lia.
Qed.
Print Assumptions C98_any_limit_partial.

(** The two histories of [C98_nonvacuous]: with limit 2 both give the two nearest of the
    four documents within the distance. *)
Example C98_any_limit_nonvacuous :
  answer_ids (snd (near_by_vector (qok 2) (run_reqs new_coll (hist_reqs hist26)) (q_of [0; 3]%Z) far9 2)) = Some [Some "b"; Some "e"]%string /\
  answer_ids (snd (near_by_vector (qok 2) (run_reqs new_coll (hist_reqs hist98)) (q_of [0; 3]%Z) far9 2)) = Some [Some "b"; Some "e"]%string.
Proof. split; vm_compute; reflexivity. Qed.

(** By text, for up to 30 documents with no negative computed distance. *)
Theorem C98_text_limit_partial : forall n cap P (V : string -> http) hs1 hs2,
  let ds1 := hist_docs hs1 in let ds2 := hist_docs hs2 in
  0 < n -> ds1 <> [] -> length ds1 <= 30 -> NoDup (map (fun d => di_id (vd_doc d)) ds1) ->
  Permutation (map (fun d => (di_id (vd_doc d), vd_vec d)) ds1) (map (fun d => (di_id (vd_doc d), vd_vec d)) ds2) ->
  Forall (fun d => e_prov (i_env (do_env (vd_orc d))) = P /\ (30 <= i_efc (do_env (vd_orc d)))%Z) (ds1 ++ ds2) ->
  Forall (many_call n 30 cap (map a_id (ops_of 0 ds1))) (ops_of 0 ds1) -> hist_ok new_coll hs1 ->
  Forall (many_call n 30 cap (map a_id (ops_of 0 ds2))) (ops_of 0 ds2) -> hist_ok new_coll hs2 ->
  let st1 := run_reqs new_coll (hist_reqs hs1) in let st2 := run_reqs new_coll (hist_reqs hs2) in
  (c_open st1 = true -> c_reg st1 = true) -> (c_open st2 = true -> c_reg st2 = true) ->
  forall E1 E2 text q maxd limit,
    sched_ok E1 -> e_prov E1 = P -> e_vcap E1 = cap -> sched_ok E2 -> e_prov E2 = P -> e_vcap E2 = cap ->
    corpi (V text) = Ok (Some q) -> length q = n -> (1 <= limit)%Z ->
    (forall d x, In d ds1 -> p_query P (p_normalize P q) (p_normalize P (vd_vec d)) = Some x ->
       is_num x = true /\ flt x f32_zero = false) ->
    (forall d e x y, In d ds1 -> In e ds1 -> di_id (vd_doc d) <> di_id (vd_doc e) ->
       p_query P (p_normalize P q) (p_normalize P (vd_vec d)) = Some x ->
       p_query P (p_normalize P q) (p_normalize P (vd_vec e)) = Some y -> flt x y = true \/ flt y x = true) ->
    exists m1 m2, forall Q1 Q2, q_env Q1 = E1 -> q_env Q2 = E2 ->
      Forall (fun Q => r_kvopen (q_open Q) = true /\ r_isopen (q_open Q) = true /\ r_docopen (q_open Q) = true /\
                       forall i, q_ok Q i = true) [Q1; Q2] ->
      Permutation (q_order Q1) (seq 0 m1) -> Permutation (q_order Q2) (seq 0 m2) ->
      exists docs1 dists1 docs2 dists2,
        snd (near_by_text Q1 true (corpi (V text)) st1 maxd limit) = Ok (docs1, dists1) /\
        snd (near_by_text Q2 true (corpi (V text)) st2 maxd limit) = Ok (docs2, dists2) /\
        length docs1 = m1 /\ length docs2 = m1 /\
        map (option_map sd_id) docs1 = map (option_map sd_id) docs2 /\ firstn m1 dists1 = firstn m1 dists2.
Proof.
  intros n cap P V hs1 hs2 ds1 ds2 Hn Hne Hlen Hids Hperm HP Hm1 Ho1 Hm2 Ho2 st1 st2 Hr1 Hr2
    E1 E2 text q maxd limit S1 P1 C1 S2 P2 C2 Hc Hq Hlim Hnum Hdif.
  apply Forall_app in HP. destruct HP as [HP1 HP2].
  assert (Hl : length ds2 = length ds1).
  { apply Permutation_length in Hperm. now rewrite !map_length in Hperm. }
  assert (Hne2 : ds2 <> []).
  { intros E. apply Hne. destruct ds1; [reflexivity|]. rewrite E in Hl. discriminate. }
  assert (Hids2 : NoDup (map (fun d => di_id (vd_doc d)) ds2)).
  { pose proof (Permutation_NoDup (Permutation_map fst Hperm)) as X. rewrite !map_map in X. cbn [fst] in X. auto. }
  assert (Hnum2 : forall d x, In d ds2 -> p_query P (p_normalize P q) (p_normalize P (vd_vec d)) = Some x -> is_num x = true /\ flt x f32_zero = false).
  { intros d x Hd Hx. apply (in_map (fun d => (di_id (vd_doc d), vd_vec d))) in Hd. apply (Permutation_in _ (Permutation_sym Hperm)) in Hd.
    apply in_map_iff in Hd. destruct Hd as (e & [= A B] & C). apply (Hnum e x C). now rewrite B. }
  assert (HPa : Forall (fun d => e_prov (i_env (do_env (vd_orc d))) = P) ds1) by (revert HP1; apply Forall_impl; tauto).
  assert (HPb : Forall (fun d => e_prov (i_env (do_env (vd_orc d))) = P) ds2) by (revert HP2; apply Forall_impl; tauto).
  assert (HEa : Forall (fun d => (30 <= i_efc (do_env (vd_orc d)))%Z) ds1) by (revert HP1; apply Forall_impl; tauto).
  assert (HEb : Forall (fun d => (30 <= i_efc (do_env (vd_orc d)))%Z) ds2) by (revert HP2; apply Forall_impl; tauto).
  destruct (C67_history_limit_partial n cap P V hs1 Hn Hne Hlen Hids HPa HEa Hm1 Ho1 Hr1 E1 text q maxd limit S1 P1 C1 Hc Hq Hlim
    (fun d x Hd Hx => proj1 (Hnum d x Hd Hx))) as (m1 & K1).
  destruct (C67_history_limit_partial n cap P V hs2 Hn Hne2 ltac:(fold ds2; lia) Hids2 HPb HEb Hm2 Ho2 Hr2 E2 text q maxd limit S2 P2 C2 Hc Hq Hlim
    (fun d x Hd Hx => proj1 (Hnum2 d x Hd Hx))) as (m2 & K2).
  exists m1, m2. intros Q1 Q2 HQ1 HQ2 HQ O1 O2. inversion HQ as [|? ? (W1 & W2 & W3 & W4) HQ']; subst.
  inversion HQ' as [|? ? (V1 & V2 & V3 & V4) _]; subst.
  destruct (K1 Q1 eq_refl W1 W2 W3 O1 W4) as (docs1 & dists1 & X1 & X2 & X3).
  destruct (K2 Q2 eq_refl V1 V2 V3 O2 V4) as (docs2 & dists2 & Y1 & Y2 & Y3).
  exists docs1, dists1, docs2, dists2. split; [exact X1|]. split; [exact Y1|]. split; [exact X2|].
  destruct (limit_nearest _ ds1 q maxd limit docs1 dists1 Hlim (fun d x Hd Hx => proj2 (Hnum d x Hd Hx)) X3) as (l1 & A1 & A2 & A3).
  destruct (limit_nearest _ ds2 q maxd limit docs2 dists2 Hlim (fun d x Hd Hx => proj2 (Hnum2 d x Hd Hx)) Y3) as (l2 & D1 & D2 & D3).
  assert (Hext : forall p, in_distance (e_prov (q_env Q1)) ds2 q maxd p <-> in_distance (e_prov (q_env Q1)) ds1 q maxd p).
  { intros p. split; apply same_distance; [exact Hperm|now symmetry]. }
  apply (nearest_ext _ _ _ _ Hext) in D3. pose proof (apart _ ds1 q maxd Hids Hdif) as HD.
  destruct (answers_prefix _ ds1 q maxd _ _ docs1 docs2 dists1 dists2 l1 l2 HD (Nat.le_refl _) A1 A2 A3 D1 D2 D3) as (G1 & G2 & G3).
  destruct (answers_prefix _ ds1 q maxd _ _ docs2 docs1 dists2 dists1 l2 l1 HD (Nat.le_refl _) D1 D2 D3 A1 A2 A3) as (G4 & _).
  subst m1. split; [lia|]. split; [|exact G3]. rewrite G2. apply firstn_all2. rewrite map_length. lia.
Qed.
Print Assumptions C98_text_limit_partial.

(** The documents of C67 in two requests with a restart in between, and in one request in
    the opposite order; their distances are different by [C99_text_limit_nonvacuous]. *)
Definition hist98t : list hreq := [HAdd rok true ["colour"; "thing"]%string (rev ds67)].
Example C98_text_limit_nonvacuous :
  Permutation (map (fun d => (di_id (vd_doc d), vd_vec d)) (hist_docs hist67))
              (map (fun d => (di_id (vd_doc d), vd_vec d)) (hist_docs hist98t)) /\
  hist_ok new_coll hist67 /\ hist_ok new_coll hist98t /\
  Forall (many_call 2 30 25500 (map a_id (ops_of 0 (hist_docs hist98t)))) (ops_of 0 (hist_docs hist98t)) /\
  answer_ids (snd (near_by_text (qok 2) true (Ok (Some (q_of [1; 0]%Z))) (run_reqs new_coll (hist_reqs hist67)) two 2)) = Some [Some "c"; Some "a"]%string /\
  answer_ids (snd (near_by_text (qok 2) true (Ok (Some (q_of [1; 0]%Z))) (run_reqs new_coll (hist_reqs hist98t)) two 2)) = Some [Some "c"; Some "a"]%string.
Proof.
  assert (E1 : hist_docs hist67 = ds67) by reflexivity.
  assert (E2 : hist_docs hist98t = rev ds67) by reflexivity.
  assert (Hv : Forall (vt_ok true ["colour"; "thing"]%string) ds67) by apply C67_nonvacuous.
  split; [rewrite E1, E2, map_rev; apply Permutation_rev|]. split; [apply C67_history_nonvacuous|]. split.
  { apply hist_add; [discriminate|exact rok_ok| |vm_compute; reflexivity|exact I].
    apply Forall_forall. intros d Hd. apply in_rev in Hd. rewrite Forall_forall in Hv. now apply Hv. }
  split; [|split; vm_compute; reflexivity].
  rewrite E2. repeat constructor; try apply env_rev_sched; try exact cosp_known; try reflexivity; cbn; try lia; right; cbn; lia.
Qed.
