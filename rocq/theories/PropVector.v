(** C78: the computed distances other than cosine against the exact ones, and the
    vectorizer's Vector type.

    [rv] is the real value of a float; [sum2], [sum1] and [sumS] are the exact sums of
    the squared differences, the absolute differences and the products over pairs of
    components, [sumA] that of the absolute products, [differ] counts the pairs that
    Go's [==] tells apart.  [bounded]: finite components, at most 65536 of them, none
    above 2^40 in absolute value. *)
From Coq Require Import ZArith Reals Psatz.
From Flocq Require Import Core.Core IEEE754.BinarySingleNaN.
From Verif Require Import Base F32 F32Real F32Norm F32Err PQ Graph Search Distancer DistancerProofs DistancerDepth
  PropDistancer Persist F32Cos F32Cmp F32L2 Vector.
Local Open Scope R_scope.

(** Relative error of a sum over [n] components. *)
Definition rel_err (n : nat) : R := (11 / 10 * INR n + 11) * / 16777216.

(** The squared Euclidean distance, for the Go loop and the AVX2 kernel.
    Missing: vectors outside [bounded], where the claim is false (below). *)
Theorem C78_l2_accurate_partial : forall l2 a b, l2_impl l2 -> bounded a -> bounded b -> length a = length b ->
  exists d, p_single (l2_provider l2) a b = Some d /\ p_query (l2_provider l2) a b = Some d /\ is_finite_b d = true /\
    Rabs (rv d - sum2 (combine a b)) <= rel_err (length a) * sum2 (combine a b) + powerRZ 2 (-129).
Proof.
  intros l2 a b Hi Ha Hb Hl. pose proof (l2_approx l2 a b Hi Hl Ha Hb) as H. exists (l2 a b).
  cbn [l2_provider p_single p_query]. unfold checked. rewrite Hl, Nat.eqb_refl. split; [reflexivity|]. split; [reflexivity|].
  pose proof H as (_ & F & _). rewrite fin_b. split; [exact F|]. pose proof Ha as (_ & Hn & _).
  pose proof (approx_lin (length a) _ _ _ _ Hn (Nat.le_refl _) H) as E. rewrite <- Hl.
  change 2 with (IZR radix2). rewrite <- bpow_powerRZ. exact E.
Qed.
Print Assumptions C78_l2_accurate_partial.

(** So the order of two vectors is right unless their distances nearly agree. *)
Theorem C78_l2_order_partial : forall l2 q a b, l2_impl l2 -> bounded q -> bounded a -> bounded b ->
  length a = length q -> length b = length q ->
  (1 + rel_err (length q)) * sum2 (combine q a) + powerRZ 2 (-128) < (1 - rel_err (length q)) * sum2 (combine q b) ->
  exists da db, p_query (l2_provider l2) q a = Some da /\ p_query (l2_provider l2) q b = Some db /\ flt da db = true.
Proof.
  intros l2 q a b Hi Hq Ha Hb La Lb H.
  pose proof (l2_approx l2 q a Hi (eq_sym La) Hq Ha) as HA. pose proof (l2_approx l2 q b Hi (eq_sym Lb) Hq Hb) as HB.
  exists (l2 q a), (l2 q b). cbn [l2_provider p_query]. unfold checked. rewrite La, Lb, Nat.eqb_refl.
  split; [reflexivity|]. split; [reflexivity|]. pose proof Hq as (_ & Hn & _).
  pose proof (approx_lin _ _ _ _ _ Hn (Nat.le_refl _) HA) as EA. pose proof (approx_lin _ _ _ _ _ Hn (Nat.le_refl _) HB) as EB.
  pose proof HA as (VA & FA & _). pose proof HB as (VB & FB & _). apply flt_real; auto.
  apply Rabs_le_inv in EA, EB. change 2 with (IZR radix2) in H. rewrite <- bpow_powerRZ in H.
  replace (pow2 (-128)) with (2 * pow2 (-129)) in H by (change 2 with (pow2 1); rewrite <- bpow_plus; reflexivity).
  change (acc (length q)) with (rel_err (length q)) in *. lra.
Qed.
Print Assumptions C78_l2_order_partial.

(** The negated dot product: relative to the sum of the absolute products. *)
Theorem C78_dot_accurate_partial : forall dot a b, dot_impl dot -> bounded a -> bounded b -> length a = length b ->
  exists d, p_single (dot_provider dot) a b = Some d /\ p_query (dot_provider dot) a b = Some d /\ is_finite_b d = true /\
    Rabs (rv d - - sumS (combine a b)) <= rel_err (length a) * sumA (combine a b) + powerRZ 2 (-129).
Proof.
  intros dot a b Hi Ha Hb Hl. pose proof (dot_approx dot a b Hi Hl Ha Hb) as H. exists (f32_neg (dot a b)).
  cbn [dot_provider p_single p_query]. unfold checked. rewrite Hl, Nat.eqb_refl. split; [reflexivity|]. split; [reflexivity|].
  pose proof H as (_ & F & _). pose proof Ha as (_ & Hn & _).
  pose proof (approx_lin (length a) (length a + 7) _ _ _ Hn ltac:(lia) H) as E. rewrite <- Hl.
  assert (Hneg : is_finite_b (f32_neg (dot a b)) = true /\ rv (f32_neg (dot a b)) = - rv (dot a b)).
  { destruct (dot a b) as [s|s| |s m e]; try discriminate; split; try reflexivity; unfold rv; cbn.
    - ring.
    - rewrite <- F2R_Zopp. now destruct s. }
  destruct Hneg as (F' & ->). split; [exact F'|].
  replace (- rv (dot a b) - - sumS (combine a b)) with (- (rv (dot a b) - sumS (combine a b))) by ring. rewrite Rabs_Ropp.
  change 2 with (IZR radix2). rewrite <- bpow_powerRZ. exact E.
Qed.
Print Assumptions C78_dot_accurate_partial.

(** The Manhattan distance. *)
Theorem C78_manhattan_accurate_partial : forall a b, bounded a -> bounded b -> length a = length b ->
  exists d, p_single manhattan_provider a b = Some d /\ p_query manhattan_provider a b = Some d /\ is_finite_b d = true /\
    Rabs (rv d - sum1 (combine a b)) <= rel_err (length a) * sum1 (combine a b) + powerRZ 2 (-129).
Proof.
  intros a b Ha Hb Hl. pose proof (manhattan_approx a b Hl Ha Hb) as H. exists (manhattan_go a b).
  cbn [manhattan_provider p_single p_query]. unfold checked. rewrite Hl, Nat.eqb_refl. split; [reflexivity|]. split; [reflexivity|].
  pose proof H as (_ & F & _). rewrite fin_b. split; [exact F|]. pose proof Ha as (_ & Hn & _).
  pose proof (approx_lin (length a) _ _ _ _ Hn (Nat.le_refl _) H) as E. rewrite <- Hl.
  change 2 with (IZR radix2). rewrite <- bpow_powerRZ. exact E.
Qed.
Print Assumptions C78_manhattan_accurate_partial.

(** The Hamming distance: the number of differing components, up to 2^24. *)
Theorem C78_hamming_exact : forall a b, length a = length b ->
  exists d, p_single hamming_provider a b = Some d /\ p_query hamming_provider a b = Some d /\ is_finite_b d = true /\
    rv d = IZR (Z.min 16777216 (differ (combine a b))).
Proof.
  intros a b Hl. exists (hamming_go a b). cbn [hamming_provider p_single p_query]. unfold checked. rewrite Hl, Nat.eqb_refl.
  split; [reflexivity|]. split; [reflexivity|]. rewrite fin_b.
  destruct (hamming_all a b f32_zero 0 eq_refl eq_refl eq_refl (Z.le_refl 0) Hl) as (_ & F & E). auto.
Qed.
Print Assumptions C78_hamming_exact.

(** The vectorizer's Vector: Distance is the Euclidean distance, also if that is tiny. *)
Theorem C78_vector_distance_partial : forall a b, bounded a -> bounded b -> length a = length b ->
  exists d, v_distance (new_vector a) (new_vector b) = Some d /\ is_finite_b d = true /\
    Rabs (rv d - sqrt (sum2 (combine a b))) <=
      (11 / 10 * INR (length a) + 13) * / 16777216 * sqrt (sum2 (combine a b)) + powerRZ 2 (-63).
Proof.
  intros a b Ha Hb Hl. destruct (euclid_near a b Hl Ha Hb) as (_ & F & E). exists (sqrt32 (l2_go a b)).
  unfold v_distance, new_vector. rewrite Hl, Nat.eqb_refl. split; [reflexivity|]. rewrite fin_b. split; [exact F|].
  change 2 with (IZR radix2). rewrite <- bpow_powerRZ.
  rewrite Hl in *.
  replace ((11 / 10 * INR (length b) + 13) * / 16777216) with (acc (length b) + 2 * u) by (unfold acc; rewrite u_val; field).
  exact E.
Qed.
Print Assumptions C78_vector_distance_partial.

(** Errors exactly for different lengths, the same distance in both directions, 0 for a
    finite vector and itself, and what Equal and ToArray answer. *)
Lemma equal_loop_spec a : forall b, length a = length b ->
  (equal_loop a b = true <-> forall i x y, nth_error a i = Some x -> nth_error b i = Some y -> feq x y = true).
Proof.
  assert (Hs : forall x y, feq x y = feq y x).
  { intros x y. unfold feq, SFeqb, SFcompare. destruct x as [[]|[]| |[] m e], y as [[]|[]| |[] m' e']; try reflexivity;
      rewrite (Z.compare_antisym e e'); destruct (Z.compare e e'); cbn [CompOpp]; try reflexivity;
      change (Pos.compare_cont Eq ?p ?q) with (Pos.compare p q); rewrite (Pos.compare_antisym m m'); now destruct (Pos.compare m m'). }
  induction a as [|x a IH]; intros [|y b] Hl; try discriminate; cbn [equal_loop].
  - split; [|reflexivity]. intros _ [|i] x y; discriminate.
  - injection Hl as Hl. rewrite (Hs y x). destruct (feq x y) eqn:E; cbn [negb].
    + rewrite (IH b Hl). split; intros H.
      * intros [|i] p q Hp Hq; cbn in Hp, Hq; [congruence|exact (H i p q Hp Hq)].
      * intros i p q Hp Hq. exact (H (S i) p q Hp Hq).
    + split; [discriminate|]. intros H. rewrite <- E. exact (H 0%nat x y eq_refl eq_refl).
Qed.

Theorem C78_vector_laws : forall a b,
  (v_distance a b = None <-> length a <> length b) /\ v_distance a b = v_distance b a /\
  (v_equal a b = None <-> length a <> length b) /\
  (v_equal a b = Some true <-> length a = length b /\
     forall i x y, nth_error a i = Some x -> nth_error b i = Some y -> feq x y = true) /\
  to_array (new_vector a) = a /\ v_len (new_vector a) = length a /\
  (forallb is_finite a = true -> v_distance a a = Some f32_zero).
Proof.
  intros a b.
  assert (Hd : forall a b, length a = length b -> v_distance a b = Some (sqrt32 (l2_go a b)))
    by (intros x y H; unfold v_distance; rewrite H, Nat.eqb_refl; reflexivity).
  assert (Hn : forall a b, length a <> length b -> v_distance a b = None)
    by (intros x y H; unfold v_distance; apply Nat.eqb_neq in H; rewrite H; reflexivity).
  assert (He : forall a b, length a = length b -> v_equal a b = Some (equal_loop a b))
    by (intros x y H; unfold v_equal; rewrite H, Nat.eqb_refl; reflexivity).
  assert (Hen : forall a b, length a <> length b -> v_equal a b = None)
    by (intros x y H; unfold v_equal; apply Nat.eqb_neq in H; rewrite H; reflexivity).
  split; [|split; [|split; [|split; [|split; [|split]]]]]; try reflexivity.
  - split; [|apply Hn]. intros H E. rewrite Hd in H by exact E. discriminate.
  - destruct (Nat.eq_dec (length a) (length b)) as [E|E]; [|rewrite !Hn by auto; reflexivity].
    rewrite !Hd by auto. now rewrite (l2_go_fun_sym a b E).
  - split; [|apply Hen]. intros H E. rewrite He in H by exact E. discriminate.
  - split.
    + intros H. destruct (Nat.eq_dec (length a) (length b)) as [E|E]; [|rewrite Hen in H by auto; discriminate].
      split; [exact E|]. rewrite He in H by exact E. apply (equal_loop_spec a b E). congruence.
    + intros (E & H). rewrite He by exact E. f_equal. now apply (equal_loop_spec a b E).
  - intros H. rewrite Hd by reflexivity. rewrite l2_go_self by exact H. reflexivity.
Qed.
Print Assumptions C78_vector_laws.

Definition u78 : vec := fz [3; -4; 0; 12; 84]%Z.
Definition w78 : vec := map (fun x => f32_div x (f32_of_Z 1000)) (fz [7; -2; 11; 5; 1]%Z).
Lemma bounded_check a : forallb (fun x => is_finite_b x && SpecFloat.valid_binary prec32 emax32 x && flt (f32_abs x) (f32_of_Z 1099511627776)) a = true ->
  (Z.of_nat (length a) <= 65536)%Z -> bounded a.
Proof.
  intros H Hn. rewrite forallb_forall in H. split; [split|split; [exact Hn|]].
  - apply Forall_forall. intros x Hx. specialize (H x Hx). apply andb_true_iff in H as (H & _). apply andb_true_iff in H as (_ & H). exact H.
  - apply forallb_forall. intros x Hx. specialize (H x Hx). apply andb_true_iff in H as (H & _). now apply andb_true_iff in H as (H & _).
  - intros x Hx. specialize (H x Hx). apply andb_true_iff in H as (H & Hlt). apply andb_true_iff in H as (F & V). rewrite fin_b in F.
    destruct (abs_real x V F) as (V' & F' & E').
    assert (Vc : f32_valid (f32_of_Z 1099511627776)) by (vm_compute; reflexivity).
    assert (Fc : fin (f32_of_Z 1099511627776)) by (vm_compute; reflexivity).
    apply (flt_real _ _ V' Vc F' Fc) in Hlt. rewrite E' in Hlt. left. eapply Rlt_le_trans; [exact Hlt|].
    replace (f32_of_Z 1099511627776) with (S754_finite false 8388608 17) by (vm_compute; reflexivity).
    unfold rv. cbn [SF2R cond_Zopp]. unfold F2R. cbn [Fnum Fexp]. change (pow2 40) with (IZR 1099511627776).
    change (pow2 17) with (IZR 131072). rewrite <- mult_IZR. apply IZR_le. reflexivity.
Qed.
Example C78_nonvacuous : bounded u78 /\ bounded w78 /\ length u78 = length w78 /\
  p_single (l2_provider l2_go) u78 w78 <> None /\ v_distance u78 (fz [0; 0; 0; 0; 84]%Z) = Some (f32_of_Z 13) /\
  p_single hamming_provider u78 (fz [3; 4; 0; 12; 1]%Z) = Some (f32_of_Z 2).
Proof.
  split; [apply bounded_check; [vm_compute; reflexivity|cbn; lia]|]. split; [apply bounded_check; [vm_compute; reflexivity|cbn; lia]|].
  split; [reflexivity|]. split; [vm_compute; discriminate|]. split; vm_compute; reflexivity.
Qed.
(** The hypothesis of the order theorem holds for concrete vectors. *)
Example C78_order_nonvacuous : let q := fz [1; 2]%Z in let a := fz [1; 3]%Z in let b := fz [5; 2]%Z in
  bounded q /\ bounded a /\ bounded b /\
  (1 + rel_err (length q)) * sum2 (combine q a) + powerRZ 2 (-128) < (1 - rel_err (length q)) * sum2 (combine q b).
Proof.
  cbv zeta. split; [apply bounded_check; [vm_compute; reflexivity|cbn; lia]|].
  split; [apply bounded_check; [vm_compute; reflexivity|cbn; lia]|]. split; [apply bounded_check; [vm_compute; reflexivity|cbn; lia]|].
  assert (E : forall z, rv (f32_of_Z z) = rv (f32_of_Z z)) by reflexivity.
  assert (E1 : rv (f32_of_Z 1) = 1) by (apply one_real).
  assert (E2 : rv (f32_of_Z 2) = 2) by (replace (f32_of_Z 2) with (S754_finite false 8388608 (-22)) by (vm_compute; reflexivity); unfold rv; cbn; unfold F2R; cbn; lra).
  assert (E3 : rv (f32_of_Z 3) = 3) by (replace (f32_of_Z 3) with (S754_finite false 12582912 (-22)) by (vm_compute; reflexivity); unfold rv; cbn; unfold F2R; cbn; lra).
  assert (E5 : rv (f32_of_Z 5) = 5) by (replace (f32_of_Z 5) with (S754_finite false 10485760 (-21)) by (vm_compute; reflexivity); unfold rv; cbn; unfold F2R; cbn; lra).
  unfold fz. cbn [map combine length]. rewrite !sum2_cons. cbn [fst snd]. rewrite E1, E2, E3, E5. change (sum2 []) with 0.
  assert (P : powerRZ 2 (-128) <= / 1024).
  { change 2 with (IZR radix2). rewrite <- bpow_powerRZ. change (/ 1024) with (pow2 (-10)). apply bpow_le. lia. }
  unfold rel_err. cbn [INR]. lra.
Qed.

(** False beyond [bounded]: finite vectors get an infinite distance, two of them at
    different distances the same one; different vectors get distance 0; a dot product is
    NaN; more than 2^24 differing components are counted as 2^24; and a vector with a NaN
    is not equal to itself. *)
Definition big (e : Z) : f32 := S754_finite false 8388608 (e - 23).
Theorem C78_range_refuted :
  (exists a b c, forallb is_finite (a ++ b ++ c) = true /\ rv (hd f32_zero a) < rv (hd f32_zero b) /\
     p_single (l2_provider l2_go) a c = Some (S754_infinity false) /\
     p_single (l2_provider l2_go) b c = Some (S754_infinity false) /\
     v_distance a c = Some (S754_infinity false)) /\
  (exists a b, forallb is_finite (a ++ b) = true /\ v_equal a b = Some false /\ v_distance a b = Some f32_zero /\
     p_single (l2_provider l2_go) a b = Some f32_zero) /\
  (exists a b, forallb is_finite (a ++ b) = true /\ p_single (dot_provider dot_go) a b = Some S754_nan) /\
  (exists a, v_equal a a = Some false).
Proof.
  split; [|split; [|split]].
  - exists [big 70], [big 80], [f32_zero]. split; [reflexivity|]. split; [|split; [|split]; vm_compute; reflexivity].
    apply flt_real; reflexivity.
  - exists [big (-80)], [f32_zero]. split; [reflexivity|]. split; [|split]; vm_compute; reflexivity.
  - exists [big 100; big 100], [big 100; f32_neg (big 100)]. split; [reflexivity|]. vm_compute. reflexivity.
  - exists [S754_nan]. reflexivity.
Qed.
Print Assumptions C78_range_refuted.

Theorem C78_hamming_refuted : exists a b d, length a = length b /\ p_single hamming_provider a b = Some d /\
  rv d <> IZR (differ (combine a b)).
Proof.
  assert (Hd : forall n, differ (combine (repeat f32_zero n) (repeat f32_one n)) = Z.of_nat n).
  { induction n as [|n IH]; [reflexivity|]. cbn [repeat combine differ fold_right]. fold (differ (combine (repeat f32_zero n) (repeat f32_one n))).
    rewrite IH. change (feq (fst (f32_zero, f32_one)) (snd (f32_zero, f32_one))) with false. lia. }
  set (n := Z.to_nat 16777217). exists (repeat f32_zero n), (repeat f32_one n).
  assert (Hl : length (repeat f32_zero n) = length (repeat f32_one n)) by now rewrite !repeat_length.
  destruct (C78_hamming_exact _ _ Hl) as (d & E & _ & _ & Er). exists d. split; [exact Hl|]. split; [exact E|].
  rewrite Er, Hd. unfold n. rewrite Z2Nat.id by lia. apply IZR_neq. discriminate.
Qed.
Print Assumptions C78_hamming_refuted.
