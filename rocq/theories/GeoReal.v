(** Real analysis for the geographic distance: bounds of pi, chords on the unit sphere. *)
From Coq Require Import ZArith Reals Psatz.
Local Open Scope R_scope.

Lemma INR_fact n : INR (Factorial.fact (S n)) = INR (S n) * INR (Factorial.fact n).
Proof. change (Factorial.fact (S n)) with (S n * Factorial.fact n)%nat. apply mult_INR. Qed.

Ltac expand_cos := unfold cos_approx, cos_term; cbn [sum_f_R0 Nat.mul Nat.add];
  rewrite ?INR_fact; change (INR (Factorial.fact 0)) with 1; rewrite !INR_IZR_INZ; cbn [Z.of_nat Pos.of_succ_nat Pos.succ]; simpl pow.

Lemma cos_below : 0 < cos (1570796326 / 1000000000).
Proof.
  destruct (pre_cos_bound (1570796326 / 1000000000) 3) as [H _]; [lra|lra|].
  eapply Rlt_le_trans; [|exact H]. clear H. expand_cos. lra.
Qed.
Lemma cos_above : cos (1570796327 / 1000000000) < 0.
Proof.
  destruct (pre_cos_bound (1570796327 / 1000000000) 3) as [_ H]; [lra|lra|].
  eapply Rle_lt_trans; [exact H|]. clear H. expand_cos. lra.
Qed.
Lemma PI_bound : 3141592652 / 1000000000 < PI < 3141592654 / 1000000000.
Proof.
  pose proof PI2_3_2. pose proof PI_4. split.
  - apply Rnot_le_lt. intros H'. pose proof cos_below as C.
    assert (cos (1570796326 / 1000000000) <= 0) by (apply cos_le_0; lra). lra.
  - apply Rnot_le_lt. intros H'. pose proof cos_above as C.
    assert (0 <= cos (1570796327 / 1000000000)) by (apply cos_ge_0; lra). lra.
Qed.

Lemma sin_le_abs x : Rabs (sin x) <= Rabs x.
Proof.
  assert (P : forall y, 0 <= y -> Rabs (sin y) <= y).
  { intros y Hy. destruct (Req_dec y 0) as [->|]; [rewrite sin_0, Rabs_R0; lra|].
    destruct (Rle_dec y 1).
    - pose proof PI2_3_2. rewrite Rabs_pos_eq; [left; apply sin_lt_x; lra|apply sin_ge_0; lra].
    - pose proof (SIN_bound y). apply Rabs_le. lra. }
  destruct (Rle_dec 0 x) as [H|H].
  - rewrite (Rabs_pos_eq x H). now apply P.
  - rewrite (Rabs_left x) by lra. rewrite <- Rabs_Ropp, <- sin_neg. apply P. lra.
Qed.
Lemma sin_lip x y : Rabs (sin x - sin y) <= Rabs (x - y).
Proof.
  rewrite form4. rewrite !Rabs_mult, (Rabs_pos_eq 2) by lra.
  pose proof (sin_le_abs ((x - y) / 2)) as H. pose proof (COS_bound ((x + y) / 2)) as C.
  assert (Rabs (cos ((x + y) / 2)) <= 1) by (apply Rabs_le; lra).
  assert (E : Rabs ((x - y) / 2) = Rabs (x - y) / 2) by (unfold Rdiv; rewrite Rabs_mult, (Rabs_pos_eq (/ 2)) by lra; reflexivity).
  rewrite E in H. pose proof (Rabs_pos (sin ((x - y) / 2))). pose proof (Rabs_pos (cos ((x + y) / 2))). nra.
Qed.
Lemma cos_lip x y : Rabs (cos x - cos y) <= Rabs (x - y).
Proof.
  rewrite <- !sin_shift. eapply Rle_trans; [apply sin_lip|]. rewrite <- (Rabs_Ropp (x - y)). right. f_equal. lra.
Qed.
Lemma sq_lip s t e : Rabs s <= 1 + e -> Rabs t <= 1 -> 0 <= e -> Rabs (s - t) <= e -> Rabs (s * s - t * t) <= (2 + e) * e.
Proof.
  intros Hs Ht He H. replace (s * s - t * t) with ((s + t) * (s - t)) by ring. rewrite Rabs_mult.
  pose proof (Rabs_triang s t). pose proof (Rabs_pos (s + t)). pose proof (Rabs_pos (s - t)).
  apply Rmult_le_compat; lra.
Qed.

(** Points of the unit sphere, with latitude and longitude in degrees, and the square of
    their distance in space. *)
Definition rad (x : R) : R := x * PI / 180.
Definition chord2 (lat1 lon1 lat2 lon2 : R) : R :=
  let x lat lon := cos (rad lat) * cos (rad lon) in
  let y lat lon := cos (rad lat) * sin (rad lon) in
  let z lat := sin (rad lat) in
  (x lat1 lon1 - x lat2 lon2)² + (y lat1 lon1 - y lat2 lon2)² + (z lat1 - z lat2)².
Definition hav (lat1 lon1 lat2 lon2 : R) : R :=
  (sin (rad (lat2 - lat1) / 2))² + cos (rad lat1) * cos (rad lat2) * (sin (rad (lon2 - lon1) / 2))².

Lemma rad_sub x y : rad (y - x) = rad y - rad x.
Proof. unfold rad. field. Qed.
Lemma half_angle x : 2 * (sin (x / 2))² = 1 - cos x.
Proof. replace (cos x) with (cos (2 * (x / 2))) by (f_equal; field). rewrite cos_2a_sin. unfold Rsqr. ring. Qed.
Lemma hav_chord lat1 lon1 lat2 lon2 : hav lat1 lon1 lat2 lon2 = chord2 lat1 lon1 lat2 lon2 / 4.
Proof.
  unfold hav, chord2. cbv zeta. rewrite !rad_sub.
  assert (H1 : 2 * (sin ((rad lat2 - rad lat1) / 2))² = 1 - cos (rad lat2 - rad lat1)) by apply half_angle.
  assert (H2 : 2 * (sin ((rad lon2 - rad lon1) / 2))² = 1 - cos (rad lon2 - rad lon1)) by apply half_angle.
  rewrite cos_minus in H1, H2.
  set (u := (sin ((rad lat2 - rad lat1) / 2))²) in *. set (v := (sin ((rad lon2 - rad lon1) / 2))²) in *.
  pose proof (sin2_cos2 (rad lat1)) as A1. pose proof (sin2_cos2 (rad lat2)) as A2.
  pose proof (sin2_cos2 (rad lon1)) as B1. pose proof (sin2_cos2 (rad lon2)) as B2.
  set (a := cos (rad lat1)) in *. set (a' := sin (rad lat1)) in *.
  set (b := cos (rad lat2)) in *. set (b' := sin (rad lat2)) in *.
  set (c := cos (rad lon1)) in *. set (c' := sin (rad lon1)) in *.
  set (d := cos (rad lon2)) in *. set (d' := sin (rad lon2)) in *.
  unfold Rsqr in *.
  assert (U : u = (1 - (b * a + b' * a')) / 2) by lra. assert (V : v = (1 - (d * c + d' * c')) / 2) by lra.
  rewrite U, V.
  assert (E1 : a * a * (c * c + c' * c') = a * a) by (replace (c * c + c' * c') with 1 by lra; ring).
  assert (E2 : b * b * (d * d + d' * d') = b * b) by (replace (d * d + d' * d') with 1 by lra; ring).
  nra.
Qed.
Lemma hav_range lat1 lon1 lat2 lon2 : 0 <= hav lat1 lon1 lat2 lon2.
Proof.
  rewrite hav_chord. unfold chord2. cbv zeta.
  repeat match goal with |- context [Rsqr ?a] => let h := fresh in pose proof (Rle_0_sqr a) as h; set (Rsqr a) in * end. lra.
Qed.
