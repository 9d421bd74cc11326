(** Rounding in binary64, and signs. *)
From Coq Require Import ZArith Reals Psatz.
From Flocq Require Import Core.Core Relative IEEE754.BinarySingleNaN.
From Verif Require Import Base F32 F32Real F32Norm F32Err PQ Graph Distancer DistancerProofs Geo GeoReal.

(** Opposite numbers. *)
Lemma round_neg p e s m x : binary_round p e (negb s) m x = SFopp (binary_round p e s m x).
Proof.
  unfold binary_round. destruct (shl_align _ _ _) as [mz ez].
  unfold binary_round_aux. destruct (shr_fexp _ _ _ _ _) as [mrs' e'].
  destruct (shr_fexp _ _ _ _ _) as [mrs'' e''].
  destruct (shr_m mrs'') as [|p'|p']; cbn; try reflexivity.
  destruct (Z.leb _ _); reflexivity.
Qed.
Lemma round_aux_neg p e s m x l : binary_round_aux p e (negb s) m x l = SFopp (binary_round_aux p e s m x l).
Proof.
  unfold binary_round_aux. destruct (shr_fexp _ _ _ _ _) as [mrs' e'].
  destruct (shr_fexp _ _ _ _ _) as [mrs'' e''].
  destruct (shr_m mrs'') as [|p'|p']; cbn; try reflexivity.
  destruct (Z.leb _ _); reflexivity.
Qed.
Lemma f64_of_neg x : f64_of_f32 (f32_neg x) = SFopp (f64_of_f32 x).
Proof. destruct x; try reflexivity. cbn. apply round_neg. Qed.
Lemma mul_neg x y : f64_mul (SFopp x) y = SFopp (f64_mul x y).
Proof.
  destruct x as [s|s| |s m e], y as [t|t| |t n f]; cbn; try reflexivity; try (now destruct s, t).
  rewrite <- negb_xorb_l. apply round_aux_neg.
Qed.
Lemma div_neg x y : f64_div (SFopp x) y = SFopp (f64_div x y).
Proof.
  destruct x as [s|s| |s m e], y as [t|t| |t n f]; cbn; try reflexivity; try (now destruct s, t).
  rewrite <- negb_xorb_l. unfold f64_div. cbn [SFdiv]. destruct (SFdiv_core_binary _ _ _ _ _ _) as [[? ?] ?]. apply round_aux_neg.
Qed.
Lemma mul_comm64 x y : f64_mul x y = f64_mul y x.
Proof.
  destruct x as [s|s| |s m e], y as [t|t| |t n f]; cbn; try reflexivity; try (now destruct s, t).
  unfold f64_mul. cbn [SFmul]. now rewrite xorb_comm, Pos.mul_comm, Z.add_comm.
Qed.
Lemma mul_neg2 x y : f64_mul (f64_mul x (SFopp y)) (SFopp y) = f64_mul (f64_mul x y) y.
Proof.
  rewrite (mul_comm64 x (SFopp y)), mul_neg, mul_neg, (mul_comm64 (f64_mul y x) (SFopp y)), mul_neg.
  rewrite (mul_comm64 y (f64_mul y x)), (mul_comm64 y x).
  destruct (f64_mul (f64_mul x y) y) as [s|s| |s m e]; cbn; now rewrite ?negb_involutive.
Qed.
Lemma sq_neg x : f64_mul (SFopp x) (SFopp x) = f64_mul x x.
Proof.
  rewrite mul_neg, mul_comm64, mul_neg. destruct (f64_mul x x) as [s|s| |s m e]; cbn; now rewrite ?negb_involutive.
Qed.

Lemma delta_same x y : geo_delta x y = geo_delta y x \/ geo_delta x y = SFopp (geo_delta y x).
Proof.
  unfold geo_delta. destruct (f32_sub_same y x) as [->| ->]; [now left|right].
  now rewrite f64_of_neg, mul_neg, div_neg.
Qed.
Lemma half_same x y : let h d := f64_div d (f64_of_Z 2) in
  h (geo_delta x y) = h (geo_delta y x) \/ h (geo_delta x y) = SFopp (h (geo_delta y x)).
Proof. cbv zeta. destruct (delta_same x y) as [->| ->]; [now left|right]. apply div_neg. Qed.
Lemma sin_same (sin : f64 -> f64) x y : (forall z, sin (SFopp z) = SFopp (sin z)) -> x = y \/ x = SFopp y ->
  sin x = sin y \/ sin x = SFopp (sin y).
Proof. intros H [->| ->]; [now left|right; apply H]. Qed.

Lemma geo_A_sym sin cos latA lonA latB lonB : (forall z, sin (SFopp z) = SFopp (sin z)) ->
  geo_A sin cos latA lonA latB lonB = geo_A sin cos latB lonB latA lonA.
Proof.
  intros Hs. unfold geo_A. cbv zeta. f_equal.
  - destruct (sin_same sin _ _ Hs (half_same latA latB)) as [->| ->]; [reflexivity|apply sq_neg].
  - rewrite (mul_comm64 (cos (geo_rad latA))).
    destruct (sin_same sin _ _ Hs (half_same lonA lonB)) as [->| ->]; [reflexivity|apply mul_neg2].
Qed.
Lemma geo_dist_sym sin cos atan2 a b : (forall z, sin (SFopp z) = SFopp (sin z)) ->
  geo_dist sin cos atan2 a b = geo_dist sin cos atan2 b a.
Proof.
  intros Hs. destruct a as [|x [|y [|? ?]]], b as [|x' [|y' [|? ?]]]; try reflexivity.
  cbn [geo_dist]. now rewrite geo_A_sym.
Qed.

Local Open Scope R_scope.

Definition ok64 (x : f64) : Prop := f64_valid x /\ fin x.
Definition ok32 (x : f32) : Prop := f32_valid x /\ fin x.
Definition e64 : R := / 9007199254740992.
Definition e32 : R := / 16777216.
Definition tiny : R := / 1000000000000000000000000000000.

Lemma rnd64_near r : Rabs (rnd64 r - r) <= e64 * Rabs r + tiny.
Proof.
  eapply Rle_trans; [apply rnd64_err|]. change (pow2 (-53)) with e64. apply Rplus_le_compat_l.
  apply Rle_trans with (pow2 (-120)); [apply bpow_le; lia|]. unfold tiny. simpl. lra.
Qed.
Lemma rnd32_near r : Rabs (rnd32 r - r) <= e32 * Rabs r + tiny.
Proof.
  eapply Rle_trans; [apply rnd32_err|]. change u with e32. apply Rplus_le_compat_l.
  apply Rle_trans with (pow2 (-120)); [apply bpow_le; lia|]. unfold tiny. simpl. lra.
Qed.
Lemma small64 r : Rabs r <= 1073741824 -> Rabs (rnd64 r) < pow2 emax64.
Proof.
  intros H. pose proof (rnd64_near r) as N. replace (rnd64 r) with ((rnd64 r - r) + r) by ring.
  eapply Rle_lt_trans; [apply Rabs_triang|]. apply Rlt_trans with (pow2 40); [|apply bpow_lt; reflexivity].
  unfold e64, tiny in N. simpl. lra.
Qed.
Lemma small32 r : Rabs r <= 1073741824 -> Rabs (rnd32 r) < pow2 emax32.
Proof.
  intros H. pose proof (rnd32_near r) as N. replace (rnd32 r) with ((rnd32 r - r) + r) by ring.
  eapply Rle_lt_trans; [apply Rabs_triang|]. apply Rlt_trans with (pow2 40); [|apply bpow_lt; reflexivity].
  unfold e32, tiny in N. simpl. lra.
Qed.

Lemma mul64 x y : ok64 x -> ok64 y -> Rabs (rv x * rv y) <= 1073741824 ->
  ok64 (f64_mul x y) /\ Rabs (rv (f64_mul x y) - rv x * rv y) <= e64 * Rabs (rv x * rv y) + tiny.
Proof.
  intros [Vx Fx] [Vy Fy] H. destruct (mul_real prec64 emax64 _ _ x y Vx Vy Fx Fy) as [V [(S & F & E)|(S & _)]].
  2:{ exfalso. apply S. now apply small64. }
  split; [now split|]. unfold rv. unfold f64_mul. rewrite E. apply rnd64_near.
Qed.
Lemma mul64_eq x y : ok64 x -> ok64 y -> Rabs (rv x * rv y) <= 1073741824 -> rv (f64_mul x y) = rnd64 (rv x * rv y).
Proof.
  intros [Vx Fx] [Vy Fy] H. destruct (mul_real prec64 emax64 _ _ x y Vx Vy Fx Fy) as [V [(S & F & E)|(S & _)]]; [exact E|].
  exfalso. apply S. now apply small64.
Qed.
Lemma add64_eq x y : ok64 x -> ok64 y -> Rabs (rv x + rv y) <= 1073741824 -> rv (f64_add x y) = rnd64 (rv x + rv y).
Proof.
  intros [Vx Fx] [Vy Fy] H. destruct (add_real prec64 emax64 _ _ x y Vx Vy Fx Fy) as [V [(S & F & E)|(S & _)]]; [exact E|].
  exfalso. apply S. now apply small64.
Qed.
Lemma add64 x y : ok64 x -> ok64 y -> Rabs (rv x + rv y) <= 1073741824 ->
  ok64 (f64_add x y) /\ Rabs (rv (f64_add x y) - (rv x + rv y)) <= e64 * Rabs (rv x + rv y) + tiny.
Proof.
  intros [Vx Fx] [Vy Fy] H. destruct (add_real prec64 emax64 _ _ x y Vx Vy Fx Fy) as [V [(S & F & E)|(S & _)]].
  2:{ exfalso. apply S. now apply small64. }
  split; [now split|]. unfold rv. unfold f64_add. rewrite E. apply rnd64_near.
Qed.
Lemma sub64 x y : ok64 x -> ok64 y -> Rabs (rv x - rv y) <= 1073741824 ->
  ok64 (f64_sub x y) /\ rv (f64_sub x y) = rnd64 (rv x - rv y).
Proof.
  intros [Vx Fx] [Vy Fy] H. destruct (sub_real prec64 emax64 _ _ x y Vx Vy Fx Fy) as [V [(S & F & E)|(S & _)]].
  2:{ exfalso. apply S. now apply small64. }
  split; [now split|]. exact E.
Qed.
Lemma div64 x y : ok64 x -> ok64 y -> rv y <> 0 -> Rabs (rv x / rv y) <= 1073741824 ->
  ok64 (f64_div x y) /\ Rabs (rv (f64_div x y) - rv x / rv y) <= e64 * Rabs (rv x / rv y) + tiny.
Proof.
  intros [Vx Fx] [Vy Fy] N H. destruct (div_real prec64 emax64 _ _ x y Vx Vy Fx N) as [V [(S & F & E)|(S & _)]].
  2:{ exfalso. apply S. now apply small64. }
  split; [now split|]. unfold rv. unfold f64_div. rewrite E. apply rnd64_near.
Qed.
Lemma mul32 x y : ok32 x -> ok32 y -> Rabs (rv x * rv y) <= 1073741824 ->
  ok32 (f32_mul x y) /\ Rabs (rv (f32_mul x y) - rv x * rv y) <= e32 * Rabs (rv x * rv y) + tiny.
Proof.
  intros [Vx Fx] [Vy Fy] H. destruct (mul_real prec32 emax32 _ _ x y Vx Vy Fx Fy) as [V [(S & F & E)|(S & _)]].
  2:{ exfalso. apply S. now apply small32. }
  split; [now split|]. unfold rv. unfold f32_mul. rewrite E. apply rnd32_near.
Qed.
Lemma sub32 x y : ok32 x -> ok32 y -> Rabs (rv x - rv y) <= 1073741824 ->
  ok32 (f32_sub x y) /\ Rabs (rv (f32_sub x y) - (rv x - rv y)) <= e32 * Rabs (rv x - rv y) + tiny.
Proof.
  intros [Vx Fx] [Vy Fy] H. destruct (sub_real prec32 emax32 _ _ x y Vx Vy Fx Fy) as [V [(S & F & E)|(S & _)]].
  2:{ exfalso. apply S. now apply small32. }
  split; [now split|]. unfold rv. unfold f32_sub. rewrite E. apply rnd32_near.
Qed.
Lemma div32 x y : ok32 x -> ok32 y -> rv y <> 0 -> Rabs (rv x / rv y) <= 1073741824 ->
  ok32 (f32_div x y) /\ Rabs (rv (f32_div x y) - rv x / rv y) <= e32 * Rabs (rv x / rv y) + tiny.
Proof.
  intros [Vx Fx] [Vy Fy] N H. destruct (div_real prec32 emax32 _ _ x y Vx Vy Fx N) as [V [(S & F & E)|(S & _)]].
  2:{ exfalso. apply S. now apply small32. }
  split; [now split|]. unfold rv. unfold f32_div. rewrite E. apply rnd32_near.
Qed.
Lemma sqrt64 x : ok64 x -> 0 <= rv x -> ok64 (f64_sqrt x) /\ rv (f64_sqrt x) = rnd64 (sqrt (rv x)).
Proof.
  intros [Vx Fx] P. destruct (sqrt_real prec64 emax64 _ _ x Vx Fx P) as (V & F & E). split; [now split|exact E].
Qed.
Lemma of64 x : ok64 x -> Rabs (rv x) <= 1073741824 ->
  ok32 (f32_of_f64 x) /\ rv (f32_of_f64 x) = rnd32 (rv x).
Proof.
  intros [V F] H. destruct x as [s|s| |s m e]; try discriminate.
  - cbn. rewrite rnd32_0. now repeat split.
  - cbn [f32_of_f64]. destruct (round_real prec32 emax32 _ _ s m e) as [V' [(S & F' & E)|[S _]]].
    + split; [now split|exact E].
    + exfalso. apply S. now apply small32.
Qed.
Lemma rnd64_nonneg r : 0 <= r -> 0 <= rnd64 r.
Proof. intros H. rewrite <- rnd64_0. now apply rnd64_mono. Qed.
Lemma rnd32_nonneg r : 0 <= r -> 0 <= rnd32 r.
Proof. intros H. rewrite <- rnd32_0. now apply rnd32_mono. Qed.

Lemma abs_le x c : - c <= x <= c -> Rabs x <= c.
Proof. apply Rabs_le. Qed.
Ltac absb H := apply Rabs_le_inv in H.

(** The angles. *)
Lemma pi32_ok : ok32 pi32 /\ rv pi32 = 13176795 / 4194304.
Proof. split; [split; reflexivity|]. unfold rv, pi32, SF2R, F2R. cbn. lra. Qed.
Lemma pi64_ok : ok64 pi64 /\ rv pi64 = 7074237752028440 / 2251799813685248.
Proof. split; [split; reflexivity|]. unfold rv, pi64, SF2R, F2R. cbn. lra. Qed.
Lemma n180_32 : ok32 (f32_of_Z 180) /\ rv (f32_of_Z 180) = 180.
Proof. split; [split; vm_compute; reflexivity|]. change (f32_of_Z 180) with (binary_normalize prec32 emax32 180 0 false). replace (binary_normalize prec32 emax32 180 0 false) with (S754_finite false 11796480 (-16)) by (vm_compute; reflexivity). unfold rv, SF2R, F2R. cbn. lra. Qed.
Lemma n180_64 : ok64 (f64_of_Z 180) /\ rv (f64_of_Z 180) = 180.
Proof. split; [split; vm_compute; reflexivity|]. replace (f64_of_Z 180) with (S754_finite false 6333186975989760 (-45)) by (vm_compute; reflexivity). unfold rv, SF2R, F2R. cbn. lra. Qed.
Lemma n2_64 : ok64 (f64_of_Z 2) /\ rv (f64_of_Z 2) = 2.
Proof. split; [split; vm_compute; reflexivity|]. replace (f64_of_Z 2) with (S754_finite false 4503599627370496 (-51)) by (vm_compute; reflexivity). unfold rv, SF2R, F2R. cbn. lra. Qed.
Lemma n1_64 : ok64 (f64_of_Z 1) /\ rv (f64_of_Z 1) = 1.
Proof. split; [split; vm_compute; reflexivity|]. replace (f64_of_Z 1) with (S754_finite false 4503599627370496 (-52)) by (vm_compute; reflexivity). unfold rv, SF2R, F2R. cbn. lra. Qed.
Lemma nR_64 : ok64 (f64_of_Z 6371000) /\ rv (f64_of_Z 6371000) = 6371000.
Proof. split; [split; vm_compute; reflexivity|]. let v := eval vm_compute in (f64_of_Z 6371000) in replace (f64_of_Z 6371000) with v by (vm_compute; reflexivity). unfold rv, SF2R, F2R. cbn. lra. Qed.

Lemma geo_rad_near lat : ok32 lat -> Rabs (rv lat) <= 90 ->
  ok64 (geo_rad lat) /\ Rabs (rv (geo_rad lat) - rad (rv lat)) <= 24 / 100000000.
Proof.
  intros O B. destruct pi32_ok as [Op Ep]. destruct n180_32 as [On En]. pose proof PI_bound as PB. absb B.
  assert (B1 : Rabs (rv lat * rv pi32) <= 283) by (apply abs_le; rewrite Ep; lra).
  destruct (mul32 lat pi32 O Op ltac:(lra)) as [O1 E1].
  set (m := f32_mul lat pi32) in *. unfold e32, tiny in E1.
  assert (E1' : Rabs (rv m - rv lat * rv pi32) <= 17 / 1000000) by lra. clear E1. absb E1'. rewrite Ep in *. absb B1.
  assert (B2 : Rabs (rv m / rv (f32_of_Z 180)) <= 158 / 100) by (apply abs_le; rewrite En; lra).
  destruct (div32 m _ O1 On ltac:(rewrite En; lra) ltac:(lra)) as [O2 E2].
  unfold e32, tiny in E2. unfold geo_rad. fold m. set (q := f32_div m _) in *.
  assert (E2' : Rabs (rv q - rv m / rv (f32_of_Z 180)) <= 95 / 1000000000) by lra. clear E2 B2. absb E2'. rewrite En in *.
  destruct (to64 q (proj1 O2) (proj2 O2)) as (V & F & E). split; [now split|]. rewrite E. unfold rad. apply abs_le.
  assert (Rabs (rv lat * (13176795 / 4194304 - PI)) <= 90 * (9 / 100000000)).
  { rewrite Rabs_mult. apply Rmult_le_compat; try apply Rabs_pos; apply abs_le; lra. }
  absb H. lra.
Qed.

Lemma geo_half_near x y : ok32 x -> ok32 y -> Rabs (rv y - rv x) <= 360 ->
  let h := f64_div (geo_delta x y) (f64_of_Z 2) in
  ok64 h /\ Rabs (rv h - rad (rv y - rv x) / 2) <= 2 / 10000000 /\ Rabs (rv h) <= 4.
Proof.
  intros Ox Oy B. cbv zeta. destruct pi64_ok as [Op Ep]. destruct n180_64 as [On En]. destruct n2_64 as [O2 E2]. pose proof PI_bound as PB.
  destruct (sub32 y x Oy Ox ltac:(lra)) as [Od Ed]. unfold geo_delta. set (d := f32_sub y x) in *.
  assert (Ed' : Rabs (rv d - (rv y - rv x)) <= 215 / 10000000) by (unfold e32, tiny in Ed; lra). clear Ed. absb B. absb Ed'.
  destruct (to64 d (proj1 Od) (proj2 Od)) as (V & F & E). set (d' := f64_of_f32 d) in *.
  assert (B1 : Rabs (rv d' * rv pi64) <= 1132) by (apply abs_le; rewrite E, Ep; lra).
  destruct (mul64 d' pi64 (conj V F) Op ltac:(lra)) as [O3 E3]. set (m := f64_mul d' pi64) in *. unfold e64, tiny in E3.
  assert (E3' : Rabs (rv m - rv d' * rv pi64) <= 1 / 1000000000) by lra. clear E3. absb E3'. rewrite E, Ep in *. absb B1.
  assert (B2 : Rabs (rv m / rv (f64_of_Z 180)) <= 7) by (apply abs_le; rewrite En; lra).
  destruct (div64 m _ O3 On ltac:(rewrite En; lra) ltac:(lra)) as [O4 E4]. set (q := f64_div m _) in *. unfold e64, tiny in E4.
  assert (E4' : Rabs (rv q - rv m / rv (f64_of_Z 180)) <= 1 / 1000000000) by lra. clear E4. absb E4'. rewrite En in *. absb B2.
  assert (B3 : Rabs (rv q / rv (f64_of_Z 2)) <= 39 / 10) by (apply abs_le; rewrite E2; lra).
  destruct (div64 q _ O4 O2 ltac:(rewrite E2; lra) ltac:(lra)) as [O5 E5]. set (h := f64_div q _) in *. unfold e64, tiny in E5.
  assert (E5' : Rabs (rv h - rv q / rv (f64_of_Z 2)) <= 1 / 1000000000) by lra. clear E5. absb E5'. rewrite E2 in *. absb B3.
  split; [exact O5|]. unfold rad.
  assert (Hp : Rabs ((rv y - rv x) * (7074237752028440 / 2251799813685248 - PI)) <= 360 * (2 / 1000000000)).
  { rewrite Rabs_mult. apply Rmult_le_compat; try apply Rabs_pos; apply abs_le; lra. }
  absb Hp. split; apply abs_le; lra.
Qed.

(** What the theorems assume of math.Sin, math.Cos and math.Atan2: two units in the last
    place (absolute, for arguments up to 4), and NaN for NaN. *)
Record trig_ok (fsin fcos : f64 -> f64) (fatan2 : f64 -> f64 -> f64) : Prop := {
  t_odd : forall x, fsin (SFopp x) = SFopp (fsin x);
  t_sin : forall x, f64_valid x -> fin x -> Rabs (rv x) <= 4 ->
    f64_valid (fsin x) /\ fin (fsin x) /\ Rabs (rv (fsin x) - sin (rv x)) <= / 4503599627370496;
  t_cos : forall x, f64_valid x -> fin x -> Rabs (rv x) <= 4 ->
    f64_valid (fcos x) /\ fin (fcos x) /\ Rabs (rv (fcos x) - cos (rv x)) <= / 4503599627370496;
  t_atan2 : forall y x, f64_valid y -> fin y -> f64_valid x -> fin x -> 0 <= rv y -> 0 <= rv x -> 0 < rv y + rv x ->
    f64_valid (fatan2 y x) /\ fin (fatan2 y x) /\ 0 <= rv (fatan2 y x) /\
    exists t, 0 <= t <= PI / 2 /\ rv y = sqrt (rv y * rv y + rv x * rv x) * sin t /\ rv x = sqrt (rv y * rv y + rv x * rv x) * cos t /\
      Rabs (rv (fatan2 y x) - t) <= / 4503599627370496;
  t_nan : forall y, fatan2 y S754_nan = S754_nan
}.

Definition e52 : R := / 4503599627370496.

Lemma near_prod a b a' b' : Rabs a <= 1 -> Rabs b <= 1 -> Rabs a' <= 101 / 100 -> forall e f,
  Rabs (a' - a) <= e -> Rabs (b' - b) <= f -> Rabs (a' * b' - a * b) <= e + f * (101 / 100).
Proof.
  intros Ha Hb Ha' e f He Hf. replace (a' * b' - a * b) with ((a' - a) * b + (b' - b) * a') by ring.
  eapply Rle_trans; [apply Rabs_triang|]. rewrite !Rabs_mult. pose proof (Rabs_pos (a' - a)). pose proof (Rabs_pos (b' - b)).
  pose proof (Rabs_pos b). pose proof (Rabs_pos a').
  apply Rplus_le_compat; [|apply Rmult_le_compat; lra]. rewrite <- (Rmult_1_r e). apply Rmult_le_compat; lra.
Qed.

Lemma mul_near x y a b e f : ok64 x -> ok64 y -> Rabs a <= 1 -> Rabs b <= 1 ->
  Rabs (rv x - a) <= e -> Rabs (rv y - b) <= f -> e <= 1 / 1000 -> f <= 1 / 1000 ->
  ok64 (f64_mul x y) /\ Rabs (rv (f64_mul x y) - a * b) <= e + f * (101 / 100) + / 1000000000000000 /\ Rabs (a * b) <= 1.
Proof.
  intros Ox Oy Ha Hb Hx Hy He Hf.
  assert (Rabs (rv x) <= 101 / 100) by (absb Ha; absb Hx; apply abs_le; lra).
  assert (Rabs (rv y) <= 101 / 100) by (absb Hb; absb Hy; apply abs_le; lra).
  assert (B : Rabs (rv x * rv y) <= 2).
  { rewrite Rabs_mult. apply Rle_trans with (101 / 100 * (101 / 100)); [|lra]. apply Rmult_le_compat; try apply Rabs_pos; assumption. }
  destruct (mul64 x y Ox Oy ltac:(lra)) as [O E]. split; [exact O|]. split.
  - pose proof (near_prod a b (rv x) (rv y) Ha Hb H e f Hx Hy) as N.
    replace (rv (f64_mul x y) - a * b) with ((rv (f64_mul x y) - rv x * rv y) + (rv x * rv y - a * b)) by ring.
    eapply Rle_trans; [apply Rabs_triang|]. unfold e64, tiny in E. lra.
  - rewrite Rabs_mult. rewrite <- (Rmult_1_r 1). apply Rmult_le_compat; try apply Rabs_pos; assumption.
Qed.

Section Near.
  Variable fsin fcos : f64 -> f64.
  Variable fatan2 : f64 -> f64 -> f64.
  Hypothesis T : trig_ok fsin fcos fatan2.

  Lemma sin_near h x : ok64 h -> Rabs (rv h) <= 4 -> forall e, Rabs (rv h - x) <= e ->
    ok64 (fsin h) /\ Rabs (rv (fsin h) - sin x) <= e + e52.
  Proof.
    intros [V F] B e H. destruct (t_sin _ _ _ T h V F B) as (V' & F' & E). split; [now split|].
    replace (rv (fsin h) - sin x) with ((rv (fsin h) - sin (rv h)) + (sin (rv h) - sin x)) by ring.
    eapply Rle_trans; [apply Rabs_triang|]. pose proof (sin_lip (rv h) x). unfold e52. lra.
  Qed.
  Lemma cos_near h x : ok64 h -> Rabs (rv h) <= 4 -> forall e, Rabs (rv h - x) <= e ->
    ok64 (fcos h) /\ Rabs (rv (fcos h) - cos x) <= e + e52.
  Proof.
    intros [V F] B e H. destruct (t_cos _ _ _ T h V F B) as (V' & F' & E). split; [now split|].
    replace (rv (fcos h) - cos x) with ((rv (fcos h) - cos (rv h)) + (cos (rv h) - cos x)) by ring.
    eapply Rle_trans; [apply Rabs_triang|]. pose proof (cos_lip (rv h) x). unfold e52. lra.
  Qed.
  Lemma cos_rad_near lat : ok32 lat -> Rabs (rv lat) <= 90 ->
    ok64 (fcos (geo_rad lat)) /\ Rabs (rv (fcos (geo_rad lat)) - cos (rad (rv lat))) <= 25 / 100000000.
  Proof.
    intros O B. destruct (geo_rad_near lat O B) as [O1 E1]. pose proof PI_bound as PB.
    assert (Hb : Rabs (rv (geo_rad lat)) <= 4).
    { absb B. absb E1. assert (Rabs (rad (rv lat)) <= 2).
      { unfold rad. unfold Rdiv. rewrite !Rabs_mult, (Rabs_pos_eq PI), (Rabs_pos_eq (/ 180)) by lra.
        apply Rle_trans with (90 * PI * / 180); [|lra]. apply Rmult_le_compat_r; [lra|]. apply Rmult_le_compat_r; [lra|]. apply abs_le; lra. }
      absb H. apply abs_le. lra. }
    destruct (cos_near _ _ O1 Hb _ E1) as [O2 E2]. split; [exact O2|]. unfold e52 in E2. lra.
  Qed.

  Lemma sin_abs x : Rabs (sin x) <= 1. Proof. apply abs_le. pose proof (SIN_bound x). lra. Qed.
  Lemma cos_abs x : Rabs (cos x) <= 1. Proof. apply abs_le. pose proof (COS_bound x). lra. Qed.

  Lemma geo_A_near latA lonA latB lonB : ok32 latA -> ok32 lonA -> ok32 latB -> ok32 lonB ->
    Rabs (rv latA) <= 90 -> Rabs (rv latB) <= 90 -> Rabs (rv lonA) <= 180 -> Rabs (rv lonB) <= 180 ->
    let A := geo_A fsin fcos latA lonA latB lonB in
    ok64 A /\ Rabs (rv A - hav (rv latA) (rv lonA) (rv latB) (rv lonB)) <= 2 / 1000000 /\
    (0 <= rv (fcos (geo_rad latA)) -> 0 <= rv (fcos (geo_rad latB)) -> 0 <= rv A).
  Proof.
    intros OA OlA OB OlB BA BB BlA BlB. cbv zeta. unfold geo_A. cbv zeta.
    assert (D1 : Rabs (rv latB - rv latA) <= 360) by (absb BA; absb BB; apply abs_le; lra).
    assert (D2 : Rabs (rv lonB - rv lonA) <= 360) by (absb BlA; absb BlB; apply abs_le; lra).
    destruct (geo_half_near latA latB OA OB D1) as (O1 & E1 & B1).
    destruct (geo_half_near lonA lonB OlA OlB D2) as (O2 & E2 & B2).
    destruct (sin_near _ _ O1 B1 _ E1) as [O3 E3]. destruct (sin_near _ _ O2 B2 _ E2) as [O4 E4].
    destruct (cos_rad_near latA OA BA) as [O5 E5]. destruct (cos_rad_near latB OB BB) as [O6 E6].
    unfold hav. set (sa := fsin (f64_div (geo_delta latA latB) _)) in *. set (so := fsin (f64_div (geo_delta lonA lonB) _)) in *.
    set (ca := fcos (geo_rad latA)) in *. set (cb := fcos (geo_rad latB)) in *.
    assert (E3' : Rabs (rv sa - sin (rad (rv latB - rv latA) / 2)) <= 201 / 1000000000) by (unfold e52 in E3; lra). clear E3.
    assert (E4' : Rabs (rv so - sin (rad (rv lonB - rv lonA) / 2)) <= 201 / 1000000000) by (unfold e52 in E4; lra). clear E4.
    set (Sa := sin (rad (rv latB - rv latA) / 2)) in *. set (So := sin (rad (rv lonB - rv lonA) / 2)) in *.
    assert (HSa : Rabs Sa <= 1) by apply sin_abs. assert (HSo : Rabs So <= 1) by apply sin_abs.
    assert (Hc1 : Rabs (cos (rad (rv latA))) <= 1) by apply cos_abs. assert (Hc2 : Rabs (cos (rad (rv latB))) <= 1) by apply cos_abs.
    destruct (mul_near sa sa Sa Sa _ _ O3 O3 HSa HSa E3' E3' ltac:(lra) ltac:(lra)) as (O7 & E7 & B7).
    destruct (mul_near ca cb _ _ _ _ O5 O6 Hc1 Hc2 E5 E6 ltac:(lra) ltac:(lra)) as (O8 & E8 & B8).
    destruct (mul_near _ so _ So _ _ O8 O4 B8 HSo E8 E4' ltac:(lra) ltac:(lra)) as (O9 & E9 & B9).
    destruct (mul_near _ so _ So _ _ O9 O4 B9 HSo E9 E4' ltac:(lra) ltac:(lra)) as (O10 & E10 & B10).
    set (p := f64_mul sa sa) in *. set (q := f64_mul (f64_mul (f64_mul ca cb) so) so) in *.
    assert (Bs : Rabs (rv p + rv q) <= 3) by (absb E7; absb E10; absb B7; absb B10; apply abs_le; lra).
    destruct (add64 p q O7 O10 ltac:(lra)) as [O11 E11]. split; [exact O11|]. split.
    - unfold e64, tiny in E11. unfold Rsqr.
      replace (cos (rad (rv latA)) * cos (rad (rv latB)) * (So * So)) with (cos (rad (rv latA)) * cos (rad (rv latB)) * So * So) by ring.
      set (P := Sa * Sa) in *. set (Q := cos (rad (rv latA)) * cos (rad (rv latB)) * So * So) in *.
      assert (E11' : Rabs (rv (f64_add p q) - (rv p + rv q)) <= / 1000000000000) by lra.
      clear - E7 E10 E11'. absb E7. absb E10. absb E11'. apply abs_le. lra.
    - intros Pa Pb. rewrite (add64_eq p q O7 O10) by lra. apply rnd64_nonneg.
      assert (Hb : forall x y, Rabs x <= 1001 / 1000 -> Rabs y <= 1001 / 1000 -> Rabs (x * y) <= 1073741824).
      { intros x y Hx Hy. rewrite Rabs_mult. apply Rle_trans with (1001 / 1000 * (1001 / 1000)); [|lra].
        apply Rmult_le_compat; try apply Rabs_pos; assumption. }
      assert (Hk : forall x y, Rabs (x - y) <= 1 / 1000 -> Rabs y <= 1 -> Rabs x <= 1001 / 1000).
      { intros x y H1 H2. absb H1. absb H2. apply abs_le. lra. }
      assert (K1 := Hk _ _ ltac:(eapply Rle_trans; [exact E3'|lra]) HSa).
      assert (K2 := Hk _ _ ltac:(eapply Rle_trans; [exact E4'|lra]) HSo).
      assert (K3 := Hk _ _ ltac:(eapply Rle_trans; [exact E5|lra]) Hc1).
      assert (K4 := Hk _ _ ltac:(eapply Rle_trans; [exact E6|lra]) Hc2).
      assert (K5 := Hk _ _ ltac:(eapply Rle_trans; [exact E8|lra]) B8).
      assert (K6 := Hk _ _ ltac:(eapply Rle_trans; [exact E9|lra]) B9).
      apply Rplus_le_le_0_compat.
      + unfold p. rewrite (mul64_eq sa sa O3 O3 (Hb _ _ K1 K1)). apply rnd64_nonneg, Rle_0_sqr.
      + unfold q. rewrite (mul64_eq _ so O9 O4 (Hb _ _ K6 K2)). apply rnd64_nonneg.
        assert (P8 : 0 <= rv (f64_mul ca cb)).
        { rewrite (mul64_eq ca cb O5 O6 (Hb _ _ K3 K4)). apply rnd64_nonneg. now apply Rmult_le_pos. }
        rewrite (mul64_eq _ so O8 O4 (Hb _ _ K5 K2)).
        destruct (Rle_dec 0 (rv so)) as [Hs|Hs].
        * apply Rmult_le_pos; [|exact Hs]. apply rnd64_nonneg. now apply Rmult_le_pos.
        * assert (rnd64 (rv (f64_mul ca cb) * rv so) <= 0) by (rewrite <- rnd64_0; apply rnd64_mono; nra). nra.
  Qed.

  Lemma sq_near y a : 0 <= a <= 2 -> Rabs (y - sqrt a) <= / 1000000000000000 -> Rabs (y * y - a) <= / 100000000000000.
  Proof.
    intros Ha H. assert (S : 0 <= sqrt a <= 2).
    { split; [apply sqrt_pos|]. rewrite <- (sqrt_square 2) by lra. apply sqrt_le_1_alt. lra. }
    rewrite <- (sqrt_sqrt a) at 1 by lra. replace (y * y - sqrt a * sqrt a) with ((y - sqrt a) * (y + sqrt a)) by ring.
    rewrite Rabs_mult. assert (Rabs (y + sqrt a) <= 5) by (absb H; apply abs_le; lra).
    pose proof (Rabs_pos (y - sqrt a)). pose proof (Rabs_pos (y + sqrt a)).
    apply Rle_trans with (/ 1000000000000000 * 5); [apply Rmult_le_compat; assumption|lra].
  Qed.
  Lemma sqrt_near x : ok64 x -> 0 <= rv x <= 2 ->
    ok64 (f64_sqrt x) /\ 0 <= rv (f64_sqrt x) /\ Rabs (rv (f64_sqrt x) - sqrt (rv x)) <= / 1000000000000000.
  Proof.
    intros O [P Q]. destruct (sqrt64 x O P) as [O' E]. split; [exact O'|]. rewrite E. split; [apply rnd64_nonneg, sqrt_pos|].
    pose proof (rnd64_near (sqrt (rv x))) as N.
    assert (S : Rabs (sqrt (rv x)) <= 2).
    { rewrite Rabs_pos_eq by apply sqrt_pos. rewrite <- (sqrt_square 2) by lra. apply sqrt_le_1_alt. lra. }
    unfold e64, tiny in N. lra.
  Qed.

  Lemma geo_finish_near A : ok64 A -> 0 <= rv A <= 1 ->
    let d := geo_finish fatan2 A in
    ok32 d /\ 0 <= rv d <= 21000000 /\ Rabs ((sin (rv d / (2 * 6371000)))² - rv A) <= 3 / 10000000.
  Proof.
    intros OA [PA QA]. cbv zeta. unfold geo_finish. cbv zeta. destruct n1_64 as [O1 E1]. destruct n2_64 as [O2 E2]. destruct nR_64 as [OR ER].
    pose proof PI_bound as PB. set (a := rv A) in *.
    destruct (sub64 _ A O1 OA) as [Os Es]; [apply abs_le; rewrite E1; fold a; lra|]. rewrite E1 in Es. fold a in Es.
    set (B := f64_sub (f64_of_Z 1) A) in *.
    pose proof (rnd64_near (1 - a)) as Nb. rewrite <- Es in Nb. rewrite (Rabs_pos_eq (1 - a)) in Nb by lra.
    assert (Nb' : Rabs (rv B - (1 - a)) <= / 1000000000000000) by (unfold e64, tiny in Nb; lra). clear Nb.
    assert (PB0 : 0 <= rv B) by (rewrite Es; apply rnd64_nonneg; lra).
    assert (QB : rv B <= 2) by (absb Nb'; lra).
    destruct (sqrt_near A OA ltac:(fold a; lra)) as (Oy & Py & Ey). destruct (sqrt_near B Os ltac:(lra)) as (Ox & Px & Ex).
    set (y := f64_sqrt A) in *. set (x := f64_sqrt B) in *. fold a in Ey.
    pose proof (sq_near (rv y) a ltac:(lra) Ey) as Ny. pose proof (sq_near _ _ (conj PB0 QB) Ex) as Nx.
    assert (Hpos : 0 < rv y + rv x).
    { apply Rnot_le_lt. intros H. assert (rv y = 0) by lra. assert (rv x = 0) by lra. rewrite H0 in Ny. rewrite H1 in Nx.
      absb Ny. absb Nx. absb Nb'. lra. }
    destruct (t_atan2 _ _ _ T y x (proj1 Oy) (proj2 Oy) (proj1 Ox) (proj2 Ox) Py Px Hpos) as (Vc & Fc & Pc & t & Ht & Hs & Hc & Et).
    set (c := fatan2 y x) in *. set (r := sqrt (rv y * rv y + rv x * rv x)) in *.
    assert (Hr : r * r = rv y * rv y + rv x * rv x) by (apply sqrt_sqrt; nra).
    assert (Nt : Rabs ((sin t)² - a) <= / 10000000000000).
    { assert (E : (sin t)² = rv y * rv y + (sin t)² * (1 - r * r)) by (rewrite Hs at 1 2; unfold Rsqr; ring).
      rewrite E. assert (S : 0 <= (sin t)² <= 1).
      { pose proof (sin_abs t) as A1. rewrite <- (Rabs_pos_eq 1) in A1 by lra. apply Rsqr_le_abs_1 in A1. rewrite Rsqr_1 in A1. split; [apply Rle_0_sqr|exact A1]. }
      assert (R : Rabs (1 - r * r) <= 3 / 100000000000000) by (rewrite Hr; absb Ny; absb Nx; absb Nb'; apply abs_le; lra).
      assert (M : Rabs ((sin t)² * (1 - r * r)) <= 3 / 100000000000000).
      { rewrite Rabs_mult, (Rabs_pos_eq (Rsqr _)) by lra. rewrite <- (Rmult_1_l (3 / _)). apply Rmult_le_compat; try lra; apply Rabs_pos. }
      absb M. absb Ny. apply abs_le. lra. }
    clear Hs Hc Hr. clearbody c r y x B.
    assert (Bc : Rabs (rv c) <= 16 / 10) by (absb Et; apply abs_le; lra).
    assert (B2 : Rabs (rv (f64_of_Z 2) * rv c) <= 33 / 10) by (rewrite E2; absb Bc; apply abs_le; lra).
    destruct (mul64 _ c O2 (conj Vc Fc) ltac:(lra)) as [O3 E3]. pose proof (mul64_eq _ c O2 (conj Vc Fc) ltac:(lra)) as E3e.
    set (C := f64_mul (f64_of_Z 2) c) in *.
    assert (E3' : Rabs (rv C - rv (f64_of_Z 2) * rv c) <= / 100000000000000) by (unfold e64, tiny in E3; lra). clear E3.
    assert (P3 : 0 <= rv C) by (rewrite E3e; apply rnd64_nonneg; rewrite E2; lra). clear E3e. rewrite E2 in *.
    assert (B4 : Rabs (rv (f64_of_Z 6371000) * rv C) <= 20100000) by (rewrite ER; absb Et; absb E3'; apply abs_le; lra).
    destruct (mul64 _ C OR O3 ltac:(lra)) as [O4 E4]. pose proof (mul64_eq _ C OR O3 ltac:(lra)) as E4e.
    set (D := f64_mul (f64_of_Z 6371000) C) in *.
    assert (E4' : Rabs (rv D - rv (f64_of_Z 6371000) * rv C) <= / 100000) by (unfold e64, tiny in E4; lra). clear E4.
    assert (P4 : 0 <= rv D) by (rewrite E4e; apply rnd64_nonneg; rewrite ER; lra). clear E4e. rewrite ER in *.
    assert (B5 : Rabs (rv D) <= 20200000) by (absb B4; absb E4'; apply abs_le; lra).
    destruct (of64 D O4 ltac:(lra)) as [O5 E5]. set (d := f32_of_f64 D) in *. split; [exact O5|].
    pose proof (rnd32_near (rv D)) as N. rewrite <- E5 in N.
    assert (N' : Rabs (rv d - rv D) <= 13 / 10) by (unfold e32, tiny in N; lra). clear N.
    split.
    { split; [rewrite E5; now apply rnd32_nonneg|]. absb B5. absb N'. lra. }
    assert (L : Rabs (rv d / (2 * 6371000) - t) <= 12 / 100000000).
    { absb N'. absb E4'. absb E3'. absb Et. apply abs_le. lra. }
    assert (S : Rabs (sin (rv d / (2 * 6371000)) - sin t) <= 12 / 100000000) by (eapply Rle_trans; [apply sin_lip|exact L]).
    pose proof (sin_abs (rv d / (2 * 6371000))) as A1. pose proof (sin_abs t) as A2.
    pose proof (sq_lip (sin (rv d / (2 * 6371000))) (sin t) (12 / 100000000) ltac:(lra) A2 ltac:(lra) S) as Q.
    unfold Rsqr in *. absb Q. absb Nt. apply abs_le. lra.
  Qed.
End Near.
