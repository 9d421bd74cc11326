(** C81: the geographic distance. *)
From Coq Require Import ZArith Reals Psatz.
From Flocq Require Import Core.Core IEEE754.BinarySingleNaN.
From Verif Require Import Base F32 F32Real F32Norm F32Err PQ Graph Search SearchKnn Distancer DistancerProofs Persist Geo GeoReal GeoProofs.
Local Open Scope R_scope.

(** The distance is defined for two coordinates each, and it does not depend on the order
    of the points: the theorems about the index that ask for a symmetric distance apply. *)
Theorem C81_symmetric : forall fsin fcos fatan2, (forall x, fsin (SFopp x) = SFopp (fsin x)) ->
  prov_sym (geo_provider fsin fcos fatan2) /\
  forall a b, (geo_dist fsin fcos fatan2 a b = None <-> ~ (length a = 2%nat /\ length b = 2%nat)).
Proof.
  intros fsin fcos fatan2 H. split.
  - intros a b. cbn [p_single p_query geo_provider]. now apply geo_dist_sym.
  - intros a b. destruct a as [|x [|y [|? ?]]], b as [|x' [|y' [|? ?]]]; cbn; split; intros; try reflexivity; try discriminate;
      try (now intros [? ?]). exfalso; auto.
Qed.
Print Assumptions C81_symmetric.

Definition coordinates (lat lon : f32) : Prop :=
  f32_valid lat /\ is_finite_b lat = true /\ f32_valid lon /\ is_finite_b lon = true /\ Rabs (rv lat) <= 90 /\ Rabs (rv lon) <= 180.

Lemma cos89 x : Rabs x <= 89 -> 1 / 1000 <= cos (rad x).
Proof.
  intros H. pose proof PI_bound as PB.
  assert (E : cos (rad x) = cos (rad (Rabs x))).
  { unfold Rabs. destruct (Rcase_abs x); [|reflexivity]. rewrite <- cos_neg. f_equal. unfold rad. field. }
  rewrite E. pose proof (Rabs_pos x). set (y := Rabs x) in *.
  assert (B : 0 <= rad y <= PI / 2 - 1 / 100).
  { unfold rad. split; [apply Rmult_le_pos; [apply Rmult_le_pos; lra|lra]|].
    assert (y * PI <= 89 * PI) by (apply Rmult_le_compat_r; lra). lra. }
  rewrite <- sin_shift. apply Rle_trans with (sin (1 / 100)).
  - destruct (pre_sin_bound (1 / 100) 0) as [L _]; [lra|lra|]. eapply Rle_trans; [|exact L].
    unfold sin_approx, sin_term. cbn [sum_f_R0 Nat.mul Nat.add]. rewrite ?INR_fact. change (INR (Factorial.fact 0)) with 1.
    rewrite !INR_IZR_INZ. cbn [Z.of_nat Pos.of_succ_nat Pos.succ]. simpl pow. lra.
  - apply sin_incr_1; lra.
Qed.

(** The distance is that of a sphere of radius 6371 km: the square of the sine of half the
    angle is a quarter of the squared chord, within 3e-6. Missing: points close to
    antipodal ones, where it fails (below), and two close points at a pole. *)
Theorem C81_distance_partial : forall fsin fcos fatan2 latA lonA latB lonB, trig_ok fsin fcos fatan2 ->
  coordinates latA lonA -> coordinates latB lonB ->
  let h := chord2 (rv latA) (rv lonA) (rv latB) (rv lonB) / 4 in
  h <= 1 - 2 / 1000000 ->
  2 / 1000000 <= h \/ (Rabs (rv latA) <= 89 /\ Rabs (rv latB) <= 89) ->
  exists d, geo_dist fsin fcos fatan2 [latA; lonA] [latB; lonB] = Some d /\
    is_finite_b d = true /\ 0 <= rv d <= 21000000 /\ Rabs ((sin (rv d / (2 * 6371000)))² - h) <= 3 / 1000000.
Proof.
  intros fsin fcos fatan2 latA lonA latB lonB T (VA & FA & VlA & FlA & BA & BlA) (VB & FB & VlB & FlB & BB & BlB) h Hh Hc.
  rewrite fin_b in *.
  destruct (geo_A_near fsin fcos fatan2 T latA lonA latB lonB) as (OA & EA & PA); try (now split); try assumption.
  set (A := geo_A fsin fcos latA lonA latB lonB) in *. rewrite hav_chord in EA. fold h in EA.
  assert (P : 0 <= rv A).
  { destruct Hc as [Hc|[Ha Hb]]; [absb EA; lra|].
    destruct (cos_rad_near fsin fcos fatan2 T latA (conj VA FA) BA) as [_ Ea].
    destruct (cos_rad_near fsin fcos fatan2 T latB (conj VB FB) BB) as [_ Eb].
    pose proof (cos89 _ Ha). pose proof (cos89 _ Hb). absb Ea. absb Eb. apply PA; lra. }
  assert (Q : rv A <= 1) by (absb EA; lra).
  destruct (geo_finish_near fsin fcos fatan2 T A OA (conj P Q)) as ((Vd & Fd) & Bd & Ed).
  exists (geo_finish fatan2 A). split; [reflexivity|]. rewrite fin_b. split; [exact Fd|]. split; [exact Bd|].
  absb EA. absb Ed. apply abs_le. lra.
Qed.
Print Assumptions C81_distance_partial.

(** The distance of a point to itself is 0. *)
Theorem C81_self : forall fsin fcos fatan2 lat lon, trig_ok fsin fcos fatan2 -> coordinates lat lon ->
  fsin (S754_zero false) = S754_zero false -> fatan2 (S754_zero false) (f64_of_Z 1) = S754_zero false ->
  geo_dist fsin fcos fatan2 [lat; lon] [lat; lon] = Some f32_zero.
Proof.
  intros fsin fcos fatan2 lat lon T (VA & FA & VlA & FlA & BA & BlA) H0 H1. cbn [geo_dist]. do 2 f_equal.
  assert (FA' : is_finite lat = true) by (destruct lat; try discriminate; reflexivity).
  assert (Fl' : is_finite lon = true) by (destruct lon; try discriminate; reflexivity).
  rewrite fin_b in *.
  assert (D : forall x, is_finite x = true -> f64_div (geo_delta x x) (f64_of_Z 2) = S754_zero false).
  { intros x Hx. unfold geo_delta. rewrite sub_self by exact Hx. vm_compute. reflexivity. }
  assert (EA : geo_A fsin fcos lat lon lat lon = S754_zero false).
  { unfold geo_A. cbv zeta. rewrite !D, !H0 by assumption.
    destruct (cos_rad_near fsin fcos fatan2 T lat (conj VA FA) BA) as [Oc Ec]. set (c := fcos (geo_rad lat)) in *.
    assert (Bc : Rabs (rv c) <= 2) by (pose proof (cos_abs (rad (rv lat))) as C; absb C; absb Ec; apply abs_le; lra).
    destruct (mul64 c c Oc Oc) as [[_ Fm] _].
    { rewrite Rabs_mult. pose proof (Rabs_pos (rv c)). nra. }
    destruct (f64_mul c c) as [s|s| |s m e]; try discriminate; destruct s; reflexivity. }
  rewrite EA. unfold geo_finish. cbv zeta. replace (f64_sqrt (f64_sub (f64_of_Z 1) (S754_zero false))) with (f64_of_Z 1) by (vm_compute; reflexivity).
  change (f64_sqrt (S754_zero false)) with (S754_zero false). rewrite H1. vm_compute. reflexivity.
Qed.
Print Assumptions C81_self.

(** Functions with these properties. *)
Definition near64 (v : R) (z : bool) : f64 :=
  match ZnearestE (Rabs v * 1152921504606846976) with
  | Zpos m => binary_round prec64 emax64 (Rlt_bool v 0) m (-60)
  | _ => S754_zero z
  end.
Definition wsin (x : f64) : f64 := match x with S754_nan => S754_nan | _ => near64 (sin (rv x)) (sign_SF x) end.
Definition wcos (x : f64) : f64 := near64 (cos (rv x)) false.
Definition wangle (y x : R) : R := if Req_EM_T x 0 then PI / 2 else atan (y / x).
Definition watan2 (y x : f64) : f64 := match x with S754_nan => S754_nan | _ => near64 (wangle (rv y) (rv x)) false end.

Lemma near64_ok v z : Rabs v <= 16 / 10 ->
  f64_valid (near64 v z) /\ fin (near64 v z) /\ Rabs (rv (near64 v z) - v) <= / 4503599627370496 /\ (0 <= v -> 0 <= rv (near64 v z)).
Proof.
  intros H. unfold near64. pose proof (Znearest_half (fun t => negb (Z.even t)) (Rabs v * 1152921504606846976)) as N.
  change (Znearest _ _) with (ZnearestE (Rabs v * 1152921504606846976)) in N.
  pose proof (Rabs_pos v) as P. absb N.
  destruct (ZnearestE (Rabs v * 1152921504606846976)) as [|m|m].
  - split; [reflexivity|]. split; [reflexivity|]. split; [|intros; apply Rle_refl]. unfold rv. simpl SF2R. rewrite Rminus_0_l, Rabs_Ropp. lra.
  - set (s := Rlt_bool v 0).
    assert (Hr : Rabs (F2R (Float radix2 (cond_Zopp s (Zpos m)) (-60)) - v) <= / 1000000000000000000 /\ (0 <= v -> 0 <= F2R (Float radix2 (cond_Zopp s (Zpos m)) (-60)))).
    { unfold s. unfold F2R. cbn [Fnum Fexp]. replace (pow2 (-60)) with (/ 1152921504606846976) by reflexivity.
      pose proof (IZR_lt 0 (Zpos m) eq_refl). case Rlt_bool_spec; intros L; cbn [cond_Zopp].
      - rewrite Rabs_left in N by exact L. change (IZR (- Z.pos m)) with (IZR (Zneg m)). rewrite <- Pos2Z.opp_pos, opp_IZR. split; [apply abs_le; lra|lra].
      - rewrite Rabs_pos_eq in N by exact L. split; [apply abs_le; lra|intros; lra]. }
    destruct Hr as [Hr Hp]. destruct (round_real prec64 emax64 _ _ s m (-60)) as [V [(S & F & E)|(S & _)]].
    + split; [exact V|]. split; [exact F|]. unfold rv. rewrite E. split; [|intros; now apply rnd64_nonneg, Hp].
      set (r := F2R _) in *. pose proof (rnd64_near r) as M.
      assert (Rabs r <= 1601 / 1000) by (absb H; absb Hr; apply abs_le; lra).
      replace (rnd64 r - v) with ((rnd64 r - r) + (r - v)) by ring. eapply Rle_trans; [apply Rabs_triang|].
      unfold e64, tiny in M. lra.
    + exfalso. apply S. apply small64. set (r := F2R _) in *. absb H; absb Hr; apply abs_le; lra.
  - exfalso. pose proof (IZR_lt (Zneg m) 0 eq_refl).
    assert (IZR (Zneg m) <= -1) by (apply IZR_le; lia). lra.
Qed.
Lemma near64_odd v z : near64 (- v) (negb z) = SFopp (near64 v z).
Proof.
  unfold near64. rewrite Rabs_Ropp.
  pose proof (Znearest_half (fun t => negb (Z.even t)) (Rabs v * 1152921504606846976)) as N.
  change (Znearest _ _) with (ZnearestE (Rabs v * 1152921504606846976)) in N.
  destruct (ZnearestE (Rabs v * 1152921504606846976)) as [|m|m]; try reflexivity.
  assert (v <> 0). { intros ->. rewrite Rabs_R0, Rmult_0_l in N. absb N. assert (1 <= IZR (Zpos m)) by (apply IZR_le; lia). lra. }
  replace (Rlt_bool (- v) 0) with (negb (Rlt_bool v 0)).
  - apply round_neg.
  - case (Rlt_bool_spec v 0); intros; case (Rlt_bool_spec (- v) 0); intros; try reflexivity; exfalso; lra.
Qed.
Lemma wangle_ok y x : 0 <= y -> 0 <= x -> 0 < y + x ->
  0 <= wangle y x <= PI / 2 /\ y = sqrt (y * y + x * x) * sin (wangle y x) /\ x = sqrt (y * y + x * x) * cos (wangle y x).
Proof.
  intros Hy Hx Hp. unfold wangle. pose proof PI_bound. destruct (Req_EM_T x 0) as [->|Nx].
  - rewrite sin_PI2, cos_PI2. replace (y * y + 0 * 0) with (y * y) by ring. rewrite sqrt_square by exact Hy. split; [lra|]. split; ring.
  - assert (Px : 0 < x) by lra. set (q := y / x). assert (Hq : 0 <= q) by (apply Rmult_le_pos; [exact Hy|left; now apply Rinv_0_lt_compat]).
    assert (Eq : y = q * x) by (unfold q; field; lra).
    pose proof (atan_bound q) as AB. split.
    { split; [|lra]. destruct (Req_dec q 0) as [->|]; [rewrite atan_0; lra|]. rewrite <- atan_0. left. apply atan_increasing. lra. }
    rewrite sin_atan, cos_atan. rewrite Eq.
    replace (q * x * (q * x) + x * x) with (x² * (1 + q²)) by (unfold Rsqr; ring).
    rewrite sqrt_mult, sqrt_Rsqr by (try (unfold Rsqr; nra); lra).
    assert (0 < sqrt (1 + q²)) by (apply sqrt_lt_R0; unfold Rsqr; nra). split; field; lra.
Qed.
Lemma trig_witness : trig_ok wsin wcos watan2.
Proof.
  pose proof PI_bound as PB. split.
  - intros x. assert (E : sin (rv (SFopp x)) = - sin (rv x)).
    { rewrite <- sin_neg. f_equal. destruct x as [s|s| |s m e]; unfold rv; cbn [SFopp SF2R]; try lra.
      unfold F2R. cbn [Fnum Fexp]. destruct s; cbn [negb cond_Zopp]; rewrite <- ?Pos2Z.opp_pos, ?opp_IZR; cbn; lra. }
    unfold wsin. destruct x as [s|s| |s m e]; try reflexivity; cbn [SFopp] in *; rewrite E; cbn [sign_SF]; apply near64_odd.
  - intros x V F B. assert (near64 (sin (rv x)) (sign_SF x) = wsin x) by (destruct x; try discriminate; reflexivity). rewrite <- H.
    destruct (near64_ok (sin (rv x)) (sign_SF x)) as (H1 & H2 & H3 & _); [pose proof (sin_abs (rv x)); lra|]. auto.
  - intros x V F B. unfold wcos. destruct (near64_ok (cos (rv x)) false) as (H1 & H2 & H3 & _); [pose proof (cos_abs (rv x)); lra|]. auto.
  - intros y x Vy Fy Vx Fx Py Px Hp. assert (E : watan2 y x = near64 (wangle (rv y) (rv x)) false) by (destruct x; try discriminate; reflexivity).
    rewrite E. destruct (wangle_ok _ _ Py Px Hp) as (B & S & C).
    destruct (near64_ok (wangle (rv y) (rv x)) false) as (H1 & H2 & H3 & H4); [apply abs_le; lra|].
    split; [exact H1|]. split; [exact H2|]. split; [apply H4; lra|]. exists (wangle (rv y) (rv x)). auto.
  - reflexivity.
Qed.

Lemma near_PI2 e : Rabs e <= / 1000000000 -> 1 - / 1000000000000000000 <= sin (PI / 2 - e).
Proof.
  intros H. rewrite sin_shift. pose proof (half_angle e) as E. pose proof (sin_le_abs (e / 2)) as S.
  assert (A : Rabs (e / 2) <= / 2000000000) by (absb H; apply abs_le; lra).
  assert ((sin (e / 2))² <= / 2000000000 * / 2000000000).
  { rewrite <- (Rsqr_abs (sin (e / 2))) || rewrite (Rsqr_abs (sin (e / 2))). unfold Rsqr. apply Rmult_le_compat; try apply Rabs_pos; lra. }
  lra.
Qed.
Lemma sin_tiny e : 435 / 10000000000 <= e <= 4455 / 100000000000 -> 434 / 10000000000 <= sin e.
Proof.
  intros H. destruct (pre_sin_bound e 0) as [L _]; [lra|lra|]. eapply Rle_trans; [|exact L].
  unfold sin_approx, sin_term. cbn [sum_f_R0 Nat.mul Nat.add]. rewrite ?INR_fact. change (INR (Factorial.fact 0)) with 1.
  rewrite !INR_IZR_INZ. cbn [Z.of_nat Pos.of_succ_nat Pos.succ]. simpl pow.
  assert (0 <= e * e <= / 10000000000) by (split; nra). assert (e * (e * e) <= / 100000000000000000) by nra. lra.
Qed.

Lemma mul_low x y a b : ok64 x -> ok64 y -> 0 <= a -> 0 <= b -> a <= rv x -> b <= rv y -> rv x <= 2 -> rv y <= 2 ->
  ok64 (f64_mul x y) /\ a * b * (1 - e64) - tiny <= rv (f64_mul x y) <= rv x * rv y * (1 + e64) + tiny.
Proof.
  intros Ox Oy Pa Pb Ha Hb Bx By.
  assert (H : 0 <= rv x * rv y <= 4) by nra.
  destruct (mul64 x y Ox Oy) as [O E]; [rewrite Rabs_pos_eq; lra|]. split; [exact O|].
  rewrite (Rabs_pos_eq (rv x * rv y)) in E by lra. absb E.
  assert (a * b <= rv x * rv y) by (apply Rmult_le_compat; lra). unfold e64, tiny in *. split; nra.
Qed.
Lemma rv_opp x : rv (SFopp x) = - rv x.
Proof.
  destruct x as [s|s| |s m e]; unfold rv; cbn [SFopp SF2R]; try lra.
  unfold F2R. cbn [Fnum Fexp]. destruct s; cbn [negb cond_Zopp]; rewrite <- ?Pos2Z.opp_pos, ?opp_IZR; cbn; lra.
Qed.
Lemma ok_opp x : ok64 x -> ok64 (SFopp x).
Proof. destruct x; intros [V F]; split; assumption. Qed.

Lemma sq_neg_l x y : f64_mul (SFopp x) (SFopp y) = f64_mul x y.
Proof.
  rewrite mul_neg, mul_comm64, mul_neg, mul_comm64. destruct (f64_mul x y) as [s|s| |s m e]; cbn; now rewrite ?negb_involutive.
Qed.
Lemma int_ok z : f32_valid (f32_of_Z z) -> is_finite_SF (f32_of_Z z) = true -> rv (f32_of_Z z) = IZR z -> (-90 <= z <= 90)%Z ->
  forall y, f32_valid (f32_of_Z y) -> is_finite_SF (f32_of_Z y) = true -> rv (f32_of_Z y) = IZR y -> (-180 <= y <= 180)%Z ->
  coordinates (f32_of_Z z) (f32_of_Z y).
Proof.
  intros V F E B y V' F' E' B'. unfold coordinates. rewrite !fin_b, E, E'. repeat split; auto; apply abs_le; rewrite <- ?opp_IZR; split; apply IZR_le; lia.
Qed.
Ltac intval z := let v := eval vm_compute in (f32_of_Z z) in
  replace (f32_of_Z z) with v by (vm_compute; reflexivity); unfold rv, SF2R, F2R; cbn; lra.
Lemma north_ok : coordinates (f32_of_Z 90) (f32_of_Z 0).
Proof. apply int_ok; try lia; try (vm_compute; reflexivity); first [intval 90%Z|intval 0%Z]. Qed.
Lemma south_ok : coordinates (f32_of_Z (-90)) (f32_of_Z 180).
Proof. apply int_ok; try lia; try (vm_compute; reflexivity); first [intval (-90)%Z|intval 180%Z]. Qed.

Lemma poles_A fsin fcos fatan2 : trig_ok fsin fcos fatan2 ->
  let A := geo_A fsin fcos (f32_of_Z 90) (f32_of_Z 0) (f32_of_Z (-90)) (f32_of_Z 180) in
  ok64 A /\ 1 + / 1000000000000000 <= rv A <= 2.
Proof.
  intros T. cbv zeta. unfold geo_A. cbv zeta. pose proof PI_bound as PB.
  set (h := S754_finite false 7074237752028440 (-52) : f64).
  set (w := S754_finite false 7074237948887040 (-52) : f64).
  replace (geo_rad (f32_of_Z 90)) with w by (vm_compute; reflexivity).
  replace (geo_rad (f32_of_Z (-90))) with (SFopp w) by (vm_compute; reflexivity).
  replace (f64_div (geo_delta (f32_of_Z 90) (f32_of_Z (-90))) (f64_of_Z 2)) with (SFopp h) by (vm_compute; reflexivity).
  replace (f64_div (geo_delta (f32_of_Z 0) (f32_of_Z 180)) (f64_of_Z 2)) with h by (vm_compute; reflexivity).
  rewrite (t_odd _ _ _ T), sq_neg.
  assert (Eh : rv h = 7074237752028440 / 4503599627370496) by (unfold rv, h, SF2R, F2R; cbn; lra).
  assert (Ew : rv w = 7074237948887040 / 4503599627370496) by (unfold rv, w, SF2R, F2R; cbn; lra).
  assert (Oh : ok64 h) by (split; reflexivity). assert (Ow : ok64 w) by (split; reflexivity).
  assert (Bh : Rabs (rv h) <= 4) by (apply abs_le; lra). assert (Bw : Rabs (rv w) <= 4) by (apply abs_le; lra).
  assert (Z : forall x, Rabs (x - x) <= 0) by (intros x; apply abs_le; lra).
  destruct (sin_near fsin fcos fatan2 T h (rv h) Oh Bh 0 (Z _)) as [Os Es].
  destruct (cos_near fsin fcos fatan2 T w (rv w) Ow Bw 0 (Z _)) as [Oc Ec].
  destruct (t_cos _ _ _ T (SFopp w)) as (Vd & Fd & Ed); [reflexivity|reflexivity|rewrite rv_opp; apply abs_le; lra|].
  rewrite rv_opp, cos_neg in Ed.
  assert (S : 1 - / 1000000000000000000 <= sin (rv h) <= 1).
  { split; [|apply SIN_bound]. replace (rv h) with (PI / 2 - (PI / 2 - rv h)) by ring. apply near_PI2. apply abs_le. lra. }
  assert (C : 434 / 10000000000 <= - cos (rv w) <= 4455 / 100000000000).
  { replace (- cos (rv w)) with (sin (rv w - PI / 2)).
    - split; [apply sin_tiny; lra|]. eapply Rle_trans; [apply Rle_abs|]. eapply Rle_trans; [apply sin_le_abs|]. apply abs_le. lra.
    - rewrite <- sin_shift. rewrite <- sin_neg. f_equal. ring. }
  unfold e52 in *. absb Es. absb Ec. absb Ed.
  set (so := fsin h) in *. set (ca := fcos w) in *. set (cb := fcos (SFopp w)) in *.
  assert (Bs : 1 - 224 / 1000000000000000000 <= rv so <= 1 + 224 / 1000000000000000000) by lra.
  assert (Ba : 433 / 10000000000 <= - rv ca <= 446 / 10000000000) by lra.
  assert (Bb : 433 / 10000000000 <= - rv cb <= 446 / 10000000000) by lra.
  clear Es Ec Ed S C.
  destruct (mul_low so so (1 - 224 / 1000000000000000000) (1 - 224 / 1000000000000000000) Os Os) as [Op Ep]; try lra.
  rewrite <- (sq_neg_l ca cb).
  assert (Oa' : ok64 (SFopp ca)) by now apply ok_opp. assert (Ob' : ok64 (SFopp cb)) by (apply ok_opp; now split).
  destruct (mul_low (SFopp ca) (SFopp cb) (433 / 10000000000) (433 / 10000000000) Oa' Ob') as [Oq Eq]; try (rewrite ?rv_opp; lra).
  rewrite !rv_opp in Eq. set (p := f64_mul so so) in *. set (q := f64_mul (SFopp ca) (SFopp cb)) in *.
  assert (U : - rv ca * - rv cb <= 446 / 10000000000 * (446 / 10000000000)) by (apply Rmult_le_compat; lra).
  assert (U' : rv so * rv so <= (1 + 224 / 1000000000000000000) * (1 + 224 / 1000000000000000000)) by (apply Rmult_le_compat; lra).
  unfold e64, tiny in *.
  assert (Bp : 1 - 57 / 100000000000000000 <= rv p <= 11 / 10) by lra.
  assert (Bq : 187 / 100000000000000000 <= rv q <= 2 / 1000000000000000) by lra.
  clear Ep Eq U U'.
  destruct (mul_low q so (187 / 100000000000000000) (1 - 224 / 1000000000000000000) Oq Os) as [O3 E3]; try lra.
  set (q2 := f64_mul q so) in *.
  assert (U : rv q * rv so <= 2 / 1000000000000000 * (1 + 224 / 1000000000000000000)) by (apply Rmult_le_compat; lra).
  unfold e64, tiny in *.
  assert (B2 : 186 / 100000000000000000 <= rv q2 <= 3 / 1000000000000000) by lra. clear E3 U.
  destruct (mul_low q2 so (186 / 100000000000000000) (1 - 224 / 1000000000000000000) O3 Os) as [O4 E4]; try lra.
  set (q3 := f64_mul q2 so) in *.
  assert (U : rv q2 * rv so <= 3 / 1000000000000000 * (1 + 224 / 1000000000000000000)) by (apply Rmult_le_compat; lra).
  unfold e64, tiny in *.
  assert (B3 : 185 / 100000000000000000 <= rv q3 <= 4 / 1000000000000000) by lra. clear E4 U.
  destruct (add64 p q3 Op O4 ltac:(apply abs_le; lra)) as [O5 E5]. split; [exact O5|].
  rewrite (Rabs_pos_eq (rv p + rv q3)) in E5 by lra. unfold e64, tiny in E5. absb E5. lra.
Qed.

Lemma sqrt_neg x : ok64 x -> rv x < 0 -> f64_sqrt x = S754_nan.
Proof.
  intros [V F] H. destruct x as [s|s| |s m e]; try discriminate; unfold rv in H; cbn [SF2R] in H; [lra|].
  destruct s; [reflexivity|]. exfalso. assert (0 < F2R (Float radix2 (Zpos m) e)) by now apply F2R_gt_0. cbn [cond_Zopp] in H. lra.
Qed.

(** From the north pole, given as latitude 90 and longitude 0, to the south pole, given as
    latitude -90 and longitude 180, the distance is not a number, whatever sine, cosine and
    arc tangent are used: the latitudes in radians are rounded to float32, so that the
    cosine of 90 degrees is -4e-8 and A is 1 + 2e-15. *)
Theorem C81_poles_refuted : exists latA lonA latB lonB, coordinates latA lonA /\ coordinates latB lonB /\
  (exists fsin fcos fatan2, trig_ok fsin fcos fatan2) /\
  forall fsin fcos fatan2, trig_ok fsin fcos fatan2 ->
    geo_dist fsin fcos fatan2 [latA; lonA] [latB; lonB] = Some S754_nan.
Proof.
  exists (f32_of_Z 90), (f32_of_Z 0), (f32_of_Z (-90)), (f32_of_Z 180). split; [|split; [|split]].
  - exact north_ok.
  - exact south_ok.
  - exists wsin, wcos, watan2. exact trig_witness.
  - intros fsin fcos fatan2 T. cbn [geo_dist]. f_equal. destruct (poles_A _ _ _ T) as [O B].
    set (A := geo_A _ _ _ _ _ _) in *. unfold geo_finish. cbv zeta. destruct n1_64 as [O1 E1].
    destruct (sub64 _ A O1 O) as [Os Es]; [rewrite E1; apply abs_le; lra|]. rewrite E1 in Es.
    rewrite (sqrt_neg (f64_sub (f64_of_Z 1) A) Os).
    + rewrite (t_nan _ _ _ T). reflexivity.
    + rewrite Es. pose proof (rnd64_near (1 - rv A)) as N. rewrite (Rabs_left (1 - rv A)) in N by lra.
      unfold e64, tiny in N. absb N. lra.
Qed.
Print Assumptions C81_poles_refuted.

(** A point of the equator in the Atlantic and one in the Indian Ocean, a quarter of a
    great circle apart, meet the hypotheses of the theorem. *)
Example C81_nonvacuous : trig_ok wsin wcos watan2 /\
  coordinates (f32_of_Z 0) (f32_of_Z 0) /\ coordinates (f32_of_Z 0) (f32_of_Z 90) /\
  Rabs (rv (f32_of_Z 0)) <= 89 /\
  chord2 (rv (f32_of_Z 0)) (rv (f32_of_Z 0)) (rv (f32_of_Z 0)) (rv (f32_of_Z 90)) / 4 = 1 / 2 /\
  wsin (S754_zero false) = S754_zero false /\ watan2 (S754_zero false) (f64_of_Z 1) = S754_zero false.
Proof.
  assert (E0 : rv (f32_of_Z 0) = 0) by reflexivity. assert (E9 : rv (f32_of_Z 90) = 90) by intval 90%Z.
  split; [exact trig_witness|]. split; [apply int_ok; try lia; try (vm_compute; reflexivity)|].
  split; [apply int_ok; try lia; try (vm_compute; reflexivity); exact E9|]. rewrite E0, E9. split; [rewrite Rabs_R0; lra|]. split.
  - unfold chord2. cbv zeta. replace (rad 0) with 0 by (unfold rad; field). replace (rad 90) with (PI / 2) by (unfold rad; field).
    rewrite cos_0, sin_0, cos_PI2, sin_PI2. unfold Rsqr. lra.
  - assert (N : forall z, near64 0 z = S754_zero z) by (intros z; unfold near64; rewrite Rabs_R0, Rmult_0_l, (Zrnd_IZR ZnearestE 0); reflexivity).
    destruct n1_64 as [_ E1]. split.
    + unfold wsin. replace (rv (S754_zero false)) with 0 by reflexivity. rewrite sin_0. apply N.
    + replace (watan2 (S754_zero false) (f64_of_Z 1)) with (near64 (wangle (rv (S754_zero false)) (rv (f64_of_Z 1))) false) by reflexivity.
      rewrite E1. replace (rv (S754_zero false)) with 0 by reflexivity. unfold wangle. destruct (Req_EM_T 1 0) as [H|_]; [lra|].
      replace (0 / 1) with 0 by field. rewrite atan_0. apply N.
Qed.
Print Assumptions C81_nonvacuous.
