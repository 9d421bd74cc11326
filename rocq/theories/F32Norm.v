(** Normalisation of finite vectors gives finite vectors. *)
From Coq Require Import ZArith Reals Psatz.
From Flocq Require Import Core.Core IEEE754.BinarySingleNaN.
From Verif Require Import Base F32 F32Real PQ Graph Search Distancer Persist.
Local Open Scope R_scope.

(** A float32 value: mantissa and exponent are those of the binary32 format. *)
Definition f32_valid (x : f32) : Prop := SpecFloat.valid_binary prec32 emax32 x = true.
Definition f64_valid (x : f64) : Prop := SpecFloat.valid_binary prec64 emax64 x = true.
(** The real number of a finite float. *)
Definition rv (x : f32) : R := SF2R radix2 x.

Notation fin x := (is_finite_SF x = true).
Notation rnd32 := (Generic_fmt.round radix2 (SpecFloat.fexp prec32 emax32) ZnearestE).
Notation rnd64 := (Generic_fmt.round radix2 (SpecFloat.fexp prec64 emax64) ZnearestE).
Notation pow2 := (bpow radix2).

#[global] Instance p32 : Prec_gt_0 prec32 := eq_refl _.
#[global] Instance m32 : Prec_lt_emax prec32 emax32 := eq_refl _.
#[global] Instance p64 : Prec_gt_0 prec64 := eq_refl _.
#[global] Instance m64 : Prec_lt_emax prec64 emax64 := eq_refl _.
#[global] Instance fe32 : Valid_exp (SpecFloat.fexp prec32 emax32) := FLT_exp_valid (-149) 24.
#[global] Instance fe64 : Valid_exp (SpecFloat.fexp prec64 emax64) := FLT_exp_valid (-1074) 53.
#[global] Instance mo32 : Monotone_exp (SpecFloat.fexp prec32 emax32) := FLT_exp_monotone (-149) 24.
#[global] Instance mo64 : Monotone_exp (SpecFloat.fexp prec64 emax64) := FLT_exp_monotone (-1074) 53.

Lemma fin_b x : is_finite_b x = is_finite_SF x.
Proof. now destruct x. Qed.

Lemma rnd32_mono x y : x <= y -> rnd32 x <= rnd32 y.
Proof. apply round_le; auto with typeclass_instances. Qed.
Lemma rnd64_mono x y : x <= y -> rnd64 x <= rnd64 y.
Proof. apply round_le; auto with typeclass_instances. Qed.
Lemma rnd32_0 : rnd32 0 = 0.
Proof. apply round_0; auto with typeclass_instances. Qed.
Lemma rnd64_0 : rnd64 0 = 0.
Proof. apply round_0; auto with typeclass_instances. Qed.
Lemma rnd32_pow e : (-149 <= e)%Z -> rnd32 (pow2 e) = pow2 e.
Proof.
  intros H. apply round_generic; auto with typeclass_instances. apply generic_format_bpow.
  unfold SpecFloat.fexp, SpecFloat.emin, prec32, emax32. lia.
Qed.
Lemma rnd64_pow e : (-1074 <= e)%Z -> rnd64 (pow2 e) = pow2 e.
Proof.
  intros H. apply round_generic; auto with typeclass_instances. apply generic_format_bpow.
  unfold SpecFloat.fexp, SpecFloat.emin, prec64, emax64. lia.
Qed.
Lemma rnd32_id x : f32_valid x -> rnd32 (rv x) = rv x.
Proof. intros V. apply round_generic; auto with typeclass_instances. now apply (valid_format prec32 emax32). Qed.
Lemma rnd32_abs_le x e : (-149 <= e)%Z -> Rabs x <= pow2 e -> Rabs (rnd32 x) <= pow2 e.
Proof.
  intros He H. apply Rabs_le_inv in H. apply Rabs_le. split.
  - rewrite <- (rnd32_pow e He), <- round_NE_opp. apply rnd32_mono. lra.
  - rewrite <- (rnd32_pow e He). apply rnd32_mono. lra.
Qed.
Lemma rv_32_64 x : f32_valid x -> rnd64 (rv x) = rv x.
Proof.
  intros V. apply round_generic; auto with typeclass_instances.
  apply generic_inclusion_mag with (SpecFloat.fexp prec32 emax32).
  - intros _. unfold SpecFloat.fexp, SpecFloat.emin, prec32, emax32, prec64, emax64. lia.
  - now apply (valid_format prec32 emax32).
Qed.
Lemma rv_pos_min x : f32_valid x -> 0 < rv x -> pow2 (-149) <= rv x.
Proof.
  intros V H. apply generic_format_ge_bpow with (SpecFloat.fexp prec32 emax32); [|exact H|now apply (valid_format prec32 emax32)].
  intros e. unfold SpecFloat.fexp, SpecFloat.emin, prec32, emax32. lia.
Qed.

(** The conversion to float64 is exact. *)
Lemma to64 x : f32_valid x -> fin x -> f64_valid (f64_of_f32 x) /\ fin (f64_of_f32 x) /\ rv (f64_of_f32 x) = rv x.
Proof.
  intros V F. destruct x as [s|s| |s m e]; try discriminate; [now repeat split|]. cbn [f64_of_f32].
  pose proof (rv_32_64 _ V) as Hr. pose proof (valid_lt prec32 emax32 _ V) as Hl.
  destruct (round_real prec64 emax64 _ _ s m e) as [V' [(S & F' & E)|[S _]]].
  - split; [exact V'|]. split; [exact F'|]. unfold rv. rewrite E. exact Hr.
  - exfalso. apply S. unfold rv in Hr. cbn [SF2R] in *. rewrite Hr.
    eapply Rlt_trans; [exact Hl|]. apply bpow_lt. reflexivity.
Qed.

(** [sqrt32] of a finite number that is not negative. *)
Lemma sqrt32_real x : f32_valid x -> fin x -> 0 <= rv x ->
  f32_valid (sqrt32 x) /\ fin (sqrt32 x) /\ rv (sqrt32 x) = rnd32 (rnd64 (sqrt (rv x))).
Proof.
  intros V F P. unfold sqrt32. destruct (to64 x V F) as (V1 & F1 & E1). rewrite <- E1 in P.
  destruct (sqrt_real prec64 emax64 _ _ _ V1 F1 P) as (V2 & F2 & E2).
  change (SF2R radix2 (f64_of_f32 x)) with (rv (f64_of_f32 x)) in E2. rewrite E1 in E2, P.
  assert (Hb : 0 <= rnd64 (sqrt (rv x)) <= pow2 64).
  { split.
    - rewrite <- rnd64_0. apply rnd64_mono, sqrt_pos.
    - rewrite <- (rnd64_pow 64) by lia. apply rnd64_mono. replace (pow2 64) with (sqrt (pow2 128)).
      + apply sqrt_le_1_alt. pose proof (valid_lt prec32 emax32 _ V) as Hl. apply Rabs_lt_inv in Hl. unfold rv.
        change emax32 with 128%Z in Hl. lra.
      + change 128%Z with (64 + 64)%Z. rewrite bpow_plus. apply sqrt_square. apply bpow_ge_0. }
  set (z := SFsqrt prec64 emax64 (f64_of_f32 x)) in *. rewrite <- E2 in *.
  destruct z as [s|s| |s m e]; try discriminate.
  - cbn [f32_of_f64 rv SF2R]. rewrite rnd32_0. now repeat split.
  - cbn [f32_of_f64]. destruct (round_real prec32 emax32 _ _ s m e) as [V' [(S & F' & E)|[S _]]].
    + split; [exact V'|]. split; [exact F'|exact E].
    + exfalso. apply S. cbn [SF2R] in Hb. eapply Rle_lt_trans.
      * apply (rnd32_abs_le _ 64); [lia|]. rewrite Rabs_pos_eq; apply Hb.
      * apply bpow_lt. reflexivity.
Qed.

(** The sum of the squares: an infinity, or finite and at least every rounded
    square. *)
Definition sumsq (v : vec) (s : f32) : f32 := fold_left (fun s x => f32_add s (f32_mul x x)) v s.

Lemma sumsq_inf v : forallb is_finite_b v = true -> Forall f32_valid v -> sumsq v (S754_infinity false) = S754_infinity false.
Proof.
  induction v as [|x v IH]; cbn [sumsq fold_left forallb]; intros F V; [reflexivity|].
  apply andb_true_iff in F. destruct F as [F1 F2]. inversion V as [|? ? V1 V2]; subst.
  rewrite fin_b in F1. destruct (mul_real prec32 emax32 _ _ x x V1 V1 F1 F1) as [_ [(_ & Fm & _)|(_ & Em)]].
  - fold (sumsq v). unfold f32_add, f32_mul. destruct (SFmul prec32 emax32 x x); try discriminate; now apply IH.
  - unfold f32_mul. rewrite Em, xorb_nilpotent. now apply IH.
Qed.

Lemma sumsq_spec v : forall s, forallb is_finite_b v = true -> Forall f32_valid v ->
  f32_valid s -> fin s -> 0 <= rv s ->
  let t := sumsq v s in f32_valid t /\
  (t = S754_infinity false \/
   (fin t /\ rv s <= rv t /\ forall x, In x v -> Rabs (rnd32 (rv x * rv x)) < pow2 128 /\ rnd32 (rv x * rv x) <= rv t)).
Proof.
  induction v as [|x v IH]; intros s F V Vs Fs Ps; cbv zeta; [split; [exact Vs|]; right; split; [exact Fs|]; split; [apply Rle_refl|now intros x []]|].
  cbn [forallb] in F. apply andb_true_iff in F. destruct F as [F1 F2]. inversion V as [|? ? V1 V2]; subst. rewrite fin_b in F1.
  cbn [sumsq fold_left]. fold (sumsq v (f32_add s (f32_mul x x))).
  assert (Hinf : f32_add s (f32_mul x x) = S754_infinity false -> f32_valid (sumsq v (f32_add s (f32_mul x x))) /\
    (sumsq v (f32_add s (f32_mul x x)) = S754_infinity false \/
     (fin (sumsq v (f32_add s (f32_mul x x))) /\ rv s <= rv (sumsq v (f32_add s (f32_mul x x))) /\
      forall y, In y (x :: v) -> Rabs (rnd32 (rv y * rv y)) < pow2 128 /\ rnd32 (rv y * rv y) <= rv (sumsq v (f32_add s (f32_mul x x)))))).
  { intros ->. rewrite (sumsq_inf v F2 V2). split; [reflexivity|now left]. }
  destruct (mul_real prec32 emax32 _ _ x x V1 V1 F1 F1) as [Vm Hm].
  change (SF2R radix2 x) with (rv x) in Hm. change (SFmul prec32 emax32 x x) with (f32_mul x x) in *.
  set (m := f32_mul x x) in *.
  destruct Hm as [(Sm & Fm & Em)|(_ & Em)].
  2:{ apply Hinf. rewrite Em, xorb_nilpotent. destruct s; try discriminate; reflexivity. }
  assert (Pm : 0 <= rv m).
  { unfold rv. rewrite Em, <- rnd32_0. apply rnd32_mono. apply Rle_0_sqr. }
  destruct (add_real prec32 emax32 _ _ s m Vs Vm Fs Fm) as [Va [(Sa & Fa & Ea)|(Sa & Ea & Eg)]];
    change (SFadd prec32 emax32 s m) with (f32_add s m) in *.
  - change (SF2R radix2 s) with (rv s) in *. change (SF2R radix2 m) with (rv m) in *.
    change (SF2R radix2 (f32_add s m)) with (rv (f32_add s m)) in *.
    assert (H1 : rv s <= rv (f32_add s m)) by (rewrite Ea, <- (rnd32_id s Vs) at 1; apply rnd32_mono; lra).
    assert (H2 : rv m <= rv (f32_add s m)) by (rewrite Ea, <- (rnd32_id m Vm) at 1; apply rnd32_mono; lra).
    destruct (IH (f32_add s m) F2 V2 Va Fa ltac:(lra)) as [It Ic]. split; [exact It|].
    destruct Ic as [E|(Ft & Le & Hin)]; [now left|]. right. split; [exact Ft|]. split; [lra|].
    intros y [<-|Hy]; [|now apply Hin]. split; [exact Sm|]. rewrite <- Em. fold (rv m). lra.
  - apply Hinf. rewrite Ea. destruct (sign_SF s) eqn:Es; [|reflexivity]. exfalso. apply Sa.
    assert (Zs : rv s = 0 /\ rv m = 0).
    { split.
      - destruct s as [b|b| |b p e]; try discriminate; [reflexivity|]. cbn in Es. subst b. exfalso.
        assert (F2R (Float radix2 (Zneg p) e) < 0) by now apply F2R_lt_0. unfold rv in Ps. cbn in Ps. lra.
      - destruct m as [b|b| |b p e]; try discriminate; [reflexivity|]. cbn in Eg. subst b. exfalso.
        assert (F2R (Float radix2 (Zneg p) e) < 0) by now apply F2R_lt_0. unfold rv in Pm. cbn in Pm. lra. }
    destruct Zs as [Z1 Z2]. unfold rv in Z1, Z2. rewrite Z1, Z2, Rplus_0_l, rnd32_0, Rabs_R0. apply bpow_gt_0.
Qed.

Lemma fin_zero x : fin x -> rv x = 0 -> exists s, x = S754_zero s.
Proof.
  intros F E. destruct x as [s|s| |s m e]; try discriminate; [now exists s|]. exfalso. unfold rv in E. cbn in E.
  apply eq_0_F2R in E. destruct s; discriminate.
Qed.

Theorem normalize_finite v : Forall f32_valid v -> forallb is_finite_b v = true ->
  forallb is_finite_b (normalize v) = true /\ Forall f32_valid (normalize v).
Proof.
  intros V F. unfold normalize. fold (sumsq v f32_zero).
  destruct (sumsq_spec v f32_zero F V eq_refl eq_refl (Rle_refl 0)) as [Vn Hn].
  set (n := sumsq v f32_zero) in *. destruct (feq n f32_zero) eqn:Ez.
  { split; [|apply Forall_forall; intros y Hy; apply in_map_iff in Hy; destruct Hy as (x & <- & _); reflexivity].
    apply forallb_forall. intros y Hy. apply in_map_iff in Hy. destruct Hy as (x & <- & _). reflexivity. }
  rewrite forallb_forall in F. rewrite Forall_forall in V.
  assert (H : forall x, In x v -> is_finite_b (f32_div x (sqrt32 n)) = true /\ f32_valid (f32_div x (sqrt32 n))).
  2:{ split; [apply forallb_forall|apply Forall_forall]; intros y Hy; apply in_map_iff in Hy;
      destruct Hy as (x & <- & Hx); now apply H. }
  intros x Hx. specialize (F x Hx). specialize (V x Hx). rewrite fin_b in *.
  destruct Hn as [->|(Fn & Pn & Hin)].
  { cbn [sqrt32 f64_of_f32 SFsqrt f32_of_f64]. destruct x; try discriminate; split; reflexivity. }
  change (rv f32_zero) with 0 in Pn. destruct (Hin x Hx) as [Hsq Hle]. clear Hin.
  assert (Pn' : 0 < rv n).
  { destruct Pn as [Pn|Pn]; [exact Pn|]. exfalso. destruct (fin_zero n Fn (eq_sym Pn)) as (s & Es). rewrite Es in Ez.
    destruct s; discriminate. }
  destruct (sqrt32_real n Vn Fn Pn) as (Vr & Fr & Er).
  assert (Hlow : forall e, (-149 <= e)%Z -> pow2 (e + e) <= rv n -> pow2 e <= rv (sqrt32 n)).
  { intros e He Hl. rewrite Er, <- (rnd32_pow e He). apply rnd32_mono. rewrite <- (rnd64_pow e) by lia. apply rnd64_mono.
    rewrite <- (sqrt_square (pow2 e)) by apply bpow_ge_0. apply sqrt_le_1_alt. rewrite <- bpow_plus. exact Hl. }
  assert (Hmin : pow2 (-75) <= rv (sqrt32 n)).
  { apply Hlow; [lia|]. eapply Rle_trans; [|apply (rv_pos_min n Vn Pn')]. apply bpow_le. lia. }
  assert (P75 : 0 < pow2 (-75)) by apply bpow_gt_0.
  assert (Hq : Rabs (rv x / rv (sqrt32 n)) <= pow2 126).
  { unfold Rdiv. rewrite Rabs_mult, (Rabs_pos_eq (/ _)) by (left; apply Rinv_0_lt_compat; lra).
    destruct (Rle_or_lt (pow2 50) (Rabs (rv x))) as [Hb|Hb].
    - assert (Hx65 : Rabs (rv x) <= pow2 65).
      { apply Rnot_lt_le. intros H65. revert Hsq. apply Rle_not_lt. rewrite Rabs_pos_eq.
        - rewrite <- (rnd32_pow 128) by lia. apply rnd32_mono.
          replace (rv x * rv x) with (Rabs (rv x) * Rabs (rv x)) by (rewrite <- Rabs_mult; apply Rabs_pos_eq, Rle_0_sqr).
          eapply Rle_trans; [apply bpow_le with (e2 := (65 + 65)%Z); lia|]. rewrite bpow_plus.
          apply Rmult_le_compat; try apply bpow_ge_0; lra.
        - rewrite <- rnd32_0. apply rnd32_mono, Rle_0_sqr. }
      assert (Hn : pow2 50 <= rv (sqrt32 n)).
      { apply Hlow; [lia|]. eapply Rle_trans; [|exact Hle]. rewrite <- (rnd32_pow (50 + 50)) by lia. apply rnd32_mono.
        replace (rv x * rv x) with (Rabs (rv x) * Rabs (rv x)) by (rewrite <- Rabs_mult; apply Rabs_pos_eq, Rle_0_sqr).
        rewrite bpow_plus. apply Rmult_le_compat; try apply bpow_ge_0; lra. }
      apply Rle_trans with (pow2 65 * / pow2 50).
      + apply Rmult_le_compat; [apply Rabs_pos|left; apply Rinv_0_lt_compat; lra|lra|].
        apply Rinv_le; [apply bpow_gt_0|exact Hn].
      + rewrite <- bpow_opp, <- bpow_plus. apply bpow_le. lia.
    - apply Rle_trans with (pow2 50 * / pow2 (-75)).
      + apply Rmult_le_compat; [apply Rabs_pos|left; apply Rinv_0_lt_compat; lra|lra|].
        apply Rinv_le; [apply bpow_gt_0|exact Hmin].
      + rewrite <- bpow_opp, <- bpow_plus. apply bpow_le. lia. }
  destruct (div_real prec32 emax32 _ _ x (sqrt32 n) V Vr F) as [Vd Hd].
  { fold (rv (sqrt32 n)). lra. }
  split; [|exact Vd]. destruct Hd as [(_ & Fd & _)|(Sd & _)]; [exact Fd|]. exfalso. apply Sd.
  eapply Rle_lt_trans; [apply (rnd32_abs_le _ 126); [lia|exact Hq]|]. apply bpow_lt. reflexivity.
Qed.
Print Assumptions normalize_finite.
