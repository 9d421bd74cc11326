(** Float arithmetic of the models as rounded arithmetic on real numbers: the
    operations of [SpecFloat] are those of Flocq's [BinarySingleNaN]. *)
From Coq Require Import ZArith Reals Psatz SpecFloat.
From Flocq Require Import Core.Core Calc.Round IEEE754.BinarySingleNaN.
Local Open Scope R_scope.

Section Bridge.
  Variables prec emax : Z.
  Context (Hprec : Prec_gt_0 prec).
  Context (Hmax : Prec_lt_emax prec emax).
  Notation bf := (binary_float prec emax).
  Notation vld x := (SpecFloat.valid_binary prec emax x = true).
  Notation fin x := (is_finite_SF x = true).
  Notation R2 := (SF2R radix2).
  Notation rnd := (Generic_fmt.round radix2 (SpecFloat.fexp prec emax) ZnearestE).

  Lemma choice_NE s m l : SpecFloat.round_nearest_even m l = choice_mode mode_NE s m l.
  Proof. case l; [reflexivity|intro c]. case c; [|reflexivity..]. now simpl; unfold cond_incr; case Z.even. Qed.
  Lemma round_aux_SF sx mx ex lx :
    SpecFloat.binary_round_aux prec emax sx mx ex lx = BinarySingleNaN.binary_round_aux prec emax mode_NE sx mx ex lx.
  Proof.
    unfold SpecFloat.binary_round_aux, BinarySingleNaN.binary_round_aux.
    set (m := shr_fexp _ _ _). case m. intros m' e'. simpl. now rewrite (choice_NE sx).
  Qed.
  Lemma round_SF s m e :
    SpecFloat.binary_round prec emax s m e = BinarySingleNaN.binary_round prec emax mode_NE s m e.
  Proof.
    unfold SpecFloat.binary_round, BinarySingleNaN.binary_round, shl_align_fexp.
    set (z := shl_align _ _ _). case z. intros. apply round_aux_SF.
  Qed.
  Lemma normalize_SF m e z :
    SpecFloat.binary_normalize prec emax m e z =
    B2SF (BinarySingleNaN.binary_normalize prec emax Hprec Hmax mode_NE m e z).
  Proof. case m; [reflexivity|..]; intros p; simpl; rewrite B2SF_SF2B; apply round_SF. Qed.
  Lemma add_B (x y : bf) : SFadd prec emax (B2SF x) (B2SF y) = B2SF (Bplus mode_NE x y).
  Proof.
    case x as [sx|sx| |sx mx ex Bx]; case y as [sy|sy| |sy my ey By]; [now (trivial || simpl; case Bool.eqb).. |].
    apply normalize_SF.
  Qed.
  Lemma sub_B (x y : bf) : SFsub prec emax (B2SF x) (B2SF y) = B2SF (Bminus mode_NE x y).
  Proof.
    case x as [sx|sx| |sx mx ex Bx]; case y as [sy|sy| |sy my ey By]; [now (trivial || simpl; case Bool.eqb).. |].
    simpl. unfold Zminus. rewrite <- cond_Zopp_negb. apply normalize_SF.
  Qed.
  Lemma mul_B (x y : bf) : SFmul prec emax (B2SF x) (B2SF y) = B2SF (Bmult mode_NE x y).
  Proof.
    case x as [sx|sx| |sx mx ex Bx]; case y as [sy|sy| |sy my ey By]; [now trivial..|].
    simpl. rewrite B2SF_SF2B. apply round_aux_SF.
  Qed.
  Lemma div_B (x y : bf) : SFdiv prec emax (B2SF x) (B2SF y) = B2SF (Bdiv mode_NE x y).
  Proof.
    case x as [sx|sx| |sx mx ex Bx]; case y as [sy|sy| |sy my ey By]; [now trivial..|].
    simpl. rewrite B2SF_SF2B. set (z := SFdiv_core_binary _ _ _ _ _ _). case z as [[mz ez] lz]. apply round_aux_SF.
  Qed.
  Lemma sqrt_B (x : bf) : SFsqrt prec emax (B2SF x) = B2SF (Bsqrt mode_NE x).
  Proof.
    case x as [sx|sx| |sx mx ex Bx]; [now (trivial || case sx)..|]. case sx; [reflexivity|].
    simpl. rewrite B2SF_SF2B. set (z := SFsqrt_core_binary _ _ _ _). case z as [[mz ez] lz]. apply round_aux_SF.
  Qed.

  Lemma fin_B (x : bf) : is_finite_SF (B2SF x) = BinarySingleNaN.is_finite x.
  Proof. now case x. Qed.
  Lemma R_B (x : bf) : R2 (B2SF x) = B2R x.
  Proof. now case x. Qed.
  Lemma sign_B (x : bf) : sign_SF (B2SF x) = Bsign x.
  Proof. now case x. Qed.

  Notation small r := (Rabs (rnd r) < bpow radix2 emax).

  (** Addition, multiplication and division of finite numbers round the exact
      result, or overflow to an infinity. *)
  Lemma add_real x y : vld x -> vld y -> fin x -> fin y ->
    let z := SFadd prec emax x y in vld z /\
    ((small (R2 x + R2 y) /\ fin z /\ R2 z = rnd (R2 x + R2 y)) \/
     (~ small (R2 x + R2 y) /\ z = S754_infinity (sign_SF x) /\ sign_SF x = sign_SF y)).
  Proof.
    intros Vx Vy Fx Fy. cbv zeta. rewrite <- (B2SF_SF2B _ _ x Vx), <- (B2SF_SF2B _ _ y Vy) in *.
    rewrite add_B. rewrite !R_B, !sign_B, !fin_B in *. split; [apply valid_binary_B2SF|].
    generalize (Bplus_correct prec emax Hprec Hmax mode_NE _ _ Fx Fy). simpl round_mode.
    case Rlt_bool_spec; intros H.
    - intros (H1 & H2 & _). left. split; [exact H|]. split; [exact H2|exact H1].
    - intros [H1 H2]. right. split; [lra|]. split; [exact H1|exact H2].
  Qed.
  Lemma sub_real x y : vld x -> vld y -> fin x -> fin y ->
    let z := SFsub prec emax x y in vld z /\
    ((small (R2 x - R2 y) /\ fin z /\ R2 z = rnd (R2 x - R2 y)) \/
     (~ small (R2 x - R2 y) /\ z = S754_infinity (sign_SF x))).
  Proof.
    intros Vx Vy Fx Fy. cbv zeta. rewrite <- (B2SF_SF2B _ _ x Vx), <- (B2SF_SF2B _ _ y Vy) in *.
    rewrite sub_B. rewrite !R_B, !sign_B, !fin_B in *. split; [apply valid_binary_B2SF|].
    generalize (Bminus_correct prec emax Hprec Hmax mode_NE _ _ Fx Fy). simpl round_mode.
    case Rlt_bool_spec; intros H.
    - intros (H1 & H2 & _). left. split; [exact H|]. split; [exact H2|exact H1].
    - intros [H1 H2]. right. split; [lra|exact H1].
  Qed.
  Lemma mul_real x y : vld x -> vld y -> fin x -> fin y ->
    let z := SFmul prec emax x y in vld z /\
    ((small (R2 x * R2 y) /\ fin z /\ R2 z = rnd (R2 x * R2 y)) \/
     (~ small (R2 x * R2 y) /\ z = S754_infinity (xorb (sign_SF x) (sign_SF y)))).
  Proof.
    intros Vx Vy Fx Fy. cbv zeta. rewrite <- (B2SF_SF2B _ _ x Vx), <- (B2SF_SF2B _ _ y Vy) in *.
    rewrite mul_B. rewrite !R_B, !sign_B, !fin_B in *. split; [apply valid_binary_B2SF|].
    generalize (Bmult_correct prec emax Hprec Hmax mode_NE (SF2B x Vx) (SF2B y Vy)). simpl round_mode.
    case Rlt_bool_spec; intros H.
    - intros (H1 & H2 & _). left. split; [exact H|]. rewrite H2, Fx, Fy. split; [reflexivity|exact H1].
    - intros H1. right. split; [lra|exact H1].
  Qed.
  Lemma div_real x y : vld x -> vld y -> fin x -> R2 y <> 0 ->
    let z := SFdiv prec emax x y in vld z /\
    ((small (R2 x / R2 y) /\ fin z /\ R2 z = rnd (R2 x / R2 y)) \/
     (~ small (R2 x / R2 y) /\ z = S754_infinity (xorb (sign_SF x) (sign_SF y)))).
  Proof.
    intros Vx Vy Fx Fy. cbv zeta. rewrite <- (B2SF_SF2B _ _ x Vx), <- (B2SF_SF2B _ _ y Vy) in *.
    rewrite div_B. rewrite !R_B, !sign_B, !fin_B in *. split; [apply valid_binary_B2SF|].
    generalize (Bdiv_correct prec emax Hprec Hmax mode_NE (SF2B x Vx) (SF2B y Vy) Fy). simpl round_mode.
    case Rlt_bool_spec; intros H.
    - intros (H1 & H2 & _). left. split; [exact H|]. rewrite H2. split; [exact Fx|exact H1].
    - intros H1. right. split; [lra|exact H1].
  Qed.
  Lemma sqrt_real x : vld x -> fin x -> 0 <= R2 x ->
    let z := SFsqrt prec emax x in vld z /\ fin z /\ R2 z = rnd (sqrt (R2 x)).
  Proof.
    intros Vx Fx Px. cbv zeta. rewrite <- (B2SF_SF2B _ _ x Vx) in *. rewrite sqrt_B. rewrite !R_B, !fin_B in *.
    split; [apply valid_binary_B2SF|].
    destruct (Bsqrt_correct prec emax Hprec Hmax mode_NE (SF2B x Vx)) as (H1 & H2 & _). split; [|exact H1].
    rewrite H2. destruct (SF2B x Vx) as [s|s| |s m e B]; try discriminate; [reflexivity|]. destruct s; [|reflexivity].
    exfalso. simpl in Px. assert (F2R (Float radix2 (Zneg m) e) < 0) by now apply F2R_lt_0. lra.
  Qed.
  Lemma round_real s m e :
    let z := SpecFloat.binary_round prec emax s m e in
    let r := F2R (Float radix2 (cond_Zopp s (Zpos m)) e) in
    vld z /\ ((small r /\ fin z /\ R2 z = rnd r) \/ (~ small r /\ z = S754_infinity s)).
  Proof.
    cbv zeta. rewrite round_SF. destruct (binary_round_correct prec emax Hprec Hmax mode_NE s m e) as [H1 H2].
    split; [exact H1|]. cbv zeta in H2. simpl round_mode in H2. revert H2. case Rlt_bool_spec; intros H.
    - intros (A & B & _). left. auto.
    - intros A. right. split; [lra|exact A].
  Qed.

  Lemma valid_format x : vld x -> generic_format radix2 (SpecFloat.fexp prec emax) (R2 x).
  Proof. intros V. rewrite <- (B2SF_SF2B _ _ x V), R_B. apply generic_format_B2R. Qed.
  Lemma valid_lt x : vld x -> Rabs (R2 x) < bpow radix2 emax.
  Proof. intros V. rewrite <- (B2SF_SF2B _ _ x V), R_B. apply abs_B2R_lt_emax. Qed.
End Bridge.
