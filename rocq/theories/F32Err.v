(** Error bounds of the float32 computations: sums of products in any order. *)
From Coq Require Import ZArith Reals Psatz.
From Flocq Require Import Core.Core Relative IEEE754.BinarySingleNaN.
From Verif Require Import Base F32 F32Real F32Norm PQ Graph Search Distancer.
Local Open Scope R_scope.

(** Unit roundoff and half the smallest positive float32. *)
Definition u : R := pow2 (-24).
Definition eta : R := pow2 (-150).

Lemma u_pos : 0 < u. Proof. apply bpow_gt_0. Qed.
Lemma eta_pos : 0 < eta. Proof. apply bpow_gt_0. Qed.
Lemma u_val : u = / 16777216. Proof. reflexivity. Qed.

Lemma rnd32_err x : Rabs (rnd32 x - x) <= u * Rabs x + eta.
Proof.
  destruct (error_N_FLT radix2 (-149) 24 eq_refl (fun z => negb (Z.even z)) x) as (e & t & He & Ht & _ & E).
  change (rnd32 x) with (Generic_fmt.round radix2 (FLT_exp (-149) 24) ZnearestE x). rewrite E.
  replace (x * (1 + e) + t - x) with (x * e + t) by ring.
  eapply Rle_trans; [apply Rabs_triang|]. rewrite Rabs_mult. rewrite (Rmult_comm (Rabs x)). apply Rplus_le_compat.
  - apply Rmult_le_compat_r; [apply Rabs_pos|]. eapply Rle_trans; [exact He|]. right. unfold u.
    change (-24)%Z with (-1 + -23)%Z. rewrite (bpow_plus radix2 (-1) (-23)). reflexivity.
  - eapply Rle_trans; [exact Ht|]. right. unfold eta. change (-150)%Z with (-1 + -149)%Z. rewrite (bpow_plus radix2 (-1) (-149)). reflexivity.
Qed.
Lemma rnd32_bound x : Rabs (rnd32 x) <= (1 + u) * Rabs x + eta.
Proof.
  pose proof (rnd32_err x) as H. replace (rnd32 x) with ((rnd32 x - x) + x) by ring.
  eapply Rle_trans; [apply Rabs_triang|]. lra.
Qed.
Lemma rnd64_err x : Rabs (rnd64 x - x) <= pow2 (-53) * Rabs x + pow2 (-1075).
Proof.
  destruct (error_N_FLT radix2 (-1074) 53 eq_refl (fun z => negb (Z.even z)) x) as (e & t & He & Ht & _ & E).
  change (rnd64 x) with (Generic_fmt.round radix2 (FLT_exp (-1074) 53) ZnearestE x). rewrite E.
  replace (x * (1 + e) + t - x) with (x * e + t) by ring.
  eapply Rle_trans; [apply Rabs_triang|]. rewrite Rabs_mult. rewrite (Rmult_comm (Rabs x)). apply Rplus_le_compat.
  - apply Rmult_le_compat_r; [apply Rabs_pos|]. eapply Rle_trans; [exact He|]. right.
    change (-53)%Z with (-1 + -52)%Z. rewrite (bpow_plus radix2 (-1) (-52)). reflexivity.
  - eapply Rle_trans; [exact Ht|]. right. change (-1075)%Z with (-1 + -1074)%Z. rewrite (bpow_plus radix2 (-1) (-1074)). reflexivity.
Qed.

(** Fused multiply-add rounds once. *)
Lemma align_real m e e' : (e' <= e)%Z -> IZR (Zpos (fst (shl_align m e e'))) * pow2 e' = IZR (Zpos m) * pow2 e.
Proof.
  intros H. generalize (shl_align_correct' m e e' H). destruct (shl_align m e e') as [m' e'']. intros [H1 H2].
  cbn [fst]. subst e''. unfold F2R in H1. exact H1.
Qed.
Lemma f32_fma_real x y z : f32_valid x -> f32_valid y -> f32_valid z -> fin x -> fin y -> fin z ->
  Rabs (rnd32 (rv x * rv y + rv z)) < pow2 128 ->
  f32_valid (f32_fma x y z) /\ fin (f32_fma x y z) /\ rv (f32_fma x y z) = rnd32 (rv x * rv y + rv z).
Proof.
  intros Vx Vy Vz Fx Fy Fz S.
  assert (H0 : rv x * rv y = 0 -> f32_fma x y z = f32_add (f32_mul x y) z ->
    f32_valid (f32_fma x y z) /\ fin (f32_fma x y z) /\ rv (f32_fma x y z) = rnd32 (rv x * rv y + rv z)).
  { intros E0 ->. destruct (mul_real prec32 emax32 _ _ x y Vx Vy Fx Fy) as [Vm [(Sm & Fm & Em)|(Sm & _)]].
    - destruct (add_real prec32 emax32 _ _ _ z Vm Vz Fm Fz) as [Va [(Sa & Fa & Ea)|(Sa & _)]].
      + split; [exact Va|]. split; [exact Fa|]. unfold rv at 1, f32_add, f32_mul. rewrite Ea, Em.
        fold (rv x) (rv y) (rv z). rewrite E0, rnd32_0. reflexivity.
      + exfalso. apply Sa. rewrite Em. fold (rv x) (rv y) (rv z). rewrite E0, rnd32_0. rewrite E0 in S. exact S.
    - exfalso. apply Sm. fold (rv x) (rv y). rewrite E0, rnd32_0, Rabs_R0. apply bpow_gt_0. }
  destruct x as [sx|sx| |sx mx ex]; try discriminate; [apply H0; [cbn; apply Rmult_0_l|reflexivity]|].
  destruct y as [sy|sy| |sy my ey]; try discriminate; [apply H0; [cbn; apply Rmult_0_r|reflexivity]|]. clear H0.
  destruct z as [sz|sz| |sz mz ez]; try discriminate.
  - cbn [f32_fma]. change (rv (S754_zero sz)) with 0 in *. rewrite Rplus_0_r in *.
    destruct (mul_real prec32 emax32 _ _ _ _ Vx Vy Fx Fy) as [Vm [(Sm & Fm & Em)|(Sm & _)]]; [|contradiction].
    split; [exact Vm|]. split; [exact Fm|exact Em].
  - cbn [f32_fma]. set (ep := (ex + ey)%Z). set (e := Z.min ep ez). set (m := (_ + _)%Z).
    assert (Er : IZR m * pow2 e = rv (S754_finite sx mx ex) * rv (S754_finite sy my ey) + rv (S754_finite sz mz ez)).
    { unfold m. rewrite plus_IZR, Rmult_plus_distr_r. f_equal.
      - pose proof (align_real (mx * my) ep e ltac:(unfold e; lia)) as A. unfold rv, SF2R, F2R. cbn [Fnum Fexp].
        destruct sx, sy; cbn [xorb cond_Zopp]; rewrite ?opp_IZR; try (rewrite Ropp_mult_distr_l_reverse);
          rewrite A, Pos2Z.inj_mul, mult_IZR; unfold ep; rewrite bpow_plus; ring.
      - pose proof (align_real mz ez e ltac:(unfold e; lia)) as A. unfold rv, SF2R, F2R. cbn [Fnum Fexp].
        destruct sz; cbn [cond_Zopp]; rewrite ?opp_IZR; [rewrite Ropp_mult_distr_l_reverse, A; ring|exact A]. }
    rewrite normalize_SF with (Hprec := p32) (Hmax := m32).
    generalize (binary_normalize_correct prec32 emax32 p32 m32 mode_NE m e false). simpl round_mode.
    unfold F2R. cbn [Fnum Fexp]. rewrite Er. rewrite Rlt_bool_true by exact S. intros (H1 & H2 & _).
    split; [apply valid_binary_B2SF|]. split; [rewrite fin_B; exact H2|]. unfold rv at 1. rewrite R_B. exact H1.
Qed.

(* ------------------------------------------------------------------ *)
(** [approx k c z S A]: the float [z] was computed for the real number [S] with
    at most [k] roundings on every path and [c] roundings in total; [A] bounds
    the sum of the absolute values. *)
Definition grow (k : nat) : R := (1 + u) ^ k.
Definition approx (k : nat) (c : R) (z : f32) (S A : R) : Prop :=
  f32_valid z /\ fin z /\ Rabs S <= A /\ 0 <= c /\
  Rabs (rv z - S) <= (grow k - 1) * A + grow k * (c * eta).

Lemma grow_S k : grow (S k) = (1 + u) * grow k.
Proof. reflexivity. Qed.
Lemma grow_ge k : 1 <= grow k.
Proof. apply pow_R1_Rle. pose proof u_pos. lra. Qed.
Lemma grow_mono k k' : (k <= k')%nat -> grow k <= grow k'.
Proof. intros H. apply Rle_pow; [pose proof u_pos; lra|exact H]. Qed.
Lemma grow_bound k : (1 - INR k * u) * grow k <= 1.
Proof.
  induction k as [|k IH]; [unfold grow; cbn; lra|]. rewrite grow_S, S_INR.
  pose proof u_pos. pose proof (pos_INR k) as Hk. pose proof (grow_ge k) as Hg.
  apply Rle_trans with ((1 - INR k * u) * grow k); [|exact IH].
  replace ((1 - (INR k + 1) * u) * ((1 + u) * grow k)) with ((1 - INR k * u - (INR k + 1) * (u * u)) * grow k) by ring.
  apply Rmult_le_compat_r; [lra|]. assert (0 <= (INR k + 1) * (u * u)) by (apply Rmult_le_pos; [lra|apply Rle_0_sqr]). lra.
Qed.
(** For up to 2^20 roundings the growth is linear. *)
Lemma grow_lin k : INR k * u <= / 16 -> grow k <= 1 + (16 / 15) * (INR k * u).
Proof.
  intros H. pose proof (grow_bound k) as Hb. pose proof u_pos. pose proof (pos_INR k).
  assert (Ht : 0 <= INR k * u) by (apply Rmult_le_pos; lra). set (t := INR k * u) in *. pose proof (grow_ge k).
  assert (Hm : (1 - t) * (1 + 16 / 15 * t) >= 1) by nra. nra.
Qed.

Lemma approx_weaken k k' c c' z S A : (k <= k')%nat -> c <= c' -> approx k c z S A -> approx k' c' z S A.
Proof.
  intros Hk Hc (V & F & HA & Hc0 & H). split; [exact V|]. split; [exact F|]. split; [exact HA|]. split; [lra|].
  pose proof (grow_mono k k' Hk). pose proof (grow_ge k). pose proof (Rabs_pos S). pose proof eta_pos.
  eapply Rle_trans; [exact H|]. apply Rplus_le_compat; [apply Rmult_le_compat_r; lra|].
  apply Rmult_le_compat; [lra|apply Rmult_le_pos; lra|lra|apply Rmult_le_compat_r; lra].
Qed.
Lemma approx_zero : approx 0 0 f32_zero 0 0.
Proof.
  split; [reflexivity|]. split; [reflexivity|]. rewrite Rabs_R0. split; [lra|]. split; [lra|].
  unfold rv. cbn. rewrite Rminus_0_r, Rabs_R0. lra.
Qed.
Lemma approx_size k c z S A : approx k c z S A -> Rabs (rv z) <= grow k * (A + c * eta).
Proof.
  intros (_ & _ & HA & _ & H). replace (rv z) with ((rv z - S) + S) by ring.
  eapply Rle_trans; [apply Rabs_triang|]. lra.
Qed.

(** One rounding of an approximated exact value. *)
Lemma approx_round k c w S A z : Rabs S <= A -> 0 <= c ->
  Rabs (w - S) <= (grow k - 1) * A + grow k * (c * eta) ->
  f32_valid z -> fin z -> rv z = rnd32 w -> approx (Datatypes.S k) (c + 1) z S A.
Proof.
  intros HA Hc Hw V F E. split; [exact V|]. split; [exact F|]. split; [exact HA|]. split; [lra|].
  pose proof (rnd32_err w) as Hr. pose proof u_pos as Hu. pose proof eta_pos as He. pose proof (grow_ge k) as Hg.
  assert (Hw2 : Rabs w <= grow k * A + grow k * (c * eta)).
  { replace w with ((w - S) + S) by ring. eapply Rle_trans; [apply Rabs_triang|]. lra. }
  rewrite E. replace (rnd32 w - S) with ((rnd32 w - w) + (w - S)) by ring.
  eapply Rle_trans; [apply Rabs_triang|]. rewrite grow_S.
  pose proof (Rabs_pos S). assert (0 <= c * eta) by (apply Rmult_le_pos; lra).
  assert (H1 : u * Rabs w <= u * (grow k * A + grow k * (c * eta))) by (apply Rmult_le_compat_l; lra).
  assert (H2 : 1 <= (1 + u) * grow k) by (rewrite <- grow_S; apply grow_ge).
  assert (H3 : 1 * eta <= (1 + u) * grow k * eta) by (apply Rmult_le_compat_r; lra).
  replace ((1 + u) * grow k * ((c + 1) * eta)) with ((1 + u) * grow k * (c * eta) + (1 + u) * grow k * eta) by ring.
  lra.
Qed.

(** No overflow up to here. *)
Definition room (k : nat) (c A : R) : Prop := grow k * (A + c * eta) < pow2 128.

Lemma round_room k c w S A : Rabs S <= A -> 0 <= c ->
  Rabs (w - S) <= (grow k - 1) * A + grow k * (c * eta) -> room (Datatypes.S k) (c + 1) A -> Rabs (rnd32 w) < pow2 128.
Proof.
  intros HA Hc Hw Hr. eapply Rle_lt_trans; [|exact Hr]. pose proof (rnd32_bound w) as Hb. rewrite grow_S.
  pose proof u_pos as Hu. pose proof eta_pos as He. pose proof (grow_ge k) as Hg.
  assert (Hw2 : Rabs w <= grow k * A + grow k * (c * eta)).
  { replace w with ((w - S) + S) by ring. eapply Rle_trans; [apply Rabs_triang|]. lra. }
  assert (H1 : (1 + u) * Rabs w <= (1 + u) * (grow k * A + grow k * (c * eta))) by (apply Rmult_le_compat_l; lra).
  assert (H2 : 1 <= (1 + u) * grow k) by (rewrite <- grow_S; apply grow_ge).
  assert (H3 : 1 * eta <= (1 + u) * grow k * eta) by (apply Rmult_le_compat_r; lra).
  replace ((1 + u) * grow k * (A + (c + 1) * eta)) with
    ((1 + u) * grow k * A + (1 + u) * grow k * (c * eta) + (1 + u) * grow k * eta) by ring. lra.
Qed.

Lemma approx_mul x y : f32_valid x -> f32_valid y -> fin x -> fin y -> room 1 1 (Rabs (rv x * rv y)) ->
  approx 1 1 (f32_mul x y) (rv x * rv y) (Rabs (rv x * rv y)).
Proof.
  intros Vx Vy Fx Fy Hr.
  assert (H0 : Rabs (rv x * rv y - rv x * rv y) <= (grow 0 - 1) * Rabs (rv x * rv y) + grow 0 * (0 * eta)).
  { unfold grow. cbn [pow]. rewrite Rminus_diag_eq, Rabs_R0 by reflexivity. lra. }
  destruct (mul_real prec32 emax32 _ _ x y Vx Vy Fx Fy) as [Vm [(Sm & Fm & Em)|(Sm & _)]].
  - replace 1 with (0 + 1) at 1 by ring. eapply approx_round; [apply Rle_refl|lra|exact H0|exact Vm|exact Fm|exact Em].
  - exfalso. apply Sm. eapply round_room; [apply Rle_refl| |exact H0|]; [lra|]. now rewrite Rplus_0_l.
Qed.

Lemma approx_add k c1 c2 z1 z2 S1 S2 A1 A2 : approx k c1 z1 S1 A1 -> approx k c2 z2 S2 A2 ->
  room (S k) (c1 + c2 + 1) (A1 + A2) -> approx (S k) (c1 + c2 + 1) (f32_add z1 z2) (S1 + S2) (A1 + A2).
Proof.
  intros (V1 & F1 & HA1 & C1 & H1) (V2 & F2 & HA2 & C2 & H2) Hr.
  assert (HA : Rabs (S1 + S2) <= A1 + A2) by (eapply Rle_trans; [apply Rabs_triang|]; lra).
  assert (Hw : Rabs (rv z1 + rv z2 - (S1 + S2)) <= (grow k - 1) * (A1 + A2) + grow k * ((c1 + c2) * eta)).
  { replace (rv z1 + rv z2 - (S1 + S2)) with ((rv z1 - S1) + (rv z2 - S2)) by ring.
    eapply Rle_trans; [apply Rabs_triang|]. lra. }
  destruct (add_real prec32 emax32 _ _ z1 z2 V1 V2 F1 F2) as [Va [(Sa & Fa & Ea)|(Sa & _)]].
  - eapply approx_round; [exact HA|lra|exact Hw|exact Va|exact Fa|exact Ea].
  - exfalso. apply Sa. eapply round_room; [exact HA| |exact Hw|exact Hr]. lra.
Qed.

Lemma approx_sub k c1 c2 z1 z2 S1 S2 A1 A2 : approx k c1 z1 S1 A1 -> approx k c2 z2 S2 A2 ->
  room (S k) (c1 + c2 + 1) (A1 + A2) -> approx (S k) (c1 + c2 + 1) (f32_sub z1 z2) (S1 - S2) (A1 + A2).
Proof.
  intros (V1 & F1 & HA1 & C1 & H1) (V2 & F2 & HA2 & C2 & H2) Hr.
  assert (HA : Rabs (S1 - S2) <= A1 + A2).
  { unfold Rminus. eapply Rle_trans; [apply Rabs_triang|]. rewrite Rabs_Ropp. lra. }
  assert (Hw : Rabs (rv z1 - rv z2 - (S1 - S2)) <= (grow k - 1) * (A1 + A2) + grow k * ((c1 + c2) * eta)).
  { replace (rv z1 - rv z2 - (S1 - S2)) with ((rv z1 - S1) + - (rv z2 - S2)) by ring.
    eapply Rle_trans; [apply Rabs_triang|]. rewrite Rabs_Ropp. lra. }
  destruct (sub_real prec32 emax32 _ _ z1 z2 V1 V2 F1 F2) as [Va [(Sa & Fa & Ea)|(Sa & _)]].
  - eapply approx_round; [exact HA|lra|exact Hw|exact Va|exact Fa|exact Ea].
  - exfalso. apply Sa. eapply round_room; [exact HA| |exact Hw|exact Hr]. lra.
Qed.

Lemma approx_fma k c x y z S A : f32_valid x -> f32_valid y -> fin x -> fin y -> approx k c z S A ->
  room (Datatypes.S k) (c + 1) (Rabs (rv x * rv y) + A) ->
  approx (Datatypes.S k) (c + 1) (f32_fma x y z) (rv x * rv y + S) (Rabs (rv x * rv y) + A).
Proof.
  intros Vx Vy Fx Fy (V & F & HA & Hc & H) Hr.
  assert (HA' : Rabs (rv x * rv y + S) <= Rabs (rv x * rv y) + A) by (eapply Rle_trans; [apply Rabs_triang|]; lra).
  assert (Hw : Rabs (rv x * rv y + rv z - (rv x * rv y + S)) <=
    (grow k - 1) * (Rabs (rv x * rv y) + A) + grow k * (c * eta)).
  { replace (rv x * rv y + rv z - (rv x * rv y + S)) with (rv z - S) by ring.
    pose proof (grow_ge k) as Hg. pose proof (Rabs_pos (rv x * rv y)).
    assert (0 <= (grow k - 1) * Rabs (rv x * rv y)) by (apply Rmult_le_pos; lra). lra. }
  assert (Hs : Rabs (rnd32 (rv x * rv y + rv z)) < pow2 128) by exact (round_room k c _ _ _ HA' Hc Hw Hr).
  destruct (f32_fma_real x y z Vx Vy V Fx Fy F Hs) as (V' & F' & E').
  eapply approx_round; [exact HA'|exact Hc|exact Hw|exact V'|exact F'|exact E'].
Qed.
