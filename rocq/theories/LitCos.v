(** The cosine distance of the decimal vectors of a request against that of the
    float vectors they are rounded to. *)
From Coq Require Import ZArith Reals Psatz.
From Flocq Require Import Core.Core IEEE754.BinarySingleNaN.
From Verif Require Import Base F32 F32Real F32Norm F32Err PQ Graph Search Distancer F32Cos.
Local Open Scope R_scope.

(** Scalar product, norm and cosine distance of real vectors. *)
Fixpoint rdot (a b : list R) : R :=
  match a, b with x :: a', y :: b' => x * y + rdot a' b' | _, _ => 0 end.
Definition rnorm (a : list R) : R := sqrt (rdot a a).
Definition rcos (a b : list R) : R := 1 - rdot a b / (rnorm a * rnorm b).

Lemma rdot_sumS a : forall b, sumS (combine a b) = rdot (map rv a) (map rv b).
Proof. induction a as [|x a IH]; intros [|y b]; try reflexivity. cbn [combine map rdot]. rewrite sumS_cons, IH. reflexivity. Qed.
Lemma rcos_cosdist a b : cosdist a b = rcos (map rv a) (map rv b).
Proof. unfold cosdist, rcos, rnorm, norm, sq. now rewrite !rdot_sumS. Qed.

Lemma rdot_sym a : forall b, rdot a b = rdot b a.
Proof. induction a as [|x a IH]; intros [|y b]; cbn [rdot]; try reflexivity. rewrite IH. ring. Qed.
Lemma rdot_pos a : 0 <= rdot a a.
Proof. induction a as [|x a IH]; cbn [rdot]; [lra|]. pose proof (Rle_0_sqr x) as H. unfold Rsqr in H. lra. Qed.
Lemma rnorm_sq a : rnorm a * rnorm a = rdot a a.
Proof. apply sqrt_def, rdot_pos. Qed.
Lemma rnorm_pos a : 0 <= rnorm a.
Proof. apply sqrt_pos. Qed.

(** s a + t b *)
Fixpoint lin (s : R) (a : list R) (t : R) (b : list R) : list R :=
  match a, b with x :: a', y :: b' => (s * x + t * y) :: lin s a' t b' | _, _ => [] end.
Lemma lin_length s a t : forall b, length a = length b -> length (lin s a t b) = length a.
Proof. induction a as [|x a IH]; intros [|y b] H; cbn in *; try lia. rewrite IH; lia. Qed.
Lemma rdot_lin s a t : forall b c, length a = length b -> rdot (lin s a t b) c = s * rdot a c + t * rdot b c.
Proof.
  induction a as [|x a IH]; intros [|y b] c H; cbn in H; try lia; [cbn; lra|]. destruct c as [|z c]; cbn [lin rdot]; [lra|].
  rewrite IH by lia. ring.
Qed.

Lemma cauchy_schwarz a b : length a = length b -> Rabs (rdot a b) <= rnorm a * rnorm b.
Proof.
  intros H. set (T := rdot b b). set (D := rdot a b). set (S := rdot a a).
  assert (K : 0 <= rdot (lin T a (- D) b) (lin T a (- D) b)) by apply rdot_pos.
  rewrite rdot_lin in K by exact H. rewrite !(rdot_sym _ (lin _ _ _ _)), !rdot_lin in K by exact H.
  fold S T in K. rewrite (rdot_sym b a) in K. fold D in K.
  assert (HT : 0 <= T) by apply rdot_pos. assert (HS : 0 <= S) by apply rdot_pos.
  assert (Q : D * D <= S * T).
  { destruct (Rle_lt_or_eq_dec 0 T HT) as [Tp|T0].
    - apply Rmult_le_reg_l with T; [exact Tp|]. nra.
    - assert (Z : forall l, rdot l l = 0 -> forall m, length m = length l -> rdot m l = 0).
      { clear. induction l as [|y l IH]; intros E [|x m] L; cbn in *; try lia; try reflexivity.
        pose proof (rdot_pos l). pose proof (Rle_0_sqr y) as Y. unfold Rsqr in Y. assert (y = 0) by nra. subst y.
        rewrite (IH ltac:(lra) m ltac:(lia)). ring. }
      unfold D. rewrite (Z b) by (try exact H; unfold T in T0; lra). rewrite <- T0. lra. }
  unfold rnorm. fold S T. rewrite <- sqrt_mult by assumption. rewrite <- (sqrt_Rsqr_abs D). apply sqrt_le_1_alt. exact Q.
Qed.
Lemma rnorm_move a a' : length a = length a' -> Rabs (rnorm a' - rnorm a) <= rnorm (lin 1 a' (-1) a).
Proof.
  intros H. set (d := lin 1 a' (-1) a). set (A := rnorm a). set (A' := rnorm a').
  assert (Ld : length d = length a) by (unfold d; rewrite lin_length; lia).
  pose proof (rnorm_pos a) as PA. pose proof (rnorm_pos a') as PA'. pose proof (rnorm_pos d) as PD. fold A in PA. fold A' in PA'.
  pose proof (rnorm_sq a) as SA. pose proof (rnorm_sq a') as SA'. fold A in SA. fold A' in SA'.
  assert (E1 : rdot d a' = A' * A' - rdot a a') by (unfold d; rewrite rdot_lin by lia; lra).
  assert (E2 : rdot d a = rdot a a' - A * A) by (unfold d; rewrite rdot_lin, (rdot_sym a') by lia; lra).
  pose proof (cauchy_schwarz d a' ltac:(lia)) as C1. pose proof (cauchy_schwarz d a ltac:(lia)) as C2.
  pose proof (cauchy_schwarz a a' H) as C3. fold A A' in C1, C2, C3. apply Rabs_le_inv in C1, C2, C3. apply Rabs_le. split.
  - destruct (Rle_lt_or_eq_dec 0 A PA) as [P|P]; [|lra]. assert (A - A' <= rnorm d); [|lra]. apply Rmult_le_reg_r with A; [exact P|]. nra.
  - destruct (Rle_lt_or_eq_dec 0 A' PA') as [P|P]; [|lra]. apply Rmult_le_reg_r with A'; [exact P|]. nra.
Qed.
Lemma cos_move th a a' b : length a = length a' -> length a = length b -> 0 < rnorm a -> 0 < rnorm a' -> 0 < rnorm b ->
  rnorm (lin 1 a' (-1) a) <= th * rnorm a -> Rabs (rcos a' b - rcos a b) <= 2 * th.
Proof.
  intros L1 L2 PA PA' PB Hd. pose proof (rnorm_move a a' L1) as Hm. set (d := lin 1 a' (-1) a) in *.
  assert (Ld : length d = length a) by (unfold d; rewrite lin_length; lia).
  pose proof (cauchy_schwarz d b ltac:(lia)) as C1. pose proof (cauchy_schwarz a' b ltac:(lia)) as C2.
  assert (E : rdot d b = rdot a' b - rdot a b) by (unfold d; rewrite rdot_lin by lia; lra).
  set (A := rnorm a) in *. set (A' := rnorm a') in *. set (B := rnorm b) in *. set (D := rnorm d) in *.
  unfold rcos. fold A A' B.
  replace (1 - rdot a' b / (A' * B) - (1 - rdot a b / (A * B))) with ((- (rdot d b) * A' + rdot a' b * (A' - A)) / (A * A' * B)) by (rewrite E; field; lra).
  unfold Rdiv. rewrite Rabs_mult. assert (P : 0 < A * A' * B) by (apply Rmult_lt_0_compat; [apply Rmult_lt_0_compat|]; assumption).
  rewrite (Rabs_pos_eq (/ _)) by (left; now apply Rinv_0_lt_compat).
  apply Rmult_le_reg_r with (A * A' * B); [exact P|]. rewrite Rmult_assoc, Rinv_l, Rmult_1_r by lra.
  eapply Rle_trans; [apply Rabs_triang|]. rewrite !Rabs_mult, Rabs_Ropp, (Rabs_pos_eq A') by lra.
  assert (PD : 0 <= D) by apply rnorm_pos. assert (PS : 0 <= A' * B) by (apply Rmult_le_pos; lra).
  assert (K1 : Rabs (rdot d b) * A' <= D * B * A') by (apply Rmult_le_compat_r; lra).
  assert (K2 : Rabs (rdot a' b) * Rabs (A' - A) <= A' * B * D) by (apply Rmult_le_compat; try apply Rabs_pos; lra).
  assert (K3 : A' * B * D <= A' * B * (th * A)) by (apply Rmult_le_compat_l; lra).
  lra.
Qed.
Lemma rcos_sym a b : rcos a b = rcos b a.
Proof. unfold rcos. now rewrite rdot_sym, (Rmult_comm (rnorm a)). Qed.
Lemma cos_move2 th a a' b b' : length a = length a' -> length b = length b' -> length a = length b ->
  0 < rnorm a -> 0 < rnorm a' -> 0 < rnorm b -> 0 < rnorm b' ->
  rnorm (lin 1 a' (-1) a) <= th * rnorm a -> rnorm (lin 1 b' (-1) b) <= th * rnorm b ->
  Rabs (rcos a' b' - rcos a b) <= 4 * th.
Proof.
  intros L1 L2 L3 PA PA' PB PB' Ha Hb. pose proof (cos_move th a a' b L1 L3 PA PA' PB Ha) as K1.
  pose proof (cos_move th b b' a' L2 ltac:(lia) PB PB' PA' Hb) as K2. rewrite (rcos_sym b'), (rcos_sym b) in K2.
  replace (rcos a' b' - rcos a b) with ((rcos a' b' - rcos a' b) + (rcos a' b - rcos a b)) by ring.
  eapply Rle_trans; [apply Rabs_triang|]. lra.
Qed.

(* ------------------------------------------------------------------ *)
(** Rounded components. *)

(** The float [x] is close to the real [v]. *)
Definition close (v : R) (x : f32) : Prop :=
  f32_valid x /\ fin x /\ Rabs (rv x - v) <= (u + pow2 (-52)) * Rabs v + pow2 (-149).
(** Components of at most 2^39, not all below 2^-39, and at most 65536 of them. *)
Definition usual (a : list R) : Prop :=
  (Z.of_nat (length a) <= 65536)%Z /\ Forall (fun v => Rabs v <= pow2 39) a /\ Exists (fun v => pow2 (-39) <= Rabs v) a.

Definition rel : R := 65 / 64 * u.
Lemma forall2_len {A B} (P : A -> B -> Prop) l m : Forall2 P l m -> length l = length m.
Proof. induction 1; cbn; lia. Qed.

Lemma usual_norm a : usual a -> pow2 (-39) <= rnorm a.
Proof.
  intros (_ & _ & H). unfold rnorm. rewrite <- (sqrt_square (pow2 (-39))) by apply bpow_ge_0. apply sqrt_le_1_alt.
  induction H as [v a Hv|v a _ IH]; cbn [rdot].
  - pose proof (rdot_pos a). pose proof (bpow_ge_0 radix2 (-39)).
    assert (pow2 (-39) * pow2 (-39) <= Rabs v * Rabs v) by (apply Rmult_le_compat; lra).
    rewrite <- Rabs_mult, (Rabs_pos_eq (v * v)) in H1 by apply Rle_0_sqr. lra.
  - pose proof (Rle_0_sqr v) as K. unfold Rsqr in K. lra.
Qed.
Lemma close_sq a x : Forall2 close a x ->
  let d := lin 1 (map rv x) (-1) a in
  rdot d d <= (1 + / 1024) * ((u + pow2 (-52)) * (u + pow2 (-52))) * rdot a a + INR (length a) * (1025 * (pow2 (-149) * pow2 (-149))).
Proof.
  cbv zeta. induction 1 as [|v y a x (_ & _ & Hc) H IH]; [cbn; lra|]. cbn [map lin rdot length]. rewrite S_INR.
  set (t := u + pow2 (-52)) in *. set (h := pow2 (-149)) in *.
  assert (Ht : 0 <= t) by (unfold t; pose proof u_pos; pose proof (bpow_ge_0 radix2 (-52)); lra).
  assert (Hh : 0 <= h) by apply bpow_ge_0. pose proof (Rabs_pos v) as Hv.
  replace (1 * rv y + -1 * v) with (rv y - v) by ring. set (e := rv y - v) in *.
  assert (He : e * e <= (t * Rabs v + h) * (t * Rabs v + h)).
  { rewrite <- (Rabs_pos_eq (e * e)) by apply Rle_0_sqr. rewrite Rabs_mult. apply Rmult_le_compat; try apply Rabs_pos; exact Hc. }
  assert (Hvv : v * v = Rabs v * Rabs v) by (rewrite <- Rabs_mult; symmetry; apply Rabs_pos_eq, Rle_0_sqr).
  set (w := Rabs v) in *. rewrite Hvv.
  assert (Hx : (t * w + h) * (t * w + h) <= (1 + / 1024) * (t * t) * (w * w) + 1025 * (h * h)).
  { pose proof (Rle_0_sqr (t * w - 1024 * h)) as K. unfold Rsqr in K. nra. }
  nra.
Qed.
Lemma close_norm a x : usual a -> Forall2 close a x -> rnorm (lin 1 (map rv x) (-1) a) <= rel * rnorm a.
Proof.
  intros Hu Hc. pose proof (usual_norm a Hu) as Hn. destruct Hu as (Hl & _ & _).
  pose proof (close_sq a x Hc) as Hs. cbv zeta in Hs. unfold rnorm at 1.
  assert (Hr : 0 <= rel) by (unfold rel; pose proof u_pos; lra). pose proof (rnorm_pos a) as Hp.
  rewrite <- (sqrt_square (rel * rnorm a)) by now apply Rmult_le_pos. apply sqrt_le_1_alt. eapply Rle_trans; [exact Hs|].
  replace (rel * rnorm a * (rel * rnorm a)) with (rel * rel * (rnorm a * rnorm a)) by ring. rewrite rnorm_sq.
  assert (Hn2 : pow2 (-78) <= rdot a a).
  { rewrite <- rnorm_sq. change (-78)%Z with (-39 + -39)%Z. rewrite bpow_plus. apply Rmult_le_compat; try apply bpow_ge_0; exact Hn. }
  assert (HN : INR (length a) <= pow2 16) by (rewrite INR_IZR_INZ; apply IZR_le in Hl; exact Hl).
  assert (Ha : INR (length a) * (1025 * (pow2 (-149) * pow2 (-149))) <= pow2 (-100) * rdot a a).
  { apply Rle_trans with (pow2 16 * (pow2 11 * pow2 (-298))).
    - rewrite <- bpow_plus. change (-149 + -149)%Z with (-298)%Z. apply Rmult_le_compat; try apply pos_INR; auto.
      + apply Rmult_le_pos; [lra|apply bpow_ge_0].
      + apply Rmult_le_compat_r; [apply bpow_ge_0|]. change (pow2 11) with 2048. lra.
    - rewrite <- !bpow_plus. apply Rle_trans with (pow2 (-100) * pow2 (-78)).
      + rewrite <- bpow_plus. apply bpow_le. lia.
      + apply Rmult_le_compat_l; [apply bpow_ge_0|exact Hn2]. }
  assert (Hk : (1 + / 1024) * ((u + pow2 (-52)) * (u + pow2 (-52))) + pow2 (-100) <= rel * rel).
  { unfold rel. rewrite u_val. assert (E1 : pow2 (-52) = / 4503599627370496) by reflexivity.
    assert (E2 : pow2 (-100) = / 1267650600228229401496703205376) by reflexivity. rewrite E1, E2. lra. }
  pose proof (rdot_pos a). nra.
Qed.
Lemma close_moderate a x : usual a -> Forall2 close a x -> moderate x.
Proof.
  intros (Hl & Hb & He) Hc. pose proof u_pos as Pu.
  assert (B1 : (u + pow2 (-52)) <= / 8) by (rewrite u_val; change (pow2 (-52)) with (/ 4503599627370496); lra).
  assert (B2 : pow2 (-149) <= pow2 (-42)) by (apply bpow_le; lia).
  assert (B3 : pow2 (-42) = pow2 (-39) / 8) by (change (-42)%Z with (-39 + -3)%Z; rewrite bpow_plus; change (pow2 (-3)) with (/ 8); lra).
  assert (B4 : pow2 40 = 2 * pow2 39) by (change 40%Z with (1 + 39)%Z; rewrite bpow_plus; reflexivity).
  assert (B5 : pow2 (-39) = 2 * pow2 (-40)) by (change (-39)%Z with (1 + -40)%Z; rewrite bpow_plus; reflexivity).
  assert (B6 : pow2 (-39) <= pow2 39) by (apply bpow_le; lia). pose proof (bpow_gt_0 radix2 (-40)) as B7.
  assert (C : forall v y, close v y -> (1 - / 8) * Rabs v - pow2 (-42) <= Rabs (rv y) <= (1 + / 8) * Rabs v + pow2 (-42)).
  { intros v y (_ & _ & H). pose proof (Rabs_pos v) as Pv.
    assert (T1 : Rabs (rv y) <= Rabs (rv y - v) + Rabs v).
    { eapply Rle_trans; [|apply Rabs_triang]. right. f_equal. ring. }
    assert (T2 : Rabs v <= Rabs (rv y - v) + Rabs (rv y)).
    { rewrite (Rabs_minus_sym (rv y)). eapply Rle_trans; [|apply Rabs_triang]. right. f_equal. ring. }
    assert ((u + pow2 (-52)) * Rabs v <= / 8 * Rabs v) by (apply Rmult_le_compat_r; lra). lra. }
  split; [|split; [|split]].
  - split.
    + clear -Hc. induction Hc as [|v y a x (V & _) H IH]; constructor; auto.
    + clear -Hc. induction Hc as [|v y a x (_ & F & _) H IH]; [reflexivity|]. cbn [forallb]. rewrite IH.
      rewrite Bool.andb_true_r. now rewrite fin_b.
  - now rewrite <- (forall2_len _ _ _ Hc).
  - intros y Hy. clear He Hl. induction Hc as [|v z a x Hz H IH]; [destruct Hy|]. inversion Hb; subst.
    destruct Hy as [->|Hy]; [|now apply IH]. destruct (C v y Hz) as [_ K]. lra.
  - clear Hb Hl. induction Hc as [|v z a x Hz H IH]; [inversion He|]. inversion He as [? ? Hv|? ? Hv]; subst.
    + exists z. split; [now left|]. destruct (C v z Hz) as [K _]. lra.
    + destruct (IH Hv) as (y & Hy & K). exists y. split; [now right|exact K].
Qed.
Lemma close_cos a x b y : usual a -> usual b -> length a = length b -> Forall2 close a x -> Forall2 close b y ->
  Rabs (cosdist x y - rcos a b) <= 5 * u.
Proof.
  intros Ua Ub L Ca Cb. rewrite rcos_cosdist. pose proof (usual_norm a Ua) as Na. pose proof (usual_norm b Ub) as Nb.
  pose proof (bpow_gt_0 radix2 (-39)) as P.
  destruct (norm_pos x (close_moderate a x Ua Ca)) as [Nx _]. destruct (norm_pos y (close_moderate b y Ub Cb)) as [Ny _].
  unfold norm, sq in Nx, Ny. rewrite rdot_sumS in Nx, Ny. fold (rnorm (map rv x)) in Nx. fold (rnorm (map rv y)) in Ny.
  eapply Rle_trans; [apply (cos_move2 rel)|]; try assumption; try lra.
  - rewrite map_length. exact (forall2_len _ _ _ Ca).
  - rewrite map_length. exact (forall2_len _ _ _ Cb).
  - now apply close_norm.
  - now apply close_norm.
  - unfold rel. pose proof u_pos. lra.
Qed.
