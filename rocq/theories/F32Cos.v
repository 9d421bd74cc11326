(** The cosine distance of normalised vectors against the exact one. *)
From Coq Require Import ZArith Reals Psatz.
From Flocq Require Import Core.Core IEEE754.BinarySingleNaN.
From Verif Require Import Base F32 F32Real F32Norm F32Err PQ Graph Search Distancer DistancerProofs DistancerDepth Persist.
Local Open Scope R_scope.

(** Exact sums over pairs. *)
Definition sumS (l : list (f32 * f32)) : R := fold_right (fun p s => rv (fst p) * rv (snd p) + s) 0 l.
Definition sumA (l : list (f32 * f32)) : R := fold_right (fun p s => Rabs (rv (fst p) * rv (snd p)) + s) 0 l.
Definition okp (p : f32 * f32) : Prop :=
  f32_valid (fst p) /\ f32_valid (snd p) /\ fin (fst p) /\ fin (snd p).

Lemma sumS_cons p l : sumS (p :: l) = rv (fst p) * rv (snd p) + sumS l.
Proof. reflexivity. Qed.
Lemma sumA_cons p l : sumA (p :: l) = Rabs (rv (fst p) * rv (snd p)) + sumA l.
Proof. reflexivity. Qed.
Lemma sumA_pos l : 0 <= sumA l.
Proof. induction l as [|p l IH]; [cbn [app]; change (sumS []) with 0; change (sumA []) with 0; lra|]; cbn [app]; rewrite ?sumS_cons, ?sumA_cons. pose proof (Rabs_pos (rv (fst p) * rv (snd p))). lra. Qed.
Lemma sumS_app l l' : sumS (l ++ l') = sumS l + sumS l'.
Proof. induction l as [|p l IH]; [cbn [app]; change (sumS []) with 0; change (sumA []) with 0; lra|]; cbn [app]; rewrite ?sumS_cons, ?sumA_cons. rewrite IH. lra. Qed.
Lemma sumA_app l l' : sumA (l ++ l') = sumA l + sumA l'.
Proof. induction l as [|p l IH]; [cbn [app]; change (sumS []) with 0; change (sumA []) with 0; lra|]; cbn [app]; rewrite ?sumS_cons, ?sumA_cons. rewrite IH. lra. Qed.
Lemma sumS_perm l l' : Permutation l l' -> sumS l = sumS l'.
Proof. induction 1; rewrite ?sumS_cons, ?sumA_cons; lra. Qed.
Lemma sumA_perm l l' : Permutation l l' -> sumA l = sumA l'.
Proof. induction 1; rewrite ?sumS_cons, ?sumA_cons; lra. Qed.

Lemma room_le k k' c c' A A' : (k <= k')%nat -> c <= c' -> 0 <= c -> 0 <= A -> A <= A' -> room k' c' A' -> room k c A.
Proof.
  intros Hk Hc Hc0 HA0 HA H. unfold room in *. eapply Rle_lt_trans; [|exact H]. pose proof (grow_mono k k' Hk).
  pose proof (grow_ge k). pose proof eta_pos.
  assert (0 <= c * eta) by (apply Rmult_le_pos; lra). assert (c * eta <= c' * eta) by (apply Rmult_le_compat_r; lra).
  apply Rmult_le_compat; lra.
Qed.

Section Sum.
  Variable elem : f32 -> f32 -> f32 -> f32.
  Hypothesis Helem : forall k c x y z S A, okp (x, y) -> approx (Datatypes.S k) c z S A ->
    room (Datatypes.S (Datatypes.S k)) (c + 2) (Rabs (rv x * rv y) + A) ->
    approx (Datatypes.S (Datatypes.S k)) (c + 2) (elem x y z) (rv x * rv y + S) (Rabs (rv x * rv y) + A).

  Lemma fsumk_approx k c l r : fsumk f32_arith elem k c l r -> Forall okp l ->
    room (S k) (INR c) (sumA l) -> approx (S k) (INR c) r (sumS l) (sumA l).
  Proof.
    induction 1 as [|k c a b l r H IH|k c l1 l2 r1 r2 H1 IH1 H2 IH2|k c k' c' l r Hk Hc H IH|k c l l' r Hp H IH]; intros Ho Hr.
    - eapply approx_weaken; [..|apply approx_zero]; [lia|cbn; lra].
    - inversion Ho as [|? ? O1 O2]; subst. cbn [sumS sumA fold_right fst snd] in *. fold (sumS l) (sumA l) in *.
      replace (INR (S (S c))) with (INR c + 2) in * by (rewrite !S_INR; ring). apply Helem; [exact O1| |exact Hr].
      apply IH; [exact O2|]. eapply room_le; [..|exact Hr]; [lia|lra|apply pos_INR|apply sumA_pos|].
      pose proof (Rabs_pos (rv a * rv b)). lra.
    - apply Forall_app in Ho. destruct Ho as [O1 O2]. rewrite sumS_app, sumA_app in *.
      pose proof (sumA_pos l1). pose proof (sumA_pos l2). pose proof (pos_INR c).
      replace (INR (S (c + c))) with (INR c + INR c + 1) in * by (rewrite S_INR, plus_INR; ring).
      apply approx_add; [apply IH1; [exact O1|]|apply IH2; [exact O2|]|exact Hr];
        (eapply room_le; [..|exact Hr]; [lia|lra|lra|lra|lra]).
    - eapply approx_weaken; [apply le_n_S; exact Hk|apply le_INR; exact Hc|]. apply IH; [exact Ho|].
      eapply room_le; [..|exact Hr]; [lia|now apply le_INR|apply pos_INR|apply sumA_pos|lra].
    - rewrite <- (sumS_perm _ _ Hp), <- (sumA_perm _ _ Hp) in *. apply IH; [|exact Hr].
      eapply Permutation_Forall; [symmetry; exact Hp|exact Ho].
  Qed.
End Sum.

Lemma fma_elem k c x y z S A : okp (x, y) -> approx (Datatypes.S k) c z S A ->
  room (Datatypes.S (Datatypes.S k)) (c + 2) (Rabs (rv x * rv y) + A) ->
  approx (Datatypes.S (Datatypes.S k)) (c + 2) (f32_fma x y z) (rv x * rv y + S) (Rabs (rv x * rv y) + A).
Proof.
  intros (Vx & Vy & Fx & Fy) H Hr. cbn [fst snd] in *. pose proof H as (_ & _ & HA & Hc & _). pose proof (Rabs_pos S).
  eapply approx_weaken; [apply Nat.le_refl| |apply (approx_fma (Datatypes.S k) c); auto]; [lra|].
  eapply room_le; [..|exact Hr]; [lia|lra|lra|pose proof (Rabs_pos (rv x * rv y)); lra|lra].
Qed.
Lemma mul_elem k c x y z S A : okp (x, y) -> approx (Datatypes.S k) c z S A ->
  room (Datatypes.S (Datatypes.S k)) (c + 2) (Rabs (rv x * rv y) + A) ->
  approx (Datatypes.S (Datatypes.S k)) (c + 2) (f32_add z (f32_mul x y)) (rv x * rv y + S) (Rabs (rv x * rv y) + A).
Proof.
  intros (Vx & Vy & Fx & Fy) H Hr. cbn [fst snd] in *. pose proof H as (_ & _ & HA & Hc & _). pose proof (Rabs_pos S).
  pose proof (Rabs_pos (rv x * rv y)).
  rewrite (Rplus_comm (rv x * rv y)), (Rplus_comm (Rabs (rv x * rv y))) in *. replace (c + 2) with (c + 1 + 1) in * by ring.
  apply approx_add; [exact H| |exact Hr]. eapply approx_weaken; [..|apply approx_mul; auto]; [lia|lra|].
  eapply room_le; [..|exact Hr]; [lia|lra|lra|lra|lra].
Qed.

(** Vectors as pairs. *)
Definition okv (a : vec) : Prop := Forall f32_valid a /\ forallb is_finite_b a = true.
Lemma okv_cons x a : okv (x :: a) <-> (f32_valid x /\ fin x) /\ okv a.
Proof.
  unfold okv. cbn [forallb]. rewrite andb_true_iff, fin_b. split.
  - intros (H & H1 & H2). inversion H; subst. auto.
  - intros ((H1 & H2) & H3 & H4). split; [now constructor|auto].
Qed.
Lemma okv_pairs a : forall b, okv a -> okv b -> Forall okp (combine a b).
Proof.
  induction a as [|x a IH]; intros [|y b] Ha Hb; cbn [combine]; try constructor.
  - apply okv_cons in Ha, Hb. unfold okp. cbn. tauto.
  - apply okv_cons in Ha, Hb. apply IH; tauto.
Qed.

(** A dot product implementation: a sum of the products in some order with few
    roundings on every path. *)
Definition dot_ok (dot : vec -> vec -> f32) : Prop := forall a b,
  length a = length b -> okv a -> okv b ->
  room (length a + 7) (INR (4 * length a + 600)) (sumA (combine a b)) ->
  approx (length a + 7) (INR (4 * length a + 600)) (dot a b) (sumS (combine a b)) (sumA (combine a b)).

Lemma dot_go_approx a b : length a = length b -> okv a -> okv b ->
  room (S (length a)) (INR (2 * length a)) (sumA (combine a b)) ->
  approx (S (length a)) (INR (2 * length a)) (dot_go a b) (sumS (combine a b)) (sumA (combine a b)).
Proof.
  intros Hl Ha Hb Hr. apply (fsumk_approx (fun x y s => f32_add s (f32_mul x y)) mul_elem); [|now apply okv_pairs|exact Hr].
  pose proof (loop_fsumk f32_arith (fun x y s => f32_add s (f32_mul x y)) a b 0 [] f32_zero (fk_zero _ _) Hl) as H.
  rewrite app_nil_r in H. exact H.
Qed.
Lemma dot_go_ok : dot_ok dot_go.
Proof.
  intros a b Hl Ha Hb Hr. assert (Hc : INR (2 * length a) <= INR (4 * length a + 600)) by (apply le_INR; lia).
  eapply approx_weaken; [..|apply dot_go_approx; auto]; [lia|exact Hc|].
  eapply room_le; [..|exact Hr]; [lia|exact Hc|apply pos_INR|apply sumA_pos|lra].
Qed.
Lemma dot_simd_ok (dot : vec -> vec -> f32) :
  (forall a b, length a = length b -> dot_simd f32_arith a b = Some (dot a b)) -> dot_ok dot.
Proof.
  intros Hd a b Hl Ha Hb Hr. specialize (Hd a b Hl). unfold dot_simd in Hd.
  pose proof (kernel_fsumk f32_arith _ a b _ Hl Hd) as H. replace (length a + 7)%nat with (S (length a + 6)) in * by lia.
  apply (fsumk_approx f32_fma fma_elem); [exact H|now apply okv_pairs|exact Hr].
Qed.

(* ------------------------------------------------------------------ *)
(** Normalisation. *)

(** Exact sum of squares and norm. *)
Definition sq (a : vec) : R := sumS (combine a a).
Definition norm (a : vec) : R := sqrt (sq a).
(** Components of moderate size: at most 2^40, not all below 2^-40, and at most
    65536 of them. *)
Definition moderate (a : vec) : Prop :=
  okv a /\ (Z.of_nat (length a) <= 65536)%Z /\ (forall x, In x a -> Rabs (rv x) <= pow2 40) /\
  exists x, In x a /\ pow2 (-40) <= Rabs (rv x).

Lemma sumA_sq a : sumA (combine a a) = sq a.
Proof. unfold sq. induction a as [|x a IH]; [reflexivity|]; cbn [combine]. rewrite sumS_cons, sumA_cons, IH. cbn [fst snd]. rewrite Rabs_pos_eq by apply Rle_0_sqr. reflexivity. Qed.
Lemma sq_pos a : 0 <= sq a.
Proof. rewrite <- sumA_sq. apply sumA_pos. Qed.
Lemma sq_in a x : In x a -> rv x * rv x <= sq a.
Proof.
  unfold sq. induction a as [|y a IH]; [intros []|]. intros [->|H]; cbn [combine]; rewrite sumS_cons; cbn [fst snd].
  - pose proof (sq_pos a) as H. unfold sq in H. lra.
  - specialize (IH H). pose proof (Rle_0_sqr (rv y)) as H0. unfold Rsqr in H0. lra.
Qed.
Lemma sq_le a B : 0 <= B -> (forall x, In x a -> Rabs (rv x) <= B) -> sq a <= INR (length a) * (B * B).
Proof.
  intros HB. unfold sq. induction a as [|y a IH]; intros H; [cbn [sumS combine fold_right length INR]; lra|]. cbn [length combine sumS fold_right fst snd].
  fold (sumS (combine a a)). rewrite S_INR. specialize (IH (fun x Hx => H x (or_intror Hx))).
  assert (rv y * rv y <= B * B).
  { replace (rv y * rv y) with (Rabs (rv y) * Rabs (rv y)) by (rewrite <- Rabs_mult; apply Rabs_pos_eq, Rle_0_sqr).
    pose proof (H y (or_introl eq_refl)). pose proof (Rabs_pos (rv y)). apply Rmult_le_compat; lra. }
  lra.
Qed.
Lemma INR_65536 n : (Z.of_nat n <= 65536)%Z -> 0 <= INR n * u <= / 256.
Proof.
  intros H. pose proof (pos_INR n). pose proof u_pos. split; [apply Rmult_le_pos; lra|].
  apply IZR_le in H. rewrite <- INR_IZR_INZ in H. rewrite u_val in *. lra.
Qed.

Lemma moderate_sq a : moderate a -> pow2 (-80) <= sq a <= pow2 96.
Proof.
  intros (_ & Hn & Hb & x & Hx & Hs). split.
  - eapply Rle_trans; [|apply sq_in; exact Hx]. change (-80)%Z with (-40 + -40)%Z. rewrite bpow_plus.
    replace (rv x * rv x) with (Rabs (rv x) * Rabs (rv x)) by (rewrite <- Rabs_mult; apply Rabs_pos_eq, Rle_0_sqr).
    apply Rmult_le_compat; try apply bpow_ge_0; exact Hs.
  - eapply Rle_trans; [apply (sq_le a (pow2 40)); [apply bpow_ge_0|exact Hb]|].
    change 96%Z with (16 + (40 + 40))%Z. rewrite !bpow_plus. apply Rmult_le_compat_r; [apply Rmult_le_pos; apply bpow_ge_0|].
    rewrite INR_IZR_INZ. apply IZR_le in Hn. exact Hn.
Qed.

Lemma room_2 k c A : INR k * u <= / 16 -> A + c * eta <= pow2 126 -> 0 <= A + c * eta -> room k c A.
Proof.
  intros Hk HA H0. unfold room. pose proof (grow_lin k Hk) as Hg. pose proof (grow_ge k).
  apply Rle_lt_trans with (2 * pow2 126).
  - apply Rmult_le_compat; lra.
  - change 2 with (pow2 1). rewrite <- bpow_plus. apply bpow_lt. lia.
Qed.

Lemma eta_small n : (Z.of_nat n <= 65536)%Z -> INR (4 * n + 600) * eta <= pow2 (-130).
Proof.
  intros H. apply Rle_trans with (pow2 20 * eta).
  - apply Rmult_le_compat_r; [left; apply eta_pos|]. rewrite INR_IZR_INZ. change (pow2 20) with (IZR 1048576). apply IZR_le. lia.
  - unfold eta. rewrite <- bpow_plus. apply bpow_le. lia.
Qed.

(** Relative error of the computed sum of squares. *)
Definition theta (n : nat) : R := (16 / 15) * (INR (S n) * u) + u.

Lemma INR_S_u n : (Z.of_nat n <= 65536)%Z -> INR (S n) * u <= / 255.
Proof. intros H. pose proof (INR_65536 n H). rewrite S_INR. pose proof u_val. lra. Qed.

Lemma sumsq_dot a : sumsq a f32_zero = dot_go a a.
Proof.
  unfold sumsq, dot_go. generalize f32_zero. induction a as [|x a IH]; intros s; [reflexivity|]. cbn [fold_left loop2]. apply IH.
Qed.

Lemma sumsq_rel a : moderate a ->
  let s := sumsq a f32_zero in f32_valid s /\ fin s /\ Rabs (rv s - sq a) <= theta (length a) * sq a.
Proof.
  intros Hm. pose proof Hm as (Hok & Hn & _). pose proof (moderate_sq a Hm) as [Hlo Hhi]. cbv zeta. rewrite sumsq_dot.
  set (n := length a) in *. pose proof (INR_S_u n Hn) as Hu. pose proof eta_pos as He. pose proof u_pos as Hup.
  assert (Hc : 0 <= INR (2 * n) * eta <= pow2 (-130)).
  { split; [apply Rmult_le_pos; [apply pos_INR|lra]|]. eapply Rle_trans; [|apply (eta_small n Hn)].
    apply Rmult_le_compat_r; [lra|]. apply le_INR. lia. }
  assert (Hr : room (S n) (INR (2 * n)) (sumA (combine a a))).
  { rewrite sumA_sq. apply room_2; [lra| |pose proof (sq_pos a); lra].
    apply Rle_trans with (pow2 96 + pow2 96); [apply Rplus_le_compat; [exact Hhi|]|].
    - eapply Rle_trans; [apply Hc|]. apply bpow_le. lia.
    - replace (pow2 96 + pow2 96) with (pow2 1 * pow2 96) by (change (pow2 1) with 2; ring). rewrite <- bpow_plus. apply bpow_le. lia. }
  destruct (dot_go_approx a a eq_refl Hok Hok Hr) as (V & F & _ & _ & H). fold n in H. split; [exact V|]. split; [exact F|].
  rewrite sumA_sq in H. fold (sq a) in H. eapply Rle_trans; [exact H|].
  assert (Hg : grow (S n) <= 1 + 16 / 15 * (INR (S n) * u)) by (apply grow_lin; lra).
  assert (Hge : grow (S n) <= 2) by (pose proof u_val; lra). pose proof (sq_pos a). pose proof (grow_ge (S n)).
  assert (K1 : (grow (S n) - 1) * sq a <= 16 / 15 * (INR (S n) * u) * sq a) by (apply Rmult_le_compat_r; lra).
  assert (K2 : grow (S n) * (INR (2 * n) * eta) <= u * sq a).
  { apply Rle_trans with (2 * pow2 (-130)); [apply Rmult_le_compat; lra|].
    change 2 with (pow2 1). unfold u. rewrite <- bpow_plus.
    apply Rle_trans with (pow2 (-24) * pow2 (-80)); [rewrite <- bpow_plus; apply bpow_le; lia|].
    apply Rmult_le_compat_l; [apply bpow_ge_0|exact Hlo]. }
  unfold theta. lra.
Qed.

Lemma theta_small n : (Z.of_nat n <= 65536)%Z -> 0 < theta n <= / 200.
Proof.
  intros H. pose proof (INR_S_u n H). pose proof u_pos. pose proof (pos_INR (S n)).
  assert (0 <= INR (S n) * u) by (apply Rmult_le_pos; lra). unfold theta. pose proof u_val. lra.
Qed.

(** The computed norm. *)
Lemma norm_rel a : moderate a ->
  let r := sqrt32 (sumsq a f32_zero) in f32_valid r /\ fin r /\
  feq (sumsq a f32_zero) f32_zero = false /\ pow2 (-40) <= norm a /\
  Rabs (rv r - norm a) <= (theta (length a) + 2 * u) * norm a.
Proof.
  intros Hm. pose proof (sumsq_rel a Hm) as (V & F & H). pose proof (moderate_sq a Hm) as [Hlo Hhi].
  pose proof Hm as (_ & Hn & _). pose proof (theta_small _ Hn) as Ht. set (t := theta (length a)) in *.
  set (s := sumsq a f32_zero) in *. cbv zeta.
  assert (P80 : 0 < pow2 (-80)) by apply bpow_gt_0.
  assert (Hs0 : 0 < rv s).
  { apply Rabs_le_inv in H. assert (t * sq a <= / 200 * sq a) by (apply Rmult_le_compat_r; lra). lra. }
  destruct (sqrt32_real s V F (Rlt_le _ _ Hs0)) as (Vr & Fr & Er). split; [exact Vr|]. split; [exact Fr|]. split.
  { destruct s as [b|b| |b m e]; try discriminate; [cbn in Hs0; lra|]. now destruct b. }
  assert (HN : pow2 (-40) <= norm a).
  { unfold norm. rewrite <- (sqrt_square (pow2 (-40))) by apply bpow_ge_0. apply sqrt_le_1_alt. rewrite <- bpow_plus. exact Hlo. }
  split; [exact HN|]. assert (HN0 : 0 < norm a) by (eapply Rlt_le_trans; [apply bpow_gt_0|exact HN]).
  set (N := norm a) in *.
  assert (Hsq : Rabs (sqrt (rv s) - N) <= t * N).
  { assert (EN : N * N = sq a) by (apply sqrt_def; lra). assert (Es : sqrt (rv s) * sqrt (rv s) = rv s) by (apply sqrt_def; lra).
    pose proof (sqrt_pos (rv s)) as Hp. rewrite <- EN, <- Es in H.
    replace (sqrt (rv s) * sqrt (rv s) - N * N) with ((sqrt (rv s) - N) * (sqrt (rv s) + N)) in H by ring.
    rewrite Rabs_mult, (Rabs_pos_eq (sqrt (rv s) + N)) in H by lra.
    apply Rmult_le_reg_r with N; [exact HN0|]. eapply Rle_trans; [|rewrite Rmult_assoc; exact H].
    apply Rmult_le_compat_l; [apply Rabs_pos|lra]. }
  set (q := sqrt (rv s)) in *. pose proof (rnd64_err q) as H64. pose proof (rnd32_err (rnd64 q)) as H32.
  rewrite Er. assert (Hq : 0 <= q) by apply sqrt_pos. rewrite (Rabs_pos_eq q Hq) in H64.
  assert (Hqn : q <= 2 * N) by (apply Rabs_le_inv in Hsq; nra).
  assert (E53 : pow2 (-53) * q + pow2 (-1075) <= pow2 (-50) * N).
  { assert (pow2 (-53) * q <= pow2 (-52) * N).
    { replace (pow2 (-52)) with (pow2 (-53) * 2) by (change 2 with (pow2 1); rewrite <- bpow_plus; reflexivity).
      rewrite Rmult_assoc. apply Rmult_le_compat_l; [apply bpow_ge_0|exact Hqn]. }
    assert (pow2 (-1075) <= pow2 (-52) * N).
    { eapply Rle_trans; [|apply Rmult_le_compat_l; [apply bpow_ge_0|exact HN]]. rewrite <- bpow_plus. apply bpow_le. lia. }
    replace (pow2 (-50)) with (pow2 (-52) * 4) by (change 4 with (pow2 2); rewrite <- bpow_plus; reflexivity).
    assert (0 <= pow2 (-52) * N) by (apply Rmult_le_pos; [apply bpow_ge_0|lra]). lra. }
  assert (Eeta : eta <= pow2 (-50) * N).
  { unfold eta. eapply Rle_trans; [|apply Rmult_le_compat_l; [apply bpow_ge_0|exact HN]]. rewrite <- bpow_plus. apply bpow_le. lia. }
  assert (E50 : pow2 (-50) <= u * / 1000000).
  { change (pow2 (-50)) with (/ 1125899906842624). rewrite u_val. lra. }
  assert (E50N : pow2 (-50) * N <= u * / 1000000 * N) by (apply Rmult_le_compat_r; lra).
  pose proof u_pos as Hu.
  assert (Hw : Rabs (rnd64 q) <= (1 + / 100) * N).
  { replace (rnd64 q) with ((rnd64 q - q) + (q - N) + N) by ring.
    eapply Rle_trans; [apply Rabs_triang|]. eapply Rle_trans; [apply Rplus_le_compat_r, Rabs_triang|].
    rewrite (Rabs_pos_eq N) by lra. assert (t * N <= / 200 * N) by (apply Rmult_le_compat_r; lra).
    assert (u * / 1000000 * N <= / 1000 * N) by (apply Rmult_le_compat_r; [lra|rewrite u_val; lra]). lra. }
  replace (rnd32 (rnd64 q) - N) with ((rnd32 (rnd64 q) - rnd64 q) + ((rnd64 q - q) + (q - N))) by ring.
  eapply Rle_trans; [apply Rabs_triang|]. eapply Rle_trans; [apply Rplus_le_compat_l, Rabs_triang|].
  assert (u * Rabs (rnd64 q) <= u * ((1 + / 100) * N)) by (apply Rmult_le_compat_l; lra).
  assert (0 <= u * N) by (apply Rmult_le_pos; lra). lra.
Qed.

(** Relative error of a component of the normalised vector. *)
Definition comp_err (n : nat) : R := (11 / 10) * (INR n * u) + 6 * u.

Lemma comp_err_small n : (Z.of_nat n <= 65536)%Z -> 0 < comp_err n <= / 200.
Proof. intros H. pose proof (INR_65536 n H). pose proof u_pos. pose proof u_val. unfold comp_err. lra. Qed.

Lemma comp_rel a x : moderate a -> In x a ->
  let y := f32_div x (sqrt32 (sumsq a f32_zero)) in
  f32_valid y /\ fin y /\ Rabs (rv y - rv x / norm a) <= comp_err (length a) * Rabs (rv x / norm a) + eta.
Proof.
  intros Hm Hx. pose proof (norm_rel a Hm) as (Vr & Fr & _ & HN & H). set (r := sqrt32 (sumsq a f32_zero)) in *.
  pose proof Hm as (Hok & Hn & Hb & _). cbv zeta.
  assert (HN0 : 0 < norm a) by (eapply Rlt_le_trans; [apply bpow_gt_0|exact HN]).
  pose proof (theta_small _ Hn) as Ht. pose proof u_pos as Hu. pose proof u_val as Hv.
  set (d := theta (length a) + 2 * u) in *. assert (Hd : 0 < d <= / 190) by (unfold d; lra).
  set (N := norm a) in *.
  assert (Hr : (1 - d) * N <= rv r) by (apply Rabs_le_inv in H; lra).
  assert (Hr0 : 0 < rv r) by (eapply Rlt_le_trans; [|exact Hr]; apply Rmult_lt_0_compat; lra).
  set (p := rv x / N).
  assert (Hq : Rabs (rv x / rv r - p) <= d / (1 - d) * Rabs p).
  { replace (rv x / rv r - p) with (p * ((N - rv r) / rv r)) by (unfold p; field; lra).
    rewrite Rabs_mult, Rmult_comm. apply Rmult_le_compat_r; [apply Rabs_pos|].
    unfold Rdiv. rewrite Rabs_mult, (Rabs_pos_eq (/ rv r)) by (left; now apply Rinv_0_lt_compat).
    rewrite Rabs_minus_sym. apply Rle_trans with (d * N * / ((1 - d) * N)).
    - apply Rmult_le_compat; [apply Rabs_pos|left; now apply Rinv_0_lt_compat|exact H|].
      apply Rinv_le; [apply Rmult_lt_0_compat; lra|exact Hr].
    - right. field. lra. }
  assert (Hd2 : d / (1 - d) <= (1 + / 100) * d).
  { apply Rmult_le_reg_r with (1 - d); [lra|]. unfold Rdiv. rewrite Rmult_assoc, Rinv_l, Rmult_1_r by lra. nra. }
  assert (Hq2 : Rabs (rv x / rv r - p) <= (1 + / 100) * d * Rabs p).
  { eapply Rle_trans; [exact Hq|]. apply Rmult_le_compat_r; [apply Rabs_pos|exact Hd2]. }
  set (q := rv x / rv r) in *.
  assert (Hqa : Rabs q <= (1 + / 100) * Rabs p).
  { replace q with ((q - p) + p) by ring. eapply Rle_trans; [apply Rabs_triang|]. pose proof (Rabs_pos p).
    assert ((1 + / 100) * d * Rabs p <= / 100 * Rabs p) by (apply Rmult_le_compat_r; lra). lra. }
  pose proof (rnd32_err q) as Hrnd.
  assert (Hin : f32_valid x /\ fin x).
  { destruct Hok as [Hv1 Hf1]. rewrite Forall_forall in Hv1. rewrite forallb_forall in Hf1.
    rewrite <- fin_b. auto. }
  destruct Hin as [Vx Fx].
  assert (Hp : Rabs p <= pow2 80).
  { unfold p, Rdiv. rewrite Rabs_mult, (Rabs_pos_eq (/ N)) by (left; now apply Rinv_0_lt_compat).
    apply Rle_trans with (pow2 40 * / pow2 (-40)).
    - apply Rmult_le_compat; [apply Rabs_pos|left; now apply Rinv_0_lt_compat|now apply Hb|apply Rinv_le; [apply bpow_gt_0|exact HN]].
    - rewrite <- bpow_opp, <- bpow_plus. apply bpow_le. lia. }
  destruct (div_real prec32 emax32 _ _ x r Vx Vr Fx) as [Vd Hdv]; [fold (rv r); lra|].
  fold (rv x) (rv r) in Hdv. fold q in Hdv. destruct Hdv as [(_ & Fd & Ed)|(Sd & _)].
  2:{ exfalso. apply Sd. eapply Rle_lt_trans; [apply (rnd32_abs_le q 81); [lia|]|apply bpow_lt; reflexivity].
      eapply Rle_trans; [exact Hqa|]. change 81%Z with (1 + 80)%Z. rewrite bpow_plus. change (pow2 1) with 2.
      pose proof (Rabs_pos p). lra. }
  split; [exact Vd|]. split; [exact Fd|]. unfold rv at 1, f32_div. rewrite Ed.
  replace (rnd32 q - p) with ((rnd32 q - q) + (q - p)) by ring. eapply Rle_trans; [apply Rabs_triang|].
  assert (H1 : u * Rabs q <= u * ((1 + / 100) * Rabs p)) by (apply Rmult_le_compat_l; lra).
  assert (H2 : (1 + / 100) * d * Rabs p + u * ((1 + / 100) * Rabs p) <= comp_err (length a) * Rabs p).
  { replace ((1 + / 100) * d * Rabs p + u * ((1 + / 100) * Rabs p)) with ((1 + / 100) * (d + u) * Rabs p) by ring.
    apply Rmult_le_compat_r; [apply Rabs_pos|]. unfold d, theta, comp_err. rewrite S_INR.
    pose proof (INR_65536 _ Hn). lra. }
  lra.
Qed.

(* ------------------------------------------------------------------ *)
(** The distance. *)
Lemma normalize_map a : moderate a -> normalize a = map (fun x => f32_div x (sqrt32 (sumsq a f32_zero))) a.
Proof.
  intros Hm. pose proof (norm_rel a Hm) as (_ & _ & H & _). unfold normalize. fold (sumsq a f32_zero).
  now rewrite H.
Qed.

Lemma prod_err c e p q x y : 0 <= c <= 1 -> 0 <= e <= 1 -> Rabs p <= 1 -> Rabs q <= 1 ->
  Rabs (x - p) <= c * Rabs p + e -> Rabs (y - q) <= c * Rabs q + e ->
  Rabs (x * y - p * q) <= (2 * c + c * c) * Rabs (p * q) + 6 * e.
Proof.
  intros Hc He Hp Hq Hx Hy. rewrite Rabs_mult. pose proof (Rabs_pos p). pose proof (Rabs_pos q).
  set (P := Rabs p) in *. set (Q := Rabs q) in *.
  replace (x * y - p * q) with ((x - p) * (y - q) + ((x - p) * q + p * (y - q))) by ring.
  eapply Rle_trans; [apply Rabs_triang|]. eapply Rle_trans; [apply Rplus_le_compat_l, Rabs_triang|].
  rewrite !Rabs_mult. fold P Q. pose proof (Rabs_pos (x - p)). pose proof (Rabs_pos (y - q)).
  assert (K1 : Rabs (x - p) * Rabs (y - q) <= (c * P + e) * (c * Q + e)) by (apply Rmult_le_compat; lra).
  assert (K2 : Rabs (x - p) * Q <= (c * P + e) * Q) by (apply Rmult_le_compat_r; lra).
  assert (K3 : P * Rabs (y - q) <= P * (c * Q + e)) by (apply Rmult_le_compat_l; lra).
  assert (M1 : c * P <= 1) by (rewrite <- (Rmult_1_l 1); apply Rmult_le_compat; lra).
  assert (M2 : c * Q <= 1) by (rewrite <- (Rmult_1_l 1); apply Rmult_le_compat; lra).
  assert (L1 : c * P * e <= 1 * e) by (apply Rmult_le_compat_r; lra).
  assert (L2 : c * Q * e <= 1 * e) by (apply Rmult_le_compat_r; lra).
  assert (L3 : e * Q <= e * 1) by (apply Rmult_le_compat_l; lra).
  assert (L4 : P * e <= 1 * e) by (apply Rmult_le_compat_r; lra).
  assert (L5 : e * e <= 1 * e) by (apply Rmult_le_compat_r; lra).
  replace ((2 * c + c * c) * (P * Q)) with (c * P * (c * Q) + (c * P * Q + P * (c * Q))) by ring.
  replace ((c * P + e) * (c * Q + e)) with (c * P * (c * Q) + c * P * e + c * Q * e + e * e) in K1 by ring.
  replace ((c * P + e) * Q) with (c * P * Q + e * Q) in K2 by ring.
  replace (P * (c * Q + e)) with (P * (c * Q) + P * e) in K3 by ring. lra.
Qed.

Lemma dot_err c e (f g : f32 -> f32) N M (a : vec) : forall b, 0 <= c <= 1 -> 0 <= e <= 1 -> 0 < N -> 0 < M ->
  length a = length b ->
  (forall x, In x a -> Rabs (rv x / N) <= 1 /\ Rabs (rv (f x) - rv x / N) <= c * Rabs (rv x / N) + e) ->
  (forall y, In y b -> Rabs (rv y / M) <= 1 /\ Rabs (rv (g y) - rv y / M) <= c * Rabs (rv y / M) + e) ->
  Rabs (sumS (combine (map f a) (map g b)) - sumS (combine a b) / (N * M)) <=
    (2 * c + c * c) * (sumA (combine a b) / (N * M)) + 6 * (INR (length a) * e) /\
  sumA (combine (map f a) (map g b)) <=
    (1 + 2 * c + c * c) * (sumA (combine a b) / (N * M)) + 6 * (INR (length a) * e).
Proof.
  induction a as [|x a IH]; intros [|y b] Hc He HN HM Hl Ha Hb; try discriminate.
  - cbn [map combine length INR]. change (sumS []) with 0. change (sumA []) with 0.
    unfold Rdiv. rewrite !Rmult_0_l, !Rmult_0_r, Rminus_0_r, Rabs_R0. lra.
  - cbn [length] in Hl. injection Hl as Hl.
    destruct (IH b Hc He HN HM Hl (fun z Hz => Ha z (or_intror Hz)) (fun z Hz => Hb z (or_intror Hz))) as [I1 I2].
    destruct (Ha x (or_introl eq_refl)) as [Hp Hx]. destruct (Hb y (or_introl eq_refl)) as [Hq Hy].
    pose proof (prod_err c e _ _ _ _ Hc He Hp Hq Hx Hy) as H.
    cbn [map combine]. rewrite !sumS_cons, !sumA_cons. cbn [fst snd length]. rewrite S_INR.
    set (P := rv x / N) in *. set (Q := rv y / M) in *.
    assert (E : rv x * rv y / (N * M) = P * Q) by (unfold P, Q; field; lra).
    assert (EA : Rabs (rv x * rv y) / (N * M) = Rabs (P * Q)).
    { rewrite <- E. unfold Rdiv. rewrite (Rabs_mult (rv x * rv y)), (Rabs_pos_eq (/ (N * M))); [reflexivity|].
      left. apply Rinv_0_lt_compat, Rmult_lt_0_compat; lra. }
    unfold Rdiv in E, EA, I1, I2 |- *. rewrite !(Rmult_plus_distr_r _ _ (/ (N * M))), E, EA. split.
    + replace (rv (f x) * rv (g y) + sumS (combine (map f a) (map g b)) - (P * Q + sumS (combine a b) * / (N * M)))
        with ((rv (f x) * rv (g y) - P * Q) + (sumS (combine (map f a) (map g b)) - sumS (combine a b) * / (N * M))) by ring.
      eapply Rle_trans; [apply Rabs_triang|]. lra.
    + assert (Rabs (rv (f x) * rv (g y)) <= Rabs (P * Q) + ((2 * c + c * c) * Rabs (P * Q) + 6 * e)).
      { replace (rv (f x) * rv (g y)) with (P * Q + (rv (f x) * rv (g y) - P * Q)) by ring.
        eapply Rle_trans; [apply Rabs_triang|]. lra. }
      lra.
Qed.

(** The Cauchy-Schwarz inequality, for absolute values. *)
Lemma cauchy a : forall b N M, 0 < N -> 0 < M -> length a = length b ->
  sumA (combine a b) / (N * M) <= (sq a / (N * N) + sq b / (M * M)) / 2.
Proof.
  unfold sq. induction a as [|x a IH]; intros [|y b] N M HN HM Hl; try discriminate.
  - cbn [combine]. change (sumS []) with 0. change (sumA []) with 0. unfold Rdiv. lra.
  - cbn [length] in Hl. injection Hl as Hl. specialize (IH b N M HN HM Hl). cbn [combine].
    rewrite !sumS_cons, !sumA_cons. cbn [fst snd].
    set (P := Rabs (rv x) / N). set (Q := Rabs (rv y) / M).
    assert (E : Rabs (rv x * rv y) / (N * M) = P * Q) by (unfold P, Q; rewrite Rabs_mult; field; lra).
    assert (EP : rv x * rv x / (N * N) = P * P).
    { unfold P. replace (rv x * rv x) with (Rabs (rv x) * Rabs (rv x)) by (rewrite <- Rabs_mult; apply Rabs_pos_eq, Rle_0_sqr). field. lra. }
    assert (EQ : rv y * rv y / (M * M) = Q * Q).
    { unfold Q. replace (rv y * rv y) with (Rabs (rv y) * Rabs (rv y)) by (rewrite <- Rabs_mult; apply Rabs_pos_eq, Rle_0_sqr). field. lra. }
    unfold Rdiv in E, EP, EQ, IH |- *. rewrite !Rmult_plus_distr_r, E, EP, EQ.
    pose proof (Rle_0_sqr (P - Q)) as Hs. unfold Rsqr in Hs. lra.
Qed.

(** The exact cosine distance. *)
Definition cosdist (a b : vec) : R := 1 - sumS (combine a b) / (norm a * norm b).

Lemma norm_pos a : moderate a -> 0 < norm a /\ norm a * norm a = sq a.
Proof.
  intros H. pose proof (norm_rel a H) as (_ & _ & _ & HN & _). pose proof (moderate_sq a H) as [Hs _].
  split; [eapply Rlt_le_trans; [apply bpow_gt_0|exact HN]|]. apply sqrt_def. eapply Rle_trans; [apply bpow_ge_0|exact Hs].
Qed.

Lemma comp_le a x : moderate a -> In x a -> Rabs (rv x / norm a) <= 1.
Proof.
  intros Hm Hx. destruct (norm_pos a Hm) as [HN E]. pose proof (sq_in a x Hx) as H.
  unfold Rdiv. rewrite Rabs_mult, (Rabs_pos_eq (/ norm a)) by (left; now apply Rinv_0_lt_compat).
  apply Rmult_le_reg_r with (norm a); [exact HN|]. rewrite Rmult_assoc, Rinv_l, Rmult_1_r, Rmult_1_l by lra.
  rewrite <- (Rabs_pos_eq (norm a)) by lra. apply Rsqr_le_abs_0. unfold Rsqr. lra.
Qed.

Lemma cauchy_one a b : moderate a -> moderate b -> length a = length b ->
  0 <= sumA (combine a b) / (norm a * norm b) <= 1.
Proof.
  intros Ha Hb Hl. destruct (norm_pos a Ha) as [HN EN]. destruct (norm_pos b Hb) as [HM EM]. split.
  - apply Rmult_le_pos; [apply sumA_pos|]. left. apply Rinv_0_lt_compat, Rmult_lt_0_compat; lra.
  - eapply Rle_trans; [apply (cauchy a b _ _ HN HM Hl)|]. rewrite EN, EM. unfold Rdiv.
    assert (0 < sq a) by (rewrite <- EN; now apply Rmult_lt_0_compat).
    assert (0 < sq b) by (rewrite <- EM; now apply Rmult_lt_0_compat). rewrite !Rinv_r by lra. lra.
Qed.

Lemma one_real : f32_valid f32_one /\ fin f32_one /\ rv f32_one = 1.
Proof. split; [reflexivity|]. split; [reflexivity|]. unfold rv. cbn. unfold F2R. cbn. lra. Qed.

(** The error bound: (4n + 24) * 2^-24 for n components. *)
Definition cos_eps (n : nat) : R := (4 * INR n + 24) * u.

Lemma cosine_error dot a b : dot_ok dot -> moderate a -> moderate b -> length a = length b ->
  let d := f32_sub f32_one (dot (normalize a) (normalize b)) in
  f32_valid d /\ fin d /\ Rabs (rv d - cosdist a b) <= cos_eps (length a).
Proof.
  intros Hdot Ha Hb Hl. cbv zeta. pose proof Ha as (Oa & Hn & _). pose proof Hb as (Ob & _).
  assert (Na : okv (normalize a)) by (destruct Oa; destruct (normalize_finite a); auto; now split).
  assert (Nb : okv (normalize b)) by (destruct Ob; destruct (normalize_finite b); auto; now split).
  rewrite (normalize_map a Ha), (normalize_map b Hb) in *.
  set (f := fun x => f32_div x (sqrt32 (sumsq a f32_zero))) in *. set (g := fun x => f32_div x (sqrt32 (sumsq b f32_zero))) in *.
  destruct (norm_pos a Ha) as [HN _]. destruct (norm_pos b Hb) as [HM _].
  set (n := length a) in *. pose proof (comp_err_small n Hn) as Hc. pose proof eta_pos as He0.
  pose proof (eta_small n Hn) as Hes. pose proof u_pos as Hu. pose proof u_val as Huv.
  assert (P130 : pow2 (-130) <= u * / 1000000).
  { apply Rle_trans with (pow2 (-50)); [apply bpow_le; lia|]. change (pow2 (-50)) with (/ 1125899906842624). rewrite u_val. lra. }
  assert (Hi0 : 0 <= INR n) by apply pos_INR.
  assert (Hne : INR (4 * n + 600) * eta = 4 * (INR n * eta) + 600 * eta).
  { rewrite plus_INR, mult_INR. replace (INR 4) with 4 by (cbn; ring). replace (INR 600) with 600 by (rewrite INR_IZR_INZ; reflexivity). ring. }
  assert (Hne0 : 0 <= INR n * eta) by (apply Rmult_le_pos; lra).
  assert (He1 : 0 <= eta <= 1) by (split; [lra|]; nra).
  destruct (dot_err (comp_err n) eta f g (norm a) (norm b) a b) as [D1 D2]; try assumption; try lra.
  { intros x Hx. split; [now apply comp_le|]. destruct (comp_rel a x Ha Hx) as (_ & _ & H). exact H. }
  { intros x Hx. split; [now apply comp_le|]. destruct (comp_rel b x Hb Hx) as (_ & _ & H). rewrite <- Hl in H. exact H. }
  fold n in D1, D2. pose proof (cauchy_one a b Ha Hb Hl) as Hcs.
  set (X := sumA (combine a b) / (norm a * norm b)) in *. set (c := comp_err n) in *.
  set (a' := map f a) in *. set (b' := map g b) in *.
  assert (La : length a' = n) by (unfold a'; apply map_length). assert (Lb : length b' = n) by (unfold b'; rewrite map_length; now symmetry).
  assert (Hcc : c * c <= / 200 * c) by (apply Rmult_le_compat_r; lra).
  assert (HX1 : (2 * c + c * c) * X <= (2 * c + c * c) * 1) by (apply Rmult_le_compat_l; nra).
  assert (HX2 : (1 + 2 * c + c * c) * X <= (1 + 2 * c + c * c) * 1) by (apply Rmult_le_compat_l; nra).
  assert (HA : sumA (combine a' b') <= 1011 / 1000) by lra.
  assert (Hk : INR (n + 7) * u <= / 240).
  { rewrite plus_INR. pose proof (INR_65536 n Hn). replace (INR 7) with 7 by (cbn; ring). lra. }
  pose proof (sumA_pos (combine a' b')) as HA0.
  assert (Hroom : room (n + 7) (INR (4 * n + 600)) (sumA (combine a' b'))).
  { apply room_2; [lra| |rewrite Hne; lra]. apply Rle_trans with (pow2 1); [change (pow2 1) with 2; lra|apply bpow_le; lia]. }
  pose proof (Hdot a' b') as H. rewrite La, Lb in H. specialize (H eq_refl Na Nb Hroom).
  destruct H as (Vd & Fd & HS & _ & HD). set (d := dot a' b') in *.
  pose proof (grow_lin (n + 7)) as Hg. specialize (Hg ltac:(lra)). pose proof (grow_ge (n + 7)) as Hg1.
  assert (G1 : (grow (n + 7) - 1) * sumA (combine a' b') <= 16 / 15 * (INR (n + 7) * u) * (1011 / 1000)) by (apply Rmult_le_compat; lra).
  assert (G2 : grow (n + 7) * (INR (4 * n + 600) * eta) <= 2 * (INR (4 * n + 600) * eta)) by (apply Rmult_le_compat_r; [rewrite Hne|]; lra).
  assert (E7 : INR (n + 7) * u = INR n * u + 7 * u) by (rewrite plus_INR; replace (INR 7) with 7 by (cbn; ring); ring).
  assert (Hd2 : Rabs (rv d) <= 103 / 100).
  { replace (rv d) with ((rv d - sumS (combine a' b')) + sumS (combine a' b')) by ring. eapply Rle_trans; [apply Rabs_triang|]. lra. }
  destruct one_real as (V1 & F1 & R1).
  destruct (sub_real prec32 emax32 _ _ f32_one d V1 Vd F1 Fd) as [Vs Hs]. fold (rv f32_one) (rv d) in Hs. rewrite R1 in Hs.
  assert (Hs3 : Rabs (1 - rv d) <= 203 / 100).
  { eapply Rle_trans; [apply Rabs_triang|]. rewrite Rabs_R1, Rabs_Ropp. lra. }
  destruct Hs as [(_ & Fs & Es)|(Ns & _)].
  2:{ exfalso. apply Ns. eapply Rle_lt_trans; [apply (rnd32_abs_le _ 2); [lia|]|apply bpow_lt; reflexivity]. change (pow2 2) with 4. lra. }
  split; [exact Vs|]. split; [exact Fs|]. unfold rv at 1, f32_sub. rewrite Es.
  pose proof (rnd32_err (1 - rv d)) as Hr.
  assert (Hr2 : u * Rabs (1 - rv d) <= u * (203 / 100)) by (apply Rmult_le_compat_l; lra).
  unfold cosdist. set (Y := sumS (combine a b) / (norm a * norm b)) in *.
  replace (rnd32 (1 - rv d) - (1 - Y)) with
    ((rnd32 (1 - rv d) - (1 - rv d)) + (- (rv d - sumS (combine a' b')) + - (sumS (combine a' b') - Y))) by ring.
  eapply Rle_trans; [apply Rabs_triang|]. eapply Rle_trans; [apply Rplus_le_compat_l, Rabs_triang|]. rewrite !Rabs_Ropp.
  unfold cos_eps. assert (Hnu : 0 <= INR n * u) by (apply Rmult_le_pos; lra). unfold c, comp_err in *. lra.
Qed.
