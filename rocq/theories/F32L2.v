(** Squared Euclidean, dot product, Manhattan and Hamming distances against the exact
    ones. *)
From Coq Require Import ZArith Reals Psatz.
From Flocq Require Import Core.Core Plus_error Relative IEEE754.BinarySingleNaN.
From Verif Require Import Base F32 F32Real F32Norm F32Err PQ Graph Search Distancer DistancerProofs DistancerDepth
  PropDistancer Persist F32Cos F32Cmp.
Local Open Scope R_scope.

(** Finite components, at most 65536 of them, none above 2^40 in absolute value. *)
Definition bounded (a : vec) : Prop :=
  okv a /\ (Z.of_nat (length a) <= 65536)%Z /\ forall x, In x a -> Rabs (rv x) <= pow2 40.
Definition okb (p : f32 * f32) : Prop :=
  okp p /\ Rabs (rv (fst p)) <= pow2 40 /\ Rabs (rv (snd p)) <= pow2 40.

(** Exact sums. *)
Definition sum2 (l : list (f32 * f32)) : R :=
  fold_right (fun p s => (rv (fst p) - rv (snd p)) * (rv (fst p) - rv (snd p)) + s) 0 l.
Definition sum1 (l : list (f32 * f32)) : R := fold_right (fun p s => Rabs (rv (fst p) - rv (snd p)) + s) 0 l.

Lemma sum2_cons p l : sum2 (p :: l) = (rv (fst p) - rv (snd p)) * (rv (fst p) - rv (snd p)) + sum2 l.
Proof. reflexivity. Qed.
Lemma sum1_cons p l : sum1 (p :: l) = Rabs (rv (fst p) - rv (snd p)) + sum1 l.
Proof. reflexivity. Qed.
Lemma sum2_pos l : 0 <= sum2 l.
Proof. induction l as [|p l IH]; [apply Rle_refl|]. rewrite sum2_cons. pose proof (Rle_0_sqr (rv (fst p) - rv (snd p))) as H. unfold Rsqr in H. lra. Qed.
Lemma sum1_pos l : 0 <= sum1 l.
Proof. induction l as [|p l IH]; [apply Rle_refl|]. rewrite sum1_cons. pose proof (Rabs_pos (rv (fst p) - rv (snd p))). lra. Qed.

Lemma bounded_pairs a : forall b, bounded a -> bounded b -> Forall okb (combine a b).
Proof.
  intros b (Oa & _ & Ha) (Ob & _ & Hb). pose proof (okv_pairs a b Oa Ob) as H. rewrite Forall_forall in *.
  intros [x y] Hi. split; [now apply H|]. cbn [fst snd]. split.
  - apply Ha. eapply in_combine_l; eassumption.
  - apply Hb. eapply in_combine_r; eassumption.
Qed.

(** The difference has a relative error only. *)
Lemma sub_rel x y : okb (x, y) -> let r := f32_sub x y in
  f32_valid r /\ fin r /\ exists e, Rabs e <= u /\ rv r = (rv x - rv y) * (1 + e).
Proof.
  intros ((Vx & Vy & Fx & Fy) & Bx & By). cbn [fst snd] in *. cbv zeta.
  destruct (sub_real prec32 emax32 _ _ x y Vx Vy Fx Fy) as [Vm [(Sm & Fm & Em)|(Sm & _)]].
  - split; [exact Vm|]. split; [exact Fm|].
    destruct (FLT_plus_error_N_ex radix2 (-149) 24 (fun z => negb (Z.even z)) (rv x) (- rv y)) as (e & He & E).
    + exact (valid_format prec32 emax32 x Vx).
    + apply generic_format_opp. exact (valid_format prec32 emax32 y Vy).
    + exists e. split.
      * eapply Rle_trans; [exact He|].
        assert (Hu : u_ro radix2 24 = u) by (unfold u_ro, u; change (-24)%Z with (-1 + (-24 + 1))%Z; rewrite (bpow_plus radix2 (-1)); reflexivity).
        rewrite Hu. pose proof u_pos. unfold Rdiv. rewrite <- (Rmult_1_r u) at 3. apply Rmult_le_compat_l; [lra|].
        rewrite <- Rinv_1. apply Rinv_le_contravar; lra.
      * unfold rv at 1, f32_sub. rewrite Em. exact E.
  - exfalso. apply Sm. fold (rv x) (rv y). eapply Rle_lt_trans; [apply (rnd32_abs_le _ 41); [lia|]|apply bpow_lt; unfold emax32; lia].
    unfold Rminus. eapply Rle_trans; [apply Rabs_triang|]. rewrite Rabs_Ropp.
    change 41%Z with (1 + 40)%Z. rewrite bpow_plus. change (pow2 1) with 2. lra.
Qed.

Definition dpair (p : f32 * f32) : f32 * f32 := (f32_sub (fst p) (snd p), f32_sub (fst p) (snd p)).

Lemma dpair_ok l : Forall okb l -> Forall okp (map dpair l).
Proof.
  intros H. apply Forall_map. eapply Forall_impl; [|exact H]. intros [x y] Hb.
  destruct (sub_rel x y Hb) as (V & F & _). repeat split; assumption.
Qed.
Lemma dpair_sum l : Forall okb l -> sumS (map dpair l) = sumA (map dpair l) /\
  Rabs (sumS (map dpair l) - sum2 l) <= ((1 + u) * (1 + u) - 1) * sum2 l.
Proof.
  pose proof u_pos as Hu.
  induction 1 as [|[x y] l Hb Hl (IH1 & IH2)]; cbn [map].
  - split; [reflexivity|]. change (sumS []) with 0. change (sum2 []) with 0. rewrite Rminus_0_r, Rabs_R0. lra.
  - rewrite sumS_cons, sumA_cons, sum2_cons, IH1. change (fst (dpair (x, y))) with (f32_sub x y). change (snd (dpair (x, y))) with (f32_sub x y). cbn [fst snd].
    destruct (sub_rel x y Hb) as (_ & _ & e & He & E). split; [rewrite Rabs_pos_eq by apply Rle_0_sqr; reflexivity|].
    set (r := f32_sub x y) in *. set (d := rv x - rv y) in *. set (S := sumA (map dpair l)) in *. rewrite IH1 in IH2. fold S in IH2.
    replace (rv r * rv r + S - (d * d + sum2 l)) with ((rv r * rv r - d * d) + (S - sum2 l)) by ring.
    eapply Rle_trans; [apply Rabs_triang|]. rewrite Rmult_plus_distr_l. apply Rplus_le_compat; [|exact IH2].
    rewrite E. replace (d * (1 + e) * (d * (1 + e)) - d * d) with ((2 * e + e * e) * (d * d)) by ring.
    rewrite Rabs_mult, (Rabs_pos_eq (d * d)) by apply Rle_0_sqr. apply Rmult_le_compat_r; [apply Rle_0_sqr|].
    apply Rabs_le_inv in He. apply Rabs_le. nra.
Qed.

Lemma fsumk_dpair (K : arith f32) elem elem' k c l r :
  (forall x y s, elem' x y s = elem (f32_sub x y) (f32_sub x y) s) ->
  fsumk K elem' k c l r -> fsumk K elem k c (map dpair l) r.
Proof.
  intros He. induction 1 as [|k c a b l r H IH|k c l1 l2 r1 r2 H1 IH1 H2 IH2|k c k' c' l r Hk Hc H IH|k c l l' r Hp H IH].
  - constructor.
  - rewrite He. cbn [map]. unfold dpair at 1. cbn [fst snd]. now constructor.
  - rewrite map_app. now constructor.
  - eapply fk_weak; eauto.
  - eapply fk_perm; [apply Permutation_map; exact Hp|exact IH].
Qed.

Lemma l2_fsumk l2 a b : l2_impl l2 -> length a = length b -> exists elem,
  (forall k c x y z S A, okp (x, y) -> approx (Datatypes.S k) c z S A ->
    room (Datatypes.S (Datatypes.S k)) (c + 2) (Rabs (rv x * rv y) + A) ->
    approx (Datatypes.S (Datatypes.S k)) (c + 2) (elem x y z) (rv x * rv y + S) (Rabs (rv x * rv y) + A)) /\
  fsumk f32_arith elem (length a + 6) (4 * length a + 600) (map dpair (combine a b)) (l2 a b).
Proof.
  intros Hi Hl. destruct Hi.
  - exists (fun x y s => f32_add s (f32_mul x y)). split; [exact mul_elem|].
    apply (fsumk_dpair f32_arith _ (fun x y s => let d := f32_sub x y in f32_add s (f32_mul d d))); [reflexivity|].
    eapply fk_weak; [| |exact (eq_ind _ (fun l => fsumk _ _ _ _ l _) (loop_fsumk f32_arith (fun x y s => let d := f32_sub x y in f32_add s (f32_mul d d)) a b 0 [] f32_zero (fk_zero _ _) Hl) _ (app_nil_r _))]; lia.
  - exists f32_fma. split; [exact fma_elem|].
    apply (fsumk_dpair f32_arith _ (fun x y s => let d := f32_sub x y in f32_fma d d s)); [reflexivity|].
    destruct (kernel_total f32_arith (fun x y s => let d := a_sub f32_arith x y in a_fma f32_arith d d s) a b Hl) as (r & E).
    assert (E' : l2_avx a b = r) by (change (l2_simd f32_arith a b = Some r) in E; unfold l2_avx; now rewrite E). rewrite E'. exact (kernel_fsumk f32_arith _ a b r Hl E).
Qed.

Lemma sum2_le l : Forall okb l -> sum2 l <= INR (length l) * pow2 82.
Proof.
  induction 1 as [|[x y] l (_ & Bx & By) Hl IH]; [cbn [length INR]; change (sum2 []) with 0; lra|].
  rewrite sum2_cons. cbn [fst snd length] in *. rewrite S_INR.
  assert (H : (rv x - rv y) * (rv x - rv y) <= pow2 82); [|lra].
  assert (Hd : Rabs (rv x - rv y) <= pow2 41).
  { unfold Rminus. eapply Rle_trans; [apply Rabs_triang|]. rewrite Rabs_Ropp.
    change 41%Z with (1 + 40)%Z. rewrite bpow_plus. change (pow2 1) with 2. lra. }
  replace ((rv x - rv y) * (rv x - rv y)) with (Rabs (rv x - rv y) * Rabs (rv x - rv y))
    by (rewrite <- Rabs_mult; apply Rabs_pos_eq, Rle_0_sqr).
  change 82%Z with (41 + 41)%Z. rewrite bpow_plus. pose proof (Rabs_pos (rv x - rv y)). apply Rmult_le_compat; lra.
Qed.

Lemma INR_room n j : (Z.of_nat n <= 65536)%Z -> (j <= 20)%nat -> 0 <= INR (n + j) * u <= / 200.
Proof.
  intros H Hj. pose proof (INR_65536 n H) as Hn. rewrite plus_INR. pose proof (le_INR _ _ Hj) as Hj'. cbn in Hj'.
  pose proof (pos_INR j). pose proof u_val. rewrite Rmult_plus_distr_r. split; [nra|]. nra.
Qed.

(** What [approx] says for long vectors. *)
Definition acc (n : nat) : R := (11 / 10 * INR n + 11) * u.
Lemma approx_lin n k z S A : (Z.of_nat n <= 65536)%Z -> (k <= n + 9)%nat ->
  approx k (INR (4 * n + 600)) z S A -> Rabs (rv z - S) <= acc n * A + pow2 (-129).
Proof.
  intros Hn Hk (_ & _ & HA & _ & H). pose proof (INR_room n 9 Hn ltac:(lia)) as Hr. pose proof u_pos as Hu.
  pose proof (le_INR _ _ Hk) as Hk'. assert (Hku : INR k * u <= INR (n + 9) * u) by (apply Rmult_le_compat_r; lra).
  assert (Hg : grow k <= 1 + 16 / 15 * (INR k * u)) by (apply grow_lin; lra).
  pose proof (grow_ge k) as Hg1. pose proof (Rabs_pos S). pose proof (eta_small n Hn) as He.
  assert (0 <= INR (4 * n + 600) * eta) by (apply Rmult_le_pos; [apply pos_INR|left; apply eta_pos]).
  eapply Rle_trans; [exact H|]. apply Rplus_le_compat.
  - apply Rmult_le_compat_r; [lra|]. unfold acc. rewrite plus_INR in Hku. change (INR 9) with (1+1+1+1+1+1+1+1+1) in Hku.
    pose proof (pos_INR n). assert (0 <= INR n * u) by (apply Rmult_le_pos; lra). lra.
  - apply Rle_trans with (2 * pow2 (-130)); [apply Rmult_le_compat; lra|]. change 2 with (pow2 1). rewrite <- bpow_plus. apply bpow_le. lia.
Qed.

(** Squared Euclidean distance. *)
Lemma l2_approx l2 a b : l2_impl l2 -> length a = length b -> bounded a -> bounded b ->
  approx (length a + 9) (INR (4 * length a + 600)) (l2 a b) (sum2 (combine a b)) (sum2 (combine a b)).
Proof.
  intros Hi Hl Ha Hb. destruct (l2_fsumk l2 a b Hi Hl) as (elem & He & Hf).
  pose proof (bounded_pairs a b Ha Hb) as Hp. destruct (dpair_sum _ Hp) as (HS & HD).
  pose proof Ha as (_ & Hn & _). set (n := length a) in *. set (D := sum2 (combine a b)) in *.
  pose proof (sum2_pos (combine a b)) as HD0. fold D in HD0. pose proof u_pos as Hu.
  set (T := sumA (map dpair (combine a b))) in *. pose proof (sumA_pos (map dpair (combine a b))) as HT0. fold T in HT0.
  rewrite HS in HD. fold T in HD.
  assert (HT : T <= (1 + u) * (1 + u) * D) by (apply Rabs_le_inv in HD; lra).
  assert (HDm : D <= pow2 98).
  { eapply Rle_trans; [apply (sum2_le _ Hp)|]. rewrite combine_length, <- Hl, Nat.min_id. change 98%Z with (16 + 82)%Z. rewrite bpow_plus.
    apply Rmult_le_compat_r; [apply bpow_ge_0|]. rewrite INR_IZR_INZ. apply IZR_le in Hn. exact Hn. }
  assert (Hr : room (S (n + 6)) (INR (4 * n + 600)) T).
  { apply room_2.
    - pose proof (INR_room n 7 Hn ltac:(lia)) as H7. replace (S (n + 6)) with (n + 7)%nat by lia. lra.
    - pose proof (eta_small n Hn) as H2. assert (pow2 (-130) <= pow2 98) by (apply bpow_le; lia).
      assert (Huu : (1 + u) * (1 + u) <= 2) by (rewrite u_val; lra).
      assert (T <= 2 * pow2 98) by (eapply Rle_trans; [exact HT|]; apply Rmult_le_compat; nra).
      apply Rle_trans with (pow2 2 * pow2 98); [change (pow2 2) with 4; lra|]. rewrite <- bpow_plus. apply bpow_le. lia.
    - pose proof eta_pos. pose proof (pos_INR (4 * n + 600)). assert (0 <= INR (4 * n + 600) * eta) by (apply Rmult_le_pos; lra). lra. }
  pose proof (fsumk_approx elem He _ _ _ _ Hf (dpair_ok _ Hp) Hr) as (V & F & _ & Hc & H). rewrite HS in H. fold T in H.
  split; [exact V|]. split; [exact F|]. split; [rewrite Rabs_pos_eq; lra|]. split; [exact Hc|].
  replace (n + 9)%nat with (S (S (S (n + 6)))) by lia. rewrite !(grow_S (S _)).
  set (g := grow (S (n + 6))) in *. pose proof (grow_ge (S (n + 6))) as Hg. fold g in Hg.
  replace (rv (l2 a b) - D) with ((rv (l2 a b) - T) + (T - D)) by ring. eapply Rle_trans; [apply Rabs_triang|].
  assert (K1 : (g - 1) * T <= (g - 1) * ((1 + u) * (1 + u) * D)) by (apply Rmult_le_compat_l; lra).
  assert (K2 : 0 <= INR (4 * n + 600) * eta) by (apply Rmult_le_pos; [apply pos_INR|left; apply eta_pos]).
  assert (K3 : g * (INR (4 * n + 600) * eta) <= (1 + u) * ((1 + u) * g) * (INR (4 * n + 600) * eta)) by (apply Rmult_le_compat_r; [exact K2|nra]).
  replace (((1 + u) * ((1 + u) * g) - 1) * D) with ((g - 1) * ((1 + u) * (1 + u) * D) + ((1 + u) * (1 + u) - 1) * D) by ring.
  lra.
Qed.

(** Dot product. *)
Lemma sumA_le l : Forall okb l -> sumA l <= INR (length l) * pow2 80.
Proof.
  induction 1 as [|[x y] l (_ & Bx & By) Hl IH]; [cbn [length INR]; change (sumA []) with 0; lra|].
  rewrite sumA_cons. cbn [fst snd length] in *. rewrite S_INR.
  assert (H : Rabs (rv x * rv y) <= pow2 80); [|lra]. rewrite Rabs_mult. change 80%Z with (40 + 40)%Z. rewrite bpow_plus.
  apply Rmult_le_compat; try apply Rabs_pos; assumption.
Qed.
Lemma dot_approx dot a b : dot_impl dot -> length a = length b -> bounded a -> bounded b ->
  approx (length a + 7) (INR (4 * length a + 600)) (dot a b) (sumS (combine a b)) (sumA (combine a b)).
Proof.
  intros Hi Hl Ha Hb. pose proof (bounded_pairs a b Ha Hb) as Hp. pose proof Ha as (Oa & Hn & _). pose proof Hb as (Ob & _).
  apply (dot_impl_ok dot Hi); auto. apply room_2.
  - pose proof (INR_room (length a) 7 Hn ltac:(lia)). lra.
  - pose proof (eta_small _ Hn) as H2. assert (pow2 (-130) <= pow2 98) by (apply bpow_le; lia).
    assert (sumA (combine a b) <= pow2 98).
    { eapply Rle_trans; [apply (sumA_le _ Hp)|]. rewrite combine_length, <- Hl, Nat.min_id.
      apply Rle_trans with (pow2 16 * pow2 80); [|rewrite <- bpow_plus; apply bpow_le; lia].
      apply Rmult_le_compat_r; [apply bpow_ge_0|]. rewrite INR_IZR_INZ. apply IZR_le in Hn. exact Hn. }
    apply Rle_trans with (pow2 1 * pow2 98); [change (pow2 1) with 2; lra|]. rewrite <- bpow_plus. apply bpow_le. lia.
  - pose proof (sumA_pos (combine a b)). pose proof eta_pos. pose proof (pos_INR (4 * length a + 600)).
    assert (0 <= INR (4 * length a + 600) * eta) by (apply Rmult_le_pos; lra). lra.
Qed.

(** Manhattan distance. *)
Lemma abs_real x : f32_valid x -> fin x -> f32_valid (f32_abs x) /\ fin (f32_abs x) /\ rv (f32_abs x) = Rabs (rv x).
Proof.
  intros V F. destruct x as [s|s| |s m e]; try discriminate; cbn.
  - unfold rv. cbn. now rewrite Rabs_R0.
  - split; [exact V|]. split; [reflexivity|]. unfold rv. cbn [SF2R cond_Zopp]. rewrite <- F2R_Zabs. now destruct s.
Qed.
Lemma sum1_le l : Forall okb l -> sum1 l <= INR (length l) * pow2 41.
Proof.
  induction 1 as [|[x y] l (_ & Bx & By) Hl IH]; [cbn [length INR]; change (sum1 []) with 0; lra|].
  rewrite sum1_cons. cbn [fst snd length] in *. rewrite S_INR.
  assert (H : Rabs (rv x - rv y) <= pow2 41); [|lra].
  unfold Rminus. eapply Rle_trans; [apply Rabs_triang|]. rewrite Rabs_Ropp.
  change 41%Z with (1 + 40)%Z. rewrite bpow_plus. change (pow2 1) with 2. lra.
Qed.
Lemma abs_sub_approx x y : okb (x, y) -> approx 1 0 (f32_abs (f32_sub x y)) (Rabs (rv x - rv y)) (Rabs (rv x - rv y)).
Proof.
  intros H. destruct (sub_rel x y H) as (V & F & e & He & E). destruct (abs_real _ V F) as (V' & F' & E').
  split; [exact V'|]. split; [exact F'|]. split; [rewrite Rabs_Rabsolu; lra|]. split; [lra|].
  rewrite E', E, Rabs_mult. unfold grow. cbn [pow]. set (d := Rabs (rv x - rv y)). assert (0 <= d) by apply Rabs_pos.
  replace (d * Rabs (1 + e) - d) with ((Rabs (1 + e) - 1) * d) by ring. rewrite Rabs_mult, (Rabs_pos_eq d) by assumption.
  rewrite Rmult_0_l, Rmult_0_r, Rplus_0_r. apply Rmult_le_compat_r; [assumption|].
  apply Rabs_le_inv in He. pose proof u_val. rewrite (Rabs_pos_eq (1 + e)) by lra. apply Rabs_le. lra.
Qed.
Lemma manhattan_loop a : forall b k z S, Forall okb (combine a b) -> length a = length b ->
  approx (Datatypes.S k) (INR k) z S S -> room (Datatypes.S (k + length a)) (INR (k + length a)) (S + sum1 (combine a b)) ->
  0 <= S ->
  approx (Datatypes.S (k + length a)) (INR (k + length a))
    (loop2 (fun sum x y => f32_add sum (f32_abs (f32_sub x y))) z a b) (S + sum1 (combine a b)) (S + sum1 (combine a b)).
Proof.
  induction a as [|x a IH]; intros [|y b] k z S Ho Hl Hz Hr HS; try discriminate; cbn [combine loop2 length] in *.
  - rewrite Nat.add_0_r in *. change (sum1 []) with 0. now rewrite Rplus_0_r.
  - inversion Ho as [|? ? O1 O2]; subst. rewrite sum1_cons in *. cbn [fst snd] in *. set (d := Rabs (rv x - rv y)) in *.
    assert (Hd : 0 <= d) by apply Rabs_pos. pose proof (sum1_pos (combine a b)) as H1.
    rewrite <- Rplus_assoc in *. rewrite Nat.add_succ_r in *. apply (IH b (Datatypes.S k)); try assumption; [now injection Hl| |lra].
    replace (INR (Datatypes.S k)) with (INR k + 0 + 1) by (rewrite S_INR; ring).
    apply approx_add; [exact Hz| |].
    + eapply approx_weaken; [| |apply abs_sub_approx; exact O1]; [lia|lra].
    + eapply room_le; [| | | | |exact Hr]; [lia| | | |].
      * replace (INR k + 0 + 1) with (INR (Datatypes.S k)) by (rewrite S_INR; ring). apply le_INR. lia.
      * pose proof (pos_INR k). lra.
      * lra.
      * lra.
Qed.
Lemma manhattan_approx a b : length a = length b -> bounded a -> bounded b ->
  approx (length a + 9) (INR (4 * length a + 600)) (manhattan_go a b) (sum1 (combine a b)) (sum1 (combine a b)).
Proof.
  intros Hl Ha Hb. pose proof (bounded_pairs a b Ha Hb) as Hp. pose proof Ha as (_ & Hn & _). pose proof (sum1_pos (combine a b)) as H0.
  eapply approx_weaken with (k := S (0 + length a)) (c := INR (0 + length a)); [lia|apply le_INR; lia|].
  rewrite <- (Rplus_0_l (sum1 (combine a b))). apply manhattan_loop; auto.
  - eapply approx_weaken; [| |apply approx_zero]; [lia|cbn; lra].
  - rewrite Rplus_0_l. apply room_2.
    + pose proof (INR_room (length a) 1 Hn ltac:(lia)). replace (S (0 + length a)) with (length a + 1)%nat by lia. lra.
    + assert (sum1 (combine a b) <= pow2 98).
      { eapply Rle_trans; [apply (sum1_le _ Hp)|]. rewrite combine_length, <- Hl, Nat.min_id.
        apply Rle_trans with (pow2 16 * pow2 41); [|rewrite <- bpow_plus; apply bpow_le; lia].
        apply Rmult_le_compat_r; [apply bpow_ge_0|]. rewrite INR_IZR_INZ. apply IZR_le in Hn. exact Hn. }
      assert (INR (0 + length a) * eta <= pow2 (-130)).
      { eapply Rle_trans; [|apply (eta_small _ Hn)]. apply Rmult_le_compat_r; [left; apply eta_pos|]. apply le_INR. lia. }
      assert (pow2 (-130) <= pow2 98) by (apply bpow_le; lia).
      apply Rle_trans with (pow2 1 * pow2 98); [change (pow2 1) with 2; lra|]. rewrite <- bpow_plus. apply bpow_le. lia.
    + pose proof eta_pos. pose proof (pos_INR (0 + length a)). assert (0 <= INR (0 + length a) * eta) by (apply Rmult_le_pos; lra). lra.
  - lra.
Qed.

(** Hamming distance: exact while counts are float32 values. *)
Definition differ (l : list (f32 * f32)) : Z :=
  fold_right (fun p s => ((if feq (fst p) (snd p) then 0 else 1) + s)%Z) 0%Z l.
Lemma differ_pos l : (0 <= differ l <= Z.of_nat (length l))%Z.
Proof. induction l as [|p l IH]; [cbn; lia|]. cbn [differ fold_right length]. fold (differ l). destruct (feq _ _); lia. Qed.
Lemma int_rnd z : (0 <= z <= 2 ^ 24)%Z -> rnd32 (IZR z) = IZR z.
Proof.
  intros H. destruct (Z.eq_dec z (2 ^ 24)) as [->|n].
  - change (IZR (2 ^ 24)) with (pow2 24). apply rnd32_pow. lia.
  - apply round_generic; auto with typeclass_instances. apply (generic_format_FLT radix2 (-149) 24).
    exists (Float radix2 z 0); [unfold F2R; cbn; ring|cbn; lia|cbn; lia].
Qed.
Lemma add_int x z : f32_valid x -> fin x -> rv x = IZR z -> (0 <= z < 2 ^ 24)%Z ->
  let r := f32_add x f32_one in f32_valid r /\ fin r /\ rv r = IZR (z + 1).
Proof.
  intros V F E Hz. destruct one_real as (V1 & F1 & E1). cbv zeta.
  destruct (add_real prec32 emax32 _ _ x f32_one V V1 F F1) as [Va [(Sa & Fa & Ea)|(Sa & _)]].
  - split; [exact Va|]. split; [exact Fa|]. unfold rv at 1, f32_add. rewrite Ea. fold (rv x) (rv f32_one). rewrite E, E1, <- plus_IZR.
    apply int_rnd. lia.
  - exfalso. apply Sa. fold (rv x) (rv f32_one). rewrite E, E1, <- plus_IZR, int_rnd by lia.
    rewrite <- abs_IZR. change (pow2 emax32) with (IZR (2 ^ 128)). apply IZR_lt. rewrite Z.abs_eq by lia. lia.
Qed.
Lemma hamming_loop a : forall b s z, f32_valid s -> fin s -> rv s = IZR z -> (0 <= z)%Z ->
  (z + Z.of_nat (length a) <= 2 ^ 24)%Z -> length a = length b ->
  let r := loop2 (fun sum x y => if negb (feq x y) then f32_add sum f32_one else sum) s a b in
  f32_valid r /\ fin r /\ rv r = IZR (z + differ (combine a b)).
Proof.
  induction a as [|x a IH]; intros [|y b] s z V F E Hz Hn Hl; try discriminate; cbn [loop2 combine].
  - cbn [differ fold_right]. rewrite Z.add_0_r. auto.
  - cbn [differ fold_right fst snd]. fold (differ (combine a b)). cbn [length] in *. injection Hl as Hl.
    destruct (feq x y); cbn [negb].
    + apply IH; auto. lia.
    + rewrite Z.add_assoc. destruct (add_int s z V F E ltac:(lia)) as (V' & F' & E'). apply IH; auto; lia.
Qed.
Lemma add_sat x : f32_valid x -> fin x -> rv x = IZR (2 ^ 24) ->
  let r := f32_add x f32_one in f32_valid r /\ fin r /\ rv r = IZR (2 ^ 24).
Proof.
  intros V F E. destruct one_real as (V1 & F1 & E1). cbv zeta.
  assert (H : rnd32 (IZR (2 ^ 24) + 1) = IZR (2 ^ 24)).
  { assert (Vc : f32_valid (S754_finite false 8388608 1)) by reflexivity.
    destruct (add_real prec32 emax32 _ _ (S754_finite false 8388608 1) f32_one Vc V1 eq_refl F1) as [Va [(Sa & Fa & Ea)|(Sa & Ea & _)]].
    - assert (Ec : SF2R radix2 (S754_finite false 8388608 1) = IZR (2 ^ 24)) by (cbn [SF2R]; unfold F2R; cbn; lra).
      change (SF2R radix2 f32_one) with (rv f32_one) in Ea. rewrite Ec, E1 in Ea. rewrite <- Ea.
      replace (SFadd prec32 emax32 (S754_finite false 8388608 1) f32_one) with (S754_finite false 8388608 1) by (vm_compute; reflexivity).
      exact Ec.
    - exfalso. vm_compute in Ea. discriminate. }
  destruct (add_real prec32 emax32 _ _ x f32_one V V1 F F1) as [Va [(Sa & Fa & Ea)|(Sa & _)]].
  - split; [exact Va|]. split; [exact Fa|]. unfold rv at 1, f32_add. rewrite Ea. fold (rv x) (rv f32_one). rewrite E, E1. exact H.
  - exfalso. apply Sa. fold (rv x) (rv f32_one). rewrite E, E1, H. rewrite <- abs_IZR. change (pow2 emax32) with (IZR (2 ^ 128)).
    apply IZR_lt. reflexivity.
Qed.
Lemma hamming_all a : forall b s z, f32_valid s -> fin s -> rv s = IZR (Z.min (2 ^ 24) z) -> (0 <= z)%Z -> length a = length b ->
  let r := loop2 (fun sum x y => if negb (feq x y) then f32_add sum f32_one else sum) s a b in
  f32_valid r /\ fin r /\ rv r = IZR (Z.min (2 ^ 24) (z + differ (combine a b))).
Proof.
  induction a as [|x a IH]; intros [|y b] s z V F E Hz Hl; try discriminate; cbn [loop2 combine].
  - cbn [differ fold_right]. rewrite Z.add_0_r. auto.
  - cbn [differ fold_right fst snd]. fold (differ (combine a b)). cbn [length] in *. injection Hl as Hl.
    destruct (feq x y); cbn [negb].
    + apply IH; auto.
    + rewrite Z.add_assoc. destruct (Z.lt_ge_cases z (2 ^ 24)) as [Hlt|Hge].
      * rewrite Z.min_r in E by lia. destruct (add_int s z V F E ltac:(lia)) as (V' & F' & E'). apply IH; auto; [|lia].
        rewrite Z.min_r by lia. exact E'.
      * rewrite Z.min_l in E by lia. destruct (add_sat s V F E) as (V' & F' & E'). apply IH; auto; [|lia].
        rewrite Z.min_l by lia. exact E'.
Qed.

(** Square root of an approximated number. *)
Lemma sqrt_near q2 D al h : 0 <= q2 -> 0 <= D -> 0 <= al <= 1 -> 0 <= h ->
  Rabs (q2 - D) <= al * D + h * h -> Rabs (sqrt q2 - sqrt D) <= al * sqrt D + h.
Proof.
  intros Hq HD Ha Hh H. pose proof (sqrt_pos q2) as Pq. pose proof (sqrt_pos D) as PN.
  assert (Eq : sqrt q2 * sqrt q2 = q2) by (apply sqrt_def; lra). assert (EN : sqrt D * sqrt D = D) by (apply sqrt_def; lra).
  set (q := sqrt q2) in *. set (N := sqrt D) in *. rewrite <- Eq, <- EN in H. apply Rabs_le_inv in H.
  assert (HaN : 0 <= al * N) by nra. apply Rabs_le. split.
  - apply Rnot_lt_le. intros Hc. set (t := (1 - al) * N - h). assert (Ht : q < t) by (unfold t; lra).
    assert (q * q < t * t) by nra. assert ((t + h) * (t + h) = (1 - al) * (1 - al) * (N * N)) by (unfold t; ring).
    assert (0 <= N * N) by nra. assert ((1 - al) * (1 - al) * (N * N) <= (1 - al) * (N * N)) by (apply Rmult_le_compat_r; nra).
    nra.
  - apply Rnot_lt_le. intros Hc. set (t := (1 + al) * N + h). assert (Ht : t < q) by (unfold t; lra).
    assert (0 <= t) by (unfold t; nra). assert (t * t < q * q) by nra.
    assert ((1 + al) * (N * N) + h * h <= t * t).
    { unfold t. replace (((1 + al) * N + h) * ((1 + al) * N + h)) with ((1 + al) * ((1 + al) * (N * N)) + 2 * ((1 + al) * N) * h + h * h) by ring.
      assert (0 <= (1 + al) * N) by nra. assert (0 <= 2 * ((1 + al) * N) * h) by (apply Rmult_le_pos; lra).
      assert (0 <= (1 + al) * (N * N)) by nra. nra. }
    lra.
Qed.

Lemma euclid_near a b : length a = length b -> bounded a -> bounded b ->
  let r := sqrt32 (l2_go a b) in let N := sqrt (sum2 (combine a b)) in
  f32_valid r /\ fin r /\ Rabs (rv r - N) <= (acc (length a) + 2 * u) * N + pow2 (-63).
Proof.
  intros Hl Ha Hb. pose proof (l2_approx l2_go a b l2_impl_go Hl Ha Hb) as HA. pose proof HA as (V & F & _).
  pose proof Ha as (_ & Hn & _). pose proof (approx_lin (length a) _ _ _ _ Hn (Nat.le_refl _) HA) as H.
  set (D := sum2 (combine a b)) in *. pose proof (sum2_pos (combine a b)) as HD. fold D in HD. cbv zeta.
  pose proof (l2_go_nonneg a b) as Hz.
  assert (V0 : f32_valid f32_zero) by reflexivity.
  apply (flt_false _ _ V V0 F eq_refl) in Hz. change (rv f32_zero) with 0 in Hz.
  destruct (sqrt32_real _ V F Hz) as (Vr & Fr & Er). split; [exact Vr|]. split; [exact Fr|]. rewrite Er.
  set (z := rv (l2_go a b)) in *. set (N := sqrt D). set (q := sqrt z).
  assert (PN : 0 <= N) by apply sqrt_pos. assert (Pq : 0 <= q) by apply sqrt_pos. pose proof u_pos as Hu. pose proof u_val as Huv.
  pose proof (INR_65536 _ Hn) as Hn'.
  assert (Hacc : 0 <= acc (length a) <= / 100) by (unfold acc; lra).
  assert (Hq : Rabs (q - N) <= acc (length a) * N + pow2 (-64)).
  { apply sqrt_near; auto; [lra|apply bpow_ge_0|]. eapply Rle_trans; [exact H|]. apply Rplus_le_compat_l.
    rewrite <- bpow_plus. apply bpow_le. lia. }
  pose proof (rnd64_err q) as H64. pose proof (rnd32_err (rnd64 q)) as H32. rewrite (Rabs_pos_eq q Pq) in H64.
  assert (P64 : 0 < pow2 (-64)) by apply bpow_gt_0.
  assert (E53 : pow2 (-53) <= u * / 1000000) by (change (pow2 (-53)) with (/ 9007199254740992); rewrite u_val; lra).
  assert (Hqn : q <= 2 * N + pow2 (-64)) by (apply Rabs_le_inv in Hq; assert (acc (length a) * N <= / 100 * N) by (apply Rmult_le_compat_r; lra); lra).
  assert (K0 : pow2 (-1075) <= / 1000 * pow2 (-64)).
  { apply Rle_trans with (pow2 (-10) * pow2 (-64)); [rewrite <- bpow_plus; apply bpow_le; lia|].
    apply Rmult_le_compat_r; [lra|]. change (pow2 (-10)) with (/ 1024). lra. }
  assert (K0' : eta <= / 1000 * pow2 (-64)).
  { unfold eta. apply Rle_trans with (pow2 (-10) * pow2 (-64)); [rewrite <- bpow_plus; apply bpow_le; lia|].
    apply Rmult_le_compat_r; [lra|]. change (pow2 (-10)) with (/ 1024). lra. }
  assert (K1 : pow2 (-53) * q <= u * / 1000000 * (2 * N + pow2 (-64))) by (apply Rmult_le_compat; [apply bpow_ge_0|exact Pq|exact E53|exact Hqn]).
  assert (K2 : u * / 1000000 * (2 * N + pow2 (-64)) <= u * / 100000 * N + / 1000 * pow2 (-64)).
  { assert (0 <= u * N) by (apply Rmult_le_pos; lra). assert (u * pow2 (-64) <= 1 * pow2 (-64)) by (apply Rmult_le_compat_r; lra). lra. }
  assert (K3 : acc (length a) * N <= / 100 * N) by (apply Rmult_le_compat_r; lra).
  assert (K4 : u * / 100000 * N <= / 1000 * N) by (apply Rmult_le_compat_r; lra).
  assert (Hw : Rabs (rnd64 q) <= (1 + / 50) * N + 2 * pow2 (-64)).
  { replace (rnd64 q) with ((rnd64 q - q) + (q - N) + N) by ring.
    eapply Rle_trans; [apply Rabs_triang|]. eapply Rle_trans; [apply Rplus_le_compat_r, Rabs_triang|].
    rewrite (Rabs_pos_eq N) by lra. lra. }
  assert (K5 : u * Rabs (rnd64 q) <= u * ((1 + / 50) * N + 2 * pow2 (-64))) by (apply Rmult_le_compat_l; lra).
  assert (K6 : u * pow2 (-64) <= / 1000 * pow2 (-64)) by (apply Rmult_le_compat_r; lra).
  assert (K7 : 0 <= u * N) by (apply Rmult_le_pos; lra).
  replace (pow2 (-63)) with (2 * pow2 (-64)) by (change 2 with (pow2 1); rewrite <- bpow_plus; reflexivity).
  replace (rnd32 (rnd64 q) - N) with ((rnd32 (rnd64 q) - rnd64 q) + ((rnd64 q - q) + (q - N))) by ring.
  eapply Rle_trans; [apply Rabs_triang|]. eapply Rle_trans; [apply Rplus_le_compat_l, Rabs_triang|]. lra.
Qed.
