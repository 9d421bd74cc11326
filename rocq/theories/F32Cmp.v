(** Comparisons and conversions of floats, and vectors given in requests. *)
From Coq Require Import String ZArith Reals Psatz.
From Flocq Require Import Core.Core IEEE754.BinarySingleNaN.
From Verif Require Import Base F32 JsonNum F32Real F32Norm Distancer DistancerProofs PropDistancer PQ Graph Client F32Err DistancerDepth F32Cos.
Local Open Scope R_scope.

Lemma flt_real x y : f32_valid x -> f32_valid y -> fin x -> fin y -> (flt x y = true <-> rv x < rv y).
Proof.
  intros Vx Vy Fx Fy. unfold flt, SFltb, rv.
  rewrite <- (B2SF_SF2B _ _ x Vx), <- (B2SF_SF2B _ _ y Vy) in *.
  change (SFcompare (B2SF (SF2B x Vx)) (B2SF (SF2B y Vy))) with (Bcompare (SF2B x Vx) (SF2B y Vy)).
  rewrite fin_B in Fx, Fy. rewrite !R_B, (Bcompare_correct _ _ _ _ Fx Fy).
  destruct (Rcompare_spec (B2R (SF2B x Vx)) (B2R (SF2B y Vy))); split; try discriminate; intros; try reflexivity; lra.
Qed.
Lemma flt_false x y : f32_valid x -> f32_valid y -> fin x -> fin y -> (flt x y = false <-> rv y <= rv x).
Proof.
  intros Vx Vy Fx Fy. pose proof (flt_real x y Vx Vy Fx Fy) as H. destruct (flt x y).
  - split; [discriminate|]. intros. assert (rv x < rv y) by now apply H. lra.
  - split; [|reflexivity]. intros _. apply Rnot_lt_le. intros H1. apply H in H1. discriminate.
Qed.

(** Every number of a request becomes a representable float32. *)
Lemma f32_of_f64_valid x : f32_valid (f32_of_f64 x).
Proof.
  destruct x as [s|s| |s m e]; try reflexivity. cbn [f32_of_f64].
  now destruct (round_real prec32 emax32 _ _ s m e) as [V _].
Qed.
Lemma vector_of_valid l : forall v, vector_of l = Some v -> Forall f32_valid v.
Proof.
  induction l as [|j l IH]; intros v H; cbn in H.
  - injection H as <-. constructor.
  - destruct j; try discriminate. unfold f32_of_num in H. destruct (f64_of_num s) as [x|]; [|discriminate].
    destruct (vector_of l) as [w|]; [|discriminate]. injection H as <-. constructor; [apply f32_of_f64_valid|now apply IH].
Qed.

Lemma dot_impl_ok dot : dot_impl dot -> dot_ok dot.
Proof.
  intros []; [apply dot_go_ok|]. apply dot_simd_ok. intros a b H.
  destruct (kernel_total f32_arith (a_fma f32_arith) a b H) as [r E]. unfold dot_avx, dot_simd. now rewrite E.
Qed.

Lemma norm_length a : length (normalize a) = length a.
Proof. unfold normalize. destruct (feq _ _); now rewrite map_length. Qed.

(** The distance that the provider computes for two vectors as they were given. *)
Lemma cosine_query dot a b : dot_impl dot -> moderate a -> moderate b -> length a = length b ->
  exists d, p_query (cosine_provider dot) (normalize a) (normalize b) = Some d /\ f32_valid d /\ fin d /\
    Rabs (rv d - cosdist a b) <= cos_eps (length a).
Proof.
  intros Hd Ha Hb Hl. exists (f32_sub f32_one (dot (normalize a) (normalize b))). split.
  - cbn [cosine_provider p_query]. unfold checked. rewrite !norm_length, Hl, Nat.eqb_refl. reflexivity.
  - exact (cosine_error dot a b (dot_impl_ok dot Hd) Ha Hb Hl).
Qed.

Lemma sumS_bound l : Rabs (sumS l) <= sumA l.
Proof.
  induction l as [|p l IH]; [change (sumS []) with 0; change (sumA []) with 0; rewrite Rabs_R0; lra|].
  rewrite sumS_cons, sumA_cons. eapply Rle_trans; [apply Rabs_triang|]. lra.
Qed.
Lemma cosdist_range a b : moderate a -> moderate b -> length a = length b -> 0 <= cosdist a b <= 2.
Proof.
  intros Ha Hb Hl. destruct (norm_pos a Ha) as [HN _]. destruct (norm_pos b Hb) as [HM _].
  pose proof (cauchy_one a b Ha Hb Hl) as H. unfold cosdist.
  assert (Hp : 0 < / (norm a * norm b)) by (apply Rinv_0_lt_compat, Rmult_lt_0_compat; lra).
  assert (E : Rabs (sumS (combine a b) / (norm a * norm b)) <= 1).
  { unfold Rdiv. rewrite Rabs_mult, (Rabs_pos_eq (/ (norm a * norm b))) by lra.
    eapply Rle_trans; [apply Rmult_le_compat_r; [lra|apply sumS_bound]|]. apply H. }
  apply Rabs_le_inv in E. lra.
Qed.
Lemma cosdist_self a : 0 < sq a -> cosdist a a = 0.
Proof.
  intros H. unfold cosdist. fold (sq a).
  assert (E : norm a * norm a = sq a) by (apply sqrt_def; lra). rewrite E. field. lra.
Qed.
Lemma cosdist_sym a b : cosdist a b = cosdist b a.
Proof.
  unfold cosdist. rewrite (Rmult_comm (norm a)). f_equal. f_equal.
  revert b. induction a as [|x a IH]; intros [|y b]; try reflexivity. cbn [combine]. rewrite !sumS_cons. cbn [fst snd].
  now rewrite IH, Rmult_comm.
Qed.

(** Deciding [moderate] for a given vector. *)
Definition small40 (x : f32) : bool :=
  match x with
  | S754_zero _ => true
  | S754_finite _ m e => Z.leb e 40 && Z.leb (Zpos m) (2 ^ (40 - e))
  | _ => false
  end.
Definition big40 (x : f32) : bool := match x with S754_finite _ _ e => Z.leb (-40) e | _ => false end.
Definition moderate_b (v : vec) : bool :=
  forallb (SpecFloat.valid_binary prec32 emax32) v && Z.leb (Z.of_nat (length v)) 65536 &&
  forallb small40 v && existsb big40 v.

Lemma rv_abs s m e : Rabs (rv (S754_finite s m e)) = IZR (Zpos m) * pow2 e.
Proof.
  unfold rv. cbn [SF2R]. rewrite <- F2R_Zabs. unfold F2R. cbn [Fnum Fexp]. now destruct s.
Qed.
Lemma moderate_check v : moderate_b v = true -> moderate v.
Proof.
  unfold moderate_b. rewrite !andb_true_iff, !forallb_forall. intros (((H1 & H2) & H3) & H4). split; [split|split; [|split]].
  - apply Forall_forall. exact H1.
  - apply forallb_forall. intros x Hx. specialize (H3 x Hx). rewrite fin_b. now destruct x.
  - now apply Z.leb_le.
  - intros x Hx. specialize (H3 x Hx). destruct x as [s|s| |s m e]; try discriminate.
    + unfold rv. cbn [SF2R]. rewrite Rabs_R0. apply bpow_ge_0.
    + rewrite rv_abs. cbn in H3. apply andb_prop in H3. destruct H3 as [K1 K2]. apply Z.leb_le in K1, K2.
      replace (pow2 40) with (pow2 (40 - e) * pow2 e) by (rewrite <- bpow_plus; f_equal; ring).
      apply Rmult_le_compat_r; [apply bpow_ge_0|]. rewrite <- (IZR_Zpower radix2) by lia. now apply IZR_le.
  - apply existsb_exists in H4. destruct H4 as (x & Hx & Hb). exists x. split; [exact Hx|].
    destruct x as [s|s| |s m e]; try discriminate. rewrite rv_abs. cbn in Hb. apply Z.leb_le in Hb.
    rewrite <- (Rmult_1_l (pow2 (-40))). apply Rmult_le_compat; [lra|apply bpow_ge_0|apply IZR_le; lia|now apply bpow_le].
Qed.
