(** Properties C40 and C41: the distance functions and their SIMD kernels.

    [dot] and [l2] below range over the two implementations each function can
    have at run time: the Go loop and the AVX2 kernel. *)
From Verif Require Import Base F32 PQ Graph Distancer DistancerProofs.

Inductive dot_impl : (vec -> vec -> f32) -> Prop :=
| dot_impl_go : dot_impl dot_go
| dot_impl_avx : dot_impl dot_avx.
Inductive l2_impl : (vec -> vec -> f32) -> Prop :=
| l2_impl_go : l2_impl l2_go
| l2_impl_avx : l2_impl l2_avx.

(** The providers the index can be created with (geo excepted). *)
Inductive known_provider : provider -> Prop :=
| kp_cosine dot : dot_impl dot -> known_provider (cosine_provider dot)
| kp_dot dot : dot_impl dot -> known_provider (dot_provider dot)
| kp_l2 l2 : l2_impl l2 -> known_provider (l2_provider l2)
| kp_manhattan : known_provider manhattan_provider
| kp_hamming : known_provider hamming_provider.
(** Those that are sums of non-negative terms. *)
Inductive metric_provider : provider -> Prop :=
| mp_l2 l2 : l2_impl l2 -> metric_provider (l2_provider l2)
| mp_manhattan : metric_provider manhattan_provider
| mp_hamming : metric_provider hamming_provider.

Lemma dot_impl_sym dot : dot_impl dot -> fun_sym dot.
Proof. intros []; auto using dot_go_fun_sym, dot_avx_sym. Qed.
Lemma l2_impl_sym l2 : l2_impl l2 -> fun_sym l2.
Proof. intros []; auto using l2_go_fun_sym, l2_avx_sym. Qed.

Lemma known_error P a b : known_provider P ->
  (p_single P a b = None <-> length a <> length b) /\
  (p_query P a b = None <-> length a <> length b).
Proof. intros []; cbn; split; apply checked_none. Qed.

Lemma known_sym P a b : known_provider P ->
  p_single P a b = p_single P b a /\ p_single P a b = p_query P a b /\ p_query P a b = p_query P b a.
Proof.
  assert (Hc : forall f, fun_sym f -> checked f a b = checked f b a /\ checked f a b = checked f a b /\ checked f a b = checked f b a)
    by (intros; repeat split; now apply checked_sym).
  intros [dot Hd|dot Hd|l2 Hl| |]; cbn.
  - apply (Hc (fun a b => f32_sub f32_one (dot a b))). now apply cosine_sym, dot_impl_sym.
  - apply (Hc (fun a b => f32_neg (dot a b))). now apply neg_sym, dot_impl_sym.
  - apply (Hc l2). now apply l2_impl_sym.
  - apply (Hc manhattan_go). intros x y _. apply manhattan_go_sym.
  - apply (Hc hamming_go). intros x y _. apply hamming_go_sym.
Qed.

Lemma metric_nonneg P a b d : metric_provider P -> p_single P a b = Some d -> flt d f32_zero = false.
Proof.
  assert (Hc : forall f, checked f a b = Some d -> length a = length b /\ d = f a b).
  { intros f. unfold checked. destruct (Nat.eqb_spec (length a) (length b)); [|discriminate].
    intros H; inversion H; auto. }
  intros [l2 Hl| |]; cbn; intros H; apply Hc in H; destruct H as [Hab ->];
    [|apply manhattan_go_nonneg|apply hamming_go_nonneg].
  destruct Hl; [apply l2_go_nonneg|now apply l2_avx_nonneg].
Qed.

Lemma metric_self P a : metric_provider P -> forallb is_finite a = true -> p_single P a a = Some f32_zero.
Proof.
  intros HP Hf.
  assert (Hc : forall f, f a a = f32_zero -> checked f a a = Some f32_zero).
  { intros f Hz. unfold checked. now rewrite Nat.eqb_refl, Hz. }
  assert (Hn : forallb is_num a = true).
  { clear - Hf. induction a as [|x a IH]; [reflexivity|]. cbn in *. apply andb_true_iff in Hf.
    destruct Hf as [H1 H2]. rewrite IH by exact H2. destruct x; try discriminate; reflexivity. }
  destruct HP as [l2 Hl| |]; cbn; apply Hc; auto using manhattan_go_self, hamming_go_self.
  destruct Hl; auto using l2_go_self, l2_avx_self.
Qed.

(* ---- C40 ---- *)
Theorem C40_error_iff_length : forall P a b, known_provider P ->
  (p_single P a b = None <-> length a <> length b) /\
  (p_query P a b = None <-> length a <> length b).
Proof. exact known_error. Qed.
Print Assumptions C40_error_iff_length.

Theorem C40_symmetric : forall P a b, known_provider P ->
  p_single P a b = p_single P b a /\ p_single P a b = p_query P a b /\ p_query P a b = p_query P b a.
Proof. exact known_sym. Qed.
Print Assumptions C40_symmetric.

Theorem C40_nonnegative : forall P a b d, metric_provider P ->
  p_single P a b = Some d -> flt d f32_zero = false.
Proof. exact metric_nonneg. Qed.
Print Assumptions C40_nonnegative.

Theorem C40_zero_on_equal : forall P a, metric_provider P ->
  forallb is_finite a = true -> p_single P a a = Some f32_zero.
Proof. exact metric_self. Qed.
Print Assumptions C40_zero_on_equal.

Definition fz (l : list Z) : vec := map f32_of_Z l.


Example C40_nonvacuous :
  known_provider (cosine_provider dot_avx) /\ metric_provider (l2_provider l2_avx) /\
  p_single (l2_provider l2_avx) (fz [1; 2; 3]%Z) (fz [3; 2; 7]%Z) = Some (f32_of_Z 20) /\
  p_single (l2_provider l2_go) (fz [1; 2; 3]%Z) (fz [3; 2; 7]%Z) = Some (f32_of_Z 20) /\
  p_single manhattan_provider (fz [1; 2; 3]%Z) (fz [3; 2; 7]%Z) = Some (f32_of_Z 6) /\
  p_single hamming_provider (fz [1; 2; 3]%Z) (fz [3; 2; 7]%Z) = Some (f32_of_Z 2) /\
  p_single (cosine_provider dot_avx) (fz [0; 1]%Z) (fz [1; 0]%Z) = Some f32_one /\
  p_single (l2_provider l2_go) (fz [1]%Z) (fz [1; 2]%Z) = None /\
  forallb is_finite (fz [1; -2; 0]%Z) = true.
Proof. repeat split; try constructor; try constructor; vm_compute; reflexivity. Qed.

(** The zero law needs finite vectors: an infinite component gives NaN. *)
Theorem C40_zero_on_equal_inf_refuted : exists a,
  p_single (l2_provider l2_go) a a = Some S754_nan.
Proof. exists [S754_infinity false]. vm_compute. reflexivity. Qed.
Print Assumptions C40_zero_on_equal_inf_refuted.

(* ---- C41 ---- *)
(** In float32 the kernel's result is a bracketing of one fused
    multiply-add per index, each index used exactly once. *)
Theorem C41_dot_kernel_uses_each_index_once : forall x y, length x = length y ->
  exists r, dot_simd f32_arith x y = Some r /\
    fsum f32_arith (fun a b s => f32_fma a b s) (combine x y) r.
Proof.
  exact (fun x y H => match kernel_total f32_arith (a_fma f32_arith) x y H with
                      | ex_intro _ r E => ex_intro _ r (conj E (kernel_fsum f32_arith _ x y r H E)) end).
Qed.
Print Assumptions C41_dot_kernel_uses_each_index_once.

Theorem C41_l2_kernel_uses_each_index_once : forall x y, length x = length y ->
  exists r, l2_simd f32_arith x y = Some r /\
    fsum f32_arith (fun a b s => f32_fma (f32_sub a b) (f32_sub a b) s) (combine x y) r.
Proof.
  exact (fun x y H =>
    match kernel_total f32_arith (fun x y s => let d := a_sub f32_arith x y in a_fma f32_arith d d s) x y H with
    | ex_intro _ r E => ex_intro _ r (conj E (kernel_fsum f32_arith _ x y r H E)) end).
Qed.
Print Assumptions C41_l2_kernel_uses_each_index_once.

(** Where addition is commutative and associative and the multiply-add exact,
    the kernels equal the scalar loops at every length. *)
Theorem C41_dot_kernel_exact : forall A (K : arith A) mul x y,
  cmonoid K -> fma_law K mul -> length x = length y ->
  dot_simd K x y = Some (loop2 (fun sum a b => a_add K sum (mul a b)) (a_zero K) x y).
Proof. exact @dot_simd_scalar. Qed.
Print Assumptions C41_dot_kernel_exact.

Theorem C41_l2_kernel_exact : forall A (K : arith A) mul x y,
  cmonoid K -> fma_law K mul -> length x = length y ->
  l2_simd K x y =
  Some (loop2 (fun sum a b => let d := a_sub K a b in a_add K sum (mul d d)) (a_zero K) x y).
Proof. exact @l2_simd_scalar. Qed.
Print Assumptions C41_l2_kernel_exact.

Definition z_arith : arith Z := mkArith Z 0%Z Z.add Z.sub (fun x y s => (x * y + s)%Z).
Lemma z_arith_ok : cmonoid z_arith /\ fma_law z_arith Z.mul.
Proof. unfold cmonoid, fma_law; cbn; repeat split; intros; lia. Qed.

Definition c41_x : list Z := map Z.of_nat (seq 1 75).
Definition c41_y : list Z := map (fun n => (3 - Z.of_nat n)%Z) (seq 1 75).
(** Length 75: two blocks of 32 and a tail of 11. *)
Example C41_nonvacuous :
  cmonoid z_arith /\ fma_law z_arith Z.mul /\ length c41_x = length c41_y /\
  dot_simd z_arith c41_x c41_y = Some (-134900)%Z /\
  l2_simd z_arith c41_x c41_y = Some 540275%Z /\
  dot_simd f32_arith (map f32_of_Z c41_x) (map f32_of_Z c41_y) = Some (f32_of_Z (-134900)).
Proof. destruct z_arith_ok as [H1 H2]. split; [exact H1|]. split; [exact H2|]. repeat split; vm_compute; reflexivity. Qed.

(** The kernel and the loop are not bit-identical in float32: they round
    differently. *)
Theorem C41_bitwise_equality_refuted : exists x y, length x = length y /\
  dot_simd f32_arith x y <> Some (dot_go x y).
Proof.
  exists [f32_one; S754_finite false 8388609 (-23)],
         [S754_finite true 8388610 (-23); S754_finite false 8388609 (-23)]. split; [reflexivity|]. vm_compute. discriminate.
Qed.
Print Assumptions C41_bitwise_equality_refuted.
