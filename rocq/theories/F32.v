(** float32 values and the Go comparison operators on them.

    A float32 is modelled by the standard library's [spec_float] with
    precision 24 and maximal exponent 128 (IEEE binary32).  Go's [<] and [>]
    are IEEE comparisons: false as soon as one side is NaN. *)
From Verif Require Import Base.
From Coq Require Export SpecFloat.
Open Scope Z_scope.

(** float32, e.g. distancer/provider.go:14-24; library arithmetic, not code of the
    repository. *)
Definition f32 := spec_float.

(** Not in the code: the format of float32 (Go specification). *)
Definition prec32 : Z := 24.
(** Not in the code: the format of float32 (Go specification). *)
Definition emax32 : Z := 128.

(** Go [a < b], [a > b], [a == b] on float32 (Go specification, comparison
    operators; used e.g. in search.go:203,282 and queue.go:28,37). *)
Definition flt (a b : f32) : bool := SFltb a b.
Definition fgt (a b : f32) : bool := SFltb b a.
Definition feq (a b : f32) : bool := SFeqb a b.
(** Go [a <= b] on float32 (search.go:123,126). *)
Definition fle (a b : f32) : bool := SFleb a b.

(** Not in the code: used in statements about distances, e.g. search.go:353-376. *)
Definition is_nan (a : f32) : bool :=
  match a with S754_nan => true | _ => false end.
(** Not in the code: used in statements, see [is_nan]. *)
Definition is_num (a : f32) : bool := negb (is_nan a).

(** The zero value of float32, e.g. hamming.go:19, dot_product.go:24. *)
Definition f32_zero : f32 := S754_zero false.
(** Value of an integer constant, rounded to float32.
    Constants, e.g. cosine_dist.go:29, geo_spatial.go:30. *)
Definition f32_of_Z (z : Z) : f32 := binary_normalize prec32 emax32 z 0 false.
(** cosine_dist.go:29, hamming.go:23. *)
Definition f32_one : f32 := f32_of_Z 1.
(** math.MaxFloat32 = (2^24 - 1) * 2^104. search.go:366, 374. *)
Definition f32_max : f32 := S754_finite false 16777215 104.

(** Go operator on float32, e.g. dot_product.go:23-30. *)
Definition f32_add : f32 -> f32 -> f32 := SFadd prec32 emax32.
(** Go operator on float32, e.g. cosine_dist.go:29. *)
Definition f32_sub : f32 -> f32 -> f32 := SFsub prec32 emax32.
(** Go operator on float32, e.g. dot_product.go:23-30. *)
Definition f32_mul : f32 -> f32 -> f32 := SFmul prec32 emax32.
(** Go operator on float32, e.g. normalize.go:28. *)
Definition f32_div : f32 -> f32 -> f32 := SFdiv prec32 emax32.
(** Go operator on float32, dot_product.go:42. *)
Definition f32_neg : f32 -> f32 := SFopp.
(** manhattan.go:26 (math.Abs). *)
Definition f32_abs : f32 -> f32 := SFabs.

(** float64 (IEEE binary64) and the Go conversions float64(x), which is exact,
    and float32(x), which rounds, beyond the range to an infinity
    (document.go:364, normalize.go:26). *)
Definition f64 := spec_float.
Definition prec64 : Z := 53.
Definition emax64 : Z := 1024.
Definition f64_of_f32 (x : f32) : f64 :=
  match x with
  | S754_finite s m e => binary_round prec64 emax64 s m e
  | _ => x
  end.
Definition f32_of_f64 (x : f64) : f32 :=
  match x with
  | S754_finite s m e => binary_round prec32 emax32 s m e
  | _ => x
  end.

(* ------------------------------------------------------------------ *)
(** Order lemmas.  A signed rank makes [SFltb] a lexicographic order. *)

(** Class of a number: -inf, negative finite, zero, positive finite, +inf.
    Not in the code: the order of float32 for the proofs. *)
Definition fclass (a : f32) : Z :=
  match a with
  | S754_infinity true => -2
  | S754_finite true _ _ => -1
  | S754_zero _ => 0
  | S754_finite false _ _ => 1
  | S754_infinity false => 2
  | S754_nan => 3
  end.
(** Exponent and mantissa with the sign applied; 0 outside finite numbers.
    Not in the code: for the proofs. *)
Definition fexp (a : f32) : Z :=
  match a with
  | S754_finite true _ e => - e
  | S754_finite false _ e => e
  | _ => 0
  end.
(** Not in the code: for the proofs. *)
Definition fman (a : f32) : Z :=
  match a with
  | S754_finite true m _ => Z.neg m
  | S754_finite false m _ => Z.pos m
  | _ => 0
  end.

(** Not in the code: for the proofs. *)
Definition frank_lt (a b : f32) : Prop :=
  fclass a < fclass b \/
  (fclass a = fclass b /\ (fexp a < fexp b \/ (fexp a = fexp b /\ fman a < fman b))).

Lemma flt_rank a b :
  is_num a = true -> is_num b = true -> (flt a b = true <-> frank_lt a b).
Proof.
  unfold is_num, is_nan, flt, SFltb, SFcompare, frank_lt.
  destruct a as [sa|sa| |sa ma ea], b as [sb|sb| |sb mb eb]; cbn [negb];
    intros Ha Hb; try discriminate;
    try destruct sa; try destruct sb; cbn [fclass fexp fman];
    try (split; intros; [try discriminate; left; lia | reflexivity || (exfalso; lia)]);
    try (split; intros; [try discriminate; right; lia | reflexivity || (exfalso; lia)]);
    try (split; intros; [discriminate | exfalso; lia]).
  - destruct (Z.compare_spec ea eb) as [E|E|E]; cbn.
    + change (Pos.compare_cont Eq ma mb) with (Pos.compare ma mb).
      destruct (Pos.compare_spec ma mb) as [M|M|M]; cbn; split; intros; try discriminate; try lia; reflexivity.
    + split; intros; [discriminate|lia].
    + split; intros; [lia|reflexivity].
  - destruct (Z.compare_spec ea eb) as [E|E|E]; cbn.
    + change (Pos.compare_cont Eq ma mb) with (Pos.compare ma mb).
      destruct (Pos.compare_spec ma mb) as [M|M|M]; cbn; split; intros; try discriminate; try lia; reflexivity.
    + split; intros; [lia|reflexivity].
    + split; intros; [discriminate|lia].
Qed.

Lemma flt_nan_l a b : is_num a = false -> flt a b = false.
Proof. unfold is_num, flt, SFltb, SFcompare. destruct a; cbn; intros; try discriminate; now destruct b. Qed.
Lemma flt_nan_r a b : is_num b = false -> flt a b = false.
Proof. unfold is_num, flt, SFltb, SFcompare. destruct b; cbn; intros; try discriminate; now destruct a as [[]|[]| |[]]. Qed.

Lemma flt_num a b : flt a b = true -> is_num a = true /\ is_num b = true.
Proof.
  intros H. split.
  - destruct (is_num a) eqn:E; [reflexivity|]. rewrite flt_nan_l in H; auto.
  - destruct (is_num b) eqn:E; [reflexivity|]. rewrite flt_nan_r in H; auto.
Qed.

Lemma flt_irrefl a : flt a a = false.
Proof.
  destruct (flt a a) eqn:E; [|reflexivity].
  destruct (flt_num _ _ E) as [Ha _]. apply flt_rank in E; auto.
  unfold frank_lt in E; lia.
Qed.

Lemma flt_trans a b c : flt a b = true -> flt b c = true -> flt a c = true.
Proof.
  intros H1 H2. destruct (flt_num _ _ H1), (flt_num _ _ H2).
  apply flt_rank in H1; apply flt_rank in H2; auto. apply flt_rank; auto.
  unfold frank_lt in *; lia.
Qed.

Lemma flt_asym a b : flt a b = true -> flt b a = false.
Proof.
  intros H. destruct (flt b a) eqn:E; [|reflexivity].
  pose proof (flt_trans _ _ _ H E) as Hx. now rewrite flt_irrefl in Hx.
Qed.

(** "Not greater" is transitive on numbers. *)
Lemma nflt_trans a b c :
  is_num a = true -> is_num b = true -> is_num c = true ->
  flt b a = false -> flt c b = false -> flt c a = false.
Proof.
  intros Ha Hb Hc H1 H2. destruct (flt c a) eqn:E; [|reflexivity].
  exfalso. apply flt_rank in E; auto.
  assert (~ frank_lt b a) by (intro X; apply flt_rank in X; auto; congruence).
  assert (~ frank_lt c b) by (intro X; apply flt_rank in X; auto; congruence).
  unfold frank_lt in *; lia.
Qed.

Lemma flt_le_trans a b c :
  is_num a = true -> is_num b = true -> is_num c = true ->
  flt a b = true -> flt c b = false -> flt a c = true.
Proof.
  intros Ha Hb Hc H1 H2. apply flt_rank in H1; auto. apply flt_rank; auto.
  assert (~ frank_lt c b) by (intro X; apply flt_rank in X; auto; congruence).
  unfold frank_lt in *; lia.
Qed.

Lemma le_flt_trans a b c :
  is_num a = true -> is_num b = true -> is_num c = true ->
  flt b a = false -> flt b c = true -> flt a c = true.
Proof.
  intros Ha Hb Hc H1 H2. apply flt_rank in H2; auto. apply flt_rank; auto.
  assert (~ frank_lt b a) by (intro X; apply flt_rank in X; auto; congruence).
  unfold frank_lt in *; lia.
Qed.

(** On numbers Go's [<=] is the negation of [>]. *)
Lemma fle_flt a b : is_num a = true -> is_num b = true -> fle a b = negb (flt b a).
Proof.
  intros Ha Hb. unfold fle, SFleb, flt, SFltb.
  assert (Hs : forall x y, SFcompare x y = match SFcompare y x with
             | Some c => Some (CompOpp c) | None => None end).
  { intros x y. unfold SFcompare.
    destruct x as [sx|sx| |sx mx ex], y as [sy|sy| |sy my ey];
      try destruct sx; try destruct sy; try reflexivity;
      rewrite (Z.compare_antisym ey ex); destruct (Z.compare ey ex); cbn; try reflexivity;
      change (Pos.compare_cont Eq mx my) with (Pos.compare mx my);
      change (Pos.compare_cont Eq my mx) with (Pos.compare my mx);
      rewrite (Pos.compare_antisym my mx); destruct (Pos.compare my mx); reflexivity. }
  rewrite (Hs a b).
  destruct a as [sa|sa| |sa ma ea]; try discriminate;
  destruct b as [sb|sb| |sb mb eb]; try discriminate;
  destruct (SFcompare _ _) as [[]|] eqn:E; cbn; try reflexivity;
  exfalso; revert E; unfold SFcompare; repeat (match goal with s : bool |- _ => destruct s end);
  try discriminate; destruct (Z.compare _ _); discriminate.
Qed.

Lemma f32_max_num : is_num f32_max = true.
Proof. reflexivity. Qed.

Close Scope Z_scope.
