(** Model of pkg/hnsw/distancer/*.go and of the assembly kernels
    asm/dot_amd64.s and asm/l2_amd64.s.

    Arithmetic is IEEE binary32 with rounding to nearest even ([SpecFloat]);
    all NaNs are one value.  The Go loops are modelled without fused
    multiply-add, as compiled for amd64.  geo_spatial.go is in
    [Geo.v]. *)
From Verif Require Import Base F32 PQ Graph.

(** Loop [for i := range a { sum = f(sum, a[i], b[i]) }] over vectors of equal
    length (all callers check the length first).
    dot_product.go:23-30, distancer/l2.go:16-25, manhattan.go:20-30, hamming.go:18-28. *)
Fixpoint loop2 {A S} (f : S -> A -> A -> S) (sum : S) (a b : list A) : S :=
  match a, b with
  | x :: a', y :: b' => loop2 f (f sum x y) a' b'
  | _, _ => sum
  end.

(** dot_product.go:23-30, the default dotProductImplementation. *)
Definition dot_go (a b : vec) : f32 :=
  loop2 (fun sum x y => f32_add sum (f32_mul x y)) f32_zero a b.

(** l2.go:16-25 *)
Definition l2_go (a b : vec) : f32 :=
  loop2 (fun sum x y => let diff := f32_sub x y in f32_add sum (f32_mul diff diff)) f32_zero a b.

(** manhattan.go:20-30; the detour over float64 is exact. *)
Definition manhattan_go (a b : vec) : f32 :=
  loop2 (fun sum x y => f32_add sum (f32_abs (f32_sub x y))) f32_zero a b.

(** hamming.go:18-28; [!=] is true when a side is NaN. *)
Definition hamming_go (a b : vec) : f32 :=
  loop2 (fun sum x y => if negb (feq x y) then f32_add sum f32_one else sum) f32_zero a b.

(* ------------------------------------------------------------------ *)
(** The assembly kernels, generic in the arithmetic.
    Not in the code: lets the kernels of asm/dot_amd64.s and asm/l2_amd64.s be read over
    the reals as well. *)
Record arith (A : Type) := mkArith {
  a_zero : A;
  a_add : A -> A -> A;
  a_sub : A -> A -> A;
  a_fma : A -> A -> A -> A   (* a_fma x y acc = x * y + acc *)
}.
Arguments a_zero {A}.
Arguments a_add {A}.
Arguments a_sub {A}.
Arguments a_fma {A}.

Section Kernel.
  Context {A : Type} (K : arith A).

  (** Element-wise operation on registers (lists of lanes).
      VADDPS and VSUBPS, asm/dot_amd64.s:46-51. *)
  Fixpoint lanes2 (f : A -> A -> A) (x y : list A) : list A :=
    match x, y with
    | a :: x', b :: y' => f a b :: lanes2 f x' y'
    | _, _ => []
    end.
  (** VFMADD231PS, asm/dot_amd64.s:23-26. *)
  Fixpoint lanes3 (f : A -> A -> A -> A) (x y z : list A) : list A :=
    match x, y, z with
    | a :: x', b :: y', c :: z' => f a b c :: lanes3 f x' y' z'
    | _, _, _ => []
    end.

  (** VMOVUPS of 8 floats at offset [k] (in floats). asm/dot_amd64.s:19-22. *)
  Definition load8 (k : nat) (x : list A) : list A := firstn 8 (skipn k x).

  (** The four accumulators of a block loop. Registers Y0 to Y3, asm/dot_amd64.s:11-14. *)
  Record acc4 := mkAcc { acc0 : list A; acc1 : list A; acc2 : list A; acc3 : list A }.

  (** dot_amd64.s:16-30 and l2_amd64.s:20-38: [elem x y acc] is the
      per-lane update.  Fuel: number of blocks (the length suffices). *)
  Fixpoint blocks (elem : A -> A -> A -> A) (fuel : nat) (x y : list A) (s : acc4)
    : option (list A * list A * acc4) :=
    if Nat.ltb (length x) 32 then Some (x, y, s)
    else
      match fuel with
      | O => None
      | S f =>
          blocks elem f (skipn 32 x) (skipn 32 y)
            (mkAcc (lanes3 elem (load8 0 x) (load8 0 y) (acc0 s))
                   (lanes3 elem (load8 8 x) (load8 8 y) (acc1 s))
                   (lanes3 elem (load8 16 x) (load8 16 y) (acc2 s))
                   (lanes3 elem (load8 24 x) (load8 24 y) (acc3 s)))
      end.

  (** dot_amd64.s:32-43 and l2_amd64.s:40-52: the scalar tail, lane 0 of an
      otherwise zero register. *)
  Definition tail (elem : A -> A -> A -> A) (x y : list A) : A :=
    loop2 (fun sum a b => elem a b sum) (a_zero K) x y.

  (** dot_amd64.s:45-55 and l2_amd64.s:54-64. *)
  Definition reduce (s : acc4) (t : A) : option A :=
    let y0 := lanes2 (a_add K) (acc0 s) (acc1 s) in
    let y2 := lanes2 (a_add K) (acc2 s) (acc3 s) in
    let y := lanes2 (a_add K) y0 y2 in
    let x := lanes2 (a_add K) (firstn 4 y) (skipn 4 y) in
    match lanes2 (a_add K) x [t; a_zero K; a_zero K; a_zero K] with
    | [l0; l1; l2; l3] => Some (a_add K (a_add K l0 l1) (a_add K l2 l3))
    | _ => None
    end.

  (** asm/dot_amd64.s:11-14. *)
  Definition zeros8 : list A := repeat (a_zero K) 8.

  (** asm/dot_amd64.s:7-55, asm/l2_amd64.s:7-64. *)
  Definition kernel (elem : A -> A -> A -> A) (x y : list A) : option A :=
    match blocks elem (length x) x y (mkAcc zeros8 zeros8 zeros8 zeros8) with
    | None => None
    | Some (xt, yt, s) => reduce s (tail elem xt yt)
    end.

  (** asm/dot_amd64.s: Dot. *)
  Definition dot_simd : list A -> list A -> option A := kernel (a_fma K).
  (** asm/l2_amd64.s: L2. *)
  Definition l2_simd : list A -> list A -> option A :=
    kernel (fun x y s => let d := a_sub K x y in a_fma K d d s).
End Kernel.

(** Fused multiply-add on binary32 (one rounding): VFMADD231PS / SS.  Unless
    both factors are finite and non-zero the product is exact, so adding is the
    only rounding step. asm/dot_amd64.s:23-26, 39. *)
Definition f32_fma (x y z : f32) : f32 :=
  match x, y with
  | S754_finite sx mx ex, S754_finite sy my ey =>
      match z with
      | S754_nan => S754_nan
      | S754_infinity _ => z
      | S754_zero _ => f32_mul x y
      | S754_finite sz mz ez =>
          let ep := (ex + ey)%Z in
          let e := Z.min ep ez in
          binary_normalize prec32 emax32
            (cond_Zopp (xorb sx sy) (Zpos (fst (shl_align (mx * my) ep e))) +
             cond_Zopp sz (Zpos (fst (shl_align mz ez e)))) e false
      end
  | _, _ => f32_add (f32_mul x y) z
  end.

(** Not in the code: the instructions on float32, asm/dot_amd64.s. *)
Definition f32_arith : arith f32 := mkArith f32 f32_zero f32_add f32_sub f32_fma.

(* ------------------------------------------------------------------ *)
(** normalize.go:16-32.  float64(norm) is exact, math.Sqrt is correctly rounded
    to binary64, float32() rounds again. *)
Definition sqrt32 (x : f32) : f32 := f32_of_f64 (SFsqrt prec64 emax64 (f64_of_f32 x)).

(** normalize.go:16-32. *)
Definition normalize (v : vec) : vec :=
  let norm := fold_left (fun s x => f32_add s (f32_mul x x)) v f32_zero in
  if feq norm f32_zero then map (fun _ => f32_zero) v
  else let n := sqrt32 norm in map (fun x => f32_div x n) v.

(* ------------------------------------------------------------------ *)
(** Providers.  Every SingleDist and Distance first compares the lengths
    (cosine_dist.go:25-28,42-45; dot_product.go:37-40,63-66; l2.go:32-35,47-50;
    manhattan.go:37-40,52-55; hamming.go:35-38,50-53). *)
Definition checked (f : vec -> vec -> f32) (a b : vec) : option f32 :=
  if Nat.eqb (length a) (length b) then Some (f a b) else None.

(** cosine_dist.go:19-69; [dot] is dotProductImplementation. *)
Definition cosine_provider (dot : vec -> vec -> f32) : provider :=
  let f := checked (fun a b => f32_sub f32_one (dot a b)) in
  mkProv f f normalize.
(** dot_product.go:32-91 *)
Definition dot_provider (dot : vec -> vec -> f32) : provider :=
  let f := checked (fun a b => f32_neg (dot a b)) in
  mkProv f f (fun v => v).
(** l2.go:27-81 *)
Definition l2_provider (l2 : vec -> vec -> f32) : provider :=
  let f := checked l2 in mkProv f f (fun v => v).
(** manhattan.go:32-81 *)
Definition manhattan_provider : provider :=
  let f := checked manhattan_go in mkProv f f (fun v => v).
(** hamming.go:30-79 *)
Definition hamming_provider : provider :=
  let f := checked hamming_go in mkProv f f (fun v => v).
