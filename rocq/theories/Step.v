(** Model of the Step and Wrap methods of the distance providers: the distance of
    two vectors put together from the distances of their segments. *)
From Verif Require Import Base F32 PQ Graph Distancer.

(** The providers: cosine_dist.go:39, dot_product.go:61, l2.go:46,
    manhattan.go:51, hamming.go:49, geo_spatial.go:57. *)
Inductive metric := MCosine | MDot | ML2 | MManhattan | MHamming | MGeo.

(** [for i := range x { sum = f(sum, x[i], y[i]) }] without a check of the
    lengths: [None] is the panic of an index out of range.
    distancer/l2.go:63-72, distancer/dot_product.go:80-87,
    distancer/cosine_dist.go:58-65. *)
Fixpoint range_loop (f : f32 -> f32 -> f32 -> f32) (sum : f32) (x y : vec) : option f32 :=
  match x, y with
  | [], _ => Some sum
  | a :: x', b :: y' => range_loop f (f sum a b) x' y'
  | _ :: _, [] => None
  end.

(** cosine_dist.go:61, dot_product.go:83, l2.go:67-68, manhattan.go:74 (the detour
    over float64 is exact), hamming.go:70-72. *)
Definition step_elem (m : metric) (sum x y : f32) : f32 :=
  match m with
  | MCosine | MDot => f32_add sum (f32_mul x y)
  | ML2 => let diff := f32_sub x y in f32_add sum (f32_mul diff diff)
  | MManhattan => f32_add sum (f32_abs (f32_sub x y))
  | MHamming => if negb (feq x y) then f32_add sum f32_one else sum
  | MGeo => sum
  end.

(** cosine_dist.go:58-65, dot_product.go:80-87, l2.go:63-72, manhattan.go:68-78,
    hamming.go:66-76; geo_spatial.go:65-67 panics. *)
Definition step (m : metric) (x y : vec) : option f32 :=
  match m with MGeo => None | _ => range_loop (step_elem m) f32_zero x y end.

(** cosine_dist.go:67-69, dot_product.go:89-91, l2.go:74-76, manhattan.go:80-82,
    hamming.go:78-80; geo_spatial.go:69-71 panics. *)
Definition wrap (m : metric) (x : f32) : option f32 :=
  match m with
  | MCosine => Some (f32_sub f32_one x)
  | MDot => Some (f32_neg x)
  | ML2 | MManhattan | MHamming => Some x
  | MGeo => None
  end.

(** How Step and Wrap are used (distancer/cosine_dist_test.go:93-98 and the same in
    the other tests, segments of one component each): [sum += Step(...)] over the
    segments, then Wrap. *)
Fixpoint seg_sum (m : metric) (sum : f32) (parts : list (vec * vec)) : option f32 :=
  match parts with
  | [] => Some sum
  | (x, y) :: parts' =>
      match step m x y with Some s => seg_sum m (f32_add sum s) parts' | None => None end
  end.
Definition seg_dist (m : metric) (parts : list (vec * vec)) : option f32 :=
  match seg_sum m f32_zero parts with Some s => wrap m s | None => None end.

(** The provider whose SingleDist the segments are compared with; [dot] and [l2]
    are the implementations in use.
    distancer/cosine_dist.go:39-48, distancer/dot_product.go:61-70,
    distancer/l2.go:46-53. *)
Definition metric_provider_of (dot l2 : vec -> vec -> f32) (m : metric) : option provider :=
  match m with
  | MCosine => Some (cosine_provider dot)
  | MDot => Some (dot_provider dot)
  | ML2 => Some (l2_provider l2)
  | MManhattan => Some manhattan_provider
  | MHamming => Some hamming_provider
  | MGeo => None
  end.
