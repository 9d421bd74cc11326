(** Model of pkg/hnsw/distancer/geo_spatial.go.

    math.Sin, math.Cos and math.Atan2 are arguments; everything else is IEEE
    arithmetic. *)
From Verif Require Import Base F32 PQ Graph Distancer.

(** float64 operations and constants: math.Pi as float32 and float64, 180, 2, 1 and
    6371e3. geo_spatial.go:28-40. *)
Definition f64_add (x y : f64) : f64 := SFadd prec64 emax64 x y.
(** geo_spatial.go:28-40. *)
Definition f64_sub (x y : f64) : f64 := SFsub prec64 emax64 x y.
(** geo_spatial.go:28-40. *)
Definition f64_mul (x y : f64) : f64 := SFmul prec64 emax64 x y.
(** geo_spatial.go:28-40. *)
Definition f64_div (x y : f64) : f64 := SFdiv prec64 emax64 x y.
(** geo_spatial.go:28-40. *)
Definition f64_sqrt (x : f64) : f64 := SFsqrt prec64 emax64 x.
(** geo_spatial.go:28-40. *)
Definition f64_of_Z (z : Z) : f64 := binary_normalize prec64 emax64 z 0 false.
(** geo_spatial.go:30-31. *)
Definition pi32 : f32 := S754_finite false 13176795 (-22).
(** geo_spatial.go:32-33. *)
Definition pi64 : f64 := S754_finite false 7074237752028440 (-51).

(** geo_spatial.go:30-31: [float64(lat * math.Pi / 180)], in float32 up to the
    conversion. *)
Definition geo_rad (lat : f32) : f64 := f64_of_f32 (f32_div (f32_mul lat pi32) (f32_of_Z 180)).
(** geo_spatial.go:32-33: [float64(y-x) * math.Pi / 180], the difference in float32. *)
Definition geo_delta (x y : f32) : f64 := f64_div (f64_mul (f64_of_f32 (f32_sub y x)) pi64) (f64_of_Z 180).

Section Geo.
  Variable sin cos : f64 -> f64.
  Variable atan2 : f64 -> f64 -> f64.

  (** geo_spatial.go:35-36. *)
  Definition geo_A (latA lonA latB lonB : f32) : f64 :=
    let slat := sin (f64_div (geo_delta latA latB) (f64_of_Z 2)) in
    let slon := sin (f64_div (geo_delta lonA lonB) (f64_of_Z 2)) in
    f64_add (f64_mul slat slat)
            (f64_mul (f64_mul (f64_mul (cos (geo_rad latA)) (cos (geo_rad latB))) slon) slon).

  (** geo_spatial.go:38-40. *)
  Definition geo_finish (A : f64) : f32 :=
    let C := f64_mul (f64_of_Z 2) (atan2 (f64_sqrt A) (f64_sqrt (f64_sub (f64_of_Z 1) A))) in
    f32_of_f64 (f64_mul (f64_of_Z 6371000) C).

  (** geo_spatial.go:19-41; [None] is the error of lines 20-22. *)
  Definition geo_dist (a b : vec) : option f32 :=
    match a, b with
    | [latA; lonA], [latB; lonB] => Some (geo_finish (geo_A latA lonA latB lonB))
    | _, _ => None
    end.

  (** geo_spatial.go:43-59: New, Distance and SingleDist. *)
  Definition geo_provider : provider := mkProv geo_dist geo_dist (fun v => v).
End Geo.
