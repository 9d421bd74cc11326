(** Model of pkg/vectorizer/vector.go, the Vector type.  The slice inside is never
    shared: NewVector is given one of its own and ToArray copies it.  ToString is left
    out. *)
From Verif Require Import Base F32 PQ Graph Distancer.

(** vector.go:12-14, 30-32 and 52-56: NewVector, Len and ToArray. *)
Definition new_vector (v : vec) : vec := v.
Definition v_len (v : vec) : nat := length v.
Definition to_array (v : vec) : vec := [] ++ v.

(** vector.go:21-25: the loop of Equal, over vectors of equal length. *)
Fixpoint equal_loop (a b : vec) : bool :=
  match a, b with
  | x :: a', y :: b' => if negb (feq y x) then false else equal_loop a' b'
  | _, _ => true
  end.
(** vector.go:16-28: Equal; [None] is the error. *)
Definition v_equal (a b : vec) : option bool :=
  if negb (Nat.eqb (length a) (length b)) then None else Some (equal_loop a b).

(** vector.go:58-71: Distance; [None] is the error. *)
Definition v_distance (a b : vec) : option f32 :=
  if negb (Nat.eqb (length a) (length b)) then None
  else Some (sqrt32 (loop2 (fun sum p q => let x := f32_sub p q in f32_add sum (f32_mul x x)) f32_zero a b)).
