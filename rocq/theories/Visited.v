(** Model of pkg/hnsw/visited/list_set.go and pool.go.

    A [ListSet] is the slice [set []uint8]; [set[0]] is the version marker.
    Cells are [N] below 256.  Go's conversions [int(node)] (uint64 to int64),
    the index [node+1] (uint64 addition) and the int additions of [growth] are
    written with explicit wrap-around.  A too large [make] (out of memory) is
    not modelled. *)
From Verif Require Import Base.

(** Wrap a mathematical integer to Go's int (int64).
    Go int arithmetic, visited/list_set.go:72-93. *)
Definition wrap_int (z : Z) : Z :=
  ((z + 2 ^ 63) mod 2 ^ 64 - 2 ^ 63)%Z.
(** [int(node)] for a uint64 [node]. visited/list_set.go:41-48. *)
Definition int_of_u64 (n : N) : Z := wrap_int (Z.of_N n).
(** uint64 addition. visited/list_set.go:41-53. *)
Definition u64_add (a b : N) : N := ((a + b) mod 2 ^ 64)%N.

(** list_set.go:23-25 *)
Definition lset := list N.

(** list_set.go:28 — length without the marker. *)
Definition vl_len (l : lset) : Z := (Z.of_nat (length l) - 1)%Z.

(** list_set.go:34-38 *)
Definition vl_new (size : nat) : lset := 1%N :: repeat 0%N size.

(** list_set.go:67 *)
Definition vl_threshold : Z := 2048%Z.

(** list_set.go:83-87, the growth loop; [None] if the fuel runs out (excluded
    by [VisitedProofs.growth_loop_fuel]). *)
Fixpoint growth_loop (fuel : nat) (newsize size : Z) : option Z :=
  if ((0 <? newsize) && (newsize <? size))%Z then
    match fuel with
    | O => None
    | S f => growth_loop f (wrap_int (newsize + Z.quot (newsize + vl_threshold) 4)) size
    end
  else Some newsize.

(** list_set.go:72-93 *)
Definition growth (oldsize size : Z) : option Z :=
  let doublesize := wrap_int (oldsize * 2) in
  if (doublesize <? size)%Z then Some size
  else if (oldsize <? vl_threshold)%Z then Some doublesize
  else
    match growth_loop (Z.to_nat size) oldsize size with
    | None => None
    | Some newsize => Some (if (newsize <=? 0)%Z then size else newsize)
    end.

(** list_set.go:41-48.  [make] with a negative size and an index out of range
    panic. *)
Definition vl_visit (l : lset) (node : N) : res lset :=
  match nth_error l 0 with
  | None => Panic
  | Some marker =>
      let grown :=
        if (vl_len l <=? int_of_u64 node)%Z then
          match growth (Z.of_nat (length l)) (wrap_int (int_of_u64 node + 1024)) with
          | None => OutOfFuel
          | Some n => if (n <? 0)%Z then Panic
                      else Ok (firstn (Z.to_nat n) l ++ repeat 0%N (Z.to_nat n - length l))
          end
        else Ok l in
      do! l' <- grown;
      let idx := u64_add node 1 in
      if (idx <? N.of_nat (length l'))%N then Ok (upd l' (N.to_nat idx) marker) else Panic
  end.

(** list_set.go:51-53 *)
Definition vl_visited (l : lset) (node : N) : res bool :=
  if (int_of_u64 node <? vl_len l)%Z then
    let idx := u64_add node 1 in
    if (idx <? N.of_nat (length l))%N then
      match nth_error l (N.to_nat idx), nth_error l 0 with
      | Some c, Some m => Ok (N.eqb c m)
      | _, _ => Panic
      end
    else Panic
  else Ok false.

(** list_set.go:56-64; uint8 increment. *)
Definition vl_reset (l : lset) : res lset :=
  match l with
  | [] => Panic
  | m :: cells =>
      let m' := ((m + 1) mod 256)%N in
      if N.eqb m' 0 then Ok (1%N :: map (fun _ => 0%N) cells)
      else Ok (m' :: cells)
  end.

(** pool.go:18-22 *)
Record vpool := mkPool { vp_size : nat; vp_lists : list lset }.

(** pool.go:26-37 *)
Definition vp_new (size listSetSize : nat) : vpool :=
  mkPool listSetSize (repeat (vl_new listSetSize) size).

(** pool.go:40-52: takes the last list, or makes a new one. *)
Definition vp_borrow (p : vpool) : lset * vpool :=
  match rev (vp_lists p) with
  | l :: r => (l, mkPool (vp_size p) (rev r))
  | [] => (vl_new (vp_size p), p)
  end.

(** pool.go:56-66 *)
Definition vp_return (p : vpool) (l : lset) : res vpool :=
  let n := vl_len l in
  let sz := Z.of_nat (vp_size p) in
  if ((n <? sz) || (Z.quot (sz * 11) 10 <? n))%Z then Ok p
  else do! l' <- vl_reset l; Ok (mkPool (vp_size p) (vp_lists p ++ [l'])).

(** Passing a [ListSet] by value and calling [Visit] on the copy, as
    insertViableEntrypointsAsCandidatesAndResults does with its parameter
    [visitedList] (search.go:327-333): the caller keeps its old slice header, so
    it sees the write only if no resize happened.  Result: what the caller's
    variable holds afterwards. *)
Definition vl_visit_by_value (l : lset) (node : N) : res lset :=
  do! l' <- vl_visit l node;
  if (vl_len l <=? int_of_u64 node)%Z then Ok l else Ok l'.
