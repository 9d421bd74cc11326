(** Model of SearchByVector and SearchByVectorDistance (search.go:70-162,548-615). *)
From Coq Require Import String.
From Verif Require Import Base F32 PQ Graph Search Config.

(** search.go:70-85.  [s]: the settings of the index (Config.v); [forbid]:
    forbidFlat; [allow]: the ids of the allow list in iteration order.
    search.go:74-78: Normalize for the cosine provider only, the identity for
    the others ([p_normalize]). *)
Definition search_by_vector (E : env) (h : hnsw) (s : settings) (forbid : bool) (q0 : vec) (k : Z)
    (allow : option (list N)) : res (list N * list f32) :=
  let q := p_normalize (e_prov E) q0 in
  match allow with
  | Some ids =>
      if negb forbid && (Z.of_nat (length ids) <? s_flat s)%Z then flat_search E h q k ids
      else knn_search E h q k (search_ef s k) (Some (fun id => memN id ids))
  | None => knn_search E h q k (search_ef s k) None
  end.

(** search.go:574-579, without the constant maximumSearchLimit. *)
Record dparams := mkDP { dp_offset : Z; dp_limit : Z; dp_total : Z }.
(** search.go:548-566 *)
Definition dp_init : dparams := mkDP 0 100 100.
(** search.go:603-607.  The offset stays below the number of ids of an answer
    (the loop ends otherwise), so int does not overflow. *)
Definition dp_iterate (p : dparams) : dparams :=
  mkDP (dp_total p) (dp_limit p * 10) (dp_total p + dp_limit p * 10).
(** search.go:609-615 *)
Definition dp_reached (maxlimit : Z) (p : dparams) : bool :=
  if (maxlimit <? 0)%Z then false else (maxlimit <? dp_total p)%Z.

(** search.go:581-601 and 112-116: the slice of an answer from offset to total,
    both cut to the length of the ids.  A shorter list of distances panics. *)
Definition dp_slice (p : dparams) (out : list N * list f32) : res (list item) :=
  let n := length (fst out) in
  let lo := if (dp_offset p <? Z.of_nat n)%Z then Z.to_nat (dp_offset p) else n in
  let hi := if (dp_total p <? Z.of_nat n)%Z then Z.to_nat (dp_total p) else n in
  if Nat.ltb hi lo || Nat.ltb (length (snd out)) hi then Panic
  else Ok (map (fun p => mkItem (fst p) (snd p))
             (combine (firstn (hi - lo) (skipn lo (fst out))) (firstn (hi - lo) (skipn lo (snd out))))).

(** search.go:125-135: up to the first distance that is neither at most the target
    nor, by floatcomp.InDelta (a dependency, [delta]), close to it. *)
Fixpoint dp_take (delta : f32 -> f32 -> bool) (target : f32) (l : list item) : list item :=
  match l with
  | [] => []
  | x :: l' => if fle (it_dist x) target || delta (it_dist x) target then x :: dp_take delta target l' else []
  end.

(** search.go:106-138: one search.  The second component is shouldContinue. *)
Definition dp_round (delta : f32 -> f32 -> bool) (target : f32) (p : dparams) (out : list N * list f32)
    (acc : list item) : res (list item * bool) :=
  do! l <- dp_slice p out;
  match l with
  | [] => Ok (acc, false)
  | x :: l' => Ok (acc ++ dp_take delta target l, fle (it_dist (last l' x)) target)
  end.

(** search.go:140-161.  [Es i] is the schedule of the i-th search; the index does
    not change meanwhile. *)
Fixpoint dp_loop (Es : nat -> env) (h : hnsw) (s : settings) (forbid : bool) (delta : f32 -> f32 -> bool)
    (q0 : vec) (target : f32) (maxlimit : Z) (allow : option (list N))
    (fuel : nat) (i : nat) (p : dparams) (acc : list item) : res (list item) :=
  match fuel with
  | O => OutOfFuel
  | S f =>
      do! out <- search_by_vector (Es i) h s forbid q0 (dp_total p) allow;
      do! r <- dp_round delta target p out acc;
      if snd r then
        let p' := dp_iterate p in
        if dp_reached maxlimit p' then Ok (fst r)
        else dp_loop Es h s forbid delta q0 target maxlimit allow f (S i) p' (fst r)
      else Ok (fst r)
  end.

(** search.go:96-162.  The offset grows in every round and stays below the number
    of vectors, so the fuel never runs out (SearchDistProofs.v). *)
Definition search_by_distance (Es : nat -> env) (h : hnsw) (s : settings) (forbid : bool) (delta : f32 -> f32 -> bool)
    (q0 : vec) (target : f32) (maxlimit : Z) (allow : option (list N)) : res (list N * list f32) :=
  do! r <- dp_loop Es h s forbid delta q0 target maxlimit allow (S (S (length (stored_ids h)))) 0 dp_init [];
  Ok (map it_id r, map it_dist r).
