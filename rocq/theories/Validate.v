(** Model of pkg/hnsw/insert.go:39-55 (ValidateBeforeInsert), the check of a
    vector's length that a caller of the index can ask for before Add.  The
    service does not call it (pkg/document has no use of it).

    Simplifications.
    - The read locks of isEmpty (index.go:579-584) and of the slot are left out;
      the call runs without interference.
    - The text of the error message is left out. *)
From Verif Require Import Base Graph Insert VCache.

(** insert.go:39-55 with index.go:579-592.  [kverr]: IsEmpty of the table fails,
    which counts as empty; [c], [src]: the vector cache (vector_cache.go:75-120)
    and the answer of the vector source, were it asked; [norm]: see VCache.v.
    Returned: the vector cache after the call and the answer. *)
Definition validate (norm : vec -> vec) (c : vcache vec) (src : res vec) (kverr : bool) (h : hnsw) (v : vec) :
  vcache vec * res unit :=
  if kverr || is_empty h then (c, Ok tt)
  else
    let r := vget norm c (h_ep h) src in
    (fst r,
     match snd r with
     | Ok w => if Nat.eqb (length w) (length v) then Ok tt else Err EDimMismatch
     | Err e => Err e
     | Panic => Panic
     | OutOfFuel => OutOfFuel
     end).

(** Not in the code: a caller that asks before it adds (insert.go:39-79). *)
Definition checked_add (norm : vec -> vec) (c : vcache vec) (src : res vec) (kverr : bool)
  (I : ienv) (h : hnsw) (id : N) (v : vec) (t : nat) : hnsw * res unit :=
  match snd (validate norm c src kverr h v) with
  | Ok _ => add I h id v t
  | r => (h, r)
  end.
