(** Model of pkg/hnsw/priorityqueue/queue.go and queue_with_index.go: a binary
    heap kept in a slice.  Both files contain the same code for two payload
    types, so the model is generic in the payload [A] and in the comparison
    closure [less] (queue.go:19-22, queue_with_index.go:23-26).

    Go accesses [items[i]] by index; here an access is [nth_error].  All
    accesses of [heapify] and [Insert] are in range (see [PQProofs]);
    [Pop]/[Top] on an empty queue panic and return [None] here.
    Not modelled: slice capacity ([Cap], [ResetCap]). *)
From Verif Require Import Base F32.

Section PQ.
  Context {A : Type}.
  (** queue.go:21 — comparison of two items (closure of NewMin/NewMax). *)
  Variable less : A -> A -> bool.

  (** queue.go:42-44 *)
  Definition pq_left (i : nat) : nat := 2 * i + 1.
  (** queue.go:46-48 *)
  Definition pq_right (i : nat) : nat := 2 * i + 2.
  (** queue.go:50-52; only called with [i <> 0] (queue.go:79). *)
  Definition pq_parent (i : nat) : nat := (i - 1) / 2.

  (** [l.less(l.items, i, j)], queue.go:21. *)
  Definition pq_less (l : list A) (i j : nat) : bool :=
    match nth_error l i, nth_error l j with
    | Some a, Some b => less a b
    | _, _ => false
    end.

  (** queue.go:54-56 *)
  Definition pq_swap (l : list A) (i j : nat) : list A :=
    match nth_error l i, nth_error l j with
    | Some a, Some b => upd (upd l i b) j a
    | _, _ => l
    end.

  (** queue.go:59-68: index of the smallest of [i] and its two children. *)
  Definition pq_smallest (l : list A) (i : nat) : nat :=
    let s1 := if Nat.ltb (pq_left i) (length l) && pq_less l (pq_left i) i
              then pq_left i else i in
    if Nat.ltb (pq_right i) (length l) && pq_less l (pq_right i) s1
    then pq_right i else s1.

  (** queue.go:58-74.  The fuel bounds the recursion depth; with
      [fuel >= length l] it never runs out ([PQProofs.heapify_unfold] proves
      Go's recursive equation). *)
  Fixpoint heapify_f (fuel : nat) (l : list A) (i : nat) : list A :=
    match fuel with
    | O => l
    | S f =>
        let s := pq_smallest l i in
        if Nat.eqb s i then l else heapify_f f (pq_swap l i s) s
    end.
  Definition heapify (l : list A) (i : nat) : list A := heapify_f (length l) l i.

  (** queue.go:79-82, the sift-up loop; fuel as above
      ([PQProofs.siftup_unfold]). *)
  Fixpoint siftup_f (fuel : nat) (l : list A) (i : nat) : list A :=
    match fuel with
    | O => l
    | S f =>
        if negb (Nat.eqb i 0) && pq_less l i (pq_parent i)
        then siftup_f f (pq_swap l i (pq_parent i)) (pq_parent i)
        else l
    end.
  Definition siftup (l : list A) (i : nat) : list A := siftup_f (length l) l i.

  (** queue.go:76-83 *)
  Definition pq_insert (x : A) (l : list A) : list A :=
    siftup (l ++ [x]) (length l).

  (** queue.go:85-91; [None] is the index-out-of-range panic on an empty
      queue. *)
  Definition pq_pop (l : list A) : option (A * list A) :=
    match l with
    | [] => None
    | out :: _ =>
        let lst := last l out in
        Some (out, heapify (removelast (upd l 0 lst)) 0)
    end.

  (** queue.go:93-95 *)
  Definition pq_top (l : list A) : option A :=
    match l with [] => None | x :: _ => Some x end.

  (** Pop until empty ([for q.Len() > 0 { q.Pop() }], e.g.
      search_with_max_dist.go:66-69); items in pop order.  The fuel is the
      queue length, every pop removes exactly one item. *)
  Fixpoint drain_f (fuel : nat) (l : list A) : list A :=
    match fuel with
    | O => []
    | S f => match pq_pop l with
             | None => []
             | Some (x, l') => x :: drain_f f l'
             end
    end.
  Definition pq_drain (l : list A) : list A := drain_f (length l) l.
End PQ.

(** queue.go:14-17 *)
Record item := mkItem { it_id : N; it_dist : f32 }.

(** queue.go:24-31 (NewMin), 33-40 (NewMax). *)
Definition less_min (a b : item) : bool := flt (it_dist a) (it_dist b).
Definition less_max (a b : item) : bool := fgt (it_dist a) (it_dist b).

(** queue_with_index.go:17-21 and 28-35. *)
Record itemx := mkItemx { ix_id : N; ix_index : nat; ix_dist : f32 }.
Definition less_minx (a b : itemx) : bool := flt (ix_dist a) (ix_dist b).
