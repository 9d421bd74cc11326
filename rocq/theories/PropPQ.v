(** Property C11: the priority queue pops in order and loses nothing.

    [qspec] (PQProofs.v) is the specification: a bag in which a pop may remove
    any element that no other element beats.  [less_min a x = false] reads
    "not dist a < dist x". *)
From Verif Require Import Base F32 PQ PQProofs.
From Coq Require Import Sorting.Sorted.

Theorem C11_min_history : forall ops out l',
  Forall (opP numItem) ops ->
  qrun less_min ops [] = Some (out, l') -> qspec less_min ops [] out l'.
Proof. exact (qrun_spec_empty less_min numItem less_min_asym less_min_trans). Qed.
Print Assumptions C11_min_history.

Theorem C11_max_history : forall ops out l',
  Forall (opP numItem) ops ->
  qrun less_max ops [] = Some (out, l') -> qspec less_max ops [] out l'.
Proof. exact (qrun_spec_empty less_max numItem less_max_asym less_max_trans). Qed.
Print Assumptions C11_max_history.

Theorem C11_index_history : forall ops out l',
  Forall (opP numItemx) ops ->
  qrun less_minx ops [] = Some (out, l') -> qspec less_minx ops [] out l'.
Proof. exact (qrun_spec_empty less_minx numItemx less_minx_asym less_minx_trans). Qed.
Print Assumptions C11_index_history.

(** A history panics exactly when it pops from an empty queue. *)
Theorem C11_panic_iff_underflow : forall (ops : list (@qop item)),
  qneed ops 0 = true <-> qrun less_min ops [] <> None.
Proof. exact (fun ops => qrun_total less_min ops []). Qed.
Print Assumptions C11_panic_iff_underflow.

Theorem C11_drain_min : forall xs, Forall numItem xs ->
  Permutation xs (pq_drain less_min (fill less_min xs)) /\
  StronglySorted (fun a b => flt (it_dist b) (it_dist a) = false)
    (pq_drain less_min (fill less_min xs)).
Proof. exact (fill_drain less_min numItem less_min_asym less_min_trans). Qed.
Print Assumptions C11_drain_min.

Theorem C11_drain_max : forall xs, Forall numItem xs ->
  Permutation xs (pq_drain less_max (fill less_max xs)) /\
  StronglySorted (fun a b => flt (it_dist a) (it_dist b) = false)
    (pq_drain less_max (fill less_max xs)).
Proof. exact (fill_drain less_max numItem less_max_asym less_max_trans). Qed.
Print Assumptions C11_drain_max.

Definition c11_items : list item :=
  [mkItem 5 (f32_of_Z 3); mkItem 7 (f32_of_Z 1); mkItem 9 (f32_of_Z 2); mkItem 7 (f32_of_Z 1)].

Example C11_drain_nonvacuous :
  Forall numItem c11_items /\
  map it_id (pq_drain less_min (fill less_min c11_items)) = [7; 7; 9; 5]%N /\
  map it_id (pq_drain less_max (fill less_max c11_items)) = [5; 9; 7; 7]%N.
Proof. split; [repeat constructor|split; vm_compute; reflexivity]. Qed.

Example C11_history_nonvacuous : exists l',
  qrun less_min [QInsert (mkItem 5 (f32_of_Z 3)); QInsert (mkItem 7 (f32_of_Z 1)); QPop;
                 QInsert (mkItem 9 (f32_of_Z 2)); QPop] []
  = Some ([mkItem 7 (f32_of_Z 1); mkItem 9 (f32_of_Z 2)], l').
Proof. eexists. vm_compute. reflexivity. Qed.

(** With a NaN distance the order is lost: item 1 (distance 2) is popped before
    item 4 (distance 1) from a min-queue. *)
Theorem C11_nan_refuted : exists xs a b rest,
  pq_drain less_min (fill less_min xs) = a :: b :: rest /\
  flt (it_dist b) (it_dist a) = true.
Proof.
  exists [mkItem 1 (f32_of_Z 2); mkItem 2 S754_nan; mkItem 3 (f32_of_Z 3); mkItem 4 (f32_of_Z 1)].
  do 3 eexists. split; vm_compute; reflexivity.
Qed.
Print Assumptions C11_nan_refuted.
