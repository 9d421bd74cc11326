(** Property C12: the visited set is an exact set across resets. *)
From Verif Require Import Base Visited VisitedProofs.

(** Any history of visit, query and reset operations on a fresh list of any
    size answers exactly like a set ([vspec]); ids below 2^60. *)
Theorem C12_list_history_partial : forall size ops,
  (Z.of_nat size < 2 ^ 60)%Z -> Forall vop_ok ops ->
  exists l', vrun ops (vl_new size) = Ok (vspec ops [], l').
Proof. exact vrun_new. Qed.
Print Assumptions C12_list_history_partial.

(** Any history of borrow, use and return operations on a fresh pool answers
    like plain sets that are empty when borrowed ([prun_spec]). *)
Theorem C12_pool_history_partial : forall size lsz ops,
  (Z.of_nat lsz < 2 ^ 60)%Z -> Forall pop_ok ops ->
  prun ops (vp_new size lsz, []) = Ok (prun_spec ops []).
Proof. exact prun_new. Qed.
Print Assumptions C12_pool_history_partial.

(** 600 resets wrap the 8-bit marker twice; ids beyond the list's size force
    growth. *)
Definition c12_ops : list vop :=
  VVisit 3 :: VVisit 700 :: VQuery 700 :: repeat VReset 256 ++
  VQuery 3 :: VVisit 5 :: repeat VReset 254 ++ [VQuery 5; VVisit 9; VQuery 9; VQuery 700].
Example C12_list_nonvacuous :
  Forall vop_ok c12_ops /\
  match vrun c12_ops (vl_new 4) with
  | Ok (out, _) => out = [true; false; false; true; false]
  | _ => False
  end.
Proof.
  split; [|vm_compute; reflexivity].
  apply Forall_forall. intros o Ho. unfold c12_ops in Ho.
  repeat (rewrite in_app_iff in Ho || cbn [In app] in Ho).
  repeat (destruct Ho as [Ho|Ho]); try (destruct Ho);
    try (apply repeat_spec in Ho); try (subst; exact I); try (vm_compute; reflexivity).
Qed.

Example C12_pool_nonvacuous :
  prun [PBorrow; PUse 0 (VVisit 2); PReturn 0; PBorrow; PUse 0 (VQuery 2);
        PBorrow; PUse 0 (VVisit 3); PUse 1 (VQuery 3)] (vp_new 1 8, [])
  = Ok [None; None; None; None; Some false; None; None; Some false].
Proof. vm_compute. reflexivity. Qed.

(** Without the id bound the property fails: 2^64-1 is reported as visited by
    every list although nothing was marked, and visiting an id of 2^63 or more
    (but below 2^64-1) panics. *)
Theorem C12_huge_ids_refuted :
  (forall l, length l >= 1 -> vl_visited l (2 ^ 64 - 1) = Ok true) /\
  vl_visit (vl_new 8) (2 ^ 63) = Panic.
Proof. exact (conj visited_max_always visit_huge_panics). Qed.
Print Assumptions C12_huge_ids_refuted.

(** Every such id panics, marked or asked for, whatever the list. *)
Theorem C12_huge_ids_panic : forall l n, length l >= 1 -> (Z.of_nat (length l) < 2 ^ 60)%Z ->
  (2 ^ 63 <= n < 2 ^ 64 - 1)%N -> vl_visited l n = Panic /\ vl_visit l n = Panic.
Proof.
  intros l n Hl Hb Hn.
  assert (Hi : int_of_u64 n = (Z.of_N n - 2 ^ 64)%Z).
  { unfold int_of_u64, wrap_int. replace (Z.of_N n + 2 ^ 63)%Z with ((Z.of_N n - 2 ^ 63) + 1 * 2 ^ 64)%Z by lia.
    rewrite Z.mod_add by lia. rewrite Z.mod_small by lia. lia. }
  assert (Hu : u64_add n 1 = (n + 1)%N) by (unfold u64_add; apply N.mod_small; lia).
  assert (Hv : (0 <= vl_len l)%Z) by (unfold vl_len; lia).
  assert (Hc : (u64_add n 1 <? N.of_nat (length l))%N = false) by (apply N.ltb_ge; rewrite Hu; lia).
  unfold vl_visited, vl_visit. rewrite Hc. split.
  - replace (int_of_u64 n <? vl_len l)%Z with true by (symmetry; apply Z.ltb_lt; rewrite Hi; lia). reflexivity.
  - destruct (nth_error l 0); [|reflexivity].
    replace (vl_len l <=? int_of_u64 n)%Z with false by (symmetry; apply Z.leb_gt; rewrite Hi; lia).
    cbn [bind]. now rewrite Hc.
Qed.
Print Assumptions C12_huge_ids_panic.
Example C12_huge_ids_panic_nonvacuous : length (vl_new 8) >= 1 /\ vl_visited (vl_new 8) (2 ^ 63 + 5) = Panic.
Proof. split; [cbn; lia|vm_compute; reflexivity]. Qed.

(** Passing the list by value loses a mark that needed growth: the caller then
    sees the node as not visited (search.go:327-333). *)
Theorem C12_by_value_refuted : exists l n l',
  vl_visit_by_value l n = Ok l' /\ vl_visited l' n = Ok false.
Proof. exact by_value_loses. Qed.
Print Assumptions C12_by_value_refuted.

(** By value without growth is fine. *)
Theorem C12_by_value_small : forall size n,
  (n < N.of_nat size)%N -> (Z.of_nat size < 2 ^ 60)%Z ->
  exists l', vl_visit_by_value (vl_new size) n = Ok l' /\ vl_visited l' n = Ok true.
Proof. exact by_value_small. Qed.
Print Assumptions C12_by_value_small.
Example C12_by_value_small_nonvacuous :
  (3 < N.of_nat 500)%N /\ (Z.of_nat 500 < 2 ^ 60)%Z.
Proof. split; reflexivity. Qed.
