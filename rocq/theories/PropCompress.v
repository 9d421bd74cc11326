(** C69: compressed vectors stay with their ids. *)
From Verif Require Import Base VCache Compress CompressProofs.

(** All vectors of the index (ids below [n]) in the vector cache: after Compress
    every id has the code of its own vector, in any order of the goroutines and
    whatever puts fail.  Missing: vectors that are not in the cache. *)
Theorem C69_own_codes_partial : forall (V C : Type) (norm : V -> V) (encode : list V -> V -> C)
    (o : corc V) (s : cstate V C) (n id0 : N) (vec : N -> V),
  (forall id, mget id (vc_slots (cs_vecs s)) = if N.ltb id n then Some (vec id) else None) -> (n <= vc_size (cs_vecs s))%N ->
  co_empty o = false -> co_init o = true -> co_node0 o = Some id0 -> (id0 < n)%N -> co_pq o = true -> co_addpq o = true ->
  Permutation (co_tasks o) (map N.of_nat (seq 0 (N.to_nat n))) ->
  let data := map vec (map N.of_nat (seq 0 (N.to_nat n))) in
  exists s', compress norm encode o s = (s', Ok tt) /\ cs_on s' = true /\ cs_data s' = data /\
    (forall id, (id < n)%N -> code_of s' id = Ok (encode data (vec id))) /\
    (forall id, (id < n)%N -> co_put o id = true -> mget id (cs_store s') = Some (encode data (vec id))) /\
    (forall id, (n <= id)%N -> mget id (cs_store s') = mget id (cs_store s)).
Proof.
  intros V C norm encode o s n id0 vec A1 A2 A3 A4 A5 A6 A7 A8 A9 data.
  destruct (compress_full V C norm encode o s n id0 vec A1 A2 A3 A4 A5 A6 A7 A8 A9)
    as (s' & B1 & B2 & B3 & _ & _ & _ & B4 & B5 & B6 & _). exists s'. now repeat (split; [assumption|]).
Qed.

(** After that: insertions and removals change the code of their own id only, as
    long as the number of cached codes stays below the cache's limit. *)
Theorem C69_later_changes_partial : forall (V C : Type) (encode : list V -> V -> C) (s : cstate V C) (ops : list (cop V)) (k : Z),
  (forall id v b, In (CInsert id v b) ops -> (id < cc_size (cs_cache s))%N) ->
  (forall id, In (CRemove id) ops -> (id < cc_size (cs_cache s))%N) ->
  (cc_count (cs_cache s) + Z.of_nat (inserts V ops) <= k)%Z -> (k < cc_max (cs_cache s))%Z -> limit_above V k ops ->
  forall id,
    match last_change V id ops None with
    | None => code_of (crun encode s ops) id = code_of s id
    | Some (Some v) => code_of (crun encode s ops) id = Ok (encode (cs_data s) v)
    | Some None => code_of (crun encode s ops) id = Err EOther
    end.
Proof.
  intros V C encode s ops k A1 A2 A3 A4 A5 id.
  exact (crun_codes V C encode s ops s (fun _ => None) k eq_refl eq_refl A1 A2 A3 A4 A5 (fun _ => eq_refl) id).
Qed.

(** The codes of the bucket come back at start-up, in whatever order. *)
Theorem C69_codes_read_back : forall (C : Type) (l : list (N * C)) (c : ccache C) (id : N) (b : C),
  NoDup (map fst l) -> In (id, b) l -> cget (cprefill l c) id = Ok b.
Proof. exact cprefill_all. Qed.

(** A refused Compress leaves the index uncompressed; refused before the
    quantizer exists it changes no code. *)
Theorem C69_refused : forall (V C : Type) (norm : V -> V) (encode : list V -> V -> C) (o : corc V) (s : cstate V C) s' r,
  compress norm encode o s = (s', r) ->
  (r <> Ok tt -> cs_on s' = cs_on s) /\
  (co_empty o = true \/ co_init o = false \/ co_node0 o = None \/ co_pq o = false ->
   r <> Ok tt /\ cs_cache s' = cs_cache s /\ cs_store s' = cs_store s /\ cs_data s' = cs_data s).
Proof.
  intros V C norm encode o s s' r E. unfold compress in E.
  destruct (co_empty o); [injection E as <- <-; now repeat split|]. destruct (co_init o); [|injection E as <- <-; now repeat split].
  cbn [negb] in E. destruct (co_node0 o) as [i|]; [|injection E as <- <-; now repeat split].
  destruct (vget norm (cs_vecs s) i (co_source o)) as [vc [x|e| |]]; try (injection E as <- <-; now repeat split).
  destruct (co_pq o); [|injection E as <- <-; now repeat split]. cbn [negb] in E.
  assert (K : ~ (false = true \/ true = false \/ Some i = None \/ true = false)) by (intros [K|[K|[K|K]]]; discriminate).
  split; [|tauto]. intros Hr.
  destruct (ctasks _ _ _ _ _) as [[st c] [[]|e| |]]; try (injection E as <- <-; reflexivity).
  destruct (co_addpq o); injection E as <- <-; [congruence|reflexivity].
Qed.

(* ------------------------------------------------------------------ *)
(** Witnesses: numbers as vectors, the code of [v] is [v + 100]. *)
Definition enc1 (data : list N) (v : N) : N := (v + 100)%N.
Definition idn (v : N) : N := v.
Definition orc1 (tasks : list N) : corc N := mkCO false true (Some 0%N) (Err EVectorSource) true (fun _ => true) true tasks.
(** An index with a fresh cache of the given limit after some cache steps. *)
Definition after (max : Z) (ops : list (vop N)) : cstate N N :=
  mkCS false [] (new_ccache max) [] (vrun idn (new_vcache max) ops).

(** Three vectors, the middle one removed from the cache (a clean-up, or the
    cache was emptied and only two were read again): id 2 has no code, id 1 that
    of vector 2. *)
Theorem C69_hole_refuted : exists o s s',
  mget 2%N (vc_slots (cs_vecs s)) = Some 12%N /\ compress idn enc1 o s = (s', Ok tt) /\
  code_of s' 1%N = Ok (enc1 (cs_data s') 12%N) /\ code_of s' 2%N = Err EOther.
Proof.
  exists (orc1 [0; 1]%N), (after 1000000 [VPreload 0 10; VPreload 1 11; VPreload 2 12; VDelete 1]%N). eexists.
  split; [vm_compute; reflexivity|]. split; [vm_compute; reflexivity|]. split; vm_compute; reflexivity.
Qed.
(** The cache was emptied before: Compress reports success and no vector but the
    first has a code, so distances to the others cannot be computed. *)
Theorem C69_evicted_refuted : exists o s s',
  s = after 3 [VPreload 0 10; VPreload 1 11; VPreload 2 12; VTick]%N /\
  compress idn enc1 o s = (s', Ok tt) /\ cs_on s' = true /\
  code_of s' 1%N = Err EOther /\ code_of s' 2%N = Err EOther.
Proof.
  exists (mkCO false true (Some 0%N) (Ok 10%N) true (fun _ => true) true [0%N]).
  eexists. eexists. split; [reflexivity|]. split; [vm_compute; reflexivity|]. repeat split; vm_compute; reflexivity.
Qed.
(** Growing counts every slot as used, so with a limit of 50000 or less the next
    tick drops all codes, and they are not read again. *)
Theorem C69_codes_dropped_refuted : exists o s s',
  compress idn enc1 o s = (s', Ok tt) /\ length (cc_slots (cs_cache s')) = 2%nat /\
  code_of s' 0%N = Ok 110%N /\ cc_max (cs_cache s') = 50000%Z /\
  code_of (crun enc1 s' [CTick]) 0%N = Err EOther /\ mget 0%N (cs_store (crun enc1 s' [CTick])) = Some 110%N.
Proof.
  exists (orc1 [1; 0]%N), (after 50000 [VPreload 0 10; VPreload 1 11]%N). eexists.
  split; [vm_compute; reflexivity|]. repeat split; vm_compute; reflexivity.
Qed.
(** An id beyond the slots: the insertion panics. *)
Theorem C69_insert_beyond_refuted : exists o s s',
  compress idn enc1 o s = (s', Ok tt) /\ snd (cstep enc1 s' (CInsert 50000%N 7%N true)) = Panic.
Proof.
  exists (orc1 [1; 0]%N), (after 1000000 [VPreload 0 10; VPreload 1 11]%N). eexists.
  split; [vm_compute; reflexivity|]. vm_compute. reflexivity.
Qed.

(** Examples. *)
Definition three : cstate N N := after 1000000 [VPreload 2 12; VPreload 0 10; VPreload 1 11]%N.
Example C69_three_hyps :
  (forall id, mget id (vc_slots (cs_vecs three)) = if N.ltb id 3 then Some (10 + id)%N else None) /\
  (3 <= vc_size (cs_vecs three))%N /\ Permutation [2; 0; 1]%N (map N.of_nat (seq 0 (N.to_nat 3))).
Proof.
  split; [|split].
  - intros id. destruct id as [|[[p|p|]|[p|p|]|]]; reflexivity.
  - vm_compute. discriminate.
  - apply (Permutation_trans (perm_swap 0 2 [1])%N). apply perm_skip. apply perm_swap.
Qed.
Example C69_three_codes : exists s', compress idn enc1 (orc1 [2; 0; 1]%N) three = (s', Ok tt) /\
  map (code_of s') [0; 1; 2; 3]%N = [Ok 110; Ok 111; Ok 112; Err EOther]%N /\
  map (code_of (crun enc1 s' [CInsert 3 13 true; CTick; CRemove 1]%N)) [0; 1; 2; 3]%N = [Ok 110; Err EOther; Ok 112; Ok 113]%N /\
  (cc_count (cs_cache s') + 1 < cc_max (cs_cache s'))%Z.
Proof. eexists. split; [vm_compute; reflexivity|]. repeat split; vm_compute; reflexivity. Qed.
Example C69_read_back_three : cget (cprefill [(0, 110); (70000, 111); (2, 112)]%N (new_ccache 5)) 70000%N = Ok 111%N.
Proof. vm_compute. reflexivity. Qed.

Print Assumptions C69_own_codes_partial.
Print Assumptions C69_later_changes_partial.
Print Assumptions C69_codes_read_back.
Print Assumptions C69_refused.
Print Assumptions C69_hole_refuted.
Print Assumptions C69_evicted_refuted.
Print Assumptions C69_codes_dropped_refuted.
Print Assumptions C69_insert_beyond_refuted.
