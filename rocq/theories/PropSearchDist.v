(** Properties C61 (search by distance) and C62 (search by count).

    [member h q0 allow P x]: [it_dist x] is the distance of the query from the
    stored vector [it_id x], which has no tombstone and is on the allow list. *)
From Coq Require Import String Sorted.
From Verif Require Import Base F32 PQ PQProofs Graph Search SearchProofs SearchLayer SearchKnn SearchCong
  Insert HeuristicProofs InsertProofs InsertHist InsertTotal InsertDim InsertSmall InsertFacts InsertFind
  Distancer DistancerProofs PropDistancer TestGraph TestInsert PropInsert PropFind
  Persist PersistProofs PersistHist LRU LRUProofs PropPersist Config ConfigProofs SearchDist SearchDistProofs SearchDistFacts.

(* ------------------------------------------------------------------ *)
(** C61: the loop ends, on any index, for any schedule of each of its searches. *)
Theorem C61_terminates : forall Es h s forbid delta q0 target maxlimit allow P,
  (forall i, e_prov (Es i) = P) -> (forall i, sched_ok (Es i)) -> (forall i, ids_small (Es i) h) -> prov_sym P ->
  (forall l, allow = Some l -> NoDup l) ->
  search_by_distance Es h s forbid delta q0 target maxlimit allow <> OutOfFuel.
Proof. exact by_distance_no_fuel. Qed.
Print Assumptions C61_terminates.

(** Every result is a stored vector without tombstone, on the allow list, with its
    distance, and within the target (or within floatcomp's delta of it); a limit of
    100 or more is kept. *)
Theorem C61_sound : forall Es h s forbid delta q0 target maxlimit allow P out,
  (forall i, e_prov (Es i) = P) -> (forall i, sched_ok (Es i)) -> (forall i, ids_small (Es i) h) -> prov_sym P ->
  (forall l, allow = Some l -> NoDup l) -> dists_num P h (p_normalize P q0) ->
  search_by_distance Es h s forbid delta q0 target maxlimit allow = Ok out ->
  length (fst out) = length (snd out) /\
  (forall i id, nth_error (fst out) i = Some id -> exists d v, nth_error (snd out) i = Some d /\
     node_by_id h id = Some v /\ p_query P (p_normalize P q0) (v_vec v) = Some d /\ ~ In id (h_tomb h) /\
     (forall l, allow = Some l -> In id l) /\ (fle d target = true \/ delta d target = true)) /\
  ((100 <= maxlimit)%Z -> (Z.of_nat (length (fst out)) <= maxlimit)%Z).
Proof.
  intros Es h s forbid delta q0 target maxlimit allow P out HP Hsc Hsm Hsy Hal Hn H.
  destruct (by_distance_sound Es h s forbid delta q0 target maxlimit allow P out HP Hsc Hsm Hsy Hal Hn H) as (A & B & C & D).
  split; [now rewrite <- A, <- B, !map_length|]. split.
  - intros i id Hi. rewrite <- A, nth_error_map in Hi. destruct (nth_error (answer out) i) as [x|] eqn:Ex; [|discriminate].
    injection Hi as <-. destruct (C x (nth_error_In _ _ Ex)) as (((v & Hv & Hd) & Ht & Hl) & Hf).
    exists (it_dist x), v. split; [now rewrite <- B, nth_error_map, Ex|]. split; [exact Hv|]. split; [exact Hd|].
    split; [now apply memN_notIn|]. split; [exact Hl|exact Hf].
  - intros Hm. rewrite <- A, map_length. lia.
Qed.
Print Assumptions C61_sound.

(** Every vector within the target is returned, once, nearest first: if the flat
    search is used, or if all vectors are comparable with the query, the ground
    layer is connected and ef is at least their number; and if distances differ
    and there is no limit, or there are at most 100 vectors.
    Missing: the other indexes, where it is false (below). *)
Theorem C61_exact_partial : forall Es h s forbid delta q0 target maxlimit allow P out,
  (forall i, e_prov (Es i) = P) -> (forall i, sched_ok (Es i)) -> (forall i, ids_small (Es i) h) -> prov_sym P ->
  (forall l, allow = Some l -> NoDup l) -> dists_num P h (p_normalize P q0) ->
  (is_empty h = false /\
   (forall id v, node_by_id h id = Some v -> exists d, p_query P (p_normalize P q0) (v_vec v) = Some d) /\
   (forall a va b vb, node_by_id h a = Some va -> node_by_id h b = Some vb -> reach h 0 a b) /\
   (forall k, (100 <= k)%Z -> (Z.of_nat (length (nodup N.eq_dec (stored_ids h))) <= search_ef s k)%Z)) \/
  (exists l, allow = Some l /\ forbid = false /\ (Z.of_nat (length l) < s_flat s)%Z) ->
  (forall a b da db, true_dist P h (p_normalize P q0) a da -> true_dist P h (p_normalize P q0) b db -> a <> b ->
     flt da db = true \/ flt db da = true) /\ (maxlimit < 0)%Z \/
    length (nodup N.eq_dec (stored_ids h)) <= 100 ->
  is_num target = true ->
  search_by_distance Es h s forbid delta q0 target maxlimit allow = Ok out ->
  NoDup (fst out) /\ asc (answer out) /\
  forall id v d, node_by_id h id = Some v -> p_query P (p_normalize P q0) (v_vec v) = Some d -> ~ In id (h_tomb h) ->
    (forall l, allow = Some l -> In id l) -> fle d target = true -> In (mkItem id d) (answer out).
Proof.
  intros Es h s forbid delta q0 target maxlimit allow P out HP Hsc Hsm Hsy Hal Hn Hok Hties Ht H.
  assert (Hok' : small_ok h s q0 P \/ flat_ok s forbid allow).
  { destruct Hok as [Hok|(l & E1 & E2 & E3)]; [now left|right]. exists l. split; [exact E1|]. rewrite E2. cbn. now apply Z.ltb_lt. }
  destruct (by_distance_exact Es h s forbid delta q0 target maxlimit allow P out HP Hsc Hsm Hsy Hal Hn Hok' Hties Ht H) as (A & B & C).
  split; [exact A|]. split; [exact B|]. intros id v d Hv Hd Hto Hl Hf. apply C; [|exact Hf].
  split; [exists v; auto|]. split; [now apply memN_notIn|exact Hl].
Qed.
Print Assumptions C61_exact_partial.

(** After up to 61 insertions and a write-back (and a restart, if id 0 is stored)
    the search succeeds and returns exactly the vectors within the target,
    whatever the limit. *)
Theorem C61_after_flush_partial : forall n cap ops P keys cnt k,
  0 < n -> ops <> [] -> length ops <= 61 -> NoDup (map a_id ops) ->
  Forall (find_call n 30 cap (map a_id ops)) ops ->
  Forall (fun o => e_prov (i_env (a_env o)) = P) ops ->
  let h := fst (run_adds empty_index ops) in
  all_keys h keys -> snd (flush h keys cnt k) = Ok tt ->
  forall h' q0, h' = fst (flush h keys cnt k) \/ h' = restart (fst (flush h keys cnt k)) /\ In 0%N (map a_id ops) ->
  length q0 = n ->
  (forall o d, In o ops -> p_query P (p_normalize P q0) (p_normalize P (a_vec o)) = Some d -> is_num d = true) ->
  forall Es s forbid delta target maxlimit,
    (forall i, sched_ok (Es i)) -> (forall i, e_prov (Es i) = P) -> (forall i, e_vcap (Es i) = cap) -> is_num target = true ->
    exists out, search_by_distance Es h' s forbid delta q0 target maxlimit None = Ok out /\
      map it_id (answer out) = fst out /\ map it_dist (answer out) = snd out /\
      (forall id d, In (mkItem id d) (answer out) ->
         (exists o, In o ops /\ a_id o = id /\ p_query P (p_normalize P q0) (p_normalize P (a_vec o)) = Some d) /\
         (fle d target = true \/ delta d target = true)) /\
      NoDup (fst out) /\ asc (answer out) /\
      forall o d, In o ops -> p_query P (p_normalize P q0) (p_normalize P (a_vec o)) = Some d -> fle d target = true ->
        In (mkItem (a_id o) d) (answer out).
Proof.
  intros n cap ops P keys cnt k Hn Hne Hlen Hnd Hops HP h Hk Hok h' q0 Hh' Hq Hnum Es s forbid delta target maxlimit Hsc HE Hcap Ht.
  apply (ready_distance cap P ops q0 h'); auto; [|lia].
  exact (ready_after n 30 cap ops P keys cnt k Hn ltac:(lia) Hne Hlen Hnd Hops HP Hk Hok h' q0 Hh' Hq).
Qed.
Print Assumptions C61_after_flush_partial.

(** C62: after up to 61 insertions and a write-back, SearchByVector with ef at
    least the number of vectors (for instance k >= 61) returns the k nearest
    vectors, nearest first.
    Missing: more vectors, and the time before the write-back (below). *)
Theorem C62_knn_exact_partial : forall n cap ops P keys cnt k,
  0 < n -> ops <> [] -> length ops <= 61 -> NoDup (map a_id ops) ->
  Forall (find_call n 30 cap (map a_id ops)) ops ->
  Forall (fun o => e_prov (i_env (a_env o)) = P) ops ->
  let h := fst (run_adds empty_index ops) in
  all_keys h keys -> snd (flush h keys cnt k) = Ok tt ->
  forall h' q0, h' = fst (flush h keys cnt k) \/ h' = restart (fst (flush h keys cnt k)) /\ In 0%N (map a_id ops) ->
  length q0 = n ->
  (forall o d, In o ops -> p_query P (p_normalize P q0) (p_normalize P (a_vec o)) = Some d -> is_num d = true) ->
  forall E s forbid kk, sched_ok E -> e_prov E = P -> e_vcap E = cap -> (0 <= kk)%Z -> (Z.of_nat (length ops) <= search_ef s kk)%Z ->
    exists out all, search_by_vector E h' s forbid q0 kk None = Ok out /\
      map it_id (answer out) = fst out /\ map it_dist (answer out) = snd out /\ asc (answer out) /\ NoDup (map it_id all) /\
      (forall id d, In (mkItem id d) all <-> exists o, In o ops /\ a_id o = id /\
         p_query P (p_normalize P q0) (p_normalize P (a_vec o)) = Some d) /\
      exists dropped, Permutation all (answer out ++ dropped) /\ length (answer out) = Nat.min (Z.to_nat kk) (length all) /\
        forall x y, In x (answer out) -> In y dropped -> flt (it_dist y) (it_dist x) = false.
Proof.
  intros n cap ops P keys cnt k Hn Hne Hlen Hnd Hops HP h Hk Hok h' q0 Hh' Hq Hnum E s forbid kk Hsc HE Hcap Hkk Hef.
  apply (ready_knn cap P ops q0 h'); auto.
  exact (ready_after n 30 cap ops P keys cnt k Hn ltac:(lia) Hne Hlen Hnd Hops HP Hk Hok h' q0 Hh' Hq).
Qed.
Print Assumptions C62_knn_exact_partial.

(* ------------------------------------------------------------------ *)
(** Forty points in the plane, written back. *)
Definition set10 : settings := mkSet 30 60 60 300 "l2-squared" 10 100 500 8 40000 0 0 false.

Definition ok40 (h : hnsw) : bool :=
  let r := flush h (keys_of (h_cache h)) 40 50 in
  match snd r with Ok tt => true | _ => false end &&
  match search_by_distance (fun _ => env_rev cosp) (fst r) set10 false (fun _ _ => false) (q_of [1; 3]%Z) (f32_of_Z 1) 5 None with
  | Ok out => Nat.eqb (length (fst out)) 40
  | _ => false
  end.
Lemma hist40_ok : ok40 (fst (run_adds empty_index hist40)) = true.
Proof. vm_cast_no_check (eq_refl true). Qed.
Lemma ok40_spec h : ok40 h = true ->
  all_keys h (keys_of (h_cache h)) /\ snd (flush h (keys_of (h_cache h)) 40 50) = Ok tt /\
  exists out, search_by_distance (fun _ => env_rev cosp) (fst (flush h (keys_of (h_cache h)) 40 50)) set10 false (fun _ _ => false)
    (q_of [1; 3]%Z) (f32_of_Z 1) 5 None = Ok out /\ length (fst out) = 40.
Proof.
  unfold ok40. cbv zeta. intros H. apply andb_true_iff in H. destruct H as [H1 H2].
  split; [apply check_keys, forallb_forall; intros j Hj; now apply memN_In|].
  split; [destruct (snd (flush h _ _ _)) as [[]|e| |]; [reflexivity|discriminate H1..]|].
  destruct (search_by_distance _ _ _ _ _ _ _ _ _) as [out|e| |]; try discriminate H2. exists out. split; [reflexivity|]. now apply Nat.eqb_eq.
Qed.

Example C61_nonvacuous :
  let h := fst (run_adds empty_index hist40) in
  all_keys h (keys_of (h_cache h)) /\ snd (flush h (keys_of (h_cache h)) 40 50) = Ok tt /\ In 0%N (map a_id hist40) /\
  (Z.of_nat (length hist40) <= search_ef set10 61)%Z.
Proof.
  cbv zeta. destruct (ok40_spec _ hist40_ok) as (K1 & K2 & _). split; [exact K1|]. split; [exact K2|].
  split; [left; reflexivity|]. vm_compute; discriminate.
Qed.

(** The forty points meet the hypotheses of C62, also after a restart, and the
    provider answers every query of length 2. *)
Example C62_nonvacuous :
  let h := fst (run_adds empty_index hist40) in
  hist40 <> [] /\ length hist40 <= 61 /\ NoDup (map a_id hist40) /\
  Forall (find_call 2 30 25500 (map a_id hist40)) hist40 /\
  all_keys h (keys_of (h_cache h)) /\ snd (flush h (keys_of (h_cache h)) 40 50) = Ok tt /\ In 0%N (map a_id hist40) /\
  sched_ok (env_rev cosp) /\ (Z.of_nat (length hist40) <= search_ef set10 61)%Z /\
  search_ef set10 61 = 61%Z.
Proof.
  cbv zeta. destruct C18_nonvacuous as (A & B & C & D & _). destruct C61_nonvacuous as (K1 & K2 & K3 & K4). cbv zeta in *.
  repeat (split; [first [assumption|apply env_rev_sched]|]). vm_compute. reflexivity.
Qed.

(** The hypotheses of the general theorem, with the five vectors of [tg]. *)
Example C61_exact_nonvacuous :
  is_empty tg = false /\ length (nodup N.eq_dec (stored_ids tg)) <= 100 /\
  exists ds, search_by_distance (fun _ => env_rev l2p) tg set10 false (fun _ _ => false) (q_of [6]%Z) (f32_of_Z 20) (-1) None =
    Ok ([2; 3; 1]%N, ds).
Proof. split; [reflexivity|]. split; [vm_compute; lia|]. eexists. vm_compute. reflexivity. Qed.

(** A limit below 100 is not kept: the search stops only before a page that would
    end beyond the limit, and the first page of 100 is always read.  With limit 5
    all forty vectors are returned. *)
Theorem C61_limit_refuted : exists ops keys cnt k,
  Forall (call_ok 25500) ops /\ NoDup (map a_id ops) /\ Forall (fun o => i_M (a_env o) = 30 /\ i_efc (a_env o) = 60%Z) ops /\
  let h := fst (run_adds empty_index ops) in
  all_keys h keys /\ snd (flush h keys cnt k) = Ok tt /\
  exists out, search_by_distance (fun _ => env_rev cosp) (fst (flush h keys cnt k)) set10 false (fun _ _ => false)
    (q_of [1; 3]%Z) (f32_of_Z 1) 5 None = Ok out /\ length (fst out) = 40.
Proof.
  exists hist40, (keys_of (h_cache (fst (run_adds empty_index hist40)))), 40%N, 50. split; [apply history_calls; [exact cosp_known|reflexivity]|].
  split; [apply history_nodup|]. split; [apply history_forall; auto|]. exact (ok40_spec _ hist40_ok).
Qed.
Print Assumptions C61_limit_refuted.

(** A connected ground layer on which a vector is returned twice and the nearest
    one is left out, without any limit: 102 vectors on a line, linked in a
    chain, searched with ef 10.  The first search (k = 100, so ef = 100) finds the
    vectors 0 to 99 at 1 to 100 and turns back before 100 at 200.  The second
    (k = 1100) passes it, finds 101 at 0, and the page that starts at 100 holds
    99, for the second time, and 100.  (The graph is made by hand.) *)
Definition chain : hnsw :=
  let at_ i := Z.of_nat (match i with 100 => 200 | 101 => 0 | _ => S i end) in
  let nodes := map (fun i => (N.of_nat i, vtx (N.of_nat i)
    [match i with 0 => [1%N] | 101 => [100%N] | _ => [N.of_nat (i - 1); N.of_nat (S i)] end] [at_ i])) (seq 0 102) in
  mkH nodes nodes (Some 0%N) (Some 102%N) 0 0 [] true.
Definition chain_ok : bool :=
  all_nodes chain (fun id _ => N.ltb id 102) &&
  forallb (fun i => path_ok chain 0 (N.of_nat i) [N.of_nat (S i)] && path_ok chain 0 (N.of_nat (S i)) [N.of_nat i]) (seq 0 101) &&
  match node_by_id chain 101 with Some v => match p_query l2p (q_of [0]%Z) (v_vec v) with Some d => fle d (f32_of_Z 0) | None => false end | None => false end &&
  match search_by_distance (fun _ => env_fwd l2p) chain set10 false (fun _ _ => false) (q_of [0]%Z) (f32_of_Z 90000) (-1) None with
  | Ok out => negb (memN 101 (fst out)) && match nth_error (fst out) 99, nth_error (fst out) 100 with Some a, Some b => N.eqb a b && N.eqb a 99 | _, _ => false end
  | _ => false
  end.
Lemma chain_checked : chain_ok = true.
Proof. vm_cast_no_check (eq_refl true). Qed.

Theorem C61_repeats_refuted : exists h s P q0 target out,
  prov_sym P /\ dists_num P h (p_normalize P q0) /\ (forall id, has_tombstone h id = false) /\
  (forall a va b vb, node_by_id h a = Some va -> node_by_id h b = Some vb -> reach h 0 a b) /\
  search_by_distance (fun _ => env_fwd P) h s false (fun _ _ => false) q0 target (-1) None = Ok out /\
  nth_error (fst out) 99 = Some 99%N /\ nth_error (fst out) 100 = Some 99%N /\
  exists v d, node_by_id h 101 = Some v /\ p_query P (p_normalize P q0) (v_vec v) = Some d /\ fle d (f32_of_Z 0) = true /\
    fle d target = true /\ ~ In 101%N (fst out).
Proof.
  pose proof chain_checked as H. unfold chain_ok in H. apply andb_true_iff in H. destruct H as [H H4].
  apply andb_true_iff in H. destruct H as [H H3]. apply andb_true_iff in H. destruct H as [H1 H2].
  destruct (search_by_distance _ _ _ _ _ _ _ _ _) as [out|e| |] eqn:Eo; try discriminate H4.
  apply andb_true_iff in H4. destruct H4 as [H4 H5].
  exists chain, set10, l2p, (q_of [0]%Z), (f32_of_Z 90000), out.
  split; [apply known_psym, l2p_known|]. split; [apply check_dists; vm_compute; reflexivity|]. split; [reflexivity|]. split.
  { assert (Hid : forall a va, node_by_id chain a = Some va -> exists i, a = N.of_nat i /\ i <= 101).
    { intros a va Ha. pose proof (all_nodes_spec chain _ H1 a va Ha) as L. apply N.ltb_lt in L. exists (N.to_nat a). lia. }
    rewrite forallb_forall in H2.
    assert (Hstep : forall i, i < 101 -> reach chain 0 (N.of_nat i) (N.of_nat (S i)) /\ reach chain 0 (N.of_nat (S i)) (N.of_nat i)).
    { intros i Hi. specialize (H2 i ltac:(apply in_seq; lia)). apply andb_true_iff in H2. destruct H2 as [P1 P2].
      split; apply (path_reach chain 0 []); assumption. }
    assert (Hup : forall i, i <= 101 -> reach chain 0 0 (N.of_nat i) /\ reach chain 0 (N.of_nat i) 0).
    { induction i as [|i IH]; intros Hi; [split; constructor|]. destruct (IH ltac:(lia)) as [U1 U2]. destruct (Hstep i ltac:(lia)) as [S1 S2].
      split; eapply reach_trans; eauto. }
    intros a va b vb Ha Hb. destruct (Hid a va Ha) as (i & -> & Li), (Hid b vb Hb) as (j & -> & Lj).
    eapply reach_trans; [apply (Hup i Li)|apply (Hup j Lj)]. }
  split; [exact Eo|].
  destruct (nth_error (fst out) 99) as [a|]; [|discriminate H5]. destruct (nth_error (fst out) 100) as [b|]; [|discriminate H5].
  apply andb_true_iff in H5. destruct H5 as [H5 H6]. apply N.eqb_eq in H5, H6. subst a. subst b. split; [reflexivity|]. split; [reflexivity|].
  destruct (node_by_id chain 101) as [v|] eqn:Ev; [|discriminate H3]. exists v.
  change (p_normalize l2p (q_of [0]%Z)) with (q_of [0]%Z).
  destruct (p_query l2p (q_of [0]%Z) (v_vec v)) as [d|]; [|discriminate H3]. exists d.
  split; [reflexivity|]. split; [reflexivity|]. split; [exact H3|]. split; [|now apply memN_notIn, negb_true_iff].
  destruct (fle_num _ _ H3) as [Hd _]. apply (fle_above d (f32_of_Z 0)); try reflexivity; [exact Hd|].
  rewrite fle_nflt in H3 by (exact Hd || reflexivity). now apply negb_true_iff.
Qed.
Print Assumptions C61_repeats_refuted.

(** Before the first write-back both searches return nothing, although the vectors
    were added without error and the query by distance bound of the client finds
    them: isEmpty looks only at the table, which the insertions do not write. *)
Theorem C62_unflushed : forall n cap ops, 0 < n -> ops <> [] -> length ops <= 61 -> NoDup (map a_id ops) ->
  Forall (find_call n 30 cap (map a_id ops)) ops ->
  let r := run_adds empty_index ops in
  Forall (fun x => x = Ok tt) (snd r) /\
  forall E s forbid q0 k, search_by_vector E (fst r) s forbid q0 k None = Ok ([], []).
Proof.
  intros n cap ops Hn Hne Hlen Hnd Hops r. split.
  - exact (proj1 (find_upto n 30 cap ops Hn ltac:(lia) Hne Hlen Hnd Hops)).
  - intros E s forbid q0 k. unfold search_by_vector, knn_search.
    unfold r. now rewrite (unflushed_empty n 30 cap ops Hn ltac:(lia) Hne Hlen Hnd Hops).
Qed.
Print Assumptions C62_unflushed.

Lemma nothing_found h : (forall E s forbid q0 k, search_by_vector E h s forbid q0 k None = Ok ([], [])) ->
  forall Es s forbid delta q0 target maxlimit, search_by_distance Es h s forbid delta q0 target maxlimit None = Ok ([], []).
Proof. intros K Es s forbid delta q0 target maxlimit. unfold search_by_distance. cbn [dp_loop]. now rewrite K. Qed.

Theorem C62_unflushed_refuted : exists ops, length ops = 40 /\ NoDup (map a_id ops) /\
  Forall (find_call 2 30 25500 (map a_id ops)) ops /\
  let r := run_adds empty_index ops in
  Forall (fun x => x = Ok tt) (snd r) /\
  (forall E s forbid q0 k, search_by_vector E (fst r) s forbid q0 k None = Ok ([], [])) /\
  (forall Es s forbid delta q0 target maxlimit, search_by_distance Es (fst r) s forbid delta q0 target maxlimit None = Ok ([], [])).
Proof.
  exists hist40. destruct C18_nonvacuous as (A & B & C & D & _).
  split; [reflexivity|]. split; [exact C|]. split; [exact D|]. cbv zeta.
  destruct (C62_unflushed 2 25500 hist40 ltac:(lia) A B C D) as (K1 & K2). cbv zeta in *.
  split; [exact K1|]. split; [exact K2|]. exact (nothing_found _ K2).
Qed.
Print Assumptions C62_unflushed_refuted.
