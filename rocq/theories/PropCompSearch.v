(** C89: searches of a compressed index (CompSearch.v), for every quantizer
    ([bq], [bs], the code type), link graph, code cache and schedule.

    [in_range]: all links are below the length of the code cache; [slots_in]:
    so are the codes.  [ldown], [answer], [asc]: see PropSearch.v. *)
From Verif Require Import Base F32 PQ PQProofs Graph Search SearchProofs SearchLayer SearchKnn VCache Compress CompressProofs
  CompSearch CompSearchProofs Distancer DistancerProofs TestGraph.

(** Every answer consists of distinct ids that links lead to; the distance of
    each is the quantizer's distance between the query and the code of that id;
    bound, limit, tombstones and allow list hold; the order too if the distances
    are numbers. *)
Theorem C89_answers_partial : forall (C : Type) (bq bs : vec -> C -> f32) E h (cc : ccache C) q0 maxd ef allow out,
  sched_ok E -> (forall q c, bs q c = bq q c) -> in_range C h cc -> slots_in C cc ->
  (forall id c, mget id (cc_slots cc) = Some c -> (id < e_vcap E)%N) -> p_normalize (e_prov E) q0 <> [] ->
  knn_max_dist_byte bq bs E h cc q0 maxd ef allow = Ok out ->
  NoDup (fst out) /\ (Z.of_nat (length (fst out)) <= Z.max ef 1)%Z /\ length (fst out) <= length (snd out) /\
  (forall i id, nth_error (fst out) i = Some id -> exists c, cget cc id = Ok c /\
     nth_error (snd out) i = Some (bq (p_normalize (e_prov E) q0) c) /\
     fgt (bq (p_normalize (e_prov E) q0) c) maxd = false /\ ldown h (h_maxl h) (h_ep h) id /\
     has_tombstone h id = false /\ (forall f, allow = Some f -> f id = true)) /\
  ((forall id c, cget cc id = Ok c -> is_num (bq (p_normalize (e_prov E) q0) c) = true) ->
   forall i j di dj, i <= j < length (fst out) ->
     nth_error (snd out) i = Some di -> nth_error (snd out) j = Some dj -> flt dj di = false).
Proof.
  intros C bq bs E h cc q0 maxd ef allow out Hsc Hbs Hr Hs Hv Hq H.
  destruct (knn_max_dist_no_code C bq bs E h cc q0 maxd ef allow out H) as [c0 Hc0].
  rewrite (knn_max_dist_byte_eq C bq bs E h cc Hsc Hr Hs Hbs q0 maxd ef allow c0 Hq Hc0) in H.
  pose proof (recoded_sched C bq E cc Hsc) as Hsc'. pose proof (recoded_sym C bq E cc) as Hsym'.
  pose proof (recoded_small C bq E h cc Hv) as Hsm'.
  destruct (knn_max_dist_sound _ _ Hsc' Hsym' Hsm' q0 maxd ef allow out H) as (A1 & A2 & A3 & A4).
  split; [exact A1|]. split; [exact A3|]. split; [exact A2|]. split.
  - intros i id Hi. destruct (A4 i id Hi) as (d & B1 & B2 & B3 & _ & B4 & B5 & B6).
    apply recoded_dist in B2. destruct B2 as (c & Hc & ->). exists c.
    split; [now apply cget_Ok|]. split; [exact B1|]. split; [exact B4|]. split; [exact (recoded_ldown C bq h cc _ _ _ B3)|]. auto.
  - intros Hn. apply (knn_max_dist_aligned _ _ q0 maxd ef allow out Hsc' Hsym' Hsm'); [|exact H].
    intros id d Hd. apply recoded_dist in Hd. destruct Hd as (c & Hc & ->). apply (Hn id c). now apply cget_Ok.
Qed.
Print Assumptions C89_answers_partial.

(** The same for the index's own search, when every code belongs to a stored
    vector. *)
Theorem C89_answers_index_partial : forall (C : Type) (bq bs : vec -> C -> f32) E h (cc : ccache C) q k ef allow out,
  sched_ok E -> (forall q c, bs q c = bq q c) -> in_range C h cc -> slots_in C cc ->
  (forall id c, mget id (cc_slots cc) = Some c -> (id < e_vcap E)%N /\ exists v, node_by_id h id = Some v) -> q <> [] ->
  knn_search_byte bq bs E h cc q k ef allow = Ok out ->
  NoDup (fst out) /\ (Z.of_nat (length (fst out)) <= Z.max 0 k)%Z /\
  (forall x, In x (answer out) -> exists c, cget cc (it_id x) = Ok c /\ it_dist x = bq q c /\
     ldown h (h_maxl h) (h_ep h) (it_id x) /\ has_tombstone h (it_id x) = false /\ (forall f, allow = Some f -> f (it_id x) = true)) /\
  ((forall id c, cget cc id = Ok c -> is_num (bq q c) = true) -> asc (answer out)).
Proof.
  intros C bq bs E h cc q k ef allow out Hsc Hbs Hr Hs Hv Hq H.
  destruct (is_empty h) eqn:Em.
  { unfold knn_search_byte in H. rewrite Em in H. injection H as <-. cbn.
    split; [constructor|]. split; [lia|]. split; [intros x []|]. intros _. constructor. }
  assert (Hc0 : exists c, cget cc (h_ep h) = Ok c).
  { unfold knn_search_byte, dist_node_vec_byte in H. rewrite Em in H. destruct (cget cc (h_ep h)) as [c|e| |]; try discriminate. eauto. }
  destruct Hc0 as [c0 Hc0].
  rewrite (knn_search_byte_eq C bq bs E h cc Hsc Hr Hs Hbs (fun id c Hc => proj2 (Hv id c Hc)) q k ef allow c0 Hq Hc0) in H.
  pose proof (recoded_sched C bq E cc Hsc) as Hsc'. pose proof (recoded_sym C bq E cc) as Hsym'.
  pose proof (recoded_small C bq E h cc (fun id c Hc => proj1 (Hv id c Hc))) as Hsm'.
  destruct (knn_search_sound _ _ Hsc' Hsym' Hsm' q k ef allow out H) as (A1 & _ & A3 & A4 & _ & _ & A5).
  split; [exact A1|]. split; [exact A3|]. split.
  - intros x Hx. destruct (A4 x Hx) as (B1 & B2 & B3 & B4). apply recoded_dist in B1. destruct B1 as (c & Hc & Hd). exists c.
    split; [now apply cget_Ok|]. split; [exact Hd|]. split; [exact (recoded_ldown C bq h cc _ _ _ B2)|]. auto.
  - intros Hn. apply A5. intros id d Hd. apply recoded_dist in Hd. destruct Hd as (c & Hc & ->). apply (Hn id c). now apply cget_Ok.
Qed.
Print Assumptions C89_answers_index_partial.

(** The query is answered exactly when the entry point has a code. *)
Theorem C89_succeeds : forall (C : Type) (bq bs : vec -> C -> f32) E h (cc : ccache C) q0 maxd ef allow,
  sched_ok E -> (forall q c, bs q c = bq q c) -> in_range C h cc -> slots_in C cc -> wf_levels h ->
  (forall id c, mget id (cc_slots cc) = Some c -> (id < e_vcap E)%N) -> p_normalize (e_prov E) q0 <> [] ->
  (exists out, knn_max_dist_byte bq bs E h cc q0 maxd ef allow = Ok out) <-> (exists c, cget cc (h_ep h) = Ok c).
Proof.
  intros C bq bs E h cc q0 maxd ef allow Hsc Hbs Hr Hs Hwf Hv Hq. split.
  - intros [out H]. exact (knn_max_dist_no_code C bq bs E h cc q0 maxd ef allow out H).
  - intros [c0 Hc0]. rewrite (knn_max_dist_byte_eq C bq bs E h cc Hsc Hr Hs Hbs q0 maxd ef allow c0 Hq Hc0).
    pose proof (proj1 (cget_Ok C cc Hs _ _) Hc0) as Hm.
    apply (knn_max_dist_total (coded_env C bq E cc) (recoded C h cc) (recoded_sched C bq E cc Hsc) (recoded_sym C bq E cc)
             (recoded_small C bq E h cc Hv) q0 maxd ef allow (bq (p_normalize (e_prov E) q0) c0) (recoded_levels C bq h cc Hwf)).
    exact (proj1 (entry_byte C bq bs E h cc Hs Hbs (h_ep h) (p_normalize (e_prov E) q0) c0 Hq Hm)).
Qed.
Print Assumptions C89_succeeds.

(** Compress and then search.  The stored vectors have the ids 0, ..., n-1 and
    are in the vector cache, the code cache is fresh, the ground layer is
    connected and ef is at least n: the answer is exactly the allowed vectors
    whose coded distance is within the bound. *)
Theorem C89_after_compress_partial : forall (C : Type) (encode : list vec -> vec -> C) (bq bs : vec -> C -> f32) norm E h
    (o : corc vec) (s : cstate vec C) (n id0 : N) (vecs : N -> vec),
  (forall id, mget id (vc_slots (cs_vecs s)) = if N.ltb id n then Some (vecs id) else None) -> (n <= vc_size (cs_vecs s))%N ->
  cc_slots (cs_cache s) = [] ->
  co_empty o = false -> co_init o = true -> co_node0 o = Some id0 -> (id0 < n)%N -> co_pq o = true -> co_addpq o = true ->
  Permutation (co_tasks o) (map N.of_nat (seq 0 (N.to_nat n))) ->
  sched_ok E -> (forall q c, bs q c = bq q c) -> wf_levels h -> (n <= e_vcap E)%N -> (h_ep h < n)%N ->
  (forall id, (exists v, node_by_id h id = Some v) <-> (id < n)%N) ->
  (forall id v l cs c, node_by_id h id = Some v -> nth_error (v_conns v) l = Some cs -> In c cs -> (c < n)%N) ->
  (forall a b, (a < n)%N -> (b < n)%N -> reach h 0 a b) ->
  let data := map vecs (map N.of_nat (seq 0 (N.to_nat n))) in
  exists s', compress norm encode o s = (s', Ok tt) /\
    forall q0 maxd ef allow, p_normalize (e_prov E) q0 <> [] -> (Z.of_N n <= ef)%Z ->
    let dist id := bq (p_normalize (e_prov E) q0) (encode data (vecs id)) in
    (forall id, (id < n)%N -> is_num (dist id) = true) ->
    exists out, knn_max_dist_byte bq bs E h (cs_cache s') q0 maxd ef allow = Ok out /\ NoDup (fst out) /\ asc (answer out) /\
      forall id d, In (mkItem id d) (answer out) <->
        (id < n)%N /\ d = dist id /\ has_tombstone h id = false /\ (forall f, allow = Some f -> f id = true) /\
        flt d f32_zero = false /\ fgt d maxd = false.
Proof.
  intros C encode bq bs norm E h o s n id0 vecs A1 A2 A3 A4 A5 A6 A7 A8 A9 A10 Hsc Hbs Hwf Hcap Hep Hst Hlk Hcon data.
  destruct (compress_full vec C norm encode o s n id0 vecs A1 A2 A4 A5 A6 A7 A8 A9 A10)
    as (s' & B1 & _ & _ & B2 & _ & _ & B3 & _ & _ & B4). fold data in B3.
  exists s'. split; [exact B1|]. intros q0 maxd ef allow Hq Hef dist Hn. set (cc := cs_cache s') in *.
  assert (Hlow : forall id, (id < n)%N -> mget id (cc_slots cc) = Some (encode data (vecs id))).
  { intros id H. specialize (B3 id H). unfold code_of, cget in B3. fold cc in B3.
    destruct (negb _); [discriminate|]. destruct (mget id (cc_slots cc)) as [c|]; [|discriminate]. now injection B3 as ->. }
  assert (Hslot : forall id c, mget id (cc_slots cc) = Some c -> (id < n)%N /\ c = encode data (vecs id)).
  { intros id c Hc. destruct (N.lt_ge_cases id n) as [K|K]; [split; [exact K|]; rewrite (Hlow id K) in Hc; congruence|].
    rewrite (B4 id K), A3 in Hc. discriminate. }
  assert (Hs : slots_in C cc). { intros id c Hc. apply Hslot in Hc. lia. }
  assert (Hr : in_range C h cc). { intros id v l cs c H1 H2 H3. specialize (Hlk id v l cs c H1 H2 H3). lia. }
  assert (Hv : forall id c, mget id (cc_slots cc) = Some c -> (id < e_vcap E)%N). { intros id c Hc. apply Hslot in Hc. lia. }
  pose proof (proj2 (cget_Ok C cc Hs _ _) (Hlow _ Hep)) as Hc0.
  destruct (proj2 (C89_succeeds C bq bs E h cc q0 maxd ef allow Hsc Hbs Hr Hs Hwf Hv Hq) (ex_intro _ _ Hc0)) as [out H].
  exists out. split; [exact H|].
  rewrite (knn_max_dist_byte_eq C bq bs E h cc Hsc Hr Hs Hbs q0 maxd ef allow _ Hq Hc0) in H.
  pose proof (recoded_sched C bq E cc Hsc) as Hsc'. pose proof (recoded_sym C bq E cc) as Hsym'.
  pose proof (recoded_small C bq E h cc Hv) as Hsm'.
  assert (Hnum : dists_num (e_prov (coded_env C bq E cc)) (recoded C h cc) (p_normalize (e_prov E) q0)).
  { intros id d Hd. apply recoded_dist in Hd. destruct Hd as (c & Hc & ->). apply Hslot in Hc. destruct Hc as [K ->]. now apply Hn. }
  destruct (knn_max_dist_sound _ _ Hsc' Hsym' Hsm' q0 maxd ef allow out H) as (D1 & D2 & _ & D4).
  destruct (knn_max_dist_sorted _ _ Hsc' Hsym' Hsm' q0 maxd ef allow out Hnum H) as (Ha & Hid & Hd).
  split; [exact D1|]. split; [exact Ha|]. intros id d. split.
  - intros Hin. unfold answer in Hin. apply in_map_iff in Hin. destruct Hin as ([i x] & [= -> ->] & Hp).
    apply In_nth_error in Hp. destruct Hp as [j Hj].
    assert (Hj1 : nth_error (fst out) j = Some id /\ nth_error (snd out) j = Some d).
    { clear - Hj. revert j Hj. generalize (fst out), (snd out). induction l as [|a l IH]; intros [|b m] j Hj; cbn in Hj; try (destruct j; discriminate).
      destruct j as [|j]; cbn in *; [now injection Hj as -> ->|now apply IH]. }
    destruct Hj1 as [J1 J2]. destruct (D4 j id J1) as (d' & F1 & F2 & _ & F3 & F4 & F5 & F6).
    assert (d' = d) by congruence. subst d'. apply recoded_dist in F2. destruct F2 as (c & Hc & Hdc). apply Hslot in Hc. destruct Hc as [K ->].
    split; [exact K|]. split; [exact Hdc|]. auto.
  - intros (K & -> & T & Al & F1 & F2).
    assert (Hall : forall i v, node_by_id h i = Some v -> exists c, mget i (cc_slots cc) = Some c).
    { intros i v Hi. assert (Ki : (i < n)%N) by (apply Hst; eauto). exists (encode data (vecs i)). now apply Hlow. }
    destruct (exhaustive_spelled _ _ q0 maxd ef allow out Hsc' Hsym' Hsm' Hnum) as (e & ve & Hve & _ & Hex).
    + intros i v Hi. rewrite node_recoded in Hi. destruct (mget i (cc_slots cc)) as [c|] eqn:F; [|discriminate].
      injection Hi as <-. rewrite recode_vec. eexists. cbn [coded_env e_prov p_query]. unfold coded_query. now rewrite kid_kvec, F.
    + exact H.
    + rewrite node_recoded in Hve. destruct (mget e (cc_slots cc)) as [ce|] eqn:Fe; [|discriminate].
      assert (Ke : (e < n)%N) by (now apply (Hslot e ce)).
      apply (Hex (map N.of_nat (seq 0 (N.to_nat n)))); auto.
      * intros i v _ Hi. rewrite node_recoded in Hi. destruct (mget i (cc_slots cc)) as [c|] eqn:F; [|discriminate].
        destruct (Hslot i c F) as [Ki _]. apply in_map_iff. exists (N.to_nat i). split; [apply N2Nat.id|]. apply in_seq. lia.
      * rewrite map_length, seq_length. lia.
      * apply reach_recoded; [exact Hall|]. now apply Hcon.
      * apply recoded_dist. exists (encode data (vecs id)). split; [now apply Hlow|reflexivity].
Qed.
Print Assumptions C89_after_compress_partial.

(* ------------------------------------------------------------------ *)
(** Concrete case: two centroids on a line, 0 and 9; a code is the centroid. *)
Definition bq2 (q c : vec) : f32 := match p_query l2p q c with Some d => d | None => f32_zero end.
Definition enc2 (data : list vec) (v : vec) : vec :=
  match v with
  | x :: _ => if flt x (f32_of_Z 6) then q_of [0]%Z else q_of [9]%Z
  | [] => []
  end.
(** Four vectors in a ring, two layers. *)
Definition ring_nodes : nmap vertex :=
  [(0, vtx 0 [[1; 3]] [0]%Z); (1, vtx 1 [[2; 0]; [2]] [2]%Z); (2, vtx 2 [[3; 1]; [1]] [8]%Z); (3, vtx 3 [[0; 2]] [14]%Z)]%N.
Definition ring : hnsw := mkH [] ring_nodes (Some 1%N) (Some 4%N) 1 1 [] true.
Definition vec4 (id : N) : vec := q_of [nth (N.to_nat id) [0; 2; 8; 14]%Z 0%Z].
Definition cs4 (max : Z) : cstate vec vec :=
  mkCS false [] (new_ccache max) [] (vrun (fun v => v) (new_vcache 1000000) (map (fun i => VPreload i (vec4 i)) [0; 1; 2; 3]%N)).
Definition co4 : corc vec := mkCO false true (Some 0%N) (Err EVectorSource) true (fun _ => true) true [3; 1; 0; 2]%N.
Definition after4 (max : Z) : cstate vec vec := fst (compress (fun v => v) enc2 co4 (cs4 max)).

Lemma ring_reach a b : (a < 4)%N -> (b < 4)%N -> reach ring 0 a b.
Proof.
  assert (St : forall a b c v cs, reach ring 0 a b -> node_by_id ring b = Some v -> conns_at v 0 = Some cs -> In c cs -> reach ring 0 a c).
  { intros x y z v cs H1 H2 H3 H4. eapply reach_step; eauto. lia. }
  assert (K : forall x, (x < 4)%N -> x = 0%N \/ x = 1%N \/ x = 2%N \/ x = 3%N) by (intros x Hx; lia).
  assert (N1 : forall x, reach ring 0 x 0%N -> reach ring 0 x 1%N) by (intros x H; eapply (St x 0%N); [exact H|reflexivity|reflexivity|now left]).
  assert (N2 : forall x, reach ring 0 x 1%N -> reach ring 0 x 2%N) by (intros x H; eapply (St x 1%N); [exact H|reflexivity|reflexivity|now left]).
  assert (N3 : forall x, reach ring 0 x 2%N -> reach ring 0 x 3%N) by (intros x H; eapply (St x 2%N); [exact H|reflexivity|reflexivity|now left]).
  assert (N4 : forall x, reach ring 0 x 3%N -> reach ring 0 x 0%N) by (intros x H; eapply (St x 3%N); [exact H|reflexivity|reflexivity|now left]).
  intros Ha Hb. destruct (K a Ha) as [->|[->|[->| ->]]], (K b Hb) as [->|[->|[->| ->]]];
    repeat first [apply reach_refl|apply N1|apply N2|apply N3|apply N4].
Qed.

Definition cc4 : ccache vec := cs_cache (after4 1000000).
Example C89_answers_nonvacuous :
  sched_ok (env_rev l2p) /\ in_range vec ring cc4 /\ slots_in vec cc4 /\ wf_levels ring /\
  (forall id c, mget id (cc_slots cc4) = Some c -> (id < 25500)%N /\ exists v, node_by_id ring id = Some v) /\
  knn_max_dist_byte bq2 bq2 (env_rev l2p) ring cc4 (q_of [7]%Z) (f32_of_Z 60) 4 None =
    Ok ([2; 3; 0; 1]%N, map f32_of_Z [4; 4; 49; 49]%Z) /\
  knn_search_byte bq2 bq2 (env_rev l2p) ring cc4 (q_of [7]%Z) 2 4 None = Ok ([2; 3]%N, map f32_of_Z [4; 4]%Z).
Proof.
  assert (Hslot : forall id c, mget id (cc_slots cc4) = Some c -> id = 0%N \/ id = 1%N \/ id = 2%N \/ id = 3%N).
  { intros id c. remember (cc_slots cc4) as l eqn:L. vm_compute in L. subst l. cbn [mget].
    repeat match goal with |- context [N.eqb id ?k] => destruct (N.eqb_spec id k) as [->|]; [tauto|] end. discriminate. }
  assert (Hsz : cc_size cc4 = 50000%N) by (vm_compute; reflexivity).
  split; [apply env_rev_sched|]. split.
  { intros id v l cs c Hv Hcs Hc. rewrite Hsz.
    assert (A : all_nodes ring (fun _ v => forallb (forallb (fun c => N.ltb c 4)) (v_conns v)) = true) by (vm_compute; reflexivity).
    pose proof (all_nodes_spec _ _ A id v Hv) as B. cbn beta in B. rewrite forallb_forall in B.
    specialize (B cs (nth_error_In _ _ Hcs)). rewrite forallb_forall in B. specialize (B c Hc). apply N.ltb_lt in B. lia. }
  split; [intros id c Hc; apply Hslot in Hc; rewrite Hsz; lia|].
  split; [apply check_levels; vm_compute; reflexivity|].
  split; [intros id c Hc; apply Hslot in Hc; split; [lia|]; destruct Hc as [->|[->|[->| ->]]]; eexists; reflexivity|].
  split; vm_compute; reflexivity.
Qed.

Example C89_after_compress_nonvacuous :
  (forall id, mget id (vc_slots (cs_vecs (cs4 1000000))) = if N.ltb id 4 then Some (vec4 id) else None) /\
  (4 <= vc_size (cs_vecs (cs4 1000000)))%N /\ Permutation (co_tasks co4) (map N.of_nat (seq 0 (N.to_nat 4))) /\
  (forall id, (exists v, node_by_id ring id = Some v) <-> (id < 4)%N) /\
  (forall id v l cs c, node_by_id ring id = Some v -> nth_error (v_conns v) l = Some cs -> In c cs -> (c < 4)%N) /\
  (forall a b, (a < 4)%N -> (b < 4)%N -> reach ring 0 a b) /\
  (forall id, (id < 4)%N -> is_num (bq2 (q_of [7]%Z) (enc2 [] (vec4 id))) = true).
Proof.
  assert (K : forall x, (x < 4)%N -> x = 0%N \/ x = 1%N \/ x = 2%N \/ x = 3%N) by (intros x Hx; lia).
  split.
  { intros id. destruct (N.ltb_spec id 4) as [H|H].
    - destruct (K id H) as [->|[->|[->| ->]]]; vm_compute; reflexivity.
    - remember (vc_slots _) as l eqn:L. vm_compute in L. subst l. cbn [mget].
      repeat match goal with |- context [N.eqb id ?k] => destruct (N.eqb_spec id k) as [->|]; [lia|] end. reflexivity. }
  split; [vm_compute; discriminate|]. split.
  { assert (L : map N.of_nat (seq 0 (N.to_nat 4)) = [0; 1; 2; 3]%N) by (vm_compute; reflexivity). rewrite L. cbn [co4 co_tasks].
    apply NoDup_Permutation; [repeat constructor; cbn; intuition discriminate|repeat constructor; cbn; intuition discriminate|].
    intros x. cbn. tauto. }
  split.
  { intros id. split.
    - intros [v Hv]. unfold node_by_id in Hv. cbn [ring h_cache h_kv mget] in Hv. unfold ring_nodes in Hv. cbn [mget] in Hv.
      repeat match type of Hv with context [N.eqb id ?k] => destruct (N.eqb_spec id k) as [->|]; [lia|] end. discriminate.
    - intros H. destruct (K id H) as [->|[->|[->| ->]]]; eexists; reflexivity. }
  split.
  { intros id v l cs c Hv Hcs Hc.
    assert (A : all_nodes ring (fun _ v => forallb (forallb (fun c => N.ltb c 4)) (v_conns v)) = true) by (vm_compute; reflexivity).
    pose proof (all_nodes_spec _ _ A id v Hv) as B. cbn beta in B. rewrite forallb_forall in B.
    specialize (B cs (nth_error_In _ _ Hcs)). rewrite forallb_forall in B. specialize (B c Hc). now apply N.ltb_lt in B. }
  split; [exact ring_reach|].
  intros id H. destruct (K id H) as [->|[->|[->| ->]]]; vm_compute; reflexivity.
Qed.

(** The watcher empties the code cache (Compress has counted every slot as
    used): from then on every query fails, although all vectors and links are
    stored and the codes are in the bucket. *)
Theorem C89_codes_dropped_refuted : exists o s s' h q maxd ef,
  compress (fun v => v) enc2 o s = (s', Ok tt) /\
  (exists out, knn_max_dist_byte bq2 bq2 (env_rev l2p) h (cs_cache s') q maxd ef None = Ok out /\ length (fst out) = 4) /\
  let s'' := crun enc2 s' [CTick] in
  (forall q maxd ef allow, knn_max_dist_byte bq2 bq2 (env_rev l2p) h (cs_cache s'') q maxd ef allow = Err EOther) /\
  length (cs_store s'') = 4.
Proof.
  exists co4, (cs4 50000), (after4 50000), ring, (q_of [7]%Z), (f32_of_Z 60), 4%Z.
  split; [vm_compute; reflexivity|]. split; [eexists; split; vm_compute; reflexivity|].
  assert (K : cget (cs_cache (crun enc2 (after4 50000) [CTick])) (h_ep ring) = Err EOther) by (vm_compute; reflexivity).
  split; [|vm_compute; reflexivity].
  intros q maxd ef allow. unfold knn_max_dist_byte, dist_node_vec_byte. rewrite K. reflexivity.
Qed.
Print Assumptions C89_codes_dropped_refuted.

(** A stored and linked vector without a code is missing from the answer, and
    so is what is only reached through it; no error is reported. *)
Theorem C89_missing_code_refuted : exists h cc q maxd ef ids ds,
  in_range vec h cc /\ (exists v, node_by_id h 1%N = Some v /\ p_query l2p q (v_vec v) = Some f32_zero) /\
  (exists c, cget cc 2%N = Ok c /\ bq2 q c = f32_one) /\ reach h 0 (h_ep h) 2%N /\
  knn_max_dist_byte bq2 bq2 (env_rev l2p) h cc q maxd ef None = Ok (ids, ds) /\ ids = [0]%N /\ (3 <= ef)%Z /\ fgt f32_one maxd = false.
Proof.
  set (g := mkH [] [(0, vtx 0 [[1]] [5]%Z); (1, vtx 1 [[0; 2]] [7]%Z); (2, vtx 2 [[1]] [8]%Z)]%N (Some 0%N) (Some 3%N) 0 0 [] true).
  exists g, (mkCC [(0%N, q_of [5]%Z); (2%N, q_of [8]%Z)] 25000 2 1000000), (q_of [7]%Z), (f32_of_Z 60), 10%Z. do 2 eexists.
  split.
  { intros id v l cs c Hv Hcs Hc.
    assert (A : all_nodes g (fun _ v => forallb (forallb (fun c => N.ltb c 4)) (v_conns v)) = true) by (vm_compute; reflexivity).
    pose proof (all_nodes_spec _ _ A id v Hv) as B. cbn beta in B. rewrite forallb_forall in B.
    specialize (B cs (nth_error_In _ _ Hcs)). rewrite forallb_forall in B. specialize (B c Hc). apply N.ltb_lt in B. cbn [cc_size]. lia. }
  split; [eexists; split; vm_compute; reflexivity|]. split; [eexists; split; vm_compute; reflexivity|].
  split.
  { eapply (reach_step g 0 0%N 1%N); [|reflexivity|cbn; lia|reflexivity|now right; left].
    eapply (reach_step g 0 0%N 0%N); [constructor|reflexivity|cbn; lia|reflexivity|now left]. }
  split; [vm_compute; reflexivity|]. split; [reflexivity|]. split; [lia|vm_compute; reflexivity].
Qed.
Print Assumptions C89_missing_code_refuted.

(** A link to an id beyond the code cache ends the process, where the search of
    the uncompressed index answers. *)
Theorem C89_beyond_refuted : exists h cc q maxd ef,
  knn_max_dist_byte bq2 bq2 (env_rev l2p) h cc q maxd ef None = Panic /\
  exists out, knn_max_dist (env_rev l2p) h q maxd ef None = Ok out.
Proof.
  exists (mkH [] [(0, vtx 0 [[1; 50000]] [5]%Z); (1, vtx 1 [[0]] [7]%Z)]%N (Some 0%N) (Some 3%N) 0 0 [] true),
    (mkCC [(0%N, q_of [5]%Z); (1%N, q_of [8]%Z)] 50000 2 1000000), (q_of [7]%Z), (f32_of_Z 60), 10%Z.
  split; [vm_compute; reflexivity|]. eexists. vm_compute. reflexivity.
Qed.
Print Assumptions C89_beyond_refuted.
