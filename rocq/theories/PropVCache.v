(** Properties C33, C34, C51: where the index gets vectors from. *)
From Coq Require Import String.
From Verif Require Import Base F32 PQ PQProofs Graph Search SearchProofs SearchLayer SearchKnn
  SearchCong Insert HeuristicProofs InsertProofs InsertHist InsertTotal InsertDim InsertSmall InsertFacts InsertFind
  Distancer DistancerProofs PropDistancer TestGraph TestInsert PropSearch PropInsert PropFind
  Persist PersistProofs PersistHist LRU LRUProofs PropPersist InsertRestart
  Client ClientProofs ClientSafe ClientFacts ClientReq PropClient VCache VCacheProofs VCacheFacts.
Local Open Scope string_scope.

(* ------------------------------------------------------------------ *)
(** C33.  [faithful]: whenever the source answered, it answered with the vector
    that the id had at that moment.  In every interleaving of lookups,
    preloads, deletions, growth, eviction and clearing, a vector returned for an
    id was, now or earlier, the vector of that id. *)
Theorem C33_never_another_ids_vector : forall V (norm : V -> V) max tr ops o id v,
  VCacheProofs.faithful V norm (new_vcache max) tr ops ->
  answers_for V (vrun norm (new_vcache max) ops) o = Some id ->
  snd (vstep norm (vrun norm (new_vcache max) ops) o) = Some (Ok v) ->
  tr id = Some v \/ In (VPreload id v) ops.
Proof. exact only_right_vectors. Qed.
Print Assumptions C33_never_another_ids_vector.

(** If no other operation comes between the steps of a lookup, the vector is
    the current one; a deleted one is never returned.
    Missing: lookups that another operation interrupts; false for them (below). *)
Theorem C33_current_vector_partial : forall V (norm : V -> V) max tr ops id src v,
  sfaithful V norm (new_vcache max) tr ops ->
  let c := srun V norm (new_vcache max) ops in
  let tr' := struth_run V norm (new_vcache max) tr ops in
  source_ok V norm tr' id src -> snd (vget norm c id src) = Ok v -> tr' id = Some v.
Proof. exact sequential_right. Qed.
Print Assumptions C33_current_vector_partial.

(** The same for the lookup of several ids: the i-th vector belongs to the i-th
    id. *)
Theorem C33_multi_positional_partial : forall V (norm : V -> V) max tr ops src ids rs,
  sfaithful V norm (new_vcache max) tr ops ->
  let c := srun V norm (new_vcache max) ops in
  let tr' := struth_run V norm (new_vcache max) tr ops in
  (forall id, source_ok V norm tr' id (src id)) -> snd (vmulti norm c src ids) = Some rs ->
  length rs = length ids /\
  forall i id v, nth_error ids i = Some id -> nth_error rs i = Some (Ok v) -> tr' id = Some v.
Proof. exact multi_sequential. Qed.
Print Assumptions C33_multi_positional_partial.

Definition ops33 : list (vop N) :=
  [VPreload 1 11; VRead 0 2; VFetch 0 2 (Ok 22); VStore 0; VDelete 1; VTick; VPreload 3 33]%N.
Definition sops33 : list (seqop N) :=
  [SOp (VPreload 1 11); SGet 2 (Ok 22); SOp (VDelete 1); SOp (VPreload 3 33); SOp (VGrow 30000)]%N.
Definition tr33 (id : N) : option N := if N.eqb id 2 then Some 22%N else None.
Example C33_nonvacuous :
  VCacheProofs.faithful N id (new_vcache 100) tr33 ops33 /\
  answers_for N (vrun id (new_vcache 100) ops33) (VRead 5 3) = Some 3%N /\
  snd (vstep id (vrun id (new_vcache 100) ops33) (VRead 5 3)) = Some (Ok 33%N) /\
  sfaithful N id (new_vcache 100) tr33 sops33 /\
  snd (vget id (srun N id (new_vcache 100) sops33) 2 (Err EVectorSource)) = Ok 22%N /\
  snd (vget id (srun N id (new_vcache 100) sops33) 1 (Err EVectorSource)) = Err EVectorSource /\
  snd (vmulti id (srun N id (new_vcache 100) sops33) (fun _ => Err EVectorSource) [3; 1; 2]%N) =
    Some [Ok 33%N; Err EVectorSource; Ok 22%N].
Proof.
  split. { cbn -[N.ltb]. repeat split; auto. intros v [= <-]. reflexivity. }
  split; [reflexivity|]. split; [reflexivity|]. split.
  { cbn -[N.ltb]. repeat split; auto. intros v [= <-]. reflexivity. }
  split; [reflexivity|]. split; reflexivity.
Qed.

(** The bound on the cache (grow, which the service never calls, sets the count to the
    new size).  A tick leaves fewer vectors than the maximum, and it drops none while
    fewer than the maximum have been stored since the last clearing. *)
Definition no_grow {V} (o : vop V) : Prop := match o with VGrow _ => False | _ => True end.
Definition stores {V} (ops : list (vop V)) : nat :=
  length (filter (fun o => match o with VStore _ | VPreload _ _ => true | _ => false end) ops).
Lemma mdel_length {V} (k : N) (m : nmap V) : (length (mdel k m) <= length m)%nat.
Proof. induction m as [|[k' v] m IH]; cbn; [lia|]. destruct (N.eqb k k'); cbn; lia. Qed.
Lemma mdel_length_lt {V} (k : N) (m : nmap V) v : mget k m = Some v -> (length (mdel k m) < length m)%nat.
Proof.
  induction m as [|[k' w] m IH]; cbn; [discriminate|]. destruct (N.eqb k k'); cbn.
  - intros _. pose proof (mdel_length k m). lia.
  - intros H. specialize (IH H). lia.
Qed.
Lemma mset_length {V} (k : N) (v : V) (m : nmap V) : (length (mset k v m) <= S (length m))%nat.
Proof. unfold mset. cbn. pose proof (mdel_length k m). lia. Qed.
Lemma slots_counted V (norm : V -> V) ops : forall c, Forall no_grow ops ->
  (Z.of_nat (length (vc_slots c)) <= vc_count c)%Z ->
  (Z.of_nat (length (vc_slots (vrun norm c ops))) <= vc_count (vrun norm c ops))%Z.
Proof.
  induction ops as [|o ops IH]; intros c Hg Hc; [exact Hc|]. cbn [vrun]. inversion_clear Hg as [|? ? Ho Hos]. apply IH; [exact Hos|].
  destruct o as [t id|t id src|t|id v|id|id|id| | |m]; cbn [vstep]; try (destruct Ho; fail).
  - destruct (negb _); exact Hc.
  - destruct src; exact Hc.
  - destruct (mget t (vc_pend c)) as [[id v]|]; [|exact Hc]. destruct (negb _); cbn; [lia|]. pose proof (mset_length id v (vc_slots c)). unfold mset in *. cbn in *. lia.
  - destruct (negb _); cbn; [lia|]. pose proof (mset_length id v (vc_slots c)). unfold mset in *. cbn in *. lia.
  - destruct (mget id (vc_slots c)) eqn:E; [|exact Hc]. destruct (negb _); [exact Hc|]. cbn. apply mdel_length_lt in E. lia.
  - exact Hc.
  - cbn. lia.
  - destruct (vc_max c <=? vc_count c)%Z; [cbn; lia|exact Hc].
  - exact Hc.
Qed.
Theorem C33_bounded V (norm : V -> V) max ops : (0 < max)%Z -> Forall no_grow ops ->
  (forall m, ~ In (VMax m) ops) ->
  (Z.of_nat (length (vc_slots (fst (vstep norm (vrun norm (new_vcache max) ops) VTick)))) < max)%Z.
Proof.
  intros Hm Hg Hx. assert (M : forall ops c, (forall m, ~ In (VMax m) ops) -> vc_max (vrun norm c ops) = vc_max c).
  { clear. induction ops as [|o ops IH]; intros c Hx; [reflexivity|]. cbn [vrun]. rewrite IH by (intros m H; apply (Hx m); right; exact H).
    destruct o; cbn [vstep]; repeat match goal with |- context [match ?x with _ => _ end] => destruct x end; cbn; try reflexivity.
    exfalso. apply (Hx m). left. reflexivity. }
  pose proof (slots_counted V norm ops (new_vcache max) Hg) as L. cbn [vstep]. rewrite M by exact Hx. cbn [new_vcache vc_max].
  destruct (Z.leb_spec max (vc_count (vrun norm (new_vcache max) ops))); cbn [fst with_slots vc_slots length]; [lia|].
  specialize (L (Z.le_refl 0)). lia.
Qed.
Print Assumptions C33_bounded.
Theorem C33_kept_while_small V (norm : V -> V) max ops1 ops2 : Forall no_grow ops2 ->
  (forall m, ~ In (VMax m) (ops1 ++ ops2)) -> (Z.of_nat (stores ops2) < max)%Z ->
  let c := vrun norm (fst (vstep norm (vrun norm (new_vcache max) ops1) VClear)) ops2 in
  fst (vstep norm c VTick) = c.
Proof.
  intros Hg Hx Hs c.
  assert (M : forall ops c, (forall m, ~ In (VMax m) ops) -> vc_max (vrun norm c ops) = vc_max c).
  { clear. induction ops as [|o ops IH]; intros c Hx; [reflexivity|]. cbn [vrun]. rewrite IH by (intros m H; apply (Hx m); right; exact H).
    destruct o; cbn [vstep]; repeat match goal with |- context [match ?x with _ => _ end] => destruct x end; cbn; try reflexivity.
    exfalso. apply (Hx m). left. reflexivity. }
  assert (K : forall ops c, Forall no_grow ops -> (vc_count (vrun norm c ops) <= Z.max 0 (vc_count c) + Z.of_nat (stores ops))%Z).
  { clear. induction ops as [|o ops IH]; intros c Hg; [cbn; lia|]. cbn [vrun]. inversion_clear Hg as [|? ? Ho Hos].
    assert (S1 : stores (o :: ops) = (match o with VStore _ | VPreload _ _ => 1 | _ => 0 end + stores ops)%nat).
    { unfold stores. cbn [filter]. destruct o; reflexivity. }
    assert (D : (vc_count (fst (vstep norm c o)) <= Z.max 0 (vc_count c) + Z.of_nat (match o with VStore _ | VPreload _ _ => 1 | _ => 0 end))%Z).
    { destruct o as [t id|t id src|t|id v|id|id|id| | |m]; cbn [vstep]; try (destruct Ho; fail);
      repeat match goal with |- context [match ?x with _ => _ end] => destruct x end; cbn; lia. }
    specialize (IH (fst (vstep norm c o)) Hos). lia. }
  assert (Mc : vc_max c = max).
  { unfold c. rewrite M by (intros m H; apply (Hx m), in_app_iff; right; exact H). cbn [vstep fst with_slots vc_max].
    rewrite M by (intros m H; apply (Hx m), in_app_iff; left; exact H). reflexivity. }
  specialize (K ops2 (fst (vstep norm (vrun norm (new_vcache max) ops1) VClear)) Hg). fold c in K. cbn [vstep fst with_slots vc_count] in K.
  cbn [vstep]. rewrite Mc. destruct (Z.leb_spec max (vc_count c)); [lia|reflexivity].
Qed.
Print Assumptions C33_kept_while_small.
Theorem C33_kept_from_new V (norm : V -> V) max ops : Forall no_grow ops ->
  (forall m, ~ In (VMax m) ops) -> (Z.of_nat (stores ops) < max)%Z ->
  fst (vstep norm (vrun norm (new_vcache max) ops) VTick) = vrun norm (new_vcache max) ops.
Proof. exact (C33_kept_while_small V norm max [] ops). Qed.
Print Assumptions C33_kept_from_new.
Example C33_bound_nonvacuous :
  let a := [VPreload 1 11; VPreload 2 22; VRead 0 3; VFetch 0 3 (Ok 33); VStore 0]%N in
  Forall no_grow a /\ stores a = 3%nat /\
  vc_slots (fst (vstep id (vrun id (new_vcache 3) a) VTick)) = [] /\
  List.length (vc_slots (fst (vstep id (vrun id (fst (vstep id (vrun id (new_vcache 4) a) VClear)) a) VTick))) = 3%nat.
Proof. split; [repeat constructor|]. repeat split; vm_compute; reflexivity. Qed.
(** A lookup that missed stores its vector after a deletion of the id: the
    deleted vector is served from then on. *)
Theorem C33_deleted_served_refuted : exists tr ops id (v : N),
  VCacheProofs.faithful N (fun x => x) (new_vcache 100) tr ops /\
  truth N (fun x => x) (new_vcache 100) tr ops id = None /\
  snd (vstep (fun x => x) (vrun (fun x => x) (new_vcache 100) ops) (VRead 7 id)) = Some (Ok v).
Proof.
  exists tr33, [VRead 1 2; VFetch 1 2 (Ok 22); VDelete 2; VStore 1]%N, 2%N, 22%N.
  split. { cbn -[N.ltb]. repeat split; auto. intros v [= <-]. reflexivity. }
  split; reflexivity.
Qed.
Print Assumptions C33_deleted_served_refuted.

(** The same race loses an update: the old vector replaces the new one. *)
Theorem C33_stale_served_refuted : exists tr ops id (v w : N),
  VCacheProofs.faithful N (fun x => x) (new_vcache 100) tr ops /\
  truth N (fun x => x) (new_vcache 100) tr ops id = Some w /\ v <> w /\
  snd (vstep (fun x => x) (vrun (fun x => x) (new_vcache 100) ops) (VRead 7 id)) = Some (Ok v).
Proof.
  exists tr33, [VRead 1 2; VFetch 1 2 (Ok 22); VPreload 2 23; VStore 1]%N, 2%N, 22%N, 23%N.
  split. { cbn -[N.ltb]. repeat split; auto. intros v [= <-]. reflexivity. }
  split; [reflexivity|]. split; [discriminate|reflexivity].
Qed.
Print Assumptions C33_stale_served_refuted.

(* ------------------------------------------------------------------ *)
(** C34.  The positive part: any number of requests with insertions, write-backs,
    queries and restarts in between, as long as the ids stay below the number of
    slots of the vector cache and the vector source works ([good_op]): every
    insertion is accepted.
    Missing: collections beyond that size; false for them (below). *)
Theorem C34_upto_capacity_partial : forall n cap o adds keys cnt k after rs,
  0 < n ->
  let rs' := mkRound (o :: adds) keys cnt k after :: rs in
  let ops := flat_map rd_adds rs' in
  a_id o = 0%N -> NoDup (map a_id ops) -> rounds_ok empty_index rs' ->
  Forall (fun o => call_ok cap o /\ length (a_vec o) = n /\ (a_id o < i_vcsize (a_env o))%N /\
                   forall l ow id, In id (map a_id ops) -> exists w, i_vs (a_env o) l ow id = Ok w /\ length w = n) ops ->
  Forall (fun x => x = Ok tt) (snd (run_rounds empty_index rs')).
Proof. exact rounds_upto_capacity. Qed.
Print Assumptions C34_upto_capacity_partial.

(** A collection that already uses all ids of the vector cache: a request whose
    first document has a vector crashes the handler. *)
Theorem C34_full_crashes : forall R lookup o orcs name rd rs keys st p l v,
  c_open st = true -> c_reg st = true -> r_kvopen R = true -> r_isopen R = true ->
  is_empty (c_h st) = false -> (i_vcsize (do_env o) <= first_id (c_h st))%N ->
  rd_props rd = JObj p -> pget "vector" p = Some (JArr l) -> vector_of l = Some v -> v <> [] ->
  name <> "" -> raw_docs rs <> None ->
  snd (handle_add R lookup (o :: orcs) name (Some (Some rd :: rs)) (Some keys) st) = Crash.
Proof. exact full_crashes. Qed.
Print Assumptions C34_full_crashes.

(** What the service leaves out: Grow makes room for every id up to the given one
    and keeps the vectors. *)
Theorem C34_grow_makes_room : forall V (norm : V -> V) c id id', (id' <= id)%N ->
  let c' := fst (vstep norm c (VGrow id)) in
  (forall t, snd (vstep norm c' (VRead t id')) <> Some Panic) /\
  (forall v, snd (vstep norm c' (VPreload id' v)) <> Some Panic) /\
  snd (vstep norm c' (VPrefetch id')) <> Some Panic /\ vc_slots c' = vc_slots c /\ (vc_size c <= vc_size c')%N.
Proof. intros V norm c id id'. apply grow_room. Qed.
Print Assumptions C34_grow_makes_room.
Example C34_grow_nonvacuous :
  snd (vstep (fun x : N => x) (new_vcache 5) (VRead 0 25000)) = Some Panic /\
  snd (vstep (fun x : N => x) (fst (vstep (fun x => x) (new_vcache 5) (VGrow 25000))) (VRead 0 25000)) = None.
Proof. split; reflexivity. Qed.

Definition full_coll : coll :=
  mkC (mkH [] [(0%N, mkV 0 0 [[]] false (q_of [1; 0]%Z) false)] (Some 0%N) (Some 25000%N) 0 0 [] true) true true [] [].
Example C34_full_nonvacuous :
  is_empty (c_h full_coll) = false /\ (i_vcsize (do_env ook) <= first_id (c_h full_coll))%N /\
  snd (handle_add rok true [ook; ook] "coll"
        (Some [Some (mkRaw "a" (JObj [("vector", JArr [num 1; num 0])]))]) (Some []) full_coll) = Crash.
Proof. repeat split. vm_compute. discriminate. Qed.

(** One request with 25001 documents, every vector of the same length and every
    call outside succeeding, crashes the handler; the same request without its
    last document indexes all. *)
Theorem C34_refuted : exists docs last,
  length docs = N.to_nat 25000 /\
  (forall d, In d (docs ++ [last]) -> exists id, fst d = Some (mkDoc id [("vector", JArr [num 1; num 0])])) /\
  (forall d, In d (docs ++ [last]) -> do_docput (snd d) = true /\ do_marshal (snd d) = true /\
     call_ok 25500 (mkA (do_env (snd d)) 0 [] 0) /\ forall l ow id, exists w, i_vs (do_env (snd d)) l ow id = Ok w /\ length w = 2) /\
  snd (add_loop true [] new_coll 0 docs) = Ok tt /\
  snd (fst (add_loop true [] new_coll 0 docs)) = 25000%N /\
  snd (add_documents rok true [] (docs ++ [last]) new_coll) = Panic.
Proof. exact too_many. Qed.
Print Assumptions C34_refuted.

(* ------------------------------------------------------------------ *)
(** C51.  A collection of at most [i_M] = 30 vectors accepts further ones over
    any number of requests and restarts, whatever the vector source answers.
    Missing: larger collections; false for them (below). *)
Theorem C51_small_collections_partial : forall n cap M o adds keys cnt k after rs,
  0 < n ->
  let rs' := mkRound (o :: adds) keys cnt k after :: rs in
  let ops := flat_map rd_adds rs' in
  a_id o = 0%N -> NoDup (map a_id ops) -> rounds_ok empty_index rs' -> length ops <= M ->
  Forall (fun o => call_ok cap o /\ length (a_vec o) = n /\ (a_id o < i_vcsize (a_env o))%N /\ i_M (a_env o) = M) ops ->
  let r := run_rounds empty_index rs' in
  Forall (fun x => x = Ok tt) (snd r) /\
  forall o, In o ops -> exists v, node_by_id (fst r) (a_id o) = Some v /\
    v_vec v = p_normalize (e_prov (i_env (a_env o))) (a_vec o).
Proof. exact rounds_small. Qed.
Print Assumptions C51_small_collections_partial.

Definition rounds51 : list round :=
  [mkRound [mkA failing_src 0 (q_of [1; 2]%Z) 1; mkA failing_src 1 (q_of [3; 2]%Z) 0] [0; 1]%N 2 10 [true; false];
   mkRound [mkA failing_src 2 (q_of [1; 5]%Z) 0; mkA failing_src 3 (q_of [7; 2]%Z) 2] [3; 2; 0; 1]%N 4 10 [false; true];
   mkRound [mkA failing_src 4 (q_of [1; 1]%Z) 0] [4; 3; 2; 1; 0]%N 5 10 []].
Definition rounds_okb (h : hnsw) (rs : list round) : bool :=
  (fix go h rs := match rs with
   | [] => true
   | r :: rs' => forallb (fun kv => memN (fst kv) (rd_keys r)) (h_cache (fst (run_adds h (rd_adds r)))) &&
                 (match snd (round_flush h r) with Ok _ => true | _ => false end) && go (round_step h r) rs'
   end) h rs.
Lemma rounds_okb_ok rs : forall h, rounds_okb h rs = true -> rounds_ok h rs.
Proof.
  induction rs as [|r rs IH]; intros h H; [exact I|]. cbn [rounds_ok].
  change (forallb (fun kv => memN (fst kv) (rd_keys r)) (h_cache (fst (run_adds h (rd_adds r)))) &&
    (match snd (round_flush h r) with Ok _ => true | _ => false end) && rounds_okb (round_step h r) rs = true) in H.
  apply andb_prop in H. destruct H as [H H3]. apply andb_prop in H. destruct H as [H1 H2].
  split; [|split; [|now apply IH]].
  - intros j v Hj. rewrite forallb_forall in H1. apply memN_In.
    destruct (mget_pair _ _ _ Hj) as (p & P1 & P2). specialize (H1 _ P1). now rewrite P2 in H1.
  - destruct (snd (round_flush h r)) as [[]|e| |]; try discriminate. reflexivity.
Qed.
Example C51_nonvacuous : rounds_ok empty_index rounds51 /\
  Forall (fun o => call_ok 25500 o /\ length (a_vec o) = 2 /\ (a_id o < i_vcsize (a_env o))%N /\ i_M (a_env o) = 30)
    (flat_map rd_adds rounds51) /\
  snd (run_rounds empty_index rounds51) = repeat (Ok tt) 5.
Proof.
  split; [apply rounds_okb_ok; vm_compute; reflexivity|]. split; [|vm_compute; reflexivity].
  repeat constructor; cbn; auto using env_rev_sched; try lia; try apply env_rev_sched.
Qed.

(** In a new process both caches are empty: no vector of an old id is available. *)
Theorem C51_new_process_has_no_vectors : forall V (norm : V -> V) max id,
  (id < initial_size)%N ->
  snd (vget norm (new_vcache max) id (snd (dc_get (V := V) id []))) = Err EVectorSource.
Proof. exact fresh_no_vectors. Qed.
Print Assumptions C51_new_process_has_no_vectors.

(** Without vectors of the old ids, an insertion after a restart fails as soon
    as the search of layer 0 finds [i_M] (30) candidates. *)
Theorem C51_restart_needs_vectors : forall I h id q0 t v0 d r,
  let hr := restart h in
  let q := p_normalize (e_prov (i_env I)) q0 in
  q0 <> [] -> is_empty hr = false -> (id < i_vcsize I)%N -> id <> 0%N -> 0 < i_M I ->
  node_by_id hr 0 = Some v0 -> dist_node_vec (e_prov (i_env I)) hr 0 q = Ok d ->
  search_layer (i_env I) (put_node (with_once hr) (new_vertex id q t)) q (i_efc I) 0 None [mkItem 0 d] = Ok r ->
  i_M I <= length r -> (forall x, In x r -> exists e, i_vs I 0 id (it_id x) = Err e) ->
  snd (add I hr id q0 t) = Err EVectorSource.
Proof. exact restart_fails. Qed.
Print Assumptions C51_restart_needs_vectors.

(** 30 documents, a restart, one more document: the request answers "Added 1
    documents", the document is neither indexed nor stored.  The vector source
    is the vector cache over the document cache, both empty but for the new
    vector. *)
Definition src51 (l : nat) (ow id : N) : res vec :=
  if N.eqb id 30 then Ok (q_of [5; 5]%Z)
  else snd (vget (fun v => v) (new_vcache 0) id (snd (dc_get (V := vec) id []))).
Definition orc_new : dorc :=
  mkD (mkI (env_rev l2p) src51 25000 30 60) 0 (fun _ => Err EVectorizer) true true.
Definition orc_old : dorc := mkD good_src 0 (fun _ => Err EVectorizer) true true.
Definition raw51 (i : nat) : option rawdoc :=
  Some (mkRaw (String (Ascii.ascii_of_nat (65 + i)) EmptyString) (JObj [("vector", JArr (map num (pt i)))])).
Definition new51 : option rawdoc := Some (mkRaw "new" (JObj [("vector", JArr [num 5; num 5])])).
Definition st51 : coll :=
  restart_coll (fst (handle_add rok false (repeat orc_old 30) "coll" (Some (map raw51 (seq 0 30))) (Some []) new_coll)).
Theorem C51_after_restart_refuted : exists st',
  snd (handle_add rok false (repeat orc_old 30) "coll" (Some (map raw51 (seq 0 30))) (Some []) new_coll) = Ok200 30 /\
  handle_add rok false [orc_new] "coll" (Some [new51]) (Some []) st51 = (st', Ok200 1) /\
  snd (get_document rok true "new" st') = Err EDocNotFound /\ c_docs st' = c_docs st51 /\
  c_log st' = [EVectorSource] /\ doc_count (c_h st') = Some 30%N.
Proof.
  eexists. split; [vm_compute; reflexivity|]. split; [vm_compute; reflexivity|].
  split; [vm_compute; reflexivity|]. split; [vm_compute; reflexivity|]. split; vm_compute; reflexivity.
Qed.
Print Assumptions C51_after_restart_refuted.

(** Without a restart: the document cache keeps the last 1000 vectors, and the
    client's vector cache (maximum size 0) is cleared by every tick. *)
Theorem C51_evicted : forall (v : N -> vec) (norm : vec -> vec) ids k,
  NoDup ids ->
  snd (dc_get k (dc_fill 1000 ids v [])) =
    (if in_dec N.eq_dec k (firstn 1000 (rev ids)) then Ok (v k) else Err EVectorSource) /\
  forall ops, vc_max (vrun norm (new_vcache 0) ops) = 0%Z ->
    (0 <= vc_count (vrun norm (new_vcache 0) ops))%Z ->
    vc_slots (fst (vstep norm (vrun norm (new_vcache 0) ops) VTick)) = [].
Proof. exact evicted. Qed.
Print Assumptions C51_evicted.
(** A vector that was looked up stays in the document cache until 1000 others have
    been added. *)
Theorem C51_recently_used_kept : forall (vf : N -> vec) ids d k v,
  snd (dc_get k d) = Ok v -> ~ In k ids -> length ids < 1000 ->
  snd (dc_get k (dc_fill 1000 ids vf (fst (dc_get k d)))) = Ok v.
Proof. intros vf ids d k v. apply (dc_recent vec). Qed.
Print Assumptions C51_recently_used_kept.
Example C51_recently_nonvacuous :
  let d := dc_fill 3 [1; 2; 3]%N (fun _ => q_of [1; 1]%Z) [] in
  snd (dc_get 1%N d) = Ok (q_of [1; 1]%Z) /\
  snd (dc_get 1%N (dc_fill 3 [4; 5]%N (fun _ => q_of [2; 2]%Z) (fst (dc_get 1%N d)))) = Ok (q_of [1; 1]%Z) /\
  snd (dc_get 1%N (dc_fill 3 [4; 5; 6]%N (fun _ => q_of [2; 2]%Z) (fst (dc_get 1%N d)))) = Err EVectorSource.
Proof. cbv zeta. split; [|split]; reflexivity. Qed.
Example C51_evicted_nonvacuous :
  let ids := map N.of_nat (seq 0 1001) in
  NoDup ids /\ snd (dc_get 0%N (dc_fill 1000 ids (fun _ => q_of [1; 1]%Z) [])) = Err EVectorSource /\
  snd (dc_get 1%N (dc_fill 1000 ids (fun _ => q_of [1; 1]%Z) [])) = Ok (q_of [1; 1]%Z).
Proof. exact (evict_range (fun _ => q_of [1; 1]%Z) 999). Qed.
