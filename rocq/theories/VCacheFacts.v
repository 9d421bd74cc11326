(** The statements of PropVCache.v, proved. *)
From Coq Require Import String.
From Verif Require Import Base F32 PQ PQProofs Graph Search SearchProofs SearchLayer SearchKnn
  SearchCong Insert HeuristicProofs InsertProofs InsertHist InsertTotal InsertDim InsertSmall InsertFacts InsertFind
  Distancer DistancerProofs PropDistancer TestGraph TestInsert PropSearch PropInsert PropFind
  Persist PersistProofs PersistHist LRU LRUProofs PropPersist InsertRestart Collections
  Client ClientProofs ClientSafe ClientFacts ClientReq PropClient VCache VCacheProofs.
Local Open Scope string_scope.

Lemma multi_sequential : forall V (norm : V -> V) max tr ops src ids rs,
  sfaithful V norm (new_vcache max) tr ops ->
  let c := srun V norm (new_vcache max) ops in
  let tr' := struth_run V norm (new_vcache max) tr ops in
  (forall id, source_ok V norm tr' id (src id)) -> snd (vmulti norm c src ids) = Some rs ->
  length rs = length ids /\
  forall i id v, nth_error ids i = Some id -> nth_error rs i = Some (Ok v) -> tr' id = Some v.
Proof.
  intros V norm max tr ops src ids rs Hf c tr' Hs Hm. eapply multi_right; [exact Hs| |exact Hm].
  apply srun_current; [|exact Hf]. split; intros i w [=].
Qed.

Lemma mget_pair {V} k (v : V) m : mget k m = Some v -> exists p, In p m /\ fst p = k.
Proof. intros H. apply mget_Some_in in H. apply in_map_iff in H. destruct H as (p & P1 & P2). eauto. Qed.

Lemma rounds_upto_capacity n cap o adds keys cnt k after rs :
  0 < n ->
  let rs' := mkRound (o :: adds) keys cnt k after :: rs in
  let ops := flat_map rd_adds rs' in
  a_id o = 0%N -> NoDup (map a_id ops) -> rounds_ok empty_index rs' ->
  Forall (fun o => call_ok cap o /\ length (a_vec o) = n /\ (a_id o < i_vcsize (a_env o))%N /\
                   forall l ow id, In id (map a_id ops) -> exists w, i_vs (a_env o) l ow id = Ok w /\ length w = n) ops ->
  Forall (fun x => x = Ok tt) (snd (run_rounds empty_index rs')).
Proof.
  intros Hn rs' ops Hz Hnd Hr Hok.
  apply (rounds_accepted n cap o adds keys cnt k after rs Hn Hz); auto.
  eapply Forall_impl; [|exact Hok]. intros o' (H1 & H2 & H3 & H4). split; [now apply call_dop|]. split; [exact H2|]. split; [exact H3|].
  left. exact H4.
Qed.

Lemma rounds_small n cap M o adds keys cnt k after rs :
  0 < n ->
  let rs' := mkRound (o :: adds) keys cnt k after :: rs in
  let ops := flat_map rd_adds rs' in
  a_id o = 0%N -> NoDup (map a_id ops) -> rounds_ok empty_index rs' -> length ops <= M ->
  Forall (fun o => call_ok cap o /\ length (a_vec o) = n /\ (a_id o < i_vcsize (a_env o))%N /\ i_M (a_env o) = M) ops ->
  let r := run_rounds empty_index rs' in
  Forall (fun x => x = Ok tt) (snd r) /\
  forall o, In o ops -> exists v, node_by_id (fst r) (a_id o) = Some v /\
    v_vec v = p_normalize (e_prov (i_env (a_env o))) (a_vec o).
Proof.
  intros Hn rs' ops Hz Hnd Hr Hlen Hok r.
  destruct (rounds_accepted n cap o adds keys cnt k after rs Hn Hz) as [A B]; auto.
  - eapply Forall_impl; [|exact Hok]. intros o' (H1 & H2 & H3 & H4). split; [now apply call_dop|]. split; [exact H2|]. split; [exact H3|].
    right. rewrite H4, map_length. exact Hlen.
  - split; [exact A|]. intros o' Ho'. apply (g_succ _ _ _ _ _ B o' Ho').
Qed.

Lemma fresh_no_vectors : forall V (norm : V -> V) max id,
  (id < initial_size)%N ->
  snd (vget norm (new_vcache max) id (snd (dc_get (V := V) id []))) = Err EVectorSource.
Proof. intros V norm max id H. cbn [dc_get mget snd]. apply vget_missing; [exact H|reflexivity]. Qed.

(* ---------------------------------------------------------------- *)
(** Selection without vectors. *)
Lemma with_index_length l : forall i, length (with_index i l) = length l.
Proof. induction l as [|x l IH]; intros i; cbn [with_index length]; auto. Qed.
Lemma nth_error_repeat {A} (x : A) n : forall i, i < n -> nth_error (repeat x n) i = Some x.
Proof. induction n as [|n IH]; intros [|i] H; cbn; try lia; [reflexivity|apply IH; lia]. Qed.
Lemma fetch_all_err get ids : (forall id, In id ids -> exists e, get id = Err e) ->
  fetch get ids = Ok (repeat None (length ids)).
Proof.
  induction ids as [|id ids IH]; intros H; cbn [fetch length repeat]; [reflexivity|].
  destruct (H id (or_introl eq_refl)) as (e & ->). rewrite IH by (intros j Hj; apply H; now right). reflexivity.
Qed.
Lemma heuristic_no_vectors P get input max : 0 < max -> max <= length input ->
  (forall x, In x input -> exists e, get (it_id x) = Err e) ->
  heuristic P get (fun _ => false) input max = Err EVectorSource.
Proof.
  intros Hm Hl Hg. unfold heuristic. assert (Hb : Nat.ltb (length input) max = false) by (apply Nat.ltb_ge; lia). rewrite Hb.
  set (popped := pq_drain less_max input).
  assert (Hp : Permutation popped input) by (symmetry; apply drain_perm).
  rewrite fetch_all_err.
  2:{ intros id Hid. apply in_map_iff in Hid. destruct Hid as (x & <- & Hx). apply Hg. now apply (Permutation_in x Hp). }
  cbn [bind]. rewrite map_length.
  set (closest := fold_left _ _ _).
  assert (Hc : Permutation (pq_drain less_minx closest) (with_index 0 popped)).
  { rewrite <- drain_perm. unfold closest. rewrite <- fold_insert_perm. now rewrite app_nil_r. }
  destruct (pq_drain less_minx closest) as [|c l] eqn:Ec.
  - apply Permutation_nil in Hc. assert (length (with_index 0 popped) = 0) by now rewrite Hc.
    rewrite with_index_length in H. apply Permutation_length in Hp. lia.
  - assert (Hx : In c (with_index 0 popped)) by (apply (Permutation_in c Hc); now left).
    apply with_index_lt in Hx. cbn [heur_loop length]. destruct max as [|max]; [lia|]. cbn [Nat.leb].
    rewrite nth_error_repeat by lia. reflexivity.
Qed.

Lemma restart_fails : forall I h id q0 t v0 d r,
  let hr := restart h in
  let q := p_normalize (e_prov (i_env I)) q0 in
  q0 <> [] -> is_empty hr = false -> (id < i_vcsize I)%N -> id <> 0%N -> 0 < i_M I ->
  node_by_id hr 0 = Some v0 -> dist_node_vec (e_prov (i_env I)) hr 0 q = Ok d ->
  search_layer (i_env I) (put_node (with_once hr) (new_vertex id q t)) q (i_efc I) 0 None [mkItem 0 d] = Ok r ->
  i_M I <= length r -> (forall x, In x r -> exists e, i_vs I 0 id (it_id x) = Err e) ->
  snd (add I hr id q0 t) = Err EVectorSource.
Proof.
  intros I h id q0 t v0 d r hr q Hq He Hid Hz HM Hv0 Hd Hs Hl Hvs.
  unfold add. destruct q0 as [|x q1]; [congruence|]. fold q.
  unfold insert. rewrite He, andb_false_r. unfold insert_linked.
  apply N.ltb_lt in Hid. rewrite Hid. cbn [negb].
  change (h_maxl (with_once hr)) with 0. change (h_ep (with_once hr)) with 0%N.
  rewrite Nat.min_0_r. cbn [Nat.sub best_entrypoint].
  set (h1 := put_node (with_once hr) (new_vertex id q t)) in *.
  assert (Hn : node_by_id h1 0 = Some v0) by (unfold h1; rewrite node_put_ne by (cbn; congruence); exact Hv0).
  cbn [connect_levels]. unfold do_at_level, choose_neighbours. cbn [pick_ep]. rewrite Hn.
  assert (Hd1 : dist_node_vec (e_prov (i_env I)) h1 0 q = Ok d).
  { unfold dist_node_vec in *. rewrite Hn. rewrite Hv0 in Hd. exact Hd. }
  rewrite Hd1. cbn [bind fst snd].
  change (pq_insert less_min (mkItem 0 d) []) with [mkItem 0%N d]. rewrite Hs. cbn [bind].
  rewrite heuristic_no_vectors by assumption. reflexivity.
Qed.

Lemma evicted : forall (v : N -> vec) (norm : vec -> vec) ids k,
  NoDup ids ->
  snd (dc_get k (dc_fill 1000 ids v [])) =
    (if in_dec N.eq_dec k (firstn 1000 (rev ids)) then Ok (v k) else Err EVectorSource) /\
  forall ops, vc_max (vrun norm (new_vcache 0) ops) = 0%Z ->
    (0 <= vc_count (vrun norm (new_vcache 0) ops))%Z ->
    vc_slots (fst (vstep norm (vrun norm (new_vcache 0) ops) VTick)) = [].
Proof.
  intros v norm ids k Hn. split; [now apply dc_fill_get|]. intros ops Hm Hc. cbn [vstep]. rewrite Hm.
  apply Z.leb_le in Hc. rewrite Hc. reflexivity.
Qed.

(* ---------------------------------------------------------------- *)
(** Requests of documents with vectors are runs of insertions. *)
Record vdoc := mkVD { vd_doc : docin; vd_list : list jval; vd_vec : vec; vd_orc : dorc }.
Definition vd_ok (d : vdoc) : Prop :=
  pget "vector" (di_props (vd_doc d)) = Some (JArr (vd_list d)) /\ vector_of (vd_list d) = Some (vd_vec d) /\
  do_marshal (vd_orc d) = true /\ do_docput (vd_orc d) = true.
Definition vd_pair (d : vdoc) : option docin * dorc := (Some (vd_doc d), vd_orc d).
Fixpoint ops_of (b : N) (ds : list vdoc) : list aop :=
  match ds with
  | [] => []
  | d :: ds' => mkA (do_env (vd_orc d)) b (vd_vec d) (do_lvl (vd_orc d)) :: ops_of (N.succ b) ds'
  end.

Lemma add_doc_vec lookup keys st b d : vd_ok d ->
  let r := add (do_env (vd_orc d)) (c_h st) b (vd_vec d) (do_lvl (vd_orc d)) in
  snd r = Ok tt -> exists ds,
    add_doc lookup keys st b (Some (vd_doc d)) (vd_orc d) = (mkC (fst r) (c_reg st) (c_open st) ds (c_log st), N.succ b, Ok tt).
Proof.
  intros (H1 & H2 & H3 & H4) r Hr. unfold add_doc. rewrite pget_pset. change (String.eqb "vector" "id") with false. cbv iota.
  rewrite H1, H2. unfold add_indexed. fold r. destruct r as [h' [u|e| |]]; cbn [snd fst] in *; try discriminate.
  unfold store_doc. rewrite H3, H4. cbn [negb with_h c_h c_reg c_open c_docs c_log]. eexists. reflexivity.
Qed.
Lemma add_doc_vec_panic lookup keys st b d : vd_ok d ->
  snd (add (do_env (vd_orc d)) (c_h st) b (vd_vec d) (do_lvl (vd_orc d))) = Panic ->
  snd (add_doc lookup keys st b (Some (vd_doc d)) (vd_orc d)) = Panic.
Proof.
  intros (H1 & H2 & H3 & H4) Hr. unfold add_doc. rewrite pget_pset. change (String.eqb "vector" "id") with false. cbv iota.
  rewrite H1, H2. unfold add_indexed. destruct (add _ _ _ _ _) as [h' [u|e| |]]; cbn [snd fst] in *; try discriminate. reflexivity.
Qed.
Lemma add_loop_vec lookup keys ds : Forall vd_ok ds -> forall st b,
  let r := run_adds (c_h st) (ops_of b ds) in
  Forall (fun x => x = Ok tt) (snd r) -> exists dcs,
    add_loop lookup keys st b (map vd_pair ds) =
      (mkC (fst r) (c_reg st) (c_open st) dcs (c_log st), (b + N.of_nat (length ds))%N, Ok tt).
Proof.
  induction 1 as [|d ds Hd _ IH]; intros st b r Hr; subst r.
  - exists (c_docs st). cbn. rewrite N.add_0_r. destruct st; reflexivity.
  - cbn [ops_of run_adds a_env a_id a_vec a_lvl fst snd] in *. inversion Hr as [|? ? Hr1 Hr2]; subst.
    destruct (add_doc_vec lookup keys st b d Hd Hr1) as (dcs & E).
    cbn [map vd_pair add_loop]. rewrite E.
    destruct (IH (mkC (fst (add (do_env (vd_orc d)) (c_h st) b (vd_vec d) (do_lvl (vd_orc d)))) (c_reg st) (c_open st) dcs (c_log st)) (N.succ b) Hr2) as (dcs2 & E2).
    cbn [c_h c_reg c_open c_log] in E2. exists dcs2. rewrite E2. f_equal. f_equal. cbn [length]. lia.
Qed.
Lemma add_loop_app lookup keys ds1 ds2 : forall st b,
  add_loop lookup keys st b (ds1 ++ ds2) =
  match add_loop lookup keys st b ds1 with
  | (st', b', Ok _) => add_loop lookup keys st' b' ds2
  | r => r
  end.
Proof.
  induction ds1 as [|[d o] ds1 IH]; intros st b; cbn [app add_loop]; [reflexivity|].
  destruct (add_doc lookup keys st b d o) as [[st' b'] [u|e| |]]; auto.
Qed.

Lemma add_beyond I h id q0 t : q0 <> [] -> (h_once h = true \/ is_empty h = false) -> (i_vcsize I <= id)%N ->
  snd (add I h id q0 t) = Panic.
Proof.
  intros Hq Hb Hi. unfold add. destruct q0 as [|x q1]; [congruence|]. unfold insert.
  assert (E : negb (h_once h) && is_empty h = false) by (destruct Hb as [-> | ->]; [reflexivity|apply andb_false_r]).
  rewrite E. unfold insert_linked. apply N.ltb_ge in Hi. rewrite Hi. reflexivity.
Qed.

Lemma full_crashes : forall R lookup o orcs name rd rs keys st p l v,
  c_open st = true -> c_reg st = true -> r_kvopen R = true -> r_isopen R = true ->
  is_empty (c_h st) = false -> (i_vcsize (do_env o) <= first_id (c_h st))%N ->
  rd_props rd = JObj p -> pget "vector" p = Some (JArr l) -> vector_of l = Some v -> v <> [] ->
  name <> "" -> raw_docs rs <> None ->
  snd (handle_add R lookup (o :: orcs) name (Some (Some rd :: rs)) (Some keys) st) = Crash.
Proof.
  intros R lookup o orcs name rd rs keys st p l v Ho Hreg Hk Hi He Hf Hp Hg Hv Hne Hn Hrs.
  unfold handle_add. destruct (String.eqb_spec name ""); [contradiction|]. cbn [raw_docs].
  destruct (raw_docs rs) as [ds|]; [|congruence]. rewrite Hp. cbn [combine].
  unfold add_documents, open_coll. rewrite Hk, Hi, Ho. cbn [negb]. rewrite Hreg. cbn [negb add_loop].
  assert (E : exists st' b, add_doc lookup keys st (first_id (c_h st)) (Some (mkDoc (rd_id rd) p)) o = (st', b, Panic)).
  { unfold add_doc. cbn [di_props di_id]. rewrite pget_pset. change (String.eqb "vector" "id") with false. cbv iota. rewrite Hg, Hv.
    unfold add_indexed. pose proof (add_beyond (do_env o) (c_h st) (first_id (c_h st)) v (do_lvl o) Hne (or_intror He) Hf) as H.
    destruct (add _ _ _ _ _) as [h' r]. cbn [snd] in H. subst r. eauto. }
  destruct E as (st' & b & ->). reflexivity.
Qed.

(* ---------------------------------------------------------------- *)
(** 25001 documents. *)
Definition env_c : ienv := mkI (env_rev l2p) (fun _ _ _ => Ok (q_of [1; 0]%Z)) 25000 30 60.
Definition orc_c : dorc := mkD env_c 0 (fun _ => Err EVectorizer) true true.
Definition vd_c (i : nat) : vdoc :=
  mkVD (mkDoc (decimal (N.of_nat i)) [("vector", JArr [num 1; num 0])]) [num 1; num 0] (q_of [1; 0]%Z) orc_c.
Lemma vd_c_ok i : vd_ok (vd_c i). Proof. repeat split. Qed.
Lemma ops_of_ids ds : forall b, map a_id (ops_of b ds) = map (fun i => b + N.of_nat i)%N (seq 0 (length ds)).
Proof.
  induction ds as [|d ds IH]; intros b; cbn [ops_of map length seq]; [reflexivity|]. cbn [a_id]. f_equal; [lia|].
  rewrite IH, <- seq_shift, map_map. apply map_ext. intros i. lia.
Qed.
Lemma ops_of_length ds : forall b, length (ops_of b ds) = length ds.
Proof. induction ds as [|d ds IH]; intros b; cbn; auto. Qed.
Lemma NoDup_shift b n : NoDup (map (fun i => b + N.of_nat i)%N (seq 0 n)).
Proof. apply FinFun.Injective_map_NoDup; [intros x y; lia|apply seq_NoDup]. Qed.
Lemma ops_c_good ids k : forall b, (b + N.of_nat k <= 25000)%N ->
  forall f, Forall (good_op 2 25500 ids) (ops_of b (map vd_c (map f (seq 0 k)))).
Proof.
  induction k as [|k IH]; intros b Hb f; cbn [seq map ops_of]; [constructor|]. constructor.
  - split; [apply (call_dop 25500); split; [apply env_rev_sched|split; [exact l2p_known|split; [reflexivity|cbn [a_id]; lia]]]|].
    split; [reflexivity|]. split; [cbn [a_id a_env env_c i_vcsize vd_c vd_orc orc_c do_env]; lia|]. left. intros l ow id _. exists (q_of [1; 0]%Z). split; reflexivity.
  - rewrite <- seq_shift, (map_map S). apply IH. lia.
Qed.
Lemma ops_c_run k : (N.of_nat (S k) <= 25000)%N ->
  let r := run_adds empty_index (ops_of 0 (map vd_c (seq 0 (S k)))) in
  Forall (fun x => x = Ok tt) (snd r) /\ (h_once (fst r) = true \/ is_empty (fst r) = false).
Proof.
  intros Hk. set (ops := ops_of 0 (map vd_c (seq 0 (S k)))).
  assert (Hg : Forall (good_op 2 25500 (map a_id ops)) ops).
  { unfold ops at 2. rewrite <- (map_id (seq 0 (S k))). apply ops_c_good. lia. }
  assert (Hnd : NoDup (map a_id ops)) by (unfold ops; rewrite ops_of_ids; apply NoDup_shift).
  change ops with (mkA env_c 0 (q_of [1; 0]%Z) 0 :: ops_of 1 (map vd_c (seq 1 k))) in *.
  set (o := mkA env_c 0 (q_of [1; 0]%Z) 0) in *. set (rest := ops_of 1 (map vd_c (seq 1 k))) in *.
  inversion Hg as [|? ? Ho Hg']; subst. destruct Ho as (Hd & Hl & Hv & _).
  destruct (gstate_first 2 25500 o ltac:(lia) Hd Hl Hv eq_refl) as [F1 F2]. cbv zeta in *.
  cbn [map] in Hnd. apply NoDup_cons_iff in Hnd. destruct Hnd as [N1 N2].
  destruct (gstate_adds 2 25500 (map a_id (o :: rest)) rest ltac:(lia) _ [a_id o] [o] F2 Hg') as [A B].
  - intros j [<-|[]]. now left.
  - intros j Hj. now right.
  - exact N2.
  - intros o' Ho' [E|[]]. apply N1. rewrite E. now apply in_map.
  - cbn [run_adds fst snd]. split; [constructor; [exact F1|exact A]|]. apply (g_built _ _ _ _ _ B).
Qed.

Lemma too_many : exists docs last,
  length docs = N.to_nat 25000 /\
  (forall d, In d (docs ++ [last]) -> exists id, fst d = Some (mkDoc id [("vector", JArr [num 1; num 0])])) /\
  (forall d, In d (docs ++ [last]) -> do_docput (snd d) = true /\ do_marshal (snd d) = true /\
     call_ok 25500 (mkA (do_env (snd d)) 0 [] 0) /\ forall l ow id, exists w, i_vs (do_env (snd d)) l ow id = Ok w /\ length w = 2) /\
  snd (add_loop true [] new_coll 0 docs) = Ok tt /\
  snd (fst (add_loop true [] new_coll 0 docs)) = 25000%N /\
  snd (add_documents rok true [] (docs ++ [last]) new_coll) = Panic.
Proof.
  remember (N.to_nat 24999) as k eqn:Ek.
  assert (EK : N.to_nat 25000 = S k) by (rewrite Ek; lia).
  set (ds := map vd_c (seq 0 (S k))).
  exists (map vd_pair ds), (vd_pair (vd_c (S k))). rewrite EK.
  assert (Hin : forall d, In d (map vd_pair ds ++ [vd_pair (vd_c (S k))]) -> exists i, d = vd_pair (vd_c i)).
  { intros d H. apply in_app_or in H. destruct H as [H|[<-|[]]]; [|eauto].
    apply in_map_iff in H. destruct H as (x & <- & H). apply in_map_iff in H. destruct H as (i & <- & _). eauto. }
  destruct (ops_c_run k) as [A B]; [lia|]. fold ds in A, B. cbv zeta in *.
  assert (Hds : Forall vd_ok ds).
  { apply Forall_forall. intros x Hx. apply in_map_iff in Hx. destruct Hx as (i & <- & _). apply vd_c_ok. }
  destruct (add_loop_vec true [] ds Hds new_coll 0%N A) as (dcs & E).
  assert (Hlen : length ds = S k) by (unfold ds; now rewrite map_length, seq_length).
  split; [now rewrite map_length|]. split.
  { intros d Hd. destruct (Hin d Hd) as (i & ->). eexists. reflexivity. }
  split.
  { intros d Hd. destruct (Hin d Hd) as (i & ->). split; [reflexivity|]. split; [reflexivity|]. split.
    - split; [apply env_rev_sched|split; [exact l2p_known|split; [reflexivity|cbn [a_id]; lia]]].
    - intros l ow id. exists (q_of [1; 0]%Z). split; reflexivity. }
  rewrite E. cbn [fst snd]. split; [reflexivity|]. split; [rewrite Hlen; lia|].
  change (new_coll) with (mkC empty_index true true [] []) in *.
  unfold add_documents. cbn [open_coll rok r_kvopen r_isopen negb c_open c_reg c_h].
  change (first_id empty_index) with 0%N. rewrite add_loop_app, E. cbn [add_loop vd_pair].
  set (st := mkC _ _ _ _ _).
  pose proof (add_doc_vec_panic true [] st (0 + N.of_nat (length ds))%N (vd_c (S k)) (vd_c_ok _)) as Hp.
  destruct (add_doc _ _ _ _ _ _) as [[st' b'] r]. cbn [snd] in Hp.
  rewrite Hp; [reflexivity|]. apply add_beyond; [discriminate|exact B|]. rewrite Hlen. cbn. lia.
Qed.

Lemma evict_range (v : N -> vec) m : let ids := map N.of_nat (seq 0 (S (S m))) in
  NoDup ids /\ snd (dc_get 0%N (dc_fill (S m) ids v [])) = Err EVectorSource /\
  snd (dc_get 1%N (dc_fill (S m) ids v [])) = Ok (v 1%N).
Proof.
  intros ids.
  assert (Hn : NoDup ids).
  { apply FinFun.Injective_map_NoDup; [intros x y; lia|apply seq_NoDup]. }
  assert (E : firstn (S m) (rev ids) = map N.of_nat (rev (seq 1 (S m)))).
  { unfold ids. rewrite <- map_rev, firstn_map. f_equal. change (seq 0 (S (S m))) with (0 :: seq 1 (S m)).
    change (rev (0 :: seq 1 (S m))) with (rev (seq 1 (S m)) ++ [0])%list.
    assert (L : length (rev (seq 1 (S m))) = S m) by now rewrite rev_length, seq_length.
    rewrite firstn_app, L, Nat.sub_diag. rewrite firstn_O, app_nil_r. apply firstn_all2. lia. }
  split; [exact Hn|]. split; rewrite (dc_fill_get vec (fun v => v) _ _ _ _ Hn); rewrite E; destruct (in_dec _ _ _) as [H|H]; try reflexivity; exfalso.
  - apply in_map_iff in H. destruct H as (x & X1 & X2). apply in_rev, in_seq in X2. lia.
  - apply H. change 1%N with (N.of_nat 1). apply in_map. rewrite <- in_rev. apply in_seq. lia.
Qed.
