(** From one add request to exact answers: up to 61 documents with vectors. *)
From Coq Require Import String Sorted.
From Verif Require Import Base F32 PQ PQProofs Graph Search SearchProofs SearchLayer SearchKnn
  SearchCong Insert HeuristicProofs InsertProofs InsertHist InsertTotal InsertDim InsertSmall InsertFacts InsertFind
  Distancer DistancerProofs PropDistancer TestGraph TestInsert PropSearch PropInsert PropFind
  Persist PersistProofs PersistHist LRU LRUProofs PropPersist InsertRestart Collections
  Client ClientProofs ClientSafe ClientFacts ClientReq PropClient VCache VCacheProofs VCacheFacts ClientIds.
Local Open Scope string_scope.

(** A document without a vector whose text the vectoriser turns into [vd_vec]. *)
Definition td_ok (lookup : bool) (keys : list string) (d : vdoc) : Prop :=
  lookup = true /\
  (pget "vector" (di_props (vd_doc d)) = None \/ pget "vector" (di_props (vd_doc d)) = Some JNull) /\
  (exists t, vector_text (pset "id" (JStr (di_id (vd_doc d))) (di_props (vd_doc d))) keys = Ok t /\ t <> "" /\
     do_corpi (vd_orc d) t = Ok (Some (vd_vec d))) /\
  do_marshal (vd_orc d) = true /\ do_docput (vd_orc d) = true.
Definition vt_ok (lookup : bool) (keys : list string) (d : vdoc) : Prop := vd_ok d \/ td_ok lookup keys d.

(** The stored form of the document that gets index id [b]. *)
Definition stored (b : N) (d : vdoc) : sdoc :=
  let p := pset "id" (JStr (di_id (vd_doc d))) (di_props (vd_doc d)) in
  mkSD (di_id (vd_doc d)) (Z.of_N b)
    (match pget "vector" p with Some (JArr _) => pdel "vector" p | _ => p end) (Some (vd_vec d)).
Fixpoint docs_after (b : N) (ds : list vdoc) (dcs : list sdoc) : list sdoc :=
  match ds with
  | [] => dcs
  | d :: ds' => docs_after (N.succ b) ds' (put_doc (stored b d) dcs)
  end.

Lemma add_doc_vec_docs lookup keys st b d : vt_ok lookup keys d ->
  let r := add (do_env (vd_orc d)) (c_h st) b (vd_vec d) (do_lvl (vd_orc d)) in
  snd r = Ok tt ->
  add_doc lookup keys st b (Some (vd_doc d)) (vd_orc d) =
    (mkC (fst r) (c_reg st) (c_open st) (put_doc (stored b d) (c_docs st)) (c_log st), N.succ b, Ok tt).
Proof.
  intros [(H1 & H2 & H3 & H4)|(H0 & H1 & (t & H2 & H5 & H6) & H3 & H4)] r Hr; unfold add_doc, stored; rewrite pget_pset;
    change (String.eqb "vector" "id") with false; cbv iota.
  - rewrite H1, H2. unfold add_indexed. fold r. destruct r as [h' [u|e| |]]; cbn [snd fst] in *; try discriminate.
    unfold store_doc. rewrite H3, H4. reflexivity.
  - replace (match pget "vector" (di_props (vd_doc d)) with
       | Some (JArr _) => pdel "vector" (pset "id" (JStr (di_id (vd_doc d))) (di_props (vd_doc d)))
       | _ => pset "id" (JStr (di_id (vd_doc d))) (di_props (vd_doc d)) end)
      with (pset "id" (JStr (di_id (vd_doc d))) (di_props (vd_doc d))) by (destruct H1 as [-> | ->]; reflexivity).
    assert (G : add_indexed (vd_orc d) st b (vd_doc d) (pset "id" (JStr (di_id (vd_doc d))) (di_props (vd_doc d))) (vd_vec d) =
      (mkC (fst r) (c_reg st) (c_open st) (put_doc (mkSD (di_id (vd_doc d)) (Z.of_N b)
         (pset "id" (JStr (di_id (vd_doc d))) (di_props (vd_doc d))) (Some (vd_vec d))) (c_docs st)) (c_log st), N.succ b, Ok tt)).
    { unfold add_indexed. fold r. destruct r as [h' [u|e| |]]; cbn [snd fst] in *; try discriminate.
      unfold store_doc. rewrite H3, H4. reflexivity. }
    destruct H1 as [-> | ->]; rewrite H2, H0; destruct (String.eqb_spec t ""); try contradiction; cbn [negb]; rewrite H6; exact G.
Qed.
Lemma add_loop_docs lookup keys ds : Forall (vt_ok lookup keys) ds -> forall st b,
  let r := run_adds (c_h st) (ops_of b ds) in
  Forall (fun x => x = Ok tt) (snd r) ->
  add_loop lookup keys st b (map vd_pair ds) =
    (mkC (fst r) (c_reg st) (c_open st) (docs_after b ds (c_docs st)) (c_log st), (b + N.of_nat (length ds))%N, Ok tt).
Proof.
  induction 1 as [|d ds Hd _ IH]; intros st b r Hr; subst r.
  - cbn. rewrite N.add_0_r. destruct st; reflexivity.
  - cbn [ops_of run_adds a_env a_id a_vec a_lvl fst snd] in *. inversion Hr as [|? ? Hr1 Hr2]; subst.
    cbn [map vd_pair add_loop]. rewrite (add_doc_vec_docs lookup keys st b d Hd Hr1).
    specialize (IH (mkC (fst (add (do_env (vd_orc d)) (c_h st) b (vd_vec d) (do_lvl (vd_orc d)))) (c_reg st) (c_open st) (put_doc (stored b d) (c_docs st)) (c_log st)) (N.succ b) Hr2).
    cbn [c_h c_reg c_open c_log c_docs] in IH. cbv zeta in IH. rewrite IH. cbn [docs_after]. f_equal. f_equal. cbn [length]. lia.
Qed.

Lemma docs_after_keep ds : forall b dcs s, In s dcs -> ~ In (sd_id s) (map (fun d => di_id (vd_doc d)) ds) -> In s (docs_after b ds dcs).
Proof.
  induction ds as [|d ds IH]; intros b dcs s Hs Hn; cbn [docs_after]; [exact Hs|]. cbn [map In] in Hn. apply IH; [|tauto].
  unfold put_doc. right. apply filter_In. split; [exact Hs|]. cbn [stored sd_id].
  destruct (String.eqb_spec (di_id (vd_doc d)) (sd_id s)); [tauto|reflexivity].
Qed.
Lemma docs_after_in ds : forall b dcs i d, NoDup (map (fun d => di_id (vd_doc d)) ds) -> nth_error ds i = Some d ->
  In (stored (b + N.of_nat i) d) (docs_after b ds dcs).
Proof.
  induction ds as [|d0 ds IH]; intros b dcs i d Hnd Hi; [destruct i; discriminate|].
  cbn [map] in Hnd. inversion Hnd as [|? ? Hn1 Hn2]; subst. cbn [docs_after]. destruct i as [|i].
  - injection Hi as ->. change (N.of_nat 0) with 0%N. rewrite N.add_0_r. apply docs_after_keep; [now left|exact Hn1].
  - cbn [nth_error] in Hi. replace (b + N.of_nat (S i))%N with (N.succ b + N.of_nat i)%N by lia. now apply IH.
Qed.

Lemma ops_of_nth ds : forall b i d, nth_error ds i = Some d ->
  In (mkA (do_env (vd_orc d)) (b + N.of_nat i) (vd_vec d) (do_lvl (vd_orc d))) (ops_of b ds).
Proof.
  induction ds as [|d0 ds IH]; intros b i d Hi; [destruct i; discriminate|]. cbn [ops_of]. destruct i as [|i].
  - injection Hi as ->. left. f_equal. lia.
  - right. replace (b + N.of_nat (S i))%N with (N.succ b + N.of_nat i)%N by lia. now apply IH.
Qed.
Lemma ops_of_in ds : forall b o, In o (ops_of b ds) -> exists i d, nth_error ds i = Some d /\
  o = mkA (do_env (vd_orc d)) (b + N.of_nat i) (vd_vec d) (do_lvl (vd_orc d)).
Proof.
  induction ds as [|d0 ds IH]; intros b o; cbn [ops_of]; [intros []|]. intros [<-|H].
  - exists 0, d0. split; [reflexivity|]. f_equal. lia.
  - destruct (IH _ _ H) as (i & d & H1 & ->). exists (S i), d. split; [exact H1|]. f_equal. lia.
Qed.

(** What the request leaves: the flushed index and the stored documents. *)
Lemma one_request n cap P R lookup keys ds :
  0 < n -> ds <> [] -> length ds <= 61 -> Forall (vt_ok lookup keys) ds ->
  Forall (fun d => e_prov (i_env (do_env (vd_orc d))) = P) ds ->
  Forall (find_call n 30 cap (map a_id (ops_of 0 ds))) (ops_of 0 ds) ->
  snd (add_documents R lookup keys (map vd_pair ds) new_coll) = Ok tt ->
  let h := run_events empty_index (map EvAdd (ops_of 0 ds)) in
  let fl := flush h (r_keys R h) (N.of_nat (length ds)) (r_puts R) in
  snd fl = Ok tt /\
  fst (add_documents R lookup keys (map vd_pair ds) new_coll) = mkC (fst fl) true true (docs_after 0 ds []) [].
Proof.
  intros Hn Hne Hlen Hvd HP Hf Hok.
  assert (Hne' : ops_of 0 ds <> []) by (destruct ds; [congruence|discriminate]).
  assert (Hnd : NoDup (map a_id (ops_of 0 ds))) by (rewrite ops_of_ids; apply NoDup_shift).
  destruct (find_state n 30 cap (ops_of 0 ds) Hn ltac:(lia) Hne' ltac:(rewrite ops_of_length; lia) Hnd Hf) as (Hall & _).
  pose proof (run_events_adds (ops_of 0 ds) empty_index) as Eh. cbv zeta in *. rewrite Eh. clear Eh.
  pose proof (add_loop_docs lookup keys ds Hvd new_coll 0%N Hall) as E. cbv zeta in E.
  change (c_reg new_coll) with true in E. change (c_open new_coll) with true in E. change (c_docs new_coll) with (@nil sdoc) in E.
  change (c_log new_coll) with (@nil err) in E. change (c_h new_coll) with empty_index in E.
  revert Hok. unfold add_documents, open_coll. change (c_open new_coll) with true.
  destruct (r_kvopen R); cbn [negb]; [|discriminate]. destruct (r_isopen R); cbn [negb]; [|discriminate].
  change (c_reg new_coll) with true. change (first_id (c_h new_coll)) with 0%N. cbn [negb]. rewrite E, N.add_0_l.
  unfold finish_add. cbn [c_h]. destruct (flush _ _ _ _) as [h' [[]|e| |]]; cbn [fst snd]; try discriminate.
  destruct (r_commit R); [|discriminate]. intros _. split; reflexivity.
Qed.

Lemma nth_combine {A B} (l : list A) (m : list B) i a b : nth_error l i = Some a -> nth_error m i = Some b ->
  nth_error (combine l m) i = Some (a, b).
Proof.
  revert m i. induction l as [|x l IH]; intros [|y m] [|i]; cbn; try discriminate; auto. congruence.
Qed.
Lemma nth_combine_inv {A B} (l : list A) (m : list B) i p : nth_error (combine l m) i = Some p ->
  nth_error l i = Some (fst p) /\ nth_error m i = Some (snd p).
Proof.
  revert m i. induction l as [|x l IH]; intros [|y m] [|i]; cbn; try discriminate; auto. intros [= <-]. auto.
Qed.
Lemma sorted_nth {A} (R : A -> A -> Prop) l : StronglySorted R l -> forall i j a b, i < j ->
  nth_error l i = Some a -> nth_error l j = Some b -> R a b.
Proof.
  induction 1 as [|x l Hs IH Hall]; intros i j a b Hij Hi Hj; [destruct i; discriminate|].
  destruct j as [|j]; [lia|]. cbn [nth_error] in Hj. destruct i as [|i].
  - injection Hi as <-. rewrite Forall_forall in Hall. apply Hall. eapply nth_error_In; eauto.
  - apply (IH i j); auto. lia.
Qed.

(** What a fetched answer of the index is as an answer of the client. *)
Definition exact_answer (P : provider) (ds : list vdoc) (q : vec) (maxd : f32)
  (docs : list (option sdoc)) (dists : list f32) : Prop :=
  length docs <= length dists /\
  (forall i o, nth_error docs i = Some o -> exists s d x, o = Some s /\ In d ds /\ sd_id s = di_id (vd_doc d) /\
     nth_error dists i = Some x /\ p_query P (p_normalize P q) (p_normalize P (vd_vec d)) = Some x /\
     flt x f32_zero = false /\ fgt x maxd = false) /\
  (forall d x, In d ds -> p_query P (p_normalize P q) (p_normalize P (vd_vec d)) = Some x ->
     flt x f32_zero = false -> fgt x maxd = false ->
     exists i s, nth_error docs i = Some (Some s) /\ sd_id s = di_id (vd_doc d) /\ nth_error dists i = Some x) /\
  (forall i j s t, nth_error docs i = Some (Some s) -> nth_error docs j = Some (Some t) -> sd_id s = sd_id t -> i = j) /\
  (forall i j x y, i < j < length docs -> nth_error dists i = Some x -> nth_error dists j = Some y -> flt y x = false).

Lemma docs_after_inv ds : forall b dcs s, In s (docs_after b ds dcs) -> In s dcs \/
  exists i d, nth_error ds i = Some d /\ s = stored (b + N.of_nat i) d.
Proof.
  induction ds as [|d ds IH]; intros b dcs s; cbn [docs_after]; [now left|]. intros H. apply IH in H.
  destruct H as [H|(i & d' & H1 & ->)].
  - unfold put_doc in H. destruct H as [<-|H].
    + right. exists 0, d. split; [reflexivity|]. f_equal. lia.
    + left. apply filter_In in H. tauto.
  - right. exists (S i), d'. split; [exact H1|]. f_equal. lia.
Qed.

Lemma fetched_exact P ds h q maxd ids dists docs :
  NoDup (map (fun d => di_id (vd_doc d)) ds) ->
  (forall i d, nth_error ds i = Some d -> exists v, node_by_id h (N.of_nat i) = Some v /\ v_vec v = p_normalize P (vd_vec d)) ->
  length ids <= length dists -> NoDup ids -> asc (answer (ids, dists)) ->
  (forall id x, In (mkItem id x) (answer (ids, dists)) <->
     flt x f32_zero = false /\ fgt x maxd = false /\ true_dist P h (p_normalize P q) id x) ->
  length docs = length ids ->
  (forall i id, nth_error ids i = Some id -> exists d, nth_error docs i = Some (Some d) /\ In d (docs_after 0 ds []) /\ sd_hnsw d = Z.of_N id) ->
  exact_answer P ds q maxd docs dists.
Proof.
  intros Hnd Hnode Hl Hni Hasc Hans Hlen Hdocs.
  assert (Hpos : forall i id x, nth_error ids i = Some id -> nth_error dists i = Some x -> nth_error (answer (ids, dists)) i = Some (mkItem id x)).
  { intros i id x H1 H2. unfold answer. cbn [fst snd]. now rewrite nth_error_map, (nth_combine _ _ _ _ _ H1 H2). }
  assert (Hdoc : forall i o, nth_error docs i = Some o -> exists k d id x, o = Some (stored (N.of_nat k) d) /\ nth_error ds k = Some d /\
            nth_error ids i = Some id /\ id = N.of_nat k /\ nth_error dists i = Some x).
  { intros i o Hi. assert (i < length docs) by (apply nth_error_Some; congruence).
    destruct (nth_error ids i) as [id|] eqn:E1; [|apply nth_error_None in E1; lia].
    destruct (nth_error dists i) as [x|] eqn:E2; [|apply nth_error_None in E2; lia].
    destruct (Hdocs i id E1) as (d & D1 & D2 & D3). apply docs_after_inv in D2. destruct D2 as [[]|(k & d' & K1 & K2)].
    exists k, d', id, x. subst d. cbn [stored sd_hnsw] in D3. rewrite N.add_0_l in *. repeat split; auto; [congruence|lia]. }
  split; [lia|]. split; [|split; [|split]].
  - intros i o Hi. destruct (Hdoc i o Hi) as (k & d & id & x & -> & K & I1 & -> & X). exists (stored (N.of_nat k) d), d, x.
    split; [reflexivity|]. split; [eapply nth_error_In; eauto|]. split; [reflexivity|]. split; [exact X|].
    pose proof (nth_error_In _ _ (Hpos i _ x I1 X)) as Hin. apply Hans in Hin. destruct Hin as (A & B & (v & V1 & V2)).
    destruct (Hnode k d K) as (v' & V3 & V4). replace v' with v in * by congruence. rewrite <- V4. auto.
  - intros d x Hd Hx H0 Hm. apply In_nth_error in Hd. destruct Hd as (k & K).
    destruct (Hnode k d K) as (v & V1 & V2).
    assert (Hin : In (mkItem (N.of_nat k) x) (answer (ids, dists))).
    { apply Hans. split; [exact H0|]. split; [exact Hm|]. exists v. split; [exact V1|]. now rewrite V2. }
    apply In_nth_error in Hin. destruct Hin as (i & Hi). unfold answer in Hi. cbn [fst snd] in Hi. rewrite nth_error_map in Hi.
    destruct (nth_error (combine ids dists) i) as [[a b]|] eqn:Ec; [|discriminate]. injection Hi as -> ->.
    apply nth_combine_inv in Ec. cbn [fst snd] in Ec. destruct Ec as [E1 E2].
    destruct (Hdocs i _ E1) as (s & S1 & S2 & S3). exists i, s. split; [exact S1|]. split; [|exact E2].
    apply docs_after_inv in S2. destruct S2 as [[]|(k' & d' & K1 & ->)]. cbn [stored sd_hnsw sd_id] in *.
    assert (k' = k) by lia. subst k'. congruence.
  - intros i j s t Hi Hj Hst. destruct (Hdoc i _ Hi) as (k & d & id & x & [= ->] & K & I1 & -> & X).
    destruct (Hdoc j _ Hj) as (k' & d' & id & x' & [= ->] & K' & I2 & -> & X'). cbn [stored sd_id] in Hst.
    assert (k = k').
    { apply (proj1 (NoDup_nth_error _) Hnd); [rewrite map_length; apply nth_error_Some; congruence|].
      rewrite !nth_error_map, K, K'. cbn. congruence. }
    subst k'. apply (proj1 (NoDup_nth_error _) Hni); [apply nth_error_Some; congruence|congruence].
  - intros i j x y Hij Hx Hy.
    destruct (nth_error ids i) as [a|] eqn:E1; [|apply nth_error_None in E1; lia].
    destruct (nth_error ids j) as [b|] eqn:E2; [|apply nth_error_None in E2; lia].
    exact (sorted_nth _ _ Hasc i j _ _ (proj1 Hij) (Hpos i a x E1 Hx) (Hpos j b y E2 Hy)).
Qed.

(** The nearest documents after the request, for every breadth and limit that do
    not cut.  The collection may be open, or opened by the query. *)
Lemma request_near n cap P R lookup keys ds :
  0 < n -> ds <> [] -> length ds <= 61 -> NoDup (map (fun d => di_id (vd_doc d)) ds) -> Forall (vt_ok lookup keys) ds ->
  Forall (fun d => e_prov (i_env (do_env (vd_orc d))) = P) ds ->
  Forall (find_call n 30 cap (map a_id (ops_of 0 ds))) (ops_of 0 ds) -> rorc_ok R ->
  snd (add_documents R lookup keys (map vd_pair ds) new_coll) = Ok tt ->
  let st := fst (add_documents R lookup keys (map vd_pair ds) new_coll) in
  forall st', st' = st \/ st' = restart_coll st ->
  forall E q maxd ef limit, sched_ok E -> e_prov E = P -> e_vcap E = cap -> length q = n ->
    (Z.of_nat (length ds) <= ef)%Z -> (limit = 0 \/ Z.of_nat (length ds) <= limit)%Z ->
    (forall d x, In d ds -> p_query P (p_normalize P q) (p_normalize P (vd_vec d)) = Some x -> is_num x = true) ->
    exists m, forall Q, q_env Q = E ->
      r_kvopen (q_open Q) = true -> r_isopen (q_open Q) = true -> r_docopen (q_open Q) = true ->
      Permutation (q_order Q) (seq 0 m) -> (forall i, q_ok Q i = true) ->
      exists st2 docs dists, open_coll (q_open Q) st' = (st2, Ok tt) /\
        snd (near_docs Q st2 q maxd ef limit) = Ok (docs, dists) /\ exact_answer P ds q maxd docs dists.
Proof.
  intros Hn Hne Hlen Hids Hvd HP Hf HR Hok st st' Hst E q maxd ef limit Hsc HEP Hcap Hq Hef Hlim Hnum.
  destruct (one_request n cap P R lookup keys ds Hn Hne Hlen Hvd HP Hf Hok) as (Hfl & Hstate). cbv zeta in *.
  set (h := run_events empty_index (map EvAdd (ops_of 0 ds))) in *.
  assert (Hne' : ops_of 0 ds <> []) by (destruct ds; [congruence|discriminate]).
  assert (Hnd : NoDup (map a_id (ops_of 0 ds))) by (rewrite ops_of_ids; apply NoDup_shift).
  assert (Hlen' : length (ops_of 0 ds) <= 2 * 30 + 1) by (rewrite ops_of_length; lia).
  rewrite Forall_forall in HP.
  assert (HP' : Forall (fun o => e_prov (i_env (a_env o)) = P) (ops_of 0 ds)).
  { apply Forall_forall. intros o Ho. destruct (ops_of_in _ _ _ Ho) as (i & d & Hi & ->). cbn [a_env]. apply HP. eapply nth_error_In; eauto. }
  assert (Hsym : prov_sym P).
  { destruct ds as [|d ds]; [congruence|]. inversion Hf as [|? ? Hf1 _]; subst. destruct Hf1 as ((_ & Hk & _) & _).
    cbn [a_env] in Hk. rewrite (HP d (or_introl eq_refl)) in Hk. now apply known_psym. }
  destruct (restart_upto n 30 cap (ops_of 0 ds) P (r_keys R h) (N.of_nat (length ds)) (r_puts R) tt Hn ltac:(lia) Hne' Hlen' Hnd Hf HP'
     (HR h) Hfl E q maxd ef Hsc HEP Hcap Hq) as (out1 & out2 & N1 & N2 & A1 & A2 & D1 & D2 & M1 & M2 & Hsame & Hans).
  { rewrite ops_of_length. exact Hef. }
  { intros o x Ho Hx. destruct (ops_of_in _ _ _ Ho) as (i & d & Hi & ->). cbn [a_vec] in Hx. apply (Hnum d x); auto. eapply nth_error_In; eauto. }
  fold h in Hans, N1, N2.
  destruct (find_state n 30 cap (ops_of 0 ds) Hn ltac:(lia) Hne' Hlen' Hnd Hf) as (_ & Hfs). cbv zeta in Hfs.
  rewrite <- (run_events_adds (ops_of 0 ds) empty_index) in Hfs. fold h in Hfs. destruct Hfs as [(D & HDi & Hd & HDs) _ _].
  assert (Hnode : forall i d, nth_error ds i = Some d -> exists v, node_by_id h (N.of_nat i) = Some v /\ v_vec v = p_normalize P (vd_vec d)).
  { intros i d Hi. pose proof (ops_of_nth ds 0 i d Hi) as Ho. rewrite N.add_0_l in Ho.
    destruct (d_succ _ _ _ _ _ Hd _ Ho) as (_ & _ & v & Hv & _ & Hvec & _). cbn [a_id a_env a_vec] in *. exists v.
    split; [exact Hv|]. rewrite Hvec. f_equal. apply HP. eapply nth_error_In; eauto. }
  assert (Hfew : forall out, NoDup (fst out) -> map it_id (answer out) = fst out ->
     (forall id d, In (mkItem id d) (answer out) <-> flt d f32_zero = false /\ fgt d maxd = false /\ true_dist P h (p_normalize P q) id d) ->
     length (fst out) <= length ds).
  { intros out Hndo Hmap Hiff. rewrite <- (ops_of_length ds 0), <- (map_length a_id). apply NoDup_incl_length; [exact Hndo|].
    intros id Hid. rewrite <- Hmap in Hid. apply in_map_iff in Hid. destruct Hid as ([id' d] & <- & Hin). cbn [it_id].
    apply Hiff in Hin. destruct Hin as (_ & _ & v & Hv & _). apply HDi, (HDs _ _ Hv). }
  assert (Hcov : covered st).
  { subst st. apply add_documents_covered; [apply pinv_empty|intros i v [=]|]. split; [exact Hok|]. split.
    - rewrite Hstate. reflexivity.
    - split; [|intros; reflexivity]. rewrite map_map. cbn [vd_pair fst option_map].
      rewrite <- (map_map (fun d => di_id (vd_doc d)) Some). apply FinFun.Injective_map_NoDup; [intros a b [=]; auto|exact Hids]. }
  assert (Hpv : forall j v, node_by_id (c_h st) j = Some v -> (j < cap)%N).
  { subst st. rewrite Hstate. cbn [c_h]. intros j v Hj.
    assert (Hp : pinv h) by (apply run_events_pinv, pinv_empty).
    destruct (flush_any h (r_keys R h) (N.of_nat (length ds)) (r_puts R) Hp) as (_ & V & _). cbv zeta in V. specialize (V j). unfold pview in V.
    rewrite Hj in V. destruct (node_by_id h j) as [w|] eqn:Ew; [|discriminate]. apply (d_small _ _ _ _ _ Hd j w Ew). }
  assert (Hmain : forall hs out, near E hs q maxd ef = Ok out -> asc (answer out) -> NoDup (fst out) -> map it_id (answer out) = fst out ->
     (forall id d, In (mkItem id d) (answer out) <-> flt d f32_zero = false /\ fgt d maxd = false /\ true_dist P h (p_normalize P q) id d) ->
     ids_small E hs ->
     forall s1, c_h s1 = hs -> covered s1 -> c_reg s1 = true -> c_docs s1 = docs_after 0 ds [] ->
     forall Q, q_env Q = E -> Permutation (q_order Q) (seq 0 (length (fst out))) -> (forall i, q_ok Q i = true) ->
     exists docs dists, snd (near_docs Q s1 q maxd ef limit) = Ok (docs, dists) /\ exact_answer P ds q maxd docs dists).
  { intros hs [ids dists] Hnear Hasc Hndi Hmapi Hiff Hsm s1 Hh Hc Hreg Hdcs Q HQ Hperm Hfok. cbn [fst] in *.
    assert (Hni : near_ids (q_env Q) (c_h s1) q maxd ef limit = Ok (ids, dists)).
    { unfold near_ids, near in *. rewrite HQ, Hh, Hnear. cbn [bind]. unfold cut_limit.
      pose proof (Hfew (ids, dists) Hndi Hmapi Hiff) as Hl. cbn [fst] in *.
      destruct Hlim as [-> |Hlim]; [reflexivity|]. replace (Z.ltb limit _) with false; [now rewrite andb_false_r|].
      symmetry. apply Z.ltb_ge. lia. }
    destruct (near_docs_found Q s1 q maxd ef limit ids dists Hc) as (docs & K & L); auto.
    { rewrite HQ. exact Hsc. }
    { rewrite HQ, HEP. exact Hsym. }
    { rewrite HQ, Hh. exact Hsm. }
    exists docs, dists. split; [exact K|].
    assert (Hperm' : Permutation (q_order Q) (seq 0 (length docs))) by (rewrite L; exact Hperm).
    destruct (near_docs_spec Q s1 q maxd ef limit docs dists K Hperm') as (ids' & I1 & I2 & I3).
    assert (ids' = ids) by congruence. subst ids'. rewrite Hdcs in I3.
    apply (fetched_exact P ds h q maxd ids dists docs); auto.
    unfold near in Hnear. rewrite <- HEP in Hsym.
    apply (knn_max_dist_sound E (load_ep hs) Hsc Hsym Hsm q maxd ef None (ids, dists) Hnear). }
  assert (Hiff2 : forall id d, In (mkItem id d) (answer out2) <-> flt d f32_zero = false /\ fgt d maxd = false /\ true_dist P h (p_normalize P q) id d)
    by (intros; rewrite <- Hsame; apply Hans).
  destruct Hst as [->| ->].
  - exists (length (fst out1)). intros Q HQ O1 O2 O3 Hperm Hfok. exists st. unfold open_coll. rewrite O1, O2.
    assert (c_open st = true) as -> by (unfold st; rewrite Hstate; reflexivity). cbn [negb].
    enough (exists docs dists, snd (near_docs Q st q maxd ef limit) = Ok (docs, dists) /\ exact_answer P ds q maxd docs dists)
      as (docs & dists & G) by (exists docs, dists; split; [reflexivity|exact G]).
    apply (Hmain (c_h st) out1); auto; try (unfold st; rewrite Hstate; auto; fail).
    intros j v Hj. rewrite Hcap. now apply (Hpv j v).
  - exists (length (fst out2)). intros Q HQ O1 O2 O3 Hperm Hfok. eexists. unfold open_coll. rewrite O1, O2, O3. cbn [negb restart_coll c_open].
    set (s2 := mkC _ _ _ _ _).
    enough (exists docs dists, snd (near_docs Q s2 q maxd ef limit) = Ok (docs, dists) /\ exact_answer P ds q maxd docs dists)
      as (docs & dists & G) by (exists docs, dists; split; [reflexivity|exact G]).
    apply (Hmain (restart (c_h st)) out2); auto.
    + unfold st. rewrite Hstate. exact N2.
    + intros j v Hj. rewrite Hcap. unfold node_by_id in Hj. cbn [restart h_cache h_kv mget] in Hj. apply kv_node in Hj. destruct Hj as (w & Hw). now apply (Hpv j w).
    + cbn [c_h]. now apply (covered_restart (restart_coll st)), (covered_restart st).
    + cbn [c_docs restart_coll]. unfold s2, st. now rewrite Hstate.
Qed.

Lemma request_exact n cap P R lookup keys ds :
  0 < n -> ds <> [] -> length ds <= 61 -> NoDup (map (fun d => di_id (vd_doc d)) ds) -> Forall (vt_ok lookup keys) ds ->
  Forall (fun d => e_prov (i_env (do_env (vd_orc d))) = P) ds ->
  Forall (find_call n 30 cap (map a_id (ops_of 0 ds))) (ops_of 0 ds) -> rorc_ok R ->
  snd (add_documents R lookup keys (map vd_pair ds) new_coll) = Ok tt ->
  let st := fst (add_documents R lookup keys (map vd_pair ds) new_coll) in
  forall st', st' = st \/ st' = restart_coll st ->
  forall E q maxd limit, sched_ok E -> e_prov E = P -> e_vcap E = cap -> length q = n ->
    (limit = 0 \/ Z.of_nat (length ds) <= limit)%Z ->
    (forall d x, In d ds -> p_query P (p_normalize P q) (p_normalize P (vd_vec d)) = Some x -> is_num x = true) ->
    exists m, forall Q, q_env Q = E ->
      r_kvopen (q_open Q) = true -> r_isopen (q_open Q) = true -> r_docopen (q_open Q) = true ->
      Permutation (q_order Q) (seq 0 m) -> (forall i, q_ok Q i = true) ->
      exists docs dists, snd (near_by_vector Q st' q maxd limit) = Ok (docs, dists) /\ exact_answer P ds q maxd docs dists.
Proof.
  intros Hn Hne Hlen Hids Hvd HP Hf HR Hok st st' Hst E q maxd limit Hsc HEP Hcap Hq Hlim Hnum.
  destruct (request_near n cap P R lookup keys ds Hn Hne Hlen Hids Hvd HP Hf HR Hok st' Hst E q maxd 800 limit Hsc HEP Hcap Hq ltac:(lia) Hlim Hnum)
    as (m & Hm). exists m. intros Q HQ O1 O2 O3 Hperm Hfok.
  destruct (Hm Q HQ O1 O2 O3 Hperm Hfok) as (st2 & docs & dists & Ho & Hd & Ha). exists docs, dists. split; [|exact Ha].
  unfold near_by_vector. now rewrite Ho.
Qed.

(** By text: the breadth is the limit, so it must reach the number of documents. *)
Lemma request_text n cap P R lookup keys ds :
  0 < n -> ds <> [] -> length ds <= 61 -> NoDup (map (fun d => di_id (vd_doc d)) ds) -> Forall (vt_ok lookup keys) ds ->
  Forall (fun d => e_prov (i_env (do_env (vd_orc d))) = P) ds ->
  Forall (find_call n 30 cap (map a_id (ops_of 0 ds))) (ops_of 0 ds) -> rorc_ok R ->
  snd (add_documents R lookup keys (map vd_pair ds) new_coll) = Ok tt ->
  let st := fst (add_documents R lookup keys (map vd_pair ds) new_coll) in
  forall st', st' = st \/ st' = restart_coll st ->
  forall E q maxd limit, sched_ok E -> e_prov E = P -> e_vcap E = cap -> length q = n ->
    (Z.of_nat (length ds) <= limit)%Z ->
    (forall d x, In d ds -> p_query P (p_normalize P q) (p_normalize P (vd_vec d)) = Some x -> is_num x = true) ->
    exists m, forall Q, q_env Q = E ->
      r_kvopen (q_open Q) = true -> r_isopen (q_open Q) = true -> r_docopen (q_open Q) = true ->
      Permutation (q_order Q) (seq 0 m) -> (forall i, q_ok Q i = true) ->
      exists docs dists, snd (near_by_text Q true (Ok (Some q)) st' maxd limit) = Ok (docs, dists) /\ exact_answer P ds q maxd docs dists.
Proof.
  intros Hn Hne Hlen Hids Hvd HP Hf HR Hok st st' Hst E q maxd limit Hsc HEP Hcap Hq Hlim Hnum.
  destruct (request_near n cap P R lookup keys ds Hn Hne Hlen Hids Hvd HP Hf HR Hok st' Hst E q maxd limit limit Hsc HEP Hcap Hq Hlim ltac:(lia) Hnum)
    as (m & Hm). exists m. intros Q HQ O1 O2 O3 Hperm Hfok.
  destruct (Hm Q HQ O1 O2 O3 Hperm Hfok) as (st2 & docs & dists & Ho & Hd & Ha). exists docs, dists. split; [|exact Ha].
  unfold near_by_text. now rewrite Ho.
Qed.
