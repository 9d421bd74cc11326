(** The statements of PropClient.v, proved. *)
From Coq Require Import String.
From Verif Require Import Base F32 PQ PQProofs Graph Search SearchProofs SearchLayer SearchKnn
  SearchCong Insert HeuristicProofs InsertProofs InsertHist InsertTotal InsertDim InsertSmall InsertFacts InsertFind
  Distancer DistancerProofs PropDistancer Persist PersistProofs PersistHist Client ClientProofs ClientSafe ClientFacts.
Local Open Scope string_scope.

Lemma near_docs_bound Q st q maxd ef limit docs dists :
  sched_ok (q_env Q) -> prov_sym (e_prov (q_env Q)) -> ids_small (q_env Q) (c_h st) ->
  snd (near_docs Q st q maxd ef limit) = Ok (docs, dists) ->
  Permutation (q_order Q) (seq 0 (length docs)) ->
  (limit <> 0 -> Z.of_nat (length docs) <= limit)%Z /\ (Z.of_nat (length docs) <= Z.max ef 1)%Z /\
  forall i, i < length docs -> exists x, nth_error dists i = Some x /\ fgt x maxd = false.
Proof.
  intros Hsc Hsym Hsm H Hp. destruct (near_docs_spec _ _ _ _ _ _ _ _ H Hp) as (ids & Hids & Hlen & _).
  unfold near_ids in Hids. destruct (knn_max_dist _ _ _ _ _ _) as [out|e| |] eqn:Ek; cbn [bind] in Hids; try discriminate.
  destruct (cut_limit_spec _ _ _ Hids) as (H1 & H2 & _ & _ & Hn). cbn [fst snd] in *.
  destruct (knn_max_dist_sound (q_env Q) (load_ep (c_h st)) Hsc Hsym Hsm q maxd ef None out Ek) as (_ & _ & Hl & Hs).
  rewrite Hlen. split; [exact H1|]. split; [lia|]. intros i Hi. destruct (Hn i Hi) as [N1 N2].
  destruct (nth_error ids i) as [id|] eqn:Ei; [|apply nth_error_None in Ei; lia].
  symmetry in N1. destruct (Hs i id N1) as (x & X1 & _ & _ & _ & X2 & _). exists x. split; [congruence|exact X2].
Qed.

Lemma near_vec_bound Q st q maxd limit docs dists :
  sched_ok (q_env Q) -> prov_sym (e_prov (q_env Q)) -> ids_small (q_env Q) (c_h st) ->
  snd (near_by_vector Q st q maxd limit) = Ok (docs, dists) ->
  Permutation (q_order Q) (seq 0 (length docs)) ->
  (limit <> 0 -> Z.of_nat (length docs) <= limit)%Z /\
  forall i, i < length docs -> exists x, nth_error dists i = Some x /\ fgt x maxd = false.
Proof.
  intros Hsc Hsym Hsm H Hp. destruct (near_by_vector_open _ _ _ _ _ _ H) as (st1 & Ho & H').
  destruct (near_docs_bound Q st1 q maxd 800 limit docs dists Hsc Hsym (ids_small_open _ _ _ _ Ho Hsm) H' Hp) as (A & _ & B). auto.
Qed.

Lemma near_text_all Q lookup corpi st maxd limit docs dists :
  sched_ok (q_env Q) -> prov_sym (e_prov (q_env Q)) -> ids_small (q_env Q) (c_h st) ->
  snd (near_by_text Q lookup corpi st maxd limit) = Ok (docs, dists) ->
  Permutation (q_order Q) (seq 0 (length docs)) ->
  (limit <> 0 -> Z.of_nat (length docs) <= limit)%Z /\ (Z.of_nat (length docs) <= Z.max limit 1)%Z /\
  forall i, i < length docs -> exists x, nth_error dists i = Some x /\ fgt x maxd = false.
Proof.
  intros Hsc Hsym Hsm H Hp. destruct (near_by_text_open _ _ _ _ _ _ _ H) as (st1 & q & Ho & _ & H').
  exact (near_docs_bound Q st1 q maxd limit limit docs dists Hsc Hsym (ids_small_open _ _ _ _ Ho Hsm) H' Hp).
Qed.

Lemma near_text_bound Q lookup corpi st maxd limit docs dists :
  sched_ok (q_env Q) -> prov_sym (e_prov (q_env Q)) -> ids_small (q_env Q) (c_h st) ->
  snd (near_by_text Q lookup corpi st maxd limit) = Ok (docs, dists) ->
  Permutation (q_order Q) (seq 0 (length docs)) ->
  (limit <> 0 -> Z.of_nat (length docs) <= limit)%Z /\
  forall i, i < length docs -> exists x, nth_error dists i = Some x /\ fgt x maxd = false.
Proof. intros H1 H2 H3 H4 H5. destruct (near_text_all Q lookup corpi st maxd limit docs dists H1 H2 H3 H4 H5) as (A & _ & B). auto. Qed.

Lemma near_text_zero Q lookup corpi st maxd docs dists :
  sched_ok (q_env Q) -> prov_sym (e_prov (q_env Q)) -> ids_small (q_env Q) (c_h st) ->
  snd (near_by_text Q lookup corpi st maxd 0) = Ok (docs, dists) ->
  Permutation (q_order Q) (seq 0 (length docs)) -> length docs <= 1.
Proof.
  intros H1 H2 H3 H4 H5. destruct (near_text_all Q lookup corpi st maxd 0 docs dists H1 H2 H3 H4 H5) as (_ & A & _). lia.
Qed.

Lemma near_ids_open Q1 Q2 st st1 st2 : open_coll (q_open Q1) st = (st1, Ok tt) -> open_coll (q_open Q2) st = (st2, Ok tt) ->
  c_h st1 = c_h st2 /\ c_docs st1 = c_docs st2.
Proof.
  intros H1 H2. destruct (open_coll_h _ _ _ H1) as (D1 & C1), (open_coll_h _ _ _ H2) as (D2 & C2).
  split; [|congruence]. destruct C1 as [[A1 ->]|(A1 & B1 & _)], C2 as [[A2 ->]|(A2 & B2 & _)]; congruence.
Qed.

Lemma near_vec_append Q1 Q2 st q maxd l1 l2 docs1 dists1 docs2 dists2 :
  (0 < l1 <= l2)%Z -> q_env Q1 = q_env Q2 ->
  snd (near_by_vector Q1 st q maxd l1) = Ok (docs1, dists1) ->
  snd (near_by_vector Q2 st q maxd l2) = Ok (docs2, dists2) ->
  Permutation (q_order Q1) (seq 0 (length docs1)) -> Permutation (q_order Q2) (seq 0 (length docs2)) ->
  length docs1 = Nat.min (Z.to_nat l1) (length docs2) /\
  forall i, i < length docs1 -> nth_error dists1 i = nth_error dists2 i /\
    exists d1 d2, nth_error docs1 i = Some (Some d1) /\ nth_error docs2 i = Some (Some d2) /\ sd_hnsw d1 = sd_hnsw d2.
Proof.
  intros Hl HE H1 H2 P1 P2.
  destruct (near_by_vector_open _ _ _ _ _ _ H1) as (s1 & O1 & K1).
  destruct (near_by_vector_open _ _ _ _ _ _ H2) as (s2 & O2 & K2).
  destruct (near_ids_open _ _ _ _ _ O1 O2) as [Hh _].
  destruct (near_docs_spec _ _ _ _ _ _ _ _ K1 P1) as (ids1 & I1 & L1 & D1).
  destruct (near_docs_spec _ _ _ _ _ _ _ _ K2 P2) as (ids2 & I2 & L2 & D2).
  rewrite <- HE, <- Hh in I2.
  destruct (near_ids_limit _ _ _ _ _ _ _ _ _ _ _ Hl I1 I2) as [A B]. rewrite L1, L2. split; [exact A|].
  intros i Hi. destruct (B i Hi) as [B1 B2]. split; [exact B2|].
  destruct (nth_error ids1 i) as [id|] eqn:E; [|apply nth_error_None in E; lia].
  destruct (D1 i id E) as (d1 & X1 & _ & X2). destruct (D2 i id (eq_sym B1)) as (d2 & Y1 & _ & Y2).
  exists d1, d2. repeat split; auto. congruence.
Qed.

Lemma clean_unique P qs : Forall (req_ok P) qs -> clean new_coll qs ->
  let st := run_reqs new_coll qs in
  NoDup (map sd_hnsw (filter (fun d => Z.leb 0 (sd_hnsw d)) (c_docs st))) /\
  (forall d, In d (c_docs st) -> (sd_hnsw d < Z.of_N (first_id (c_h st)))%Z).
Proof.
  intros Hq Hc st. pose proof (run_inv P qs new_coll (cinv_new P) Hq Hc) as [_ Hd Hn]. fold st in Hd, Hn.
  split; [exact Hn|]. intros d Hin. destruct (Z.leb_spec 0 (sd_hnsw d)) as [H0|H0]; [|lia].
  destruct (Hd d Hin H0) as (i & q & A & B & _). lia.
Qed.

(** What the handler passes on. *)
Lemma raw_docs_in rs : forall ds r, raw_docs rs = Some ds -> In (Some r) rs ->
  In (match rd_props r with JObj p => Some (mkDoc (rd_id r) p) | _ => None end) ds.
Proof.
  induction rs as [|[x|] rs IH]; cbn [raw_docs]; intros ds r; [intros _ []| |discriminate].
  destruct (raw_docs rs) as [ds'|] eqn:E; [|discriminate]. intros [= <-] [[= ->]|H]; [now left|right; eauto].
Qed.

Lemma raw_docs_length rs : forall ds, raw_docs rs = Some ds -> length ds = length rs.
Proof.
  induction rs as [|[x|] rs IH]; cbn [raw_docs]; intros ds; [intros [= <-]; reflexivity| |discriminate].
  destruct (raw_docs rs) as [ds'|]; [|discriminate]. intros [= <-]. cbn. f_equal. now apply IH.
Qed.

Lemma combine_fst_in {A B} (a : A) (l : list A) : forall (m : list B), length m = length l -> In a l ->
  exists b, In (a, b) (combine l m).
Proof.
  induction l as [|x l IH]; intros [|y m] Hl; cbn in *; try discriminate; [intros []|].
  intros [->|H]; [eauto|]. destruct (IH m) as (b & Hb); auto. eauto.
Qed.

Lemma map_combine_fst {A B C} (f : A -> C) (l : list A) : forall (m : list B), length m = length l ->
  map (fun p => f (fst p)) (combine l m) = map f l.
Proof. induction l as [|x l IH]; intros [|y m] H; cbn in *; try discriminate; [reflexivity|]. f_equal. auto. Qed.

(** Success means that no document was nil. *)
Lemma add_loop_no_nil lookup keys docs : forall st b st' b' u,
  add_loop lookup keys st b docs = (st', b', Ok u) -> forall o, ~ In (None, o) docs.
Proof.
  induction docs as [|[[d|] o] docs IH]; intros st b st' b' u; cbn [add_loop]; [intros _ o []| |discriminate].
  destruct (add_doc lookup keys st b (Some d) o) as [[s1 b1] [[]|e| |]]; try discriminate.
  intros H o' [Hx|Hx]; [discriminate|]. eapply IH; eauto.
Qed.

Lemma add_documents_no_nil R lookup keys docs st :
  snd (add_documents R lookup keys docs st) = Ok tt -> forall o, ~ In (None, o) docs.
Proof.
  unfold add_documents. destruct (open_coll R st) as [st1 [[]|e| |]]; try discriminate.
  destruct (negb (c_reg st1)); [discriminate|].
  destruct (add_loop lookup keys st1 (first_id (c_h st1)) docs) as [[st2 b] [[]|e| |]] eqn:E; try discriminate.
  intros _. eapply add_loop_no_nil; eauto.
Qed.

Lemma raw_ids_nodup rs : forall ds, raw_docs rs = Some ds -> (forall d, In d ds -> d <> None) ->
  map (option_map di_id) ds = map (option_map rd_id) rs.
Proof.
  induction rs as [|[x|] rs IH]; cbn [raw_docs]; intros ds; [intros [= <-]; reflexivity| |discriminate].
  destruct (raw_docs rs) as [ds'|]; [|discriminate]. intros [= <-] Hn. cbn [map option_map]. f_equal.
  - destruct (rd_props x); cbn; try reflexivity; exfalso; now apply (Hn None (or_introl eq_refl)).
  - apply IH; [reflexivity|]. intros d Hd. apply Hn. now right.
Qed.

Lemma acknowledged R lookup orcs name rs keys st st' n :
  handle_add R lookup orcs name (Some rs) (Some keys) st = (st', Ok200 n) ->
  length orcs = length rs -> NoDup (map (option_map rd_id) rs) -> c_log st' = c_log st ->
  n = length rs /\
  forall r, In (Some r) rs -> forall R', r_isopen R' = true -> r_docopen R' = true ->
    exists s p, snd (get_document R' true (rd_id r) st') = Ok s /\ sd_id s = rd_id r /\ rd_props r = JObj p /\
      forall k, k <> "id" -> k <> "vector" -> k <> "hnswId" -> pget k (sd_props s) = pget k p.
Proof.
  unfold handle_add. destruct (String.eqb name ""); [discriminate|].
  destruct (raw_docs rs) as [ds|] eqn:Er; [|discriminate].
  pose proof (raw_docs_length rs ds Er) as Hlen.
  destruct (add_documents R lookup keys (combine ds orcs) st) as [s1 [[]|e| |]] eqn:Ea; try discriminate.
  intros [= -> <-] Ho Hnd Hlog. split; [exact Hlen|]. intros r Hr R' H1 H2.
  assert (Hres : snd (add_documents R lookup keys (combine ds orcs) st) = Ok tt) by (rewrite Ea; reflexivity).
  assert (Hst : fst (add_documents R lookup keys (combine ds orcs) st) = st') by (rewrite Ea; reflexivity).
  assert (Hnil : forall d, In d ds -> d <> None).
  { intros d Hd ->. destruct (combine_fst_in None ds orcs ltac:(lia) Hd) as (o & Hin).
    exact (add_documents_no_nil _ _ _ _ _ Hres o Hin). }
  pose proof (raw_docs_in rs ds r Er Hr) as Hin. remember (rd_props r) as pr eqn:Epr.
  destruct pr as [|b|x|s|l|p|v]; try (exfalso; now apply (Hnil None Hin)).
  destruct (combine_fst_in _ ds orcs ltac:(lia) Hin) as (o & Hino).
  destruct (add_documents_stored R lookup keys (combine ds orcs) st Hres) with (d := mkDoc (rd_id r) p) (o := o)
    as (s & Hs & Hf); auto.
  { rewrite Hst. exact Hlog. }
  { rewrite map_combine_fst by lia. rewrite (raw_ids_nodup rs ds Er Hnil). exact Hnd. }
  rewrite Hst in Hs. cbn [di_id] in Hs. exists s, p. unfold get_document. rewrite H1, H2. cbn [negb].
  rewrite andb_false_r. unfold by_id in Hs. rewrite Hs. destruct Hf as (F1 & F2 & _). cbn [di_id di_props] in *.
  split; [reflexivity|]. split; [exact F1|]. split; [reflexivity|].
  intros k K1 K2 _. rewrite F2 by exact K2. destruct (String.eqb_spec k "id"); [contradiction|reflexivity].
Qed.

Lemma clean_paired P qs Q q maxd limit docs dists :
  Forall (req_ok P) qs -> clean new_coll qs ->
  let st := run_reqs new_coll qs in
  e_prov (q_env Q) = P -> sched_ok (q_env Q) -> prov_sym P -> ids_small (q_env Q) (c_h st) ->
  snd (near_by_vector Q st q maxd limit) = Ok (docs, dists) ->
  Permutation (q_order Q) (seq 0 (length docs)) ->
  forall i, i < length docs -> exists d v x,
    nth_error docs i = Some (Some d) /\ In d (c_docs st) /\ sd_vec d = Some v /\
    nth_error dists i = Some x /\ p_query P (p_normalize P q) (p_normalize P v) = Some x.
Proof.
  intros Hq Hc st HP Hsc Hsym Hsm H Hp i Hi.
  pose proof (run_inv P qs new_coll (cinv_new P) Hq Hc) as Hinv. fold st in Hinv.
  destruct (near_by_vector_open _ _ _ _ _ _ H) as (s1 & O1 & K1).
  destruct (open_inv P (q_open Q) st Hinv) as [Hinv1 Hd]. rewrite O1 in Hinv1, Hd. cbn [fst] in *.
  destruct (near_docs_pair P Q s1 q maxd 800 limit docs dists Hinv1 HP Hsc Hsym (ids_small_open _ _ _ _ O1 Hsm) K1 Hp i Hi)
    as (d & v & x & A & B & C & D & E & _).
  exists d, v, x. rewrite <- Hd. auto.
Qed.

Lemma clean_paired_text P qs Q lookup corpi maxd limit docs dists :
  Forall (req_ok P) qs -> clean new_coll qs ->
  let st := run_reqs new_coll qs in
  e_prov (q_env Q) = P -> sched_ok (q_env Q) -> prov_sym P -> ids_small (q_env Q) (c_h st) ->
  snd (near_by_text Q lookup corpi st maxd limit) = Ok (docs, dists) ->
  Permutation (q_order Q) (seq 0 (length docs)) ->
  exists q, corpi = Ok (Some q) /\
  forall i, i < length docs -> exists d v x,
    nth_error docs i = Some (Some d) /\ In d (c_docs st) /\ sd_vec d = Some v /\
    nth_error dists i = Some x /\ p_query P (p_normalize P q) (p_normalize P v) = Some x.
Proof.
  intros Hq Hc st HP Hsc Hsym Hsm H Hp.
  pose proof (run_inv P qs new_coll (cinv_new P) Hq Hc) as Hinv. fold st in Hinv.
  destruct (near_by_text_open _ _ _ _ _ _ _ H) as (s1 & q & O1 & Hco & K1). exists q. split; [exact Hco|]. intros i Hi.
  destruct (open_inv P (q_open Q) st Hinv) as [Hinv1 Hd]. rewrite O1 in Hinv1, Hd. cbn [fst] in *.
  destruct (near_docs_pair P Q s1 q maxd limit limit docs dists Hinv1 HP Hsc Hsym (ids_small_open _ _ _ _ O1 Hsm) K1 Hp i Hi)
    as (d & v & x & A & B & C & D & E & _).
  exists d, v, x. rewrite <- Hd. auto.
Qed.

(** Documents with the same non-negative index id are the same. *)
Lemma idx_unique ds d1 d2 : NoDup (idx_ids ds) -> In d1 ds -> In d2 ds -> (0 <= sd_hnsw d1)%Z ->
  sd_hnsw d1 = sd_hnsw d2 -> d1 = d2.
Proof.
  unfold idx_ids. induction ds as [|d ds IH]; cbn [filter In]; [tauto|].
  intros Hn [<-|H1] [<-|H2] H0 E; auto.
  - rewrite (proj2 (Z.leb_le _ _) H0) in Hn. cbn [map] in Hn. inversion Hn as [|? ? Hni _]; subst. exfalso. apply Hni.
    rewrite E. apply in_map, filter_In. split; [exact H2|apply Z.leb_le; lia].
  - assert (H0' : (0 <= sd_hnsw d)%Z) by lia.
    rewrite (proj2 (Z.leb_le _ _) H0') in Hn. cbn [map] in Hn. inversion Hn as [|? ? Hni _]; subst. exfalso. apply Hni.
    rewrite <- E. apply in_map, filter_In. split; [exact H1|apply Z.leb_le; lia].
  - apply IH; auto. destruct (Z.leb 0 (sd_hnsw d)); cbn [map] in Hn; [now inversion Hn|exact Hn].
Qed.

Lemma limit_zero P qs Q q maxd docs dists :
  Forall (req_ok P) qs -> clean new_coll qs ->
  let st := run_reqs new_coll qs in
  e_prov (q_env Q) = P -> sched_ok (q_env Q) -> prov_sym P -> ids_small (q_env Q) (c_h st) ->
  c_open st = true ->
  dists_num P (c_h st) (p_normalize P q) ->
  (forall id v, node_by_id (c_h st) id = Some v -> exists d, p_query P (p_normalize P q) (v_vec v) = Some d) ->
  (forall a b va vb, node_by_id (c_h st) a = Some va -> node_by_id (c_h st) b = Some vb -> reach (c_h st) 0 a b) ->
  (Z.of_nat (length (nodup N.eq_dec (stored_ids (c_h st)))) <= 800)%Z -> h_tomb (c_h st) = [] ->
  snd (near_by_vector Q st q maxd 0) = Ok (docs, dists) ->
  Permutation (q_order Q) (seq 0 (length docs)) ->
  forall d v x, In d (c_docs st) -> (0 <= sd_hnsw d)%Z -> sd_vec d = Some v ->
    p_query P (p_normalize P q) (p_normalize P v) = Some x ->
    flt x f32_zero = false -> fgt x maxd = false -> In (Some d) docs.
Proof.
  intros Hq Hc st HP Hsc Hsym Hsm Hopen Hnum Hcomp Hcon Hsz Ht H Hp d v x Hd H0 Hv Hx Hx0 Hxm.
  pose proof (run_inv P qs new_coll (cinv_new P) Hq Hc) as Hinv. fold st in Hinv.
  destruct (near_by_vector_open _ _ _ _ _ _ H) as (s1 & O1 & K1).
  destruct (open_coll_h _ _ _ O1) as (_ & [[_ ->]|(X & _)]); [|congruence].
  destruct (near_docs_spec _ _ _ _ _ _ _ _ K1 Hp) as (ids & Hids & Hlen & Hdocs).
  unfold near_ids in Hids. destruct (knn_max_dist _ _ _ _ _ _) as [out|e| |] eqn:Ek; cbn [bind] in Hids; try discriminate.
  injection Hids as ->.
  destruct (ci_docs _ _ Hinv d Hd H0) as (i & w & W1 & _ & W2 & (vt & V1 & V2) & _).
  replace w with v in * by congruence. subst P.
  assert (Htd : true_dist (e_prov (q_env Q)) (load_ep (c_h st)) (p_normalize (e_prov (q_env Q)) q) i x)
    by (exists vt; split; [exact V1|rewrite V2; exact Hx]).
  assert (Hreach : forall a b va vb, node_by_id (load_ep (c_h st)) a = Some va -> node_by_id (load_ep (c_h st)) b = Some vb ->
            reach (load_ep (c_h st)) 0 a b).
  { intros a b va vb Ha Hb. eapply look_reach; [|exact (Hcon a b va vb Ha Hb)]. intros j. reflexivity. }
  pose proof (connected_spelled (q_env Q) (load_ep (c_h st)) q maxd 800 None (ids, dists) Hsc Hsym Hsm Hnum Hcomp Hreach Hsz Ek
     i x Htd) as Hin.
  assert (Ha : In (mkItem i x) (answer (ids, dists))).
  { apply Hin; auto; [|discriminate]. unfold has_tombstone. change (h_tomb (load_ep (c_h st))) with (h_tomb (c_h st)).
    rewrite Ht. reflexivity. }
  unfold answer in Ha. apply in_map_iff in Ha. destruct Ha as ([a b] & Hab & Hin2). injection Hab as -> ->.
  cbn [fst snd] in Hin2. apply in_combine_l in Hin2. apply In_nth_error in Hin2. destruct Hin2 as (k & Hk).
  destruct (Hdocs k i Hk) as (d' & D1 & D2 & D3).
  assert (Heq : d = d') by (apply (idx_unique (c_docs st)); auto; [apply (ci_nd _ _ Hinv)|congruence]).
  subst d'. eapply nth_error_In; eauto.
Qed.

Lemma neg_limit Q st q maxd limit n :
  (limit < 0)%Z -> open_coll (q_open Q) st = (st, Ok tt) ->
  (if c_reg st then match knn_max_dist (q_env Q) (load_ep (c_h st)) q maxd 800 None with
                    | Ok out => Some (length (fst out)) | _ => None end else None) = Some n ->
  snd (near_by_vector Q st q maxd limit) = Panic.
Proof.
  intros Hl Ho Hk. unfold near_by_vector. rewrite Ho. unfold near_docs. destruct (c_reg st); [|discriminate]. cbn [negb snd].
  change (c_h (with_h st (load_ep (c_h st)))) with (load_ep (c_h st)).
  destruct (knn_max_dist _ _ _ _ _ _) as [out|e| |]; try discriminate. cbn [bind].
  unfold cut_limit. rewrite (proj2 (Z.eqb_neq limit 0)) by lia.
  rewrite (proj2 (Z.ltb_lt limit (Z.of_nat (length (fst out))))) by lia. cbn [negb andb].
  rewrite (proj2 (Z.ltb_lt limit 0)) by lia. reflexivity.
Qed.

Lemma empty_vec Q st q maxd limit :
  (forall id, node_by_id (c_h st) id = None) -> c_open st = true -> c_reg st = true ->
  r_kvopen (q_open Q) = true -> r_isopen (q_open Q) = true ->
  snd (near_by_vector Q st q maxd limit) = Err ENodeMissing.
Proof.
  intros Hn Ho Hr H1 H2. unfold near_by_vector, open_coll. rewrite H1, H2. cbn [negb]. rewrite Ho. now apply near_docs_empty.
Qed.

Lemma no_crash qs size R lookup orcs name docs keys :
  let st := run_reqs new_coll qs in
  (c_open st = true -> c_reg st = true) ->
  Forall (orc_fine size) orcs ->
  (forall rs, docs = Some rs ->
     length orcs = length rs /\ (first_id (c_h st) + N.of_nat (length rs) <= size)%N /\
     forall r, In r rs -> exists x p, r = Some x /\ rd_props x = JObj p /\
       forall ks, keys = Some ks -> doc_fine ks (mkDoc (rd_id x) p)) ->
  snd (handle_add R lookup orcs name docs keys st) <> Crash /\
  snd (handle_add R lookup orcs name docs keys st) <> Diverge.
Proof.
  intros st Hor Hf Hd. unfold handle_add. destruct (String.eqb name ""); [split; discriminate|].
  destruct docs as [rs|]; [|split; discriminate]. destruct keys as [ks|]; [|split; discriminate].
  destruct (Hd rs eq_refl) as (Hl & Hsz & Hr). clear Hd.
  assert (Hraw : exists ds, raw_docs rs = Some ds /\ Forall (fun d => exists x, d = Some x /\ doc_fine ks x) ds).
  { clear Hl Hsz Hf. induction rs as [|r rs IH]; cbn [raw_docs]; [eexists; split; [reflexivity|constructor]|].
    destruct (Hr r (or_introl eq_refl)) as (x & p & -> & Hp & Hk).
    destruct IH as (ds & -> & Hds); [intros r' Hr'; apply Hr; now right|].
    eexists. split; [reflexivity|]. constructor; [|exact Hds]. rewrite Hp. eexists. split; [reflexivity|]. now apply Hk. }
  destruct Hraw as (ds & Er & Hds). rewrite Er. pose proof (raw_docs_length rs ds Er) as Hlen.
  assert (Hpi : pinv (c_h st)) by (apply run_pinv, pinv_empty).
  assert (Hs : safe (snd (add_documents R lookup ks (combine ds orcs) st))).
  { apply (add_documents_safe size); auto.
    - rewrite combine_length. lia.
    - apply Forall_forall. intros [d o] Hin. cbn [fst snd]. split.
      + rewrite Forall_forall in Hf. apply Hf. eapply in_combine_r; eauto.
      + rewrite Forall_forall in Hds. apply Hds. eapply in_combine_l; eauto. }
  destruct (add_documents R lookup ks (combine ds orcs) st) as [s1 [[]|e| |]]; cbn [snd] in *;
    try (split; discriminate); destruct Hs; congruence.
Qed.

Lemma get_open R ok id st : c_open st = true -> fst (get_document R ok id st) = st.
Proof.
  intros Ho. unfold get_document. destruct (negb (r_isopen R)); [reflexivity|]. rewrite Ho. cbn [negb andb].
  assert (E : mkC (c_h st) (c_reg st) true (c_docs st) (c_log st) = st) by (destruct st; cbn in *; now subst).
  rewrite E. destruct (negb ok); [reflexivity|]. destruct (find _ _); reflexivity.
Qed.

(** Histories whose add requests all succeeded completely with new documents. *)
Definition tidy_req (st : coll) (q : creq) : Prop :=
  match q with QAdd R lookup keys docs => tidy_add R lookup keys docs st | _ => True end.
Fixpoint tidy (st : coll) (qs : list creq) : Prop :=
  match qs with [] => True | q :: qs' => tidy_req st q /\ tidy (req_step st q) qs' end.

Lemma covered_same st h reg op lg : (forall j, node_by_id h j = node_by_id (c_h st) j) -> covered st ->
  covered (mkC h reg op (c_docs st) lg).
Proof. intros E H i v Hv. cbn [c_h c_docs] in *. rewrite E in Hv. eauto. Qed.

Lemma near_covered Q st q maxd ef limit : covered st -> covered (fst (near_docs Q st q maxd ef limit)).
Proof.
  intros H. unfold near_docs. destruct (negb (c_reg st)); [exact H|]. cbn [fst]. now apply covered_same.
Qed.

Lemma run_covered qs : forall st, pinv (c_h st) -> covered st -> tidy st qs -> covered (run_reqs st qs).
Proof.
  induction qs as [|q qs IH]; intros st Hp Hc; cbn [run_reqs tidy]; [auto|]. intros [Ht Hr]. apply IH; auto.
  - exact (run_pinv [q] st Hp).
  - destruct q as [R lk keys docs|Q v maxd limit|Q lk corpi maxd limit|R ok id| |]; cbn [req_step].
    + now apply add_documents_covered.
    + unfold near_by_vector. pose proof (open_covered (q_open Q) st Hc) as Ho.
      destruct (open_coll (q_open Q) st) as [s1 [[]|e| |]]; cbn [fst] in *; auto. now apply near_covered.
    + unfold near_by_text. pose proof (open_covered (q_open Q) st Hc) as Ho.
      destruct (open_coll (q_open Q) st) as [s1 [[]|e| |]]; cbn [fst] in *; auto.
      destruct (negb lk); [exact Ho|]. destruct corpi as [[w|]|e| |]; auto; [now apply near_covered|].
      cbn [fst]. destruct (c_reg s1); [now apply covered_same|exact Ho].
    + unfold get_document. destruct (negb (r_isopen R)); [exact Hc|].
      destruct (negb (c_open st) && negb (r_docopen R)); [exact Hc|].
      destruct (negb ok); [now apply covered_same|]. destruct (find _ _); now apply covered_same.
    + now apply covered_restart.
    + now apply covered_restart.
Qed.

Lemma hits_have_docs P qs Q q maxd limit ids dists st1 :
  tidy new_coll qs ->
  let st := run_reqs new_coll qs in
  e_prov (q_env Q) = P -> sched_ok (q_env Q) -> prov_sym P -> ids_small (q_env Q) (c_h st) ->
  open_coll (q_open Q) st = (st1, Ok tt) -> c_reg st1 = true ->
  bind (knn_max_dist (q_env Q) (load_ep (c_h st1)) q maxd 800 None) (cut_limit limit) = Ok (ids, dists) ->
  Permutation (q_order Q) (seq 0 (length ids)) -> (forall i, i < length ids -> q_ok Q i = true) ->
  exists docs, snd (near_by_vector Q st q maxd limit) = Ok (docs, dists) /\ length docs = length ids.
Proof.
  intros Ht st HP Hsc Hsym Hsm Ho Hr Hk Hp Hok. unfold near_by_vector. rewrite Ho.
  assert (Hc : covered st) by (apply run_covered; [apply pinv_empty|intros i v Hv; discriminate|exact Ht]).
  pose proof (open_covered (q_open Q) st Hc) as Hc1. rewrite Ho in Hc1. cbn [fst] in Hc1.
  apply (near_docs_found Q st1 q maxd 800 limit ids dists); auto; [congruence|]. eapply ids_small_open; eauto.
Qed.
