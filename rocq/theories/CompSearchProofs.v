(** A search of a compressed index is a search of an uncompressed one: the index
    [recoded] has a vertex for every code, with the links of the stored vertex
    and a vector whose length names the id; [coded_env] computes distances by
    looking the code up under that length.  The theorems of SearchKnn.v carry
    over. *)
From Verif Require Import Base F32 PQ PQProofs Graph Search SearchProofs SearchLayer SearchKnn Compress CompSearch.
From Coq Require Import Sorting.Sorted.

Section CompSearchProofs.
  Variable C : Type.
  Variable bq bs : vec -> C -> f32.
  Variable E : env.
  Variable h : hnsw.
  Variable cc : ccache C.

  Definition kvec (id : N) : vec := repeat f32_zero (S (N.to_nat id)).
  Definition kid (v : vec) : N := N.of_nat (pred (length v)).
  Lemma kid_kvec id : kid (kvec id) = id.
  Proof. unfold kid, kvec. rewrite repeat_length. cbn [pred]. apply N2Nat.id. Qed.

  Definition recode (id : N) : vertex :=
    match node_by_id h id with
    | Some v => mkV id (v_level v) (v_conns v) (v_maint v) (kvec id) true
    | None => mkV id 0 [[]] true (kvec id) true
    end.
  Definition recoded : hnsw :=
    mkH (map (fun p => (fst p, recode (fst p))) (cc_slots cc)) []
        (if is_empty h then None else Some 0%N) None (h_ep h) (h_maxl h) (h_tomb h) (h_once h).
  Definition coded_query (q v : vec) : option f32 :=
    option_map (bq q) (mget (kid v) (cc_slots cc)).
  Definition coded_env : env :=
    mkEnv (mkProv (fun a b => coded_query b a) coded_query (p_normalize (e_prov E))) (e_vcap E) (e_sched E).
  Local Notation h' := recoded.
  Local Notation E' := coded_env.

  Lemma mget_recoded id (l : nmap C) : mget id (map (fun p => (fst p, recode (fst p))) l) =
    match mget id l with Some _ => Some (recode id) | None => None end.
  Proof.
    induction l as [|[k c] l IH]; cbn; [reflexivity|].
    destruct (N.eqb_spec id k) as [->|]; [reflexivity|exact IH].
  Qed.
  Lemma node_recoded id : node_by_id h' id = match mget id (cc_slots cc) with Some _ => Some (recode id) | None => None end.
  Proof. unfold node_by_id, recoded. cbn [h_cache h_kv]. rewrite mget_recoded. now destruct (mget id (cc_slots cc)). Qed.
  Lemma recode_vec id : v_vec (recode id) = kvec id.
  Proof. unfold recode. now destruct (node_by_id h id). Qed.
  Lemma recoded_empty : is_empty h' = is_empty h.
  Proof. unfold recoded, is_empty at 1. cbn. destruct (is_empty h); reflexivity. Qed.
  Lemma recoded_ids : length (stored_ids h') = length (cc_slots cc).
  Proof. unfold stored_ids, recoded, mkeys. cbn [h_cache h_kv map]. now rewrite app_nil_r, !map_length. Qed.

  Definition in_range : Prop := forall id v l cs c,
    node_by_id h id = Some v -> nth_error (v_conns v) l = Some cs -> In c cs -> (c < cc_size cc)%N.
  Definition slots_in : Prop := forall id c, mget id (cc_slots cc) = Some c -> (id < cc_size cc)%N.

  Hypothesis Hsc : sched_ok E.
  Hypothesis Hrange : in_range.
  Hypothesis Hslots : slots_in.

  Definition coded (x : item) : Prop := exists c, mget (it_id x) (cc_slots cc) = Some c.
  Definition all_coded (l : list item) : Prop := forall x, In x l -> coded x.

  Lemma cget_slot id : (id < cc_size cc)%N ->
    cget cc id = match mget id (cc_slots cc) with Some b => Ok b | None => Err EOther end.
  Proof. intros H. unfold cget. apply N.ltb_lt in H. now rewrite H. Qed.
  Lemma cget_Ok id c : cget cc id = Ok c <-> mget id (cc_slots cc) = Some c.
  Proof.
    split.
    - unfold cget. destruct (negb _); [discriminate|]. destruct (mget id (cc_slots cc)); congruence.
    - intros H. rewrite cget_slot by (eapply Hslots; eauto). now rewrite H.
  Qed.
  Lemma dist_coded q id : dist_float_node E' h' q id = option_map (bq q) (mget id (cc_slots cc)).
  Proof.
    unfold dist_float_node. rewrite node_recoded. destruct (mget id (cc_slots cc)) as [c|] eqn:F; [|reflexivity].
    cbn [coded_env e_prov p_query]. unfold coded_query. now rewrite recode_vec, kid_kvec, F.
  Qed.
  Lemma dist_byte q id : (id < cc_size cc)%N -> dist_byte_node bq cc q id =
    match dist_float_node E' h' q id with Some d => Ok d | None => Err EOther end.
  Proof.
    intros H. unfold dist_byte_node. rewrite cget_slot by exact H. rewrite dist_coded. now destruct (mget id (cc_slots cc)).
  Qed.

  Lemma nds_byte q ids : (forall id, In id ids -> (id < cc_size cc)%N) ->
    neighbour_dists_byte bq cc q ids = Ok (neighbour_dists E' h' q ids).
  Proof.
    induction ids as [|id ids IH]; intros H; cbn [neighbour_dists_byte neighbour_dists]; [reflexivity|].
    rewrite (dist_byte q id (H id (or_introl eq_refl))), IH by (intros i Hi; apply H; now right).
    now destruct (dist_float_node E' h' q id).
  Qed.
  Lemma nds_coded q ids : all_coded (neighbour_dists E' h' q ids).
  Proof.
    induction ids as [|id ids IH]; cbn [neighbour_dists]; [intros x []|].
    destruct (dist_float_node E' h' q id) as [d|] eqn:F; [|exact IH]. intros x [<-|Hx]; [|now apply IH].
    rewrite dist_coded in F. destruct (mget id (cc_slots cc)) as [c|] eqn:G; [|discriminate]. exists c. exact G.
  Qed.
  Lemma fresh_In conns : forall vis id, In id (fst (fresh conns vis)) -> In id conns.
  Proof.
    induction conns as [|a conns IH]; intros vis id; cbn [fresh]; [intros []|].
    destruct (memN a vis).
    - intros H. right. now apply (IH vis).
    - specialize (IH (a :: vis) id). destruct (fresh conns (a :: vis)) as [ids v]. cbn [fst] in *. intros [<-|H]; [now left|right; auto].
  Qed.

  Definition s_coded (s : sst) : Prop := all_coded (s_cands s) /\ all_coded (s_results s).
  Lemma coded_insert less x l : coded x -> all_coded l -> all_coded (pq_insert less x l).
  Proof. intros Hx Hl y Hy. apply insert_In in Hy. destruct Hy as [->|Hy]; auto. Qed.
  Lemma coded_pop less l x l' : all_coded l -> pq_pop less l = Some (x, l') -> coded x /\ all_coded l'.
  Proof.
    intros Hl H. pose proof (pop_perm _ _ _ _ H) as Hp.
    split; [apply Hl; eapply Permutation_in; [symmetry; exact Hp|now left]|].
    intros y Hy. apply Hl. eapply Permutation_in; [symmetry; exact Hp|now right].
  Qed.

  Lemma step_same ef level allow s nd : step_nd h' ef level allow s nd = step_nd h ef level allow s nd.
  Proof. reflexivity. Qed.
  Lemma step_coded ef level allow s nd : coded nd -> s_coded s -> s_coded (step_nd h ef level allow s nd).
  Proof.
    intros Hn [Hc Hr]. unfold step_nd. destruct (_ || _); [|split; auto].
    destruct (negb _); [split; cbn; auto using coded_insert|].
    destruct (has_tombstone h _); [split; cbn; auto using coded_insert|].
    split; cbn [s_cands s_results]; [auto using coded_insert|].
    pose proof (coded_insert less_max nd _ Hn Hr) as Hi.
    destruct (_ <? _)%Z; [|exact Hi].
    destruct (pq_pop less_max (pq_insert less_max nd (s_results s))) as [[y r]|] eqn:F; [|exact Hi].
    exact (proj2 (coded_pop _ _ _ _ Hi F)).
  Qed.
  Lemma fold_coded ef level allow nds : forall s, all_coded nds -> s_coded s ->
    s_coded (fold_left (step_nd h ef level allow) nds s).
  Proof.
    induction nds as [|nd nds IH]; intros s Hn Hs; cbn; [exact Hs|].
    apply IH; [intros x Hx; apply Hn; now right|]. apply step_coded; [apply Hn; now left|exact Hs].
  Qed.
  Lemma fold_same ef level allow nds s :
    fold_left (step_nd h' ef level allow) nds s = fold_left (step_nd h ef level allow) nds s.
  Proof. reflexivity. Qed.

  Lemma loop_byte q ef level allow fuel : forall s, s_coded s ->
    search_loop_byte bq E h cc q ef level allow fuel s = search_loop E' h' q ef level allow fuel s /\
    (forall s', search_loop E' h' q ef level allow fuel s = Ok s' -> s_coded s').
  Proof.
    induction fuel as [|f IH]; intros s Hs; cbn [search_loop_byte search_loop]; [split; [reflexivity|discriminate]|].
    destruct (pq_pop less_min (s_cands s)) as [[c cands']|] eqn:F; [|split; [reflexivity|now intros s' [= <-]]].
    destruct Hs as [Hc Hr]. destruct (coded_pop _ _ _ _ Hc F) as [[code Hx] Hc'].
    assert (H1 : s_coded (mkS cands' (s_results s) (s_worst s) (s_visited s))) by (split; assumption).
    destruct (fgt _ _ && _); [split; [reflexivity|now intros s' [= <-]]|].
    rewrite node_recoded, Hx. unfold recode.
    destruct (node_by_id h (it_id c)) as [v|] eqn:G; cbn [v_level].
    - destruct (Nat.ltb (v_level v) level); [apply IH; exact H1|].
      unfold conns_at. cbn [v_conns]. destruct (nth_error (v_conns v) level) as [conns|] eqn:K; [|split; [reflexivity|discriminate]].
      pose proof (fresh_In conns (s_visited s)) as Hf. destruct (fresh conns (s_visited s)) as [ids vis']. cbn [fst] in Hf.
      rewrite nds_byte by (intros id Hid; eapply Hrange; eauto). cbn [bind].
      cbn [coded_env e_sched]. apply IH. apply (fold_coded ef level allow).
      + intros x Hin. apply (nds_coded q ids). eapply Permutation_in; [symmetry; apply Hsc|exact Hin].
      + split; assumption.
    - destruct level as [|level]; cbn [Nat.ltb Nat.leb conns_at v_conns nth_error fresh neighbour_dists]; [|apply IH; exact H1].
      cbn [coded_env e_sched]. pose proof (Permutation_nil (Hsc 0 f [])) as Hn. rewrite Hn. cbn [fold_left].
      apply IH. exact H1.
  Qed.

  Lemma eps_coded level allow es : forall cr, all_coded es -> all_coded (fst cr) -> all_coded (snd cr) ->
    all_coded (fst (fold_left (add_ep h level allow) es cr)) /\ all_coded (snd (fold_left (add_ep h level allow) es cr)).
  Proof.
    induction es as [|e es IH]; intros cr He Hc Hr; cbn [fold_left]; [auto|].
    assert (K : coded e) by (apply He; now left).
    apply IH; [intros x Hx; apply He; now right| |]; unfold add_ep;
      destruct (negb _); cbn [fst snd]; auto using coded_insert; destruct (has_tombstone h _); cbn [fst snd]; auto using coded_insert.
  Qed.

  Lemma layer_byte q ef level allow eps : all_coded eps ->
    search_layer_byte bq E h cc q ef level allow eps = search_layer E' h' q ef level allow eps /\
    (forall r, search_layer E' h' q ef level allow eps = Ok r -> all_coded r).
  Proof.
    intros He. unfold search_layer_byte, search_layer.
    set (es := pq_drain less_min eps).
    assert (He' : all_coded es) by (intros x Hx; apply He; eapply Permutation_in; [symmetry; apply drain_perm|exact Hx]).
    change (visit_eps E') with (visit_eps E). change (add_ep h' level allow) with (add_ep h level allow).
    destruct (eps_coded level allow es ([], []) He' (fun x (i : In x []) => match i with end) (fun x (i : In x []) => match i with end)) as [Hc Hr].
    destruct (fold_left (add_ep h level allow) es ([], [])) as [c r]. cbn [fst snd] in Hc, Hr.
    assert (Hw : worst_dist_byte bq cc q r = worst_dist E' h' q r).
    { unfold worst_dist_byte, worst_dist. destruct (pq_top r) as [x|] eqn:F; [|reflexivity].
      apply dist_byte. assert (Hx : coded x) by (apply Hr; unfold pq_top in F; destruct r; [discriminate|injection F as <-; now left]).
      destruct Hx as [code Hx]. eapply Hslots; eauto. }
    rewrite Hw, recoded_ids. destruct (worst_dist E' h' q r) as [w|e| |]; cbn [bind]; try (split; [reflexivity|discriminate]).
    destruct (loop_byte q ef level allow (S (length es + length (cc_slots cc)))
      (mkS c r w (visit_eps E (map it_id es) [] false)) (conj Hc Hr)) as [-> Hk].
    split; [reflexivity|]. intros r0 H. apply bind_Ok in H. destruct H as (s & H & [= <-]). exact (proj2 (Hk s H)).
  Qed.

  Lemma single_coded x : coded x -> all_coded (pq_insert less_min x []).
  Proof. intros H. apply coded_insert; [exact H|intros y []]. Qed.

  Lemma descend_byte_eq q l : forall ep epd, coded (mkItem ep epd) ->
    descend_byte bq E h cc q l ep epd = descend E' h' q l ep epd /\
    (forall e d, descend E' h' q l ep epd = Ok (e, d) -> coded (mkItem e d)).
  Proof.
    induction l as [|l IH]; intros ep epd Hep; cbn [descend_byte descend]; [split; [reflexivity|now intros e d [= <- <-]]|].
    destruct (layer_byte q 1 (Datatypes.S l) None _ (single_coded _ Hep)) as [-> Hk].
    destruct (search_layer E' h' q 1 (Datatypes.S l) None _) as [r|e| |]; cbn [bind]; try (split; [reflexivity|discriminate]).
    destruct (pq_pop less_max r) as [[best r']|] eqn:F; [|apply IH; exact Hep].
    apply IH. destruct (coded_pop _ _ _ _ (Hk r eq_refl) F) as [K _]. exact K.
  Qed.

  Hypothesis Hbs : forall q c, bs q c = bq q c.

  Lemma entry_byte id q c : q <> [] -> mget id (cc_slots cc) = Some c ->
    dist_node_vec (e_prov E') h' id q = Ok (bq q c) /\ dist_node_vec_byte bs cc id q = Ok (bq q c).
  Proof.
    intros Hq Hc. split.
    - unfold dist_node_vec. rewrite node_recoded, Hc, recode_vec. unfold kvec at 1. cbn [repeat].
      destruct q; [congruence|]. cbn [coded_env e_prov p_single]. unfold coded_query. rewrite kid_kvec, Hc. reflexivity.
    - unfold dist_node_vec_byte. apply cget_Ok in Hc. rewrite Hc. cbn [bind]. now rewrite Hbs.
  Qed.

  Lemma knn_max_dist_byte_eq q0 maxd ef allow c : p_normalize (e_prov E) q0 <> [] -> cget cc (h_ep h) = Ok c ->
    knn_max_dist_byte bq bs E h cc q0 maxd ef allow = knn_max_dist E' h' q0 maxd ef allow.
  Proof.
    intros Hq Hc. apply cget_Ok in Hc. unfold knn_max_dist_byte, knn_max_dist.
    change (p_normalize (e_prov E') q0) with (p_normalize (e_prov E) q0). set (q := p_normalize (e_prov E) q0) in *.
    change (h_ep h') with (h_ep h). change (h_maxl h') with (h_maxl h).
    destruct (entry_byte (h_ep h) q c Hq Hc) as [-> ->]. cbn [bind].
    assert (Hep : coded (mkItem (h_ep h) (bq q c))) by (exists c; exact Hc).
    destruct (descend_byte_eq q (h_maxl h) _ _ Hep) as [-> Hk].
    destruct (descend E' h' q (h_maxl h) (h_ep h) (bq q c)) as [[e d]|x| |]; cbn [bind fst snd]; try reflexivity.
    destruct (layer_byte q ef 0 allow _ (single_coded _ (Hk e d eq_refl))) as [-> _]. reflexivity.
  Qed.

  (** Without a code for the entry point there is no answer. *)
  Lemma knn_max_dist_no_code q0 maxd ef allow r : knn_max_dist_byte bq bs E h cc q0 maxd ef allow = Ok r ->
    exists c, cget cc (h_ep h) = Ok c.
  Proof.
    unfold knn_max_dist_byte, dist_node_vec_byte. destruct (cget cc (h_ep h)) as [c|e| |]; cbn [bind]; try discriminate. eauto.
  Qed.

  (** With a vertex for every code the two descents of knnSearchByVector agree. *)
  Hypothesis Hcodes : forall id c, mget id (cc_slots cc) = Some c -> exists v, node_by_id h id = Some v.

  Lemma pick_same l : all_coded l -> pick_entry h l = pick_entry h' l.
  Proof.
    induction l as [|x l IH]; intros Hl; cbn [pick_entry]; [reflexivity|].
    destruct (Hl x (or_introl eq_refl)) as [c Hc]. destruct (Hcodes _ _ Hc) as [v Hv].
    rewrite node_recoded, Hc, Hv. unfold recode. rewrite Hv. cbn [v_maint].
    destruct (v_maint v); [apply IH; intros y Hy; apply Hl; now right|reflexivity].
  Qed.
  Lemma pick_In l x : pick_entry h' l = Some x -> In x l.
  Proof.
    induction l as [|y l IH]; cbn [pick_entry]; [discriminate|].
    destruct (node_by_id h' (it_id y)) as [v|]; [destruct (v_maint v)|]; intros H; try (right; now apply IH).
    injection H as <-. now left.
  Qed.
  Lemma descend_maint_byte_eq q l : forall ep epd, coded (mkItem ep epd) ->
    descend_maint_byte bq E h cc q l ep epd = descend_maint E' h' q l ep epd /\
    (forall e d, descend_maint E' h' q l ep epd = Ok (e, d) -> coded (mkItem e d)).
  Proof.
    induction l as [|l IH]; intros ep epd Hep; cbn [descend_maint_byte descend_maint]; [split; [reflexivity|now intros e d [= <- <-]]|].
    destruct (layer_byte q 1 (Datatypes.S l) None _ (single_coded _ Hep)) as [-> Hk].
    destruct (search_layer E' h' q 1 (Datatypes.S l) None _) as [r|e| |]; cbn [bind]; try (split; [reflexivity|discriminate]).
    assert (Hd : all_coded (pq_drain less_max r)) by (intros x Hx; apply (Hk r eq_refl); eapply Permutation_in; [symmetry; apply drain_perm|exact Hx]).
    rewrite (pick_same _ Hd). destruct (pick_entry h' (pq_drain less_max r)) as [best|] eqn:F; [|apply IH; exact Hep].
    apply IH. exact (Hd best (pick_In _ _ F)).
  Qed.

  Lemma knn_search_byte_eq q k ef allow c : q <> [] -> cget cc (h_ep h) = Ok c ->
    knn_search_byte bq bs E h cc q k ef allow = knn_search E' h' q k ef allow.
  Proof.
    intros Hq Hc. apply cget_Ok in Hc. unfold knn_search_byte, knn_search. rewrite recoded_empty. destruct (is_empty h); [reflexivity|].
    change (h_ep h') with (h_ep h). change (h_maxl h') with (h_maxl h).
    destruct (entry_byte (h_ep h) q c Hq Hc) as [-> ->]. cbn [bind].
    assert (Hep : coded (mkItem (h_ep h) (bq q c))) by (exists c; exact Hc).
    destruct (descend_maint_byte_eq q (h_maxl h) _ _ Hep) as [-> Hk].
    destruct (descend_maint E' h' q (h_maxl h) (h_ep h) (bq q c)) as [[e d]|x| |]; cbn [bind fst snd]; try reflexivity.
    destruct (layer_byte q ef 0 allow _ (single_coded _ (Hk e d eq_refl))) as [-> _]. reflexivity.
  Qed.
End CompSearchProofs.

(** What the recoded index says about the index itself. *)
Section Back.
  Variable C : Type.
  Variable bq : vec -> C -> f32.
  Variable E : env.
  Variable h : hnsw.
  Variable cc : ccache C.
  Local Notation h' := (recoded C h cc).
  Local Notation E' := (coded_env C bq E cc).

  Lemma recoded_sym : prov_sym (e_prov E').
  Proof. intros a b. reflexivity. Qed.
  Lemma recoded_sched : sched_ok E -> sched_ok E'.
  Proof. intros H l f xs. apply H. Qed.

  Lemma recoded_dist q id d : true_dist (e_prov E') h' q id d <-> exists c, mget id (cc_slots cc) = Some c /\ d = bq q c.
  Proof.
    unfold true_dist. rewrite node_recoded. split.
    - intros (v & Hv & Hd). destruct (mget id (cc_slots cc)) as [c|] eqn:F; [|discriminate]. injection Hv as <-.
      rewrite recode_vec in Hd. cbn [coded_env e_prov p_query] in Hd. unfold coded_query in Hd. rewrite kid_kvec, F in Hd.
      exists c. split; [reflexivity|]. cbn in Hd. congruence.
    - intros (c & F & ->). rewrite F. eexists. split; [reflexivity|]. rewrite recode_vec. cbn [coded_env e_prov p_query].
      unfold coded_query. now rewrite kid_kvec, F.
  Qed.

  Lemma recoded_reach level a b : reach h' level a b -> reach h level a b.
  Proof.
    induction 1 as [|b v conns c Hr IH Hv Hl Hc Hin]; [constructor|].
    rewrite node_recoded in Hv. destruct (mget b (cc_slots cc)) as [code|]; [|discriminate]. injection Hv as <-.
    unfold recode, conns_at in *. destruct (node_by_id h b) as [v|] eqn:G; cbn [v_level v_conns] in *.
    - econstructor; eauto.
    - destruct level as [|level]; [|lia]. cbn in Hc. injection Hc as <-. destruct Hin.
  Qed.
  Lemma recoded_ldown l a b : ldown h' l a b -> ldown h l a b.
  Proof. induction 1 as [a b H|l a b c H _ IH]; [apply ld_ground|eapply ld_layer; [|exact IH]]; now apply recoded_reach. Qed.

  (** All links lead through vertices with codes. *)
  Lemma reach_recoded level a b : (forall id v, node_by_id h id = Some v -> exists c, mget id (cc_slots cc) = Some c) ->
    reach h level a b -> reach h' level a b.
  Proof.
    intros Hall. induction 1 as [|b v conns c Hr IH Hv Hl Hc Hin]; [constructor|].
    destruct (Hall _ _ Hv) as [code Hcode].
    apply (reach_step h' level a b (recode h b) conns c IH).
    - now rewrite node_recoded, Hcode.
    - unfold recode. rewrite Hv. exact Hl.
    - unfold recode, conns_at. rewrite Hv. exact Hc.
    - exact Hin.
  Qed.

  Lemma recoded_small : (forall id c, mget id (cc_slots cc) = Some c -> (id < e_vcap E)%N) -> ids_small E' h'.
  Proof.
    intros H id v Hv. rewrite node_recoded in Hv. destruct (mget id (cc_slots cc)) as [c|] eqn:F; [|discriminate]. exact (H id c F).
  Qed.
  Lemma recoded_levels : wf_levels h -> wf_levels h'.
  Proof.
    intros H id v Hv. rewrite node_recoded in Hv. destruct (mget id (cc_slots cc)) as [c|]; [|discriminate]. injection Hv as <-.
    unfold recode. destruct (node_by_id h id) as [v|] eqn:G; cbn; [exact (H id v G)|lia].
  Qed.
End Back.
