(** A query only looks at vertices reachable from the entry point: two indexes
    that agree on a link-closed set of vertices containing the entry point give
    the same set of possible answers.

    The schedule oracle is indexed by the remaining fuel, which depends on the
    number of stored vertices, so "the same" means: for every schedule of one
    index there is a schedule of the other with the same result. *)
From Verif Require Import Base F32 PQ PQProofs Graph Search SearchProofs SearchLayer SearchKnn.

(** [E] with its schedule read [F1 - F2] iterations away. *)
Definition shift_env (F1 F2 : nat) (E : env) : env :=
  mkEnv (e_prov E) (e_vcap E) (fun level f => e_sched E level (f + F1 - F2)).

Lemma shift_sched_ok F1 F2 E : sched_ok E -> sched_ok (shift_env F1 F2 E).
Proof. intros H level f xs. apply H. Qed.

(** What a query reads of a vertex: not the maintenance and dirty flags. *)
Definition look (h : hnsw) (id : N) : option (nat * list (list N) * vec) :=
  option_map (fun v => (v_level v, v_conns v, v_vec v)) (node_by_id h id).

Lemma look_cases h h' j : look h' j = look h j ->
  (node_by_id h' j = None /\ node_by_id h j = None) \/
  exists v' v, node_by_id h' j = Some v' /\ node_by_id h j = Some v /\
    v_level v' = v_level v /\ v_conns v' = v_conns v /\ v_vec v' = v_vec v.
Proof.
  unfold look. destruct (node_by_id h' j) as [v'|], (node_by_id h j) as [v|]; cbn; try discriminate; [|auto].
  intros [= H1 H2 H3]. right. exists v', v. auto.
Qed.

Section Cong.
  Variable E : env.
  Variables h h' : hnsw.
  Variable A : N -> Prop.
  Hypothesis Hag : forall j, A j -> look h' j = look h j.
  Hypothesis Hclosed : forall j v l cs c, A j -> node_by_id h j = Some v ->
    nth_error (v_conns v) l = Some cs -> In c cs -> A c.
  Hypothesis Htomb : h_tomb h' = h_tomb h.

  Variables F1 F2 : nat.
  Local Notation E' := (shift_env F1 F2 E).

  Definition inA (l : list item) : Prop := forall x, In x l -> A (it_id x).

  Lemma nd_cong q ids : (forall j, In j ids -> A j) ->
    neighbour_dists E h' q ids = neighbour_dists E' h q ids.
  Proof.
    induction ids as [|i ids IH]; intros H; cbn [neighbour_dists]; [reflexivity|].
    rewrite IH by (intros j Hj; apply H; now right).
    unfold dist_float_node.
    destruct (look_cases h h' i (Hag i (H i (or_introl eq_refl)))) as [[-> ->]|(v' & v & -> & -> & _ & _ & ->)]; reflexivity.
  Qed.

  Lemma step_cong ef level allow s nd : step_nd h' ef level allow s nd = step_nd h ef level allow s nd.
  Proof. unfold step_nd, has_tombstone. rewrite Htomb. reflexivity. Qed.

  Lemma fold_cong ef level allow nds : forall s,
    fold_left (step_nd h' ef level allow) nds s = fold_left (step_nd h ef level allow) nds s.
  Proof. induction nds as [|nd nds IH]; intros s; cbn; [reflexivity|]. rewrite step_cong. apply IH. Qed.

  Lemma inA_insert less x l : A (it_id x) -> inA l -> inA (pq_insert less x l).
  Proof. intros Hx Hl y Hy. apply insert_In in Hy. destruct Hy as [->|Hy]; auto. Qed.

  Lemma inA_pop (less : item -> item -> bool) l x l' :
    inA l -> pq_pop less l = Some (x, l') -> A (it_id x) /\ inA l'.
  Proof.
    intros Hl Hp. pose proof (pop_perm _ _ _ _ Hp) as Hpm. split.
    - apply Hl. eapply Permutation_in; [symmetry; exact Hpm|now left].
    - intros y Hy. apply Hl. eapply Permutation_in; [symmetry; exact Hpm|now right].
  Qed.

  Definition sA (s : sst) : Prop := inA (s_cands s) /\ inA (s_results s).

  Lemma step_A ef level allow s nd : A (it_id nd) -> sA s -> sA (step_nd h ef level allow s nd).
  Proof.
    intros Hn [Hc Hr]. unfold step_nd. destruct (_ || _); [|split; auto].
    destruct (negb (allowed level allow (it_id nd))); [split; cbn; auto using inA_insert|].
    destruct (has_tombstone h (it_id nd)); [split; cbn; auto using inA_insert|].
    split; cbn [s_cands s_results]; [auto using inA_insert|].
    assert (Hi : inA (pq_insert less_max nd (s_results s))) by auto using inA_insert.
    destruct (ef <? _)%Z; [|exact Hi].
    destruct (pq_pop less_max _) as [[y r]|] eqn:Ep; [|exact Hi].
    exact (proj2 (inA_pop _ _ _ _ Hi Ep)).
  Qed.

  Lemma fold_A ef level allow nds : forall s, (forall x, In x nds -> A (it_id x)) -> sA s ->
    sA (fold_left (step_nd h ef level allow) nds s).
  Proof.
    induction nds as [|nd nds IH]; intros s Hn Hs; cbn; [exact Hs|].
    apply IH; [intros x Hx; apply Hn; now right|]. apply step_A; auto. apply Hn. now left.
  Qed.

  Lemma loop_cong q ef level allow : sched_ok E -> forall f2 f1 s,
    f1 = f2 + F1 - F2 -> F2 <= f2 + F1 -> sA s ->
    search_loop E h' q ef level allow f1 s <> OutOfFuel ->
    search_loop E' h q ef level allow f2 s <> OutOfFuel ->
    search_loop E h' q ef level allow f1 s = search_loop E' h q ef level allow f2 s /\
    (forall s', search_loop E' h q ef level allow f2 s = Ok s' -> sA s').
  Proof.
    intros Hsc. induction f2 as [|f2 IH]; intros f1 s Hf Hle Hs H1 H2; [cbn in H2; congruence|].
    destruct f1 as [|f1]; [cbn in H1; congruence|].
    cbn [search_loop] in *. destruct Hs as [Hc Hr].
    destruct (pq_pop less_min (s_cands s)) as [[c cands']|] eqn:Ep.
    2:{ split; [reflexivity|]. intros s' Es; inversion Es; subst. split; auto. }
    destruct (inA_pop _ _ _ _ Hc Ep) as [Hc1 Hc2].
    assert (Hs1 : sA (mkS cands' (s_results s) (s_worst s) (s_visited s))) by (split; auto).
    destruct (fgt (it_dist c) (s_worst s) && _).
    { split; [reflexivity|]. intros s' Es; inversion Es; subst. exact Hs1. }
    assert (Hsub : f1 = f2 + F1 - F2 /\ F2 <= f2 + F1) by lia. destruct Hsub as [Hf' Hle'].
    destruct (look_cases h h' _ (Hag _ Hc1)) as [[E1 E2]|(v' & v & E1 & Ev & Hlv & Hcv & _)];
      [rewrite E1, E2 in *; apply IH; auto|]. rewrite E1, Ev in *. unfold conns_at in *. rewrite Hlv, Hcv in *.
    destruct (Nat.ltb (v_level v) level); [apply IH; auto|].
    destruct (nth_error (v_conns v) level) as [conns|] eqn:Ec; [|split; [reflexivity|discriminate]].
    destruct (fresh conns (s_visited s)) as [ids vis'] eqn:Ef.
    assert (Hids : forall j, In j ids -> A j).
    { intros j Hj. destruct (fresh_spec _ _ _ _ Ef) as (_ & Hincl & _).
      eapply Hclosed; eauto. }
    rewrite (nd_cong q ids Hids) in *. cbn [shift_env e_sched] in *.
    replace (f2 + F1 - F2) with f1 in * by exact Hf'.
    rewrite fold_cong in *.
    apply IH; auto. apply fold_A; [|split; auto].
    intros x Hx. apply (Permutation_in _ (Permutation_sym (Hsc level f1 _))) in Hx.
    apply neighbour_dists_spec in Hx. apply Hids. tauto.
  Qed.

  Hypothesis HF1 : F1 = S (1 + length (stored_ids h')).
  Hypothesis HF2 : F2 = S (1 + length (stored_ids h)).

  Lemma layer_cong q ef level allow ep : sched_ok E -> A (it_id ep) ->
    search_layer E h' q ef level allow (pq_insert less_min ep []) =
    search_layer E' h q ef level allow (pq_insert less_min ep []) /\
    (forall r, search_layer E' h q ef level allow (pq_insert less_min ep []) = Ok r -> inA r).
  Proof.
    intros Hsc Hep.
    pose proof (layer_no_fuel E h' q ef level allow ep Hsc) as N1.
    pose proof (layer_no_fuel E' h q ef level allow ep (shift_sched_ok F1 F2 E Hsc)) as N2.
    rewrite !layer_single in *.
    assert (Hi : init_results h' level allow ep = init_results h level allow ep).
    { unfold init_results, has_tombstone. now rewrite Htomb. }
    rewrite Hi in *.
    assert (HiA : inA (init_results h level allow ep)).
    { destruct (init_results_cases h level allow ep) as [[-> _]|[-> _]]; intros x Hx; [|destruct Hx].
      destruct Hx as [<-|[]]. exact Hep. }
    assert (Hw : worst_dist E h' q (init_results h level allow ep) =
                 worst_dist E' h q (init_results h level allow ep)).
    { unfold worst_dist. destruct (init_results_cases h level allow ep) as [[-> _]|[-> _]]; cbn [pq_top];
        [|reflexivity]. unfold dist_float_node.
      destruct (look_cases h h' _ (Hag _ Hep)) as [[-> ->]|(v' & v & -> & -> & _ & _ & ->)]; reflexivity. }
    rewrite Hw in *.
    destruct (worst_dist E' h q (init_results h level allow ep)) as [w|e| |]; cbn [bind] in *;
      try (split; [reflexivity|discriminate]).
    assert (Hinit : init_state E h' level allow ep w = init_state E' h level allow ep w).
    { unfold init_state, init_visited. rewrite Hi. reflexivity. }
    rewrite Hinit in *. rewrite <- HF1, <- HF2 in *.
    assert (Hs : sA (init_state E' h level allow ep w)).
    { split; cbn; [|exact HiA]. intros x [<-|[]]. exact Hep. }
    destruct (loop_cong q ef level allow Hsc F2 F1 (init_state E' h level allow ep w)) as [Heq Hres];
      try lia; auto.
    { intros Hx. rewrite Hx in N1. cbn in N1. congruence. }
    { intros Hx. rewrite Hx in N2. cbn in N2. congruence. }
    rewrite Heq. split; [reflexivity|]. intros r Hr. apply bind_Ok in Hr.
    destruct Hr as (s & Hs1 & Hs2). inversion Hs2; subst. destruct (Hres _ Hs1). auto.
  Qed.

  Lemma descend_cong q l : sched_ok E -> forall ep epd, A ep ->
    descend E h' q l ep epd = descend E' h q l ep epd /\
    (forall e d, descend E' h q l ep epd = Ok (e, d) -> A e).
  Proof.
    intros Hsc. induction l as [|l IH]; intros ep epd Hep; cbn [descend].
    { split; [reflexivity|]. intros e d He; inversion He; subst; exact Hep. }
    destruct (layer_cong q 1 (S l) None (mkItem ep epd) Hsc Hep) as [Heq Hin]. rewrite Heq.
    destruct (search_layer E' h q 1 (S l) None _) as [r|e| |]; cbn [bind];
      try (split; [reflexivity|discriminate]).
    specialize (Hin r eq_refl).
    destruct (pq_pop less_max r) as [[best r']|] eqn:Ep; [|apply IH; exact Hep].
    apply IH. exact (proj1 (inA_pop _ _ _ _ Hin Ep)).
  Qed.

  Hypothesis Hep_eq : h_ep h' = h_ep h.
  Hypothesis Hmaxl : h_maxl h' = h_maxl h.
  Hypothesis HepA : A (h_ep h).

  Lemma knn_max_dist_cong q0 maxd ef allow : sched_ok E ->
    knn_max_dist E h' q0 maxd ef allow = knn_max_dist E' h q0 maxd ef allow.
  Proof.
    intros Hsc. unfold knn_max_dist. cbn [e_prov shift_env]. rewrite Hep_eq, Hmaxl.
    set (q := p_normalize _ q0).
    assert (Hd : dist_node_vec (e_prov E) h' (h_ep h) q = dist_node_vec (e_prov E) h (h_ep h) q).
    { unfold dist_node_vec.
      destruct (look_cases h h' _ (Hag _ HepA)) as [[-> ->]|(v' & v & -> & -> & _ & _ & ->)]; reflexivity. }
    rewrite Hd. destruct (dist_node_vec (e_prov E) h (h_ep h) q) as [d0|e| |]; cbn [bind]; try reflexivity.
    destruct (descend_cong q (h_maxl h) Hsc (h_ep h) d0 HepA) as [Heq Hin]. rewrite Heq.
    destruct (descend E' h q (h_maxl h) (h_ep h) d0) as [[e d]|e| |]; cbn [bind]; try reflexivity.
    destruct (layer_cong q ef 0 allow (mkItem (fst (e, d)) (snd (e, d))) Hsc (Hin e d eq_refl)) as [Heq2 _].
    rewrite Heq2. reflexivity.
  Qed.
End Cong.

(** [out] is a possible answer of the query under the provider and visited-list
    length of [E]. *)
Definition possible (E : env) (h : hnsw) (q0 : vec) (maxd : f32) (ef : Z)
           (allow : option (N -> bool)) (out : res (list N * list f32)) : Prop :=
  exists sched, let E1 := mkEnv (e_prov E) (e_vcap E) sched in
    sched_ok E1 /\ knn_max_dist E1 h q0 maxd ef allow = out.

Lemma possible_look E h h' (A : N -> Prop) q0 maxd ef allow out :
  (forall j, A j -> look h' j = look h j) ->
  (forall j v l cs c, A j -> node_by_id h j = Some v ->
     nth_error (v_conns v) l = Some cs -> In c cs -> A c) ->
  h_tomb h' = h_tomb h -> h_ep h' = h_ep h -> h_maxl h' = h_maxl h -> A (h_ep h) ->
  possible E h' q0 maxd ef allow out <-> possible E h q0 maxd ef allow out.
Proof.
  intros Hag Hcl Ht He Hm HA. split; intros (sched & Hsc & Hk).
  - set (E1 := mkEnv (e_prov E) (e_vcap E) sched) in *.
    set (E2 := shift_env (S (1 + length (stored_ids h'))) (S (1 + length (stored_ids h))) E1).
    exists (e_sched E2). split; [exact (shift_sched_ok _ _ E1 Hsc)|].
    rewrite <- Hk. symmetry.
    apply (knn_max_dist_cong E1 h h' A Hag Hcl Ht _ _ eq_refl eq_refl He Hm HA q0 maxd ef allow Hsc).
  - set (E1 := mkEnv (e_prov E) (e_vcap E) sched) in *.
    set (E2 := shift_env (S (1 + length (stored_ids h))) (S (1 + length (stored_ids h'))) E1).
    exists (e_sched E2). split; [exact (shift_sched_ok _ _ E1 Hsc)|].
    rewrite <- Hk. symmetry.
    assert (Hag' : forall j, A j -> look h j = look h' j) by (intros j Hj; symmetry; auto).
    assert (Hcl' : forall j v l cs c, A j -> node_by_id h' j = Some v ->
      nth_error (v_conns v) l = Some cs -> In c cs -> A c).
    { intros j v l cs c Hj Hv.
      destruct (look_cases h h' j (Hag j Hj)) as [[X2 _]|(v' & w & X2 & X3 & _ & Hc & _)]; [congruence|].
      replace v with v' by congruence. rewrite Hc. eauto. }
    rewrite <- He in HA.
    apply (knn_max_dist_cong E1 h' h A Hag' Hcl' (eq_sym Ht) _ _ eq_refl eq_refl (eq_sym He) (eq_sym Hm) HA q0 maxd ef allow Hsc).
Qed.

Lemma possible_agree E h h' (A : N -> Prop) q0 maxd ef allow out :
  (forall j, A j -> node_by_id h' j = node_by_id h j) ->
  (forall j v l cs c, A j -> node_by_id h j = Some v ->
     nth_error (v_conns v) l = Some cs -> In c cs -> A c) ->
  h_tomb h' = h_tomb h -> h_ep h' = h_ep h -> h_maxl h' = h_maxl h -> A (h_ep h) ->
  possible E h' q0 maxd ef allow out <-> possible E h q0 maxd ef allow out.
Proof.
  intros Hag. apply possible_look. intros j Hj. unfold look. now rewrite Hag.
Qed.
