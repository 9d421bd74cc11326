(** While there are at most 2 * maximumConnections + 1 vectors no ground-layer
    list is ever pruned, so links are mutual and the ground layer connected. *)
From Coq Require Import Sorting.Sorted.
From Verif Require Import Base F32 PQ PQProofs Graph Search SearchProofs SearchLayer SearchKnn
  SearchCong Insert HeuristicProofs InsertProofs InsertHist InsertTotal InsertDim InsertSmall
  Distancer DistancerProofs PropDistancer InsertFacts.

(** A search from a live entry point finds something. *)
Lemma step_nonempty h ef level allow s nd : (1 <= ef)%Z ->
  s_results s <> [] -> s_results (step_nd h ef level allow s nd) <> [].
Proof.
  intros Hef Hs. unfold step_nd. destruct (_ || _); [|exact Hs].
  destruct (negb _); [exact Hs|]. destruct (has_tombstone _ _); [exact Hs|]. cbn [s_results].
  set (r1 := pq_insert less_max nd (s_results s)).
  assert (Hl : length r1 = S (length (s_results s))) by (symmetry; apply (Permutation_length (insert_perm less_max nd (s_results s)))).
  destruct (Z.ltb_spec ef (Z.of_nat (length r1))) as [Hlt|Hge].
  2:{ destruct r1; [discriminate Hl|discriminate]. }
  destruct (pq_pop less_max r1) as [[x r]|] eqn:Ep.
  2:{ destruct r1; [discriminate Hl|discriminate]. }
  apply pop_perm in Ep. apply Permutation_length in Ep. cbn in Ep.
  destruct r; [|discriminate]. cbn in Ep. lia.
Qed.

Lemma fold_nonempty h ef level allow nds : (1 <= ef)%Z -> forall s,
  s_results s <> [] -> s_results (fold_left (step_nd h ef level allow) nds s) <> [].
Proof. intros Hef. induction nds as [|nd nds IH]; intros s Hs; cbn; auto using step_nonempty. Qed.

Lemma loop_nonempty E h q ef level allow : (1 <= ef)%Z -> forall f s s',
  s_results s <> [] -> search_loop E h q ef level allow f s = Ok s' -> s_results s' <> [].
Proof.
  intros Hef. induction f as [|f IH]; intros s s' Hs H; cbn [search_loop] in H; [discriminate|].
  destruct (pq_pop less_min (s_cands s)) as [[c cands']|]; [|inversion H; subst; exact Hs].
  destruct (_ && _); [inversion H; subst; exact Hs|].
  destruct (node_by_id h (it_id c)) as [v|]; [|eapply IH; [|exact H]; exact Hs].
  destruct (Nat.ltb (v_level v) level); [eapply IH; [|exact H]; exact Hs|].
  destruct (conns_at v level) as [conns|]; [|discriminate].
  destruct (fresh conns (s_visited s)) as [ids vis'].
  eapply IH; [|exact H]. apply fold_nonempty; auto.
Qed.

Lemma layer_nonempty E h q ef level ep r : (1 <= ef)%Z -> has_tombstone h (it_id ep) = false ->
  search_layer E h q ef level None (pq_insert less_min ep []) = Ok r -> r <> [].
Proof.
  intros Hef Ht H. rewrite layer_single in H. apply bind_Ok in H. destruct H as (w & _ & H).
  apply bind_Ok in H. destruct H as (s & Hl & H). inversion H; subst.
  eapply loop_nonempty; [exact Hef| |exact Hl]. unfold init_state, init_results. cbn [s_results].
  unfold allowed. destruct level; rewrite Ht; discriminate.
Qed.

Lemma heur_loop_nonempty P deny vecs max l : forall ret out,
  heur_loop P deny vecs max l ret = Ok out -> ret <> [] -> out <> [].
Proof.
  intros ret out H Hr. apply heur_loop_spec in H. destruct H as (k & -> & _). destruct ret; [congruence|discriminate].
Qed.

Lemma heuristic_nonempty P get input max r : 1 <= max -> input <> [] ->
  heuristic P get (fun _ => false) input max = Ok r -> r <> [].
Proof.
  intros Hm Hi. unfold heuristic. destruct (Nat.ltb (length input) max); [intros H; inversion H; subst; exact Hi|].
  intros H. apply bind_Ok in H. destruct H as (vecs & _ & H). apply bind_Ok in H. destruct H as (ret & Hl & H).
  inversion H; subst; clear H.
  assert (Hret : ret <> []).
  { set (cl := fold_left _ _ _) in Hl.
    assert (Hc : pq_drain less_minx cl <> []).
    { intros E. apply (f_equal (@length itemx)) in E. rewrite drain_length in E. unfold cl in E.
      rewrite <- (Permutation_length (fold_insert_perm less_minx (with_index 0 (pq_drain less_max input)) [])) in E.
      rewrite app_length in E. assert (Hw : forall l i, length (with_index i l) = length l).
      { induction l as [|x l IH]; intros i; cbn; auto. }
      rewrite Hw, drain_length in E. destruct input; [congruence|cbn in E; lia]. }
    destruct (pq_drain less_minx cl) as [|c l]; [congruence|]. cbn [heur_loop length] in Hl.
    destruct (Nat.leb_spec max 0); [lia|].
    destruct (nth_error vecs (ix_index c)) as [[cv|]|]; try discriminate.
    eapply heur_loop_nonempty; [exact Hl|]. cbn. discriminate. }
  intros E. apply (f_equal (@length item)) in E.
  assert (Hf : forall (xs : list itemx) (l : list item), length (fold_left (fun q x => pq_insert less_max (mkItem (ix_id x) (ix_dist x)) q) xs l)
            = length xs + length l).
  { induction xs as [|x xs IH]; intros l; cbn [fold_left length]; [reflexivity|]. rewrite IH.
    rewrite <- (Permutation_length (insert_perm less_max (mkItem (ix_id x) (ix_dist x)) l)). cbn. lia. }
  rewrite Hf in E. destruct ret; [congruence|cbn in E; lia].
Qed.

Lemma choose_nonempty I h nid q l ep nbs ep' : (1 <= i_efc I)%Z -> 1 <= i_M I -> h_tomb h = [] ->
  choose_neighbours I h nid q l ep = Ok (ep', nbs) -> nbs <> [].
Proof.
  intros He HM HT H. unfold choose_neighbours in H.
  apply bind_Ok in H. destruct H as (e & _ & H).
  apply bind_Ok in H. destruct H as (r & Hr & H).
  apply bind_Ok in H. destruct H as (r' & Hr' & H). inversion H; subst.
  apply layer_nonempty in Hr; [|exact He|unfold has_tombstone; rewrite HT; reflexivity].
  apply heuristic_nonempty in Hr'; auto. intros E. apply (f_equal (@length N)) in E.
  rewrite map_length, drain_length in E. destruct r'; [congruence|discriminate].
Qed.

(** No ground-layer link is lost. *)
Definition keeps (h h' : hnsw) : Prop := forall a b, glink h a b -> glink h' a b.

(** Mutual ground-layer links and reachability. *)
Definition mutual (h : hnsw) : Prop := forall a b, glink h a b -> glink h b a.

Definition grounded (x : option N) (h : hnsw) : Prop :=
  forall a b va vb, node_by_id h a = Some va -> node_by_id h b = Some vb ->
    Some a <> x -> Some b <> x -> reach h 0 a b.

Lemma reach_glink h a b c : reach h 0 a b -> glink h b c -> reach h 0 a c.
Proof.
  intros H (v & cs & Hv & Hl & Hc). eapply reach_step; [exact H|exact Hv|lia|exact Hl|exact Hc].
Qed.

Lemma reach_mono h h' a b : (forall x y, glink h x y -> glink h' x y) -> reach h 0 a b -> reach h' 0 a b.
Proof.
  intros Hg H. induction H as [|b v conns c H IH Hv Hl Hc Hin]; [constructor|].
  eapply reach_glink; [exact IH|]. apply Hg. exists v, conns. auto.
Qed.

Lemma glink_lrel_back l h h' a b : lrel (S l) h h' -> glink h' a b -> glink h a b.
Proof.
  intros R (v & cs & Hv & Hl & Hin). destruct (lr_bw _ _ _ R _ _ Hv) as (v0 & Hv0).
  destruct (lr_fw _ _ _ R _ _ Hv0) as (v' & Hv' & _ & _ & _ & Hc). rewrite Hv in Hv'. injection Hv' as <-.
  exists v0, cs. rewrite <- Hc by lia. auto.
Qed.

Lemma grounded_with_ep h id t : mutual h /\ grounded None h ->
  mutual (with_ep h id t) /\ grounded None (with_ep h id t).
Proof.
  intros [Hm Hg]. split; [exact Hm|]. intros a b va vb Ha Hb Hax Hbx.
  apply (reach_mono h (with_ep h id t)); [intros x y H; exact H|]. eapply Hg; eauto.
Qed.

(** The new vertex is appended to a list that is not full. *)
Lemma connect_short I h nid l nb v cs :
  h_tomb h = [] -> nb <> nid -> node_by_id h nb = Some v -> v_id v = nb -> l <= v_level v ->
  nth_error (v_conns v) l = Some cs -> length cs < max_conns I l ->
  exists h', connect_neighbor I h nid l nb = (h', Ok tt) /\
    (forall j, j <> nb -> node_by_id h' j = node_by_id h j) /\
    node_by_id h' nb = Some (set_conns (set_committed v false) (upd (v_conns v) l (cs ++ [nid]))).
Proof. exact (connect_neighbor_short I 1 (le_n 1) [] (Nat.le_0_l _) h nid l nb v cs). Qed.

Section Find.
  Variable I : ienv.
  Local Notation E := (i_env I).
  Local Notation P := (e_prov (i_env I)).
  Hypothesis Hsc : sched_ok E.
  Hypothesis Hsym : prov_sym P.
  Hypothesis Hdim : prov_dim P.
  Variable n : nat.
  Hypothesis Hn : 0 < n.
  Variable D : list N.
  Hypothesis HM : 1 <= i_M I.
  Hypothesis HD : length D <= 2 * i_M I + 1.
  Hypothesis Hefc : (1 <= i_efc I)%Z.
  Hypothesis Hvs : src_ok n D I.

  Lemma connect_ground nid nbs : forall h,
    linking I nid 0 h -> h_tomb h = [] -> NoDup nbs -> lin D h -> In nid D ->
    (forall c, In c nbs -> c <> nid /\ In c D /\ exists v cs, node_by_id h c = Some v /\
       nth_error (v_conns v) 0 = Some cs /\ ~ In nid cs) ->
    exists h', connect_all I h nid 0 nbs = (h', Ok tt) /\
      (forall j, ~ In j nbs -> node_by_id h' j = node_by_id h j) /\
      (forall c, In c nbs -> exists v cs v', node_by_id h c = Some v /\ nth_error (v_conns v) 0 = Some cs /\
         node_by_id h' c = Some v' /\ nth_error (v_conns v') 0 = Some (cs ++ [nid])).
  Proof.
    induction nbs as [|nb nbs IH]; intros h Hlk HT Hnd HL Hnid Hc; cbn [connect_all].
    { exists h. split; [reflexivity|]. split; [auto|]. intros c []. }
    inversion Hnd as [|x y Hni Hnd']; subst.
    destruct (Hc nb (or_introl eq_refl)) as (Hne & HnD & v & cs & Hv & Hcs & Hnin).
    pose proof (lk_w _ _ _ _ Hlk) as W.
    pose proof (connect_neighbor_inv I h nid 0 nb v cs Hlk Hne Hv (Nat.le_0_l _) Hcs Hnin) as (L1 & R1 & E1 & O1).
    assert (Hlen : length cs < max_conns I 0).
    { assert (Hx : length (nid :: nb :: cs) <= length D).
      { apply NoDup_incl_length.
        - constructor; [intros [E|Hi]; [congruence|contradiction]|].
          constructor; [|eapply (w_nodup _ W); eauto].
          intros Hi. destruct (w_link _ W _ _ _ _ _ Hv Hcs Hi) as [Hx _]. congruence.
        - intros z [<-|[<-|Hz]]; auto. eapply HL; eauto. }
      cbn in *. lia. }
    destruct (connect_short I h nid 0 nb v cs HT Hne Hv (w_id _ W _ _ Hv) (Nat.le_0_l _) Hcs Hlen)
      as (h1 & Hcn & Ho & Hnb).
    rewrite Hcn in *. cbn [fst] in *.
    assert (HT1 : h_tomb h1 = []) by (rewrite (proj1 (lr_tomb _ _ _ R1)); exact HT).
    assert (HL1 : lin D h1) by (eapply lin_newl; eauto; intros c <-; exact Hnid).
    destruct (IH h1 L1 HT1 Hnd' HL1 Hnid) as (h2 & Hca & H1 & H2).
    { intros c Hin. destruct (Hc c (or_intror Hin)) as (Hne' & HcD & v' & cs' & Hv' & R).
      split; [exact Hne'|]. split; [exact HcD|]. exists v', cs'. rewrite Ho by (intros ->; contradiction). auto. }
    exists h2. split; [exact Hca|]. split.
    - intros j Hj. rewrite H1 by (intros Hin; apply Hj; now right). apply Ho. intros ->. apply Hj. now left.
    - intros c [<-|Hin].
      + exists v, cs, (set_conns (set_committed v false) (upd (v_conns v) 0 (cs ++ [nid]))).
        split; [exact Hv|]. split; [exact Hcs|]. split; [rewrite H1 by exact Hni; exact Hnb|].
        cbn [v_conns set_conns]. apply nth_error_upd_eq. apply nth_error_Some. congruence.
      + destruct (H2 c Hin) as (v0 & cs0 & v1 & A1 & A2). exists v0, cs0, v1.
        rewrite Ho in A1 by (intros ->; contradiction). auto.
  Qed.

  Lemma do_at_level_ground h nid q ep vep :
    linking I nid 0 h -> unlinked_upto 0 nid h -> ep <> nid -> node_by_id h ep = Some vep ->
    lin D h -> ldim n D h -> length q = n -> In nid D -> In ep D -> h_tomb h = [] ->
    (forall v cs, node_by_id h nid = Some v -> nth_error (v_conns v) 0 = Some cs -> cs = []) ->
    mutual h -> grounded (Some nid) h ->
    let h' := fst (do_at_level I h nid q 0 ep) in keeps h h' /\ mutual h' /\ grounded None h'.
  Proof.
    intros Hlk Hu Hne Hep HL Hld Hq Hnid HepD HT Hnil Hmu Hgr.
    pose proof Hlk as [W S (vn & Hvn & Hln)].
    destruct (choose_total I Hsc Hsym Hdim n Hn D Hvs h nid q 0 ep vep W S HL Hld Hq Hnid Hu Hne HepD
                Hep (Nat.le_0_l _)) as (nbs & Ec).
    destruct (choose_sound I Hsc Hsym _ _ _ _ _ _ _ _ W S Hu Hne Hep (Nat.le_0_l _) Ec) as (_ & Hnd & Hin & Hre).
    pose proof (choose_nonempty I h nid q 0 ep nbs ep Hefc HM HT Ec) as Hnn.
    cbv zeta. unfold do_at_level. rewrite Ec, Hvn. unfold set_conns_at.
    pose proof (w_len _ W _ _ Hvn) as Hlen. pose proof (w_id _ W _ _ Hvn) as Hid.
    destruct (Nat.ltb_spec 0 (length (v_conns vn))) as [_|Hge]; [|lia].
    assert (Heq : put_node h (set_conns vn (upd (v_conns vn) 0 nbs)) =
              put_node h (set_conns (set_committed vn (v_committed vn)) (upd (v_conns vn) 0 nbs))) by reflexivity.
    assert (Hvn' : node_by_id h (v_id vn) = Some vn) by now rewrite Hid.
    pose proof (lrel_put h 0 vn nbs (v_committed vn) Hvn') as R1. rewrite <- Heq in R1.
    assert (W1 : winv (put_node h (set_conns vn (upd (v_conns vn) 0 nbs)))).
    { rewrite Heq. apply winv_put_conns; auto. rewrite Hid. exact Hin. }
    set (h1 := put_node h _) in *.
    assert (Hn1 : node_by_id h1 nid = Some (set_conns vn (upd (v_conns vn) 0 nbs))).
    { unfold h1. rewrite node_put. cbn [v_id set_conns]. now rewrite Hid, N.eqb_refl. }
    assert (Ho1 : forall j, j <> nid -> node_by_id h1 j = node_by_id h j).
    { intros j Hj. unfold h1. apply node_put_ne. cbn. congruence. }
    assert (Hlk1 : linking I nid 0 h1).
    { constructor; auto; [eapply ids_small_lrel; eauto|]. exists (set_conns vn (upd (v_conns vn) 0 nbs)). auto. }
    assert (HnbD : forall c, In c nbs -> In c D).
    { intros c Hc. exact (reach_D D h 0 ep c HL HepD (Hre c Hc)). }
    assert (HL1 : lin D h1).
    { intros j v' l' cs2 c Hj Hc1 Hc2. unfold h1 in Hj. rewrite node_put in Hj. cbn [v_id set_conns] in Hj.
      destruct (N.eqb_spec j (v_id vn)) as [->|Hj2]; [|eapply HL; eauto].
      inversion Hj; subst v'. cbn [v_conns set_conns] in Hc1. rewrite nth_error_upd in Hc1.
      destruct (Nat.eqb_spec 0 l') as [<-|Hl']; [|eapply HL; eauto].
      destruct (Nat.ltb _ _); [|discriminate]. inversion Hc1; subst cs2. auto. }
    destruct (connect_ground nid nbs h1 Hlk1) as (h2 & Hca & Hout & Hinn); auto.
    { intros c Hc. destruct (Hin c Hc) as (Hcn & w & Hw & Hlw). split; [exact Hcn|]. split; [auto|].
      pose proof (w_len _ W _ _ Hw) as Hlw2.
      destruct (nth_error (v_conns w) 0) as [cs|] eqn:En.
      2:{ apply nth_error_None in En. lia. }
      exists w, cs. rewrite Ho1 by exact Hcn. repeat split; auto. eapply Hu; eauto. }
    rewrite Hca. cbn [fst].
    assert (Hnin : ~ In nid nbs) by (intros Hi; destruct (Hin nid Hi) as [Hx _]; congruence).
    assert (Hn2 : node_by_id h2 nid = Some (set_conns vn (upd (v_conns vn) 0 nbs))) by (rewrite (Hout nid Hnin); exact Hn1).
    assert (Hst : forall j v, node_by_id h2 j = Some v -> exists v0, node_by_id h j = Some v0).
    { intros j v Hj. destruct (in_dec N.eq_dec j nbs) as [Hi|Hi].
      - destruct (Hin j Hi) as (_ & w & Hw & _). eauto.
      - rewrite (Hout j Hi) in Hj. destruct (N.eq_dec j nid) as [->|Hjn]; [eauto|]. rewrite (Ho1 j Hjn) in Hj. eauto. }
    assert (Hup : forall c, In c nbs -> glink h2 nid c).
    { intros c Hc. eexists _, nbs. split; [exact Hn2|]. split; [cbn [v_conns set_conns]; apply nth_error_upd_eq; lia|exact Hc]. }
    assert (Hdown : forall c, In c nbs -> glink h2 c nid).
    { intros c Hc. destruct (Hinn c Hc) as (v & cs & v' & _ & _ & B3 & B4). exists v', (cs ++ [nid]).
      split; [exact B3|]. split; [exact B4|]. apply in_or_app. right. now left. }
    assert (Hkeep : forall a b, glink h a b -> glink h2 a b).
    { intros a b (v & cs & Hv & Hl & Hb). destruct (N.eq_dec a nid) as [->|Han].
      { rewrite (Hnil v cs Hv Hl) in Hb. destruct Hb. }
      destruct (in_dec N.eq_dec a nbs) as [Hi|Hi].
      - destruct (Hinn a Hi) as (v0 & cs0 & v' & B1 & B2 & B3 & B4). rewrite (Ho1 a Han), Hv in B1.
        injection B1 as <-. rewrite Hl in B2. injection B2 as <-. exists v', (cs ++ [nid]).
        split; [exact B3|]. split; [exact B4|]. apply in_or_app. now left.
      - exists v, cs. rewrite (Hout a Hi), (Ho1 a Han). auto. }
    assert (Hback : forall a b, glink h2 a b -> glink h a b \/ (a = nid /\ In b nbs) \/ (b = nid /\ In a nbs)).
    { intros a b (v & cs & Hv & Hl & Hb). destruct (N.eq_dec a nid) as [->|Han].
      { rewrite Hn2 in Hv. injection Hv as <-. cbn [v_conns set_conns] in Hl.
        rewrite nth_error_upd_eq in Hl by lia. injection Hl as <-. auto. }
      destruct (in_dec N.eq_dec a nbs) as [Hi|Hi].
      - destruct (Hinn a Hi) as (v0 & cs0 & v' & B1 & B2 & B3 & B4). rewrite (Ho1 a Han) in B1.
        rewrite Hv in B3. injection B3 as <-. rewrite Hl in B4. injection B4 as ->.
        apply in_app_or in Hb. destruct Hb as [Hb|[<-|[]]]; [left|auto]. exists v0, cs0. auto.
      - left. exists v, cs. rewrite (Hout a Hi), (Ho1 a Han) in Hv. auto. }
    split; [exact Hkeep|]. split.
    - intros a b Hab. destruct (Hback a b Hab) as [H|[[-> H]|[-> H]]]; auto.
    - destruct nbs as [|c0 nbs']; [congruence|]. set (nbs := c0 :: nbs') in *.
      assert (Hc0 : In c0 nbs) by now left.
      destruct (Hin c0 Hc0) as (Hc0n & w0 & Hw0 & _).
      assert (Hgr2 : forall a b va vb, node_by_id h2 a = Some va -> node_by_id h2 b = Some vb ->
                a <> nid -> b <> nid -> reach h2 0 a b).
      { intros a b va vb Ha Hb Han Hbn. destruct (Hst _ _ Ha) as (va0 & Ha0). destruct (Hst _ _ Hb) as (vb0 & Hb0).
        apply (reach_mono h h2 a b Hkeep). eapply Hgr; eauto; congruence. }
      assert (Hw2 : exists w2, node_by_id h2 c0 = Some w2).
      { destruct (Hinn c0 Hc0) as (_ & _ & v' & _ & _ & B3 & _). eauto. }
      destruct Hw2 as (w2 & Hw2).
      intros a b va vb Ha Hb _ _.
      assert (Hto : reach h2 0 a nid).
      { destruct (N.eq_dec a nid) as [->|Han]; [constructor|].
        eapply reach_glink; [|exact (Hdown c0 Hc0)]. eapply Hgr2; eauto. }
      destruct (N.eq_dec b nid) as [->|Hbn]; [exact Hto|].
      destruct (N.eq_dec a nid) as [->|Han]; [|eapply Hgr2; eauto].
      assert (Hc : reach h2 0 nid c0) by (eapply reach_glink; [constructor|exact (Hup c0 Hc0)]).
      assert (Hcb : reach h2 0 c0 b) by (eapply Hgr2; eauto).
      clear - Hc Hcb. induction Hcb as [|b v conns c H IH Hv Hl Hcc Hi]; [exact Hc|].
      eapply reach_step; eauto.
  Qed.

  Lemma connect_levels_ground nid q l : forall h ep vep,
    linking I nid l h -> unlinked_upto l nid h -> ep <> nid ->
    node_by_id h ep = Some vep -> l <= v_level vep -> lin D h -> ldim n D h ->
    length q = n -> In nid D -> In ep D -> h_tomb h = [] ->
    (forall v cs, node_by_id h nid = Some v -> nth_error (v_conns v) 0 = Some cs -> cs = []) ->
    mutual h -> grounded (Some nid) h ->
    let h' := fst (connect_levels I h nid q l ep) in keeps h h' /\ mutual h' /\ grounded None h'.
  Proof.
    induction l as [|l IH]; intros h ep vep Hlk Hu Hne Hep Hl HL HDl Hq Hnid HepD HT Hnil Hmu Hgr; cbn [connect_levels].
    - pose proof (do_at_level_ground h nid q ep vep Hlk Hu Hne Hep HL HDl Hq Hnid HepD HT Hnil Hmu Hgr) as H.
      destruct (do_at_level I h nid q 0 ep) as [h' [x|e| |]]; exact H.
    - pose proof (do_at_level_total I Hsc Hsym Hdim n Hn D Hvs h nid q (S l) ep vep
                    Hlk Hu Hne Hep Hl HL HDl Hq Hnid HepD) as ((ep' & He & HepD') & HL' & HD').
      pose proof (do_at_level_inv I Hsc Hsym h nid q (S l) ep vep Hlk Hu Hne Hep Hl) as ([W1 S1 N1] & R1 & _ & Hok).
      destruct (do_at_level I h nid q (S l) ep) as [h' [x|e| |]]; cbn [fst snd] in *; try discriminate.
      inversion He; subst x. destruct (Hok ep' eq_refl) as (Hne' & v' & Hv' & Hl').
      assert (Hk1 : keeps h h') by (intros a b; apply (glink_lrel _ _ _ _ _ R1)).
      assert (HH : let h'' := fst (connect_levels I h' nid q l ep') in keeps h' h'' /\ mutual h'' /\ grounded None h'').
      2:{ cbv zeta in HH |- *. destruct HH as (K & HH). split; [|exact HH]. intros a b Hab. apply K, Hk1, Hab. }
      apply (IH h' ep' v'); auto; try lia.
      + constructor; auto. destruct N1 as (v & Hv & Hlv). exists v. split; [auto|lia].
      + eapply unlinked_lrel; eauto. intros id v l2 cs Hv Hl2. eapply Hu; eauto.
      + rewrite (proj1 (lr_tomb _ _ _ R1)). exact HT.
      + intros v cs Hv Hcs. destruct (lr_bw _ _ _ R1 _ _ Hv) as (v0 & Hv0).
        destruct (lr_fw _ _ _ R1 _ _ Hv0) as (v1 & Hv1 & _ & _ & _ & Hc). rewrite Hv in Hv1. injection Hv1 as <-.
        eapply Hnil; [exact Hv0|]. rewrite <- Hc by lia. exact Hcs.
      + intros a b Hab. apply (glink_lrel _ _ _ _ _ R1). apply Hmu. apply (glink_lrel_back _ _ _ _ _ R1). exact Hab.
      + intros a b va vb Ha Hb Hax Hbx.
        destruct (lr_bw _ _ _ R1 _ _ Ha) as (va0 & Ha0). destruct (lr_bw _ _ _ R1 _ _ Hb) as (vb0 & Hb0).
        apply (reach_mono h h'); [intros x y; apply (glink_lrel _ _ _ _ _ R1)|]. eapply Hgr; eauto.
  Qed.

  Lemma insert_linked_ground h id q t :
    winv h -> ids_small E h -> ep_top h -> unlinked id h -> h_ep h <> id -> (id < e_vcap E)%N ->
    (id < i_vcsize I)%N -> lin D h ->
    (forall j v, node_by_id h j = Some v -> In j D /\ j <> id /\ length (v_vec v) = n) ->
    length q = n -> In id D -> h_tomb h = [] -> mutual h -> grounded None h ->
    let h' := fst (insert_linked I h id q t) in keeps h h' /\ mutual h' /\ grounded None h'.
  Proof.
    intros W S (vep & Hep & Hmax) Hu Hne Hsm Hvc HL HD0 Hq Hid HT Hmu Hgr. unfold insert_linked.
    apply N.ltb_lt in Hvc. rewrite Hvc. cbn [negb].
    set (h1 := put_node h (new_vertex id q t)).
    assert (W1 : winv h1) by now apply winv_put_new.
    assert (S1 : ids_small E h1) by now apply ids_small_put.
    assert (U1 : unlinked id h1) by now apply unlinked_put_new.
    assert (Hep1 : node_by_id h1 (h_ep h) = Some vep).
    { unfold h1. rewrite node_put_ne; auto. }
    assert (Hn1 : node_by_id h1 id = Some (new_vertex id q t)) by (apply (node_put_eq h (new_vertex id q t))).
    assert (Hrep : forall l cs, nth_error (v_conns (new_vertex id q t)) l = Some cs -> cs = []).
    { intros l cs Hx. unfold new_vertex in Hx; cbn [v_conns] in Hx. now apply nth_error_In, repeat_spec in Hx. }
    assert (HL1 : lin D h1).
    { intros j v l cs c. unfold h1. rewrite node_put. cbn [v_id new_vertex].
      destruct (N.eqb_spec j id) as [->|Hj]; [|apply HL].
      intros [= <-] Hx Hc. rewrite (Hrep _ _ Hx) in Hc. destruct Hc. }
    assert (HDl : ldim n D h1).
    { intros j v _. unfold h1. rewrite node_put. cbn [v_id new_vertex].
      destruct (N.eqb_spec j id) as [->|Hj2]; [intros [= <-]; auto|].
      intros Hj. now destruct (HD0 j v Hj) as (_ & _ & A2). }
    assert (HepD : In (h_ep h) D) by exact (proj1 (HD0 _ _ Hep)).
    assert (Hg1 : forall a b, glink h a b <-> glink h1 a b).
    { intros a b. split; intros (v & cs & Hv & Hl & Hb).
      - destruct (N.eq_dec a id) as [->|Han]; [destruct (HD0 _ _ Hv) as (_ & Hx & _); congruence|].
        exists v, cs. unfold h1. rewrite node_put_ne by exact Han. auto.
      - destruct (N.eq_dec a id) as [->|Han].
        + rewrite Hn1 in Hv. injection Hv as <-. rewrite (Hrep _ _ Hl) in Hb. destruct Hb.
        + exists v, cs. unfold h1 in Hv. rewrite node_put_ne in Hv by exact Han. auto. }
    assert (Hmu1 : mutual h1) by (intros a b Hab; apply Hg1, Hmu, Hg1, Hab).
    assert (Hgr1 : grounded (Some id) h1).
    { intros a b va vb Ha Hb Hax Hbx. unfold h1 in Ha, Hb.
      rewrite node_put_ne in Ha, Hb by (cbn; congruence).
      apply (reach_mono h h1); [intros x y; apply Hg1|]. eapply Hgr; eauto; discriminate. }
    assert (Hb : exists ep, best_entrypoint I h1 q t (h_maxl h - t) (h_ep h) = Ok ep /\ In ep D).
    { destruct (Nat.leb_spec (h_maxl h) t) as [Hle|Hgt].
      - replace (h_maxl h - t) with 0 by lia. cbn. eauto.
      - eapply (best_entrypoint_total I Hsc Hsym Hdim n Hn D); eauto. lia. }
    destruct Hb as (ep & Eb & HepD'). rewrite Eb.
    assert (Hbest : exists v', node_by_id h1 ep = Some v' /\ Nat.min t (h_maxl h) <= v_level v' /\ ep <> id).
    { destruct (Nat.leb_spec (h_maxl h) t) as [Hle|Hgt].
      - replace (h_maxl h - t) with 0 in Eb by lia. cbn in Eb. inversion Eb; subst.
        exists vep. repeat split; auto. lia.
      - destruct (best_entrypoint_sound I Hsc Hsym h1 q t (h_maxl h - t) (h_ep h) vep ep W1 S1 Hep1 ltac:(lia) Eb)
          as (v' & H1 & H2 & H3 & H4). exists v'. split; [exact H1|]. split; [lia|].
        destruct H4 as [->|(l & j & v & cs & _ & Hj & Hx & Hin)]; [exact Hne|].
        intros ->. eapply U1; eauto. }
    destruct Hbest as (vb & Hvb & Hlb & Hneb).
    assert (Hlk : linking I id (Nat.min t (h_maxl h)) h1).
    { constructor; auto. exists (new_vertex id q t). split; [exact Hn1|]. cbn. lia. }
    assert (Huu : unlinked_upto (Nat.min t (h_maxl h)) id h1) by (intros j v l cs Hv _; now apply (U1 j)).
    assert (Hnil1 : forall v cs, node_by_id h1 id = Some v -> nth_error (v_conns v) 0 = Some cs -> cs = []).
    { intros v cs Hv. rewrite Hn1 in Hv. injection Hv as <-. apply Hrep. }
    pose proof (connect_levels_ground id q (Nat.min t (h_maxl h)) h1 ep vb Hlk Huu Hneb Hvb Hlb HL1 HDl Hq Hid HepD' HT
                  Hnil1 Hmu1 Hgr1) as C2.
    pose proof (connect_levels_inv I Hsc Hsym id q (Nat.min t (h_maxl h)) h1 ep vb Hlk Huu Hneb Hvb Hlb) as (W2 & _).
    destruct (connect_levels I h1 id q (Nat.min t (h_maxl h)) ep) as [h2 [[]|e| |]]; cbn [fst] in *; auto.
    1:{ destruct C2 as (Kp & C2). assert (Kp1 : keeps h h2) by (intros a b Hab; apply Kp, Hg1, Hab). clear Kp.
    unfold finish_insert. destruct (node_by_id h2 id) as [vn|] eqn:Hvn.
    2:{ destruct (Nat.ltb (h_maxl h2) t); (split; [exact Kp1|]); [apply grounded_with_ep|]; exact C2. }
    set (h3 := put_node h2 (set_maint vn false)).
    pose proof (w_id _ W2 _ _ Hvn) as Hidn. destruct C2 as [Hmu2 Hgr2].
    assert (Hn3 : forall j, node_by_id h3 j = if N.eqb j id then Some (set_maint vn false) else node_by_id h2 j).
    { intros j. unfold h3. rewrite node_put. cbn [v_id set_maint]. now rewrite Hidn. }
    assert (Hold : forall j v, node_by_id h3 j = Some v -> exists v0, node_by_id h2 j = Some v0 /\ v_conns v0 = v_conns v).
    { intros j v. rewrite Hn3. destruct (N.eqb_spec j id) as [->|]; [intros [= <-]|]; eauto. }
    assert (Hg3 : forall a b, glink h2 a b <-> glink h3 a b).
    { intros a b. split; intros (v & cs & Hv & Hl & Hc).
      - exists (if N.eqb a id then set_maint vn false else v), cs. rewrite Hn3.
        destruct (N.eqb_spec a id) as [->|]; [|auto]. rewrite Hvn in Hv. injection Hv as <-. auto.
      - destruct (Hold _ _ Hv) as (v0 & Hv0 & Hc0). exists v0, cs. rewrite Hc0. auto. }
    assert (C3 : mutual h3 /\ grounded None h3).
    { split.
      - intros a b Hab. apply Hg3, Hmu2, Hg3, Hab.
      - intros a b va vb2 Ha Hb Hax Hbx. destruct (Hold _ _ Ha) as (va0 & Ha0 & _). destruct (Hold _ _ Hb) as (vb0 & Hb0 & _).
        apply (reach_mono h2 h3); [intros x y; apply Hg3|]. eapply Hgr2; eauto. }
    assert (Kp3 : keeps h h3) by (intros a b Hab; apply Hg3, Kp1, Hab).
    destruct (Nat.ltb (h_maxl h3) t); (split; [exact Kp3|]); [apply grounded_with_ep|]; exact C3. }
    all: destruct C2 as (Kp & C2); split; [intros a b Hab; apply Kp, Hg1, Hab|exact C2].
  Qed.
End Find.

(** Histories. *)
Record fstate (n : nat) (cap : N) (done : list aop) (h : hnsw) : Prop := {
  fs_d : exists D, incl D (map a_id done) /\ dstate n cap D done h /\
    (forall j v, node_by_id h j = Some v -> In j D);
  fs_m : mutual h;
  fs_g : grounded None h
}.

(** A call with dimension [n] and a vector source that knows [ids]. *)
Definition find_call (n M : nat) (cap : N) (ids : list N) (o : aop) : Prop :=
  call_ok cap o /\ length (a_vec o) = n /\ (a_id o < i_vcsize (a_env o))%N /\
  i_M (a_env o) = M /\ (1 <= i_efc (a_env o))%Z /\
  (forall l ow id, In id ids -> exists w, i_vs (a_env o) l ow id = Ok w /\ length w = n).

Lemma add_find n M cap ids done h o :
  0 < n -> 1 <= M -> fstate n cap done h -> find_call n M cap ids o -> ~ In (a_id o) (map a_id done) ->
  incl (map a_id (done ++ [o])) ids -> length done <= 2 * M ->
  let r := add (a_env o) h (a_id o) (a_vec o) (a_lvl o) in
  snd r = Ok tt /\ fstate n cap (done ++ [o]) (fst r) /\ keeps h (fst r).
Proof.
  intros Hn HM1 [(D & HDi & Hd & HDs) Hmu Hgr] (Hcall & Hlen & Hvc & HM & Hefc & Hvs) Hni Hids Hlt.
  pose proof (call_dop _ _ Hcall) as Hdop.
  assert (HniD : ~ In (a_id o) D) by (intros H; apply Hni; auto).
  assert (HlD : length D <= length done).
  { rewrite <- (map_length a_id done). apply NoDup_incl_length; [apply (d_nd _ _ _ _ _ Hd)|exact HDi]. }
  assert (Hvs' : forall l ow id, In id (a_id o :: D) -> exists w, i_vs (a_env o) l ow id = Ok w /\ length w = n).
  { intros l ow id Hin. apply Hvs, Hids. rewrite map_app, in_app_iff. cbn. destruct Hin as [<-|Hin]; auto. }
  assert (Hsrc : src_ok n (a_id o :: D) (a_env o)) by (left; exact Hvs').
  destruct (add_right n cap D done h o Hd Hdop Hn Hlen HniD) as (D' & H1 & H2 & H3 & H4).
  specialize (H4 Hvc Hsrc). cbv zeta in H3, H4 |- *. split; [exact H4|]. rewrite H4 in H3.
  pose proof Hdop as ((Hsc & Hsym & Hcap & Hidc) & Hdim & Hpl).
  pose proof Hd as [W S Nd L Dm EpD (vep & Hep & Hml) Su O T K].
  assert (S' : ids_small (i_env (a_env o)) (with_once h)).
  { unfold ids_small. rewrite Hcap. exact S. }
  assert (W' : winv (with_once h)) by (apply (winv_ext h); [reflexivity|exact W]).
  assert (Ep' : ep_top (with_once h)) by (exists vep; cbn; split; [exact Hep|lia]).
  assert (Hu : unlinked (a_id o) (with_once h)).
  { intros j v l cs Hj Hl Hin. apply HniD. eapply L; eauto. }
  assert (Hne : h_ep (with_once h) <> a_id o) by (intros E; apply HniD; rewrite <- E; exact EpD).
  assert (L' : lin (a_id o :: D) (with_once h)).
  { intros j v l cs c Hj Hl Hin. right. eapply L; eauto. }
  unfold add in *. destruct (a_vec o) as [|x q0] eqn:Eq; [cbn in Hlen; lia|]. rewrite <- Eq in *.
  unfold insert in *. rewrite O in *. cbn [negb andb] in *.
  set (q := p_normalize _ _) in *.
  assert (Hq : length q = n) by (unfold q; now rewrite Hpl).
  assert (Hidc' : (a_id o < e_vcap (i_env (a_env o)))%N) by now rewrite Hcap.
  pose proof (insert_linked_inv (a_env o) Hsc Hsym (with_once h) (a_id o) q (a_lvl o)
                W' S' Ep' Hu Hne Hidc') as (W2 & S2 & Ep2 & A2 & _).
  assert (Hgm : let h' := fst (insert_linked (a_env o) (with_once h) (a_id o) q (a_lvl o)) in keeps (with_once h) h' /\ mutual h' /\ grounded None h').
  { apply (insert_linked_ground (a_env o) Hsc Hsym Hdim n Hn (a_id o :: D)); auto.
    - lia.
    - rewrite HM. cbn. lia.
    - intros j v Hj. change (node_by_id h j = Some v) in Hj. pose proof (HDs j v Hj) as HjD.
      split; [now right|]. split; [intros ->; contradiction|]. eapply Dm; eauto.
    - now left.
    - intros a b va vb Ha Hb Hax Hbx. apply (reach_mono h (with_once h)); [intros x0 y0 Hxy; exact Hxy|]. eapply Hgr; eauto. }
  destruct Hgm as (Hk2 & Hm2 & Hg2). split; [|exact Hk2]. constructor; auto.
  exists D'. split.
  { intros j Hj. rewrite map_app, in_app_iff. apply H2 in Hj. cbn. destruct Hj as [<-|Hj]; auto. }
  split; [exact H3|]. intros j v Hj.
  destruct (N.eq_dec j (a_id o)) as [->|Hjo].
  - assert (HH : In o (done ++ [o])) by (apply in_or_app; right; now left).
    exact (proj1 (proj2 (d_succ _ _ _ _ _ H3 o HH))).
  - destruct (ar_bw _ _ _ A2 j v Hjo Hj) as (v0 & Hv0). apply H1. eapply HDs. exact Hv0.
Qed.

Lemma run_find n M cap ids ops : 0 < n -> 1 <= M -> forall h done,
  fstate n cap done h -> Forall (find_call n M cap ids) ops -> NoDup (map a_id (done ++ ops)) ->
  incl (map a_id (done ++ ops)) ids -> length (done ++ ops) <= 2 * M + 1 ->
  let r := run_adds h ops in
  Forall (fun x => x = Ok tt) (snd r) /\ fstate n cap (done ++ ops) (fst r).
Proof.
  intros Hn HM. induction ops as [|o ops IH]; intros h done Hst Hok Hnd Hids Hlen; cbn [run_adds].
  { rewrite app_nil_r. split; [constructor|exact Hst]. }
  inversion Hok as [|? ? Ho Hok']; subst. rewrite app_length in Hlen. cbn in Hlen.
  assert (Hni : ~ In (a_id o) (map a_id done)).
  { rewrite map_app in Hnd. cbn in Hnd. apply NoDup_remove_2 in Hnd. intros H. apply Hnd, in_or_app. auto. }
  assert (Hi1 : incl (map a_id (done ++ [o])) ids).
  { intros j Hj. apply Hids. rewrite map_app, in_app_iff in Hj |- *. cbn in Hj |- *. intuition. }
  destruct (add_find n M cap ids done h o Hn HM Hst Ho Hni Hi1 ltac:(lia)) as (E1 & S1 & _).
  set (r := add (a_env o) h (a_id o) (a_vec o) (a_lvl o)) in *. cbn [fst snd].
  destruct (IH (fst r) (done ++ [o]) S1 Hok') as [E2 S2].
  { now rewrite <- app_assoc. }
  { now rewrite <- app_assoc. }
  { rewrite <- app_assoc, app_length. cbn. lia. }
  rewrite <- app_assoc in S2. split; [constructor; auto|exact S2].
Qed.

Lemma find_state n M cap ops :
  0 < n -> 1 <= M -> ops <> [] -> length ops <= 2 * M + 1 -> NoDup (map a_id ops) ->
  Forall (find_call n M cap (map a_id ops)) ops ->
  let r := run_adds empty_index ops in
  Forall (fun x => x = Ok tt) (snd r) /\ fstate n cap ops (fst r).
Proof.
  intros Hn HM Hne Hlen Hnd Hok. cbv zeta.
  destruct ops as [|o ops]; [congruence|].
  inversion Hok as [|? ? Ho Hok']; subst. pose proof Ho as (Hcall & Hl & Hvc & _).
  assert (Hne' : a_vec o <> []) by (destruct (a_vec o); [cbn in Hl; lia|discriminate]).
  destruct (add_first cap empty_index o pristine_empty_index eq_refl (call_dop _ _ Hcall) Hne') as (Hd & Hr & Honly).
  specialize (Hr Hvc). cbv zeta in Hd, Hr, Honly. cbn [run_adds].
  set (r := add (a_env o) empty_index (a_id o) (a_vec o) (a_lvl o)) in *. cbn [fst snd].
  rewrite Hr in Hd. rewrite Hl in Hd.
  assert (Hst : fstate n cap [o] (fst r)).
  { constructor.
    - exists [a_id o]. split; [cbn; apply incl_refl|]. split; [exact Hd|].
      intros j v Hj. left. symmetry. apply Honly. congruence.
    - intros a b (v & cs & Hv & Hc & Hb). exfalso.
      destruct (w_link _ (d_w _ _ _ _ _ Hd) _ _ _ _ _ Hv Hc Hb) as (Hba & w & Hw & _).
      apply Hba. rewrite (Honly a), (Honly b) by congruence. reflexivity.
    - intros a b va vb Ha Hb _ _. rewrite (Honly a), (Honly b) by congruence. constructor. }
  destruct (run_find n M cap (map a_id (o :: ops)) ops Hn HM (fst r) [o] Hst Hok' Hnd (incl_refl _) Hlen) as [E2 S2].
  split; [constructor; auto|exact S2].
Qed.

Lemma find_upto n M cap ops :
  0 < n -> 1 <= M -> ops <> [] -> length ops <= 2 * M + 1 -> NoDup (map a_id ops) ->
  Forall (find_call n M cap (map a_id ops)) ops ->
  let r := run_adds empty_index ops in
  Forall (fun x => x = Ok tt) (snd r) /\
  forall o, In o ops -> reach (fst r) 0 (h_ep (fst r)) (a_id o) /\
    exists v, node_by_id (fst r) (a_id o) = Some v /\ v_vec v = p_normalize (e_prov (i_env (a_env o))) (a_vec o).
Proof.
  intros Hn HM Hne Hlen Hnd Hok. cbv zeta.
  destruct (find_state n M cap ops Hn HM Hne Hlen Hnd Hok) as [H [(D & _ & Hd & _) _ Hg]].
  split; [exact H|]. intros o Ho.
  destruct (d_succ _ _ _ _ _ Hd o Ho) as (_ & _ & v & Hv & _ & Hvv & _).
  destruct (d_ep _ _ _ _ _ Hd) as (ve & Hve & _). split; [|eauto]. eapply Hg; eauto; discriminate.
Qed.

Lemma nth_firstn {A} k : forall (l : list A) i, i < k -> nth_error (firstn k l) i = nth_error l i.
Proof.
  induction k as [|k IH]; intros l i Hi; [lia|]. destruct l as [|x l]; [reflexivity|].
  destruct i as [|i]; cbn [firstn nth_error]; [reflexivity|]. apply IH. lia.
Qed.

(** With ef at least the number of vectors, a query answers with exactly the
    vectors within the distance bound, nearest first. *)
Lemma find_exhaustive n M cap ops P :
  0 < n -> 1 <= M -> ops <> [] -> length ops <= 2 * M + 1 -> NoDup (map a_id ops) ->
  Forall (find_call n M cap (map a_id ops)) ops ->
  Forall (fun o => e_prov (i_env (a_env o)) = P) ops ->
  let h := fst (run_adds empty_index ops) in
  forall E q0 maxd ef,
    sched_ok E -> e_prov E = P -> e_vcap E = cap -> length q0 = n -> (Z.of_nat (length ops) <= ef)%Z ->
    (forall o d, In o ops -> p_query P (p_normalize P q0) (p_normalize P (a_vec o)) = Some d -> is_num d = true) ->
    exists out,
      knn_max_dist E h q0 maxd ef None = Ok out /\ asc (answer out) /\ NoDup (fst out) /\
      map it_id (answer out) = fst out /\
      forall id d, In (mkItem id d) (answer out) <-> 
        flt d f32_zero = false /\ fgt d maxd = false /\ exists o, In o ops /\ a_id o = id /\
          p_query P (p_normalize P q0) (p_normalize P (a_vec o)) = Some d.
Proof.
  intros Hn HM Hne Hlen Hnd Hops HP. cbv zeta.
  destruct (find_state n M cap ops Hn HM Hne Hlen Hnd Hops) as (_ & Hst). cbv zeta in Hst.
  set (h := fst (run_adds empty_index ops)) in *. destruct Hst as [(D & HDi & Hd & HDs) _ Hg].
  intros E q0 maxd ef Hsc HEP Hcap Hq Hef Hnum.
  assert (Hin : forall o, In o ops -> exists v, node_by_id h (a_id o) = Some v /\
     v_vec v = p_normalize (e_prov (i_env (a_env o))) (a_vec o)).
  { intros o Ho. destruct (d_succ _ _ _ _ _ Hd o Ho) as (_ & _ & v & Hv & _ & Hvec & _). eauto. }
  assert (Hout : forall j v, node_by_id h j = Some v -> exists o, In o ops /\ a_id o = j).
  { intros j v Hj. apply HDs, HDi, in_map_iff in Hj. destruct Hj as (o & Eo & Ho). eauto. }
  rewrite Forall_forall in HP.
  assert (HkP : known_provider P).
  { destruct ops as [|o ops]; [congruence|]. inversion Hops as [|? ? ((_ & Hk & _) & _) _]; subst.
    rewrite <- (HP o (or_introl eq_refl)). exact Hk. }
  set (q := p_normalize P q0) in *.
  assert (Hql : length q = n) by (unfold q; now rewrite (known_len P HkP)).
  assert (Hsm : ids_small E h) by (unfold ids_small; rewrite Hcap; apply (d_small _ _ _ _ _ Hd)).
  assert (Hsym : prov_sym (e_prov E)) by (rewrite HEP; now apply known_psym).
  assert (Htd : forall id d, true_dist P h q id d <-> exists o, In o ops /\ a_id o = id /\
         p_query P q (p_normalize P (a_vec o)) = Some d).
  { intros id d. split.
    - intros (v & Hv & Hp). destruct (Hout id v Hv) as (o & Ho & Eo). exists o. split; [exact Ho|]. split; [exact Eo|].
      destruct (Hin o Ho) as (v' & Hv' & Hvv). rewrite Eo, Hv in Hv'. injection Hv' as <-. rewrite (HP o Ho) in Hvv.
      now rewrite <- Hvv.
    - intros (o & Ho & <- & Hp). destruct (Hin o Ho) as (v & Hv & Hvv). exists v. split; [exact Hv|].
      rewrite Hvv, (HP o Ho). exact Hp. }
  destruct (d_ep _ _ _ _ _ Hd) as (vep & Hep & Hml).
  destruct (dist_node_vec_total (mkI E (fun _ _ _ => Panic) 0 0 0) ltac:(cbn; rewrite HEP; now apply known_dim) n Hn h
              (h_ep h) vep q Hep (d_dim _ _ _ _ _ Hd _ _ (d_epD _ _ _ _ _ Hd) Hep) Hql) as (d0 & Hd0).
  cbn [i_env] in Hd0.
  assert (Hwf : wf_levels h) by (apply (winv_wf n Hn), (d_w _ _ _ _ _ Hd)).
  destruct (knn_max_dist_total E h Hsc Hsym Hsm q0 maxd ef None d0 Hwf) as (out & Hk).
  { rewrite HEP. rewrite HEP in Hd0. exact Hd0. }
  assert (Hnum' : dists_num (e_prov E) h (p_normalize (e_prov E) q0)).
  { rewrite HEP. fold q. intros id dd Ht. apply Htd in Ht. destruct Ht as (o & Ho & _ & Hp'). eapply Hnum; eauto. }
  assert (Hall : forall id v, node_by_id h id = Some v ->
            exists d, p_query (e_prov E) (p_normalize (e_prov E) q0) (v_vec v) = Some d).
  { rewrite HEP. fold q. intros id v Hv. pose proof (known_dim P HkP) as Hdm.
    pose proof (d_dim _ _ _ _ _ Hd id v (HDs _ _ Hv) Hv) as Hvl.
    destruct (proj1 (Hdm (v_vec v) q)) as (dc & Hdc); [congruence|].
    exists dc. rewrite <- Hdc. symmetry. rewrite HEP in Hsym. apply Hsym. }
  destruct (knn_max_dist_sorted E h Hsc Hsym Hsm q0 maxd ef None out Hnum' Hk) as (Ha & Hm & Hds).
  destruct (knn_max_dist_sound E h Hsc Hsym Hsm q0 maxd ef None out Hk) as (Hnd1 & _ & _ & Hso).
  exists out. split; [exact Hk|]. split; [exact Ha|]. split; [exact Hnd1|]. split; [exact Hm|]. intros id d. split.
  - intros Hi. apply In_nth_error in Hi. destruct Hi as (i & Hi).
    assert (H1 : nth_error (fst out) i = Some id) by (rewrite <- Hm, nth_error_map, Hi; reflexivity).
    destruct (Hso i id H1) as (d' & H2 & H3 & _ & H4 & H5 & _).
    assert (H6 : nth_error (firstn (length (fst out)) (snd out)) i = Some d) by (rewrite <- Hds, nth_error_map, Hi; reflexivity).
    rewrite nth_firstn in H6 by (apply nth_error_Some; congruence). rewrite H2 in H6. injection H6 as ->.
    split; [exact H4|]. split; [exact H5|]. rewrite HEP in H3. now apply Htd in H3.
  - intros (Hz & Hmx & Ho). apply Htd in Ho.
    destruct (knn_max_dist_exhaustive_ex E h Hsc Hsym Hsm q0 maxd ef None out Hnum' Hall Hk) as (e & ve & Hve & _ & Hex).
    apply (Hex (map a_id ops)).
    + intros i v _ Hv. destruct (Hout i v Hv) as (o & Ho' & <-). now apply in_map.
    + rewrite map_length. exact Hef.
    + destruct Ho as (v & Hv & _). eapply Hg; eauto; discriminate.
    + rewrite HEP. exact Ho.
    + unfold has_tombstone. rewrite (d_tomb _ _ _ _ _ Hd). reflexivity.
    + discriminate.
    + now apply within_spelled.
Qed.
