(** Lemmas for queries that see additions half done. *)
From Verif Require Import Base F32 PQ PQProofs Graph Search SearchProofs SearchLayer SearchKnn
  Insert HeuristicProofs InsertProofs InsertHist InsertTotal InsertDim InsertSmall InsertFacts InsertFind
  Distancer DistancerProofs PropDistancer ConcSearch ConcProofs ConcFind.

(** [insert_ground] is a state that [insert_linked] passes through. *)
Lemma connect_all_app I nid l a b : forall h h',
  connect_all I h nid l a = (h', Ok tt) -> connect_all I h nid l (a ++ b) = connect_all I h' nid l b.
Proof.
  induction a as [|x a IH]; intros h h' H; cbn [connect_all app] in *.
  - injection H as <-. reflexivity.
  - destruct (connect_neighbor I h nid l x) as [h1 [[]|e| |]]; try discriminate. now apply IH.
Qed.

Lemma insert_ground_rest I h id q j : (id < i_vcsize I)%N ->
  let h1 := put_node h (new_vertex id q 0) in
  forall ep ep' nbs,
  best_entrypoint I h1 q 0 (h_maxl h) (h_ep h) = Ok ep ->
  choose_neighbours I h1 id q 0 ep = Ok (ep', nbs) ->
  snd (connect_all I (put_node h1 (set_conns (new_vertex id q 0) [nbs])) id 0 (firstn j nbs)) = Ok tt ->
  insert_linked I h id q 0 =
    match connect_all I (insert_ground I h id q j) id 0 (skipn j nbs) with
    | (h2, Ok _) => (finish_insert h2 id 0, Ok tt)
    | r => r
    end.
Proof.
  intros Hv h1 ep ep' nbs H1 H2 H3. unfold insert_ground, insert_linked. fold h1. rewrite H1, H2.
  apply N.ltb_lt in Hv. rewrite Hv. cbn [negb]. rewrite Nat.sub_0_r, H1, Nat.min_0_l. cbn [connect_levels].
  unfold do_at_level. rewrite H2. assert (Hx : node_by_id h1 id = Some (new_vertex id q 0)) by exact (node_put_eq h (new_vertex id q 0)). rewrite Hx.
  cbn [set_conns_at new_vertex v_conns repeat length Nat.ltb Nat.leb upd].
  change (mkV id 0 [[]] true q false) with (new_vertex id q 0).
  destruct (connect_all I (put_node h1 (set_conns (new_vertex id q 0) [nbs])) id 0 (firstn j nbs)) as [h' r] eqn:Ec.
  cbn [snd fst] in *. subst r.
  pose proof (connect_all_app I id 0 _ (skipn j nbs) _ _ Ec) as Hr. rewrite firstn_skipn in Hr. rewrite Hr.
  destruct (connect_all I h' id 0 (skipn j nbs)) as [h2 [[]|e| |]]; reflexivity.
Qed.

(* ------------------------------------------------------------------ *)
(** What a half-done addition leaves as it was. *)
Record seen_rel (E : env) (id : N) (q : vec) (h m : hnsw) : Prop := {
  sr_fw : forall j v, node_by_id h j = Some v -> exists v', node_by_id m j = Some v' /\
    v_vec v' = v_vec v /\ v_level v' = v_level v /\
    (forall l, l <> 0 -> nth_error (v_conns v') l = nth_error (v_conns v) l) /\
    (forall cs, nth_error (v_conns v) 0 = Some cs ->
       exists cs', nth_error (v_conns v') 0 = Some cs' /\ incl cs cs');
  sr_bw : forall j v, node_by_id m j = Some v -> j <> id -> exists v0, node_by_id h j = Some v0;
  sr_new : exists v, node_by_id m id = Some v /\ v_vec v = q /\
    (forall l cs, l <> 0 -> nth_error (v_conns v) l = Some cs -> cs = []);
  sr_w : winv m;
  sr_s : ids_small E m;
  sr_tomb : h_tomb m = h_tomb h
}.

Section Half.
  Variable I : ienv.
  Local Notation E := (i_env I).
  Local Notation P := (e_prov (i_env I)).
  Hypothesis Hsc : sched_ok E.
  Hypothesis Hsym : prov_sym P.
  Variable n : nat.
  Hypothesis Hn : 0 < n.
  Variable D : list N.
  Hypothesis HM : 1 <= i_M I.
  Hypothesis HD : length D <= 2 * i_M I + 1.

  Lemma seen_new h id q t :
    winv h -> ids_small E h -> unlinked id h -> (id < e_vcap E)%N ->
    node_by_id h id = None ->
    seen_rel E id q h (put_node h (new_vertex id q t)).
  Proof.
    intros W S Hu Hsm Hno. constructor.
    - intros j v Hj. exists v. rewrite node_put_ne by (cbn; congruence). repeat split; auto.
      intros cs Hcs. exists cs. split; [exact Hcs|apply incl_refl].
    - intros j v Hj Hne. rewrite node_put_ne in Hj by exact Hne. eauto.
    - exists (new_vertex id q t). split; [apply (node_put_eq h (new_vertex id q t))|]. split; [reflexivity|].
      intros l cs _ Hx. unfold new_vertex in Hx; cbn [v_conns] in Hx. now apply nth_error_In, repeat_spec in Hx.
    - now apply winv_put_new.
    - now apply ids_small_put.
    - reflexivity.
  Qed.

  Lemma seen_ground h id q j :
    winv h -> ids_small E h -> ep_top h -> unlinked id h -> h_ep h <> id -> (id < e_vcap E)%N -> lin D h ->
    (forall i v, node_by_id h i = Some v -> In i D /\ i <> id /\ length (v_vec v) = n) ->
    length q = n -> In id D -> h_tomb h = [] ->
    seen_rel E id q h (insert_ground I h id q j).
  Proof.
    intros W S (vep & Hep & Hmax) Hu Hne Hsm HL HD0 Hq Hid HT.
    assert (Hno : node_by_id h id = None).
    { destruct (node_by_id h id) as [v|] eqn:Ev; [|reflexivity]. destruct (HD0 _ _ Ev) as (_ & Hx & _). congruence. }
    pose proof (seen_new h id q 0 W S Hu Hsm Hno) as R0.
    unfold insert_ground. set (h1 := put_node h (new_vertex id q 0)) in *.
    assert (W1 : winv h1) by apply (sr_w _ _ _ _ _ R0).
    assert (S1 : ids_small E h1) by apply (sr_s _ _ _ _ _ R0).
    assert (U1 : unlinked id h1) by now apply unlinked_put_new.
    assert (Hep1 : node_by_id h1 (h_ep h) = Some vep).
    { unfold h1. rewrite node_put_ne; auto. }
    assert (Hn1 : node_by_id h1 id = Some (new_vertex id q 0)) by (apply (node_put_eq h (new_vertex id q 0))).
    destruct (best_entrypoint I h1 q 0 (h_maxl h) (h_ep h)) as [ep|e| |] eqn:Eb; try exact R0.
    destruct (choose_neighbours I h1 id q 0 ep) as [[ep' nbs]|e| |] eqn:Ec; try exact R0.
    assert (Hbest : exists v', node_by_id h1 ep = Some v' /\ ep <> id).
    { destruct (h_maxl h) as [|m] eqn:Em.
      { cbn in Eb. inversion Eb; subst. eauto. }
      destruct (best_entrypoint_sound I Hsc Hsym h1 q 0 (Datatypes.S m) (h_ep h) vep ep W1 S1 Hep1 ltac:(lia) Eb)
        as (v' & H1 & H2 & H3 & H4). exists v'. split; [exact H1|].
      destruct H4 as [->|(l & i & v & cs & _ & Hj & Hx & Hin)]; [exact Hne|].
      intros ->. eapply U1; eauto. }
    destruct Hbest as (vb & Hvb & Hneb).
    assert (Huu : unlinked_upto 0 id h1) by (intros i v l cs Hv _; now apply (U1 i)).
    destruct (choose_sound I Hsc Hsym _ _ _ _ _ _ _ _ W1 S1 Huu Hneb Hvb (Nat.le_0_l _) Ec) as (_ & Hnd & Hin & Hre).
    set (vn := set_conns (new_vertex id q 0) [nbs]). set (h2 := put_node h1 vn).
    assert (Hn2 : node_by_id h2 id = Some vn).
    { unfold h2. rewrite node_put. cbn [v_id vn set_conns new_vertex]. now rewrite N.eqb_refl. }
    assert (Ho2 : forall i, i <> id -> node_by_id h2 i = node_by_id h1 i).
    { intros i Hi. unfold h2. apply node_put_ne. cbn. congruence. }
    assert (W2 : winv h2).
    { unfold h2, vn. apply (winv_put_conns h1 0 (new_vertex id q 0) nbs false W1); cbn [v_id new_vertex]; auto. }
    assert (S2 : ids_small E h2).
    { intros i v. unfold h2. rewrite node_put. cbn [v_id vn set_conns new_vertex].
      destruct (N.eqb_spec i id) as [->|Hi]; [intros _; exact Hsm|apply S1]. }
    assert (HepD : In ep D).
    { destruct (N.eq_dec ep id) as [|_]; [contradiction|]. unfold h1 in Hvb. rewrite node_put_ne in Hvb by exact Hneb.
      exact (proj1 (HD0 _ _ Hvb)). }
    assert (HL1 : lin D h1).
    { intros i v l cs c. unfold h1. rewrite node_put. cbn [v_id new_vertex].
      destruct (N.eqb_spec i id) as [->|Hi]; [|apply HL].
      intros [= <-] Hx Hc. unfold new_vertex in Hx; cbn [v_conns] in Hx. apply nth_error_In, repeat_spec in Hx.
      subst cs. destruct Hc. }
    assert (HnbD : forall c, In c nbs -> In c D).
    { intros c Hc. exact (reach_D D h1 0 ep c HL1 HepD (Hre c Hc)). }
    assert (HL2 : lin D h2).
    { intros i v l cs c. unfold h2. rewrite node_put. cbn [v_id vn set_conns new_vertex].
      destruct (N.eqb_spec i id) as [->|Hi]; [|apply HL1]. intros [= <-] Hx Hc. cbn [v_conns set_conns] in Hx.
      destruct l as [|[|l]]; cbn in Hx; try discriminate. injection Hx as <-. auto. }
    assert (Hlk2 : linking I id 0 h2) by (constructor; auto; exists vn; split; [exact Hn2|lia]).
    assert (HT2 : h_tomb h2 = []) by exact HT.
    assert (Hc2 : forall c, In c (firstn j nbs) -> c <> id /\ In c D /\ exists v cs, node_by_id h2 c = Some v /\
              nth_error (v_conns v) 0 = Some cs /\ ~ In id cs).
    { intros c Hc0. assert (Hc : In c nbs) by (rewrite <- (firstn_skipn j nbs); apply in_or_app; now left).
      destruct (Hin c Hc) as (Hcn & w & Hw & Hlw). split; [exact Hcn|]. split; [auto|].
      pose proof (w_len _ W1 _ _ Hw) as Hlw2.
      destruct (nth_error (v_conns w) 0) as [cs|] eqn:En.
      2:{ apply nth_error_None in En. lia. }
      exists w, cs. rewrite Ho2 by exact Hcn. repeat split; auto. eapply U1; eauto. }
    destruct (connect_ground I n Hn D HM HD id (firstn j nbs) h2 Hlk2 HT2
                (nodup_firstn _ _ Hnd) HL2 Hid Hc2) as (h3 & Hca & Hout & Hinn).
    assert (Hc3 : forall c, In c (firstn j nbs) -> c <> id /\ exists v cs, node_by_id h2 c = Some v /\ 0 <= v_level v /\
              nth_error (v_conns v) 0 = Some cs /\ ~ In id cs).
    { intros c Hc. destruct (Hc2 c Hc) as (A1 & _ & v & cs & A2 & A3 & A4). split; [exact A1|]. exists v, cs.
      repeat split; auto. lia. }
    pose proof (connect_all_inv I id 0 (firstn j nbs) h2 Hlk2 (nodup_firstn _ _ Hnd) Hc3) as (L3 & R3 & _).
    rewrite Hca in *. cbn [fst] in *.
    assert (Hnin : ~ In id (firstn j nbs)) by (intros Hi; destruct (Hc2 id Hi) as [Hx _]; congruence).
    constructor.
    - intros i v Hi. destruct (N.eq_dec i id) as [->|Hine]; [congruence|].
      assert (Hi2 : node_by_id h2 i = Some v).
      { rewrite Ho2 by exact Hine. unfold h1. rewrite node_put_ne by exact Hine. exact Hi. }
      destruct (lr_fw _ _ _ R3 _ _ Hi2) as (v' & Hv' & Hl' & Hvec & _ & Hcn).
      exists v'. split; [exact Hv'|]. split; [exact Hvec|]. split; [exact Hl'|]. split; [exact Hcn|].
      intros cs Hcs. destruct (in_dec N.eq_dec i (firstn j nbs)) as [Hif|Hif].
      + destruct (Hinn i Hif) as (v0 & cs0 & v1 & B1 & B2 & B3 & B4). rewrite Hi2 in B1. injection B1 as <-.
        rewrite Hcs in B2. injection B2 as <-. rewrite Hv' in B3. injection B3 as <-.
        exists (cs ++ [id]). split; [exact B4|]. intros b Hb. apply in_or_app. now left.
      + rewrite (Hout i Hif), Hi2 in Hv'. injection Hv' as <-. exists cs. split; [exact Hcs|apply incl_refl].
    - intros i v Hi Hine. destruct (lr_bw _ _ _ R3 _ _ Hi) as (v0 & Hv0).
      rewrite Ho2 in Hv0 by exact Hine. unfold h1 in Hv0. rewrite node_put_ne in Hv0 by exact Hine. eauto.
    - exists vn. split; [rewrite (Hout id Hnin); exact Hn2|]. split; [reflexivity|].
      intros l cs Hl Hx. destruct l as [|[|l]]; [congruence| |]; cbn in Hx; discriminate.
    - exact (lk_w _ _ _ _ L3).
    - exact (lk_s _ _ _ _ L3).
    - rewrite (proj1 (lr_tomb _ _ _ R3)). reflexivity.
  Qed.
End Half.

(* ------------------------------------------------------------------ *)
(** The search of the layers above the ground stays among the vertices [S] if
    their links there do. *)
Section Stay.
  Variable E : env.
  Variable W : nat -> hnsw.
  Variable C : clock.
  Variable U : list N.
  Local Notation P := (e_prov E).
  Local Notation n := (length U).
  Local Notation by_ t0 := (fun t : nat => t <= t0).
  Hypothesis Hsc : sched_ok E.
  Hypothesis Hsym : prov_sym P.
  Hypothesis Hids : ids_in E W U.
  Variable e : nat -> nat.
  Hypothesis Ho : in_order C e.
  Variable In_S : N -> Prop.
  Hypothesis Hcl : forall l t id v cs c, 1 <= l -> t <= e 1 -> In_S id -> node_by_id (W t) id = Some v ->
    conns_at v l = Some cs -> In c cs -> In_S c.

  Lemma e_below l : 1 <= l -> e l <= e 1.
  Proof.
    destruct Ho as (Ho1 & _). induction l as [|[|l] IH]; intros H; [lia|lia|].
    destruct (Ho1 (S l)) as (_ & _ & Hx). specialize (IH ltac:(lia)). lia.
  Qed.

  Lemma layer_stays q l ep r : 1 <= l -> seen_dist (by_ (e l)) P W q (it_id ep) (it_dist ep) -> In_S (it_id ep) ->
    search_layer_at E W C n q 1 l None (pq_insert less_min ep []) = Ok r ->
    forall x, In x r -> In_S (it_id x).
  Proof.
    intros Hl Hd HS Hr.
    destruct (layer_inv E W C (by_ (e l)) U q 1 l None Hsc Hids (dist_by C e Ho l) ep r
                (fun s => forall id, ids_of s id -> In_S id)) as (s0 & _ & HJ & -> & _); auto.
    - intros s c cands' f _ HJ Hpop _ id [H|H]; apply HJ; [left|right; exact H].
      cbn in H. apply in_map_iff in H. destruct H as (y & <- & Hy). apply in_map. eapply pop_sub; eauto.
    - intros s c cands' v conns ids vis' f _ HJ Hpop Hv Hlv Hc Hf nds s1 Hs1 Hnews Hnd.
      assert (Hci : In_S (it_id c)).
      { apply HJ. left. apply in_map. eapply Permutation_in; [symmetry; apply (pop_perm _ _ _ _ Hpop)|now left]. }
      assert (Hx : forall nd, In nd nds -> In_S (it_id nd)).
      { intros nd Hin. unfold nds in Hin. eapply Permutation_in in Hin; [|symmetry; apply Hsc].
        apply nds_spec in Hin. destruct Hin as [Hin _].
        destruct (fresh_spec _ _ _ _ Hf) as (_ & Hinc & _).
        eapply (Hcl l (t_pop C l f)); [exact Hl| |exact Hci|exact Hv|exact Hc|apply Hinc; exact Hin].
        destruct Ho as (_ & Ho2 & _). pose proof (e_below l Hl). specialize (Ho2 l f). lia. }
      refine (proj1 (proj2 (fold_steps_at E W C (by_ (e l)) q 1 l None (dist_by C e Ho l) f
                (fun s => forall id, ids_of s id -> In_S id) nds s1 Hs1 _ _ Hnews Hnd))).
      + intros id [H|H]; apply HJ; [left|right; exact H].
        cbn in H. apply in_map_iff in H. destruct H as (y & <- & Hy). apply in_map. eapply pop_sub; eauto.
      + intros s2 nd Hin Hs2 HJ2 Hvis Hnot id Hid.
        destruct (nds_seen E W C (by_ (e l)) q l (dist_by C e Ho l) f ids nd) as [_ Htd].
        { eapply Permutation_in; [symmetry; apply Hsc|]. exact Hin. }
        destruct (linv_step E W C (by_ (e l)) q 1 l None (dist_by C e Ho l) f s2 nd Hs2 Htd Hvis Hnot) as [_ Hi].
        destruct (Hi id Hid) as [H|H]; [auto|]. subst id. auto.
    - intros w _ id [H|H].
      + cbn in H. destruct H as [<-|[]]. exact HS.
      + cbn in H. destruct (res0_cases W C U l None ep) as [[Hres _]|[Hres _]]; rewrite Hres in H;
          cbn in H; [destruct H as [<-|[]]; exact HS|destruct H].
    - intros x Hx. apply HJ. right. now apply in_map.
  Qed.

  Lemma descend_stays q l : forall ep epd e' d,
    seen_dist (by_ (e (S l))) P W q ep epd -> In_S ep -> descend_at E W C n q l ep epd = Ok (e', d) -> In_S e'.
  Proof.
    induction l as [|l IH]; intros ep epd e' d Hd HS Hr; cbn [descend_at] in Hr.
    - inversion Hr; subst. exact HS.
    - apply bind_Ok in Hr. destruct Hr as (res & Hl & Hr).
      pose proof (widen _ _ _ _ Ho _ _ _ _ Hd) as Hd'.
      destruct (layer_sound_at E W C (by_ (e (S l))) U q 1 (S l) None Hsc Hids
                  (dist_by C e Ho (S l)) (mkItem ep epd) res Hd' Hl) as (Hin & _ & _).
      pose proof (layer_stays q (S l) (mkItem ep epd) res ltac:(lia) Hd' HS Hl) as Hst.
      destruct (pq_pop less_max res) as [[best rest]|] eqn:Ep; [|eapply IH; [exact Hd'|exact HS|exact Hr]].
      assert (Hb : In best res).
      { eapply Permutation_in; [symmetry; apply (pop_perm _ _ _ _ Ep)|now left]. }
      destruct (Hin best Hb) as (Hb1 & _). eapply IH; [exact Hb1|apply Hst; exact Hb|exact Hr].
  Qed.
End Stay.

(** [ConcProofs.knn_at_found] for any state [h1] that the moving index only
    extends, if the search enters the ground layer at one of its vertices. *)
Section Found.
  Variable E : env.
  Variable W : nat -> hnsw.
  Variable C : clock.
  Variable U : list N.
  Local Notation P := (e_prov E).
  Local Notation n := (length U).
  Local Notation by_ t0 := (fun t : nat => t <= t0).
  Hypothesis Hsc : sched_ok E.
  Hypothesis Hsym : prov_sym P.
  Hypothesis Hids : ids_in E W U.
  Variable e : nat -> nat.
  Hypothesis Ho : in_order C e.
  Hypothesis Hone : one_vec W.
  Hypothesis Hwf : forall t, wf_levels (W t).
  Variable h1 : hnsw.

  Lemma knn_found_in q0 maxd ef allow out :
    let q := p_normalize P q0 in
    seen_num P W q ->
    (forall t, e 1 <= t <= e 0 -> extends 0 h1 (W t)) ->
    (forall t id, e 1 <= t <= e 0 -> node_by_id h1 id <> None -> has_tombstone (W t) id = false) ->
    (forall id v, node_by_id h1 id = Some v -> exists d, p_query P q (v_vec v) = Some d) ->
    (forall a b va vb, node_by_id h1 a = Some va -> node_by_id h1 b = Some vb -> reach h1 0 a b) ->
    node_by_id h1 (h_ep (W (t_ep C))) <> None ->
    (forall l t id v cs c, 1 <= l -> t <= e 1 -> node_by_id h1 id <> None -> node_by_id (W t) id = Some v ->
       conns_at v l = Some cs -> In c cs -> node_by_id h1 c <> None) ->
    (Z.of_nat n <= ef)%Z ->
    knn_max_dist_at E W C n q0 maxd ef allow = Ok out ->
    forall id d, true_dist P h1 q id d -> (forall f, allow = Some f -> f id = true) ->
      flt d f32_zero = false -> fgt d maxd = false -> In (mkItem id d) (answer out).
  Proof.
    intros q Hnum Hext Htomb Hall Hconn Hepn Hcl Hef H id d Ht Hal Hw1 Hw2.
    destruct (knn_at_inv E W C U Hsym q0 maxd ef allow out H) as (d0 & e' & d' & res & H0 & H1 & H2 & H3 & _).
    pose proof (start_by E W C e Ho Hwf _ _ H0) as Hsb.
    pose proof (descend_by E W C U Hsc Hids e Ho _ _ _ _ _ _ (Hsb (S _)) H1) as He.
    pose proof Ho as (_ & Ho2 & Ho3 & Ho4 & _).
    pose proof (descend_stays E W C U Hsc Hids e Ho (fun i => node_by_id h1 i <> None) Hcl _ _ _ _ _ _ (Hsb (S _)) Hepn H1) as Hst.
    destruct (node_by_id h1 e') as [ve|] eqn:Hve; [|congruence].
    assert (Hin : In (mkItem id d) res).
    { eapply (layer_found E W C (by_ (e 0)) U q ef 0 allow Hsc Hone Hids (dist_by C e Ho 0) (mkItem e' d') res h1).
      - apply (widen E W C e Ho). exact He.
      - intros f. apply Hext. apply Ho2.
      - intros f j. apply Hext. apply Ho3.
      - intros f j Hj. apply Htomb; [apply Ho4|exact Hj].
      - exact Hall.
      - exact Hef.
      - exact H2.
      - destruct Ht as (v & Hv & _). eapply Hconn; eauto.
      - exact Ht.
      - cbn. destruct allow as [f|]; [auto|reflexivity]. }
    destruct (layer_heap_at E W C (by_ (e 0)) U q ef 0 allow Hsc Hids (dist_by C e Ho 0) Hnum (mkItem e' d') res
                (widen E W C e Ho _ _ _ _ He) H2) as [Hh Hn].
    destruct (drain_max_asc res Hh Hn) as [Ha Hna].
    rewrite H3, cut_filter by assumption. apply filter_In. split.
    - eapply Permutation_in; [apply rev_drain_perm|exact Hin].
    - unfold within. cbn [it_dist]. rewrite Hw1, Hw2. reflexivity.
  Qed.
End Found.

(* ------------------------------------------------------------------ *)
(** What is seen when the first [k] vectors are in and, if [p] is not None, the
    next one is on its way ([insert_seen]). *)
Definition index_seen (ops : list aop) (k : nat) (p : option (option nat)) : hnsw :=
  let h := fst (run_adds empty_index (firstn k ops)) in
  match p, nth_error ops k with
  | Some s, Some o =>
      insert_seen (a_env o) (with_once h) (a_id o)
        (p_normalize (e_prov (i_env (a_env o))) (a_vec o)) (a_lvl o) s
  | _, _ => h
  end.

Section HalfAdding.
  Variables (n M : nat) (cap : N) (ops : list aop) (P : provider).
  Hypothesis Hn : 0 < n.
  Hypothesis HM : 1 <= M.
  Hypothesis Hlen : length ops <= 2 * M + 1.
  Hypothesis Hnd : NoDup (map a_id ops).
  Hypothesis Hops : Forall (find_call n M cap (map a_id ops)) ops.
  Hypothesis HP : Forall (fun o => e_prov (i_env (a_env o)) = P) ops.
  Local Notation after := (after ops).

  Lemma nth_not_before k o : nth_error ops k = Some o -> ~ In (a_id o) (map a_id (firstn k ops)).
  Proof.
    intros Eo Hi. assert (Hd : NoDup (map a_id (firstn (S k) ops))).
    { rewrite <- firstn_map. now apply nodup_firstn. }
    rewrite (firstn_snoc _ _ _ Eo), map_app in Hd. cbn in Hd. apply NoDup_remove_2 in Hd.
    rewrite app_nil_r in Hd. contradiction.
  Qed.

  Lemma seen_after k s o : 1 <= k <= length ops -> nth_error ops k = Some o ->
    (forall j, s = Some j -> a_lvl o = 0) ->
    seen_rel (i_env (a_env o)) (a_id o) (p_normalize P (a_vec o)) (after k) (index_seen ops k (Some s)).
  Proof.
    intros Hk Eo Hs. unfold index_seen. rewrite Eo. fold (after k).
    pose proof (nth_error_In _ _ Eo) as Hoin.
    pose proof Hops as Hops'. pose proof HP as HP'. rewrite Forall_forall in Hops', HP'.
    rewrite (HP' o Hoin).
    destruct (Hops' o Hoin) as (Hcall & Hl & Hvc & HMo & Hefc & Hvs).
    pose proof (call_dop _ _ Hcall) as ((Hsc & Hsym & Hcap & Hidc) & Hdim & Hpl).
    destruct (after_state n M cap ops Hn HM Hlen Hnd Hops k Hk) as [(D & HDi & Hd & HDs) _ _].
    pose proof (nth_not_before k o Eo) as Hni.
    assert (HniD : ~ In (a_id o) D) by (intros H; apply Hni; auto).
    pose proof Hd as [W S Nd L Dm EpD (vep & Hep & Hml) Su O T K].
    set (h := after k) in *. set (q := p_normalize P (a_vec o)).
    assert (Hlk : k < length ops) by (apply nth_error_Some; congruence).
    assert (HlD : length D <= k).
    { rewrite <- (firstn_length_le ops (proj2 Hk)), <- (map_length a_id).
      apply NoDup_incl_length; [exact Nd|exact HDi]. }
    assert (S' : ids_small (i_env (a_env o)) (with_once h)).
    { unfold ids_small. rewrite Hcap. exact S. }
    assert (W' : winv (with_once h)) by (apply (winv_ext h); [reflexivity|exact W]).
    assert (Ep' : ep_top (with_once h)) by (exists vep; cbn; split; [exact Hep|lia]).
    assert (Hu : unlinked (a_id o) (with_once h)).
    { intros j v l cs Hj Hl0 Hin. apply HniD. eapply L; eauto. }
    assert (Hne : h_ep (with_once h) <> a_id o) by (intros E; apply HniD; rewrite <- E; exact EpD).
    assert (L' : lin (a_id o :: D) (with_once h)).
    { intros j v l cs c Hj Hl0 Hin. right. eapply L; eauto. }
    assert (Hno : node_by_id (with_once h) (a_id o) = None).
    { change (node_by_id h (a_id o) = None). destruct (node_by_id h (a_id o)) as [v|] eqn:Ev; [|reflexivity].
      exfalso. apply HniD. eapply HDs; eauto. }
    assert (Hidc' : (a_id o < e_vcap (i_env (a_env o)))%N) by now rewrite Hcap.
    assert (Hq : length q = n).
    { unfold q. rewrite <- (HP' o Hoin), Hpl. exact Hl. }
    assert (HR : seen_rel (i_env (a_env o)) (a_id o) q (with_once h)
                   (insert_seen (a_env o) (with_once h) (a_id o) q (a_lvl o) s)).
    { destruct s as [j|]; cbn [insert_seen].
      - apply (seen_ground (a_env o) Hsc Hsym n Hn (a_id o :: D)); auto.
        + lia.
        + rewrite HMo. cbn. lia.
        + intros i v Hi. change (node_by_id h i = Some v) in Hi. pose proof (HDs i v Hi) as HjD.
          split; [now right|]. split; [intros ->; contradiction|]. eapply Dm; eauto.
        + now left.
      - apply seen_new; auto. }
    destruct HR as [R1 R2 R3 R4 R5 R6]. constructor; auto.
  Qed.

  (* ---------------------------------------------------------------- *)
  Variable W : nat -> hnsw.
  Variable k : nat -> nat.
  Variable p : nat -> option (option nat).
  Hypothesis Hk : forall t, 1 <= k t <= length ops.
  Hypothesis Hmono : forall t t', t <= t' -> k t < k t' \/ (k t = k t' /\ (p t <> None -> p t' <> None)).
  Hypothesis Hlow : forall t j o, p t = Some (Some j) -> nth_error ops (k t) = Some o -> a_lvl o = 0.
  Hypothesis HW : forall t, exists ep m, W t = with_ep (index_seen ops (k t) (p t)) ep m.

  Lemma Hw_node t id : node_by_id (W t) id = node_by_id (index_seen ops (k t) (p t)) id.
  Proof. destruct (HW t) as (ep & m & ->). reflexivity. Qed.

  (** Either the index after [k t] additions or a half-done addition on top. *)
  Lemma seen_cases t :
    (index_seen ops (k t) (p t) = after (k t) /\ (p t = None \/ nth_error ops (k t) = None)) \/
    (p t <> None /\ exists o, nth_error ops (k t) = Some o /\
       seen_rel (i_env (a_env o)) (a_id o) (p_normalize P (a_vec o)) (after (k t)) (index_seen ops (k t) (p t))).
  Proof.
    destruct (p t) as [s|] eqn:Ep; [|left; auto].
    destruct (nth_error ops (k t)) as [o|] eqn:Eo.
    - right. split; [discriminate|]. exists o. split; [reflexivity|].
      apply seen_after; auto. intros j ->. eapply Hlow; eauto.
    - left. split; [|auto]. unfold index_seen. rewrite Eo. reflexivity.
  Qed.

  Definition there (t : nat) (o : aop) : Prop :=
    In o (firstn (k t) ops) \/ (p t <> None /\ nth_error ops (k t) = Some o).

  Lemma there_in t o : there t o -> In o ops.
  Proof. intros [H|[_ H]]; [eapply firstn_sub; eauto|eapply nth_error_In; eauto]. Qed.

  Lemma Hw_only t id v : node_by_id (W t) id = Some v ->
    exists o, there t o /\ a_id o = id /\ v_vec v = p_normalize P (a_vec o).
  Proof.
    rewrite Hw_node. destruct (seen_cases t) as [(-> & _)|(Hp & o & Eo & R)]; intros Hv.
    - destruct (after_only n M cap ops P Hn HM Hlen Hnd Hops HP _ _ _ (Hk t) Hv) as (o & Ho & H).
      exists o. split; [now left|exact H].
    - destruct (N.eq_dec id (a_id o)) as [->|Hne].
      + destruct (sr_new _ _ _ _ _ R) as (v' & Hv' & Hvec & _). rewrite Hv in Hv'. injection Hv' as <-.
        exists o. split; [right; auto|auto].
      + destruct (sr_bw _ _ _ _ _ R _ _ Hv Hne) as (v0 & Hv0).
        destruct (sr_fw _ _ _ _ _ R _ _ Hv0) as (v' & Hv' & Hvec & _). rewrite Hv in Hv'. injection Hv' as <-.
        destruct (after_only n M cap ops P Hn HM Hlen Hnd Hops HP _ _ _ (Hk t) Hv0) as (o' & Ho & Hi & Hvv).
        exists o'. split; [now left|]. split; [exact Hi|congruence].
  Qed.

  Lemma Hw_has t o : there t o -> exists v, node_by_id (W t) (a_id o) = Some v /\ v_vec v = p_normalize P (a_vec o).
  Proof.
    rewrite Hw_node. intros Ht. destruct (seen_cases t) as [(-> & Hx)|(Hp & o' & Eo & R)].
    - destruct Ht as [Ht|[Hp Eo]]; [|destruct Hx; congruence].
      eapply (after_node n M cap ops P Hn HM Hlen Hnd Hops HP); eauto.
    - destruct Ht as [Ht|[_ Eo']].
      + destruct (after_node n M cap ops P Hn HM Hlen Hnd Hops HP (k t) o (Hk t) Ht) as (v & Hv & Hvv).
        destruct (sr_fw _ _ _ _ _ R _ _ Hv) as (v' & Hv' & Hvec & _). exists v'. split; [exact Hv'|congruence].
      + rewrite Eo in Eo'. injection Eo' as <-. destruct (sr_new _ _ _ _ _ R) as (v & Hv & Hvec & _). eauto.
  Qed.

  Lemma there_mono t t' o : t <= t' -> there t o -> there t' o.
  Proof.
    intros Ht [H|[Hp Eo]].
    - left. apply (firstn_more n M ops Hn HM Hlen) with (2 := H). destruct (Hmono t t' Ht) as [|[]]; lia.
    - destruct (Hmono t t' Ht) as [Hlt|[He Hq]].
      + left. assert (H : In o (firstn (S (k t)) ops)).
        { rewrite (firstn_snoc _ _ _ Eo). apply in_or_app. right. now left. }
        apply (firstn_more n M ops Hn HM Hlen) with (2 := H). lia.
      + right. rewrite <- He. auto.
  Qed.

  Lemma Hw_one : one_vec W.
  Proof.
    intros t t' id v v' Hv Hv'.
    destruct (Hw_only _ _ _ Hv) as (o & Ho & Ei & ->). destruct (Hw_only _ _ _ Hv') as (o' & Ho' & Ei' & ->).
    rewrite (same_op ops Hnd o o'); eauto using there_in. congruence.
  Qed.

  Lemma op_small o : In o ops -> (a_id o < cap)%N.
  Proof.
    intros Ho. rewrite Forall_forall in Hops. destruct (Hops o Ho) as (Hcall & _).
    pose proof (call_dop _ _ Hcall) as ((_ & _ & _ & H) & _). exact H.
  Qed.

  Lemma Hw_ids E : e_vcap E = cap -> ids_in E W (map a_id ops).
  Proof.
    intros Hc t id v Hv. destruct (Hw_only _ _ _ Hv) as (o & Ho & <- & _). apply there_in in Ho.
    split; [now apply in_map|]. rewrite Hc. now apply op_small.
  Qed.

  Lemma Hw_lasting : lasting W.
  Proof.
    intros t t' id Ht Hs. destruct (node_by_id (W t) id) as [v|] eqn:Ev; [|congruence].
    destruct (Hw_only _ _ _ Ev) as (o & Ho & <- & _).
    destruct (Hw_has t' o (there_mono _ _ _ Ht Ho)) as (v' & Hv' & _). congruence.
  Qed.

  Lemma seen_winv t : winv (index_seen ops (k t) (p t)) /\ h_tomb (index_seen ops (k t) (p t)) = [].
  Proof.
    destruct (after_state n M cap ops Hn HM Hlen Hnd Hops _ (Hk t)) as [(D & _ & Hd & _) _ _].
    destruct (seen_cases t) as [(Hs & _)|(Hp & o & Eo & R)]; [rewrite Hs|].
    - split; [exact (d_w _ _ _ _ _ Hd)|exact (d_tomb _ _ _ _ _ Hd)].
    - split; [exact (sr_w _ _ _ _ _ R)|]. rewrite (sr_tomb _ _ _ _ _ R). exact (d_tomb _ _ _ _ _ Hd).
  Qed.

  Lemma Hw_wf t : wf_levels (W t).
  Proof. intros id v Hv. rewrite Hw_node in Hv. exact (winv_wf n Hn _ (proj1 (seen_winv t)) id v Hv). Qed.

  Lemma Hw_tomb t id : has_tombstone (W t) id = false.
  Proof.
    pose proof (proj2 (seen_winv t)) as HT. destruct (HW t) as (ep & m & ->). unfold has_tombstone. cbn. now rewrite HT.
  Qed.

  (** What is complete stays linked. *)
  Lemma Hw_extends t0 t : t0 <= t -> extends 0 (after (k t0)) (W t).
  Proof.
    intros Ht id v Hv. assert (Hkk : k t0 <= k t) by (destruct (Hmono t0 t Ht) as [|[]]; lia).
    destruct (after_only n M cap ops P Hn HM Hlen Hnd Hops HP _ _ _ (Hk t0) Hv) as (o & Ho & <- & Hvec).
    destruct (after_node n M cap ops P Hn HM Hlen Hnd Hops HP (k t) o (Hk t) (firstn_more n M ops Hn HM Hlen _ _ _ Hkk Ho)) as (v1 & Hv1 & Hvec1).
    assert (H1 : exists v', node_by_id (W t) (a_id o) = Some v' /\ v_vec v' = v_vec v1 /\
              forall cs, nth_error (v_conns v1) 0 = Some cs -> exists cs', nth_error (v_conns v') 0 = Some cs' /\ incl cs cs').
    { rewrite Hw_node. destruct (seen_cases t) as [(-> & _)|(_ & o' & Eo & R)].
      - exists v1. split; [exact Hv1|]. split; [reflexivity|]. intros cs Hcs. exists cs. split; [exact Hcs|apply incl_refl].
      - destruct (sr_fw _ _ _ _ _ R _ _ Hv1) as (v' & A1 & A2 & _ & _ & A3). eauto. }
    destruct H1 as (v' & Hv' & Hvv & Hcs). exists v'. split; [exact Hv'|]. split; [congruence|]. intros _.
    split; [lia|]. intros conns Hc.
    destruct (after_state n M cap ops Hn HM Hlen Hnd Hops _ (Hk t)) as [(D & _ & Hd & _) _ _].
    pose proof (w_len _ (d_w _ _ _ _ _ Hd) _ _ Hv1) as Hl1.
    destruct (nth_error (v_conns v1) 0) as [c1|] eqn:Ec1; [|apply nth_error_None in Ec1; lia].
    destruct (Hcs c1 eq_refl) as (cs' & Hcs' & Hinc). exists cs'. split; [exact Hcs'|].
    intros b Hb. apply Hinc.
    assert (Hg : glink (after (k t0)) (a_id o) b) by (exists v, conns; auto).
    apply (after_keeps n M cap ops Hn HM Hlen Hnd Hops (k t0) (k t)) in Hg; [|apply Hk|exact Hkk|apply Hk].
    destruct Hg as (v2 & c2 & Hv2 & Hc2 & Hb2). rewrite Hv1 in Hv2. injection Hv2 as <-.
    rewrite Ec1 in Hc2. injection Hc2 as <-. exact Hb2.
  Qed.

  (** Above the ground, links lead to complete vertices. *)
  Lemma Hw_upper l t t0 id v cs c : 1 <= l -> t <= t0 -> node_by_id (W t) id = Some v ->
    conns_at v l = Some cs -> In c cs -> node_by_id (after (k t0)) c <> None.
  Proof.
    intros Hl Ht Hv Hc Hin. rewrite Hw_node in Hv.
    assert (Hkk : k t <= k t0) by (destruct (Hmono t t0 Ht) as [|[]]; lia).
    destruct (after_state n M cap ops Hn HM Hlen Hnd Hops _ (Hk t)) as [(D & _ & Hd & _) _ _].
    assert (Hx : exists w, node_by_id (after (k t)) c = Some w).
    { destruct (seen_cases t) as [(Hs & _)|(_ & o & Eo & R)].
      - rewrite Hs in Hv. destruct (w_link _ (d_w _ _ _ _ _ Hd) _ _ _ _ _ Hv Hc Hin) as (_ & w & Hw & _). eauto.
      - destruct (N.eq_dec id (a_id o)) as [->|Hne].
        + destruct (sr_new _ _ _ _ _ R) as (v' & Hv' & _ & Hnil). rewrite Hv in Hv'. injection Hv' as <-.
          rewrite (Hnil l cs ltac:(lia) Hc) in Hin. destruct Hin.
        + destruct (sr_bw _ _ _ _ _ R _ _ Hv Hne) as (v0 & Hv0).
          destruct (sr_fw _ _ _ _ _ R _ _ Hv0) as (v' & Hv' & _ & _ & Hcn & _). rewrite Hv in Hv'. injection Hv' as <-.
          unfold conns_at in Hc. rewrite (Hcn l ltac:(lia)) in Hc.
          destruct (w_link _ (d_w _ _ _ _ _ Hd) _ _ _ _ _ Hv0 Hc Hin) as (_ & w & Hw & _). eauto. }
    destruct Hx as (w & Hw).
    destruct (after_only n M cap ops P Hn HM Hlen Hnd Hops HP _ _ _ (Hk t) Hw) as (o & Ho & <- & _).
    destruct (after_node n M cap ops P Hn HM Hlen Hnd Hops HP (k t0) o (Hk t0) (firstn_more n M ops Hn HM Hlen _ _ _ Hkk Ho)) as (v1 & Hv1 & _).
    congruence.
  Qed.

  Theorem half_query E C e q0 maxd ef :
    sched_ok E -> e_prov E = P -> e_vcap E = cap -> length q0 = n -> (Z.of_nat (length ops) <= ef)%Z ->
    (forall o d, In o ops -> p_query P (p_normalize P q0) (p_normalize P (a_vec o)) = Some d -> is_num d = true) ->
    in_order C e ->
    (exists o, In o (firstn (k (t_start C)) ops) /\ a_id o = h_ep (W (t_ep C))) ->
    exists out,
      knn_max_dist_at E W C (length ops) q0 maxd ef None = Ok out /\
      asc (answer out) /\ NoDup (fst out) /\ map it_id (answer out) = fst out /\
      (forall o d, In o (firstn (k (e 1)) ops) ->
         p_query P (p_normalize P q0) (p_normalize P (a_vec o)) = Some d ->
         flt d f32_zero = false -> fgt d maxd = false -> In (mkItem (a_id o) d) (answer out)) /\
      (forall id d, In (mkItem id d) (answer out) ->
         flt d f32_zero = false /\ fgt d maxd = false /\ exists o, In o ops /\ a_id o = id /\
           p_query P (p_normalize P q0) (p_normalize P (a_vec o)) = Some d).
  Proof.
    intros Hsc HEP Hcap Hq Hef Hnum Ho (oe & Hoe & Hoeid).
    assert (HkP : known_provider P).
    { pose proof (firstn_sub ops _ _ Hoe) as Hoi. rewrite Forall_forall in Hops, HP.
      destruct (Hops oe Hoi) as ((_ & Hkn & _) & _). rewrite (HP oe Hoi) in Hkn. exact Hkn. }
    assert (Hsym : prov_sym (e_prov E)) by (rewrite HEP; now apply known_psym).
    set (q := p_normalize P q0) in *.
    assert (Hql : length q = n) by (unfold q; now rewrite (known_len P HkP)).
    pose proof (Hw_ids E Hcap) as Hids.
    assert (Hol : forall o, In o ops -> length (p_normalize P (a_vec o)) = n).
    { intros o Hoo. rewrite (known_len P HkP). rewrite Forall_forall in Hops.
      destruct (Hops o Hoo) as (_ & Hx & _). exact Hx. }
    assert (Hvl : forall t id v, node_by_id (W t) id = Some v -> length (v_vec v) = n).
    { intros t id v Hv. destruct (Hw_only _ _ _ Hv) as (o & Hoo & _ & ->). apply Hol. eapply there_in; eauto. }
    destruct (Hw_has (t_start C) oe (or_introl Hoe)) as (vep & Hep & _). rewrite Hoeid in Hep.
    destruct (dist_node_vec_total (mkI E (fun _ _ _ => Panic) 0 0 0) ltac:(cbn; rewrite HEP; now apply known_dim) n Hn
                (W (t_start C)) (h_ep (W (t_ep C))) vep q Hep (Hvl _ _ _ Hep) Hql) as (d0 & Hd0).
    cbn [i_env] in Hd0.
    assert (Hlm : length ops = length (map a_id ops)) by now rewrite map_length.
    rewrite Hlm.
    destruct (knn_at_total E W C (map a_id ops) Hsc Hsym Hids e Ho Hw_one Hw_lasting Hw_wf q0 maxd ef None d0) as (out & Hout).
    { rewrite HEP in Hd0 |- *. exact Hd0. }
    assert (Hsn : seen_num (e_prov E) W (p_normalize (e_prov E) q0)).
    { rewrite HEP. fold q. intros t id d (v & Hv & Hd). destruct (Hw_only _ _ _ Hv) as (o & Hoo & _ & Hvv).
      rewrite Hvv in Hd. eapply Hnum; [|exact Hd]. eapply there_in; eauto. }
    destruct (knn_at_sound E W C (map a_id ops) Hsc Hsym Hids q0 maxd ef None out Hout) as (S1 & _ & _ & S2 & S3).
    destruct (S3 Hsn) as (S4 & S5 & S6).
    assert (Hse : k (t_start C) <= k (e 1)).
    { destruct Ho as (Ho1 & _). destruct (Ho1 1) as (A1 & A2 & _).
      destruct (Hmono (t_start C) (e 1) ltac:(lia)) as [|[]]; lia. }
    pose proof (after_state n M cap ops Hn HM Hlen Hnd Hops _ (Hk (e 1))) as [_ _ Hgr].
    exists out. split; [exact Hout|]. split; [exact S4|]. split; [exact S1|]. split; [exact S5|]. split.
    - intros o d Hoo Hd Hz Hm.
      refine (knn_found_in E W C (map a_id ops) Hsc Hsym Hids e Ho Hw_one Hw_wf (after (k (e 1))) q0 maxd ef None out Hsn
                _ _ _ _ _ _ _ Hout (a_id o) d _ _ Hz Hm).
      + intros t Ht. apply Hw_extends. lia.
      + intros t id _ _. apply Hw_tomb.
      + intros id v Hv. rewrite HEP. fold q. pose proof (known_dim P HkP) as Hdm.
        destruct (after_only n M cap ops P Hn HM Hlen Hnd Hops HP _ _ _ (Hk (e 1)) Hv) as (o' & Ho' & _ & Hvv).
        destruct (proj1 (Hdm (v_vec v) q)) as (dc & Hdc).
        { rewrite Hql, Hvv. apply Hol. eapply firstn_sub; eauto. }
        exists dc. rewrite <- Hdc. symmetry. rewrite HEP in Hsym. apply Hsym.
      + intros a b va vb Ha Hb. eapply Hgr; eauto; discriminate.
      + rewrite <- Hoeid.
        destruct (after_node n M cap ops P Hn HM Hlen Hnd Hops HP _ oe (Hk (e 1)) (firstn_more n M ops Hn HM Hlen _ _ _ Hse Hoe)) as (v & Hv & _).
        congruence.
      + intros l t id v cs c Hl Ht _ Hv Hc Hin. eapply Hw_upper; eauto.
      + rewrite map_length. exact Hef.
      + rewrite HEP. fold q. destruct (after_node n M cap ops P Hn HM Hlen Hnd Hops HP _ o (Hk (e 1)) Hoo) as (v & Hv & Hvv).
        exists v. rewrite Hvv. auto.
      + discriminate.
    - intros id d Hi. apply In_nth_error in Hi. destruct Hi as (i & Hi).
      assert (H1 : nth_error (fst out) i = Some id) by (rewrite <- S5, nth_error_map, Hi; reflexivity).
      destruct (S2 i id H1) as (d' & H2 & (t & H3) & _ & H4 & H5 & _).
      assert (H6 : nth_error (firstn (length (fst out)) (snd out)) i = Some d)
        by (rewrite <- S6, nth_error_map, Hi; reflexivity).
      rewrite nth_firstn in H6 by (apply nth_error_Some; congruence). rewrite H2 in H6. injection H6 as ->.
      split; [exact H4|]. split; [exact H5|].
      rewrite HEP in H3. fold q in H3. destruct H3 as (v & Hv & Hd).
      destruct (Hw_only _ _ _ Hv) as (o & Hoo & Ei & Hvv). rewrite Hvv in Hd.
      exists o. split; [eapply there_in; eauto|]. auto.
  Qed.
End HalfAdding.
