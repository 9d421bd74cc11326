(** Layer-search theorems: soundness, termination, order, exhaustiveness and
    exactness on complete graphs. *)
From Verif Require Import Base F32 PQ PQProofs Graph Search SearchProofs.
From Coq Require Import Sorting.Sorted.

(** Every stored vertex has connection lists up to its level. *)
Definition wf_levels (h : hnsw) : Prop :=
  forall id v, node_by_id h id = Some v -> v_level v < length (v_conns v).

Section Layer.
  Variable E : env.
  Variable h : hnsw.
  Variable q : vec.
  Variable ef : Z.
  Variable level : nat.
  Variable allow : option (N -> bool).

  Local Notation P := (e_prov E).
  Local Notation step := (step_nd h ef level allow).
  Local Notation loop := (search_loop E h q ef level allow).
  Local Notation tdist := (true_dist P h q).
  Local Notation okid id := (has_tombstone h id = false /\ allowed level allow id = true).
  Local Notation layer ep := (search_layer E h q ef level allow (pq_insert less_min ep [])).

  Definition init_results (ep : item) : list item :=
    if allowed level allow (it_id ep) && negb (has_tombstone h (it_id ep)) then [ep] else [].
  Definition init_visited (ep : item) : list N :=
    if N.ltb (it_id ep) (e_vcap E) then [it_id ep] else [].
  Definition init_state (ep : item) (w : f32) : sst :=
    mkS [ep] (init_results ep) w (init_visited ep).

  Lemma layer_single ep :
    layer ep = (do! w <- worst_dist E h q (init_results ep);
                do! s <- loop (S (1 + length (stored_ids h))) (init_state ep w);
                Ok (s_results s)).
  Proof.
    unfold search_layer, init_state, init_results, init_visited.
    change (pq_insert less_min ep []) with [ep].
    change (pq_drain less_min [ep]) with [ep].
    cbn [map visit_eps fold_left orb length]. unfold add_ep. cbn [fst snd].
    destruct (allowed level allow (it_id ep)); cbn [negb andb];
      [|destruct (N.ltb (it_id ep) (e_vcap E)); cbn [negb]; reflexivity].
    destruct (has_tombstone h (it_id ep)); cbn [negb];
      destruct (N.ltb (it_id ep) (e_vcap E)); cbn [negb]; reflexivity.
  Qed.

  Lemma init_results_cases ep :
    (init_results ep = [ep] /\ okid (it_id ep)) \/
    (init_results ep = [] /\ ~ okid (it_id ep)).
  Proof.
    unfold init_results. destruct (allowed level allow (it_id ep)), (has_tombstone h (it_id ep)); cbn;
      [right|left|right|right]; split; auto; intuition congruence.
  Qed.

  Lemma init_sinv ep w :
    tdist (it_id ep) (it_dist ep) -> (it_id ep < e_vcap E)%N ->
    sinv E h q ef level allow ep (init_state ep w).
  Proof.
    intros Hd Hv. unfold init_state, init_visited. apply N.ltb_lt in Hv. rewrite Hv.
    assert (Hg : good E h q level ep ep) by (split; [exact Hd|constructor]).
    destruct (init_results_cases ep) as [[-> Hok]|[-> Hok]]; constructor; cbn.
    all: try (intros x [<-|[]]; auto).
    all: try (repeat constructor; cbn; tauto).
    all: try (intros x []).
    all: lia.
  Qed.

  (** Soundness of one layer search. *)
  Lemma layer_sound ep r :
    sched_ok E -> tdist (it_id ep) (it_dist ep) -> (it_id ep < e_vcap E)%N ->
    layer ep = Ok r ->
    (forall x, In x r -> tdist (it_id x) (it_dist x) /\
       reach h level (it_id ep) (it_id x) /\ okid (it_id x)) /\
    NoDup (map it_id r) /\ (Z.of_nat (length r) <= Z.max ef 1)%Z.
  Proof.
    intros Hs Hd Hv Hr. rewrite layer_single in Hr.
    apply bind_Ok in Hr. destruct Hr as (w & Hw & Hr).
    apply bind_Ok in Hr. destruct Hr as (s & Hl & Hr). inversion Hr; subst.
    pose proof (loop_rule_sinv E h q ef level allow ep (fun _ => True) Hs) as Hrule.
    destruct Hrule with (fuel := S (1 + length (stored_ids h))) (s := init_state ep w) (s' := s)
      as (s0 & [Hcg Hrg Hcv Hrv Hcn Hrn Hro Hrl] & _ & Heq & _); auto using init_sinv.
    rewrite Heq. split; [|auto]. intros x Hx. destruct (Hrg x Hx). auto.
  Qed.

  (* ---------------------------------------------------------------- *)
  (** Termination. *)
  Definition unvisited (vis : list N) : list N :=
    filter (fun x => negb (memN x vis)) (nodup N.eq_dec (stored_ids h)).
  Definition measure (s : sst) : nat := length (s_cands s) + length (unvisited (s_visited s)).

  Lemma stored_in id v : node_by_id h id = Some v -> In id (stored_ids h).
  Proof.
    unfold node_by_id, stored_ids. intros H. apply in_or_app.
    destruct (mget id (h_cache h)) eqn:Em; [left|right]; eapply mget_Some_in; eauto.
  Qed.

  Lemma tdist_stored id d : tdist id d -> In id (stored_ids h).
  Proof. intros (v & Hv & _). eapply stored_in; eauto. Qed.

  Lemma unvisited_fresh conns vis ids vis' :
    fresh conns vis = (ids, vis') ->
    length (unvisited vis') + length (neighbour_dists E h q ids) <= length (unvisited vis).
  Proof.
    intros Hf. destruct (fresh_spec _ _ _ _ Hf) as (Hnd & Hinc & Hfr & Hvis & _).
    rewrite <- (map_length it_id (neighbour_dists E h q ids)), <- app_length.
    apply NoDup_incl_length.
    - apply NoDup_app_intro.
      + apply NoDup_filter. apply NoDup_nodup.
      + now apply neighbour_dists_ids.
      + intros x Hx Hy. apply filter_In in Hx. destruct Hx as [_ Hx].
        apply negb_true_iff, memN_notIn in Hx. apply Hx, Hvis. left.
        apply in_map_iff in Hy. destruct Hy as (y & <- & Hy).
        apply neighbour_dists_spec in Hy. tauto.
    - intros x Hx. apply in_app_or in Hx. unfold unvisited. rewrite filter_In, negb_true_iff, memN_notIn.
      destruct Hx as [Hx|Hx].
      + apply filter_In in Hx. destruct Hx as [Hx1 Hx2]. apply negb_true_iff, memN_notIn in Hx2.
        split; [exact Hx1|]. intros Hv. apply Hx2, Hvis. now right.
      + apply in_map_iff in Hx. destruct Hx as (y & <- & Hy).
        apply neighbour_dists_spec in Hy. destruct Hy as [Hy1 Hy2].
        split; [apply nodup_In; eapply tdist_stored; eauto|auto].
  Qed.

  Lemma step_cands_length s nd : length (s_cands (step s nd)) <= S (length (s_cands s)).
  Proof.
    destruct (step_cases h ef level allow s nd) as [(-> & _)|[(-> & _)|(r2 & _ & _ & -> & _)]];
      cbn; rewrite ?insert_length; lia.
  Qed.

  Lemma fold_cands_length nds : forall s,
    length (s_cands (fold_left step nds s)) <= length nds + length (s_cands s) /\
    s_visited (fold_left step nds s) = s_visited s.
  Proof.
    induction nds as [|nd nds IH]; intros s; cbn; [auto|].
    destruct (IH (step s nd)) as [H1 H2]. pose proof (step_cands_length s nd).
    rewrite step_visited in H2. split; [lia|exact H2].
  Qed.

  Lemma loop_total : sched_ok E -> wf_levels h -> forall fuel s,
    measure s < fuel -> exists s', loop fuel s = Ok s'.
  Proof.
    intros Hsc Hwf. induction fuel as [|f IH]; intros s Hm; [lia|]. cbn [search_loop].
    destruct (pq_pop less_min (s_cands s)) as [[c cands']|] eqn:Epop; [|eauto].
    destruct (_ && _) eqn:Ebr; [eauto|].
    pose proof (pop_length _ _ _ _ Epop) as Hlen.
    assert (Hskip : exists s', loop f (mkS cands' (s_results s) (s_worst s) (s_visited s)) = Ok s').
    { apply IH. unfold measure in *. cbn in *. lia. }
    destruct (node_by_id h (it_id c)) as [v|] eqn:Ev; [|exact Hskip].
    destruct (Nat.ltb_spec (v_level v) level) as [Hl|Hl]; [exact Hskip|].
    destruct (conns_at v level) as [conns|] eqn:Ec.
    - destruct (fresh conns (s_visited s)) as [ids vis'] eqn:Ef. apply IH.
      pose proof (unvisited_fresh _ _ _ _ Ef) as Hu.
      destruct (fold_cands_length (e_sched E level f (neighbour_dists E h q ids))
                  (mkS cands' (s_results s) (s_worst s) vis')) as [H1 H2].
      unfold measure in *. rewrite H2. cbn [s_cands s_visited] in *.
      pose proof (Permutation_length (Hsc level f (neighbour_dists E h q ids))). lia.
    - exfalso. unfold conns_at in Ec. apply nth_error_None in Ec.
      specialize (Hwf _ _ Ev). lia.
  Qed.

  (** The loop never returns an error and, whatever the links, never runs out
      of fuel (it may panic on a vertex without the layer's list). *)
  Lemma loop_no_fuel : sched_ok E -> forall fuel s,
    measure s < fuel -> loop fuel s <> OutOfFuel.
  Proof.
    intros Hsc. induction fuel as [|f IH]; intros s Hm; [lia|]. cbn [search_loop].
    destruct (pq_pop less_min (s_cands s)) as [[c cands']|] eqn:Epop; [|discriminate].
    destruct (_ && _) eqn:Ebr; [discriminate|].
    pose proof (pop_length _ _ _ _ Epop) as Hlen.
    assert (Hskip : loop f (mkS cands' (s_results s) (s_worst s) (s_visited s)) <> OutOfFuel).
    { apply IH. unfold measure in *. cbn in *. lia. }
    destruct (node_by_id h (it_id c)) as [v|] eqn:Ev; [|exact Hskip].
    destruct (Nat.ltb_spec (v_level v) level) as [Hl|Hl]; [exact Hskip|].
    destruct (conns_at v level) as [conns|] eqn:Ec; [|discriminate].
    destruct (fresh conns (s_visited s)) as [ids vis'] eqn:Ef. apply IH.
    pose proof (unvisited_fresh _ _ _ _ Ef) as Hu.
    destruct (fold_cands_length (e_sched E level f (neighbour_dists E h q ids))
                (mkS cands' (s_results s) (s_worst s) vis')) as [H1 H2].
    unfold measure in *. rewrite H2. cbn [s_cands s_visited] in *.
    pose proof (Permutation_length (Hsc level f (neighbour_dists E h q ids))). lia.
  Qed.

  Lemma init_measure ep w : measure (init_state ep w) < S (1 + length (stored_ids h)).
  Proof.
    unfold measure, init_state, unvisited. cbn [s_cands s_visited length].
    match goal with |- context [length (filter ?f ?l)] => pose proof (filter_length_le f l) end.
    assert (length (nodup N.eq_dec (stored_ids h)) <= length (stored_ids h)).
    { apply NoDup_incl_length; [apply NoDup_nodup|]. intros x Hx. now apply nodup_In in Hx. }
    lia.
  Qed.

  Lemma layer_total ep :
    sched_ok E -> wf_levels h -> tdist (it_id ep) (it_dist ep) -> exists r, layer ep = Ok r.
  Proof.
    intros Hsc Hwf Hd. rewrite layer_single.
    assert (Hw : exists w, worst_dist E h q (init_results ep) = Ok w).
    { destruct (init_results_cases ep) as [[-> _]|[-> _]]; cbn; [|eauto].
      apply dist_float_node_spec in Hd. rewrite Hd. eauto. }
    destruct Hw as (w & ->). cbn [bind].
    destruct (loop_total Hsc Hwf _ _ (init_measure ep w)) as (s & ->). cbn. eauto.
  Qed.

  Lemma layer_no_fuel ep : sched_ok E -> layer ep <> OutOfFuel.
  Proof.
    intros Hsc. rewrite layer_single.
    destruct (worst_dist E h q (init_results ep)) as [w|e| |] eqn:Ew; cbn [bind]; try discriminate.
    - pose proof (loop_no_fuel Hsc _ _ (init_measure ep w)) as Hn.
      destruct (loop _ _); cbn; congruence.
    - revert Ew. unfold worst_dist. destruct (pq_top _); [|discriminate].
      destruct (dist_float_node _ _ _ _); discriminate.
  Qed.

  (* ---------------------------------------------------------------- *)
  (** Heap order. *)
  Section Ordered.
    Hypothesis Hnum : dists_num P h q.
    Variable ep : item.

    Definition wcond (s : sst) : Prop :=
      match pq_top (s_results s) with
      | Some x => s_worst s = it_dist x
      | None => s_worst s = f32_max
      end.
    Definition hinv (s : sst) : Prop :=
      heap less_min (s_cands s) /\ heap less_max (s_results s) /\ wcond s.

    Lemma sinv_num s : sinv E h q ef level allow ep s ->
      allP numItem (s_cands s) /\ allP numItem (s_results s).
    Proof.
      intros Hs. split; intros x Hx.
      - destruct (si_cg _ _ _ _ _ _ _ _ Hs x Hx) as [Hd _]. eapply Hnum; eauto.
      - destruct (si_rg _ _ _ _ _ _ _ _ Hs x Hx) as [Hd _]. eapply Hnum; eauto.
    Qed.

    Lemma hinv_step s nd :
      sinv E h q ef level allow ep s -> hinv s -> numItem nd -> hinv (step s nd).
    Proof.
      intros Hs (Hc & Hr & Hw) Hn. destruct (sinv_num s Hs) as [Hnc Hnr].
      assert (Hc' : heap less_min (pq_insert less_min nd (s_cands s))).
      { eapply insert_heap; eauto using less_min_asym, less_min_trans. }
      destruct (step_cases h ef level allow s nd) as [(-> & _)|[(-> & _)|(r2 & _ & _ & -> & Hr2)]].
      - split; auto.
      - split; [exact Hc'|]. split; [exact Hr|exact Hw].
      - assert (Hr' : heap less_max (pq_insert less_max nd (s_results s))).
        { eapply insert_heap; eauto using less_max_asym, less_max_trans. }
        split; [exact Hc'|]. unfold wcond in *. cbn [s_results s_worst].
        destruct Hr2 as [[_ ->]|[_ (y & Hy)]].
        + split; [exact Hr'|].
          pose proof (insert_length less_max nd (s_results s)) as Hil.
          destruct (pq_insert less_max nd (s_results s)) as [|x l]; [discriminate|reflexivity].
        + split.
          * eapply pop_heap; eauto using less_max_asym, less_max_trans.
            now apply insert_allP.
          * destruct (pq_top r2) as [x|] eqn:Et; [reflexivity|].
            apply pop_length in Hy. rewrite insert_length in Hy.
            destruct r2; [|discriminate]. cbn in Hy. destruct (s_results s); [exact Hw|discriminate].
    Qed.

    Lemma hinv_pop s c cands' vis : sinv E h q ef level allow ep s ->
      hinv s -> pq_pop less_min (s_cands s) = Some (c, cands') ->
      hinv (mkS cands' (s_results s) (s_worst s) vis).
    Proof.
      intros Hs (Hc & Hr & Hw) Hp. destruct (sinv_num s Hs) as [Hnc _].
      split; [|split; [exact Hr|exact Hw]]. cbn.
      eapply pop_heap; eauto using less_min_asym, less_min_trans.
    Qed.

    Lemma good_num x : good E h q level ep x -> numItem x.
    Proof. intros [Hd _]. eapply Hnum; eauto. Qed.

    Lemma hinv_fold s nds :
      sinv E h q ef level allow ep s -> hinv s ->
      (forall x, In x nds -> good E h q level ep x /\ In (it_id x) (s_visited s) /\ ~ ids_of s (it_id x)) ->
      NoDup (map it_id nds) -> hinv (fold_left step nds s).
    Proof.
      intros Hs Hh Hin Hnd.
      apply (fold_steps E h q ef level allow ep hinv nds s); auto.
      intros s1 nd Hi Hs1 Hh1 Hv Hni. apply hinv_step; auto.
      eapply good_num. now apply Hin.
    Qed.

    Lemma init_hinv w : tdist (it_id ep) (it_dist ep) ->
      worst_dist E h q (init_results ep) = Ok w -> hinv (init_state ep w).
    Proof.
      intros Hd Hw.
      assert (H1 : forall (less : item -> item -> bool) x, heap less [x]).
      { intros less x c Hc a b Ha Hb. destruct c; [lia|]. destruct c; discriminate. }
      unfold hinv, wcond, init_state. cbn [s_cands s_results s_worst].
      split; [apply H1|].
      destruct (init_results_cases ep) as [[Hi _]|[Hi _]]; rewrite Hi in *; cbn in *.
      - split; [apply H1|]. apply dist_float_node_spec in Hd. rewrite Hd in Hw. congruence.
      - split; [apply nil_heap|congruence].
    Qed.

    (** Loop rule with both invariants and one more. *)
    Lemma loop_rule_h (J : sst -> Prop) :
      sched_ok E ->
      (forall s c cands', sinv E h q ef level allow ep s -> hinv s -> J s ->
         pq_pop less_min (s_cands s) = Some (c, cands') ->
         (fgt (it_dist c) (s_worst s) && (ef <=? Z.of_nat (length (s_results s)))%Z) = false ->
         (node_by_id h (it_id c) = None \/
          exists v, node_by_id h (it_id c) = Some v /\ v_level v < level) ->
         J (mkS cands' (s_results s) (s_worst s) (s_visited s))) ->
      (forall s c cands' v conns ids vis' f,
         sinv E h q ef level allow ep s -> hinv s -> J s ->
         pq_pop less_min (s_cands s) = Some (c, cands') ->
         (fgt (it_dist c) (s_worst s) && (ef <=? Z.of_nat (length (s_results s)))%Z) = false ->
         node_by_id h (it_id c) = Some v -> level <= v_level v -> conns_at v level = Some conns ->
         fresh conns (s_visited s) = (ids, vis') ->
         let nds := e_sched E level f (neighbour_dists E h q ids) in
         let s1 := mkS cands' (s_results s) (s_worst s) vis' in
         sinv E h q ef level allow ep s1 -> hinv s1 ->
         (forall x, In x nds -> good E h q level ep x /\ In (it_id x) (s_visited s1) /\ ~ ids_of s1 (it_id x)) ->
         NoDup (map it_id nds) ->
         J (fold_left step nds s1)) ->
      forall r, tdist (it_id ep) (it_dist ep) -> (it_id ep < e_vcap E)%N ->
        (forall w, worst_dist E h q (init_results ep) = Ok w -> J (init_state ep w)) ->
        layer ep = Ok r ->
        exists s0, sinv E h q ef level allow ep s0 /\ hinv s0 /\ J s0 /\ r = s_results s0 /\
          (s_cands s0 = [] \/
           exists c cands', pq_pop less_min (s_cands s0) = Some (c, cands') /\
             fgt (it_dist c) (s_worst s0) = true /\ (ef <= Z.of_nat (length (s_results s0)))%Z).
    Proof.
      intros Hsc Hskip Hexp r Hd Hv HJ0 Hr. rewrite layer_single in Hr.
      apply bind_Ok in Hr. destruct Hr as (w & Hw & Hr).
      apply bind_Ok in Hr. destruct Hr as (s & Hl & Hr). inversion Hr; subst.
      destruct (loop_rule_sinv E h q ef level allow ep (fun s => hinv s /\ J s) Hsc)
        with (fuel := S (1 + length (stored_ids h))) (s := init_state ep w) (s' := s)
        as (s0 & H1 & [H2 H3] & H4 & H5); auto using init_sinv, init_hinv.
      - intros s1 c cands' Hs1 [Hh1 HJ1] Hp Hb Hn. split; [eapply hinv_pop; eauto|eapply Hskip; eauto].
      - intros s1 c cands' v conns ids vis' f Hs1 [Hh1 HJ1] Hp Hb Hv1 Hl1 Hc Hf nds s2 Hs2 Hin Hnd.
        assert (Hh2 : hinv s2) by (eapply hinv_pop; eauto).
        split; [apply hinv_fold; auto|eapply Hexp; eauto].
      - exists s0. auto.
    Qed.

    Lemma layer_heap r :
      sched_ok E -> tdist (it_id ep) (it_dist ep) -> (it_id ep < e_vcap E)%N ->
      layer ep = Ok r -> heap less_max r /\ allP numItem r.
    Proof.
      intros Hsc Hd Hv Hr.
      destruct (loop_rule_h (fun _ => True) Hsc) with (r := r) as (s0 & H1 & (_ & H2 & _) & _ & -> & _); auto.
      split; [exact H2|]. now apply sinv_num.
    Qed.

    (** The best result is not farther than an entry point that is itself a
        valid result. *)
    Lemma layer_closer r :
      sched_ok E -> (1 <= ef)%Z -> tdist (it_id ep) (it_dist ep) -> (it_id ep < e_vcap E)%N ->
      okid (it_id ep) -> layer ep = Ok r ->
      exists x, In x r /\ flt (it_dist ep) (it_dist x) = false.
    Proof.
      intros Hsc Hef Hd Hv Hok Hr.
      pose (J := fun s => exists x, In x (s_results s) /\ flt (it_dist ep) (it_dist x) = false).
      assert (Hstep : forall s nd, sinv E h q ef level allow ep s -> hinv s -> numItem nd -> J s -> J (step s nd)).
      { intros s nd Hs (_ & Hhr & _) Hn (x & Hx & Hfx). unfold J.
        destruct (sinv_num s Hs) as [_ Hnr].
        destruct (step_cases h ef level allow s nd) as [(-> & _)|[(-> & _)|(r2 & _ & _ & -> & Hr2)]];
          cbn [s_results]; [eauto|eauto|].
        destruct Hr2 as [[_ ->]|[Hlen (y & Hy)]].
        - exists x. split; [apply insert_In; auto|exact Hfx].
        - assert (Hhi : heap less_max (pq_insert less_max nd (s_results s))).
          { eapply insert_heap; eauto using less_max_asym, less_max_trans. }
          assert (Hni : allP numItem (pq_insert less_max nd (s_results s))) by now apply insert_allP.
          pose proof (pop_min less_max numItem less_max_asym less_max_trans _ _ _ Hhi Hni Hy) as Hmin.
          pose proof (pop_perm _ _ _ _ Hy) as Hpm.
          assert (Hxin : In x (pq_insert less_max nd (s_results s))) by (apply insert_In; auto).
          apply (Permutation_in _ Hpm) in Hxin as Hx2. destruct Hx2 as [->|Hx2]; [|eauto].
          destruct r2 as [|z r2].
          + exfalso. apply pop_length in Hy. rewrite insert_length in Hy. cbn in Hy.
            destruct (s_results s); [destruct Hx|]. cbn in Hy. lia.
          + exists z. split; [now left|].
            assert (Hz : In z (pq_insert less_max nd (s_results s))).
            { eapply Permutation_in; [symmetry; exact Hpm|right; now left]. }
            specialize (Hmin z Hz). unfold less_max, fgt in Hmin.
            apply nflt_trans with (b := it_dist x); auto.
            * apply Hni; auto.
            * apply Hni; auto.
            * eapply Hnum; eauto. }
      destruct (loop_rule_h J Hsc) with (r := r) as (s0 & _ & _ & HJ & -> & _); auto.
      - intros s c cands' v conns ids vis' f Hs Hh HJs Hp Hb Hv1 Hl Hc Hf nds s1 Hs1 Hh1 Hin Hnd.
        assert (HJ1 : J s1) by exact HJs.
        apply (fold_steps E h q ef level allow ep (fun s => hinv s /\ J s) nds s1); auto.
        intros s2 nd Hi Hs2 [Hh2 HJ2] Hv2 Hn2.
        assert (numItem nd) by (eapply good_num; now apply Hin).
        split; [apply hinv_step|apply Hstep]; auto.
      - intros w Hw. exists ep. unfold init_state. cbn.
        destruct (init_results_cases ep) as [[-> _]|[_ Hn]]; [|tauto].
        split; [now left|apply flt_irrefl].
    Qed.
  End Ordered.

  (* ---------------------------------------------------------------- *)
  (** Exhaustiveness when ef covers everything reachable. *)
  Lemma layer_exhaustive ep r R :
    sched_ok E -> tdist (it_id ep) (it_dist ep) -> (it_id ep < e_vcap E)%N ->
    (forall id v, node_by_id h id = Some v -> exists d, p_query P q (v_vec v) = Some d) ->
    (forall id d, reach h level (it_id ep) id -> tdist id d -> In id R) ->
    (Z.of_nat (length R) <= ef)%Z ->
    layer ep = Ok r ->
    forall id d, reach h level (it_id ep) id -> tdist id d -> okid id -> In (mkItem id d) r.
  Proof.
    intros Hsc Hd Hv Hall HR Hlen Hr.
    assert (Hcover : forall s, sinv E h q ef level allow ep s ->
              (ef <= Z.of_nat (length (s_results s)))%Z ->
              forall id d, reach h level (it_id ep) id -> tdist id d -> In (mkItem id d) (s_results s)).
    { intros s Hs Hle id d Hre Htd.
      assert (Hincl : incl R (map it_id (s_results s))).
      { apply NoDup_length_incl.
        - exact (si_rnd _ _ _ _ _ _ _ _ Hs).
        - rewrite map_length. lia.
        - intros x Hx. apply in_map_iff in Hx. destruct Hx as (y & <- & Hy).
          destruct (si_rg _ _ _ _ _ _ _ _ Hs y Hy) as [Hy1 Hy2]. eapply HR; eauto. }
      specialize (Hincl id (HR id d Hre Htd)). apply in_map_iff in Hincl.
      destruct Hincl as (y & Hy1 & Hy2). destruct (si_rg _ _ _ _ _ _ _ _ Hs y Hy2) as [Hy3 _].
      destruct y as [yi yd]; cbn in *; subst yi.
      destruct Htd as (v & Hv1 & Hv2), Hy3 as (v' & Hv1' & Hv2'). congruence. }
    pose (expanded := fun (vis : list N) id => forall v conns, node_by_id h id = Some v ->
            level <= v_level v -> conns_at v level = Some conns -> incl conns vis).
    pose (J := fun s =>
      In (it_id ep) (s_visited s) /\
      (forall id d, In id (s_visited s) -> reach h level (it_id ep) id -> tdist id d -> okid id ->
                    In (mkItem id d) (s_results s)) /\
      (forall id d, In id (s_visited s) -> reach h level (it_id ep) id -> tdist id d ->
                    In id (map it_id (s_cands s)) \/ expanded (s_visited s) id)).
    assert (Hgoal : exists s0, sinv E h q ef level allow ep s0 /\ J s0 /\ r = s_results s0 /\
      (s_cands s0 = [] \/ (ef <= Z.of_nat (length (s_results s0)))%Z)).
    { rewrite layer_single in Hr.
      apply bind_Ok in Hr. destruct Hr as (w & Hw & Hr).
      apply bind_Ok in Hr. destruct Hr as (s & Hl & Hr). inversion Hr; subst r. clear Hr.
      destruct (loop_rule_sinv E h q ef level allow ep J Hsc)
        with (fuel := S (1 + length (stored_ids h))) (s := init_state ep w) (s' := s)
        as (s0 & H1 & H2 & H4 & H5); auto using init_sinv.
      - (* skip *)
        intros s1 c cands' Hs1 (Hj0 & Hj1 & Hj2) Hp Hb Hn. split; [exact Hj0|]. split; [exact Hj1|].
        cbn [s_visited s_cands]. intros id d Hid Hre Htd. destruct (Hj2 id d Hid Hre Htd) as [Hc|Hx]; [|auto].
        destruct (N.eq_dec id (it_id c)) as [->|Hne].
        + right. intros v conns Hv1 Hl1 Hc1. destruct Hn as [Hn|(v' & Hn1 & Hn2)]; [congruence|].
          rewrite Hv1 in Hn1. inversion Hn1; subst. lia.
        + left. pose proof (pop_perm _ _ _ _ Hp) as Hpm. apply (Permutation_map it_id) in Hpm.
          apply (Permutation_in _ Hpm) in Hc. cbn in Hc. destruct Hc as [Hc|Hc]; [congruence|exact Hc].
      - (* expand *)
        intros s1 c cands' v conns ids vis' f Hs1 (Hj0 & Hj1 & Hj2) Hp Hb Hv1 Hl1 Hc Hf nds s2 Hs2 Hin Hnd.
        destruct (fresh_spec _ _ _ _ Hf) as (Hfd & Hfi & Hff & Hfv & Hfc & _).
        (* generalised: the nds still to process are excused *)
        assert (Hgen : forall todo s, sinv E h q ef level allow ep s ->
          s_visited s = vis' ->
          (forall x, In x todo -> good E h q level ep x /\ In (it_id x) (s_visited s) /\ ~ ids_of s (it_id x)) ->
          NoDup (map it_id todo) ->
          (forall id d, In id vis' -> reach h level (it_id ep) id -> tdist id d -> okid id ->
             In (mkItem id d) (s_results s) \/ In (mkItem id d) todo) ->
          (forall id d, In id vis' -> reach h level (it_id ep) id -> tdist id d ->
             In id (map it_id (s_cands s)) \/ In (mkItem id d) todo \/ expanded vis' id) ->
          J (fold_left step todo s)).
        { induction todo as [|nd todo IH]; intros s3 Hs3 Hvis Htodo Hndt Ha Hb2; cbn [fold_left].
          - split; [rewrite Hvis; apply Hfv; right; exact Hj0|]. rewrite Hvis. split.
            + intros id d Hi1 Hi2 Hi3 Hi4. destruct (Ha id d Hi1 Hi2 Hi3 Hi4) as [Hx|[]]; exact Hx.
            + intros id d Hi1 Hi2 Hi3. destruct (Hb2 id d Hi1 Hi2 Hi3) as [Hx|[[]|Hx]]; auto.
          - destruct (Htodo nd (or_introl eq_refl)) as (Hg & Hvi & Hni).
            inversion Hndt as [|? ? Hn1 Hn2]; subst.
            destruct (sinv_step E h q ef level allow ep s3 nd Hs3 Hg Hvi Hni) as [Hs4 Hids].
            assert (Hroom : (Z.of_nat (length (s_results s3)) < ef)%Z).
            { destruct (Z.lt_ge_cases (Z.of_nat (length (s_results s3))) ef) as [Hlt|Hge]; [exact Hlt|].
              exfalso. destruct Hg as [Hg1 Hg2]. apply Hni. right.
              change (it_id nd) with (it_id (mkItem (it_id nd) (it_dist nd))). apply in_map.
              eapply Hcover; eauto. }
            assert (Hcs : s_cands (step s3 nd) = pq_insert less_min nd (s_cands s3) /\
                          (forall x, In x (s_results s3) -> In x (s_results (step s3 nd))) /\
                          (okid (it_id nd) -> In nd (s_results (step s3 nd)))).
            { destruct (step_cases h ef level allow s3 nd) as [(Hs & _ & Hle)|[(Hs & Hno)|(r2 & Hok & _ & Hs & Hr2)]];
                [lia| |]; rewrite Hs; cbn.
              - split; [reflexivity|]. split; [auto|]. intros [Hk1 Hk2]. destruct Hno; congruence.
              - destruct Hr2 as [[_ ->]|[Hlt _]]; [|lia]. split; [reflexivity|].
                split; [intros x Hx; apply insert_In; auto|intros _; apply insert_In; auto]. }
            destruct Hcs as (Hcs1 & Hcs2 & Hcs3).
            apply IH; auto.
            + now rewrite step_visited.
            + intros x Hx. destruct (Htodo x (or_intror Hx)) as (Hgx & Hvx & Hnx).
              rewrite step_visited. split; [exact Hgx|]. split; [exact Hvx|].
              intros Hcc. apply Hids in Hcc. destruct Hcc as [Hcc|Hcc]; [tauto|].
              apply Hn1. rewrite <- Hcc. now apply in_map.
            + intros id d Hi1 Hi2 Hi3 Hi4. destruct (Ha id d Hi1 Hi2 Hi3 Hi4) as [Hx|[Hx|Hx]]; auto.
              left. subst nd. auto.
            + intros id d Hi1 Hi2 Hi3. rewrite Hcs1.
              destruct (Hb2 id d Hi1 Hi2 Hi3) as [Hx|[[Hx|Hx]|Hx]]; auto.
              * left. apply in_insert_ids. auto.
              * left. apply in_insert_ids. subst nd. auto. }
        apply Hgen; auto.
        + intros id d Hi1 Hi2 Hi3 Hi4. apply Hfv in Hi1. destruct Hi1 as [Hi1|Hi1].
          * right. unfold nds. eapply Permutation_in; [apply Hsc|].
            apply neighbour_dists_spec. auto.
          * left. cbn. auto.
        + intros id d Hi1 Hi2 Hi3. apply Hfv in Hi1. destruct Hi1 as [Hi1|Hi1].
          * right; left. unfold nds. eapply Permutation_in; [apply Hsc|]. apply neighbour_dists_spec. auto.
          * destruct (N.eq_dec id (it_id c)) as [->|Hne].
            -- right; right. intros v' conns' Hv' Hl' Hc'. rewrite Hv1 in Hv'. inversion Hv'; subst.
               rewrite Hc in Hc'. inversion Hc'; subst. exact Hfc.
            -- destruct (Hj2 id d Hi1 Hi2 Hi3) as [Hx|Hx].
               ++ left. cbn. pose proof (pop_perm _ _ _ _ Hp) as Hpm. apply (Permutation_map it_id) in Hpm.
                  apply (Permutation_in _ Hpm) in Hx. cbn in Hx. destruct Hx as [Hx|Hx]; [congruence|exact Hx].
               ++ right; right. intros v' conns' Hv' Hl' Hc' x Hxc. apply Hfv. right. eapply Hx; eauto.
      - (* init *)
        unfold J, init_state, init_visited. apply N.ltb_lt in Hv. rewrite Hv. cbn. split; [now left|]. split.
        + intros id d [<-|[]] _ Htd Hok. destruct (init_results_cases ep) as [[-> _]|[_ Hn]]; [|tauto].
          left. destruct ep as [ei ed]; cbn in *.
          destruct Hd as (v1 & Hd1 & Hd2), Htd as (v2 & Ht1 & Ht2). congruence.
        + intros id d [<-|[]] _ _. auto.
      - exists s0. split; [exact H1|]. split; [exact H2|]. split; [exact H4|].
        destruct H5 as [H5|(c & cands' & _ & _ & H5)]; auto. }
    destruct Hgoal as (s0 & Hs0 & (Hj0 & Hj1 & Hj2) & -> & [Hex|Hex]).
    - intros id d Hre Htd Hok. apply Hj1; auto.
      (* everything reachable is visited *)
      clear Hok Htd d. induction Hre as [|b v conns c Hre IH Hvb Hlv Hcb Hin]; [exact Hj0|].
      destruct (Hall _ _ Hvb) as (db & Hdb).
      destruct (Hj2 b db IH Hre) as [Hx|Hx]; [exists v; auto|rewrite Hex in Hx; destruct Hx|].
      eapply Hx; eauto.
    - intros id d Hre Htd Hok. eapply Hcover; eauto.
  Qed.

  (* ---------------------------------------------------------------- *)
  (** Selection of the ef best among everything that is evaluated. *)
  Section Selection.
    Hypothesis Hnum : dists_num P h q.
    Hypothesis Hef : (1 <= ef)%Z.
    Variable ep : item.

    Lemma kbest_step s nd acc :
      sinv E h q ef level allow ep s -> hinv s -> numItem nd -> okid (it_id nd) ->
      (forall x, In x acc -> numItem x) ->
      kbest (Z.to_nat ef) (s_results s) acc -> kbest (Z.to_nat ef) (s_results (step s nd)) (nd :: acc).
    Proof.
      intros Hs (_ & Hhr & Hw) Hn Hok Hacc (dropped & Hperm & Hlen & Hbest).
      destruct (sinv_num Hnum ep s Hs) as [_ Hnr].
      assert (Hdn : forall y, In y dropped -> numItem y).
      { intros y Hy. apply Hacc. eapply Permutation_in; [symmetry; exact Hperm|]. apply in_or_app; auto. }
      assert (Hnn : forall x, In x (s_results s) -> numItem x) by exact Hnr.
      assert (Hpl : length acc = length (s_results s) + length dropped).
      { rewrite (Permutation_length Hperm), app_length. reflexivity. }
      assert (Hmax : forall x t, pq_top (s_results s) = Some t -> In x (s_results s) ->
                     flt (it_dist t) (it_dist x) = false).
      { intros x t Ht Hx.
        pose proof (top_min less_max numItem less_max_asym less_max_trans _ _ Hhr Hnr Ht x Hx) as Hm.
        exact Hm. }
      destruct (step_cases h ef level allow s nd) as [(-> & Hf & Hle)|[(-> & Hno)|(r2 & _ & Hor & -> & Hr2)]].
      - exists (nd :: dropped). split; [|split].
        + rewrite Hperm. apply Permutation_middle.
        + cbn [length]. lia.
        + intros x y Hx [<-|Hy]; [|auto]. unfold wcond in Hw.
          destruct (pq_top (s_results s)) as [t|] eqn:Et.
          * rewrite Hw in Hf. pose proof (Hmax x t eq_refl Hx). pose proof (top_In _ _ Et).
            apply nflt_trans with (b := it_dist t); auto; try (apply Hnn; auto).
          * destruct (s_results s); [destruct Hx|discriminate].
      - destruct Hok as [Hk1 Hk2]. destruct Hno; congruence.
      - cbn [s_results]. destruct Hr2 as [[Hle ->]|[Hgt (y & Hy)]].
        + assert (Hd0 : dropped = []).
          { destruct dropped; [reflexivity|]. cbn [length] in Hpl. lia. }
          subst dropped. exists []. rewrite app_nil_r in *. split; [|split].
          * rewrite <- insert_perm. now rewrite Hperm.
          * rewrite insert_length. cbn [length]. lia.
          * intros x z _ [].
        + assert (Hhi : heap less_max (pq_insert less_max nd (s_results s))).
          { eapply insert_heap; eauto using less_max_asym, less_max_trans. }
          assert (Hni : allP numItem (pq_insert less_max nd (s_results s))) by now apply insert_allP.
          pose proof (pop_min less_max numItem less_max_asym less_max_trans _ _ _ Hhi Hni Hy) as Hmin.
          pose proof (pop_perm _ _ _ _ Hy) as Hpm.
          exists (y :: dropped). split; [|split].
          * rewrite Hperm. rewrite <- Permutation_middle. rewrite app_comm_cons.
            rewrite (Permutation_app_tail dropped (insert_perm less_max nd (s_results s))).
            rewrite Hpm. reflexivity.
          * pose proof (pop_length _ _ _ _ Hy) as Hyl. rewrite insert_length in Hyl.
            cbn [length]. lia.
          * assert (Hr2n : forall x, In x r2 -> In x (pq_insert less_max nd (s_results s))).
            { intros x Hx. eapply Permutation_in; [symmetry; exact Hpm|now right]. }
            intros x z Hx [<-|Hz].
            -- specialize (Hmin x (Hr2n x Hx)). exact Hmin.
            -- apply Hr2n, insert_In in Hx. destruct Hx as [->|Hx]; [|auto].
               destruct Hor as [Hor|Hor]; [|lia]. unfold wcond in Hw.
               destruct (pq_top (s_results s)) as [t|] eqn:Et.
               ++ rewrite Hw in Hor. pose proof (top_In _ _ Et) as Htin.
                  specialize (Hbest t z Htin Hz). apply flt_asym.
                  eapply flt_le_trans; [..|exact Hor|exact Hbest];
                    try exact Hn; try (apply Hnn; assumption); apply Hdn; assumption.
               ++ destruct (s_results s) as [|a l]; [|discriminate]. cbn in Hgt. lia.
    Qed.

    Lemma kbest_fold nds : forall s acc,
      sinv E h q ef level allow ep s -> hinv s ->
      (forall x, In x nds -> good E h q level ep x /\ In (it_id x) (s_visited s) /\ ~ ids_of s (it_id x)) ->
      (forall x, In x nds -> okid (it_id x)) ->
      NoDup (map it_id nds) ->
      (forall x, In x acc -> numItem x) ->
      kbest (Z.to_nat ef) (s_results s) acc ->
      kbest (Z.to_nat ef) (s_results (fold_left step nds s)) (rev nds ++ acc).
    Proof.
      induction nds as [|nd nds IH]; intros s acc Hs Hh Hin Hok Hnd Hacc Hk; [exact Hk|].
      cbn [fold_left rev]. rewrite <- app_assoc. cbn [app].
      destruct (Hin nd (or_introl eq_refl)) as (Hg & Hvi & Hni).
      cbn in Hnd. inversion Hnd as [|? ? Hn1 Hn2]; subst.
      destruct (sinv_step E h q ef level allow ep s nd Hs Hg Hvi Hni) as [Hs4 Hids].
      assert (Hnn : numItem nd) by (eapply good_num; eauto).
      apply IH; auto.
      - eapply hinv_step; eauto.
      - intros x Hx. destruct (Hin x (or_intror Hx)) as (Hgx & Hvx & Hnx).
        rewrite step_visited. split; [exact Hgx|]. split; [exact Hvx|].
        intros Hcc. apply Hids in Hcc. destruct Hcc as [Hcc|Hcc]; [tauto|].
        apply Hn1. rewrite <- Hcc. now apply in_map.
      - intros x Hx. apply Hok. now right.
      - intros x [<-|Hx]; auto.
      - apply kbest_step; auto. apply Hok. now left.
    Qed.

    (** If every stored vector is linked from the entry point, the search is an
        exact ef-nearest search. *)
    Lemma layer_star r vep conns :
      sched_ok E -> tdist (it_id ep) (it_dist ep) -> (it_id ep < e_vcap E)%N ->
      node_by_id h (it_id ep) = Some vep -> level <= v_level vep ->
      conns_at vep level = Some conns ->
      (forall id v, node_by_id h id = Some v -> id = it_id ep \/ In id conns) ->
      (forall id v, node_by_id h id = Some v -> okid id) ->
      layer ep = Ok r ->
      exists all, NoDup (map it_id all) /\
        (forall x, In x all <-> tdist (it_id x) (it_dist x)) /\
        kbest (Z.to_nat ef) r all.
    Proof.
      intros Hsc Hd Hv Hvep Hlev Hconns Hstar Hallok Hr.
      set (Q := fun s => exists all, NoDup (map it_id all) /\
        (forall x, In x all <-> tdist (it_id x) (it_dist x)) /\
        kbest (Z.to_nat ef) (s_results s) all).
      set (J := fun s =>
        (exists w, worst_dist E h q (init_results ep) = Ok w /\ s = init_state ep w) \/
        ((forall id v, node_by_id h id = Some v -> In id (s_visited s)) /\ Q s)).
      assert (Hokep : okid (it_id ep)) by (eapply Hallok; eauto).
      assert (Hir : init_results ep = [ep]).
      { destruct (init_results_cases ep) as [[Hx _]|[_ Hn]]; [exact Hx|tauto]. }
      assert (Hw0 : forall w, worst_dist E h q (init_results ep) = Ok w -> w = it_dist ep).
      { intros w. rewrite Hir. cbn. apply dist_float_node_spec in Hd. rewrite Hd. congruence. }
      destruct (loop_rule_h Hnum ep J Hsc) with (r := r) as (s0 & Hs0 & Hh0 & HJ & -> & Hex); auto.
      - intros s c cands' Hs Hh [(w & Hw & ->)|[Hvis HQ]] Hp Hb Hn.
        + exfalso. unfold init_state in Hp. cbn in Hp. inversion Hp; subst c.
          destruct Hn as [Hn|(v & Hn1 & Hn2)]; [congruence|].
          rewrite Hvep in Hn1. inversion Hn1; subst. lia.
        + right. split; [exact Hvis|exact HQ].
      - intros s c cands' v cs ids vis' f Hs Hh HJs Hp Hb Hv1 Hl1 Hc Hf nds s1 Hs1 Hh1 Hin Hnd.
        right.
        destruct (fresh_spec _ _ _ _ Hf) as (Hfd & Hfi & Hff & Hfv & Hfc & _).
        destruct HJs as [(w & Hw & ->)|[Hvis HQ]].
        + unfold init_state in Hp. cbn in Hp. inversion Hp; subst c cands'.
          rewrite Hvep in Hv1. inversion Hv1; subst v. rewrite Hconns in Hc. inversion Hc; subst cs.
          assert (Hall : forall id v, node_by_id h id = Some v -> In id vis').
          { intros id v Hid. destruct (Hstar id v Hid) as [->|Hi]; [|auto].
            apply Hfv. right. unfold init_state, init_visited. cbn.
            apply N.ltb_lt in Hv. rewrite Hv. now left. }
          destruct (fold_cands_length nds s1) as [_ Hvs]. split.
          * rewrite Hvs. exact Hall.
          * exists (rev nds ++ [ep]).
            assert (Hndt : forall x, In x nds -> In (it_id x) ids /\ tdist (it_id x) (it_dist x)).
            { intros x Hx. unfold nds in Hx. eapply Permutation_in in Hx; [|symmetry; apply Hsc].
              now apply neighbour_dists_spec in Hx. }
            split; [|split].
            -- rewrite map_app. cbn [map]. eapply Permutation_NoDup; [apply Permutation_app_comm|]. cbn.
               constructor.
               ++ intros Hx. apply in_map_iff in Hx. destruct Hx as (y & Hy & Hx).
                  apply in_rev, Hndt in Hx. destruct Hx as [Hx _]. apply (Hff _ Hx).
                  unfold init_state, init_visited. cbn. apply N.ltb_lt in Hv. rewrite Hv. now left.
               ++ rewrite map_rev. eapply Permutation_NoDup; [apply Permutation_rev|exact Hnd].
            -- intros x. rewrite in_app_iff, <- in_rev. split.
               ++ intros [Hx|[<-|[]]]; [now apply Hndt|exact Hd].
               ++ intros Hx. destruct Hx as (vx & Hx1 & Hx2).
                  destruct (N.eq_dec (it_id x) (it_id ep)) as [Heq|Hne].
                  ** right. left. destruct Hd as (v2 & Hd1 & Hd2). rewrite Heq in Hx1.
                     assert (Hde : it_dist x = it_dist ep) by congruence.
                     clear -Heq Hde. destruct x, ep; cbn in *; congruence.
                  ** left. unfold nds. eapply Permutation_in; [apply Hsc|].
                     apply neighbour_dists_spec. split; [|exists vx; auto].
                     assert (Hiv := Hall _ _ Hx1). apply Hfv in Hiv. destruct Hiv as [Hiv|Hiv]; [exact Hiv|].
                     unfold init_state, init_visited in Hiv. cbn in Hiv.
                     apply N.ltb_lt in Hv. rewrite Hv in Hiv. destruct Hiv as [Hiv|[]]. congruence.
            -- clear Hvs. apply kbest_fold; auto.
               ++ intros x Hx. destruct (Hin x Hx) as ((Hg & _) & _). destruct Hg as (vx & Hg1 & _). eauto.
               ++ intros x [<-|[]]. eapply Hnum; eauto.
               ++ subst s1. unfold init_state. cbn [s_results]. rewrite Hir. exists []. split; [reflexivity|].
                  split; [cbn [length]; lia|]. intros x y _ [].
        + assert (Hemp : neighbour_dists E h q ids = []).
          { destruct (neighbour_dists E h q ids) as [|x l] eqn:En; [reflexivity|].
            assert (Hx : In x (neighbour_dists E h q ids)) by (rewrite En; now left).
            apply neighbour_dists_spec in Hx. destruct Hx as [Hx1 (vx & Hx2 & _)].
            exfalso. apply (Hff _ Hx1). eauto. }
          assert (Hnil : nds = []).
          { unfold nds. rewrite Hemp. apply Permutation_nil. apply Hsc. }
          rewrite Hnil. cbn. split; [|exact HQ].
          intros id v' Hid. apply Hfv. right. eauto.
      - intros w Hw. left. eauto.
      - destruct HJ as [(w & Hw & ->)|[_ HQ]]; [|exact HQ]. exfalso.
        destruct Hex as [Hex|(c & cands' & Hp & Hf & _)]; [discriminate|].
        unfold init_state in Hp. cbn in Hp. inversion Hp; subst c.
        unfold init_state in Hf. cbn in Hf. rewrite (Hw0 w Hw) in Hf.
        unfold fgt in Hf. fold (flt (it_dist ep) (it_dist ep)) in Hf. rewrite flt_irrefl in Hf. discriminate.
    Qed.
  End Selection.
End Layer.
