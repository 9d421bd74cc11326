(** Invariants of the layer search (Search.v). *)
From Verif Require Import Base F32 PQ PQProofs Graph Search.
From Coq Require Import Sorting.Sorted.

(* ------------------------------------------------------------------ *)
(** Specification vocabulary, independent of the search code. *)

(** [id] is stored and its distance to the query is [d]. *)
Definition true_dist (P : provider) (h : hnsw) (q : vec) (id : N) (d : f32) : Prop :=
  exists v, node_by_id h id = Some v /\ p_query P q (v_vec v) = Some d.

(** [c] can be reached from [a] over links of layer [level]. *)
Inductive reach (h : hnsw) (level : nat) (a : N) : N -> Prop :=
| reach_refl : reach h level a a
| reach_step b v conns c :
    reach h level a b -> node_by_id h b = Some v -> level <= v_level v ->
    conns_at v level = Some conns -> In c conns -> reach h level a c.

(** The goroutines deliver every result exactly once, in any order. *)
Definition sched_ok (E : env) : Prop :=
  forall level f xs, Permutation xs (e_sched E level f xs).

(** Every distance that can be computed for this query is a number. *)
Definition dists_num (P : provider) (h : hnsw) (q : vec) : Prop :=
  forall id d, true_dist P h q id d -> is_num d = true.

(** [r] consists of [k] best (smallest) elements of [all], all of them if there
    are fewer. *)
Definition kbest (k : nat) (r all : list item) : Prop :=
  exists dropped, Permutation all (r ++ dropped) /\ length r = Nat.min k (length all) /\
    forall x y, In x r -> In y dropped -> flt (it_dist y) (it_dist x) = false.

(* ------------------------------------------------------------------ *)
(** The helper functions. *)

Lemma dist_float_node_spec E h q id d :
  dist_float_node E h q id = Some d <-> true_dist (e_prov E) h q id d.
Proof.
  unfold dist_float_node, true_dist. destruct (node_by_id h id) as [v|].
  - split; [intros H; eauto|intros (v' & Hv & H); congruence].
  - split; [discriminate|intros (v' & Hv & H); discriminate].
Qed.

Lemma fresh_spec conns : forall vis ids vis', fresh conns vis = (ids, vis') ->
  NoDup ids /\ incl ids conns /\ (forall x, In x ids -> ~ In x vis) /\
  (forall x, In x vis' <-> In x ids \/ In x vis) /\ incl conns vis' /\
  length vis' = length ids + length vis.
Proof.
  induction conns as [|c conns IH]; intros vis ids vis' H; cbn in H.
  - inversion H; subst. repeat split; try (intros x []); try tauto; try constructor.
    intros Hx; destruct Hx as [[]|Hx]; exact Hx.
  - destruct (memN c vis) eqn:Em.
    + apply memN_In in Em. destruct (IH _ _ _ H) as (H1 & H2 & H3 & H4 & H5 & H6).
      split; [exact H1|]. split; [intros x Hx; right; auto|]. split; [exact H3|]. split; [exact H4|].
      split; [|exact H6]. intros x [<-|Hx]; [apply H4; now right|auto].
    + apply memN_notIn in Em. destruct (fresh conns (c :: vis)) as [ids1 vis1] eqn:E.
      inversion H; subst. destruct (IH _ _ _ E) as (H1 & H2 & H3 & H4 & H5 & H6). split.
      { constructor; [|exact H1]. intros Hc. apply (H3 c Hc). now left. }
      split. { intros x [<-|Hx]; [now left|right; auto]. }
      split. { intros x [<-|Hx]; [exact Em|]. intros Hv. apply (H3 x Hx). now right. }
      split. { intros x. rewrite H4. cbn. tauto. }
      split. { intros x [<-|Hx]; [|auto]. apply H4. right. now left. }
      cbn [length] in *. lia.
Qed.

Lemma neighbour_dists_spec E h q ids x :
  In x (neighbour_dists E h q ids) <->
  In (it_id x) ids /\ true_dist (e_prov E) h q (it_id x) (it_dist x).
Proof.
  induction ids as [|i ids IH]; cbn; [tauto|].
  destruct (dist_float_node E h q i) as [d|] eqn:Ed.
  - apply dist_float_node_spec in Ed. cbn. rewrite IH. split.
    + intros [<-|[H1 H2]]; cbn; auto.
    + intros [[->|H1] H2]; [left|auto].
      destruct Ed as (v & Hv & Hd), H2 as (v' & Hv' & Hd').
      destruct x as [xi xd]; cbn in *. congruence.
  - rewrite IH. split; [intros [H1 H2]; auto|]. intros [[->|H1] H2]; [|auto].
    apply dist_float_node_spec in H2. congruence.
Qed.

Lemma neighbour_dists_ids E h q ids : NoDup ids -> NoDup (map it_id (neighbour_dists E h q ids)).
Proof.
  induction ids as [|i ids IH]; cbn; intros H; [constructor|].
  inversion H; subst. destruct (dist_float_node E h q i) as [d|]; [|auto].
  cbn. constructor; [|auto]. intros Hin. apply in_map_iff in Hin. destruct Hin as (x & Hx & Hin).
  apply neighbour_dists_spec in Hin. destruct Hin as [Hin _]. congruence.
Qed.

Lemma Permutation_map_NoDup {A B} (f : A -> B) l l' :
  Permutation l l' -> NoDup (map f l) -> NoDup (map f l').
Proof. intros Hp Hn. eapply Permutation_NoDup; [apply Permutation_map; exact Hp|exact Hn]. Qed.

(* ------------------------------------------------------------------ *)
Section Layer.
  Variable E : env.
  Variable h : hnsw.
  Variable q : vec.
  Variable ef : Z.
  Variable level : nat.
  Variable allow : option (N -> bool).

  Local Notation P := (e_prov E).
  Local Notation step := (step_nd h ef level allow).
  Local Notation loop := (search_loop E h q ef level allow).
  Local Notation tdist := (true_dist P h q).
  Local Notation okid id := (has_tombstone h id = false /\ allowed level allow id = true).

  (** Rule for the loop: an invariant preserved by the two kinds of iteration
      holds at the exit, together with the reason for the exit. *)
  Lemma loop_rule (I : sst -> Prop) :
    (forall s c cands', I s -> pq_pop less_min (s_cands s) = Some (c, cands') ->
       (fgt (it_dist c) (s_worst s) && (ef <=? Z.of_nat (length (s_results s)))%Z) = false ->
       (node_by_id h (it_id c) = None \/
        exists v, node_by_id h (it_id c) = Some v /\ v_level v < level) ->
       I (mkS cands' (s_results s) (s_worst s) (s_visited s))) ->
    (forall s c cands' v conns ids vis' f, I s ->
       pq_pop less_min (s_cands s) = Some (c, cands') ->
       (fgt (it_dist c) (s_worst s) && (ef <=? Z.of_nat (length (s_results s)))%Z) = false ->
       node_by_id h (it_id c) = Some v -> level <= v_level v -> conns_at v level = Some conns ->
       fresh conns (s_visited s) = (ids, vis') ->
       I (fold_left step (e_sched E level f (neighbour_dists E h q ids))
            (mkS cands' (s_results s) (s_worst s) vis'))) ->
    forall fuel s s', I s -> loop fuel s = Ok s' ->
      exists s0, I s0 /\ s_results s' = s_results s0 /\
        (s_cands s0 = [] \/
         exists c cands', pq_pop less_min (s_cands s0) = Some (c, cands') /\
           fgt (it_dist c) (s_worst s0) = true /\ (ef <= Z.of_nat (length (s_results s0)))%Z).
  Proof.
    intros Hskip Hexp. induction fuel as [|f IH]; intros s s' HI Hrun; [discriminate|].
    cbn [search_loop] in Hrun. destruct (pq_pop less_min (s_cands s)) as [[c cands']|] eqn:Epop.
    - destruct (_ && _) eqn:Ebr.
      + inversion Hrun; subst. cbn. exists s. split; [exact HI|]. split; [reflexivity|]. right.
        apply andb_true_iff in Ebr. destruct Ebr as [E1 E2]. apply Z.leb_le in E2. eauto.
      + destruct (node_by_id h (it_id c)) as [v|] eqn:Ev.
        * destruct (Nat.ltb_spec (v_level v) level) as [Hl|Hl].
          -- eapply IH; [|exact Hrun]. eapply Hskip; eauto.
          -- destruct (conns_at v level) as [conns|] eqn:Ec; [|discriminate].
             destruct (fresh conns (s_visited s)) as [ids vis'] eqn:Ef.
             eapply IH; [|exact Hrun]. eapply Hexp; eauto.
        * eapply IH; [|exact Hrun]. eapply Hskip; eauto.
    - inversion Hrun; subst. apply pop_None in Epop. exists s'. auto.
  Qed.

  Lemma step_visited s nd : s_visited (step s nd) = s_visited s.
  Proof.
    unfold step_nd. destruct (_ || _); [|reflexivity].
    destruct (negb _); [reflexivity|]. destruct (has_tombstone _ _); reflexivity.
  Qed.

  (** What one [step] does, as cases. *)
  Lemma step_cases s nd :
    (* rejected *)
    (step s nd = s /\ flt (it_dist nd) (s_worst s) = false /\
     (ef <= Z.of_nat (length (s_results s)))%Z) \/
    (* candidate only *)
    (step s nd = mkS (pq_insert less_min nd (s_cands s)) (s_results s) (s_worst s) (s_visited s) /\
     (allowed level allow (it_id nd) = false \/ has_tombstone h (it_id nd) = true)) \/
    (* candidate and result *)
    (exists r2, okid (it_id nd) /\
       (flt (it_dist nd) (s_worst s) = true \/ (Z.of_nat (length (s_results s)) < ef)%Z) /\
       step s nd = mkS (pq_insert less_min nd (s_cands s)) r2
                     (match pq_top r2 with Some x => it_dist x | None => s_worst s end)
                     (s_visited s) /\
       (((Z.of_nat (S (length (s_results s))) <= ef)%Z /\
         r2 = pq_insert less_max nd (s_results s)) \/
        ((ef < Z.of_nat (S (length (s_results s))))%Z /\
         exists y, pq_pop less_max (pq_insert less_max nd (s_results s)) = Some (y, r2)))).
  Proof.
    unfold step_nd. destruct (_ || _) eqn:Eo.
    - apply orb_true_iff in Eo. rewrite Z.ltb_lt in Eo.
      destruct (allowed level allow (it_id nd)) eqn:Ea; cbn [negb];
        [|right; left; split; [reflexivity|now left]].
      destruct (has_tombstone h (it_id nd)) eqn:Et;
        [right; left; split; [reflexivity|now right]|].
      right; right. destruct (Z.ltb_spec ef (Z.of_nat (length (pq_insert less_max nd (s_results s))))) as [Hlt|Hge];
        rewrite insert_length in *.
      + destruct (pq_pop less_max (pq_insert less_max nd (s_results s))) as [[y r2]|] eqn:Ep.
        * exists r2. split; [auto|]. split; [exact Eo|]. split; [reflexivity|]. right; eauto.
        * exfalso. apply pop_None in Ep. apply (f_equal (@length item)) in Ep.
          rewrite insert_length in Ep. discriminate.
      + eexists. split; [auto|]. split; [exact Eo|]. split; [reflexivity|]. left; auto.
    - left. apply orb_false_iff in Eo. destruct Eo as [E1 E2]. apply Z.ltb_ge in E2. auto.
  Qed.

  (* ---------------------------------------------------------------- *)
  Section WithEp.
    Variable ep : item.

    Definition good (x : item) : Prop :=
      tdist (it_id x) (it_dist x) /\ reach h level (it_id ep) (it_id x).

    Record sinv (s : sst) : Prop := {
      si_cg : forall x, In x (s_cands s) -> good x;
      si_rg : forall x, In x (s_results s) -> good x;
      si_cv : forall x, In x (s_cands s) -> In (it_id x) (s_visited s);
      si_rv : forall x, In x (s_results s) -> In (it_id x) (s_visited s);
      si_cnd : NoDup (map it_id (s_cands s));
      si_rnd : NoDup (map it_id (s_results s));
      si_rok : forall x, In x (s_results s) -> okid (it_id x);
      si_rlen : (Z.of_nat (length (s_results s)) <= Z.max ef 1)%Z
    }.

    Definition ids_of (s : sst) (id : N) : Prop :=
      In id (map it_id (s_cands s)) \/ In id (map it_id (s_results s)).

    Lemma in_insert_ids (less : item -> item -> bool) x l id :
      In id (map it_id (pq_insert less x l)) <-> id = it_id x \/ In id (map it_id l).
    Proof.
      rewrite !in_map_iff. split.
      - intros (y & <- & Hy). apply insert_In in Hy. destruct Hy as [->|Hy]; [auto|]. right; eauto.
      - intros [->|(y & <- & Hy)]; [exists x|exists y]; (split; [reflexivity|]); apply insert_In; auto.
    Qed.

    Lemma insert_NoDup (less : item -> item -> bool) x l :
      NoDup (map it_id l) -> ~ In (it_id x) (map it_id l) -> NoDup (map it_id (pq_insert less x l)).
    Proof.
      intros H1 H2. eapply Permutation_map_NoDup; [apply insert_perm|]. now constructor.
    Qed.

    Lemma pop_sub (less : item -> item -> bool) l x l' :
      pq_pop less l = Some (x, l') -> forall y, In y l' -> In y l.
    Proof. intros H y Hy. eapply Permutation_in; [symmetry; apply (pop_perm _ _ _ _ H)|now right]. Qed.

    Lemma pop_NoDup (less : item -> item -> bool) l x l' :
      pq_pop less l = Some (x, l') -> NoDup (map it_id l) ->
      NoDup (map it_id l') /\ ~ In (it_id x) (map it_id l').
    Proof.
      intros H Hn. pose proof (Permutation_map_NoDup it_id _ _ (pop_perm _ _ _ _ H) Hn) as Hn2.
      cbn in Hn2. inversion Hn2; auto.
    Qed.

    Lemma sinv_step s nd :
      sinv s -> good nd -> In (it_id nd) (s_visited s) -> ~ ids_of s (it_id nd) ->
      sinv (step s nd) /\ (forall id, ids_of (step s nd) id -> ids_of s id \/ id = it_id nd).
    Proof.
      intros [Hcg Hrg Hcv Hrv Hcn Hrn Hro Hrl] Hg Hv Hn. unfold ids_of in *.
      destruct (step_cases s nd) as [(-> & _)|[(-> & _)|(r2 & Hok & Hor & -> & Hr2)]].
      - split; [constructor; auto|]. intros id Hid. tauto.
      - split.
        + constructor; cbn; auto.
          * intros x Hx. apply insert_In in Hx. destruct Hx as [->|Hx]; auto.
          * intros x Hx. apply insert_In in Hx. destruct Hx as [->|Hx]; auto.
          * apply insert_NoDup; auto.
        + cbn. intros id [Hid|Hid]; [|auto]. apply in_insert_ids in Hid. tauto.
      - assert (Hsub : forall x, In x r2 -> x = nd \/ In x (s_results s)).
        { intros x Hx. destruct Hr2 as [[_ ->]|[_ (y & Hy)]].
          - now apply insert_In in Hx.
          - apply (pop_sub _ _ _ _ Hy) in Hx. now apply insert_In in Hx. }
        split.
        + constructor; cbn.
          * intros x Hx. apply insert_In in Hx. destruct Hx as [->|Hx]; auto.
          * intros x Hx. destruct (Hsub x Hx) as [->|Hx']; auto.
          * intros x Hx. apply insert_In in Hx. destruct Hx as [->|Hx]; auto.
          * intros x Hx. destruct (Hsub x Hx) as [->|Hx']; auto.
          * apply insert_NoDup; auto.
          * assert (Hni : NoDup (map it_id (pq_insert less_max nd (s_results s)))) by (apply insert_NoDup; auto).
            destruct Hr2 as [[_ ->]|[_ (y & Hy)]]; [exact Hni|]. eapply pop_NoDup; eauto.
          * intros x Hx. destruct (Hsub x Hx) as [->|Hx']; auto.
          * destruct Hr2 as [[Hle ->]|[_ (y & Hy)]].
            -- rewrite insert_length. lia.
            -- apply pop_length in Hy. rewrite insert_length in Hy. lia.
        + cbn. intros id [Hid|Hid].
          * apply in_insert_ids in Hid. tauto.
          * apply in_map_iff in Hid. destruct Hid as (x & <- & Hx).
            destruct (Hsub x Hx) as [->|Hx']; [auto|]. left; right. now apply in_map.
    Qed.

    (** Folding [step] over freshly visited, distinct, good items, with any
        further invariant [J] that holds together with [sinv]. *)
    Lemma fold_steps (J : sst -> Prop) nds : forall s,
      sinv s -> J s ->
      (forall s nd, In nd nds -> sinv s -> J s -> In (it_id nd) (s_visited s) ->
         ~ ids_of s (it_id nd) -> J (step s nd)) ->
      (forall x, In x nds -> good x /\ In (it_id x) (s_visited s) /\ ~ ids_of s (it_id x)) ->
      NoDup (map it_id nds) ->
      sinv (fold_left step nds s) /\ J (fold_left step nds s) /\
      s_visited (fold_left step nds s) = s_visited s.
    Proof.
      induction nds as [|nd nds IH]; intros s Hs HJ HJs Hin Hnd; cbn; [auto|].
      cbn in Hnd. inversion Hnd as [|? ? Hn1 Hn2]; subst.
      destruct (Hin nd (or_introl eq_refl)) as (Hg & Hv & Hni).
      destruct (sinv_step s nd Hs Hg Hv Hni) as [Hs' Hids].
      destruct (IH (step s nd)) as (H1 & H2 & H3); auto.
      - apply HJs; auto. now left.
      - intros s1 nd1 Hi. apply HJs. now right.
      - intros x Hx. destruct (Hin x (or_intror Hx)) as (Hgx & Hvx & Hnx).
        rewrite step_visited. split; [exact Hgx|]. split; [exact Hvx|].
        intros Hc. apply Hids in Hc. destruct Hc as [Hc|Hc]; [tauto|].
        apply Hn1. rewrite <- Hc. now apply in_map.
      - rewrite step_visited in H3. auto.
    Qed.

    (** The premises of [fold_steps] hold at an expansion. *)
    Lemma expand_prem s c cands' v conns ids vis' f :
      sched_ok E -> sinv s -> pq_pop less_min (s_cands s) = Some (c, cands') ->
      node_by_id h (it_id c) = Some v -> level <= v_level v -> conns_at v level = Some conns ->
      fresh conns (s_visited s) = (ids, vis') ->
      let nds := e_sched E level f (neighbour_dists E h q ids) in
      let s1 := mkS cands' (s_results s) (s_worst s) vis' in
      sinv s1 /\
      (forall x, In x nds -> good x /\ In (it_id x) (s_visited s1) /\ ~ ids_of s1 (it_id x)) /\
      NoDup (map it_id nds).
    Proof.
      intros Hsc [Hcg Hrg Hcv Hrv Hcn Hrn Hro Hrl] Hpop Hv Hlv Hc Hf nds s1.
      destruct (fresh_spec _ _ _ _ Hf) as (Hnd & Hinc & Hfr & Hvis & Hcc & _).
      assert (Hinc_c : In c (s_cands s)).
      { eapply Permutation_in; [symmetry; apply (pop_perm _ _ _ _ Hpop)|now left]. }
      split; [|split].
      - constructor; cbn; auto.
        + intros x Hx. apply Hcg. eapply pop_sub; eauto.
        + intros x Hx. apply Hvis. right. apply Hcv. eapply pop_sub; eauto.
        + intros x Hx. apply Hvis. auto.
        + eapply pop_NoDup; eauto.
      - intros x Hx. unfold nds in Hx.
        eapply Permutation_in in Hx; [|symmetry; apply Hsc].
        apply neighbour_dists_spec in Hx. destruct Hx as [Hx1 Hx2]. cbn. split.
        + split; [exact Hx2|]. eapply reach_step with (b := it_id c); eauto.
          destruct (Hcg c Hinc_c); auto.
        + split; [apply Hvis; now left|]. intros [Hb|Hb]; cbn in Hb;
            apply in_map_iff in Hb; destruct Hb as (y & Hy & Hb); apply (Hfr _ Hx1); rewrite <- Hy.
          * apply Hcv. eapply pop_sub; eauto.
          * auto.
      - eapply Permutation_map_NoDup; [apply Hsc|]. now apply neighbour_dists_ids.
    Qed.

    Lemma sinv_skip s c cands' :
      sinv s -> pq_pop less_min (s_cands s) = Some (c, cands') ->
      sinv (mkS cands' (s_results s) (s_worst s) (s_visited s)).
    Proof.
      intros [Hcg Hrg Hcv Hrv Hcn Hrn Hro Hrl] Hpop. constructor; cbn; auto.
      - intros x Hx. apply Hcg. eapply pop_sub; eauto.
      - intros x Hx. apply Hcv. eapply pop_sub; eauto.
      - eapply pop_NoDup; eauto.
    Qed.

    (** Loop rule for an invariant [J] on top of [sinv]. *)
    Lemma loop_rule_sinv (J : sst -> Prop) :
      sched_ok E ->
      (forall s c cands', sinv s -> J s -> pq_pop less_min (s_cands s) = Some (c, cands') ->
         (fgt (it_dist c) (s_worst s) && (ef <=? Z.of_nat (length (s_results s)))%Z) = false ->
         (node_by_id h (it_id c) = None \/
          exists v, node_by_id h (it_id c) = Some v /\ v_level v < level) ->
         J (mkS cands' (s_results s) (s_worst s) (s_visited s))) ->
      (forall s c cands' v conns ids vis' f, sinv s -> J s ->
         pq_pop less_min (s_cands s) = Some (c, cands') ->
         (fgt (it_dist c) (s_worst s) && (ef <=? Z.of_nat (length (s_results s)))%Z) = false ->
         node_by_id h (it_id c) = Some v -> level <= v_level v -> conns_at v level = Some conns ->
         fresh conns (s_visited s) = (ids, vis') ->
         let nds := e_sched E level f (neighbour_dists E h q ids) in
         let s1 := mkS cands' (s_results s) (s_worst s) vis' in
         sinv s1 ->
         (forall x, In x nds -> good x /\ In (it_id x) (s_visited s1) /\ ~ ids_of s1 (it_id x)) ->
         NoDup (map it_id nds) ->
         J (fold_left step nds s1)) ->
      forall fuel s s', sinv s -> J s -> loop fuel s = Ok s' ->
        exists s0, sinv s0 /\ J s0 /\ s_results s' = s_results s0 /\
          (s_cands s0 = [] \/
           exists c cands', pq_pop less_min (s_cands s0) = Some (c, cands') /\
             fgt (it_dist c) (s_worst s0) = true /\ (ef <= Z.of_nat (length (s_results s0)))%Z).
    Proof.
      intros Hsc Hskip Hexp fuel s s' Hs HJ Hrun.
      destruct (loop_rule (fun s => sinv s /\ J s)) with (fuel := fuel) (s := s) (s' := s')
        as (s0 & [H1 H2] & H3 & H4); auto.
      - intros s1 c cands' [HI1 HI2] Hp Hb Hn. split; [eapply sinv_skip; eauto|eapply Hskip; eauto].
      - intros s1 c cands' v conns ids vis' f [HI1 HI2] Hp Hb Hv Hl Hc Hf.
        destruct (expand_prem s1 c cands' v conns ids vis' f Hsc HI1 Hp Hv Hl Hc Hf) as (Ha & Hb2 & Hd).
        split.
        + eapply (fold_steps (fun _ => True)); eauto.
        + eapply Hexp; eauto.
      - exists s0. auto.
    Qed.
  End WithEp.
End Layer.
