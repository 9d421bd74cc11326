(** Schedule independence: the order in which the concurrently computed
    neighbour distances arrive does not matter as long as no two distances are
    equal. *)
From Verif Require Import Base F32 PQ PQProofs Graph Search SearchProofs SearchLayer SearchKnn.
From Coq Require Import Sorting.Sorted.

(** No two stored vectors are equally far from the query. *)
Definition dists_distinct (P : provider) (h : hnsw) (q : vec) : Prop :=
  forall a b da db, true_dist P h q a da -> true_dist P h q b db -> a <> b ->
    flt da db = true \/ flt db da = true.

(** Same distance function and list sizes; the schedules may differ. *)
Definition same_but_sched (E1 E2 : env) : Prop :=
  e_prov E1 = e_prov E2 /\ e_vcap E1 = e_vcap E2.

Definition distinct_items (l : list item) : Prop :=
  forall x y, In x l -> In y l -> x = y \/ flt (it_dist x) (it_dist y) = true \/ flt (it_dist y) (it_dist x) = true.

Lemma item_dec (a b : item) : {a = b} + {a <> b}.
Proof. repeat decide equality. Qed.

Lemma Permutation_filter {A} (f : A -> bool) l l' : Permutation l l' -> Permutation (filter f l) (filter f l').
Proof.
  induction 1 as [|x l l' H IH|x y l|l l' l'' H1 IH1 H2 IH2]; cbn; auto.
  - destruct (f x); auto.
  - destruct (f x), (f y); auto. apply perm_swap.
  - etransitivity; eauto.
Qed.

Lemma NoDup_app_intro {A} (l l' : list A) : NoDup l -> NoDup l' ->
  (forall x, In x l -> In x l' -> False) -> NoDup (l ++ l').
Proof.
  intros H1 H2 H3. induction l as [|x l IH]; cbn; [exact H2|]. inversion H1; subst. constructor.
  - intros Hi. apply in_app_or in Hi. destruct Hi as [Hi|Hi]; [contradiction|]. eapply H3; [now left|exact Hi].
  - apply IH; auto. intros y Hy. apply H3. now right.
Qed.

Lemma NoDup_map_filter {A B} (g : A -> B) f l : NoDup (map g l) -> NoDup (map g (filter f l)).
Proof.
  induction l as [|x l IH]; cbn; intros H; [constructor|]. inversion H; subst.
  destruct (f x); [|auto]. cbn. constructor; [|auto]. intros Hi. apply in_map_iff in Hi.
  destruct Hi as (y & Hy & Hi). apply filter_In in Hi. destruct Hi as [Hi _]. apply H2. rewrite <- Hy. now apply in_map.
Qed.

Lemma filter_filter_sub {A} (f g : A -> bool) l : (forall x, In x l -> g x = false -> f x = false) ->
  filter f (filter g l) = filter f l.
Proof.
  induction l as [|x l IH]; cbn; intros H; [reflexivity|].
  destruct (g x) eqn:Eg; cbn.
  - rewrite IH; auto.
  - rewrite (H x (or_introl eq_refl) Eg). auto.
Qed.

(** The k best of distinct items are unique. *)
Lemma kbest_unique k r1 r2 all1 all2 :
  Permutation all1 all2 -> NoDup all1 -> distinct_items all1 ->
  kbest k r1 all1 -> kbest k r2 all2 -> Permutation r1 r2.
Proof.
  intros Hp Hnd Hdi (d1 & P1 & L1 & B1) (d2 & P2 & L2 & B2).
  assert (Hnd2 : NoDup all2) by (eapply Permutation_NoDup; eauto).
  assert (Hn1 : NoDup (r1 ++ d1)) by (eapply Permutation_NoDup; eauto).
  assert (Hn2 : NoDup (r2 ++ d2)) by (eapply Permutation_NoDup; eauto).
  assert (Hl : length r1 = length r2) by (rewrite L1, L2, (Permutation_length Hp); reflexivity).
  assert (R1 : NoDup r1) by (clear - Hn1; induction r1; [constructor|]; inversion Hn1; subst; constructor; auto;
    intros H; apply H1; apply in_or_app; auto).
  assert (R2 : NoDup r2) by (clear - Hn2; induction r2; [constructor|]; inversion Hn2; subst; constructor; auto;
    intros H; apply H1; apply in_or_app; auto).
  (* an element of r1 missing in r2 gives an element of r2 missing in r1 *)
  assert (Hin : forall x, In x r1 -> In x r2).
  { intros x Hx. destruct (in_dec item_dec x r2) as [H|Hnx]; [exact H|exfalso].
    assert (Hy : exists y, In y r2 /\ ~ In y r1).
    { destruct (List.Exists_dec (fun y => ~ In y r1) r2) as [He|He].
      - intros y. destruct (in_dec item_dec y r1); [right|left]; tauto.
      - apply Exists_exists in He. exact He.
      - exfalso. apply Hnx. assert (Hi : incl r2 r1).
        { intros y Hy. destruct (in_dec item_dec y r1) as [H|H]; [exact H|].
          exfalso. apply He. apply Exists_exists. eauto. }
        apply (NoDup_length_incl R2 (l' := r1)); auto. lia. }
    destruct Hy as (y & Hy & Hny).
    assert (Hxa : In x all1) by (eapply Permutation_in; [symmetry; exact P1|apply in_or_app; auto]).
    assert (Hya2 : In y all2) by (eapply Permutation_in; [symmetry; exact P2|apply in_or_app; auto]).
    assert (Hya : In y all1) by (eapply Permutation_in; [symmetry; exact Hp|exact Hya2]).
    assert (Hxa2 : In x all2) by (eapply Permutation_in; [exact Hp|exact Hxa]).
    assert (Hxd : In x d2) by (eapply Permutation_in in Hxa2; [|exact P2]; apply in_app_or in Hxa2; tauto).
    assert (Hyd : In y d1) by (eapply Permutation_in in Hya; [|exact P1]; apply in_app_or in Hya; tauto).
    pose proof (B1 x y Hx Hyd) as C1. pose proof (B2 y x Hy Hxd) as C2.
    destruct (Hdi x y Hxa Hya) as [->|[H|H]]; [contradiction|congruence|congruence]. }
  apply NoDup_Permutation_bis; auto. lia.
Qed.

Lemma kbest_self k r : length r <= k -> kbest k r r.
Proof.
  intros H. exists []. rewrite app_nil_r. split; [reflexivity|]. split; [lia|]. intros x y _ [].
Qed.

Lemma sorted_unique (l1 : list item) : forall l2, Permutation l1 l2 -> NoDup l1 -> distinct_items l1 ->
  asc l1 -> asc l2 -> l1 = l2.
Proof.
  unfold asc. induction l1 as [|x l1 IH]; intros l2 Hp Hnd Hdi S1 S2.
  { now apply Permutation_nil in Hp. }
  destruct l2 as [|y l2]; [symmetry in Hp; now apply Permutation_nil in Hp|].
  inversion S1 as [|? ? S1' F1]; inversion S2 as [|? ? S2' F2]; subst. inversion Hnd as [|? ? N1 N2]; subst.
  rewrite Forall_forall in F1, F2.
  assert (Hxy : x = y).
  { assert (Hx : In x (y :: l2)) by (eapply Permutation_in; [exact Hp|now left]).
    assert (Hy : In y (x :: l1)) by (eapply Permutation_in; [symmetry; exact Hp|now left]).
    destruct Hx as [->|Hx]; [reflexivity|]. destruct Hy as [->|Hy]; [reflexivity|].
    destruct (Hdi x y (or_introl eq_refl) (or_intror Hy)) as [H|[H|H]]; [exact H| |].
    - rewrite (F2 x Hx) in H. discriminate.
    - rewrite (F1 y Hy) in H. discriminate. }
  subst y. f_equal. apply IH; auto.
  - eapply Permutation_cons_inv; exact Hp.
  - intros a b Ha Hb. apply Hdi; now right.
Qed.

Section Fold.
  Variable E : env.
  Variable h : hnsw.
  Variable q : vec.
  Variable ef : Z.
  Variable level : nat.
  Variable allow : option (N -> bool).
  Local Notation P := (e_prov E).
  Local Notation step := (step_nd h ef level allow).
  Local Notation tdist := (true_dist P h q).
  Hypothesis Hnum : dists_num P h q.
  Hypothesis Hdi : dists_distinct P h q.
  Hypothesis Hef : (1 <= ef)%Z.
  Variable ep : item.
  Local Notation sv := (sinv E h q ef level allow ep).

  Definition okb (x : item) : bool := allowed level allow (it_id x) && negb (has_tombstone h (it_id x)).

  (** A candidate that would end the search. *)
  Definition hopeless (s : sst) (x : item) : bool :=
    fgt (it_dist x) (s_worst s) && (ef <=? Z.of_nat (length (s_results s)))%Z.
  Definition live (s : sst) : list item := filter (fun x => negb (hopeless s x)) (s_cands s).

  Lemma tdist_distinct l : (forall x, In x l -> tdist (it_id x) (it_dist x)) -> distinct_items l.
  Proof.
    intros H x y Hx Hy. destruct (N.eq_dec (it_id x) (it_id y)) as [He|Hne].
    - left. destruct (H x Hx) as (v & Hv & Hd), (H y Hy) as (v' & Hv' & Hd').
      destruct x as [i a], y as [j b]; cbn in *. subst. congruence.
    - right. eapply Hdi; eauto.
  Qed.

  (** The worst distance never grows once the result is full. *)
  Lemma hopeless_step s nd x : sv s -> hinv s -> numItem nd -> numItem x ->
    hopeless s x = true -> hopeless (step s nd) x = true.
  Proof.
    intros Hs Hh Hn Hx H. destruct (sinv_num E h q ef level allow Hnum ep s Hs) as [_ Hnr].
    unfold hopeless in *. apply andb_true_iff in H. destruct H as [H1 H2]. apply Z.leb_le in H2.
    destruct Hh as (_ & Hr & Hw).
    destruct (step_cases h ef level allow s nd) as [(-> & _)|[(-> & _)|(r2 & _ & Hor & -> & Hr2)]].
    - apply andb_true_iff. split; [exact H1|now apply Z.leb_le].
    - cbn [s_worst s_results]. apply andb_true_iff. split; [exact H1|now apply Z.leb_le].
    - cbn [s_worst s_results]. destruct Hr2 as [[Hle _]|[_ (y & Hy)]]; [lia|].
      pose proof (pop_length _ _ _ _ Hy) as Hl. rewrite insert_length in Hl.
      apply andb_true_iff. split; [|apply Z.leb_le; lia].
      destruct Hor as [Hlt|Hlt]; [|lia].
      destruct r2 as [|t r2]; [cbn in Hl; lia|]. cbn [pq_top].
      assert (Ht : t = nd \/ In t (s_results s)).
      { apply (insert_In less_max). eapply pop_sub; [exact Hy|]. now left. }
      unfold fgt in *. fold flt in *.
      destruct Ht as [->|Ht]; [eapply flt_trans; eauto|].
      unfold wcond in Hw. destruct (pq_top (s_results s)) as [w|] eqn:Etop.
      2:{ destruct (s_results s); [destruct Ht|discriminate]. }
      pose proof (top_min less_max numItem less_max_asym less_max_trans _ _ Hr Hnr Etop t Ht) as Hm.
      unfold less_max, fgt in Hm. fold flt in Hm. rewrite Hw in H1.
      apply top_In in Etop. eapply le_flt_trans; [| | |exact Hm|exact H1]; [apply Hnr; exact Ht|apply Hnr; exact Etop|exact Hx].
  Qed.

  Lemma step_results s nd acc : sv s -> hinv s -> numItem nd -> (forall x, In x acc -> numItem x) ->
    kbest (Z.to_nat ef) (s_results s) acc ->
    kbest (Z.to_nat ef) (s_results (step s nd)) ((if okb nd then [nd] else []) ++ acc).
  Proof.
    intros Hs Hh Hn Ha Hk. destruct (okb nd) eqn:Eo; unfold okb in Eo.
    - apply andb_true_iff in Eo. destruct Eo as [E1 E2]. apply negb_true_iff in E2.
      apply (kbest_step E h q ef level allow Hnum Hef ep s nd acc); auto.
    - cbn [app]. destruct (step_cases h ef level allow s nd) as [(-> & _)|[(-> & _)|(r2 & Hok & _ & -> & _)]]; auto.
      destruct Hok as [E2 E1]. rewrite E1, E2 in Eo. discriminate.
  Qed.

  Lemma step_cands s nd : sv s -> hinv s -> tdist (it_id nd) (it_dist nd) -> ~ ids_of s (it_id nd) ->
    (Permutation (s_cands (step s nd)) (nd :: s_cands s)) \/
    (step s nd = s /\ hopeless s nd = true).
  Proof.
    intros Hs Hh Hd Hni.
    destruct (step_cases h ef level allow s nd) as [(-> & Hlt & Hle)|[(-> & _)|(r2 & _ & _ & -> & _)]].
    - right. split; [reflexivity|]. unfold hopeless. apply andb_true_iff. split; [|now apply Z.leb_le].
      destruct Hh as (_ & Hr & Hw). unfold wcond in Hw.
      destruct (pq_top (s_results s)) as [w|] eqn:Etop.
      2:{ destruct (s_results s); [cbn in Hle; lia|discriminate]. }
      apply top_In in Etop. destruct (si_rg _ _ _ _ _ _ _ _ Hs w Etop) as [Hdw _].
      rewrite Hw in *. unfold fgt. fold flt.
      assert (Hne : it_id nd <> it_id w) by (intros E'; apply Hni; right; rewrite E'; now apply in_map).
      destruct (Hdi _ _ _ _ Hd Hdw Hne) as [H|H]; [congruence|exact H].
    - left. cbn. symmetry. apply insert_perm.
    - left. cbn. symmetry. apply insert_perm.
  Qed.

  Lemma fold_spec nds : forall s acc, sv s -> hinv s ->
    (forall x, In x nds -> good E h q level ep x /\ In (it_id x) (s_visited s) /\ ~ ids_of s (it_id x)) ->
    NoDup (map it_id nds) -> (forall x, In x acc -> numItem x) ->
    kbest (Z.to_nat ef) (s_results s) acc ->
    let s' := fold_left step nds s in
    sv s' /\ hinv s' /\ s_visited s' = s_visited s /\
    kbest (Z.to_nat ef) (s_results s') (filter okb (rev nds) ++ acc) /\
    (forall x, numItem x -> hopeless s x = true -> hopeless s' x = true) /\
    Permutation (live s') (filter (fun x => negb (hopeless s' x)) (nds ++ s_cands s)).
  Proof.
    induction nds as [|nd nds IH]; intros s acc Hs Hh Hin Hnd Ha Hk s'.
    { cbn in s'. subst s'. cbn [rev filter app]. repeat (split; auto). }
    cbn [fold_left] in s'. inversion Hnd as [|? ? Hn1 Hn2]; subst.
    destruct (Hin nd (or_introl eq_refl)) as (Hg & Hv & Hni).
    destruct (sinv_step E h q ef level allow ep s nd Hs Hg Hv Hni) as [Hs1 Hids].
    assert (Hnn : numItem nd) by (eapply good_num; eauto).
    assert (Hh1 : hinv (step s nd)) by (eapply hinv_step; eauto).
    destruct (IH (step s nd) ((if okb nd then [nd] else []) ++ acc)) as (A1 & A2 & A3 & A4 & A5 & A6); auto.
    - intros x Hx. destruct (Hin x (or_intror Hx)) as (Hgx & Hvx & Hnx).
      rewrite step_visited. split; [exact Hgx|]. split; [exact Hvx|].
      intros Hcc. apply Hids in Hcc. destruct Hcc as [Hcc|Hcc]; [tauto|].
      apply Hn1. rewrite <- Hcc. now apply in_map.
    - intros x Hx. apply in_app_or in Hx. destruct Hx as [Hx|Hx]; [|auto].
      destruct (okb nd); [|destruct Hx]. destruct Hx as [<-|[]]. exact Hnn.
    - apply step_results; auto.
    - fold s' in A1, A2, A3, A4, A5, A6. split; [exact A1|]. split; [exact A2|].
      split; [rewrite A3; apply step_visited|]. split; [|split].
      + cbn [rev]. rewrite filter_app, <- app_assoc. cbn [filter].
        destruct (okb nd); exact A4.
      + intros x Hx H. apply A5; [exact Hx|]. now apply hopeless_step.
      + rewrite A6. destruct (step_cands s nd Hs Hh (proj1 Hg) Hni) as [Hp|[He Hhop]].
        * transitivity (filter (fun x => negb (hopeless s' x)) (nds ++ nd :: s_cands s)).
          { rewrite !filter_app. apply Permutation_app_head. apply Permutation_filter. exact Hp. }
          { apply Permutation_filter. symmetry. apply (Permutation_middle nds (s_cands s) nd). }
        * rewrite He. cbn [app filter].
          assert (Hx : hopeless s' nd = true).
          { apply A5; [exact Hnn|]. rewrite He. exact Hhop. }
          rewrite Hx. cbn [negb]. reflexivity.
  Qed.
End Fold.

Section Loop.
  Variables E1 E2 : env.
  Variable h : hnsw.
  Variable q : vec.
  Variable ef : Z.
  Variable level : nat.
  Variable allow : option (N -> bool).
  Local Notation P := (e_prov E1).
  Hypothesis HP : e_prov E1 = e_prov E2.
  Hypothesis Hcap : e_vcap E1 = e_vcap E2.
  Hypothesis Hsc1 : sched_ok E1.
  Hypothesis Hsc2 : sched_ok E2.
  Hypothesis Hnum : dists_num P h q.
  Hypothesis Hdi : dists_distinct P h q.
  Hypothesis Hef : (1 <= ef)%Z.
  Variable ep : item.

  Let Hnum2 : dists_num (e_prov E2) h q. Proof. rewrite <- HP. exact Hnum. Qed.
  Let Hdi2 : dists_distinct (e_prov E2) h q. Proof. rewrite <- HP. exact Hdi. Qed.

  Lemma neighbour_dists_same ids : neighbour_dists E1 h q ids = neighbour_dists E2 h q ids.
  Proof.
    induction ids as [|i ids IH]; cbn; [reflexivity|]. unfold dist_float_node. rewrite HP, IH. reflexivity.
  Qed.

  Record srel (s1 s2 : sst) : Prop := {
    sr_i1 : sinv E1 h q ef level allow ep s1;
    sr_i2 : sinv E2 h q ef level allow ep s2;
    sr_h1 : hinv s1;
    sr_h2 : hinv s2;
    sr_v : s_visited s1 = s_visited s2;
    sr_r : Permutation (s_results s1) (s_results s2);
    sr_l : Permutation (live ef s1) (live ef s2)
  }.

  Lemma results_num s : sinv E1 h q ef level allow ep s -> forall x, In x (s_results s) -> numItem x.
  Proof. intros Hs. apply (sinv_num E1 h q ef level allow Hnum ep s Hs). Qed.

  Lemma NoDup_ids (l : list item) : NoDup (map it_id l) -> NoDup l.
  Proof. apply NoDup_map_inv. Qed.

  Lemma worst_same s1 s2 : sinv E1 h q ef level allow ep s1 -> sinv E2 h q ef level allow ep s2 ->
    hinv s1 -> hinv s2 -> Permutation (s_results s1) (s_results s2) ->
    s_worst s1 = s_worst s2 /\ length (s_results s1) = length (s_results s2).
  Proof.
    intros I1 I2 (_ & R1 & W1) (_ & R2 & W2) Hp. split; [|now apply Permutation_length].
    destruct (sinv_num E1 h q ef level allow Hnum ep s1 I1) as [_ N1].
    destruct (sinv_num E2 h q ef level allow Hnum2 ep s2 I2) as [_ N2].
    unfold wcond in *.
    destruct (pq_top (s_results s1)) as [x|] eqn:T1; destruct (pq_top (s_results s2)) as [y|] eqn:T2; try congruence.
    - rewrite W1, W2.
      pose proof (top_In _ _ T1) as X1. pose proof (top_In _ _ T2) as Y2.
      assert (X2 : In x (s_results s2)) by (eapply Permutation_in; eauto).
      assert (Y1 : In y (s_results s1)) by (eapply Permutation_in; [symmetry|]; eauto).
      pose proof (top_min less_max numItem less_max_asym less_max_trans _ _ R1 N1 T1 y Y1) as M1.
      pose proof (top_min less_max numItem less_max_asym less_max_trans _ _ R2 N2 T2 x X2) as M2.
      change (flt (it_dist x) (it_dist y) = false) in M1. change (flt (it_dist y) (it_dist x) = false) in M2.
      assert (Hd : distinct_items (s_results s1)).
      { eapply tdist_distinct; [exact Hdi|]. intros z Hz. apply (si_rg _ _ _ _ _ _ _ _ I1 z Hz). }
      destruct (Hd x y X1 Y1) as [->|[H|H]]; [reflexivity|congruence|congruence].
    - destruct (s_results s2); [|discriminate]. symmetry in Hp. apply Permutation_nil in Hp. rewrite Hp in T1. discriminate.
    - destruct (s_results s1); [|discriminate]. apply Permutation_nil in Hp. rewrite Hp in T2. discriminate.
  Qed.

  Lemma hopeless_same s1 s2 x : s_worst s1 = s_worst s2 -> length (s_results s1) = length (s_results s2) ->
    hopeless ef s1 x = hopeless ef s2 x.
  Proof. intros H1 H2. unfold hopeless. now rewrite H1, H2. Qed.

  (** One expansion. *)
  Lemma srel_fold s1 s2 nds1 nds2 :
    srel s1 s2 -> Permutation nds1 nds2 ->
    (forall x, In x nds1 -> good E1 h q level ep x /\ In (it_id x) (s_visited s1) /\ ~ ids_of s1 (it_id x)) ->
    (forall x, In x nds2 -> good E2 h q level ep x /\ In (it_id x) (s_visited s2) /\ ~ ids_of s2 (it_id x)) ->
    NoDup (map it_id nds1) -> NoDup (map it_id nds2) ->
    srel (fold_left (step_nd h ef level allow) nds1 s1) (fold_left (step_nd h ef level allow) nds2 s2).
  Proof.
    intros [I1 I2 H1 H2 V R L] Hp G1 G2 N1 N2.
    assert (K1 : kbest (Z.to_nat ef) (s_results s1) (s_results s1)).
    { apply kbest_self. pose proof (si_rlen _ _ _ _ _ _ _ _ I1). lia. }
    assert (K2 : kbest (Z.to_nat ef) (s_results s2) (s_results s2)).
    { apply kbest_self. pose proof (si_rlen _ _ _ _ _ _ _ _ I2). lia. }
    destruct (fold_spec E1 h q ef level allow Hnum Hdi Hef ep nds1 s1 _ I1 H1 G1 N1
                (proj2 (sinv_num E1 h q ef level allow Hnum ep s1 I1)) K1) as (A1 & A2 & A3 & A4 & A5 & A6).
    destruct (fold_spec E2 h q ef level allow Hnum2 Hdi2 Hef ep nds2 s2 _ I2 H2 G2 N2
                (proj2 (sinv_num E2 h q ef level allow Hnum2 ep s2 I2)) K2) as (B1 & B2 & B3 & B4 & B5 & B6).
    set (t1 := fold_left _ nds1 s1) in *. set (t2 := fold_left _ nds2 s2) in *.
    assert (Hall : Permutation (filter (okb h level allow) (rev nds1) ++ s_results s1)
                     (filter (okb h level allow) (rev nds2) ++ s_results s2)).
    { apply Permutation_app; [|exact R]. apply Permutation_filter.
      rewrite <- (Permutation_rev nds1), <- (Permutation_rev nds2). exact Hp. }
    assert (Hsub : forall x, In x (filter (okb h level allow) (rev nds1) ++ s_results s1) ->
              true_dist P h q (it_id x) (it_dist x)).
    { intros x Hx. apply in_app_or in Hx. destruct Hx as [Hx|Hx].
      - apply filter_In in Hx. destruct Hx as [Hx _]. rewrite <- in_rev in Hx. apply (G1 x Hx).
      - apply (si_rg _ _ _ _ _ _ _ _ I1 x Hx). }
    assert (Hnd : NoDup (filter (okb h level allow) (rev nds1) ++ s_results s1)).
    { apply NoDup_ids. rewrite map_app. apply NoDup_app_intro.
      - apply NoDup_map_filter. rewrite map_rev. apply NoDup_rev. exact N1.
      - apply (si_rnd _ _ _ _ _ _ _ _ I1).
      - intros i Hi Hr. apply in_map_iff in Hi. destruct Hi as (x & <- & Hx).
        apply filter_In in Hx. destruct Hx as [Hx _]. rewrite <- in_rev in Hx.
        destruct (G1 x Hx) as (_ & _ & Hni). apply Hni. now right. }
    assert (R' : Permutation (s_results t1) (s_results t2)).
    { eapply kbest_unique; [exact Hall|exact Hnd| |exact A4|exact B4].
      eapply tdist_distinct; [exact Hdi|exact Hsub]. }
    destruct (worst_same t1 t2 A1 B1 A2 B2 R') as [W' L'].
    constructor; auto; [rewrite A3, B3; exact V|].
    assert (Hf : forall x, hopeless ef t1 x = hopeless ef t2 x) by (intros x; now apply hopeless_same).
    rewrite A6, B6. rewrite (filter_ext _ (fun x => negb (hopeless ef t2 x))) by (intros x; now rewrite Hf).
    rewrite !filter_app. apply Permutation_app; [now apply Permutation_filter|].
    (* queued candidates that are no longer live *)
    destruct (worst_same s1 s2 I1 I2 H1 H2 R) as [W0 L0].
    assert (Hl1 : filter (fun x => negb (hopeless ef t2 x)) (s_cands s1) =
                  filter (fun x => negb (hopeless ef t2 x)) (live ef s1)).
    { unfold live. rewrite filter_filter_sub; [reflexivity|]. intros x Hx Hhx.
      rewrite negb_false_iff in *. rewrite <- Hf. apply A5; [|exact Hhx].
      exact (proj1 (sinv_num E1 h q ef level allow Hnum ep s1 I1) x Hx). }
    assert (Hl2 : filter (fun x => negb (hopeless ef t2 x)) (s_cands s2) =
                  filter (fun x => negb (hopeless ef t2 x)) (live ef s2)).
    { unfold live. rewrite filter_filter_sub; [reflexivity|]. intros x Hx Hhx.
      rewrite negb_false_iff in *. apply B5; [|exact Hhx].
      exact (proj1 (sinv_num E2 h q ef level allow Hnum2 ep s2 I2) x Hx). }
    rewrite Hl1, Hl2. now apply Permutation_filter.
  Qed.

  Lemma srel_skip s1 s2 c1 c2 k1 k2 : srel s1 s2 ->
    pq_pop less_min (s_cands s1) = Some (c1, k1) -> pq_pop less_min (s_cands s2) = Some (c2, k2) -> c1 = c2 ->
    hopeless ef s1 c1 = false ->
    srel (mkS k1 (s_results s1) (s_worst s1) (s_visited s1)) (mkS k2 (s_results s2) (s_worst s2) (s_visited s2)).
  Proof.
    intros [I1 I2 H1 H2 V R L] P1 P2 <- Hh.
    destruct (worst_same s1 s2 I1 I2 H1 H2 R) as [W0 L0].
    constructor; cbn; auto.
    - eapply sinv_skip; eauto.
    - eapply sinv_skip; eauto.
    - exact (hinv_pop E1 h q ef level allow Hnum ep s1 c1 k1 (s_visited s1) I1 H1 P1).
    - exact (hinv_pop E2 h q ef level allow Hnum2 ep s2 c1 k2 (s_visited s2) I2 H2 P2).
    - unfold live in *. cbn [s_cands]. unfold hopeless in *. cbn [s_worst s_results] in *.
      pose proof (Permutation_filter (fun x => negb (fgt (it_dist x) (s_worst s1) && (ef <=? Z.of_nat (length (s_results s1)))%Z))
                    _ _ (pop_perm _ _ _ _ P1)) as Q1.
      pose proof (Permutation_filter (fun x => negb (fgt (it_dist x) (s_worst s2) && (ef <=? Z.of_nat (length (s_results s2)))%Z))
                    _ _ (pop_perm _ _ _ _ P2)) as Q2.
      cbn [filter] in Q1, Q2. rewrite Hh in Q1. rewrite <- W0, <- L0, Hh in Q2. cbn [negb] in Q1, Q2.
      rewrite <- W0, <- L0 in *. apply (Permutation_cons_inv (a := c1)).
      rewrite <- Q1, <- Q2. exact L.
  Qed.

  (** Both runs look at the same candidate or both stop. *)
  Lemma srel_pop s1 s2 : srel s1 s2 ->
    ((s_cands s1 = [] \/ exists c k, pq_pop less_min (s_cands s1) = Some (c, k) /\ hopeless ef s1 c = true) /\
     (s_cands s2 = [] \/ exists c k, pq_pop less_min (s_cands s2) = Some (c, k) /\ hopeless ef s2 c = true)) \/
    (exists c k1 k2, pq_pop less_min (s_cands s1) = Some (c, k1) /\ pq_pop less_min (s_cands s2) = Some (c, k2) /\
       hopeless ef s1 c = false /\ hopeless ef s2 c = false).
  Proof.
    intros [I1 I2 H1 H2 V R L].
    destruct (worst_same s1 s2 I1 I2 H1 H2 R) as [W0 L0].
    destruct (sinv_num E1 h q ef level allow Hnum ep s1 I1) as [N1 _].
    destruct (sinv_num E2 h q ef level allow Hnum2 ep s2 I2) as [N2 _].
    assert (Hsame : forall x, hopeless ef s1 x = hopeless ef s2 x) by (intros x; now apply hopeless_same).
    (* an entry closer than a live one is live *)
    assert (Hmono : forall x y, numItem x -> numItem y -> flt (it_dist y) (it_dist x) = false ->
              hopeless ef s1 x = true -> hopeless ef s1 y = true).
    { intros x y Hx Hy Hle Hh. unfold hopeless in *. apply andb_true_iff in Hh. destruct Hh as [Ha Hb]. rewrite Hb.
      rewrite andb_true_r. unfold fgt in *. fold (flt (s_worst s1) (it_dist x)) in Ha. fold (flt (s_worst s1) (it_dist y)).
      eapply flt_le_trans; [| | |exact Ha|exact Hle]; auto. now apply (flt_num _ _ Ha). }
    destruct (pq_pop less_min (s_cands s1)) as [[c1 k1]|] eqn:P1;
      destruct (pq_pop less_min (s_cands s2)) as [[c2 k2]|] eqn:P2.
    - pose proof (pop_min less_min numItem less_min_asym less_min_trans _ _ _ (proj1 H1) N1 P1) as M1.
      pose proof (pop_min less_min numItem less_min_asym less_min_trans _ _ _ (proj1 H2) N2 P2) as M2.
      assert (C1 : In c1 (s_cands s1)) by (eapply Permutation_in; [symmetry; apply (pop_perm _ _ _ _ P1)|now left]).
      assert (C2 : In c2 (s_cands s2)) by (eapply Permutation_in; [symmetry; apply (pop_perm _ _ _ _ P2)|now left]).
      assert (T12 : forall x, In x (s_cands s1) -> hopeless ef s1 x = false -> In x (s_cands s2)).
      { intros x Hx Hh. assert (Hi : In x (live ef s1)) by (apply filter_In; rewrite Hh; auto).
        eapply Permutation_in in Hi; [|exact L]. now apply filter_In in Hi. }
      assert (T21 : forall x, In x (s_cands s2) -> hopeless ef s2 x = false -> In x (s_cands s1)).
      { intros x Hx Hh. assert (Hi : In x (live ef s2)) by (apply filter_In; rewrite Hh; auto).
        eapply Permutation_in in Hi; [|symmetry; exact L]. now apply filter_In in Hi. }
      destruct (hopeless ef s1 c1) eqn:Hh1; destruct (hopeless ef s2 c2) eqn:Hh2.
      + left. split; right; eauto.
      + exfalso. assert (Hc : In c2 (s_cands s1)) by auto.
        pose proof (M1 c2 Hc) as Hle. rewrite <- Hsame in Hh2.
        rewrite (Hmono c1 c2 (N1 _ C1) (N1 _ Hc) Hle Hh1) in Hh2. discriminate.
      + exfalso. assert (Hc : In c1 (s_cands s2)) by auto.
        pose proof (M2 c1 Hc) as Hle. rewrite <- Hsame in Hh2.
        rewrite (Hmono c2 c1 (N2 _ C2) (N2 _ Hc) Hle Hh2) in Hh1. discriminate.
      + right. assert (Hc : In c1 (s_cands s2)) by auto. assert (Hc' : In c2 (s_cands s1)) by auto.
        assert (Hd : distinct_items (s_cands s1)).
        { eapply tdist_distinct; [exact Hdi|]. intros z Hz. apply (si_cg _ _ _ _ _ _ _ _ I1 z Hz). }
        pose proof (M1 c2 Hc') as Hl1. pose proof (M2 c1 Hc) as Hl2. unfold less_min in Hl1, Hl2.
        assert (c1 = c2) by (destruct (Hd c1 c2 C1 Hc') as [He|[He|He]]; [exact He|congruence|congruence]).
        subst c2. exists c1, k1, k2. auto.
    - left. split; [|left; now apply pop_None in P2]. right. exists c1, k1. split; [reflexivity|].
      destruct (hopeless ef s1 c1) eqn:Hh; [reflexivity|exfalso].
      assert (Hi : In c1 (live ef s1)).
      { apply filter_In. rewrite Hh. split; [|reflexivity].
        eapply Permutation_in; [symmetry; apply (pop_perm _ _ _ _ P1)|now left]. }
      eapply Permutation_in in Hi; [|exact L]. apply filter_In in Hi. apply pop_None in P2. rewrite P2 in Hi. tauto.
    - left. split; [left; now apply pop_None in P1|]. right. exists c2, k2. split; [reflexivity|].
      destruct (hopeless ef s2 c2) eqn:Hh; [reflexivity|exfalso].
      assert (Hi : In c2 (live ef s2)).
      { apply filter_In. rewrite Hh. split; [|reflexivity].
        eapply Permutation_in; [symmetry; apply (pop_perm _ _ _ _ P2)|now left]. }
      eapply Permutation_in in Hi; [|symmetry; exact L]. apply filter_In in Hi. apply pop_None in P1. rewrite P1 in Hi. tauto.
    - left. split; left; now apply (pop_None less_min).
  Qed.

  Definition rrel (r1 r2 : res sst) : Prop :=
    match r1, r2 with
    | Ok a, Ok b => Permutation (s_results a) (s_results b) /\ heap less_max (s_results a) /\ heap less_max (s_results b)
                    /\ NoDup (map it_id (s_results a)) /\
                    (forall x, In x (s_results a) -> true_dist P h q (it_id x) (it_dist x))
    | Panic, Panic => True
    | OutOfFuel, OutOfFuel => True
    | _, _ => False
    end.

  Lemma loop_rel fuel : forall s1 s2, srel s1 s2 ->
    rrel (search_loop E1 h q ef level allow fuel s1) (search_loop E2 h q ef level allow fuel s2).
  Proof.
    induction fuel as [|f IH]; intros s1 s2 Hr; cbn [search_loop]; [exact I|].
    assert (Hend : Permutation (s_results s1) (s_results s2) /\ heap less_max (s_results s1) /\ heap less_max (s_results s2)
                   /\ NoDup (map it_id (s_results s1)) /\
                    (forall x, In x (s_results s1) -> true_dist P h q (it_id x) (it_dist x))).
    { destruct Hr as [I1 I2 H1 H2 V R L]. split; [exact R|]. split; [apply H1|]. split; [apply H2|].
      split; [apply (si_rnd _ _ _ _ _ _ _ _ I1)|]. intros x Hx. apply (si_rg _ _ _ _ _ _ _ _ I1 x Hx). }
    destruct (srel_pop s1 s2 Hr) as [[D1 D2]|(c & k1 & k2 & P1 & P2 & N1 & N2)].
    - assert (X1 : match pq_pop less_min (s_cands s1) with None => True
                   | Some (c, _) => hopeless ef s1 c = true end).
      { destruct D1 as [->|(c & k & -> & Hh)]; [exact I|exact Hh]. }
      assert (X2 : match pq_pop less_min (s_cands s2) with None => True
                   | Some (c, _) => hopeless ef s2 c = true end).
      { destruct D2 as [->|(c & k & -> & Hh)]; [exact I|exact Hh]. }
      unfold hopeless in X1, X2.
      destruct (pq_pop less_min (s_cands s1)) as [[c1 k1]|]; destruct (pq_pop less_min (s_cands s2)) as [[c2 k2]|];
        try rewrite X1; try rewrite X2; exact Hend.
    - rewrite P1, P2. pose proof N1 as N1'. pose proof N2 as N2'. unfold hopeless in N1', N2'. rewrite N1', N2'.
      assert (Hskip : srel (mkS k1 (s_results s1) (s_worst s1) (s_visited s1)) (mkS k2 (s_results s2) (s_worst s2) (s_visited s2)))
        by (eapply srel_skip; eauto).
      destruct (node_by_id h (it_id c)) as [v|] eqn:Ev; [|apply IH; exact Hskip].
      destruct (Nat.ltb_spec (v_level v) level) as [Hl|Hl]; [apply IH; exact Hskip|].
      destruct (conns_at v level) as [conns|] eqn:Ec; [|exact I].
      rewrite <- (sr_v _ _ Hr). destruct (fresh conns (s_visited s1)) as [ids vis'] eqn:Ef.
      apply IH.
      assert (Ef2 : fresh conns (s_visited s2) = (ids, vis')) by (rewrite <- (sr_v _ _ Hr); exact Ef).
      destruct (expand_prem E1 h q ef level allow ep s1 c k1 v conns ids vis' f Hsc1 (sr_i1 _ _ Hr) P1 Ev Hl Ec Ef)
        as (A1 & A2 & A3).
      destruct (expand_prem E2 h q ef level allow ep s2 c k2 v conns ids vis' f Hsc2 (sr_i2 _ _ Hr) P2 Ev Hl Ec Ef2)
        as (B1 & B2 & B3).
      apply srel_fold; auto.
      + destruct Hskip as [I1 I2 H1 H2 V R L]. constructor; cbn; auto.
      + etransitivity; [symmetry; apply Hsc1|]. rewrite neighbour_dists_same. apply Hsc2.
  Qed.

  Definition layer_of (E : env) := search_layer E h q ef level allow (pq_insert less_min ep []).

  Lemma layer_rel : true_dist P h q (it_id ep) (it_dist ep) -> (it_id ep < e_vcap E1)%N ->
    match layer_of E1, layer_of E2 with
    | Ok a, Ok b => Permutation a b /\ heap less_max a /\ heap less_max b /\
                    NoDup (map it_id a) /\ (forall x, In x a -> true_dist P h q (it_id x) (it_dist x))
    | Err a, Err b => a = b
    | Panic, Panic => True
    | OutOfFuel, OutOfFuel => True
    | _, _ => False
    end.
  Proof.
    intros Hd Hv. unfold layer_of. rewrite !layer_single.
    assert (Hw : worst_dist E1 h q (init_results h level allow ep) = worst_dist E2 h q (init_results h level allow ep)).
    { unfold worst_dist, dist_float_node. rewrite HP. reflexivity. }
    destruct (worst_dist E1 h q (init_results h level allow ep)) as [w|e| |] eqn:Ew; rewrite <- Hw; cbn [bind]; auto.
    assert (Hi : srel (init_state E1 h level allow ep w) (init_state E2 h level allow ep w)).
    { assert (Hd2 : true_dist (e_prov E2) h q (it_id ep) (it_dist ep)) by (rewrite <- HP; exact Hd).
      constructor.
      - now apply init_sinv.
      - apply init_sinv; [exact Hd2|rewrite <- Hcap; exact Hv].
      - eapply init_hinv; eauto.
      - eapply init_hinv; [exact Hd2|now rewrite <- Hw].
      - unfold init_state, init_visited. cbn. now rewrite Hcap.
      - reflexivity.
      - reflexivity. }
    pose proof (loop_rel (S (1 + length (stored_ids h))) _ _ Hi) as H. unfold rrel in H.
    destruct (search_loop E1 h q ef level allow _ _) as [a|e| |];
      destruct (search_loop E2 h q ef level allow _ _) as [b|e'| |]; cbn [bind]; try contradiction; auto.
  Qed.
End Loop.

(** Heaps with the same distinct content drain in the same order. *)
Lemma drain_same P h q a b : dists_num P h q -> dists_distinct P h q ->
  Permutation a b -> heap less_max a -> heap less_max b -> NoDup (map it_id a) ->
  (forall x, In x a -> true_dist P h q (it_id x) (it_dist x)) ->
  pq_drain less_max a = pq_drain less_max b.
Proof.
  intros Hnum Hdi Hp Ha Hb Hnd Hin.
  assert (Na : allP numItem a) by (intros x Hx; eapply Hnum; eauto).
  assert (Nb : allP numItem b) by (eapply allP_perm; eauto).
  destruct (drain_max_asc a Ha Na) as [Sa _]. destruct (drain_max_asc b Hb Nb) as [Sb _].
  assert (He : rev (pq_drain less_max a) = rev (pq_drain less_max b)).
  { apply sorted_unique; auto.
    - rewrite <- !rev_drain_perm. exact Hp.
    - apply (NoDup_map_inv it_id). eapply Permutation_map_NoDup; [apply rev_drain_perm|exact Hnd].
    - intros x y Hx Hy.
      apply (Permutation_in _ (Permutation_sym (rev_drain_perm a))) in Hx, Hy.
      destruct (N.eq_dec (it_id x) (it_id y)) as [Hxy|Hne].
      + left. destruct (Hin x Hx) as (v & Hv & Hdv), (Hin y Hy) as (v' & Hv' & Hdv').
        destruct x as [i dx], y as [j dy]; cbn in *. subst. congruence.
      + right. eapply Hdi; eauto. }
  rewrite <- (rev_involutive (pq_drain less_max a)), He. apply rev_involutive.
Qed.

Section Query.
  Variables E1 E2 : env.
  Variable h : hnsw.
  Hypothesis HP : e_prov E1 = e_prov E2.
  Hypothesis Hcap : e_vcap E1 = e_vcap E2.
  Hypothesis Hsc1 : sched_ok E1.
  Hypothesis Hsc2 : sched_ok E2.
  Hypothesis Hsym : prov_sym (e_prov E1).
  Hypothesis Hsm : ids_small E1 h.
  Local Notation P := (e_prov E1).

  Lemma layer_same q ef level allow e d : dists_num P h q -> dists_distinct P h q -> (1 <= ef)%Z ->
    true_dist P h q e d ->
    match search_layer E1 h q ef level allow (pq_insert less_min (mkItem e d) []),
          search_layer E2 h q ef level allow (pq_insert less_min (mkItem e d) []) with
    | Ok a, Ok b => pq_drain less_max a = pq_drain less_max b /\ length a = length b /\
                    (forall x, In x a -> true_dist P h q (it_id x) (it_dist x))
    | Err a, Err b => a = b
    | Panic, Panic => True
    | OutOfFuel, OutOfFuel => True
    | _, _ => False
    end.
  Proof.
    intros Hnum Hdi Hef Hd.
    pose proof (layer_rel E1 E2 h q ef level allow HP Hcap Hsc1 Hsc2 Hnum Hdi Hef (mkItem e d) Hd) as H.
    unfold layer_of in H.
    assert (Hlt : (it_id (mkItem e d) < e_vcap E1)%N) by (destruct Hd as (v & Hv & _); eapply Hsm; exact Hv).
    specialize (H Hlt).
    destruct (search_layer E1 _ _ _ _ _ _) as [a|x| |]; destruct (search_layer E2 _ _ _ _ _ _) as [b|y| |]; auto.
    destruct H as (Hp & Ha & Hb & Hnd & Hin).
    split; [eapply drain_same; eauto|]. split; [now apply Permutation_length|exact Hin].
  Qed.

  Lemma drain_pop (l : list item) : pq_drain less_max l =
    match pq_pop less_max l with Some (x, l') => x :: pq_drain less_max l' | None => [] end.
  Proof.
    rewrite (drain_unfold less_max numItem less_max_asym less_max_trans l).
    destruct (pq_pop less_max l) as [[x l']|]; reflexivity.
  Qed.

  Lemma descend_same q l : dists_num P h q -> dists_distinct P h q -> forall e d,
    true_dist P h q e d ->
    descend E1 h q l e d = descend E2 h q l e d /\
    (forall e' d', descend E1 h q l e d = Ok (e', d') -> true_dist P h q e' d').
  Proof.
    intros Hnum Hdi. induction l as [|l IH]; intros e d Hd; cbn [descend].
    { split; [reflexivity|]. intros e' d' [= <- <-]. exact Hd. }
    pose proof (layer_same q 1 (S l) None e d Hnum Hdi ltac:(lia) Hd) as H.
    destruct (search_layer E1 _ _ _ _ _ _) as [a|x| |]; destruct (search_layer E2 _ _ _ _ _ _) as [b|y| |];
      try contradiction; cbn [bind]; try (split; [congruence|discriminate]).
    destruct H as (Hdr & _ & Hin). rewrite (drain_pop a), (drain_pop b) in Hdr.
    destruct (pq_pop less_max a) as [[x a']|] eqn:Pa; destruct (pq_pop less_max b) as [[y b']|]; try discriminate.
    - inversion Hdr; subst y. apply IH. apply Hin.
      eapply Permutation_in; [symmetry; apply (pop_perm _ _ _ _ Pa)|now left].
    - apply IH. exact Hd.
  Qed.

  Lemma knn_max_dist_same q0 maxd ef allow :
    dists_num P h (p_normalize P q0) -> dists_distinct P h (p_normalize P q0) -> (1 <= ef)%Z ->
    knn_max_dist E1 h q0 maxd ef allow = knn_max_dist E2 h q0 maxd ef allow.
  Proof.
    intros Hnum Hdi Hef. unfold knn_max_dist. rewrite <- HP. set (q := p_normalize P q0) in *.
    destruct (dist_node_vec P h (h_ep h) q) as [d0|x| |] eqn:Ed; cbn [bind]; try reflexivity.
    apply dist_node_vec_spec in Ed; [|exact Hsym].
    destruct (descend_same q (h_maxl h) Hnum Hdi _ _ Ed) as [He Hok]. rewrite <- He.
    destruct (descend E1 h q (h_maxl h) (h_ep h) d0) as [[e d]|x| |]; cbn [bind]; try reflexivity.
    specialize (Hok e d eq_refl). cbn [fst snd].
    pose proof (layer_same q ef 0 allow e d Hnum Hdi Hef Hok) as H.
    destruct (search_layer E1 _ _ _ _ _ _) as [a|x| |]; destruct (search_layer E2 _ _ _ _ _ _) as [b|y| |];
      try contradiction; cbn [bind]; try congruence.
    destruct H as (Hdr & _). rewrite Hdr. reflexivity.
  Qed.

  Lemma descend_maint_same q l : dists_num P h q -> dists_distinct P h q -> forall e d,
    true_dist P h q e d ->
    descend_maint E1 h q l e d = descend_maint E2 h q l e d /\
    (forall e' d', descend_maint E1 h q l e d = Ok (e', d') -> true_dist P h q e' d').
  Proof.
    intros Hnum Hdi. induction l as [|l IH]; intros e d Hd; cbn [descend_maint].
    { split; [reflexivity|]. intros e' d' [= <- <-]. exact Hd. }
    pose proof (layer_same q 1 (S l) None e d Hnum Hdi ltac:(lia) Hd) as H.
    destruct (search_layer E1 _ _ _ _ _ _) as [a|x| |]; destruct (search_layer E2 _ _ _ _ _ _) as [b|y| |];
      try contradiction; cbn [bind]; try (split; [congruence|discriminate]).
    destruct H as (Hdr & _ & Hin). rewrite Hdr.
    destruct (pick_entry h (pq_drain less_max b)) as [x|] eqn:Pe; apply IH; auto.
    apply pick_entry_In in Pe. rewrite <- Hdr in Pe. apply Hin.
    eapply Permutation_in; [symmetry; apply drain_perm|exact Pe].
  Qed.

  Lemma pop_to_drain fuel : forall (r : list item) k, (0 <= k)%Z -> length r <= fuel ->
    pq_drain less_max (pop_to fuel r k) = skipn (length r - Z.to_nat k) (pq_drain less_max r).
  Proof.
    induction fuel as [|f IH]; intros r k Hk Hl; cbn [pop_to].
    { destruct r; [|cbn in Hl; lia]. reflexivity. }
    destruct (Z.ltb_spec k (Z.of_nat (length r))) as [Hlt|Hge].
    - destruct (pq_pop less_max r) as [[x r']|] eqn:Ep.
      2:{ apply pop_None in Ep. subst r. cbn in Hlt. lia. }
      pose proof (pop_length _ _ _ _ Ep) as Hlen. rewrite IH by lia.
      rewrite (drain_pop r), Ep, Hlen. replace (S (length r') - Z.to_nat k) with (S (length r' - Z.to_nat k)) by lia.
      reflexivity.
    - replace (length r - Z.to_nat k) with 0 by lia. reflexivity.
  Qed.

  Lemma knn_search_same q k ef allow :
    dists_num P h q -> dists_distinct P h q -> (1 <= ef)%Z ->
    knn_search E1 h q k ef allow = knn_search E2 h q k ef allow.
  Proof.
    intros Hnum Hdi Hef. unfold knn_search. rewrite <- HP. destruct (is_empty h); [reflexivity|].
    destruct (dist_node_vec P h (h_ep h) q) as [d0|x| |] eqn:Ed; cbn [bind]; try reflexivity.
    apply dist_node_vec_spec in Ed; [|exact Hsym].
    destruct (descend_maint_same q (h_maxl h) Hnum Hdi _ _ Ed) as [He Hok]. rewrite <- He.
    destruct (descend_maint E1 h q (h_maxl h) (h_ep h) d0) as [[e d]|x| |]; cbn [bind]; try reflexivity.
    specialize (Hok e d eq_refl). cbn [fst snd].
    pose proof (layer_same q ef 0 allow e d Hnum Hdi Hef Hok) as H.
    destruct (search_layer E1 _ _ _ _ _ _) as [a|x| |]; destruct (search_layer E2 _ _ _ _ _ _) as [b|y| |];
      try contradiction; cbn [bind]; try congruence.
    destruct H as (Hdr & Hlen & _). destruct (Z.ltb_spec k 0) as [Hk|Hk]; [reflexivity|].
    rewrite !pop_to_drain, Hdr, Hlen by lia. reflexivity.
  Qed.
End Query.
