(** SearchByVectorDistance: soundness, limit, termination, exactness. *)
From Coq Require Import String Sorted.
From Verif Require Import Base F32 PQ PQProofs Graph Search SearchProofs SearchLayer SearchKnn Config SearchDist.

(* ------------------------------------------------------------------ *)
(** Comparisons. *)
Lemma SFcompare_swap a b : SFcompare b a = match SFcompare a b with Some c => Some (CompOpp c) | None => None end.
Proof.
  destruct a as [s|s| |s m e], b as [s'|s'| |s' m' e']; try reflexivity; try (now destruct s); try (now destruct s'); try (now destruct s, s').
  cbn. pose proof (Pos.compare_cont_antisym m m' Eq) as Hp. cbn in Hp.
  destruct s, s'; try reflexivity; rewrite (Z.compare_antisym e e'); destruct (e ?= e')%Z; try reflexivity;
    cbn; rewrite <- Hp; reflexivity.
Qed.
Lemma SFcompare_num a b : is_num a = true -> is_num b = true -> exists c, SFcompare a b = Some c.
Proof.
  unfold is_num, is_nan. destruct a as [s|s| |s m e], b as [s'|s'| |s' m' e']; try discriminate; intros _ _; cbn; eauto;
    try (destruct s; eauto); try (destruct s'; eauto); destruct (e ?= e')%Z; eauto.
Qed.
Lemma fle_nflt a b : is_num a = true -> is_num b = true -> fle a b = negb (flt b a).
Proof.
  intros Ha Hb. unfold fle, flt, SFleb, SFltb. rewrite (SFcompare_swap a b).
  destruct (SFcompare_num a b Ha Hb) as [c ->]. now destruct c.
Qed.
Lemma fle_num a b : fle a b = true -> is_num a = true /\ is_num b = true.
Proof.
  unfold fle, SFleb, is_num, is_nan. destruct a, b; cbn; try discriminate; auto.
Qed.

(* ------------------------------------------------------------------ *)
(** The answer of one search. *)
Lemma flat_loop_ids E h q limit cands : forall results r,
  NoDup (map it_id results ++ cands) -> (forall x, In x results -> exists v, node_by_id h (it_id x) = Some v) ->
  flat_loop E h q limit cands results = Ok r ->
  NoDup (map it_id r) /\ (forall x, In x r -> exists v, node_by_id h (it_id x) = Some v).
Proof.
  assert (Hskip : forall c (l cs : list N), NoDup (l ++ c :: cs) -> NoDup (l ++ cs)).
  { intros c l cs H. now apply NoDup_remove_1 in H. }
  induction cands as [|c cands IH]; intros results r Hnd Hex Hr; cbn [flat_loop] in Hr.
  - inversion Hr; subst. rewrite app_nil_r in Hnd. auto.
  - destruct (node_by_id h c) as [v|] eqn:Ev; [|apply (IH results r); eauto].
    destruct (has_tombstone h c); [apply (IH results r); eauto|].
    apply bind_Ok in Hr. destruct Hr as (d & _ & Hr).
    assert (Hadd : forall rs, NoDup (map it_id rs ++ c :: cands) -> (forall x, In x rs -> exists v, node_by_id h (it_id x) = Some v) ->
      flat_loop E h q limit cands (pq_insert less_max (mkItem c d) rs) = Ok r ->
      NoDup (map it_id r) /\ (forall x, In x r -> exists v, node_by_id h (it_id x) = Some v)).
    { intros rs N1 X1 R1. apply (IH (pq_insert less_max (mkItem c d) rs) r); [| |exact R1].
      - pose proof (insert_perm less_max (mkItem c d) rs) as Hp. apply (Permutation_map it_id) in Hp. cbn [map it_id] in Hp.
        eapply Permutation_NoDup; [apply Permutation_app_tail; exact Hp|]. cbn [app].
        eapply Permutation_NoDup; [|exact N1]. symmetry. apply Permutation_middle.
      - intros x Hx. eapply Permutation_in in Hx; [|symmetry; apply insert_perm]. destruct Hx as [<-|Hx]; [eauto|auto]. }
    destruct (Z.of_nat (length results) <? limit)%Z; [apply (Hadd results); auto|].
    destruct (pq_top results) as [t|]; [|discriminate].
    destruct (fgt (it_dist t) d); [|apply (IH results r); eauto].
    destruct (pq_pop less_max results) as [[y rs]|] eqn:Ep; [|discriminate].
    pose proof (pop_perm less_max _ _ _ Ep) as Hp. apply (Hadd rs); [| |exact Hr].
    + eapply Permutation_NoDup in Hnd; [|apply Permutation_app_tail, Permutation_map; exact Hp].
      cbn [map app] in Hnd. now inversion Hnd.
    + intros x Hx. apply Hex. eapply Permutation_in; [symmetry; exact Hp|]. now right.
Qed.

Definition pok (p : dparams) : Prop := (0 <= dp_offset p)%Z /\ (100 <= dp_limit p)%Z /\ dp_total p = (dp_offset p + dp_limit p)%Z.
Lemma pok_init : pok dp_init.
Proof. unfold pok, dp_init. cbn. lia. Qed.
Lemma pok_iterate p : pok p -> pok (dp_iterate p) /\ dp_offset (dp_iterate p) = dp_total p /\ (dp_offset p < dp_offset (dp_iterate p))%Z.
Proof. unfold pok, dp_iterate. cbn. lia. Qed.

Lemma combine_sub {A B} n : forall m (a : list A) (b : list B),
  combine (firstn n (skipn m a)) (firstn n (skipn m b)) = firstn n (skipn m (combine a b)).
Proof.
  intros m a b. rewrite <- combine_firstn. f_equal. revert a b. induction m as [|m IH]; intros a b; [reflexivity|].
  destruct a as [|x a]; [reflexivity|]. destruct b as [|y b]; [cbn [combine skipn]; now rewrite combine_nil|]. apply IH.
Qed.

Lemma firstn_plus {A} o m : forall l : list A, firstn (o + m) l = firstn o l ++ firstn m (skipn o l).
Proof. induction o as [|o IH]; intros [|x l]; cbn; try reflexivity; [now destruct m|now rewrite IH]. Qed.

Lemma last_cons {A} (l : list A) : forall x d, last (x :: l) d = last l x.
Proof.
  induction l as [|y l IH]; intros x d; [reflexivity|].
  change (last (x :: y :: l) d) with (last (y :: l) d). now rewrite !IH.
Qed.

Lemma fle_above a b t : is_num a = true -> is_num b = true -> is_num t = true ->
  flt b a = false -> fle b t = true -> fle a t = true.
Proof.
  intros Ha Hb Ht H1 H2. rewrite fle_nflt in * by assumption. apply negb_true_iff in H2. apply negb_true_iff.
  eapply nflt_trans; [| | |exact H1|]; eauto.
Qed.

Lemma asc_app_inv l1 l2 : asc (l1 ++ l2) -> asc l1 /\ asc l2 /\ forall x y, In x l1 -> In y l2 -> flt (it_dist y) (it_dist x) = false.
Proof.
  unfold asc. induction l1 as [|x l1 IH]; cbn [app]; intros H; [repeat split; [constructor|exact H|intros x y []]|].
  inversion H as [|? ? H1 H2]; subst. destruct (IH H1) as (A & B & C). rewrite Forall_app in H2. destruct H2 as [D E].
  split; [constructor; assumption|]. split; [exact B|]. intros a b [<-|Ha] Hb; [|auto]. rewrite Forall_forall in E. now apply E.
Qed.

Lemma answer_ids_of out : length (fst out) = length (snd out) -> map it_id (answer out) = fst out.
Proof.
  destruct out as [a b]. unfold answer. cbn [fst snd]. revert b. induction a as [|x a IH]; intros [|y b]; try discriminate; [reflexivity|].
  cbn. intros [= H]. now rewrite IH.
Qed.

Lemma slice_spec p out : pok p -> length (fst out) = length (snd out) ->
  dp_slice p out = Ok (firstn (Z.to_nat (dp_limit p)) (skipn (Z.to_nat (dp_offset p)) (answer out))).
Proof.
  intros (H1 & H2 & H3) Hl. unfold dp_slice. cbv zeta. set (n := length (fst out)) in *.
  assert (Hla : length (answer out) = n) by (unfold answer; rewrite map_length, combine_length, <- Hl; fold n; lia).
  rewrite <- Hl. rewrite combine_sub, <- firstn_map, <- skipn_map. fold (answer out).
  destruct (Z.ltb_spec (dp_offset p) (Z.of_nat n)) as [A|A]; destruct (Z.ltb_spec (dp_total p) (Z.of_nat n)) as [B|B]; try lia.
  - destruct (Nat.ltb_spec (Z.to_nat (dp_total p)) (Z.to_nat (dp_offset p))); [lia|].
    destruct (Nat.ltb_spec n (Z.to_nat (dp_total p))); [lia|]. cbn [orb]. do 2 f_equal. lia.
  - destruct (Nat.ltb_spec n (Z.to_nat (dp_offset p))); [lia|].
    destruct (Nat.ltb_spec n n); [lia|]. cbn [orb]. f_equal. rewrite !firstn_all2; [reflexivity| |]; rewrite skipn_length; lia.
  - destruct (Nat.ltb_spec n n); [lia|]. cbn [orb]. rewrite Nat.sub_diag.
    cbn [firstn]. now rewrite skipn_all2, firstn_nil by lia.
Qed.

Section Dist.
  Variable Es : nat -> env.
  Variable h : hnsw.
  Variable s : settings.
  Variable forbid : bool.
  Variable delta : f32 -> f32 -> bool.
  Variable q0 : vec.
  Variable target : f32.
  Variable maxlimit : Z.
  Variable allow : option (list N).
  Variable P : provider.
  Hypothesis HP : forall i, e_prov (Es i) = P.
  Hypothesis Hsc : forall i, sched_ok (Es i).
  Hypothesis Hsmall : forall i, ids_small (Es i) h.
  Hypothesis Hsym : prov_sym P.
  Hypothesis Hallow : forall l, allow = Some l -> NoDup l.
  Local Notation q := (p_normalize P q0).
  Local Notation search i k := (search_by_vector (Es i) h s forbid q0 k allow).
  Local Notation loop := (dp_loop Es h s forbid delta q0 target maxlimit allow).

  Lemma Hsym' i : prov_sym (e_prov (Es i)).
  Proof. rewrite HP. exact Hsym. Qed.

  (** What an answer may contain. *)
  Definition member (x : item) : Prop :=
    true_dist P h q (it_id x) (it_dist x) /\ has_tombstone h (it_id x) = false /\
    (forall l, allow = Some l -> In (it_id x) l).

  Lemma flat_results E k cands out : e_prov E = P -> dists_num P h q -> (1 <= k)%Z -> NoDup cands ->
    flat_search E h q k cands = Ok out ->
    forall x, In x (answer out) -> true_dist P h q (it_id x) (it_dist x) /\ has_tombstone h (it_id x) = false /\ In (it_id x) cands.
  Proof. clear delta target maxlimit.
    intros HE Hn Hk Hnd H x Hx. rewrite <- HE in *. destruct (flat_search_spec E h _ k Hsym Hn Hk cands out Hnd H) as (all & _ & Hall & Hkb & _).
    assert (Hin : In x all).
    { destruct Hkb as (dr & Hp & _). eapply Permutation_in; [symmetry; exact Hp|]. apply in_or_app. now left. }
    apply Hall in Hin. destruct Hin as (A & B & C). auto.
  Qed.

  Lemma flat_shape E k cands out : NoDup cands -> flat_search E h q k cands = Ok out ->
    length (fst out) = length (snd out) /\ NoDup (fst out) /\ incl (fst out) (stored_ids h).
  Proof. clear delta target maxlimit.
    intros Hnd H. unfold flat_search in H. destruct (k <? 0)%Z; [discriminate|].
    apply bind_Ok in H. destruct H as (r & Hr & H). inversion H; subst. cbn [fst snd]. rewrite !map_length. split; [reflexivity|].
    destruct (flat_loop_ids E h q k cands [] r Hnd ltac:(intros x []) Hr) as [H1 H2]. split.
    - eapply Permutation_NoDup; [|exact H1]. apply Permutation_map, rev_drain_perm.
    - intros id Hid. apply in_map_iff in Hid. destruct Hid as (x & <- & Hx).
      eapply Permutation_in in Hx; [|symmetry; apply rev_drain_perm]. destruct (H2 x Hx) as [v Hv]. eapply stored_in; eauto.
  Qed.

  Lemma search_shape i k out : search i k = Ok out ->
    length (fst out) = length (snd out) /\ NoDup (fst out) /\ incl (fst out) (stored_ids h).
  Proof. clear delta target maxlimit.
    unfold search_by_vector. rewrite HP. intros H.
    assert (Hknn : forall ef a, knn_search (Es i) h q k ef a = Ok out ->
      length (fst out) = length (snd out) /\ NoDup (fst out) /\ incl (fst out) (stored_ids h)).
    { intros ef a K. destruct (knn_search_sound (Es i) h (Hsc i) (Hsym' i) (Hsmall i) q k ef a out K) as (A & B & _ & C & D & _).
      split; [exact B|]. split; [exact A|]. intros id Hid. rewrite <- D in Hid. apply in_map_iff in Hid. destruct Hid as (x & <- & Hx).
      destruct (C x Hx) as ((v & Hv & _) & _). eapply stored_in; eauto. }
    destruct allow as [l|]; [|now apply Hknn in H].
    destruct (negb forbid && (Z.of_nat (length l) <? s_flat s)%Z); [|now apply Hknn in H].
    eapply flat_shape; [|exact H]. now apply Hallow.
  Qed.

  Lemma search_member i k out : dists_num P h q -> (1 <= k)%Z -> search i k = Ok out ->
    asc (answer out) /\ forall x, In x (answer out) -> member x.
  Proof. clear delta target maxlimit.
    unfold search_by_vector. rewrite HP. intros Hn Hk H.
    assert (Hknn : forall ef a, knn_search (Es i) h q k ef a = Ok out ->
      asc (answer out) /\ forall x, In x (answer out) -> true_dist P h q (it_id x) (it_dist x) /\ has_tombstone h (it_id x) = false /\
        (forall f, a = Some f -> f (it_id x) = true)).
    { intros ef a K. destruct (knn_search_sound (Es i) h (Hsc i) (Hsym' i) (Hsmall i) q k ef a out K) as (_ & _ & _ & C & _ & _ & D).
      rewrite HP in C, D. split; [now apply D|]. intros x Hx. destruct (C x Hx) as (C1 & _ & C3 & C4). auto. }
    unfold member. destruct allow as [l|] eqn:Ea.
    2:{ destruct (Hknn _ _ H) as [A B]. split; [exact A|]. intros x Hx. destruct (B x Hx) as (B1 & B2 & _).
        split; [exact B1|]. split; [exact B2|]. discriminate. }
    destruct (negb forbid && (Z.of_nat (length l) <? s_flat s)%Z).
    - split.
      + pose proof (flat_search_spec (Es i) h q k (Hsym' i) ltac:(rewrite HP; exact Hn) Hk l out (Hallow l eq_refl) H) as (all & _ & _ & _ & A & _). exact A.
      + intros x Hx. destruct (flat_results (Es i) k l out (HP i) Hn Hk (Hallow l eq_refl) H x Hx) as (A & B & C).
        split; [exact A|]. split; [exact B|]. intros l' [= <-]. exact C.
    - destruct (Hknn _ _ H) as [A B]. split; [exact A|]. intros x Hx. destruct (B x Hx) as (B1 & B2 & B3).
      split; [exact B1|]. split; [exact B2|]. intros l' [= <-]. specialize (B3 _ eq_refl). now apply memN_In in B3.
  Qed.

  Lemma search_no_fuel i k : search i k <> OutOfFuel.
  Proof. clear delta target maxlimit.
    unfold search_by_vector. rewrite HP.
    assert (Hf : forall cands rs, flat_loop (Es i) h q k cands rs <> OutOfFuel).
    { induction cands as [|c cands IH]; intros rs; cbn [flat_loop]; [discriminate|].
      destruct (node_by_id h c); [|apply IH]. destruct (has_tombstone h c); [apply IH|].
      pose proof (dist_node_vec_no_fuel (Es i) h q c) as Hd. destruct (dist_node_vec _ h c q) as [d|e| |]; cbn [bind]; try congruence.
      destruct (_ <? _)%Z; [apply IH|]. destruct (pq_top rs); [|discriminate]. destruct (fgt _ _); [|apply IH].
      destruct (pq_pop less_max rs) as [[? ?]|]; [apply IH|discriminate]. }
    destruct allow as [l|]; [destruct (negb forbid && _)|]; try apply (knn_search_no_fuel (Es i) h (Hsc i)).
    unfold flat_search. destruct (k <? 0)%Z; [discriminate|]. specialize (Hf l []).
    destruct (flat_loop _ _ _ _ _ _); cbn [bind]; congruence.
  Qed.

  (* ---------------------------------------------------------------- *)
  (** Slices. *)
  Lemma take_spec l : exists rest, l = dp_take delta target l ++ rest /\
    (forall x, In x (dp_take delta target l) -> fle (it_dist x) target = true \/ delta (it_dist x) target = true) /\
    match rest with [] => True | x :: _ => fle (it_dist x) target = false end.
  Proof.
    induction l as [|x l (rest & E & H1 & H2)]; cbn [dp_take]; [exists []; repeat split; intros x []|].
    destruct (fle (it_dist x) target || delta (it_dist x) target) eqn:Ex.
    - exists rest. cbn [app]. split; [congruence|]. split; [|exact H2].
      intros y [<-|Hy]; [now apply orb_prop|auto].
    - exists (x :: l). split; [reflexivity|]. split; [intros y []|]. now apply orb_false_elim in Ex.
  Qed.

  (* ---------------------------------------------------------------- *)
  (** Soundness and limit. *)
  Lemma loop_sound fuel : forall i p acc r, dists_num P h q -> pok p -> (Z.of_nat (length acc) <= dp_offset p)%Z ->
    (dp_total p <= Z.max 100 maxlimit \/ maxlimit < 0)%Z ->
    (forall x, In x acc -> member x /\ (fle (it_dist x) target = true \/ delta (it_dist x) target = true)) ->
    loop fuel i p acc = Ok r ->
    (forall x, In x r -> member x /\ (fle (it_dist x) target = true \/ delta (it_dist x) target = true)) /\
    (Z.of_nat (length r) <= Z.max 100 maxlimit \/ maxlimit < 0)%Z.
  Proof.
    induction fuel as [|f IH]; intros i p acc r Hn Hp Hla Hmax Hacc Hr; [discriminate|]. cbn [dp_loop] in Hr.
    apply bind_Ok in Hr. destruct Hr as (out & Ho & Hr). apply bind_Ok in Hr. destruct Hr as ([acc' c] & Hrd & Hr). cbn [fst snd] in Hr.
    unfold dp_round in Hrd. pose proof (search_shape _ _ _ Ho) as (Hl & _). rewrite (slice_spec p out Hp Hl) in Hrd. cbn [bind] in Hrd.
    set (sl := firstn (Z.to_nat (dp_limit p)) (skipn (Z.to_nat (dp_offset p)) (answer out))) in *.
    assert (Hsl : forall x, In x sl -> In x (answer out)).
    { intros x Hx. rewrite <- (firstn_skipn (Z.to_nat (dp_offset p)) (answer out)). apply in_or_app. right.
      rewrite <- (firstn_skipn (Z.to_nat (dp_limit p)) (skipn (Z.to_nat (dp_offset p)) (answer out))). apply in_or_app. now left. }
    assert (Hk : (1 <= dp_total p)%Z) by (destruct Hp as (A & B & ->); lia).
    destruct (search_member _ _ _ Hn Hk Ho) as [_ Hm].
    assert (Hacc' : (forall x, In x acc' -> member x /\ (fle (it_dist x) target = true \/ delta (it_dist x) target = true)) /\
              (Z.of_nat (length acc') <= dp_total p)%Z).
    { destruct sl as [|x0 l0] eqn:El; inversion Hrd; subst acc' c; clear Hrd.
      - split; [exact Hacc|]. destruct Hp as (A & B & ->). lia.
      - destruct (take_spec (x0 :: l0)) as (rest & E & T & _). split.
        + intros x Hx. apply in_app_or in Hx. destruct Hx as [Hx|Hx]; [now apply Hacc|]. split; [|now apply T].
          apply Hm, Hsl. rewrite E. apply in_or_app. now left.
        + apply (f_equal (@length item)) in E. rewrite app_length in E. rewrite app_length.
          pose proof (firstn_length (Z.to_nat (dp_limit p)) (skipn (Z.to_nat (dp_offset p)) (answer out))) as Hle.
          unfold sl in El. rewrite El in Hle. destruct Hp as (A & B & ->). cbn [length] in Hle, E. cbn [dp_take] in E. lia. }
    destruct Hacc' as [HA HB]. destruct c.
    - destruct (pok_iterate p Hp) as (Hp' & Eo & _).
      destruct (dp_reached maxlimit (dp_iterate p)) eqn:Er; [inversion Hr; subst; split; [exact HA|lia]|].
      refine (IH (S i) (dp_iterate p) acc' r Hn Hp' _ _ HA Hr); [rewrite Eo; exact HB|].
      unfold dp_reached in Er. destruct (Z.ltb_spec maxlimit 0); [lia|]. apply Z.ltb_ge in Er. lia.
    - inversion Hr; subst. split; [exact HA|lia].
  Qed.

  (** Termination. *)
  Lemma loop_no_fuel fuel : forall i p acc, pok p -> (Z.of_nat i <= dp_offset p)%Z -> i <= length (stored_ids h) -> length (stored_ids h) < i + fuel ->
    loop fuel i p acc <> OutOfFuel.
  Proof.
    induction fuel as [|f IH]; intros i p acc Hp Hi Hi2 Hf; cbn [dp_loop]; [lia|].
    pose proof (search_no_fuel i (dp_total p)) as Hs. destruct (search i (dp_total p)) as [out|e| |] eqn:Eo; cbn [bind]; try congruence.
    unfold dp_round. pose proof (search_shape _ _ _ Eo) as (Hl & Hnd & Hin). rewrite (slice_spec p out Hp Hl). cbn [bind].
    destruct (firstn _ _) as [|x0 l0] eqn:El; cbn [bind fst snd]; [discriminate|].
    destruct (fle _ _); [|discriminate]. destruct (dp_reached _ _); [discriminate|].
    destruct (pok_iterate p Hp) as (Hp' & Eo' & Hlt).
    assert (Hoff : Z.to_nat (dp_offset p) < length (answer out)).
    { destruct (Nat.lt_ge_cases (Z.to_nat (dp_offset p)) (length (answer out))); [assumption|].
      rewrite skipn_all2 in El by lia. rewrite firstn_nil in El. discriminate. }
    rewrite <- (map_length it_id), (answer_ids_of out Hl) in Hoff. pose proof (NoDup_incl_length Hnd Hin) as Hle.
    destruct Hp as (A & B & C). apply IH; [exact Hp'|lia|lia|lia].
  Qed.

  (* ---------------------------------------------------------------- *)
  (** Exactness. *)
  Definition small_ok : Prop :=
    is_empty h = false /\
    (forall id v, node_by_id h id = Some v -> exists d, p_query P q (v_vec v) = Some d) /\
    (forall a va b vb, node_by_id h a = Some va -> node_by_id h b = Some vb -> reach h 0 a b) /\
    (forall k, (100 <= k)%Z -> (Z.of_nat (length (nodup N.eq_dec (stored_ids h))) <= search_ef s k)%Z).
  Definition flat_ok : Prop := exists l, allow = Some l /\ negb forbid && (Z.of_nat (length l) <? s_flat s)%Z = true.

  Lemma knn_exact E k ef a out (f : N -> Prop) : e_prov E = P -> sched_ok E -> ids_small E h -> dists_num P h q ->
    is_empty h = false ->
    (forall id v, node_by_id h id = Some v -> exists d, p_query P q (v_vec v) = Some d) ->
    (forall a va b vb, node_by_id h a = Some va -> node_by_id h b = Some vb -> reach h 0 a b) ->
    (Z.of_nat (length (nodup N.eq_dec (stored_ids h))) <= ef)%Z ->
    (forall id, (forall g, a = Some g -> g id = true) <-> f id) ->
    knn_search E h q k ef a = Ok out ->
    exists all, NoDup (map it_id all) /\
      (forall x, In x all <-> true_dist P h q (it_id x) (it_dist x) /\ has_tombstone h (it_id x) = false /\ f (it_id x)) /\
      kbest (Z.to_nat k) (answer out) all.
  Proof. clear HP Hsc Hsmall Hallow Es s forbid delta target maxlimit allow.
    intros HE Hs Hsm Hn Hem Hall Hconn Hef Hf H. rewrite <- HE in *. unfold knn_search in H. rewrite Hem in H.
    apply bind_Ok in H. destruct H as (d0 & H0 & H).
    apply bind_Ok in H. destruct H as ([e d] & H1 & H). cbn [fst snd] in H.
    apply bind_Ok in H. destruct H as (res & H2 & H).
    destruct (Z.ltb_spec k 0) as [|Hk]; [discriminate|]. inversion H; subst. clear H.
    assert (Hans : forall l, answer (map it_id l, map it_dist l) = l).
    { intros l. rewrite <- (app_nil_r (map it_dist l)). apply answer_map. }
    rewrite Hans. apply dist_node_vec_spec in H0; [|exact Hsym].
    destruct (descend_maint_sound E h Hs Hsm _ _ _ _ _ _ H0 H1) as [He _].
    assert (Hcap : (e < e_vcap E)%N) by (destruct He as (v & Hv & _); eapply Hsm; eauto).
    destruct (layer_sound E h _ ef 0 a (mkItem e d) res Hs He Hcap H2) as (Hin & Hnd & _).
    destruct (layer_heap E h _ ef 0 a Hn (mkItem e d) res Hs He Hcap H2) as [Hh Hnm].
    destruct (pop_to_spec (length res) res k ltac:(lia) Hk) as (dr & Hp1 & Hp2 & Hp3).
    exists res. split; [exact Hnd|]. split.
    - intros x. split.
      + intros Hx. destruct (Hin x Hx) as (A & _ & B & C). split; [exact A|]. split; [exact B|]. apply Hf. intros g ->. exact C.
      + intros (A & B & C). destruct x as [id dd]. cbn [it_id it_dist] in *.
        eapply (layer_exhaustive E h _ ef 0 a (mkItem e d) res (nodup N.eq_dec (stored_ids h))); eauto.
        * intros i di _ (v & Hv & _). apply nodup_In. eapply stored_in; eauto.
        * cbn [it_id]. destruct He as (ve & Hve & _), A as (v & Hv & _). eapply Hconn; eauto.
        * split; [exact B|]. pose proof (proj2 (Hf id) C) as C1. cbn. destruct a as [g|]; [now apply C1|reflexivity].
    - destruct (Hp3 Hh Hnm) as [_ Hd]. eapply kbest_perm; [apply rev_drain_perm|].
      exists dr. split; [exact Hp1|]. split; [lia|exact Hd].
  Qed.

  Lemma search_exact i k out : dists_num P h q -> (100 <= k)%Z -> small_ok \/ flat_ok -> search i k = Ok out ->
    exists all, NoDup (map it_id all) /\ (forall x, In x all <-> member x) /\ kbest (Z.to_nat k) (answer out) all.
  Proof. clear delta target maxlimit.
    intros Hn Hk Hok H. unfold search_by_vector in H. rewrite HP in H. unfold member.
    destruct Hok as [(A & B & C & D)|(l & El & Hfl)].
    2:{ rewrite El, Hfl in H. pose proof (HP i) as HE.
        destruct (flat_search_spec (Es i) h q k (Hsym' i) ltac:(rewrite HP; exact Hn) ltac:(lia) l out (Hallow l El) H) as (all & A1 & A2 & A3 & _).
        exists all. split; [exact A1|]. split; [|exact A3]. intros x. rewrite A2. unfold eligible. rewrite HP. split.
        - intros (B1 & B2 & B3). split; [|split]; auto. intros l' E'. rewrite El in E'. now inversion E'; subst.
        - intros (B1 & B2 & B3). auto. }
    destruct allow as [l|] eqn:Ea.
    - destruct (negb forbid && (Z.of_nat (length l) <? s_flat s)%Z).
      + destruct (flat_search_spec (Es i) h q k (Hsym' i) ltac:(rewrite HP; exact Hn) ltac:(lia) l out (Hallow l eq_refl) H) as (all & A1 & A2 & A3 & _).
        exists all. split; [exact A1|]. split; [|exact A3]. intros x. rewrite A2. unfold eligible. rewrite HP. split.
        * intros (B1 & B2 & B3). split; [|split]; auto. intros l' [= <-]. exact B1.
        * intros (B1 & B2 & B3). auto.
      + eapply (knn_exact (Es i) k _ _ out (fun id => forall l', Some l = Some l' -> In id l') (HP i) (Hsc i) (Hsmall i) Hn A B C (D k Hk)); [|exact H].
        intros id. split.
        * intros G l' [= <-]. apply memN_In. exact (G _ eq_refl).
        * intros G g [= <-]. apply memN_In. now apply G.
    - eapply (knn_exact (Es i) k _ _ out (fun id => forall l', None = Some l' -> In id l') (HP i) (Hsc i) (Hsmall i) Hn A B C (D k Hk)); [|exact H].
      intros id. split; intros G g; discriminate.
  Qed.

  (** The loop reads off a prefix of one sorted list. *)
  Lemma loop_exact S0 fuel : is_num target = true -> allP (fun x => is_num (it_dist x) = true) S0 -> asc S0 ->
    (forall i p out, pok p -> (i = 0 /\ p = dp_init) \/ (100 <= dp_offset p)%Z -> search i (dp_total p) = Ok out ->
       firstn (Z.to_nat (dp_limit p)) (skipn (Z.to_nat (dp_offset p)) (answer out)) =
       firstn (Z.to_nat (dp_limit p)) (skipn (Z.to_nat (dp_offset p)) S0)) ->
    (maxlimit < 0)%Z \/ length S0 <= 100 ->
    forall i p r, pok p -> (i = 0 /\ p = dp_init) \/ (100 <= dp_offset p)%Z ->
    loop fuel i p (firstn (Z.to_nat (dp_offset p)) S0) = Ok r ->
    exists rest, S0 = r ++ rest /\ forall x, In x rest -> fle (it_dist x) target = false.
  Proof.
    intros Ht Hnum Hasc Hsl Hneg. induction fuel as [|f IH]; intros i p r Hp Hi Hr; [discriminate|]. cbn [dp_loop] in Hr.
    apply bind_Ok in Hr. destruct Hr as (out & Ho & Hr). apply bind_Ok in Hr. destruct Hr as ([acc' c] & Hrd & Hr). cbn [fst snd] in Hr.
    unfold dp_round in Hrd. pose proof (search_shape _ _ _ Ho) as (Hl & _). rewrite (slice_spec p out Hp Hl) in Hrd. cbn [bind] in Hrd.
    rewrite (Hsl i p out Hp Hi Ho) in Hrd. clear Ho Hl.
    assert (Htot : Z.to_nat (dp_total p) = Z.to_nat (dp_offset p) + Z.to_nat (dp_limit p)) by (destruct Hp as (A & B & C); lia).
    set (o := Z.to_nat (dp_offset p)) in *. set (m := Z.to_nat (dp_limit p)) in *.
    assert (HS : S0 = firstn o S0 ++ firstn m (skipn o S0) ++ skipn m (skipn o S0)) by now rewrite !firstn_skipn.
    assert (Hmm : 0 < m) by (unfold m; destruct Hp as (A & B & C); lia).
    destruct (firstn m (skipn o S0)) as [|x0 l0] eqn:El.
    { assert (Hnil : skipn o S0 = []) by (destruct (skipn o S0), m; cbn in El; try lia; congruence).
      inversion Hrd; subst acc' c. inversion Hr; subst r. exists []. rewrite app_nil_r. split; [|intros x []].
      rewrite <- (firstn_skipn o S0) at 1. rewrite Hnil. now rewrite app_nil_r. }
    assert (Hs3 := Hasc). rewrite HS in Hs3. apply asc_app_inv in Hs3. destruct Hs3 as (_ & Hs3 & _).
    assert (Hs4 := Hs3). apply asc_app_inv in Hs4. destruct Hs4 as (Hs4 & _ & Hs5).
    assert (Hn3 : forall x, In x (x0 :: l0) \/ In x (skipn m (skipn o S0)) -> is_num (it_dist x) = true).
    { intros x Hx. apply Hnum. rewrite HS. apply in_or_app. right. now apply in_or_app. }
    assert (Hlast : In (last l0 x0) (x0 :: l0)).
    { destruct l0 as [|y l0]; [now left|]. right. clear. revert y. induction l0 as [|z l0 IH]; intros y; [now left|]. right. apply IH. }
    assert (Hle_last : forall x, In x (x0 :: l0) -> flt (it_dist (last l0 x0)) (it_dist x) = false).
    { destruct (@exists_last _ (x0 :: l0) ltac:(discriminate)) as (l' & z & Ez).
      assert (Hz : last l0 x0 = z).
      { rewrite <- (last_cons l0 x0 z), Ez. apply last_last. }
      rewrite Hz. intros x Hx. rewrite Ez in Hx, Hs4. apply asc_app_inv in Hs4. destruct Hs4 as (_ & _ & G).
      apply in_app_or in Hx. destruct Hx as [Hx|[<-|[]]]; [apply G; [exact Hx|now left]|apply flt_irrefl]. }
    destruct (take_spec (x0 :: l0)) as (rest & E & T & Erest). set (tk := dp_take delta target (x0 :: l0)) in *.
    injection Hrd as <- Hc. destruct (fle (it_dist (last l0 x0)) target) eqn:Ef; subst c.
    - assert (Hrest : rest = []).
      { destruct rest as [|y rest]; [reflexivity|]. exfalso.
        assert (Hy : In y (x0 :: l0)) by (rewrite E; apply in_or_app; right; now left).
        rewrite (fle_above (it_dist y) (it_dist (last l0 x0)) target) in Erest; try discriminate; auto. }
      subst rest. rewrite app_nil_r in E.
      destruct (pok_iterate p Hp) as (Hp' & Eo & _).
      assert (Hnext : firstn o S0 ++ tk = firstn (Z.to_nat (dp_offset (dp_iterate p))) S0).
      { rewrite Eo, Htot, firstn_plus, El. now rewrite E. }
      change (dp_take delta target (x0 :: l0)) with tk in Hr. rewrite Hnext in Hr.
      destruct (dp_reached maxlimit (dp_iterate p)) eqn:Er.
      { injection Hr as <-. unfold dp_reached in Er. destruct (Z.ltb_spec maxlimit 0); [discriminate|].
        destruct Hneg as [|Hsm]; [lia|]. exists []. rewrite app_nil_r. split; [|intros x []].
        symmetry. apply firstn_all2. change (dp_offset (dp_iterate p)) with (dp_total p) in *. destruct Hp as (A & B & C). lia. }
      apply (IH (S i) (dp_iterate p) r Hp'); [right; rewrite Eo; destruct Hp as (A & B & C); lia|].
      exact Hr.
    - injection Hr as <-. exists (rest ++ skipn m (skipn o S0)). change (dp_take delta target (x0 :: l0)) with tk. split.
      + rewrite HS at 1. rewrite E. now rewrite <- !app_assoc.
      + intros x Hx. destruct (fle (it_dist x) target) eqn:Ex; [exfalso|reflexivity]. apply in_app_or in Hx. destruct Hx as [Hx|Hx].
        * destruct rest as [|y rest]; [destruct Hx|].
          assert (Hy : In y (x0 :: l0)) by (rewrite E; apply in_or_app; right; now left).
          assert (Hx' : In x (x0 :: l0)) by (rewrite E; apply in_or_app; now right).
          assert (Hxy : flt (it_dist x) (it_dist y) = false).
          { destruct Hx as [<-|Hx]; [apply flt_irrefl|]. rewrite E in Hs4. apply asc_app_inv in Hs4. destruct Hs4 as (_ & G & _).
            inversion G as [|? ? _ G2]; subst. rewrite Forall_forall in G2. now apply G2. }
          rewrite (fle_above (it_dist y) (it_dist x) target) in Erest; try discriminate; auto.
        * rewrite (fle_above (it_dist (last l0 x0)) (it_dist x) target) in Ef; try discriminate; auto.
  Qed.
End Dist.

(* ------------------------------------------------------------------ *)
(** Sorted permutations. *)
Definition apart (l : list item) : Prop := forall x y, In x l -> In y l -> it_id x <> it_id y ->
  flt (it_dist x) (it_dist y) = true \/ flt (it_dist y) (it_dist x) = true.

Lemma asc_unique l1 : forall l2, NoDup (map it_id l1) -> apart l1 -> Permutation l1 l2 -> asc l1 -> asc l2 -> l1 = l2.
Proof.
  induction l1 as [|x l1 IH]; intros l2 Hnd Hap Hp H1 H2; [apply Permutation_nil in Hp; now subst|].
  destruct l2 as [|y l2]; [symmetry in Hp; now apply Permutation_nil in Hp|].
  assert (Exy : x = y).
  { assert (Hx : In x (y :: l2)) by (eapply Permutation_in; [exact Hp|now left]).
    assert (Hy : In y (x :: l1)) by (eapply Permutation_in; [symmetry; exact Hp|now left]).
    destruct Hx as [Hx|Hx]; [congruence|]. destruct Hy as [Hy|Hy]; [congruence|]. exfalso.
    inversion H1 as [|? ? _ F1]; subst. inversion H2 as [|? ? _ F2]; subst. rewrite Forall_forall in F1, F2.
    pose proof (F1 y Hy) as A1. pose proof (F2 x Hx) as A2.
    destruct (Hap x y) as [A|A]; try congruence; [now left|now right|].
    cbn in Hnd. inversion Hnd as [|? ? N1 N2]; subst. intros C. apply N1. rewrite C. now apply in_map. }
  subst y. f_equal. apply IH.
  - cbn in Hnd. now inversion Hnd.
  - intros a b Ha Hb. apply Hap; now right.
  - now apply Permutation_cons_inv in Hp.
  - now inversion H1.
  - now inversion H2.
Qed.

Lemma asc_exists l : allP (fun x => is_num (it_dist x) = true) l -> exists l', Permutation l l' /\ asc l'.
Proof.
  induction l as [|x l IH]; intros Hn; [exists []; split; constructor|].
  destruct IH as (l' & Hp & Ha); [intros y Hy; apply Hn; now right|].
  assert (Hn' : forall y, In y l' -> is_num (it_dist y) = true) by (intros y Hy; apply Hn; right; eapply Permutation_in; [symmetry; exact Hp|exact Hy]).
  assert (Hx : is_num (it_dist x) = true) by (apply Hn; now left).
  assert (Hins : exists l'', Permutation (x :: l') l'' /\ asc l'').
  { clear Hp Hn. induction l' as [|y l' IH]; [exists [x]; split; [reflexivity|repeat constructor]|].
    inversion Ha as [|? ? A1 A2]; subst. destruct (flt (it_dist y) (it_dist x)) eqn:E.
    - destruct IH as (l'' & P1 & P2); [exact A1|intros z Hz; apply Hn'; now right|].
      exists (y :: l''). split; [rewrite <- P1; apply perm_swap|]. constructor; [exact P2|]. apply Forall_forall. intros z Hz.
      eapply Permutation_in in Hz; [|symmetry; exact P1]. destruct Hz as [<-|Hz].
      + now apply flt_asym.
      + rewrite Forall_forall in A2. now apply A2.
    - exists (x :: y :: l'). split; [reflexivity|]. constructor; [exact Ha|]. constructor; [exact E|]. apply Forall_forall. intros z Hz.
      rewrite Forall_forall in A2. eapply nflt_trans; [| | |exact E|now apply A2]; [exact Hx|apply Hn'; now left|apply Hn'; right; exact Hz]. }
  destruct Hins as (l'' & P1 & P2). exists l''. split; [|exact P2]. rewrite <- P1. now constructor.
Qed.

Lemma asc_app l1 l2 : asc l1 -> asc l2 -> (forall x y, In x l1 -> In y l2 -> flt (it_dist y) (it_dist x) = false) -> asc (l1 ++ l2).
Proof.
  unfold asc. induction 1 as [|x l1 H1 IH H2]; intros Ha Hc; cbn [app]; [exact Ha|]. constructor.
  - apply IH; [exact Ha|]. intros a b Ha' Hb. apply Hc; [now right|exact Hb].
  - apply Forall_app. split; [exact H2|]. apply Forall_forall. intros y Hy. apply Hc; [now left|exact Hy].
Qed.

Lemma kbest_firstn k l S0 : NoDup (map it_id S0) -> apart S0 -> allP (fun x => is_num (it_dist x) = true) S0 -> asc S0 ->
  kbest k l S0 -> asc l -> l = firstn k S0.
Proof.
  intros Hnd Hap Hn Ha (dr & Hp & Hlen & Hd) Hl.
  destruct (asc_exists dr) as (dr' & P1 & P2).
  { intros x Hx. apply Hn. eapply Permutation_in; [symmetry; exact Hp|]. apply in_or_app. now right. }
  assert (E : S0 = l ++ dr').
  { apply asc_unique; auto; [now rewrite Hp, P1|]. apply asc_app; auto.
    intros x y Hx Hy. apply Hd; [exact Hx|]. eapply Permutation_in; [symmetry; exact P1|exact Hy]. }
  rewrite E. destruct (Nat.le_ge_cases (length S0) k) as [Hk|Hk].
  - rewrite Nat.min_r in Hlen by exact Hk. rewrite E, app_length in Hlen. destruct dr'; [|cbn in Hlen; lia].
    rewrite app_nil_r. rewrite firstn_all2; [reflexivity|]. rewrite E, app_nil_r in Hk. exact Hk.
  - rewrite Nat.min_l in Hlen by exact Hk. now rewrite firstn_app, Hlen, Nat.sub_diag, firstn_O, app_nil_r, <- Hlen, firstn_all.
Qed.

(* ------------------------------------------------------------------ *)
(** SearchByVectorDistance. *)
Lemma dp_answer r : answer (map it_id r, map it_dist r) = r.
Proof. rewrite <- (app_nil_r (map it_dist r)). apply answer_map. Qed.

Lemma kbest_all k r all all' : Permutation all all' -> kbest k r all -> kbest k r all'.
Proof.
  intros Hp (dr & H1 & H2 & H3). exists dr. split; [now rewrite <- Hp|]. split; [now rewrite <- (Permutation_length Hp)|exact H3].
Qed.

Lemma by_distance_no_fuel Es h s forbid delta q0 target maxlimit allow P :
  (forall i, e_prov (Es i) = P) -> (forall i, sched_ok (Es i)) -> (forall i, ids_small (Es i) h) -> prov_sym P ->
  (forall l, allow = Some l -> NoDup l) ->
  search_by_distance Es h s forbid delta q0 target maxlimit allow <> OutOfFuel.
Proof.
  intros HP Hsc Hsm Hsy Hal. unfold search_by_distance.
  pose proof (loop_no_fuel Es h s forbid delta q0 target maxlimit allow P HP Hsc Hsm Hsy Hal (S (S (length (stored_ids h)))) 0 dp_init [] pok_init
    ltac:(cbn; lia) ltac:(lia) ltac:(lia)) as H.
  destruct (dp_loop _ _ _ _ _ _ _ _ _ _ _ _ _); cbn [bind]; congruence.
Qed.

Lemma by_distance_sound Es h s forbid delta q0 target maxlimit allow P out :
  (forall i, e_prov (Es i) = P) -> (forall i, sched_ok (Es i)) -> (forall i, ids_small (Es i) h) -> prov_sym P ->
  (forall l, allow = Some l -> NoDup l) -> dists_num P h (p_normalize P q0) ->
  search_by_distance Es h s forbid delta q0 target maxlimit allow = Ok out ->
  map it_id (answer out) = fst out /\ map it_dist (answer out) = snd out /\
  (forall x, In x (answer out) -> member h q0 allow P x /\ (fle (it_dist x) target = true \/ delta (it_dist x) target = true)) /\
  (Z.of_nat (length (answer out)) <= Z.max 100 maxlimit \/ maxlimit < 0)%Z.
Proof.
  intros HP Hsc Hsm Hsy Hal Hn H. unfold search_by_distance in H. apply bind_Ok in H. destruct H as (r & Hr & H).
  inversion H; subst out. rewrite dp_answer. cbn [fst snd]. split; [reflexivity|]. split; [reflexivity|].
  refine (loop_sound Es h s forbid delta q0 target maxlimit allow P HP Hsc Hsm Hsy Hal _ 0 dp_init [] r Hn pok_init _ _ _ Hr); [cbn; lia|left; apply Z.le_max_l|].
  intros x [].
Qed.

Lemma by_distance_exact Es h s forbid delta q0 target maxlimit allow P out :
  (forall i, e_prov (Es i) = P) -> (forall i, sched_ok (Es i)) -> (forall i, ids_small (Es i) h) -> prov_sym P ->
  (forall l, allow = Some l -> NoDup l) -> dists_num P h (p_normalize P q0) ->
  small_ok h s q0 P \/ flat_ok s forbid allow ->
  (forall a b da db, true_dist P h (p_normalize P q0) a da -> true_dist P h (p_normalize P q0) b db -> a <> b ->
     flt da db = true \/ flt db da = true) /\ (maxlimit < 0)%Z \/
    length (nodup N.eq_dec (stored_ids h)) <= 100 ->
  is_num target = true ->
  search_by_distance Es h s forbid delta q0 target maxlimit allow = Ok out ->
  NoDup (fst out) /\ asc (answer out) /\
  forall x, member h q0 allow P x -> fle (it_dist x) target = true -> In x (answer out).
Proof.
  intros HP Hsc Hsm Hsy Hal Hn Hok Hties Ht H. unfold search_by_distance in H. apply bind_Ok in H. destruct H as (r & Hr & H).
  inversion H; subst out. rewrite dp_answer. cbn [fst snd].
  assert (H0 : exists out0, search_by_vector (Es 0) h s forbid q0 100 allow = Ok out0).
  { cbn [dp_loop] in Hr. apply bind_Ok in Hr. destruct Hr as (out0 & Ho & _). cbn [dp_total dp_init] in Ho. eauto. }
  destruct H0 as (out0 & Ho0).
  destruct (search_exact Es h s forbid q0 allow P HP Hsc Hsm Hsy Hal 0 100 out0 Hn ltac:(lia) Hok Ho0) as (all & Hnd & Hall & Hk0).
  assert (Hnum : allP (fun x => is_num (it_dist x) = true) all).
  { intros x Hx. apply Hall in Hx. destruct Hx as (Hx & _). eapply Hn; exact Hx. }
  assert (Hneg : (maxlimit < 0)%Z \/ length all <= 100).
  { destruct Hties as [[_ Hneg]|Hle]; [now left|right]. etransitivity; [|exact Hle]. rewrite <- (map_length it_id).
    apply NoDup_incl_length; [exact Hnd|].
    intros id Hid. apply nodup_In. apply in_map_iff in Hid. destruct Hid as (x & <- & Hx). apply Hall in Hx.
    destruct Hx as ((v & Hv & _) & _). eapply stored_in; eauto. }
  assert (Hcore : exists S0, Permutation all S0 /\ asc S0 /\
    forall i p out, pok p -> (i = 0 /\ p = dp_init) \/ (100 <= dp_offset p)%Z -> search_by_vector (Es i) h s forbid q0 (dp_total p) allow = Ok out ->
       firstn (Z.to_nat (dp_limit p)) (skipn (Z.to_nat (dp_offset p)) (answer out)) =
       firstn (Z.to_nat (dp_limit p)) (skipn (Z.to_nat (dp_offset p)) S0)).
  { destruct Hties as [[Hap _]|Hle].
    - destruct (asc_exists all Hnum) as (S0 & Hp & Ha). exists S0. split; [exact Hp|]. split; [exact Ha|].
      intros i p out Hpok _ Ho. assert (Hk : (100 <= dp_total p)%Z) by (destruct Hpok as (A & B & C); lia).
      destruct (search_exact Es h s forbid q0 allow P HP Hsc Hsm Hsy Hal i (dp_total p) out Hn Hk Hok Ho) as (all' & Hnd' & Hall' & Hk').
      destruct (search_member Es h s forbid q0 allow P HP Hsc Hsm Hsy Hal i (dp_total p) out Hn ltac:(lia) Ho) as [Hasc _].
      assert (Hpp : Permutation all' S0).
      { rewrite <- Hp. apply NoDup_Permutation; [eapply NoDup_map_inv; exact Hnd'|eapply NoDup_map_inv; exact Hnd|].
        intros x. rewrite Hall, Hall'. reflexivity. }
      assert (HnS : allP (fun x => is_num (it_dist x) = true) S0).
      { intros x Hx. apply Hnum. eapply Permutation_in; [symmetry; exact Hp|exact Hx]. }
      rewrite (kbest_firstn (Z.to_nat (dp_total p)) (answer out) S0); auto.
      + replace (Z.to_nat (dp_total p)) with (Z.to_nat (dp_offset p) + Z.to_nat (dp_limit p)) by (destruct Hpok as (A & B & C); lia).
        rewrite firstn_plus, skipn_app, firstn_length.
        destruct (Nat.le_ge_cases (length S0) (Z.to_nat (dp_offset p))) as [L|L].
        * rewrite (skipn_all2 S0) by exact L. rewrite firstn_nil, skipn_nil, app_nil_r. rewrite skipn_all2; [now rewrite ?firstn_nil|].
          rewrite firstn_length. lia.
        * rewrite Nat.min_l by exact L. rewrite Nat.sub_diag, skipn_O. rewrite skipn_all2 by (rewrite firstn_length; lia).
          cbn [app]. now rewrite firstn_firstn, Nat.min_id.
      + eapply Permutation_NoDup; [apply Permutation_map; exact Hp|exact Hnd].
      + intros x y Hx Hy Hxy. eapply Permutation_in in Hx, Hy; try (symmetry; exact Hp). apply Hall in Hx, Hy.
        destruct Hx as (Hx & _), Hy as (Hy & _). eapply Hap; eauto.
      + eapply kbest_all; [exact Hpp|exact Hk'].
    - assert (Hl : forall i k out, search_by_vector (Es i) h s forbid q0 k allow = Ok out -> length (answer out) <= 100).
      { intros i k out Ho. destruct (search_shape Es h s forbid q0 allow P HP Hsc Hsm Hsy Hal i k out Ho) as (A & B & C).
        rewrite <- (map_length it_id), (answer_ids_of out A). etransitivity; [|exact Hle]. apply NoDup_incl_length; [exact B|].
        intros x Hx. apply nodup_In. now apply C. }
      exists (answer out0). split; [|split].
      + destruct Hk0 as (dr & Hp & Hlen & _). assert (Hla : length all <= 100).
        { etransitivity; [|exact Hle]. rewrite <- (map_length it_id). apply NoDup_incl_length; [exact Hnd|].
          intros id Hid. apply nodup_In. apply in_map_iff in Hid. destruct Hid as (x & <- & Hx). apply Hall in Hx.
          destruct Hx as ((v & Hv & _) & _). eapply stored_in; eauto. }
        change (Z.to_nat 100) with 100 in Hlen. rewrite Nat.min_r in Hlen by exact Hla.
        pose proof (Permutation_length Hp) as Hpl. rewrite app_length in Hpl. destruct dr; [|cbn in Hpl; lia]. now rewrite app_nil_r in Hp.
      + now destruct (search_member Es h s forbid q0 allow P HP Hsc Hsm Hsy Hal 0 100 out0 Hn ltac:(lia) Ho0) as [A _].
      + intros i p out Hpok [[-> ->]|Hoff] Ho.
        * cbn [dp_total dp_init] in Ho. rewrite Ho0 in Ho. now inversion Ho; subst.
        * pose proof (Hl _ _ _ Ho) as L1. pose proof (Hl _ _ _ Ho0) as L2. now rewrite !skipn_all2 by lia. }
  destruct Hcore as (S0 & Hp & Hasc & Hsl). rewrite (Permutation_length Hp) in Hneg.
  assert (HnS : allP (fun x => is_num (it_dist x) = true) S0).
  { intros x Hx. apply Hnum. eapply Permutation_in; [symmetry; exact Hp|exact Hx]. }
  destruct (loop_exact Es h s forbid delta q0 target maxlimit allow P HP Hsc Hsm Hsy Hal S0 (S (S (length (stored_ids h)))) Ht HnS Hasc Hsl Hneg
    0 dp_init r pok_init (or_introl (conj eq_refl eq_refl)) Hr) as (rest & E & Hrest).
  split; [|split].
  - assert (Hndi : NoDup (map it_id S0)) by (eapply Permutation_NoDup; [apply Permutation_map; exact Hp|exact Hnd]).
    rewrite E, map_app in Hndi. clear -Hndi. induction (map it_id r) as [|a l IH]; [constructor|].
    cbn in Hndi. inversion Hndi as [|? ? A B]; subst. constructor; [|now apply IH]. intros C. apply A, in_or_app. now left.
  - rewrite E in Hasc. now apply asc_app_inv in Hasc.
  - intros x Hx Hf. assert (Hin : In x S0) by (eapply Permutation_in; [exact Hp|]; now apply Hall).
    rewrite E in Hin. apply in_app_or in Hin. destruct Hin as [|Hin]; [assumption|]. rewrite (Hrest x Hin) in Hf. discriminate.
Qed.
