(** Theorems about whole queries: KnnSearchByVectorMaxDist, knnSearchByVector
    and flatSearch. *)
From Verif Require Import Base F32 PQ PQProofs Graph Search SearchProofs SearchLayer.
From Coq Require Import Sorting.Sorted.

(* ------------------------------------------------------------------ *)
(** Specification vocabulary. *)

(** SingleDist(a, b) and New(b).Distance(a) agree (true of the concrete
    providers, DistancerProofs.v). *)
Definition prov_sym (P : provider) : Prop := forall a b, p_single P a b = p_query P b a.

(** Every stored id is below the length of the borrowed visited list. *)
Definition ids_small (E : env) (h : hnsw) : Prop :=
  forall id v, node_by_id h id = Some v -> (id < e_vcap E)%N.

(** Path through the layers [l], ..., 0. *)
Inductive ldown (h : hnsw) : nat -> N -> N -> Prop :=
| ld_ground a b : reach h 0 a b -> ldown h 0 a b
| ld_layer l a b c : reach h (S l) a b -> ldown h l b c -> ldown h (S l) a c.

(** The answer of a query as a list of (id, distance) pairs. *)
Definition answer (r : list N * list f32) : list item :=
  map (fun p => mkItem (fst p) (snd p)) (combine (fst r) (snd r)).

Definition within (maxd : f32) (x : item) : bool :=
  negb (flt (it_dist x) f32_zero) && negb (fgt (it_dist x) maxd).

Definition asc (l : list item) : Prop :=
  StronglySorted (fun a b => flt (it_dist b) (it_dist a) = false) l.

(* ------------------------------------------------------------------ *)

Lemma StronglySorted_snoc {A} (R : A -> A -> Prop) l x :
  StronglySorted R l -> Forall (fun a => R a x) l -> StronglySorted R (l ++ [x]).
Proof.
  induction 1 as [|a l Hs IH Hf]; intros Hx; cbn; [repeat constructor|].
  inversion Hx; subst. constructor; [auto|]. apply Forall_app. split; [exact Hf|auto].
Qed.

Lemma StronglySorted_rev {A} (R : A -> A -> Prop) l :
  StronglySorted R l -> StronglySorted (fun a b => R b a) (rev l).
Proof.
  induction 1 as [|a l Hs IH Hf]; cbn; [constructor|].
  apply StronglySorted_snoc; [exact IH|].
  apply Forall_forall. intros x Hx. apply in_rev in Hx. rewrite Forall_forall in Hf. auto.
Qed.

Lemma combine_map {A B C} (f : A -> B) (g : A -> C) l rest :
  combine (map f l) (map g l ++ rest) = map (fun x => (f x, g x)) l.
Proof. induction l as [|a l IH]; cbn; [reflexivity|]. now rewrite IH. Qed.

Lemma answer_map l rest : answer (map it_id l, map it_dist l ++ rest) = l.
Proof.
  unfold answer. cbn [fst snd]. rewrite combine_map, map_map. rewrite <- (map_id l) at 2.
  apply map_ext. intros [i d]; reflexivity.
Qed.

Lemma cut_sub all maxd x : In x (cut all maxd) -> In x all /\ within maxd x = true.
Proof.
  induction all as [|y all IH]; cbn; [tauto|]. unfold within in *.
  destruct (flt (it_dist y) f32_zero) eqn:E1; [intros H; apply IH in H; tauto|].
  destruct (fgt (it_dist y) maxd) eqn:E2; [intros []|].
  intros [<-|H]; [|apply IH in H; tauto]. split; [now left|]. rewrite E1, E2. reflexivity.
Qed.

Lemma cut_filter all maxd :
  asc all -> allP numItem all -> cut all maxd = filter (within maxd) all.
Proof.
  induction 1 as [|y all Hs IH Hf]; intros Hn; [reflexivity|]. cbn.
  assert (Hn' : allP numItem all) by (intros x Hx; apply Hn; now right).
  unfold within at 1.
  destruct (flt (it_dist y) f32_zero) eqn:E1; cbn [negb andb]; [auto|].
  destruct (fgt (it_dist y) maxd) eqn:E2; cbn [negb]; [|f_equal; auto].
  symmetry. rewrite Forall_forall in Hf.
  assert (Hall : forall x, In x all -> within maxd x = false).
  { intros x Hx. unfold within. apply andb_false_iff. right. apply negb_false_iff.
    unfold fgt in *. destruct (flt_num _ _ E2) as [Hm Hy].
    eapply flt_le_trans; [exact Hm|exact Hy|apply Hn'; exact Hx|exact E2|now apply Hf]. }
  clear -Hall. induction all as [|x all IH]; [reflexivity|]. cbn.
  rewrite (Hall x) by now left. apply IH. intros z Hz. apply Hall. now right.
Qed.

Lemma cut_NoDup all maxd : NoDup (map it_id all) -> NoDup (map it_id (cut all maxd)).
Proof.
  induction all as [|y all IH]; cbn; [intros; constructor|].
  intros H. inversion H; subst. destruct (flt _ _); [auto|]. destruct (fgt _ _); [constructor|].
  cbn. constructor; [|auto]. intros Hin. apply in_map_iff in Hin. destruct Hin as (x & Hx & Hin).
  apply cut_sub in Hin. apply H2. rewrite <- Hx. apply in_map. tauto.
Qed.

Lemma cut_length all maxd : length (cut all maxd) <= length all.
Proof.
  induction all as [|y all IH]; cbn; [lia|].
  destruct (flt _ _); [lia|]. destruct (fgt _ _); cbn; lia.
Qed.

Lemma cut_asc all maxd : asc all -> asc (cut all maxd).
Proof.
  induction 1 as [|y all Hs IH Hf]; cbn; [constructor|].
  destruct (flt _ _); [exact IH|]. destruct (fgt _ _); [constructor|].
  constructor; [exact IH|]. apply Forall_forall. intros x Hx. rewrite Forall_forall in Hf.
  apply Hf. now apply cut_sub in Hx.
Qed.

Lemma drain_max_asc r : heap less_max r -> allP numItem r ->
  asc (rev (pq_drain less_max r)) /\ allP numItem (rev (pq_drain less_max r)).
Proof.
  intros Hh Hn. split.
  - pose proof (drain_sorted less_max numItem less_max_asym less_max_trans r Hh Hn) as Hs.
    apply StronglySorted_rev in Hs. exact Hs.
  - intros x Hx. apply in_rev in Hx. apply Hn.
    eapply Permutation_in; [symmetry; apply (drain_perm less_max)|exact Hx].
Qed.

Lemma rev_drain_perm r : Permutation r (rev (pq_drain less_max r)).
Proof. rewrite (drain_perm less_max r) at 1. apply Permutation_rev. Qed.

Lemma kbest_perm k r r' all : Permutation r r' -> kbest k r all -> kbest k r' all.
Proof.
  intros Hp (dr & H1 & H2 & H3). exists dr. split; [now rewrite <- Hp|]. split.
  - rewrite <- (Permutation_length Hp). exact H2.
  - intros x y Hx. apply H3. eapply Permutation_in; [symmetry; exact Hp|exact Hx].
Qed.

Lemma dist_node_vec_spec E h id q d :
  prov_sym (e_prov E) -> dist_node_vec (e_prov E) h id q = Ok d ->
  true_dist (e_prov E) h q id d.
Proof.
  intros Hsym. unfold dist_node_vec, true_dist. destruct (node_by_id h id) as [v|]; [|discriminate].
  intros H. exists v. split; [reflexivity|]. rewrite <- Hsym.
  destruct (v_vec v); [discriminate|]. destruct q; [discriminate|].
  destruct (p_single _ _ _); congruence.
Qed.

Section Knn.
  Variable E : env.
  Variable h : hnsw.
  Local Notation P := (e_prov E).

  Hypothesis Hsc : sched_ok E.
  Hypothesis Hsym : prov_sym P.
  Hypothesis Hsmall : ids_small E h.

  Lemma tdist_small q id d : true_dist P h q id d -> (id < e_vcap E)%N.
  Proof. intros (v & Hv & _). eapply Hsmall; eauto. Qed.

  Lemma descend_sound q l : forall ep epd e d,
    true_dist P h q ep epd -> descend E h q l ep epd = Ok (e, d) ->
    true_dist P h q e d /\ (forall id, reach h 0 e id -> ldown h l ep id).
  Proof.
    induction l as [|l IH]; intros ep epd e d Hd Hr; cbn [descend] in Hr.
    - inversion Hr; subst. split; [exact Hd|]. intros id Hid. now constructor.
    - apply bind_Ok in Hr. destruct Hr as (res & Hl & Hr).
      destruct (layer_sound E h q 1 (S l) None (mkItem ep epd) res Hsc Hd (tdist_small _ _ _ Hd) Hl)
        as (Hin & _ & _).
      destruct (pq_pop less_max res) as [[best rest]|] eqn:Ep.
      + assert (Hb : In best res).
        { eapply Permutation_in; [symmetry; apply (pop_perm _ _ _ _ Ep)|now left]. }
        destruct (Hin best Hb) as (Hb1 & Hb2 & _).
        destruct (IH _ _ _ _ Hb1 Hr) as [H1 H2]. split; [exact H1|].
        intros id Hid. eapply ld_layer; [exact Hb2|auto].
      + destruct (IH _ _ _ _ Hd Hr) as [H1 H2]. split; [exact H1|].
        intros id Hid. eapply ld_layer; [constructor|auto].
  Qed.

  (** Without tombstones the descent never moves away from the query. *)
  Lemma descend_closer q l : dists_num P h q -> (forall id, has_tombstone h id = false) ->
    forall ep epd e d,
    true_dist P h q ep epd -> descend E h q l ep epd = Ok (e, d) ->
    flt epd d = false.
  Proof.
    intros Hnum Htb. induction l as [|l IH]; intros ep epd e d Hd Hr; cbn [descend] in Hr.
    - inversion Hr; subst. apply flt_irrefl.
    - apply bind_Ok in Hr. destruct Hr as (res & Hl & Hr).
      assert (Hok : has_tombstone h (it_id (mkItem ep epd)) = false /\
                    allowed (S l) None (it_id (mkItem ep epd)) = true) by (split; [apply Htb|reflexivity]).
      destruct (layer_sound E h q 1 (S l) None (mkItem ep epd) res Hsc Hd (tdist_small _ _ _ Hd) Hl)
        as (Hin & _ & Hlen).
      destruct (layer_closer E h q 1 (S l) None Hnum (mkItem ep epd) res Hsc ltac:(lia) Hd
                  (tdist_small _ _ _ Hd) Hok Hl) as (x & Hx & Hfx). cbn [it_dist] in Hfx.
      destruct (pq_pop less_max res) as [[best rest]|] eqn:Ep.
      + assert (Hb : In best res).
        { eapply Permutation_in; [symmetry; apply (pop_perm _ _ _ _ Ep)|now left]. }
        destruct (Hin best Hb) as (Hb1 & Hb2 & _).
        assert (Hxb : x = best).
        { destruct res as [|y [|z res]]; [destruct Hx| |cbn in Hlen; lia].
          destruct Hx as [<-|[]]. destruct Hb as [<-|[]]. reflexivity. }
        subst x. destruct (descend_sound q l _ _ _ _ Hb1 Hr) as [He _].
        pose proof (IH _ _ _ _ Hb1 Hr) as Hc.
        apply nflt_trans with (b := it_dist best); auto; eapply Hnum; eauto.
      + apply pop_None in Ep. subst. destruct Hx.
  Qed.

  Lemma descend_total q l : wf_levels h -> forall ep epd,
    true_dist P h q ep epd -> exists e d, descend E h q l ep epd = Ok (e, d).
  Proof.
    intros Hwf. induction l as [|l IH]; intros ep epd Hd; cbn [descend]; [eauto|].
    destruct (layer_total E h q 1 (S l) None (mkItem ep epd) Hsc Hwf Hd) as (res & Hl).
    rewrite Hl. cbn [bind].
    destruct (layer_sound E h q 1 (S l) None (mkItem ep epd) res Hsc Hd (tdist_small _ _ _ Hd) Hl)
      as (Hin & _ & _).
    destruct (pq_pop less_max res) as [[best rest]|] eqn:Ep; [|auto].
    apply IH. apply Hin. eapply Permutation_in; [symmetry; apply (pop_perm _ _ _ _ Ep)|now left].
  Qed.

  (* ---------------------------------------------------------------- *)
  (** KnnSearchByVectorMaxDist. *)
  Section MaxDist.
    Variables (q0 : vec) (maxd : f32) (ef : Z) (allow : option (N -> bool)).
    Local Notation q := (p_normalize P q0).

    (** Unfolding of a successful query. *)
    Lemma knn_max_dist_inv out :
      knn_max_dist E h q0 maxd ef allow = Ok out ->
      exists d0 e d res,
        true_dist P h q (h_ep h) d0 /\
        descend E h q (h_maxl h) (h_ep h) d0 = Ok (e, d) /\
        search_layer E h q ef 0 allow (pq_insert less_min (mkItem e d) []) = Ok res /\
        answer out = cut (rev (pq_drain less_max res)) maxd /\
        fst out = map it_id (answer out) /\
        (exists rest, snd out = map it_dist (answer out) ++ rest) /\
        length (snd out) = length res.
    Proof.
      unfold knn_max_dist. intros H.
      apply bind_Ok in H. destruct H as (d0 & H0 & H).
      apply bind_Ok in H. destruct H as ([e d] & H1 & H). cbn [fst snd] in H.
      apply bind_Ok in H. destruct H as (res & H2 & H). inversion H; subst.
      exists d0, e, d, res. apply dist_node_vec_spec in H0; [|exact Hsym].
      rewrite answer_map. cbn [fst snd].
      split; [exact H0|]. split; [exact H1|]. split; [exact H2|].
      split; [reflexivity|]. split; [reflexivity|]. split; [eauto|].
      rewrite app_length, map_length, repeat_length.
      pose proof (cut_length (rev (pq_drain less_max res)) maxd) as Hc.
      rewrite <- (Permutation_length (rev_drain_perm res)) in *. lia.
    Qed.

    Lemma knn_max_dist_sound out :
      knn_max_dist E h q0 maxd ef allow = Ok out ->
      NoDup (fst out) /\ length (fst out) <= length (snd out) /\
      (Z.of_nat (length (fst out)) <= Z.max ef 1)%Z /\
      (forall i id, nth_error (fst out) i = Some id ->
         exists d, nth_error (snd out) i = Some d /\ true_dist P h q id d /\
           ldown h (h_maxl h) (h_ep h) id /\
           flt d f32_zero = false /\ fgt d maxd = false /\
           has_tombstone h id = false /\
           (forall f, allow = Some f -> f id = true)).
    Proof.
      intros H. destruct (knn_max_dist_inv out H) as (d0 & e & d & res & H0 & H1 & H2 & H3 & H4 & (rest & H5) & H6).
      destruct (descend_sound q _ _ _ _ _ H0 H1) as [He Hdown].
      destruct (layer_sound E h q ef 0 allow (mkItem e d) res Hsc He (tdist_small _ _ _ He) H2)
        as (Hin & Hnd & Hlen).
      assert (Hdr : Permutation res (rev (pq_drain less_max res))) by apply rev_drain_perm.
      assert (Hsub : forall x, In x (answer out) -> In x res /\ within maxd x = true).
      { intros x Hx. rewrite H3 in Hx. apply cut_sub in Hx. destruct Hx as [Hx1 Hx2]. split; [|exact Hx2].
        eapply Permutation_in; [symmetry; exact Hdr|exact Hx1]. }
      assert (Hal : length (answer out) <= length res).
      { rewrite H3. rewrite (Permutation_length Hdr). apply cut_length. }
      split; [|split; [|split]].
      - rewrite H4, H3. apply cut_NoDup. eapply Permutation_map_NoDup; eauto.
      - rewrite H4, map_length. lia.
      - rewrite H4, map_length. lia.
      - intros i id Hi. rewrite H4 in Hi. rewrite nth_error_map in Hi.
        destruct (nth_error (answer out) i) as [x|] eqn:Ex; [|discriminate].
        cbn in Hi. inversion Hi; subst id.
        exists (it_dist x). split.
        + rewrite H5. rewrite nth_error_app1 by (rewrite map_length; apply nth_error_Some; congruence).
          rewrite nth_error_map, Ex. reflexivity.
        + apply nth_error_In in Ex. destruct (Hsub x Ex) as [Hx Hw].
          destruct (Hin x Hx) as (Hx1 & Hx2 & Hx3 & Hx4).
          unfold within in Hw. apply andb_true_iff in Hw. rewrite !negb_true_iff in Hw.
          destruct Hw as [Hw1 Hw2].
          split; [exact Hx1|]. split; [apply Hdown; exact Hx2|]. split; [exact Hw1|].
          split; [exact Hw2|]. split; [exact Hx3|]. intros f ->. exact Hx4.
    Qed.

    Lemma knn_max_dist_sorted out : dists_num P h q ->
      knn_max_dist E h q0 maxd ef allow = Ok out ->
      asc (answer out) /\ map it_id (answer out) = fst out /\
      map it_dist (answer out) = firstn (length (fst out)) (snd out).
    Proof.
      intros Hnum H. destruct (knn_max_dist_inv out H) as (d0 & e & d & res & H0 & H1 & H2 & H3 & H4 & (rest & H5) & H6).
      destruct (descend_sound q _ _ _ _ _ H0 H1) as [He Hdown].
      destruct (layer_heap E h q ef 0 allow Hnum (mkItem e d) res Hsc He (tdist_small _ _ _ He) H2) as [Hh Hn].
      destruct (drain_max_asc res Hh Hn) as [Ha _]. split; [|split].
      - rewrite H3. now apply cut_asc.
      - now symmetry.
      - rewrite H4, H5, map_length, firstn_app, map_length.
        rewrite <- (map_length it_dist (answer out)), firstn_all.
        replace (_ - _) with 0 by lia. cbn. now rewrite app_nil_r.
    Qed.

    Lemma knn_max_dist_no_fuel : knn_max_dist E h q0 maxd ef allow <> OutOfFuel.
    Proof.
      unfold knn_max_dist.
      assert (Hdesc : forall l ep epd, descend E h q l ep epd <> OutOfFuel).
      { induction l as [|l IH]; intros ep epd; cbn [descend]; [discriminate|].
        pose proof (layer_no_fuel E h q 1 (S l) None (mkItem ep epd) Hsc) as Hl.
        destruct (search_layer E h q 1 (S l) None _) as [res|er| |]; cbn [bind]; try congruence.
        destruct (pq_pop less_max res) as [[best rest]|]; apply IH. }
      destruct (dist_node_vec P h (h_ep h) q) as [d0|er| |] eqn:E0; cbn [bind]; try discriminate.
      - specialize (Hdesc (h_maxl h) (h_ep h) d0).
        destruct (descend E h q (h_maxl h) (h_ep h) d0) as [[e d]|er| |]; cbn [bind]; try congruence.
        pose proof (layer_no_fuel E h q ef 0 allow (mkItem e d) Hsc) as Hl. cbn [fst snd].
        destruct (search_layer E h q ef 0 allow _) as [res|er| |]; cbn [bind]; congruence.
      - revert E0. unfold dist_node_vec. destruct (node_by_id _ _) as [v|]; [|discriminate].
        destruct (v_vec v); [discriminate|]. destruct q; [discriminate|].
        destruct (p_single _ _ _); discriminate.
    Qed.

    Lemma knn_max_dist_total d0 : wf_levels h ->
      dist_node_vec P h (h_ep h) q = Ok d0 ->
      exists out, knn_max_dist E h q0 maxd ef allow = Ok out.
    Proof.
      intros Hwf H0. unfold knn_max_dist. rewrite H0. cbn [bind].
      pose proof (dist_node_vec_spec _ _ _ _ _ Hsym H0) as Hd.
      destruct (descend_total q (h_maxl h) Hwf _ _ Hd) as (e & d & Hde). rewrite Hde. cbn [bind fst snd].
      destruct (descend_sound q _ _ _ _ _ Hd Hde) as [He _].
      destruct (layer_total E h q ef 0 allow (mkItem e d) Hsc Hwf He) as (res & Hl). rewrite Hl. cbn. eauto.
    Qed.

    (** Exhaustive below ef. *)
    Lemma knn_max_dist_exhaustive out d0 e d R : dists_num P h q ->
      (forall id v, node_by_id h id = Some v -> exists d, p_query P q (v_vec v) = Some d) ->
      true_dist P h q (h_ep h) d0 ->
      descend E h q (h_maxl h) (h_ep h) d0 = Ok (e, d) ->
      (forall id v, reach h 0 e id -> node_by_id h id = Some v -> In id R) ->
      (Z.of_nat (length R) <= ef)%Z ->
      knn_max_dist E h q0 maxd ef allow = Ok out ->
      forall id dd, reach h 0 e id -> true_dist P h q id dd ->
        has_tombstone h id = false -> (forall f, allow = Some f -> f id = true) ->
        within maxd (mkItem id dd) = true -> In (mkItem id dd) (answer out).
    Proof.
      intros Hnum Hall Hd0 Hde HR Hlen H id dd Hre Htd Htb Hal Hw.
      destruct (knn_max_dist_inv out H) as (d0' & e' & d' & res & H0 & H1 & H2 & H3 & H4 & _ & _).
      assert (d0' = d0).
      { destruct H0 as (v1 & Ha & Hb), Hd0 as (v2 & Hc & Hd). congruence. }
      subst d0'. rewrite Hde in H1. inversion H1; subst e' d'.
      destruct (descend_sound q _ _ _ _ _ H0 Hde) as [He _].
      assert (Hin : In (mkItem id dd) res).
      { eapply (layer_exhaustive E h q ef 0 allow (mkItem e d) res R); eauto.
        - eapply tdist_small; eauto.
        - intros i di Hi Hti. destruct Hti as (v & Hv & _). eapply HR; eauto.
        - split; [exact Htb|]. cbn. destruct allow as [f|]; [auto|reflexivity]. }
      destruct (layer_heap E h q ef 0 allow Hnum (mkItem e d) res Hsc He (tdist_small _ _ _ He) H2) as [Hh Hn].
      destruct (drain_max_asc res Hh Hn) as [Ha Hna].
      rewrite H3, cut_filter by assumption. apply filter_In. split; [|exact Hw].
      eapply Permutation_in; [apply rev_drain_perm|exact Hin].
    Qed.

    (** Exact on a complete ground layer. *)
    Lemma knn_max_dist_complete out :
      (1 <= ef)%Z -> allow = None -> dists_num P h q ->
      (forall id, has_tombstone h id = false) ->
      (forall a va, node_by_id h a = Some va -> exists conns, conns_at va 0 = Some conns /\
         forall b vb, node_by_id h b = Some vb -> b = a \/ In b conns) ->
      knn_max_dist E h q0 maxd ef allow = Ok out ->
      exists all best, NoDup (map it_id all) /\
        (forall x, In x all <-> true_dist P h q (it_id x) (it_dist x)) /\
        kbest (Z.to_nat ef) best all /\ asc best /\
        answer out = filter (within maxd) best.
    Proof.
      intros Hef Hal Hnum Htb Hcomp H.
      destruct (knn_max_dist_inv out H) as (d0 & e & d & res & H0 & H1 & H2 & H3 & H4 & _ & _).
      destruct (descend_sound q _ _ _ _ _ H0 H1) as [He _].
      assert (Hv := He). destruct Hv as (ve & Hve & _).
      destruct (Hcomp e ve Hve) as (conns & Hc1 & Hc2).
      destruct (layer_star E h q ef 0 allow Hnum Hef (mkItem e d) res ve conns Hsc He
                  (tdist_small _ _ _ He) Hve (Nat.le_0_l _) Hc1 Hc2) as (all & Ha1 & Ha2 & Ha3); auto.
      { intros id v _. split; [apply Htb|]. unfold allowed. now rewrite Hal. }
      destruct (layer_heap E h q ef 0 allow Hnum (mkItem e d) res Hsc He (tdist_small _ _ _ He) H2) as [Hh Hn].
      destruct (drain_max_asc res Hh Hn) as [Has Hna].
      exists all, (rev (pq_drain less_max res)). split; [exact Ha1|]. split; [exact Ha2|]. split.
      - eapply kbest_perm; [apply rev_drain_perm|exact Ha3].
      - split; [exact Has|]. rewrite H3. now apply cut_filter.
    Qed.
  End MaxDist.

  (* ---------------------------------------------------------------- *)
  (** knnSearchByVector. *)
  Lemma pick_entry_In rs x : pick_entry h rs = Some x -> In x rs.
  Proof.
    induction rs as [|y rs IH]; cbn; [discriminate|].
    destruct (node_by_id h (it_id y)) as [v|]; [|intros H; right; auto].
    destruct (v_maint v); [intros H; right; auto|]. intros H; inversion H; auto.
  Qed.

  Lemma descend_maint_sound q l : forall ep epd e d,
    true_dist P h q ep epd -> descend_maint E h q l ep epd = Ok (e, d) ->
    true_dist P h q e d /\ (forall id, reach h 0 e id -> ldown h l ep id).
  Proof.
    induction l as [|l IH]; intros ep epd e d Hd Hr; cbn [descend_maint] in Hr.
    - inversion Hr; subst. split; [exact Hd|]. intros id Hid. now constructor.
    - apply bind_Ok in Hr. destruct Hr as (res & Hl & Hr).
      destruct (layer_sound E h q 1 (S l) None (mkItem ep epd) res Hsc Hd (tdist_small _ _ _ Hd) Hl)
        as (Hin & _ & _).
      destruct (pick_entry h (pq_drain less_max res)) as [best|] eqn:Ep.
      + apply pick_entry_In in Ep.
        assert (Hb : In best res).
        { eapply Permutation_in; [symmetry; apply (drain_perm less_max)|exact Ep]. }
        destruct (Hin best Hb) as (Hb1 & Hb2 & _).
        destruct (IH _ _ _ _ Hb1 Hr) as [H1 H2]. split; [exact H1|].
        intros id Hid. eapply ld_layer; [exact Hb2|auto].
      + destruct (IH _ _ _ _ Hd Hr) as [H1 H2]. split; [exact H1|].
        intros id Hid. eapply ld_layer; [constructor|auto].
  Qed.

  Lemma pop_to_spec fuel : forall r k, length r <= fuel -> (0 <= k)%Z ->
    exists dropped, Permutation r (pop_to fuel r k ++ dropped) /\
      (Z.of_nat (length (pop_to fuel r k)) = Z.min k (Z.of_nat (length r)))%Z /\
      (heap less_max r -> allP numItem r ->
         heap less_max (pop_to fuel r k) /\
         forall x y, In x (pop_to fuel r k) -> In y dropped -> flt (it_dist y) (it_dist x) = false).
  Proof.
    induction fuel as [|f IH]; intros r k Hf Hk; cbn [pop_to].
    - exists []. rewrite app_nil_r. split; [reflexivity|]. split; [destruct r; cbn in *; lia|].
      intros Hh _. split; [exact Hh|intros x y _ []].
    - destruct (Z.ltb_spec k (Z.of_nat (length r))) as [Hlt|Hge].
      + destruct (pq_pop less_max r) as [[y r']|] eqn:Ep.
        * pose proof (pop_length _ _ _ _ Ep) as Hl. pose proof (pop_perm _ _ _ _ Ep) as Hp.
          destruct (IH r' k ltac:(lia) Hk) as (dr & H1 & H2 & H3).
          exists (y :: dr). split; [|split].
          -- rewrite Hp. rewrite H1 at 1. apply Permutation_middle.
          -- lia.
          -- intros Hh Hn.
             pose proof (pop_min less_max numItem less_max_asym less_max_trans _ _ _ Hh Hn Ep) as Hmin.
             assert (Hh' : heap less_max r') by (eapply pop_heap; eauto using less_max_asym, less_max_trans).
             destruct (pop_allP less_max numItem _ _ _ Hn Ep) as [_ Hn'].
             destruct (H3 Hh' Hn') as [H4 H5]. split; [exact H4|].
             intros x z Hx [<-|Hz]; [|auto].
             apply Hmin. eapply Permutation_in; [symmetry; exact Hp|right].
             eapply Permutation_in; [symmetry; exact H1|]. apply in_or_app; auto.
        * exfalso. apply pop_None in Ep. subst. cbn in Hlt. lia.
      + exists []. rewrite app_nil_r. split; [reflexivity|]. split; [lia|].
        intros Hh _. split; [exact Hh|intros x y _ []].
  Qed.

  Lemma knn_search_sound q k ef allow out :
    knn_search E h q k ef allow = Ok out ->
    NoDup (fst out) /\ length (fst out) = length (snd out) /\
    (Z.of_nat (length (fst out)) <= Z.max 0 k)%Z /\
    (forall x, In x (answer out) -> true_dist P h q (it_id x) (it_dist x) /\
       ldown h (h_maxl h) (h_ep h) (it_id x) /\
       has_tombstone h (it_id x) = false /\
       (forall f, allow = Some f -> f (it_id x) = true)) /\
    map it_id (answer out) = fst out /\ map it_dist (answer out) = snd out /\
    (dists_num P h q -> asc (answer out)).
  Proof.
    unfold knn_search. destruct (is_empty h).
    - intros H. inversion H; subst. cbn. repeat split; try constructor; try lia; try (intros x []); intros [].
    - intros H.
      apply bind_Ok in H. destruct H as (d0 & H0 & H).
      apply bind_Ok in H. destruct H as ([e d] & H1 & H). cbn [fst snd] in H.
      apply bind_Ok in H. destruct H as (res & H2 & H).
      destruct (Z.ltb_spec k 0) as [|Hk]; [discriminate|]. inversion H; subst. clear H. cbn [fst snd].
      set (kept := pop_to (length res) res k) in *.
      set (all := rev (pq_drain less_max kept)) in *.
      assert (Hans : answer (map it_id all, map it_dist all) = all).
      { rewrite <- (app_nil_r (map it_dist all)). apply answer_map. }
      rewrite Hans.
      apply dist_node_vec_spec in H0; [|exact Hsym].
      destruct (descend_maint_sound q _ _ _ _ _ H0 H1) as [He Hdown].
      destruct (layer_sound E h q ef 0 allow (mkItem e d) res Hsc He (tdist_small _ _ _ He) H2)
        as (Hin & Hnd & Hlen).
      destruct (pop_to_spec (length res) res k ltac:(lia) Hk) as (dr & Hp1 & Hp2 & Hp3). fold kept in Hp1, Hp2, Hp3.
      assert (Hsub : forall x, In x all -> In x res).
      { intros x Hx. unfold all in Hx. eapply Permutation_in; [symmetry; exact Hp1|].
        apply in_or_app. left. eapply Permutation_in; [symmetry; apply rev_drain_perm|exact Hx]. }
      assert (Hla : length all = length kept).
      { unfold all. now rewrite <- (Permutation_length (rev_drain_perm kept)). }
      split.
      { eapply Permutation_map_NoDup; [apply rev_drain_perm|].
        eapply Permutation_map_NoDup in Hnd; [|exact Hp1]. rewrite map_app in Hnd.
        clear -Hnd. induction (map it_id kept) as [|a l IH]; [constructor|].
        cbn in Hnd. inversion Hnd; subst. constructor; [|auto]. intros Hx. apply H1. apply in_or_app; auto. }
      split; [now rewrite !map_length|].
      split; [rewrite map_length; lia|].
      split.
      { intros x Hx. destruct (Hin x (Hsub x Hx)) as (Hx1 & Hx2 & Hx3 & Hx4).
        split; [exact Hx1|]. split; [apply Hdown; exact Hx2|]. split; [exact Hx3|].
        intros f ->. exact Hx4. }
      split; [reflexivity|]. split; [reflexivity|].
      intros Hnum. destruct (layer_heap E h q ef 0 allow Hnum (mkItem e d) res Hsc He (tdist_small _ _ _ He) H2) as [Hh Hn].
      destruct (Hp3 Hh Hn) as [Hhk _].
      apply drain_max_asc; [exact Hhk|]. intros x Hx. apply Hn.
      eapply Permutation_in; [symmetry; exact Hp1|]. apply in_or_app; auto.
  Qed.
  (** It never runs out of fuel, and succeeds on a well-formed index. *)
  Lemma descend_maint_no_fuel q l : forall ep epd, descend_maint E h q l ep epd <> OutOfFuel.
  Proof.
    induction l as [|l IH]; intros ep epd; cbn [descend_maint]; [discriminate|].
    pose proof (layer_no_fuel E h q 1 (S l) None (mkItem ep epd) Hsc) as Hl.
    destruct (search_layer E h q 1 (S l) None _) as [res|er| |]; cbn [bind]; try congruence.
    destruct (pick_entry h (pq_drain less_max res)) as [best|]; apply IH.
  Qed.

  Lemma dist_node_vec_no_fuel q id : dist_node_vec P h id q <> OutOfFuel.
  Proof.
    unfold dist_node_vec. destruct (node_by_id _ _) as [v|]; [|discriminate].
    destruct (v_vec v); [discriminate|]. destruct q; [discriminate|].
    destruct (p_single _ _ _); discriminate.
  Qed.

  Lemma knn_search_no_fuel q k ef allow : knn_search E h q k ef allow <> OutOfFuel.
  Proof.
    unfold knn_search. destruct (is_empty h); [discriminate|].
    pose proof (dist_node_vec_no_fuel q (h_ep h)) as H0.
    destruct (dist_node_vec P h (h_ep h) q) as [d0|er| |]; cbn [bind]; try congruence.
    pose proof (descend_maint_no_fuel q (h_maxl h) (h_ep h) d0) as H1.
    destruct (descend_maint E h q (h_maxl h) (h_ep h) d0) as [[e d]|er| |]; cbn [bind]; try congruence.
    pose proof (layer_no_fuel E h q ef 0 allow (mkItem e d) Hsc) as Hl. cbn [fst snd].
    destruct (search_layer E h q ef 0 allow _) as [res|er| |]; cbn [bind]; try congruence.
    destruct (k <? 0)%Z; discriminate.
  Qed.

  Lemma descend_maint_total q l : wf_levels h -> forall ep epd,
    true_dist P h q ep epd -> exists e d, descend_maint E h q l ep epd = Ok (e, d).
  Proof.
    intros Hwf. induction l as [|l IH]; intros ep epd Hd; cbn [descend_maint]; [eauto|].
    destruct (layer_total E h q 1 (S l) None (mkItem ep epd) Hsc Hwf Hd) as (res & Hl). rewrite Hl. cbn [bind].
    destruct (layer_sound E h q 1 (S l) None (mkItem ep epd) res Hsc Hd (tdist_small _ _ _ Hd) Hl)
      as (Hin & _ & _).
    destruct (pick_entry h (pq_drain less_max res)) as [best|] eqn:Ep; [|now apply IH].
    apply IH. apply Hin. apply pick_entry_In in Ep.
    eapply Permutation_in; [symmetry; apply (drain_perm less_max)|exact Ep].
  Qed.

  Lemma knn_search_total q k ef allow d0 : wf_levels h -> (0 <= k)%Z ->
    dist_node_vec P h (h_ep h) q = Ok d0 -> exists out, knn_search E h q k ef allow = Ok out.
  Proof.
    intros Hwf Hk H0. unfold knn_search. destruct (is_empty h); [eauto|]. rewrite H0. cbn [bind].
    pose proof (dist_node_vec_spec _ _ _ _ _ Hsym H0) as Hd.
    destruct (descend_maint_total q (h_maxl h) Hwf _ _ Hd) as (e & d & Hde). rewrite Hde. cbn [bind fst snd].
    destruct (descend_maint_sound q _ _ _ _ _ Hd Hde) as [He _].
    destruct (layer_total E h q ef 0 allow (mkItem e d) Hsc Hwf He) as (res & Hl). rewrite Hl. cbn.
    destruct (Z.ltb_spec k 0); [lia|eauto].
  Qed.

  (** The entry point the ground layer is searched from, as a statement about
      the whole query. *)
  Lemma knn_max_dist_exhaustive_ex q0 maxd ef allow out :
    dists_num P h (p_normalize P q0) ->
    (forall id v, node_by_id h id = Some v -> exists d, p_query P (p_normalize P q0) (v_vec v) = Some d) ->
    knn_max_dist E h q0 maxd ef allow = Ok out ->
    exists e ve, node_by_id h e = Some ve /\
      (forall id, reach h 0 e id -> ldown h (h_maxl h) (h_ep h) id) /\
      forall R,
        (forall id v, reach h 0 e id -> node_by_id h id = Some v -> In id R) ->
        (Z.of_nat (length R) <= ef)%Z ->
        forall id dd, reach h 0 e id -> true_dist P h (p_normalize P q0) id dd ->
          has_tombstone h id = false -> (forall f, allow = Some f -> f id = true) ->
          within maxd (mkItem id dd) = true -> In (mkItem id dd) (answer out).
  Proof.
    intros Hnum Hall H.
    destruct (knn_max_dist_inv q0 maxd ef allow out H) as (d0 & e & d & res & H0 & H1 & H2 & _).
    destruct (descend_sound _ _ _ _ _ _ H0 H1) as [He Hdown].
    assert (Hve := He). destruct Hve as (ve & Hve & _).
    exists e, ve. split; [exact Hve|]. split; [exact Hdown|].
    intros R HR Hlen id dd. eapply (knn_max_dist_exhaustive q0 maxd ef allow out d0 e d R); eauto.
  Qed.

  Lemma knn_max_dist_connected q0 maxd ef allow out :
    dists_num P h (p_normalize P q0) ->
    (forall id v, node_by_id h id = Some v -> exists d, p_query P (p_normalize P q0) (v_vec v) = Some d) ->
    (forall a b va vb, node_by_id h a = Some va -> node_by_id h b = Some vb -> reach h 0 a b) ->
    (Z.of_nat (length (nodup N.eq_dec (stored_ids h))) <= ef)%Z ->
    knn_max_dist E h q0 maxd ef allow = Ok out ->
    forall id d, true_dist P h (p_normalize P q0) id d ->
      has_tombstone h id = false -> (forall f, allow = Some f -> f id = true) ->
      within maxd (mkItem id d) = true -> In (mkItem id d) (answer out).
  Proof.
    intros Hnum Hall Hconn Hef H id d Hd Ht Ha Hw.
    destruct (knn_max_dist_exhaustive_ex q0 maxd ef allow out Hnum Hall H) as (e & ve & Hve & _ & Hex).
    apply (Hex (nodup N.eq_dec (stored_ids h))); auto.
    - intros i v _ Hv. apply nodup_In. eapply stored_in; eauto.
    - destruct Hd as (v & Hv & _). eapply Hconn; eauto.
  Qed.
End Knn.

(* ------------------------------------------------------------------ *)
(** flatSearch. *)
Section Flat.
  Variable E : env.
  Variable h : hnsw.
  Variable q : vec.
  Variable limit : Z.
  Local Notation P := (e_prov E).
  Hypothesis Hsym : prov_sym P.
  Hypothesis Hnum : dists_num P h q.
  Hypothesis Hlim : (1 <= limit)%Z.

  (** Candidate [x] of the allow list that exists and is not deleted. *)
  Definition eligible (cands : list N) (x : item) : Prop :=
    In (it_id x) cands /\ has_tombstone h (it_id x) = false /\
    true_dist P h q (it_id x) (it_dist x).

  Lemma flat_loop_spec cands : forall results acc r,
    NoDup (map it_id acc ++ cands) ->
    heap less_max results -> (forall x, In x acc -> numItem x) ->
    kbest (Z.to_nat limit) results acc ->
    flat_loop E h q limit cands results = Ok r ->
    exists all, heap less_max r /\ NoDup (map it_id all) /\ (forall x, In x all -> numItem x) /\
      (forall x, In x all <-> In x acc \/ eligible cands x) /\
      kbest (Z.to_nat limit) r all.
  Proof.
    induction cands as [|c cands IH]; intros results acc r Hnd Hh Hacc Hk Hr; cbn in Hr.
    - inversion Hr; subst. exists acc. split; [exact Hh|]. split; [now rewrite app_nil_r in Hnd|].
      split; [exact Hacc|]. split; [|exact Hk]. unfold eligible. cbn. intros x; tauto.
    - assert (Hnd' : NoDup (map it_id acc ++ cands)).
      { eapply NoDup_remove_1; eauto. }
      assert (Hc : ~ In c (map it_id acc) /\ ~ In c cands).
      { apply NoDup_remove_2 in Hnd. rewrite in_app_iff in Hnd. tauto. }
      destruct (node_by_id h c) as [v|] eqn:Ev.
      2:{ destruct (IH _ _ _ Hnd' Hh Hacc Hk Hr) as (all & H1 & H2 & H3 & H4 & H5).
          exists all. split; [exact H1|]. split; [exact H2|]. split; [exact H3|]. split; [|exact H5].
          intros x. rewrite H4. unfold eligible. cbn. split; [tauto|].
          intros [Hx|([Hx|Hx] & Ht & Hd)]; auto. subst c. destruct Hd as (v & Hv & _). congruence. }
      destruct (has_tombstone h c) eqn:Et.
      1:{ destruct (IH _ _ _ Hnd' Hh Hacc Hk Hr) as (all & H1 & H2 & H3 & H4 & H5).
          exists all. split; [exact H1|]. split; [exact H2|]. split; [exact H3|]. split; [|exact H5].
          intros x. rewrite H4. unfold eligible. cbn. split; [tauto|].
          intros [Hx|([Hx|Hx] & Ht & Hd)]; auto. subst c. congruence. }
      apply bind_Ok in Hr. destruct Hr as (d & Hd & Hr).
      apply dist_node_vec_spec in Hd; [|exact Hsym].
      assert (Hnc : numItem (mkItem c d)) by (eapply Hnum; eauto).
      assert (Hrn : allP numItem results).
      { destruct Hk as (dr & Hp & _). intros x Hx. apply Hacc.
        eapply Permutation_in; [symmetry; exact Hp|]. apply in_or_app; auto. }
      assert (Hnd2 : NoDup (map it_id (mkItem c d :: acc) ++ cands)).
      { cbn. constructor; [rewrite in_app_iff; tauto|exact Hnd']. }
      assert (Hacc2 : forall x, In x (mkItem c d :: acc) -> numItem x).
      { intros x [<-|Hx]; auto. }
      assert (Hfin : forall results', heap less_max results' ->
        kbest (Z.to_nat limit) results' (mkItem c d :: acc) ->
        flat_loop E h q limit cands results' = Ok r ->
        exists all, heap less_max r /\ NoDup (map it_id all) /\ (forall x, In x all -> numItem x) /\
          (forall x, In x all <-> In x acc \/ eligible (c :: cands) x) /\
          kbest (Z.to_nat limit) r all).
      { intros results' Hh' Hk' Hr'.
        destruct (IH results' (mkItem c d :: acc) r Hnd2 Hh' Hacc2 Hk' Hr') as (all & H1 & H2 & H3 & H4 & H5).
        exists all. split; [exact H1|]. split; [exact H2|]. split; [exact H3|]. split; [|exact H5].
        intros x. rewrite H4. unfold eligible. cbn. split.
        - intros [[<-|Hx]|Hx]; [right; cbn; auto|now left|right; tauto].
        - intros [Hx|([Hx|Hx] & Ht & Hdx)]; auto. left; left.
          destruct Hdx as (v1 & Ha & Hb), Hd as (v2 & Hc1 & Hc2). destruct x as [xi xd]; cbn in *. congruence. }
      destruct Hk as (dr & Hp & Hlen & Hbest).
      assert (Hpl : length acc = length results + length dr).
      { rewrite (Permutation_length Hp), app_length. reflexivity. }
      assert (Hdn : forall y, In y dr -> numItem y).
      { intros y Hy. apply Hacc. eapply Permutation_in; [symmetry; exact Hp|]. apply in_or_app; auto. }
      destruct (Z.ltb_spec (Z.of_nat (length results)) limit) as [Hlt|Hge].
      + apply (Hfin (pq_insert less_max (mkItem c d) results)); auto.
        * eapply insert_heap; eauto using less_max_asym, less_max_trans.
        * assert (dr = []) by (destruct dr; [reflexivity|cbn [length] in Hpl; lia]). subst dr.
          exists []. rewrite app_nil_r in *. split; [rewrite <- insert_perm, Hp; reflexivity|].
          split; [rewrite insert_length; cbn [length]; lia|]. intros x y _ [].
      + destruct (pq_top results) as [t|] eqn:Etop; [|discriminate].
        pose proof (top_In _ _ Etop) as Htin.
        destruct (fgt (it_dist t) d) eqn:Eg.
        * destruct (pq_pop less_max results) as [[y r']|] eqn:Ep; [|discriminate].
          pose proof (pop_perm _ _ _ _ Ep) as Hpm.
          pose proof (pop_min less_max numItem less_max_asym less_max_trans _ _ _ Hh Hrn Ep) as Hmin.
          assert (t = y) by (apply pop_top in Ep; congruence). subst y.
          destruct (pop_allP less_max numItem _ _ _ Hrn Ep) as [Hnt Hnr'].
          apply (Hfin (pq_insert less_max (mkItem c d) r')); auto.
          -- eapply insert_heap; eauto using less_max_asym, less_max_trans.
             eapply pop_heap; eauto using less_max_asym, less_max_trans.
          -- exists (t :: dr). split; [|split].
             ++ rewrite Hp, Hpm. rewrite <- Permutation_middle.
                rewrite <- (Permutation_app_tail dr (insert_perm less_max (mkItem c d) r')).
                cbn. apply perm_swap.
             ++ rewrite insert_length. pose proof (pop_length _ _ _ _ Ep). cbn [length]. lia.
             ++ intros x z Hx Hz. apply insert_In in Hx.
                assert (Hzt : flt (it_dist z) (it_dist t) = false).
                { destruct Hz as [<-|Hz]; [apply flt_irrefl|auto]. }
                assert (Hzn : numItem z) by (destruct Hz as [<-|Hz]; auto).
                destruct Hx as [->|Hx].
                ** cbn [it_dist]. unfold fgt in Eg. apply flt_asym.
                   eapply flt_le_trans; [exact Hnc|exact Hnt|exact Hzn|exact Eg|exact Hzt].
                ** assert (Hxr : In x results).
                   { eapply Permutation_in; [symmetry; exact Hpm|now right]. }
                   destruct Hz as [<-|Hz]; [|auto]. exact (Hmin x Hxr).
        * apply (Hfin results); auto.
          exists (mkItem c d :: dr). split; [|split].
          -- rewrite Hp. apply Permutation_middle.
          -- cbn [length]. lia.
          -- intros x z Hx [<-|Hz]; [|auto]. cbn [it_dist].
             pose proof (top_min less_max numItem less_max_asym less_max_trans _ _ Hh Hrn Etop x Hx) as Hm.
             unfold less_max, fgt in Hm. unfold fgt in Eg.
             apply nflt_trans with (b := it_dist t); auto; try (apply Hrn; assumption).
  Qed.

  Lemma flat_search_spec cands out : NoDup cands ->
    flat_search E h q limit cands = Ok out ->
    exists all, NoDup (map it_id all) /\ (forall x, In x all <-> eligible cands x) /\
      kbest (Z.to_nat limit) (answer out) all /\ asc (answer out) /\
      map it_id (answer out) = fst out /\ map it_dist (answer out) = snd out.
  Proof.
    intros Hnd H. unfold flat_search in H. destruct (Z.ltb_spec limit 0); [discriminate|].
    apply bind_Ok in H. destruct H as (res & Hr & H). inversion H; subst; clear H.
    destruct (flat_loop_spec cands [] [] res) as (all & H1 & H2 & H3 & H4 & H5); auto using nil_heap.
    - intros x [].
    - exists []. split; [reflexivity|]. split; [cbn; lia|]. intros x y [].
    - set (l := rev (pq_drain less_max res)).
      assert (Hans : answer (map it_id l, map it_dist l) = l).
      { rewrite <- (app_nil_r (map it_dist l)). apply answer_map. }
      rewrite Hans. exists all. split; [exact H2|]. split; [intros x; rewrite H4; cbn; tauto|].
      split; [eapply kbest_perm; [apply rev_drain_perm|exact H5]|]. split; [|auto].
      apply drain_max_asc; [exact H1|]. intros x Hx. apply H3.
      destruct H5 as (dr & Hp & _). eapply Permutation_in; [symmetry; exact Hp|]. apply in_or_app; auto.
  Qed.

  (** It succeeds if every eligible vector is non-empty and comparable. *)
  Lemma flat_loop_total cands : forall results,
    (forall c v, In c cands -> node_by_id h c = Some v -> has_tombstone h c = false ->
       exists d, dist_node_vec P h c q = Ok d) ->
    exists r, flat_loop E h q limit cands results = Ok r.
  Proof.
    induction cands as [|c cands IH]; intros results Hd; cbn; [eauto|].
    assert (Hd' : forall c0 v, In c0 cands -> node_by_id h c0 = Some v -> has_tombstone h c0 = false ->
       exists d, dist_node_vec P h c0 q = Ok d) by (intros; eapply Hd; eauto; now right).
    destruct (node_by_id h c) as [v|] eqn:Ev; [|auto].
    destruct (has_tombstone h c) eqn:Et; [auto|].
    destruct (Hd c v) as (d & Hdd); [now left|exact Ev|exact Et|]. rewrite Hdd. cbn [bind].
    destruct (Z.ltb_spec (Z.of_nat (length results)) limit); [auto|].
    destruct (pq_top results) as [t|] eqn:Etop.
    - destruct (fgt _ _); [|auto].
      destruct (pq_pop less_max results) as [[y r']|] eqn:Ep; [auto|].
      apply pop_None in Ep. subst. discriminate.
    - destruct results; [cbn in *; lia|discriminate].
  Qed.

  Lemma flat_search_total cands :
    (forall c v, In c cands -> node_by_id h c = Some v -> has_tombstone h c = false ->
       exists d, dist_node_vec P h c q = Ok d) ->
    exists out, flat_search E h q limit cands = Ok out.
  Proof.
    intros Hd. unfold flat_search. destruct (Z.ltb_spec limit 0); [lia|].
    destruct (flat_loop_total cands [] Hd) as (r & ->). cbn. eauto.
  Qed.
End Flat.

Lemma StronglySorted_nth {A} (R : A -> A -> Prop) l : StronglySorted R l ->
  forall i j a b, i < j -> nth_error l i = Some a -> nth_error l j = Some b -> R a b.
Proof.
  induction 1 as [|x l Hs IH Hf]; intros i j a b Hij Ha Hb.
  - destruct i; discriminate.
  - destruct j as [|j]; [lia|]. cbn in Hb. destruct i as [|i]; cbn in Ha.
    + inversion Ha; subst. rewrite Forall_forall in Hf. apply Hf. eapply nth_error_In; eauto.
    + eapply (IH i j); eauto; lia.
Qed.

Lemma knn_max_dist_aligned E h q0 maxd ef allow out :
  sched_ok E -> prov_sym (e_prov E) -> ids_small E h ->
  dists_num (e_prov E) h (p_normalize (e_prov E) q0) ->
  knn_max_dist E h q0 maxd ef allow = Ok out ->
  length (fst out) <= length (snd out) /\
  (forall i id, nth_error (fst out) i = Some id ->
     exists d, nth_error (snd out) i = Some d /\
       true_dist (e_prov E) h (p_normalize (e_prov E) q0) id d) /\
  (forall i j di dj, i <= j < length (fst out) ->
     nth_error (snd out) i = Some di -> nth_error (snd out) j = Some dj -> flt dj di = false).
Proof.
  intros Hsc Hsym Hsm Hnum H.
  destruct (knn_max_dist_sound E h Hsc Hsym Hsm q0 maxd ef allow out H) as (_ & Hl & _ & Hin).
  destruct (knn_max_dist_sorted E h Hsc Hsym Hsm q0 maxd ef allow out Hnum H) as (Ha & Hid & Hd).
  split; [exact Hl|]. split.
  - intros i id Hi. destruct (Hin i id Hi) as (d & H1 & H2 & _). eauto.
  - intros i j di dj Hij Hi Hj.
    destruct (Nat.eq_dec i j) as [->|Hne]; [rewrite Hi in Hj; inversion Hj; apply flt_irrefl|].
    assert (Hget : forall k d, k < length (fst out) -> nth_error (snd out) k = Some d ->
              exists x, nth_error (answer out) k = Some x /\ it_dist x = d).
    { intros k d Hk Hkd.
      assert (Hm : nth_error (map it_dist (answer out)) k = Some d).
      { rewrite Hd. rewrite nth_error_firstn_lt by exact Hk. exact Hkd. }
      rewrite nth_error_map in Hm. destruct (nth_error (answer out) k) as [x|]; [|discriminate].
      cbn in Hm. inversion Hm. eauto. }
    destruct (Hget i di) as (x & Hx & <-); [lia|exact Hi|].
    destruct (Hget j dj) as (y & Hy & <-); [lia|exact Hj|].
    exact (StronglySorted_nth _ _ Ha i j x y ltac:(lia) Hx Hy).
Qed.

Lemma within_spelled maxd id d :
  flt d f32_zero = false -> fgt d maxd = false -> within maxd (mkItem id d) = true.
Proof. intros H1 H2. unfold within. cbn. now rewrite H1, H2. Qed.

Lemma exhaustive_spelled E h q0 maxd ef allow out :
  sched_ok E -> prov_sym (e_prov E) -> ids_small E h ->
  dists_num (e_prov E) h (p_normalize (e_prov E) q0) ->
  (forall id v, node_by_id h id = Some v ->
     exists d, p_query (e_prov E) (p_normalize (e_prov E) q0) (v_vec v) = Some d) ->
  knn_max_dist E h q0 maxd ef allow = Ok out ->
  exists e ve, node_by_id h e = Some ve /\
    (forall id, reach h 0 e id -> ldown h (h_maxl h) (h_ep h) id) /\
    forall R,
      (forall id v, reach h 0 e id -> node_by_id h id = Some v -> In id R) ->
      (Z.of_nat (length R) <= ef)%Z ->
      forall id d, reach h 0 e id ->
        true_dist (e_prov E) h (p_normalize (e_prov E) q0) id d ->
        has_tombstone h id = false -> (forall f, allow = Some f -> f id = true) ->
        flt d f32_zero = false -> fgt d maxd = false -> In (mkItem id d) (answer out).
Proof.
  intros Hsc Hsym Hsm Hn Ha H.
  destruct (knn_max_dist_exhaustive_ex E h Hsc Hsym Hsm q0 maxd ef allow out Hn Ha H) as (e & ve & H1 & H2 & H3).
  exists e, ve. split; [exact H1|]. split; [exact H2|].
  intros R HR Hl id d Hre Hd Ht Hal Hz Hm. eapply H3; eauto using within_spelled.
Qed.

Lemma connected_spelled E h q0 maxd ef allow out :
  sched_ok E -> prov_sym (e_prov E) -> ids_small E h ->
  dists_num (e_prov E) h (p_normalize (e_prov E) q0) ->
  (forall id v, node_by_id h id = Some v ->
     exists d, p_query (e_prov E) (p_normalize (e_prov E) q0) (v_vec v) = Some d) ->
  (forall a b va vb, node_by_id h a = Some va -> node_by_id h b = Some vb -> reach h 0 a b) ->
  (Z.of_nat (length (nodup N.eq_dec (stored_ids h))) <= ef)%Z ->
  knn_max_dist E h q0 maxd ef allow = Ok out ->
  forall id d, true_dist (e_prov E) h (p_normalize (e_prov E) q0) id d ->
    has_tombstone h id = false -> (forall f, allow = Some f -> f id = true) ->
    flt d f32_zero = false -> fgt d maxd = false -> In (mkItem id d) (answer out).
Proof.
  intros Hsc Hsym Hsm Hn Ha Hc Hef H id d Hd Ht Hal Hz Hm.
  eapply (knn_max_dist_connected E h Hsc Hsym Hsm); eauto using within_spelled.
Qed.

Lemma knn_search_allow E h q k ef f out :
  sched_ok E -> prov_sym (e_prov E) -> ids_small E h ->
  knn_search E h q k ef (Some f) = Ok out ->
  forall id, In id (fst out) -> f id = true.
Proof.
  intros Hsc Hsym Hsm H id Hid.
  destruct (knn_search_sound E h Hsc Hsym Hsm q k ef (Some f) out H) as (_ & _ & _ & Hin & Hm & _).
  rewrite <- Hm in Hid. apply in_map_iff in Hid. destruct Hid as (x & <- & Hx).
  destruct (Hin x Hx) as (_ & _ & _ & Hf). now apply Hf.
Qed.

Lemma flat_allow E h q k cands out :
  prov_sym (e_prov E) -> dists_num (e_prov E) h q -> (1 <= k)%Z -> NoDup cands ->
  flat_search E h q k cands = Ok out -> forall id, In id (fst out) -> In id cands.
Proof.
  intros Hs Hn Hk Hnd H id Hid.
  destruct (flat_search_spec E h q k Hs Hn Hk cands out Hnd H) as (all & _ & Hall & (dr & Hp & _) & _ & Hm & _).
  rewrite <- Hm in Hid. apply in_map_iff in Hid. destruct Hid as (x & <- & Hx).
  apply Hall. eapply Permutation_in; [symmetry; exact Hp|]. apply in_or_app; auto.
Qed.
