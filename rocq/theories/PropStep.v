(** C80: distances put together from segments with Step and Wrap. *)
From Coq Require Import ZArith Reals Psatz.
From Flocq Require Import Core.Core IEEE754.BinarySingleNaN.
From Verif Require Import Base F32 F32Real F32Norm F32Err PQ Graph Search Distancer DistancerProofs DistancerDepth
  PropDistancer Persist F32Cos F32Cmp F32L2 Vector PropVector Step StepProofs.

(** One component per segment, Go implementations: Wrap of the sum of the Steps is
    SingleDist, for all floats (infinities and NaNs included), but for the sign of a
    zero. *)
Theorem C80_components : forall m P a b, metric_provider_of dot_go l2_go m = Some P -> length a = length b ->
  exists d d', p_single P a b = Some d /\ seg_dist m (map (fun p => ([fst p], [snd p])) (combine a b)) = Some d' /\
    (d' = d \/ exists s s', d' = S754_zero s' /\ d = S754_zero s).
Proof.
  intros m P a b HP Hl. assert (Hm : m <> MGeo) by (intros ->; discriminate).
  destruct (singles_loop m a b f32_zero f32_zero Hm Hl (or_introl eq_refl)) as (r & Hr & Hs).
  destruct (wrap_same m _ _ Hm Hs) as (d' & d & W1 & W2 & W3).
  exists d, d'. unfold seg_dist. change (map _ (combine a b)) with (singles a b). rewrite Hr, W1.
  split; [|split; [reflexivity|]].
  - assert (Hc : forall f, checked f a b = Some (f a b)) by (intros f; unfold checked; now rewrite Hl, Nat.eqb_refl).
    destruct m; try discriminate HP; injection HP as <-; cbn [p_single cosine_provider dot_provider l2_provider manhattan_provider hamming_provider];
      rewrite Hc; exact W2.
  - destruct W3 as [->|[Z1 Z2]]; [now left|right]. destruct d' as [s1|s1| |]; try discriminate. destruct d as [s2|s2| |]; try discriminate. now exists s2, s1.
Qed.
Print Assumptions C80_components.

(** Exact values, and the sums of the absolute terms the errors are relative to. *)
Definition exact (m : metric) (l : list (f32 * f32)) : R :=
  match m with
  | MCosine => 1 - sumS l | MDot => - sumS l | ML2 => sum2 l | MManhattan => sum1 l | _ => 0
  end%R.
Definition size (m : metric) (l : list (f32 * f32)) : R :=
  match m with
  | MCosine => 1 + sumA l | MDot => sumA l | ML2 => sum2 l | MManhattan => sum1 l | _ => 0
  end%R.

Local Open Scope R_scope.
Lemma approx_lin2 n k c z S A : (Z.of_nat n <= 65536)%Z -> (k <= n + 9)%nat -> c <= INR (4 * n + 601) ->
  approx k c z S A -> Rabs (rv z - S) <= rel_err n * A + powerRZ 2 (-129).
Proof.
  intros Hn Hk Hc (_ & _ & HA & Hc0 & H). pose proof (INR_room n 9 Hn ltac:(lia)) as Hr. pose proof u_pos as Hu.
  pose proof (le_INR _ _ Hk) as Hk'. assert (Hku : INR k * u <= INR (n + 9) * u) by (apply Rmult_le_compat_r; lra).
  assert (Hg : grow k <= 1 + 16 / 15 * (INR k * u)) by (apply grow_lin; lra).
  pose proof (grow_ge k) as Hg1. pose proof (Rabs_pos S).
  assert (He : c * eta <= pow2 (-130)).
  { apply Rle_trans with (pow2 20 * eta); [|unfold eta; rewrite <- bpow_plus; apply bpow_le; lia].
    apply Rmult_le_compat_r; [left; apply eta_pos|]. eapply Rle_trans; [exact Hc|]. rewrite INR_IZR_INZ. change (pow2 20) with (IZR 1048576).
    apply IZR_le. lia. }
  assert (0 <= c * eta) by (apply Rmult_le_pos; [exact Hc0|left; apply eta_pos]).
  eapply Rle_trans; [exact H|]. apply Rplus_le_compat.
  - apply Rmult_le_compat_r; [lra|]. unfold rel_err. fold (acc n). change (/ 16777216) with u.
    rewrite plus_INR in Hku. change (INR 9) with (1+1+1+1+1+1+1+1+1) in Hku.
    pose proof (pos_INR n). assert (0 <= INR n * u) by (apply Rmult_le_pos; lra). lra.
  - change 2 with (IZR radix2). rewrite <- bpow_powerRZ.
    apply Rle_trans with (2 * pow2 (-130)); [apply Rmult_le_compat; lra|]. change 2 with (pow2 1). rewrite <- bpow_plus. apply bpow_le. lia.
Qed.

Lemma neg_real x : fin x -> is_finite_b (f32_neg x) = true /\ rv (f32_neg x) = - rv x.
Proof.
  destruct x as [s|s| |s m e]; try discriminate; split; try reflexivity; unfold rv; cbn.
  - ring.
  - rewrite <- F2R_Zopp. now destruct s.
Qed.

Lemma wrap_near m n z l : (Z.of_nat n <= 65536)%Z -> length l = n -> Forall okb l -> m <> MHamming ->
  approx (n + (match m with ML2 | MManhattan => 9 | _ => 7 end)) (INR (4 * n + 600)) z
    (match m with MCosine | MDot => sumS l | ML2 => sum2 l | MManhattan => sum1 l | _ => 0 end)
    (match m with MCosine | MDot => sumA l | ML2 => sum2 l | MManhattan => sum1 l | _ => 0 end) ->
  match wrap m z with
  | Some d => is_finite_b d = true /\ Rabs (rv d - exact m l) <= rel_err n * size m l + powerRZ 2 (-129)
  | None => True
  end.
Proof.
  intros Hn Hl Ho Hm H. pose proof H as (V & F & _). assert (HI : INR (4 * n + 600) <= INR (4 * n + 601)) by (apply le_INR; lia).
  destruct m; cbn [wrap exact size]; try congruence; try exact I.
  - assert (H1 : approx (n + 7) (INR (4 * n + 600)) f32_one 1 1).
    { eapply approx_weaken with (k := 0%nat) (c := 0); [lia|apply pos_INR|]. destruct one_real as (V1 & F1 & E1).
      split; [exact V1|]. split; [exact F1|]. rewrite E1, Rabs_R1. split; [lra|]. split; [lra|].
      replace (1 - 1) with 0 by ring. rewrite Rabs_R0. unfold grow. cbn [pow]. lra. }
    assert (Hs : approx (S (n + 7)) (0 + INR (4 * n + 600) + 1) (f32_sub f32_one z) (1 - sumS l) (1 + sumA l)).
    { apply approx_sub; [|exact H|].
      - eapply approx_weaken with (k := 0%nat) (c := 0); [lia|lra|]. destruct one_real as (V1 & F1 & E1).
        split; [exact V1|]. split; [exact F1|]. rewrite E1, Rabs_R1. split; [lra|]. split; [lra|].
        replace (1 - 1) with 0 by ring. rewrite Rabs_R0. unfold grow. cbn [pow]. lra.
      - assert (HA : sumA l <= pow2 98).
        { eapply Rle_trans; [apply (sumA_le _ Ho)|]. rewrite Hl.
          apply Rle_trans with (pow2 16 * pow2 80); [|rewrite <- bpow_plus; apply bpow_le; lia].
          apply Rmult_le_compat_r; [apply bpow_ge_0|]. rewrite INR_IZR_INZ. change (pow2 16) with (IZR 65536). apply IZR_le. exact Hn. }
        assert (He : (0 + INR (4 * n + 600) + 1) * eta <= pow2 (-130)).
        { apply Rle_trans with (pow2 20 * eta); [|unfold eta; rewrite <- bpow_plus; apply bpow_le; lia].
          apply Rmult_le_compat_r; [left; apply eta_pos|]. rewrite Rplus_0_l, <- S_INR, INR_IZR_INZ. change (pow2 20) with (IZR 1048576). apply IZR_le. lia. }
        assert (H98 : 1 <= pow2 98) by (change 1 with (pow2 0); apply bpow_le; lia).
        assert (pow2 (-130) <= pow2 98) by (apply bpow_le; lia).
        apply room_2.
        + pose proof (INR_room n 8 Hn ltac:(lia)). replace (S (n + 7)) with (n + 8)%nat by lia. lra.
        + apply Rle_trans with (pow2 2 * pow2 98); [change (pow2 2) with 4; lra|]. rewrite <- bpow_plus. apply bpow_le. lia.
        + pose proof (sumA_pos l). pose proof (pos_INR (4 * n + 600)). assert (0 <= (0 + INR (4 * n + 600) + 1) * eta) by (apply Rmult_le_pos; [lra|left; apply eta_pos]). lra. }
    pose proof Hs as (_ & Fs & _). split; [rewrite fin_b; exact Fs|].
    apply (approx_lin2 n (S (n + 7)) (0 + INR (4 * n + 600) + 1)); auto; [lia|].
    rewrite Rplus_0_l, <- S_INR. apply le_INR. lia.
  - destruct (neg_real z F) as [F' E]. split; [exact F'|]. rewrite E.
    replace (- rv z - - sumS l) with (- (rv z - sumS l)) by ring. rewrite Rabs_Ropp.
    apply (approx_lin2 n (n + 7) (INR (4 * n + 600))); auto. lia.
  - split; [rewrite fin_b; exact F|]. apply (approx_lin2 n (n + 9) (INR (4 * n + 600))); auto.
  - split; [rewrite fin_b; exact F|]. apply (approx_lin2 n (n + 9) (INR (4 * n + 600))); auto.
Qed.

(** Any segments, none empty: the result is the exact distance up to rounding, with
    the error bound of C78, and so is SingleDist of the Go loops and of the AVX2
    kernels; the two are therefore within twice that of each other.
    Missing: exact equality, which is false (below), and vectors outside [bounded]. *)
Theorem C80_segments_partial : forall dot l2 m P (parts : list (vec * vec)), dot_impl dot -> l2_impl l2 ->
  metric_provider_of dot l2 m = Some P -> m <> MHamming ->
  Forall (fun p => fst p <> [] /\ length (fst p) = length (snd p)) parts ->
  let a := concat (map fst parts) in let b := concat (map snd parts) in
  bounded a -> bounded b ->
  exists d d', p_single P a b = Some d /\ seg_dist m parts = Some d' /\
    is_finite_b d = true /\ is_finite_b d' = true /\
    Rabs (rv d - exact m (combine a b)) <= rel_err (length a) * size m (combine a b) + powerRZ 2 (-129) /\
    Rabs (rv d' - exact m (combine a b)) <= rel_err (length a) * size m (combine a b) + powerRZ 2 (-129) /\
    Rabs (rv d - rv d') <= 2 * (rel_err (length a) * size m (combine a b) + powerRZ 2 (-129)).
Proof.
  intros dot l2 m P parts Hd Hl2 HP Hm Hp a b Ha Hb. change (Forall part_ok parts) in Hp.
  assert (Hg : m <> MGeo) by (intros ->; discriminate).
  pose proof (concat_length parts Hp) as Hl. fold a b in Hl. pose proof (bounded_pairs a b Ha Hb) as Ho.
  pose proof Ha as (Oa & Hn & _). pose proof Hb as (Ob & _).
  assert (Hlc : length (combine a b) = length a) by (rewrite combine_length; lia).
  assert (Hc : forall f, checked f a b = Some (f a b)) by (intros f; unfold checked; now rewrite Hl, Nat.eqb_refl).
  set (zs := match m with MCosine | MDot => dot a b | ML2 => l2 a b | MManhattan => manhattan_go a b | _ => f32_zero end).
  assert (A1 : approx (length a + (match m with ML2 | MManhattan => 9 | _ => 7 end)) (INR (4 * length a + 600)) zs
    (match m with MCosine | MDot => sumS (combine a b) | ML2 => sum2 (combine a b) | MManhattan => sum1 (combine a b) | _ => 0 end)
    (match m with MCosine | MDot => sumA (combine a b) | ML2 => sum2 (combine a b) | MManhattan => sum1 (combine a b) | _ => 0 end)).
  { unfold zs. destruct m; try congruence; auto using dot_approx, l2_approx, manhattan_approx. }
  pose proof (seg_sum_fold m parts Hg Hp f32_zero) as Es.
  set (z' := fold_left (fun s p => f32_add s (loop2 (step_elem m) f32_zero (fst p) (snd p))) parts f32_zero) in *.
  assert (HA : sumA (combine a b) <= pow2 100).
  { eapply Rle_trans; [apply (sumA_le _ Ho)|]. rewrite Hlc.
    apply Rle_trans with (pow2 16 * pow2 80); [|rewrite <- bpow_plus; apply bpow_le; lia].
    apply Rmult_le_compat_r; [apply bpow_ge_0|]. rewrite INR_IZR_INZ. change (pow2 16) with (IZR 65536). apply IZR_le. exact Hn. }
  assert (A2 : approx (length a + (match m with ML2 | MManhattan => 9 | _ => 7 end)) (INR (4 * length a + 600)) z'
    (match m with MCosine | MDot => sumS (combine a b) | ML2 => sum2 (combine a b) | MManhattan => sum1 (combine a b) | _ => 0 end)
    (match m with MCosine | MDot => sumA (combine a b) | ML2 => sum2 (combine a b) | MManhattan => sum1 (combine a b) | _ => 0 end)).
  { pose proof (seg_dot_approx parts Hp Oa Ob Hn HA) as Hs. cbv zeta in Hs. fold a b in Hs.
    unfold z'. destruct m; try congruence.
    - eapply approx_weaken; [| |exact Hs]; [lia|apply le_INR; lia].
    - eapply approx_weaken; [| |exact Hs]; [lia|apply le_INR; lia].
    - apply (seg_l2_approx parts Hp Ha Hb).
    - apply (seg_manhattan_approx parts Hp Ha Hb). }
  pose proof (wrap_near m (length a) zs (combine a b) Hn Hlc Ho Hm A1) as W1.
  pose proof (wrap_near m (length a) z' (combine a b) Hn Hlc Ho Hm A2) as W2.
  destruct (wrap m zs) as [d|] eqn:E1; [|destruct m; discriminate || congruence].
  destruct (wrap m z') as [d'|] eqn:E2; [|destruct m; discriminate || congruence].
  destruct W1 as [F1 W1], W2 as [F2 W2].
  exists d, d'. split; [|split; [unfold seg_dist; rewrite Es; exact E2|split; [exact F1|split; [exact F2|split; [exact W1|split; [exact W2|]]]]]].
  - destruct m; try discriminate HP; injection HP as <-; cbn [p_single cosine_provider dot_provider l2_provider manhattan_provider];
      try congruence; rewrite Hc; exact E1.
  - replace (rv d - rv d') with ((rv d - exact m (combine a b)) + - (rv d' - exact m (combine a b))) by ring.
    eapply Rle_trans; [apply Rabs_triang|]. rewrite Rabs_Ropp. lra.
Qed.
Print Assumptions C80_segments_partial.

(** Hamming: the same number, for all floats, up to 2^24 components. *)
Theorem C80_hamming : forall parts : list (vec * vec),
  Forall (fun p => fst p <> [] /\ length (fst p) = length (snd p)) parts ->
  let a := concat (map fst parts) in let b := concat (map snd parts) in
  (Z.of_nat (length a) <= 2 ^ 24)%Z ->
  exists d d', p_single hamming_provider a b = Some d /\ seg_dist MHamming parts = Some d' /\
    is_finite_b d = true /\ is_finite_b d' = true /\ rv d = rv d' /\ rv d = IZR (differ (combine a b)).
Proof.
  intros parts Hp a b Hn. change (Forall part_ok parts) in Hp. pose proof (concat_length parts Hp) as Hl. fold a b in Hl.
  destruct (hamming_loop a b f32_zero 0 eq_refl eq_refl eq_refl ltac:(lia) ltac:(lia) Hl) as (V1 & F1 & E1).
  destruct (seg_hamming parts Hp f32_zero 0 eq_refl eq_refl eq_refl ltac:(lia) ltac:(fold a; lia)) as (V2 & F2 & E2).
  rewrite Z.add_0_l in *. rewrite <- (combine_concat parts Hp) in E2. fold a b in E2.
  pose proof (seg_sum_fold MHamming parts ltac:(discriminate) Hp f32_zero) as Es.
  eexists _, _. split; [cbn [p_single hamming_provider]; unfold checked; rewrite Hl, Nat.eqb_refl; reflexivity|].
  split; [unfold seg_dist; rewrite Es; reflexivity|]. rewrite !fin_b. split; [exact F1|]. split; [exact F2|].
  split; [|exact E1]. etransitivity; [exact E1|]. symmetry. exact E2.
Qed.
Print Assumptions C80_hamming.

(** Step does not compare the lengths: components of the second vector beyond the
    first are ignored, missing ones are a panic. *)
Theorem C80_step_lengths : forall m x y z, m <> MGeo -> length x = length y ->
  step m x (y ++ z) = step m x y /\ (exists s, step m x y = Some s) /\
  (z <> [] -> step m (x ++ z) y = None).
Proof.
  intros m x y z Hm Hl.
  assert (E : forall a b, step m a b = range_loop (step_elem m) f32_zero a b) by (intros; destruct m; try reflexivity; congruence).
  rewrite !E. split; [now apply range_loop_long|]. split; [eexists; now apply range_loop_eq|].
  intros Hz. apply range_loop_short. rewrite app_length. destruct z; [congruence|]. cbn. lia.
Qed.
Print Assumptions C80_step_lengths.

(** Two segments of [2^24, 1, 1] . [1, 1, 1] give another float than SingleDist. *)
Definition a80 : vec := fz [16777216; 1; 1]%Z.
Definition b80 : vec := fz [1; 1; 1]%Z.
Definition parts80 : list (vec * vec) := [(firstn 1 a80, firstn 1 b80); (skipn 1 a80, skipn 1 b80)].
Theorem C80_segments_refuted : exists (parts : list (vec * vec)) d d',
  Forall (fun p => fst p <> [] /\ length (fst p) = length (snd p)) parts /\
  p_single (dot_provider dot_go) (concat (map fst parts)) (concat (map snd parts)) = Some d /\
  seg_dist MDot parts = Some d' /\ feq d d' = false /\
  bounded (concat (map fst parts)) /\ bounded (concat (map snd parts)).
Proof.
  exists parts80, (f32_of_Z (-16777216)), (f32_of_Z (-16777218)).
  split; [repeat constructor; discriminate|]. split; [vm_compute; reflexivity|]. split; [vm_compute; reflexivity|].
  split; [vm_compute; reflexivity|]. split; (apply bounded_check; [vm_compute; reflexivity|cbn; lia]).
Qed.
Print Assumptions C80_segments_refuted.

(** The hypotheses hold for these two segments. *)
Example C80_nonvacuous : Forall (fun p => fst p <> [] /\ length (fst p) = length (snd p)) parts80 /\
  bounded (concat (map fst parts80)) /\ bounded (concat (map snd parts80)) /\
  metric_provider_of dot_go l2_go MCosine = Some (cosine_provider dot_go) /\
  seg_dist ML2 parts80 <> None /\ seg_dist MHamming parts80 = Some f32_one.
Proof.
  split; [repeat constructor; discriminate|]. split; [apply bounded_check; [vm_compute; reflexivity|cbn; lia]|].
  split; [apply bounded_check; [vm_compute; reflexivity|cbn; lia]|]. split; [reflexivity|]. split; [vm_compute; discriminate|vm_compute; reflexivity].
Qed.

(** On a processor with AVX2 one component per segment is not SingleDist either. *)
Definition c80 : vec := fz [16777216; 1; 1; -16777216]%Z ++ repeat (f32_of_Z 0) 28 ++ [f32_of_Z 1; f32_of_Z 1].
Theorem C80_avx_refuted : exists a b d d', length a = length b /\
  p_single (dot_provider dot_avx) a b = Some d /\
  seg_dist MDot (map (fun p => ([fst p], [snd p])) (combine a b)) = Some d' /\ feq d d' = false.
Proof.
  exists c80, (repeat f32_one 34), (f32_of_Z (-5)), (f32_of_Z (-2)). split; [reflexivity|].
  split; [vm_compute; reflexivity|]. split; vm_compute; reflexivity.
Qed.
Print Assumptions C80_avx_refuted.
