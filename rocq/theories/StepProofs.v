(** Segments against whole vectors. *)
From Coq Require Import ZArith Reals Psatz.
From Flocq Require Import Core.Core IEEE754.BinarySingleNaN.
From Verif Require Import Base F32 F32Real F32Norm F32Err PQ Graph Search Distancer DistancerProofs DistancerDepth
  PropDistancer Persist F32Cos F32Cmp F32L2 Step.

(* ------------------------------------------------------------------ *)
(** One component per segment. *)
(** Equal, but for the sign of a zero. *)
Definition is_zero (x : f32) : bool := match x with S754_zero _ => true | _ => false end.
Definition same (x y : f32) : Prop := x = y \/ (is_zero x = true /\ is_zero y = true).

Definition elem_val (m : metric) (x y : f32) : f32 :=
  match m with
  | MCosine | MDot => f32_mul x y
  | ML2 => let d := f32_sub x y in f32_mul d d
  | MManhattan => f32_abs (f32_sub x y)
  | _ => f32_zero
  end.

Lemma add_zero_l x : same (f32_add f32_zero x) x.
Proof. destruct x as [[]|s| |s m e]; unfold same; cbn; auto. Qed.
Lemma add_same s t x y : same s t -> same x y -> same (f32_add s x) (f32_add t y).
Proof.
  intros [->|[Hs Ht]] [->|[Hx Hy]]; [now left| | |].
  - destruct x as [sx|sx| |sx mx ex]; try discriminate. destruct y as [sy|sy| |sy my ey]; try discriminate.
    destruct t as [[]|st| |st mt et]; destruct sx, sy; unfold same; cbn; auto.
  - destruct s as [ss|ss| |ss ms es]; try discriminate. destruct t as [st|st| |st mt et]; try discriminate.
    destruct y as [[]|sy| |sy my ey]; destruct ss, st; unfold same; cbn; auto.
  - destruct s as [ss|ss| |ss ms es]; try discriminate. destruct t as [st|st| |st mt et]; try discriminate.
    destruct x as [sx|sx| |sx mx ex]; try discriminate. destruct y as [sy|sy| |sy my ey]; try discriminate.
    right. destruct ss, st, sx, sy; cbn; auto.
Qed.

Definition singles (a b : vec) : list (vec * vec) := map (fun p => ([fst p], [snd p])) (combine a b).

Lemma singles_loop m a : forall b s t, m <> MGeo -> length a = length b -> same s t ->
  exists r, seg_sum m s (singles a b) = Some r /\ same r (loop2 (step_elem m) t a b).
Proof.
  induction a as [|x a IH]; intros [|y b] s t Hm Hl Hs; try discriminate; [exists s; auto|].
  injection Hl as Hl. unfold singles in *. cbn [combine map fst snd seg_sum loop2].
  assert (E : step m [x] [y] = Some (step_elem m f32_zero x y)) by (destruct m; try reflexivity; congruence).
  rewrite E. apply IH; auto.
  destruct m; cbn [step_elem]; try (apply add_same; [exact Hs|apply add_zero_l]); try congruence.
  cbv zeta. destruct (feq x y); cbn [negb].
  - destruct Hs as [->|[Hs Ht]].
    + destruct t as [[]|st| |st mt et]; unfold same; cbn; auto.
    + right. split; [|exact Ht]. destruct s as [[]|s| |]; try discriminate; reflexivity.
  - apply add_same; [exact Hs|]. left. vm_compute. reflexivity.
Qed.

Lemma wrap_same m x y : m <> MGeo -> same x y -> exists d d', wrap m x = Some d /\ wrap m y = Some d' /\ same d d'.
Proof.
  intros Hm [->|[Hx Hy]].
  - destruct m; cbn [wrap]; try congruence; eexists _, _; (split; [reflexivity|]; split; [reflexivity|now left]).
  - destruct x as [sx|sx| |sx mx ex]; try discriminate. destruct y as [sy|sy| |sy my ey]; try discriminate.
    destruct m; cbn [wrap]; try congruence; eexists _, _; (split; [reflexivity|]; split; [reflexivity|]); destruct sx, sy; unfold same; cbn; auto.
Qed.

(* ------------------------------------------------------------------ *)
(** Lengths. *)
Lemma range_loop_eq f x : forall y s, length x = length y -> range_loop f s x y = Some (loop2 f s x y).
Proof. induction x as [|a x IH]; intros [|b y] s H; try discriminate; [reflexivity|]. cbn. apply IH. now injection H. Qed.
Lemma range_loop_long f x : forall y z s, length x = length y -> range_loop f s x (y ++ z) = range_loop f s x y.
Proof. induction x as [|a x IH]; intros [|b y] z s H; try discriminate; [reflexivity|]. cbn. apply IH. now injection H. Qed.
Lemma range_loop_short f x : forall y s, length y < length x -> range_loop f s x y = None.
Proof. induction x as [|a x IH]; intros [|b y] s H; cbn in *; try lia; [reflexivity|]. apply IH. lia. Qed.

(* ------------------------------------------------------------------ *)
(** Longer segments. *)
Definition part_ok (p : vec * vec) : Prop := fst p <> [] /\ length (fst p) = length (snd p).
Definition part_pairs (p : vec * vec) : list (f32 * f32) := combine (fst p) (snd p).

Lemma combine_concat parts : Forall part_ok parts ->
  combine (concat (map fst parts)) (concat (map snd parts)) = concat (map part_pairs parts).
Proof.
  induction 1 as [|[x y] parts (_ & Hl) Hp IH]; [reflexivity|]. cbn [map concat fst snd part_pairs] in *. rewrite <- IH. clear IH.
  revert y Hl. induction x as [|a x IH]; intros [|b y] Hl; try discriminate; [reflexivity|]. cbn. f_equal. apply IH. now injection Hl.
Qed.
Lemma concat_length parts : Forall part_ok parts -> length (concat (map fst parts)) = length (concat (map snd parts)).
Proof. induction 1 as [|[x y] parts (_ & Hl) Hp IH]; [reflexivity|]. cbn [map concat fst snd] in *. rewrite !app_length. lia. Qed.

Local Open Scope R_scope.
Section Fold.
  Variable f : vec * vec -> f32.
  Variable SS AA : list (f32 * f32) -> R.
  Hypothesis S_nil : SS [] = 0.
  Hypothesis A_nil : AA [] = 0.
  Hypothesis S_app : forall l l', SS (l ++ l') = SS l + SS l'.
  Hypothesis A_app : forall l l', AA (l ++ l') = AA l + AA l'.
  Hypothesis A_pos : forall l, 0 <= AA l.

  Lemma fold_approx parts : forall t z S A, Forall part_ok parts ->
    Forall (fun p : vec * vec => room (length (fst p) + 1) (INR (2 * length (fst p))) (AA (part_pairs p)) ->
      approx (length (fst p) + 1) (INR (2 * length (fst p))) (f p) (SS (part_pairs p)) (AA (part_pairs p))) parts ->
    approx (t + 2) (INR (3 * t)) z S A -> 0 <= A ->
    let n := length (concat (map fst parts)) in
    let l := concat (map part_pairs parts) in
    room (t + n + 2) (INR (3 * (t + n))) (A + AA l) ->
    approx (t + n + 2) (INR (3 * (t + n))) (fold_left (fun s p => f32_add s (f p)) parts z) (S + SS l) (A + AA l).
  Proof.
    induction parts as [|p parts IH]; intros t z S A Hp Hf Hz HA n l Hr; subst n l.
    - cbn [map concat length fold_left] in *. rewrite S_nil, A_nil, !Rplus_0_r, Nat.add_0_r. exact Hz.
    - cbn [map concat fold_left] in *. rewrite app_length in *. rewrite S_app. rewrite A_app in *.
      inversion Hp as [|? ? Hp1 Hp2]; subst. inversion Hf as [|? ? Hf1 Hf2]; subst. destruct Hp1 as [Hne Hl].
      set (k := length (fst p)) in *. assert (Hk : (1 <= k)%nat) by (unfold k; destruct (fst p); [congruence|cbn; lia]).
      set (N := length (concat (map fst parts))) in *. set (L := concat (map part_pairs parts)) in *.
      pose proof (A_pos (part_pairs p)) as HA1. pose proof (A_pos L) as HA2.
      assert (Hf1' : room (k + 1) (INR (2 * k)) (AA (part_pairs p)) ->
        approx (k + 1) (INR (2 * k)) (f p) (SS (part_pairs p)) (AA (part_pairs p))) by exact Hf1. clear Hf1.
      rewrite <- !Rplus_assoc in *. rewrite !Nat.add_assoc in *.
      apply (IH (t + k)%nat); auto; [|lra]. fold N.
      assert (Hsum : approx (Datatypes.S (t + k + 1)) (INR (3 * t) + INR (2 * k) + 1) (f32_add z (f p)) (S + SS (part_pairs p)) (A + AA (part_pairs p))).
      { apply approx_add.
        - eapply approx_weaken; [| |exact Hz]; [lia|lra].
        - eapply approx_weaken; [| |apply Hf1']; [lia|apply Rle_refl|].
          eapply room_le; [..|exact Hr]; [lia|apply le_INR; lia|apply pos_INR|lra|lra].
        - eapply room_le; [..|exact Hr]; [lia| | |lra|lra].
          + rewrite <- plus_INR, <- S_INR. apply le_INR. lia.
          + pose proof (pos_INR (3 * t)). pose proof (pos_INR (2 * k)). lra. }
      eapply approx_weaken; [| |exact Hsum]; [lia|]. rewrite <- plus_INR, <- S_INR. apply le_INR. lia.
  Qed.
End Fold.

Lemma seg_sum_fold m parts : m <> MGeo -> Forall part_ok parts -> forall s,
  seg_sum m s parts = Some (fold_left (fun s p => f32_add s (loop2 (step_elem m) f32_zero (fst p) (snd p))) parts s).
Proof.
  intros Hm. induction 1 as [|[x y] parts (_ & Hl) Hp IH]; intros s; [reflexivity|]. cbn [seg_sum fold_left fst snd] in *.
  assert (E : step m x y = Some (loop2 (step_elem m) f32_zero x y)).
  { transitivity (range_loop (step_elem m) f32_zero x y); [destruct m; try reflexivity; congruence|now apply range_loop_eq]. }
  rewrite E. apply IH.
Qed.

(** The room there is for bounded vectors. *)
Lemma room_bounded n A : (Z.of_nat n <= 65536)%Z -> 0 <= A -> A <= pow2 100 -> room (0 + n + 2) (INR (3 * (0 + n))) (0 + A).
Proof.
  intros Hn H0 HA. apply room_2.
  - pose proof (INR_room n 2 Hn ltac:(lia)). replace (0 + n + 2)%nat with (n + 2)%nat by lia. lra.
  - assert (INR (3 * (0 + n)) * eta <= pow2 (-130)).
    { eapply Rle_trans; [|apply (eta_small _ Hn)]. apply Rmult_le_compat_r; [left; apply eta_pos|]. apply le_INR. lia. }
    assert (pow2 (-130) <= pow2 100) by (apply bpow_le; lia).
    apply Rle_trans with (pow2 1 * pow2 100); [change (pow2 1) with 2; lra|]. rewrite <- bpow_plus. apply bpow_le. lia.
  - pose proof eta_pos. pose proof (pos_INR (3 * (0 + n))). assert (0 <= INR (3 * (0 + n)) * eta) by (apply Rmult_le_pos; lra). lra.
Qed.
Lemma approx_start : approx (0 + 2) (INR (3 * 0)) f32_zero 0 0.
Proof. eapply approx_weaken; [| |apply approx_zero]; [lia|cbn; lra]. Qed.

Lemma okv_app a b : okv (a ++ b) <-> okv a /\ okv b.
Proof.
  unfold okv. rewrite Forall_app, forallb_app, andb_true_iff. tauto.
Qed.
Lemma okv_parts parts : okv (concat (map fst parts)) -> okv (concat (map snd parts)) ->
  Forall (fun p => okv (fst p) /\ okv (snd p)) parts.
Proof.
  induction parts as [|[x y] parts IH]; intros Ha Hb; constructor; cbn [map concat fst snd] in *; rewrite okv_app in *; [tauto|].
  apply IH; tauto.
Qed.

(** What is summed: products, in segments. *)
Lemma seg_dot_approx parts : Forall part_ok parts ->
  let a := concat (map fst parts) in let b := concat (map snd parts) in
  okv a -> okv b -> (Z.of_nat (length a) <= 65536)%Z -> sumA (combine a b) <= pow2 100 ->
  approx (length a + 2) (INR (3 * length a)) (fold_left (fun s p => f32_add s (dot_go (fst p) (snd p))) parts f32_zero)
    (sumS (combine a b)) (sumA (combine a b)).
Proof.
  intros Hp a b Oa Ob Hn HA. pose proof (sumA_pos (combine a b)) as H0. subst a b.
  pose proof (room_bounded _ _ Hn H0 HA) as Hr. rewrite combine_concat in * by exact Hp.
  pose proof (fold_approx (fun p => dot_go (fst p) (snd p)) sumS sumA eq_refl eq_refl sumS_app sumA_app sumA_pos parts 0 f32_zero 0 0 Hp) as H.
  cbv zeta in H. rewrite !Rplus_0_l in *. apply H; auto using approx_start; [|lra].
  pose proof (okv_parts parts Oa Ob) as Ho. clear H Hr H0 HA Hn Oa Ob. rewrite Forall_forall in *. intros p Hi Hr.
  destruct (Hp p Hi) as [_ Hl]. destruct (Ho p Hi) as [O1 O2]. unfold part_pairs in *.
  replace (length (fst p) + 1)%nat with (S (length (fst p))) in * by lia. now apply dot_go_approx.
Qed.

(** From the sum over rounded differences to that over the exact ones. *)
Lemma l2_finish n l z : Forall okb l ->
  approx (n + 7) (INR (4 * n + 600)) z (sumS (map dpair l)) (sumA (map dpair l)) ->
  approx (n + 9) (INR (4 * n + 600)) z (sum2 l) (sum2 l).
Proof.
  intros Hp (V & F & _ & Hc & H). destruct (dpair_sum _ Hp) as (HS & HD). rewrite HS in *.
  set (T := sumA (map dpair l)) in *. set (D := sum2 l) in *. pose proof (sum2_pos l) as HD0. fold D in HD0. pose proof u_pos as Hu.
  pose proof (sumA_pos (map dpair l)) as HT0. fold T in HT0.
  assert (HT : T <= (1 + u) * (1 + u) * D) by (apply Rabs_le_inv in HD; lra).
  split; [exact V|]. split; [exact F|]. split; [rewrite Rabs_pos_eq; lra|]. split; [exact Hc|].
  replace (n + 9)%nat with (S (S (n + 7))) by lia. rewrite !grow_S.
  set (g := grow (n + 7)) in *. pose proof (grow_ge (n + 7)) as Hg. fold g in Hg.
  replace (rv z - D) with ((rv z - T) + (T - D)) by ring. eapply Rle_trans; [apply Rabs_triang|].
  assert (K1 : (g - 1) * T <= (g - 1) * ((1 + u) * (1 + u) * D)) by (apply Rmult_le_compat_l; lra).
  assert (K2 : 0 <= INR (4 * n + 600) * eta) by (apply Rmult_le_pos; [apply pos_INR|left; apply eta_pos]).
  assert (K3 : g * (INR (4 * n + 600) * eta) <= (1 + u) * ((1 + u) * g) * (INR (4 * n + 600) * eta)) by (apply Rmult_le_compat_r; [exact K2|nra]).
  replace (((1 + u) * ((1 + u) * g) - 1) * D) with ((g - 1) * ((1 + u) * (1 + u) * D) + ((1 + u) * (1 + u) - 1) * D) by ring.
  lra.
Qed.

Definition diffs (p : vec * vec) : vec := map (fun q => f32_sub (fst q) (snd q)) (combine (fst p) (snd p)).
Lemma l2_diffs x : forall y s, length x = length y ->
  loop2 (step_elem ML2) s x y =
  loop2 (fun sum a b => f32_add sum (f32_mul a b)) s (diffs (x, y)) (diffs (x, y)).
Proof.
  induction x as [|a x IH]; intros [|b y] s H; try discriminate; [reflexivity|]. injection H as H.
  unfold diffs in *. cbn [fst snd combine map loop2] in *. now rewrite <- IH.
Qed.
Lemma diffs_pairs p : combine (diffs p) (diffs p) = map dpair (part_pairs p).
Proof. unfold diffs, part_pairs. induction (combine (fst p) (snd p)) as [|q l IH]; [reflexivity|]. cbn [map combine]. now rewrite IH. Qed.
Definition dparts (parts : list (vec * vec)) : list (vec * vec) := map (fun p => (diffs p, diffs p)) parts.
Lemma dparts_ok parts : Forall part_ok parts -> Forall part_ok (dparts parts).
Proof.
  intros H. unfold dparts. apply Forall_map. revert H. apply Forall_impl. intros [x y] [Hn Hl]. split; [|reflexivity]. cbn [fst snd] in *.
  destruct x, y; try discriminate; congruence.
Qed.
Lemma dparts_pairs parts : concat (map part_pairs (dparts parts)) = map dpair (concat (map part_pairs parts)).
Proof.
  induction parts as [|p parts IH]; [reflexivity|]. cbn [dparts map concat]. fold (dparts parts). rewrite IH, map_app. f_equal. apply diffs_pairs.
Qed.
Lemma seg_l2_fold parts : Forall part_ok parts -> forall s,
  fold_left (fun s p => f32_add s (loop2 (step_elem ML2) f32_zero (fst p) (snd p))) parts s =
  fold_left (fun s p => f32_add s (dot_go (fst p) (snd p))) (dparts parts) s.
Proof.
  induction 1 as [|[x y] parts (_ & Hl) Hp IH]; intros s; [reflexivity|]. cbn [dparts map fold_left fst snd] in *. fold (dparts parts).
  rewrite (l2_diffs x y f32_zero Hl). apply IH.
Qed.
Lemma dparts_length parts : Forall part_ok parts -> length (concat (map fst (dparts parts))) = length (concat (map fst parts)).
Proof.
  induction 1 as [|[x y] parts (_ & Hl) Hp IH]; [reflexivity|]. cbn [dparts map concat fst snd] in *. fold (dparts parts). rewrite !app_length, IH.
  unfold diffs. rewrite map_length, combine_length. cbn [fst snd]. lia.
Qed.
Lemma dparts_okv parts : Forall part_ok parts -> Forall okb (concat (map part_pairs parts)) ->
  okv (concat (map fst (dparts parts))) /\ okv (concat (map snd (dparts parts))).
Proof.
  intros Hp Ho. assert (H : okv (concat (map fst (dparts parts)))).
  { induction Hp as [|p parts Hp1 Hp IH]; [split; [constructor|reflexivity]|]. cbn [dparts map concat fst] in *. fold (dparts parts).
    apply Forall_app in Ho. destruct Ho as [O1 O2]. apply okv_app. split; [|now apply IH].
    unfold part_pairs in O1. unfold diffs. induction O1 as [|[x y] l H1 H2 IH2]; [split; [constructor|reflexivity]|]. cbn [map fst snd].
    apply okv_cons. split; [|exact IH2]. destruct (sub_rel x y H1) as (V & F & _). auto. }
  split; [exact H|]. replace (map snd (dparts parts)) with (map fst (dparts parts)); [exact H|].
  unfold dparts. rewrite !map_map. reflexivity.
Qed.

Lemma seg_l2_approx parts : Forall part_ok parts ->
  let a := concat (map fst parts) in let b := concat (map snd parts) in
  bounded a -> bounded b ->
  approx (length a + 9) (INR (4 * length a + 600))
    (fold_left (fun s p => f32_add s (loop2 (step_elem ML2) f32_zero (fst p) (snd p))) parts f32_zero)
    (sum2 (combine a b)) (sum2 (combine a b)).
Proof.
  intros Hp a b Ha Hb. pose proof (bounded_pairs a b Ha Hb) as Ho. pose proof (combine_concat parts Hp) as Ec. fold a b in Ec.
  rewrite Ec in Ho. destruct (dparts_okv parts Hp Ho) as [O1 O2]. pose proof Ha as (_ & Hn & _).
  rewrite seg_l2_fold by exact Hp. apply l2_finish; [rewrite Ec; exact Ho|].
  pose proof (dparts_length parts Hp) as Hln. fold a in Hln.
  pose proof (combine_concat (dparts parts) (dparts_ok parts Hp)) as Ed. rewrite dparts_pairs, <- Ec in Ed.
  eapply approx_weaken with (k := (length a + 2)%nat) (c := INR (3 * length a)); [lia|apply le_INR; lia|].
  rewrite <- Ed, <- Hln. apply seg_dot_approx; auto using dparts_ok; [now rewrite Hln|]. rewrite Ed.
  rewrite <- Ec in Ho. destruct (dpair_sum _ Ho) as (HS & HD). rewrite HS in HD.
  pose proof (sum2_pos (combine a b)) as HD0. pose proof u_pos as Hu.
  assert (HDm : sum2 (combine a b) <= pow2 98).
  { eapply Rle_trans; [apply (sum2_le _ Ho)|]. rewrite combine_length. change 98%Z with (16 + 82)%Z. rewrite bpow_plus.
    apply Rmult_le_compat_r; [apply bpow_ge_0|]. rewrite INR_IZR_INZ. change (pow2 16) with (IZR 65536). apply IZR_le. lia. }
  assert (Huu : (1 + u) * (1 + u) <= 2) by (rewrite u_val; lra).
  assert (E2 : pow2 100 = 4 * pow2 98) by (change 4 with (pow2 2); rewrite <- bpow_plus; reflexivity). rewrite E2.
  apply Rabs_le_inv in HD. nra.
Qed.

Lemma sum1_app l l' : sum1 (l ++ l') = sum1 l + sum1 l'.
Proof. induction l as [|p l IH]; [cbn [app]; change (sum1 []) with 0; lra|]. cbn [app]. rewrite !sum1_cons, IH. lra. Qed.

Lemma seg_manhattan_approx parts : Forall part_ok parts ->
  let a := concat (map fst parts) in let b := concat (map snd parts) in
  bounded a -> bounded b ->
  approx (length a + 9) (INR (4 * length a + 600))
    (fold_left (fun s p => f32_add s (manhattan_go (fst p) (snd p))) parts f32_zero)
    (sum1 (combine a b)) (sum1 (combine a b)).
Proof.
  intros Hp a b Ha Hb. pose proof (bounded_pairs a b Ha Hb) as Ho. pose proof (combine_concat parts Hp) as Ec. fold a b in Ec.
  pose proof Ha as (_ & Hn & _).
  assert (HA : sum1 (combine a b) <= pow2 100).
  { eapply Rle_trans; [apply (sum1_le _ Ho)|]. rewrite combine_length.
    apply Rle_trans with (pow2 16 * pow2 41); [|rewrite <- bpow_plus; apply bpow_le; lia].
    apply Rmult_le_compat_r; [apply bpow_ge_0|]. rewrite INR_IZR_INZ. change (pow2 16) with (IZR 65536). apply IZR_le. lia. }
  pose proof (sum1_pos (combine a b)) as H0. pose proof (room_bounded _ _ Hn H0 HA) as Hr. rewrite Ec in *.
  eapply approx_weaken with (k := (0 + length a + 2)%nat) (c := INR (3 * (0 + length a))); [lia|apply le_INR; lia|].
  pose proof (fold_approx (fun p => manhattan_go (fst p) (snd p)) sum1 sum1 eq_refl eq_refl sum1_app sum1_app sum1_pos parts 0 f32_zero 0 0 Hp) as H.
  cbv zeta in H. fold a in H. rewrite !Rplus_0_l in *. apply H; auto using approx_start; [|lra].
  clear H Hr H0 HA Hn. clear Ha Hb Ec. clear a b.
  assert (Ho' : Forall (fun p => Forall okb (part_pairs p)) parts).
  { clear Hp. induction parts as [|p parts IH]; constructor; cbn [map concat] in Ho; apply Forall_app in Ho; tauto. }
  rewrite Forall_forall in *. intros p Hi Hr.
  destruct (Hp p Hi) as [_ Hl]. specialize (Ho' p Hi). unfold part_pairs in *.
  set (k := length (fst p)) in *. pose proof (sum1_pos (combine (fst p) (snd p))).
  assert (Hk : INR (0 + k) <= INR (2 * k)) by (apply le_INR; lia).
  eapply approx_weaken with (k := S (0 + k)) (c := INR (0 + k)); [lia|exact Hk|].
  rewrite <- (Rplus_0_l (sum1 _)). apply manhattan_loop; auto.
  - eapply approx_weaken; [| |apply approx_zero]; [lia|cbn; lra].
  - rewrite Rplus_0_l. eapply room_le; [..|exact Hr]; [lia|exact Hk|apply pos_INR|assumption|apply Rle_refl].
  - lra.
Qed.

(** Hamming: the counts are exact. *)
Lemma differ_app l l' : differ (l ++ l') = (differ l + differ l')%Z.
Proof. induction l as [|p l IH]; [reflexivity|]. cbn [app differ fold_right]. fold (differ (l ++ l')) (differ l). rewrite IH. lia. Qed.
Lemma add_ints x y z w : f32_valid x -> fin x -> rv x = IZR z -> f32_valid y -> fin y -> rv y = IZR w ->
  (0 <= z)%Z -> (0 <= w)%Z -> (z + w <= 2 ^ 24)%Z ->
  let r := f32_add x y in f32_valid r /\ fin r /\ rv r = IZR (z + w).
Proof.
  intros V F E V1 F1 E1 Hz Hw Hs. cbv zeta.
  destruct (add_real prec32 emax32 _ _ x y V V1 F F1) as [Va [(Sa & Fa & Ea)|(Sa & _)]].
  - split; [exact Va|]. split; [exact Fa|]. unfold rv at 1, f32_add. rewrite Ea. fold (rv x) (rv y). rewrite E, E1, <- plus_IZR.
    apply int_rnd. lia.
  - exfalso. apply Sa. fold (rv x) (rv y). rewrite E, E1, <- plus_IZR, int_rnd by lia.
    rewrite <- abs_IZR. change (pow2 emax32) with (IZR (2 ^ 128)). apply IZR_lt. rewrite Z.abs_eq by lia. lia.
Qed.
Lemma seg_hamming parts : Forall part_ok parts -> forall s z, f32_valid s -> fin s -> rv s = IZR z -> (0 <= z)%Z ->
  (z + Z.of_nat (length (concat (map fst parts))) <= 2 ^ 24)%Z ->
  let r := fold_left (fun s p => f32_add s (hamming_go (fst p) (snd p))) parts s in
  f32_valid r /\ fin r /\ rv r = IZR (z + differ (concat (map part_pairs parts))).
Proof.
  induction 1 as [|p parts (_ & Hl) Hp IH]; intros s z V F E Hz Hn; cbn [map concat fold_left] in *.
  - cbn [differ fold_right]. rewrite Z.add_0_r. auto.
  - rewrite differ_app, Z.add_assoc. rewrite app_length in Hn.
    destruct (hamming_loop (fst p) (snd p) f32_zero 0 eq_refl eq_refl eq_refl ltac:(lia) ltac:(lia) Hl) as (V1 & F1 & E1).
    fold (hamming_go (fst p) (snd p)) in *. rewrite Z.add_0_l in E1.
    pose proof (differ_pos (part_pairs p)) as Hd.
    assert (Hc : (length (part_pairs p) <= length (fst p))%nat) by (unfold part_pairs; rewrite combine_length; lia).
    destruct (add_ints s _ z _ V F E V1 F1 E1 Hz) as (V2 & F2 & E2); [unfold part_pairs in *; lia|unfold part_pairs in *; lia|].
    apply IH; auto; unfold part_pairs in *; lia.
Qed.
