(** Proofs about the distance functions and the assembly kernels. *)
From Verif Require Import Base F32 PQ Graph Distancer.

(* ------------------------------------------------------------------ *)
(** Symmetry of the float operations. *)
Lemma f32_mul_comm x y : f32_mul x y = f32_mul y x.
Proof.
  unfold f32_mul, SFmul. destruct x as [sx|sx| |sx mx ex], y as [sy|sy| |sy my ey];
    try reflexivity; try (now rewrite xorb_comm).
  now rewrite xorb_comm, Pos.mul_comm, Z.add_comm.
Qed.

Lemma f32_add_comm x y : f32_add x y = f32_add y x.
Proof.
  unfold f32_add, SFadd. destruct x as [sx|sx| |sx mx ex], y as [sy|sy| |sy my ey];
    try reflexivity; try (destruct sx, sy; reflexivity).
  rewrite Z.min_comm, Z.add_comm. reflexivity.
Qed.

Lemma f32_fma_comm x y z : f32_fma x y z = f32_fma y x z.
Proof.
  unfold f32_fma. destruct x as [sx|sx| |sx mx ex], y as [sy|sy| |sy my ey];
    try reflexivity; try (rewrite f32_mul_comm; reflexivity).
  destruct z as [sz|sz| |sz mz ez]; try reflexivity; [apply f32_mul_comm|].
  now rewrite xorb_comm, Pos.mul_comm, (Z.add_comm ey ex).
Qed.

(** [binary_normalize] of opposite integers. *)
Lemma normalize_opp m e :
  m <> 0%Z ->
  binary_normalize prec32 emax32 (- m) e false = f32_neg (binary_normalize prec32 emax32 m e false).
Proof.
  intros Hm. unfold binary_normalize.
  assert (Hround : forall p s, binary_round prec32 emax32 (negb s) p e
                               = f32_neg (binary_round prec32 emax32 s p e)).
  { intros p s. unfold binary_round. destruct (shl_align _ _ _) as [mz ez].
    unfold binary_round_aux. destruct (shr_fexp _ _ _ _ _) as [mrs' e'].
    destruct (shr_fexp _ _ _ _ _) as [mrs'' e''].
    destruct (shr_m mrs'') as [|p'|p']; cbn; try reflexivity.
    destruct (Z.leb _ _); reflexivity. }
  destruct m as [|p|p]; [congruence|apply (Hround p false)|apply (Hround p true)].
Qed.

Definition fsame (x y : f32) : Prop := x = y \/ x = f32_neg y.

Lemma f32_neg_neg x : f32_neg (f32_neg x) = x.
Proof. destruct x as [s|s| |s m e]; cbn; try reflexivity; now rewrite negb_involutive. Qed.

(** a - b and b - a are equal up to the sign. *)
Lemma f32_sub_same x y : fsame (f32_sub x y) (f32_sub y x).
Proof.
  unfold fsame, f32_sub, SFsub. destruct x as [sx|sx| |sx mx ex], y as [sy|sy| |sy my ey];
    try (left; reflexivity); try (right; reflexivity);
    try (destruct sx, sy; cbn; solve [auto]).
  rewrite (Z.min_comm ey ex).
  set (u := cond_Zopp sx _). set (v := cond_Zopp sy _).
  destruct (Z.eq_dec (u - v) 0) as [E|E].
  - left. replace (v - u)%Z with (u - v)%Z by lia. reflexivity.
  - right. replace (u - v)%Z with (- (v - u))%Z by lia. apply normalize_opp. lia.
Qed.

Lemma f32_sq_same x y : fsame x y -> f32_mul x x = f32_mul y y.
Proof.
  intros [-> | ->]; [reflexivity|]. unfold f32_mul, SFmul.
  destruct y as [s|s| |s m e]; cbn; try reflexivity; destruct s; reflexivity.
Qed.

Lemma f32_fma_same x y z : fsame x y -> f32_fma x x z = f32_fma y y z.
Proof.
  intros Hs. pose proof (f32_sq_same x y Hs) as Hsq. destruct Hs as [->|Hs]; [reflexivity|].
  unfold f32_fma. rewrite Hsq. subst x.
  destruct y as [s|s| |s m e]; cbn [f32_neg SFopp]; try reflexivity.
  destruct z; try reflexivity. destruct s; reflexivity.
Qed.

Lemma f32_abs_same x y : fsame x y -> f32_abs x = f32_abs y.
Proof. intros [-> | ->]; [reflexivity|]. destruct y; reflexivity. Qed.

Lemma feq_sym x y : feq x y = feq y x.
Proof.
  unfold feq, SFeqb, SFcompare.
  destruct x as [sx|sx| |sx mx ex], y as [sy|sy| |sy my ey]; try reflexivity;
    try destruct sx; try destruct sy; try reflexivity;
    rewrite (Z.compare_antisym ex ey); destruct (Z.compare ex ey); cbn; try reflexivity;
    change (Pos.compare_cont Eq mx my) with (Pos.compare mx my);
    change (Pos.compare_cont Eq my mx) with (Pos.compare my mx);
    rewrite (Pos.compare_antisym mx my); destruct (Pos.compare mx my); reflexivity.
Qed.

Lemma loop2_sym {A S} (f : S -> A -> A -> S) :
  (forall s x y, f s x y = f s y x) -> forall a b s, loop2 f s a b = loop2 f s b a.
Proof.
  intros Hf a. induction a as [|x a IH]; intros [|y b] s; cbn; try reflexivity.
  rewrite Hf. apply IH.
Qed.

Lemma dot_go_sym a b : dot_go a b = dot_go b a.
Proof. apply loop2_sym. intros. now rewrite f32_mul_comm. Qed.
Lemma l2_go_sym a b : l2_go a b = l2_go b a.
Proof. apply loop2_sym. intros. cbn. f_equal. apply f32_sq_same, f32_sub_same. Qed.
Lemma manhattan_go_sym a b : manhattan_go a b = manhattan_go b a.
Proof. apply loop2_sym. intros. f_equal. apply f32_abs_same, f32_sub_same. Qed.
Lemma hamming_go_sym a b : hamming_go a b = hamming_go b a.
Proof. apply loop2_sym. intros. now rewrite feq_sym. Qed.

(* ------------------------------------------------------------------ *)
(** Signs: sums of non-negative terms. *)
Definition nonneg (x : f32) : Prop :=
  match x with
  | S754_zero s | S754_infinity s | S754_finite s _ _ => s = false
  | S754_nan => True
  end.

Lemma nonneg_flt x : nonneg x -> flt x f32_zero = false.
Proof. destruct x as [[]|[]| |[] m e]; cbn; intros; try discriminate; reflexivity. Qed.

Lemma round_aux_sign s mx ex lx :
  match binary_round_aux prec32 emax32 s mx ex lx with
  | S754_zero s' | S754_infinity s' | S754_finite s' _ _ => s' = s
  | S754_nan => True
  end.
Proof.
  unfold binary_round_aux. destruct (shr_fexp _ _ _ _ _) as [mrs' e'].
  destruct (shr_fexp _ _ _ _ _) as [mrs'' e''].
  destruct (shr_m mrs''); cbn; auto. destruct (Z.leb _ _); cbn; auto.
Qed.

Lemma normalize_nonneg m e : (0 <= m)%Z -> nonneg (binary_normalize prec32 emax32 m e false).
Proof.
  intros Hm. destruct m as [|p|p]; [reflexivity| |lia].
  cbn. unfold binary_round. destruct (shl_align _ _ _) as [mz ez].
  pose proof (round_aux_sign false (Zpos mz) ez loc_Exact) as Hs.
  destruct (binary_round_aux _ _ _ _ _ _); cbn in *; auto.
Qed.

Lemma nonneg_add x y : nonneg x -> nonneg y -> nonneg (f32_add x y).
Proof.
  intros Hx Hy. unfold f32_add, SFadd.
  destruct x as [sx|sx| |sx mx ex], y as [sy|sy| |sy my ey]; cbn in Hx, Hy; subst; try exact I; try reflexivity.
  apply normalize_nonneg. cbn. lia.
Qed.

Lemma nonneg_sq x : nonneg (f32_mul x x).
Proof.
  unfold f32_mul, SFmul. destruct x as [s|s| |s m e]; cbn; try apply xorb_nilpotent; auto.
  pose proof (round_aux_sign (xorb s s) (Zpos (m * m)) (e + e) loc_Exact) as Hs.
  rewrite xorb_nilpotent in Hs. rewrite xorb_nilpotent.
  destruct (binary_round_aux _ _ _ _ _ _); cbn in *; auto.
Qed.

Lemma nonneg_abs x : nonneg (f32_abs x).
Proof. destruct x; cbn; auto. Qed.

Lemma loop2_inv {A S} (I : S -> Prop) (f : S -> A -> A -> S) :
  (forall s x y, I s -> I (f s x y)) -> forall a b s, I s -> I (loop2 f s a b).
Proof. intros Hf a. induction a as [|x a IH]; intros [|y b] s Hs; cbn; auto. Qed.

Lemma l2_go_nonneg a b : flt (l2_go a b) f32_zero = false.
Proof.
  apply nonneg_flt. refine (loop2_inv nonneg _ _ a b _ _); [|reflexivity].
  intros s x y Hs. apply nonneg_add; [exact Hs|apply nonneg_sq].
Qed.
Lemma manhattan_go_nonneg a b : flt (manhattan_go a b) f32_zero = false.
Proof.
  apply nonneg_flt. refine (loop2_inv nonneg _ _ a b _ _); [|reflexivity].
  intros s x y Hs. apply nonneg_add; [exact Hs|apply nonneg_abs].
Qed.
Lemma hamming_go_nonneg a b : flt (hamming_go a b) f32_zero = false.
Proof.
  apply nonneg_flt. refine (loop2_inv nonneg _ _ a b _ _); [|reflexivity].
  intros s x y Hs. destruct (negb _); [|exact Hs]. apply nonneg_add; [exact Hs|].
  change (nonneg f32_one). vm_compute. reflexivity.
Qed.

(* ------------------------------------------------------------------ *)
(** Zero on equal finite vectors. *)
Definition is_finite (x : f32) : bool :=
  match x with S754_zero _ | S754_finite _ _ _ => true | _ => false end.

Lemma sub_self x : is_finite x = true -> f32_sub x x = f32_zero.
Proof.
  unfold f32_sub, SFsub. destruct x as [s|s| |s m e]; cbn; intros H; try discriminate.
  - destruct s; reflexivity.
  - rewrite Z.sub_diag. reflexivity.
Qed.

Lemma l2_go_self a : forallb is_finite a = true -> l2_go a a = f32_zero.
Proof.
  unfold l2_go. induction a as [|x a IH]; cbn; intros H; [reflexivity|].
  apply andb_true_iff in H. destruct H as [H1 H2]. rewrite sub_self by exact H1. cbn. auto.
Qed.
Lemma manhattan_go_self a : forallb is_finite a = true -> manhattan_go a a = f32_zero.
Proof.
  unfold manhattan_go. induction a as [|x a IH]; cbn; intros H; [reflexivity|].
  apply andb_true_iff in H. destruct H as [H1 H2]. rewrite sub_self by exact H1. cbn. auto.
Qed.
Lemma feq_refl x : is_num x = true -> feq x x = true.
Proof.
  unfold feq, SFeqb, SFcompare. destruct x as [s|[]| |s m e]; cbn; intros; try discriminate; try reflexivity.
  change (Pos.compare_cont Eq m m) with (Pos.compare m m).
  rewrite Z.compare_refl, Pos.compare_refl. destruct s; reflexivity.
Qed.
Lemma hamming_go_self a : forallb is_num a = true -> hamming_go a a = f32_zero.
Proof.
  unfold hamming_go. induction a as [|x a IH]; cbn; intros H; [reflexivity|].
  apply andb_true_iff in H. destruct H as [H1 H2]. rewrite feq_refl by exact H1. cbn. auto.
Qed.

(* ------------------------------------------------------------------ *)
(** The kernels.  In any commutative monoid the block structure computes the
    plain sum, whatever the length. *)
Section Monoid.
  Context {A : Type} (K : arith A).
  Hypothesis add_comm : forall a b, a_add K a b = a_add K b a.
  Hypothesis add_assoc : forall a b c, a_add K a (a_add K b c) = a_add K (a_add K a b) c.
  Hypothesis add_zero : forall a, a_add K (a_zero K) a = a.

  Local Notation "x ⊕ y" := (a_add K x y) (at level 50, left associativity).

  (** One term per index. *)
  Fixpoint terms (f : A -> A -> A) (x y : list A) : list A :=
    match x, y with
    | a :: x', b :: y' => f a b :: terms f x' y'
    | _, _ => []
    end.
  Fixpoint total (l : list A) : A :=
    match l with [] => a_zero K | a :: l' => a ⊕ total l' end.

  Lemma total_app l1 l2 : total (l1 ++ l2) = total l1 ⊕ total l2.
  Proof. induction l1 as [|a l IH]; cbn; [now rewrite add_zero|]. now rewrite IH, add_assoc. Qed.

  Lemma add_4 a b c d : (a ⊕ b) ⊕ (c ⊕ d) = (a ⊕ c) ⊕ (b ⊕ d).
  Proof.
    rewrite <- !add_assoc. f_equal. rewrite !add_assoc. f_equal. apply add_comm.
  Qed.

  Lemma total_lanes2 : forall x y, length x = length y ->
    total (lanes2 (a_add K) x y) = total x ⊕ total y.
  Proof.
    induction x as [|a x IH]; intros [|b y] H; cbn in *; try discriminate; [now rewrite add_zero|].
    rewrite IH by lia. apply add_4.
  Qed.

  Variable f : A -> A -> A.
  Variable elem : A -> A -> A -> A.
  Hypothesis elem_spec : forall x y s, elem x y s = f x y ⊕ s.

  Lemma total_lanes3 : forall x y z, length x = length z -> length y = length z ->
    total (lanes3 elem x y z) = total (terms f x y) ⊕ total z /\
    length (lanes3 elem x y z) = length z.
  Proof.
    induction x as [|a x IH]; intros [|b y] [|c z] H1 H2; cbn in *; try discriminate.
    - split; [now rewrite add_zero|reflexivity].
    - destruct (IH y z) as [E1 E2]; try lia. rewrite E1, E2, elem_spec. split; [apply add_4|reflexivity].
  Qed.

  Lemma terms_app x1 x2 : forall y1 y2, length x1 = length y1 ->
    terms f (x1 ++ x2) (y1 ++ y2) = terms f x1 y1 ++ terms f x2 y2.
  Proof.
    induction x1 as [|a x1 IH]; intros [|b y1] y2 H; cbn in *; try discriminate; [reflexivity|].
    f_equal. apply IH. lia.
  Qed.

  Lemma terms_split n x y : length x = length y ->
    total (terms f x y) = total (terms f (firstn n x) (firstn n y)) ⊕ total (terms f (skipn n x) (skipn n y)).
  Proof.
    intros H. rewrite <- total_app, <- terms_app.
    - now rewrite !firstn_skipn.
    - rewrite !firstn_length. lia.
  Qed.

  Definition acc_total (s : acc4) : A := (total (acc0 s) ⊕ total (acc1 s)) ⊕ (total (acc2 s) ⊕ total (acc3 s)).
  Definition acc_ok (s : @acc4 A) : Prop :=
    length (acc0 s) = 8 /\ length (acc1 s) = 8 /\ length (acc2 s) = 8 /\ length (acc3 s) = 8.

  Lemma load8_len (x : list A) k : k + 8 <= length x -> length (load8 k x) = 8.
  Proof. intros H. unfold load8. rewrite firstn_length, skipn_length. lia. Qed.

  Lemma block32 (x y : list A) : length x = length y -> 32 <= length x ->
    total (terms f x y) =
    (total (terms f (load8 0 x) (load8 0 y)) ⊕ total (terms f (load8 8 x) (load8 8 y)))
    ⊕ (total (terms f (load8 16 x) (load8 16 y)) ⊕ total (terms f (load8 24 x) (load8 24 y)))
    ⊕ total (terms f (skipn 32 x) (skipn 32 y)).
  Proof.
    intros He Hl. unfold load8.
    assert (Hsk : forall m n (l : list A), skipn m (skipn n l) = skipn (n + m) l).
    { intros m n; induction n as [|n IH]; intros [|a l]; cbn; try reflexivity; [now destruct m|apply IH]. }
    rewrite (terms_split 8 x y He).
    rewrite (terms_split 8 (skipn 8 x) (skipn 8 y)) by (rewrite !skipn_length; lia).
    rewrite (terms_split 8 (skipn 8 (skipn 8 x)) (skipn 8 (skipn 8 y))) by (rewrite !skipn_length; lia).
    rewrite (terms_split 8 (skipn 8 (skipn 8 (skipn 8 x))) (skipn 8 (skipn 8 (skipn 8 y)))) by (rewrite !skipn_length; lia).
    rewrite !Hsk. cbn [Nat.add skipn]. rewrite !add_assoc. reflexivity.
  Qed.

  Lemma blocks_spec fuel : forall x y s, length x = length y -> acc_ok s -> length x <= fuel ->
    exists xt yt s', blocks elem fuel x y s = Some (xt, yt, s') /\ acc_ok s' /\
      length xt = length yt /\ length xt < 32 /\
      acc_total s' ⊕ total (terms f xt yt) = acc_total s ⊕ total (terms f x y).
  Proof.
    induction fuel as [|fuel IH]; intros x y s He Hs Hf.
    - assert (length x = O) by lia. cbn [blocks].
      destruct (Nat.ltb_spec (length x) 32); [|lia]. exists x, y, s. auto.
    - cbn [blocks]. destruct (Nat.ltb_spec (length x) 32) as [Hlt|Hge]; [exists x, y, s; auto|].
      destruct Hs as (Hs0 & Hs1 & Hs2 & Hs3).
      assert (Hld : forall k, k + 8 <= 32 -> length (load8 k x) = 8 /\ length (load8 k y) = 8).
      { intros k Hk. split; apply load8_len; lia. }
      destruct (Hld 0) as [X0 Y0]; [lia|]. destruct (Hld 8) as [X1 Y1]; [lia|].
      destruct (Hld 16) as [X2 Y2]; [lia|]. destruct (Hld 24) as [X3 Y3]; [lia|].
      destruct (total_lanes3 (load8 0 x) (load8 0 y) (acc0 s)) as [T0 L0]; try lia.
      destruct (total_lanes3 (load8 8 x) (load8 8 y) (acc1 s)) as [T1 L1]; try lia.
      destruct (total_lanes3 (load8 16 x) (load8 16 y) (acc2 s)) as [T2 L2]; try lia.
      destruct (total_lanes3 (load8 24 x) (load8 24 y) (acc3 s)) as [T3 L3]; try lia.
      edestruct IH as (xt & yt & s' & E & Hok & Hl & Hl32 & Ht); [| | |].
      4:{ exists xt, yt, s'. split; [exact E|]. split; [exact Hok|]. split; [exact Hl|]. split; [exact Hl32|].
          rewrite Ht. unfold acc_total. cbn [acc0 acc1 acc2 acc3]. rewrite T0, T1, T2, T3.
          rewrite (block32 x y He Hge).
          set (t0 := total (terms f (load8 0 x) (load8 0 y))). set (t1 := total (terms f (load8 8 x) (load8 8 y))).
          set (t2 := total (terms f (load8 16 x) (load8 16 y))). set (t3 := total (terms f (load8 24 x) (load8 24 y))).
          set (a0 := total (acc0 s)). set (a1 := total (acc1 s)). set (a2 := total (acc2 s)). set (a3 := total (acc3 s)).
          set (r := total _).
          rewrite (add_4 t0 a0 t1 a1), (add_4 t2 a2 t3 a3), (add_4 (t0 ⊕ t1) (a0 ⊕ a1)).
          rewrite (add_comm (t0 ⊕ t1 ⊕ (t2 ⊕ t3)) (a0 ⊕ a1 ⊕ (a2 ⊕ a3))). symmetry. apply add_assoc. }
      + rewrite !skipn_length. lia.
      + unfold acc_ok. cbn [acc0 acc1 acc2 acc3]. lia.
      + rewrite skipn_length. lia.
  Qed.

  Lemma tail_spec : forall x y s, loop2 (fun sum a b => elem a b sum) s x y = s ⊕ total (terms f x y).
  Proof.
    induction x as [|a x IH]; intros [|b y] s; cbn; try (now rewrite add_comm, add_zero).
    rewrite IH, elem_spec, (add_comm (f a b) s). now rewrite add_assoc.
  Qed.

  Lemma reduce_spec s t : acc_ok s -> reduce K s t = Some (acc_total s ⊕ t).
  Proof.
    destruct s as [s0 s1 s2 s3]. unfold acc_ok, acc_total, reduce. cbn [acc0 acc1 acc2 acc3].
    intros (H0 & H1 & H2 & H3).
    assert (L2 : forall u v : list A, length u = length v -> length (lanes2 (a_add K) u v) = length u).
    { induction u as [|p u IHu]; intros [|q v] Huv; cbn in *; try discriminate; auto. }
    set (y0 := lanes2 (a_add K) s0 s1). set (y2 := lanes2 (a_add K) s2 s3).
    set (yy := lanes2 (a_add K) y0 y2).
    assert (Hy0 : length y0 = 8) by (unfold y0; rewrite L2; lia).
    assert (Hy2 : length y2 = 8) by (unfold y2; rewrite L2; lia).
    assert (Hyy : length yy = 8) by (unfold yy; rewrite L2; lia).
    set (x := lanes2 (a_add K) (firstn 4 yy) (skipn 4 yy)).
    assert (Hx : length x = 4).
    { unfold x. rewrite L2; rewrite firstn_length, ?skipn_length; lia. }
    assert (Tx : total x = acc_total (mkAcc s0 s1 s2 s3)).
    { unfold x. rewrite total_lanes2 by (rewrite firstn_length, skipn_length; lia).
      rewrite <- total_app, firstn_skipn. unfold yy, y0, y2.
      rewrite total_lanes2 by (rewrite !L2; lia). rewrite !total_lanes2 by lia. reflexivity. }
    unfold acc_total in Tx. cbn [acc0 acc1 acc2 acc3] in Tx. rewrite <- Tx.
    destruct x as [|x0 [|x1 [|x2 [|x3 [|x4 x]]]]]; cbn in Hx; try discriminate.
    cbn. f_equal. rewrite !(add_comm _ (a_zero K)), !add_zero. rewrite <- !add_assoc. f_equal.
    rewrite (add_comm t), <- !add_assoc. reflexivity.
  Qed.

  Lemma kernel_spec x y : length x = length y ->
    kernel K elem x y = Some (total (terms f x y)).
  Proof.
    intros He. unfold kernel.
    destruct (blocks_spec (length x) x y (mkAcc (zeros8 K) (zeros8 K) (zeros8 K) (zeros8 K)) He)
      as (xt & yt & s' & E & Hok & Hl & _ & Ht); [repeat split|lia|].
    rewrite E, reduce_spec by exact Hok. f_equal. unfold tail. rewrite tail_spec, add_zero, Ht.
    unfold acc_total. cbn. rewrite !add_zero. reflexivity.
  Qed.
End Monoid.

(** The scalar loops compute the same sum. *)
Section Scalar.
  Context {A : Type} (K : arith A).
  Hypothesis add_comm : forall a b, a_add K a b = a_add K b a.
  Hypothesis add_assoc : forall a b c, a_add K a (a_add K b c) = a_add K (a_add K a b) c.
  Hypothesis add_zero : forall a, a_add K (a_zero K) a = a.
  Variable f : A -> A -> A.

  Lemma scalar_spec x y :
    loop2 (fun sum a b => a_add K sum (f a b)) (a_zero K) x y = total K (terms f x y).
  Proof.
    rewrite <- (add_zero (total K (terms f x y))).
    generalize (a_zero K) at 1 2. revert y.
    induction x as [|a x IH]; intros [|b y] s; cbn; try (now rewrite add_comm, add_zero).
    rewrite IH. now rewrite add_assoc.
  Qed.
End Scalar.

(** Kernel = scalar loop in every commutative monoid with any multiplication;
    the float kernels differ from the float loops only by reassociation (and
    one rounding less per term). *)
Definition fma_law {A} (K : arith A) (mul : A -> A -> A) : Prop :=
  forall x y s, a_fma K x y s = a_add K (mul x y) s.
Definition cmonoid {A} (K : arith A) : Prop :=
  (forall a b, a_add K a b = a_add K b a) /\
  (forall a b c, a_add K a (a_add K b c) = a_add K (a_add K a b) c) /\
  (forall a, a_add K (a_zero K) a = a).

Lemma dot_simd_scalar {A} (K : arith A) mul x y :
  cmonoid K -> fma_law K mul -> length x = length y ->
  dot_simd K x y = Some (loop2 (fun sum a b => a_add K sum (mul a b)) (a_zero K) x y).
Proof.
  intros (H1 & H2 & H3) Hf Hl. unfold dot_simd.
  rewrite (kernel_spec K H1 H2 H3 mul _ Hf x y Hl). f_equal. symmetry. now apply scalar_spec.
Qed.

Lemma l2_simd_scalar {A} (K : arith A) mul x y :
  cmonoid K -> fma_law K mul -> length x = length y ->
  l2_simd K x y = Some (loop2 (fun sum a b => let d := a_sub K a b in a_add K sum (mul d d)) (a_zero K) x y).
Proof.
  intros (H1 & H2 & H3) Hf Hl. unfold l2_simd.
  set (el := fun x y s => let d := a_sub K x y in a_fma K d d s).
  assert (Hel : forall a b s, el a b s = a_add K (mul (a_sub K a b) (a_sub K a b)) s)
    by (intros; apply Hf).
  transitivity (Some (total K (terms (fun a b => mul (a_sub K a b) (a_sub K a b)) x y))).
  - exact (kernel_spec K H1 H2 H3 _ _ Hel x y Hl).
  - f_equal. symmetry. exact (scalar_spec K H1 H2 H3 (fun a b => mul (a_sub K a b) (a_sub K a b)) x y).
Qed.

(* ------------------------------------------------------------------ *)
(** The float kernels are total and symmetric. *)
Section Sym.
  Context {A : Type} (K : arith A).
  Variable elem : A -> A -> A -> A.
  Hypothesis elem_sym : forall x y s, elem x y s = elem y x s.

  Lemma lanes3_sym : forall x y z, lanes3 elem x y z = lanes3 elem y x z.
  Proof.
    induction x as [|a x IH]; intros [|b y] [|c z]; cbn; try reflexivity. now rewrite elem_sym, IH.
  Qed.

  Lemma blocks_sym fuel : forall x y s, length x = length y ->
    match blocks elem fuel x y s, blocks elem fuel y x s with
    | Some (xt, yt, s1), Some (yt', xt', s2) => xt = xt' /\ yt = yt' /\ s1 = s2
    | None, None => True
    | _, _ => False
    end.
  Proof.
    induction fuel as [|f IH]; intros x y s He; cbn [blocks]; rewrite <- He;
      destruct (Nat.ltb (length x) 32); auto.
    rewrite (lanes3_sym (load8 0 y)), (lanes3_sym (load8 8 y)), (lanes3_sym (load8 16 y)), (lanes3_sym (load8 24 y)).
    apply IH. rewrite !skipn_length. lia.
  Qed.

  Lemma kernel_sym x y : length x = length y -> kernel K elem x y = kernel K elem y x.
  Proof.
    intros He. unfold kernel. rewrite <- He.
    pose proof (blocks_sym (length x) x y (mkAcc (zeros8 K) (zeros8 K) (zeros8 K) (zeros8 K)) He) as Hb.
    destruct (blocks elem (length x) x y _) as [[[xt yt] s1]|],
             (blocks elem (length x) y x _) as [[[yt' xt'] s2]|]; try tauto.
    destruct Hb as (-> & -> & ->). unfold tail. now rewrite loop2_sym by auto.
  Qed.
End Sym.

Lemma dot_simd_sym x y : length x = length y -> dot_simd f32_arith x y = dot_simd f32_arith y x.
Proof. apply kernel_sym. cbn. apply f32_fma_comm. Qed.
Lemma l2_simd_sym x y : length x = length y -> l2_simd f32_arith x y = l2_simd f32_arith y x.
Proof. apply kernel_sym. intros. cbn. apply f32_fma_same, f32_sub_same. Qed.

(** The kernel's shape never fails, whatever the arithmetic. *)
Lemma kernel_total {A} (K : arith A) elem x y : length x = length y -> exists r, kernel K elem x y = Some r.
Proof.
  intros He. unfold kernel.
  assert (L3 : forall u v w : list A, length u = length w -> length v = length w ->
            length (lanes3 elem u v w) = length w).
  { induction u as [|a u IH]; intros [|b v] [|c w] Ha Hb; cbn in *; try discriminate; auto. }
  assert (Hb : forall fuel x y s, length x = length y -> acc_ok s -> length x <= fuel ->
     exists xt yt s', blocks elem fuel x y s = Some (xt, yt, s') /\ acc_ok s').
  { induction fuel as [|f IH]; intros u v s Huv Hs Hf; cbn [blocks].
    - destruct (Nat.ltb_spec (length u) 32); [eauto|lia].
    - destruct (Nat.ltb_spec (length u) 32); [eauto|]. apply IH.
      + rewrite !skipn_length; lia.
      + destruct Hs as (? & ? & ? & ?). unfold acc_ok. cbn [acc0 acc1 acc2 acc3].
        rewrite !L3; rewrite ?load8_len; lia.
      + rewrite skipn_length. lia. }
  destruct (Hb (length x) x y (mkAcc (zeros8 K) (zeros8 K) (zeros8 K) (zeros8 K)) He)
    as (xt & yt & s' & E & Hok); [repeat split|lia|]. rewrite E.
  destruct s' as [s0 s1 s2 s3]. destruct Hok as (H0 & H1 & H2 & H3). cbn in H0, H1, H2, H3.
  do 9 (destruct s0 as [|? s0]; try discriminate). do 9 (destruct s1 as [|? s1]; try discriminate).
  do 9 (destruct s2 as [|? s2]; try discriminate). do 9 (destruct s3 as [|? s3]; try discriminate).
  cbn. eauto.
Qed.

(** Kernel used as dotProductImplementation (only called with equal lengths). *)
Definition dot_avx (a b : vec) : f32 :=
  match dot_simd f32_arith a b with Some d => d | None => S754_nan end.
Definition l2_avx (a b : vec) : f32 :=
  match l2_simd f32_arith a b with Some d => d | None => S754_nan end.

(** A distance function is symmetric on vectors of equal length. *)
Definition fun_sym (f : vec -> vec -> f32) : Prop :=
  forall a b, length a = length b -> f a b = f b a.

Lemma dot_avx_sym : fun_sym dot_avx.
Proof. intros a b H. unfold dot_avx. now rewrite dot_simd_sym. Qed.
Lemma l2_avx_sym : fun_sym l2_avx.
Proof. intros a b H. unfold l2_avx. now rewrite l2_simd_sym. Qed.
Lemma dot_go_fun_sym : fun_sym dot_go.
Proof. intros a b _. apply dot_go_sym. Qed.
Lemma l2_go_fun_sym : fun_sym l2_go.
Proof. intros a b _. apply l2_go_sym. Qed.

Lemma checked_sym f a b : fun_sym f -> checked f a b = checked f b a.
Proof.
  intros Hf. unfold checked. rewrite (Nat.eqb_sym (length b)).
  destruct (Nat.eqb_spec (length a) (length b)) as [E|]; [|reflexivity]. now rewrite Hf.
Qed.

Lemma checked_none f a b : checked f a b = None <-> length a <> length b.
Proof. unfold checked. destruct (Nat.eqb_spec (length a) (length b)); split; congruence. Qed.

(* ------------------------------------------------------------------ *)
(** An invariant kept by every lane and by the reduction holds of the result. *)
Section KInv.
  Context {A : Type} (K : arith A).
  Variable elem : A -> A -> A -> A.
  Variable I : A -> Prop.
  Variable R : A -> A -> Prop.
  Hypothesis I_zero : I (a_zero K).
  Hypothesis I_add : forall a b, I a -> I b -> I (a_add K a b).
  Hypothesis I_elem : forall a b s, R a b -> I s -> I (elem a b s).

  Lemma lanes2_inv : forall x y, Forall I x -> Forall I y -> Forall I (lanes2 (a_add K) x y).
  Proof.
    induction x as [|a x IH]; intros [|b y] Hx Hy; cbn; auto.
    inversion Hx; inversion Hy; subst. constructor; auto.
  Qed.
  Lemma lanes3_inv : forall x y z, Forall2 R x y -> Forall I z -> Forall I (lanes3 elem x y z).
  Proof.
    induction x as [|a x IH]; intros y z Hr Hz; inversion Hr; subst; destruct z; cbn; auto.
    inversion Hz; subst. constructor; auto.
  Qed.
  Lemma Forall_firstn_ n : forall l, Forall I l -> Forall I (firstn n l).
  Proof. induction n as [|n IH]; intros l H; destruct H; cbn; auto. Qed.
  Lemma Forall_skipn_ n : forall l, Forall I l -> Forall I (skipn n l).
  Proof. induction n as [|n IH]; intros l H; destruct H; cbn; auto. Qed.
  Lemma Forall2_firstn_ n : forall x y, Forall2 R x y -> Forall2 R (firstn n x) (firstn n y).
  Proof. induction n as [|n IH]; intros x y H; destruct H; cbn; auto. Qed.
  Lemma Forall2_skipn_ n : forall x y, Forall2 R x y -> Forall2 R (skipn n x) (skipn n y).
  Proof. induction n as [|n IH]; intros x y H; [exact H|]. destruct H; cbn; auto. Qed.

  Definition acc_inv (s : acc4) : Prop :=
    Forall I (acc0 s) /\ Forall I (acc1 s) /\ Forall I (acc2 s) /\ Forall I (acc3 s).

  Lemma blocks_inv fuel : forall x y s xt yt s', Forall2 R x y -> acc_inv s ->
    blocks elem fuel x y s = Some (xt, yt, s') -> Forall2 R xt yt /\ acc_inv s'.
  Proof.
    induction fuel as [|f IH]; intros x y s xt yt s' Hr Hs E; cbn [blocks] in E;
      destruct (Nat.ltb (length x) 32); try discriminate; try (inversion E; subst; auto; fail).
    eapply IH; [| |exact E].
    - now apply Forall2_skipn_.
    - destruct Hs as (? & ? & ? & ?).
      unfold acc_inv, load8; cbn [acc0 acc1 acc2 acc3];
        repeat split; apply lanes3_inv; auto using Forall2_firstn_, Forall2_skipn_.
  Qed.

  Lemma kernel_inv x y r : Forall2 R x y -> kernel K elem x y = Some r -> I r.
  Proof.
    intros Hr. unfold kernel.
    destruct (blocks elem (length x) x y _) as [[[xt yt] s]|] eqn:E; [|discriminate].
    apply blocks_inv in E; [|exact Hr|].
    2:{ assert (Hz : Forall I (zeros8 K)) by (unfold zeros8; cbn; repeat constructor; exact I_zero).
        unfold acc_inv. auto. }
    destruct E as [Ht (H0 & H1 & H2 & H3)].
    assert (Htail : I (tail K elem xt yt)).
    { unfold tail. generalize (a_zero K) I_zero. clear - Ht I_elem.
      induction Ht as [|a b xt yt Hab Ht IH]; intros z Hz; cbn; [exact Hz|]. apply IH. auto. }
    unfold reduce. set (y4 := lanes2 _ _ [_; _; _; _]).
    assert (Hy : Forall I y4).
    { unfold y4. apply lanes2_inv; [|repeat constructor; auto].
      apply lanes2_inv; [apply Forall_firstn_|apply Forall_skipn_]; repeat apply lanes2_inv; auto. }
    destruct y4 as [|l0 [|l1 [|l2 [|l3 [|]]]]]; try discriminate.
    intros Hs. inversion Hs; subst. repeat match goal with H : Forall I (_ :: _) |- _ => inversion H; subst; clear H end.
    auto.
  Qed.
End KInv.

Lemma nonneg_fma_sq x s : nonneg s -> nonneg (f32_fma x x s).
Proof.
  intros Hs. unfold f32_fma.
  destruct x as [sx|sx| |sx mx ex]; try (apply nonneg_add; [apply nonneg_sq|exact Hs]).
  destruct s as [sz|sz| |sz mz ez]; try exact Hs; [apply nonneg_sq|].
  apply normalize_nonneg. cbn in Hs. subst sz. rewrite xorb_nilpotent. cbn. lia.
Qed.

Lemma Forall2_all {A} (a b : list A) : length a = length b -> Forall2 (fun _ _ => True) a b.
Proof. revert b. induction a as [|x a IH]; intros [|y b] H; cbn in *; try discriminate; auto. Qed.

Lemma l2_avx_nonneg a b : length a = length b -> flt (l2_avx a b) f32_zero = false.
Proof.
  intros Hl. apply nonneg_flt. unfold l2_avx.
  destruct (l2_simd f32_arith a b) as [r|] eqn:E; [|exact I].
  refine (kernel_inv f32_arith _ nonneg (fun _ _ => True) _ _ _ a b r (Forall2_all a b Hl) E).
  - reflexivity.
  - apply nonneg_add.
  - intros x y s _ Hs. now apply nonneg_fma_sq.
Qed.

Lemma l2_avx_self a : forallb is_finite a = true -> l2_avx a a = f32_zero.
Proof.
  intros Hf. unfold l2_avx.
  destruct (kernel_total f32_arith (fun x y s => let d := a_sub f32_arith x y in a_fma f32_arith d d s) a a eq_refl) as [r E].
  assert (E' : l2_simd f32_arith a a = Some r) by exact E. rewrite E'.
  refine (kernel_inv f32_arith _ (fun x => x = f32_zero) (fun x y => x = y /\ is_finite x = true) _ _ _ a a r _ E).
  - reflexivity.
  - intros x y -> ->. reflexivity.
  - intros x y s [<- Hx] ->. cbn. rewrite sub_self by exact Hx. reflexivity.
  - clear - Hf. induction a as [|x a IH]; [constructor|]. cbn in Hf. apply andb_true_iff in Hf.
    destruct Hf. constructor; auto.
Qed.

(** Cosine distance of two vectors with a dot product of at most one is not
    negative; [cosine_go] rewrites the provider's function. *)
Lemma cosine_sym dot : fun_sym dot -> fun_sym (fun a b => f32_sub f32_one (dot a b)).
Proof. intros H a b Hl. now rewrite H. Qed.
Lemma neg_sym dot : fun_sym dot -> fun_sym (fun a b => f32_neg (dot a b)).
Proof. intros H a b Hl. now rewrite H. Qed.

Definition prov_symmetric (P : provider) : Prop := forall a b, p_single P a b = p_query P b a.

Lemma cosine_prov_sym dot : fun_sym dot -> prov_symmetric (cosine_provider dot).
Proof. intros H a b. cbn. apply (checked_sym (fun a b => f32_sub f32_one (dot a b))). now apply cosine_sym. Qed.
Lemma dot_prov_sym dot : fun_sym dot -> prov_symmetric (dot_provider dot).
Proof. intros H a b. cbn. apply (checked_sym (fun a b => f32_neg (dot a b))). now apply neg_sym. Qed.
Lemma l2_prov_sym l2 : fun_sym l2 -> prov_symmetric (l2_provider l2).
Proof. intros H a b. cbn. now apply checked_sym. Qed.
Lemma manhattan_prov_sym : prov_symmetric manhattan_provider.
Proof. intros a b. cbn. apply checked_sym. intros x y _. apply manhattan_go_sym. Qed.
Lemma hamming_prov_sym : prov_symmetric hamming_provider.
Proof. intros a b. cbn. apply checked_sym. intros x y _. apply hamming_go_sym. Qed.

(** Normalisation keeps the length and maps the zero vector to itself. *)
Lemma normalize_length v : length (normalize v) = length v.
Proof. unfold normalize. destruct (feq _ _); apply map_length. Qed.

(* ------------------------------------------------------------------ *)
(** [fsum elem l r]: [r] is computed from the pairs in [l], using each exactly
    once, by the per-element operation, additions and zeros, in some order and
    with some bracketing. *)
Inductive fsum {A} (K : arith A) (elem : A -> A -> A -> A) : list (A * A) -> A -> Prop :=
| fs_zero : fsum K elem [] (a_zero K)
| fs_elem a b l r : fsum K elem l r -> fsum K elem ((a, b) :: l) (elem a b r)
| fs_add l1 l2 r1 r2 : fsum K elem l1 r1 -> fsum K elem l2 r2 -> fsum K elem (l1 ++ l2) (a_add K r1 r2)
| fs_perm l l' r : Permutation l l' -> fsum K elem l r -> fsum K elem l' r.

Section FSum.
  Context {A : Type} (K : arith A).
  Variable elem : A -> A -> A -> A.
  Local Notation F := (fsum K elem).
  Definition flanes (l : list (A * A)) (z : list A) : Prop :=
    exists ls, Forall2 F ls z /\ Permutation l (concat ls).

  Lemma flanes3 : forall x y z l, length x = length z -> length y = length z ->
    flanes l z -> flanes (combine x y ++ l) (lanes3 elem x y z).
  Proof.
    intros x y z l Hx Hy (ls & HF & Hp). revert x y l Hx Hy Hp.
    induction HF as [|l0 r0 ls z H0 HF IH]; intros [|a x] [|b y] l Hx Hy Hp; cbn in *; try discriminate.
    - exists []. auto.
    - destruct (IH x y (concat ls)) as (ls' & HF' & Hp'); try lia; auto.
      exists (((a, b) :: l0) :: ls'). split; [constructor; [now constructor|exact HF']|].
      cbn. apply perm_skip. rewrite Hp, <- Hp'. rewrite !app_assoc. apply Permutation_app_tail, Permutation_app_comm.
  Qed.

  Lemma flanes2 : forall x y l1 l2, length x = length y ->
    flanes l1 x -> flanes l2 y -> flanes (l1 ++ l2) (lanes2 (a_add K) x y).
  Proof.
    intros x y l1 l2 Hl (ls1 & HF1 & Hp1) (ls2 & HF2 & Hp2). revert l1 l2 y ls2 Hl Hp1 HF2 Hp2.
    induction HF1 as [|l0 r0 ls1 x H0 HF1 IH]; intros l1 l2 y ls2 Hl Hp1 HF2 Hp2.
    - destruct HF2; cbn in *; try discriminate. exists []. split; [constructor|]. cbn. now rewrite Hp1, Hp2.
    - destruct HF2 as [|l0' r0' ls2 y H0' HF2]; cbn in *; try discriminate.
      destruct (IH (concat ls1) (concat ls2) y ls2) as (ls & HF & Hp); auto.
      exists ((l0 ++ l0') :: ls). split; [constructor; [now constructor|exact HF]|].
      cbn. rewrite Hp1, Hp2, <- Hp, <- !app_assoc. apply Permutation_app_head.
      rewrite !app_assoc. apply Permutation_app_tail, Permutation_app_comm.
  Qed.

  Lemma flanes_perm l l' z : Permutation l l' -> flanes l z -> flanes l' z.
  Proof. intros Hp (ls & HF & H). exists ls. split; [exact HF|]. now rewrite <- Hp. Qed.

  Lemma flanes_split n z l : flanes l z -> exists l1 l2, Permutation l (l1 ++ l2) /\
    flanes l1 (firstn n z) /\ flanes l2 (skipn n z).
  Proof.
    intros (ls & HF & Hp). exists (concat (firstn n ls)), (concat (skipn n ls)).
    rewrite <- concat_app, firstn_skipn. split; [exact Hp|].
    assert (H : Forall2 F (firstn n ls) (firstn n z) /\ Forall2 F (skipn n ls) (skipn n z)).
    { clear Hp. revert n. induction HF; intros [|n]; cbn; auto. destruct (IHHF n). auto. }
    destruct H. split; eexists; split; eauto.
  Qed.

  Lemma lanes2_len : forall u v : list A, length u = length v -> length (lanes2 (a_add K) u v) = length u.
  Proof. induction u as [|p u IHu]; intros [|q v] Huv; cbn in *; try discriminate; auto. Qed.
  Lemma lanes3_len : forall u v w : list A, length u = length w -> length v = length w ->
            length (lanes3 elem u v w) = length w.
  Proof. induction u as [|a u IH]; intros [|b v] [|c w] Ha Hb; cbn in *; try discriminate; auto. Qed.

  Definition facc (l : list (A * A)) (s : acc4) : Prop :=
    exists l0 l1 l2 l3, flanes l0 (acc0 s) /\ flanes l1 (acc1 s) /\ flanes l2 (acc2 s) /\
      flanes l3 (acc3 s) /\ Permutation l ((l0 ++ l1) ++ (l2 ++ l3)).

  Lemma combine_split n (x y : list A) : combine x y = combine (firstn n x) (firstn n y) ++ combine (skipn n x) (skipn n y).
  Proof. revert x y. induction n as [|n IH]; intros [|a x] [|b y]; cbn; try reflexivity; [now destruct (skipn n x)|]. now rewrite <- IH. Qed.

  Lemma combine_block (x y : list A) :
    combine x y = combine (load8 0 x) (load8 0 y) ++ combine (load8 8 x) (load8 8 y) ++
      combine (load8 16 x) (load8 16 y) ++ combine (load8 24 x) (load8 24 y) ++
      combine (skipn 32 x) (skipn 32 y).
  Proof.
    assert (Hsk : forall m n (l : list A), skipn m (skipn n l) = skipn (n + m) l).
    { intros m n; induction n as [|n IH]; intros [|a l]; cbn; try reflexivity; [now destruct m|apply IH]. }
    unfold load8.
    assert (Hc : forall k, combine (skipn k x) (skipn k y) =
      combine (firstn 8 (skipn k x)) (firstn 8 (skipn k y)) ++ combine (skipn (k + 8) x) (skipn (k + 8) y)).
    { intros k. rewrite (combine_split 8 (skipn k x)). now rewrite !Hsk. }
    change (combine x y) with (combine (skipn 0 x) (skipn 0 y)) at 1.
    rewrite (Hc 0), (Hc (0 + 8)), (Hc (0 + 8 + 8)), (Hc (0 + 8 + 8 + 8)). reflexivity.
  Qed.

  Lemma perm_blocks (a b c d r s0 s1 s2 s3 : list (A * A)) :
    Permutation ((((a ++ s0) ++ (b ++ s1)) ++ ((c ++ s2) ++ (d ++ s3))) ++ r)
                (((s0 ++ s1) ++ (s2 ++ s3)) ++ (a ++ b ++ c ++ d ++ r)).
  Proof.
    rewrite <- !app_assoc.
    rewrite (Permutation_app_comm a). rewrite <- !app_assoc. apply Permutation_app_head.
    rewrite (Permutation_app_comm b). rewrite <- !app_assoc. apply Permutation_app_head.
    rewrite (Permutation_app_comm c). rewrite <- !app_assoc. apply Permutation_app_head.
    rewrite (Permutation_app_comm d). rewrite <- !app_assoc. apply Permutation_app_head.
    rewrite (Permutation_app_comm r). rewrite <- !app_assoc. reflexivity.
  Qed.

  Lemma blocks_fsum fuel : forall x y s l xt yt s', length x = length y -> acc_ok s -> facc l s ->
    blocks elem fuel x y s = Some (xt, yt, s') ->
    exists l', acc_ok s' /\ facc l' s' /\ length xt = length yt /\
      Permutation (l' ++ combine xt yt) (l ++ combine x y).
  Proof.
    induction fuel as [|f IH]; intros x y s l xt yt s' He Hok Hs E; cbn [blocks] in E;
      destruct (Nat.ltb_spec (length x) 32) as [Hlt|Hge]; try discriminate.
    1,2: inversion E; subst; exists l; auto.
    destruct Hok as (O0 & O1 & O2 & O3). destruct Hs as (l0 & l1 & l2 & l3 & F0 & F1 & F2 & F3 & Hp).
    assert (Hld : forall k, k + 8 <= 32 -> length (load8 k x) = 8 /\ length (load8 k y) = 8).
    { intros k Hk. split; apply load8_len; lia. }
    destruct (Hld 0) as [X0 Y0]; [lia|]. destruct (Hld 8) as [X1 Y1]; [lia|].
    destruct (Hld 16) as [X2 Y2]; [lia|]. destruct (Hld 24) as [X3 Y3]; [lia|].
    eapply (IH _ _ _ (((combine (load8 0 x) (load8 0 y) ++ l0) ++ (combine (load8 8 x) (load8 8 y) ++ l1)) ++
                      ((combine (load8 16 x) (load8 16 y) ++ l2) ++ (combine (load8 24 x) (load8 24 y) ++ l3)))) in E.
    - destruct E as (l' & H1 & H2 & H3 & H4). exists l'. split; [exact H1|]. split; [exact H2|]. split; [exact H3|].
      rewrite H4, Hp. rewrite (combine_block x y). apply perm_blocks.
    - rewrite !skipn_length. lia.
    - unfold acc_ok. cbn [acc0 acc1 acc2 acc3]. rewrite !lanes3_len; lia.
    - unfold facc. cbn [acc0 acc1 acc2 acc3].
      do 4 eexists. split; [apply flanes3; [lia|lia|exact F0]|]. split; [apply flanes3; [lia|lia|exact F1]|].
      split; [apply flanes3; [lia|lia|exact F2]|]. split; [apply flanes3; [lia|lia|exact F3]|]. reflexivity.
  Qed.

  Lemma flanes_4 l r0 r1 r2 r3 : flanes l [r0; r1; r2; r3] ->
    fsum K elem l (a_add K (a_add K r0 r1) (a_add K r2 r3)).
  Proof.
    intros (ls & HF & Hp).
    inversion HF as [|l0 ? ls1 ? H0 HF1]; subst. inversion HF1 as [|l1 ? ls2 ? H1 HF2]; subst.
    inversion HF2 as [|l2 ? ls3 ? H2 HF3]; subst. inversion HF3 as [|l3 ? ls4 ? H3 HF4]; subst. inversion HF4; subst.
    eapply fs_perm; [|apply fs_add; [apply (fs_add K elem l0 l1)|apply (fs_add K elem l2 l3)]; eassumption].
    rewrite Hp. cbn. rewrite app_nil_r, <- !app_assoc. reflexivity.
  Qed.

  Lemma tail_fsum : forall x y l s, fsum K elem l s ->
    fsum K elem (combine x y ++ l) (loop2 (fun sum a b => elem a b sum) s x y).
  Proof.
    induction x as [|a x IH]; intros [|b y] l s Hs; cbn; auto.
    eapply fs_perm; [|apply IH; apply fs_elem; exact Hs].
    symmetry. apply Permutation_middle.
  Qed.

  Lemma kernel_fsum x y r : length x = length y -> kernel K elem x y = Some r -> fsum K elem (combine x y) r.
  Proof.
    intros He. unfold kernel.
    destruct (blocks elem (length x) x y _) as [[[xt yt] s]|] eqn:E; [|discriminate].
    assert (Hz : flanes [] (zeros8 K)).
    { exists (repeat [] 8). split; [|reflexivity]. unfold zeros8. cbn. repeat constructor. }
    eapply (blocks_fsum _ _ _ _ []) in E; [|exact He|repeat split|].
    2:{ exists [], [], [], []. cbn. auto. }
    destruct E as (l' & (O0 & O1 & O2 & O3) & (l0 & l1 & l2 & l3 & F0 & F1 & F2 & F3 & Hp) & Hl & HP).
    cbn in HP. pose proof (tail_fsum xt yt [] _ (fs_zero K elem)) as Ht. rewrite app_nil_r in Ht.
    change (loop2 (fun sum a b => elem a b sum) (a_zero K) xt yt) with (tail K elem xt yt) in Ht.
    unfold reduce.
    set (y0 := lanes2 (a_add K) (acc0 s) (acc1 s)). set (y2 := lanes2 (a_add K) (acc2 s) (acc3 s)).
    set (y1 := lanes2 (a_add K) y0 y2).
    assert (L0 : length y0 = 8) by (unfold y0; rewrite lanes2_len; lia).
    assert (L2 : length y2 = 8) by (unfold y2; rewrite lanes2_len; lia).
    assert (L1 : length y1 = 8) by (unfold y1; rewrite lanes2_len; lia).
    assert (G1 : flanes l' y1).
    { eapply flanes_perm; [symmetry; exact Hp|]. unfold y1, y0, y2.
      apply flanes2; [|apply flanes2; auto; lia|apply flanes2; auto; lia]. rewrite !lanes2_len; lia. }
    destruct (flanes_split 4 y1 l' G1) as (la & lb & Hab & Ga & Gb).
    set (x4 := lanes2 (a_add K) (firstn 4 y1) (skipn 4 y1)).
    assert (L4 : length x4 = 4) by (unfold x4; rewrite lanes2_len; rewrite firstn_length, ?skipn_length; lia).
    assert (G4 : flanes l' x4).
    { eapply flanes_perm; [symmetry; exact Hab|]. apply flanes2; auto. rewrite firstn_length, skipn_length; lia. }
    assert (Gt : flanes (combine xt yt) [tail K elem xt yt; a_zero K; a_zero K; a_zero K]).
    { exists [combine xt yt; []; []; []]. split; [repeat (constructor; auto using fs_zero)|]. cbn. now rewrite app_nil_r. }
    assert (G5 : flanes (combine x y) (lanes2 (a_add K) x4 [tail K elem xt yt; a_zero K; a_zero K; a_zero K])).
    { eapply flanes_perm; [exact HP|]. apply flanes2; auto. }
    revert G5. destruct (lanes2 (a_add K) x4 _) as [|r0 [|r1 [|r2 [|r3 [|]]]]]; try discriminate.
    intros G5 Hr. inversion Hr; subst. now apply flanes_4.
  Qed.
End FSum.
