(** How many roundings the distance computations take: [fsumk k c l r] is [fsum]
    with at most [k] operations on every path to the result and [c] operations in
    total (an [elem] counts as one on the path, and as two in total). *)
From Verif Require Import Base F32 PQ Graph Distancer DistancerProofs.

Inductive fsumk {A} (K : arith A) (elem : A -> A -> A -> A) : nat -> nat -> list (A * A) -> A -> Prop :=
| fk_zero : fsumk K elem 0 0 [] (a_zero K)
| fk_elem k c a b l r : fsumk K elem k c l r -> fsumk K elem (S k) (S (S c)) ((a, b) :: l) (elem a b r)
| fk_add k c l1 l2 r1 r2 : fsumk K elem k c l1 r1 -> fsumk K elem k c l2 r2 ->
    fsumk K elem (S k) (S (c + c)) (l1 ++ l2) (a_add K r1 r2)
| fk_weak k c k' c' l r : k <= k' -> c <= c' -> fsumk K elem k c l r -> fsumk K elem k' c' l r
| fk_perm k c l l' r : Permutation l l' -> fsumk K elem k c l r -> fsumk K elem k c l' r.

Section FSumK.
  Context {A : Type} (K : arith A).
  Variable elem : A -> A -> A -> A.
  Local Notation F := (fsumk K elem).
  Definition klanes (k c : nat) (l : list (A * A)) (z : list A) : Prop :=
    exists ls, Forall2 (F k c) ls z /\ Permutation l (concat ls).

  Lemma klanes_weak k c k' c' l z : k <= k' -> c <= c' -> klanes k c l z -> klanes k' c' l z.
  Proof.
    intros Hk Hc (ls & HF & Hp). exists ls. split; [|exact Hp].
    clear Hp. induction HF; constructor; auto. eapply fk_weak; eauto.
  Qed.

  Lemma klanes3 k c : forall x y z l, length x = length z -> length y = length z ->
    klanes k c l z -> klanes (S k) (S (S c)) (combine x y ++ l) (lanes3 elem x y z).
  Proof.
    intros x y z l Hx Hy (ls & HF & Hp). revert x y l Hx Hy Hp.
    induction HF as [|l0 r0 ls z H0 HF IH]; intros [|a x] [|b y] l Hx Hy Hp; cbn in *; try discriminate.
    - exists []. auto.
    - destruct (IH x y (concat ls)) as (ls' & HF' & Hp'); try lia; auto.
      exists (((a, b) :: l0) :: ls'). split; [constructor; [now constructor|exact HF']|].
      cbn. apply perm_skip. rewrite Hp, <- Hp'. rewrite !app_assoc. apply Permutation_app_tail, Permutation_app_comm.
  Qed.

  Lemma klanes2 k c : forall x y l1 l2, length x = length y ->
    klanes k c l1 x -> klanes k c l2 y -> klanes (S k) (S (c + c)) (l1 ++ l2) (lanes2 (a_add K) x y).
  Proof.
    intros x y l1 l2 Hl (ls1 & HF1 & Hp1) (ls2 & HF2 & Hp2). revert l1 l2 y ls2 Hl Hp1 HF2 Hp2.
    induction HF1 as [|l0 r0 ls1 x H0 HF1 IH]; intros l1 l2 y ls2 Hl Hp1 HF2 Hp2.
    - destruct HF2; cbn in *; try discriminate. exists []. split; [constructor|]. cbn. now rewrite Hp1, Hp2.
    - destruct HF2 as [|l0' r0' ls2 y H0' HF2]; cbn in *; try discriminate.
      destruct (IH (concat ls1) (concat ls2) y ls2) as (ls & HF & Hp); auto.
      exists ((l0 ++ l0') :: ls). split; [constructor; [now constructor|exact HF]|].
      cbn. rewrite Hp1, Hp2, <- Hp, <- !app_assoc. apply Permutation_app_head.
      rewrite !app_assoc. apply Permutation_app_tail, Permutation_app_comm.
  Qed.

  Lemma klanes_perm k c l l' z : Permutation l l' -> klanes k c l z -> klanes k c l' z.
  Proof. intros Hp (ls & HF & H). exists ls. split; [exact HF|]. now rewrite <- Hp. Qed.

  Lemma klanes_split k c n z l : klanes k c l z -> exists l1 l2, Permutation l (l1 ++ l2) /\
    klanes k c l1 (firstn n z) /\ klanes k c l2 (skipn n z).
  Proof.
    intros (ls & HF & Hp). exists (concat (firstn n ls)), (concat (skipn n ls)).
    rewrite <- concat_app, firstn_skipn. split; [exact Hp|].
    assert (H : Forall2 (F k c) (firstn n ls) (firstn n z) /\ Forall2 (F k c) (skipn n ls) (skipn n z)).
    { clear Hp. revert n. induction HF; intros [|n]; cbn; auto. destruct (IHHF n). auto. }
    destruct H. split; eexists; split; eauto.
  Qed.

  Definition kacc (k c : nat) (l : list (A * A)) (s : acc4) : Prop :=
    exists l0 l1 l2 l3, klanes k c l0 (acc0 s) /\ klanes k c l1 (acc1 s) /\ klanes k c l2 (acc2 s) /\
      klanes k c l3 (acc3 s) /\ Permutation l ((l0 ++ l1) ++ (l2 ++ l3)).

  (** [nb]: blocks of 32. *)
  Lemma blocks_fsumk fuel : forall x y s k l xt yt s', length x = length y -> acc_ok s -> kacc k (2 * k) l s ->
    blocks elem fuel x y s = Some (xt, yt, s') ->
    exists l' nb, acc_ok s' /\ kacc (k + nb) (2 * (k + nb)) l' s' /\ length xt = length yt /\
      length x = 32 * nb + length xt /\ length xt < 32 /\
      Permutation (l' ++ combine xt yt) (l ++ combine x y).
  Proof.
    induction fuel as [|f IH]; intros x y s k l xt yt s' He Hok Hs E; cbn [blocks] in E;
      destruct (Nat.ltb_spec (length x) 32) as [Hlt|Hge]; try discriminate.
    1,2: inversion E; subst; exists l, 0; rewrite Nat.add_0_r; auto 10.
    destruct Hok as (O0 & O1 & O2 & O3). destruct Hs as (l0 & l1 & l2 & l3 & F0 & F1 & F2 & F3 & Hp).
    assert (Hld : forall k, k + 8 <= 32 -> length (load8 k x) = 8 /\ length (load8 k y) = 8).
    { intros k' Hk. split; apply load8_len; lia. }
    destruct (Hld 0) as [X0 Y0]; [lia|]. destruct (Hld 8) as [X1 Y1]; [lia|].
    destruct (Hld 16) as [X2 Y2]; [lia|]. destruct (Hld 24) as [X3 Y3]; [lia|].
    eapply (IH _ _ _ (S k) (((combine (load8 0 x) (load8 0 y) ++ l0) ++ (combine (load8 8 x) (load8 8 y) ++ l1)) ++
                      ((combine (load8 16 x) (load8 16 y) ++ l2) ++ (combine (load8 24 x) (load8 24 y) ++ l3)))) in E.
    - destruct E as (l' & nb & H1 & H2 & H3 & H4 & H5 & H6). exists l', (S nb). rewrite Nat.add_succ_r.
      split; [exact H1|]. split; [exact H2|]. split; [exact H3|]. rewrite skipn_length in H4. split; [lia|]. split; [exact H5|].
      rewrite H6, Hp. rewrite (combine_block x y). apply perm_blocks.
    - rewrite !skipn_length. lia.
    - unfold acc_ok. cbn [acc0 acc1 acc2 acc3]. rewrite !lanes3_len; try exact elem; lia.
    - unfold kacc. cbn [acc0 acc1 acc2 acc3].
      replace (2 * S k) with (S (S (2 * k))) by lia.
      do 4 eexists. split; [apply klanes3; [lia|lia|exact F0]|]. split; [apply klanes3; [lia|lia|exact F1]|].
      split; [apply klanes3; [lia|lia|exact F2]|]. split; [apply klanes3; [lia|lia|exact F3]|]. reflexivity.
  Qed.

  Lemma klanes_4 k c l r0 r1 r2 r3 : klanes k c l [r0; r1; r2; r3] ->
    F (S (S k)) (S (S (c + c) + S (c + c))) l (a_add K (a_add K r0 r1) (a_add K r2 r3)).
  Proof.
    intros (ls & HF & Hp).
    inversion HF as [|l0 ? ls1 ? H0 HF1]; subst. inversion HF1 as [|l1 ? ls2 ? H1 HF2]; subst.
    inversion HF2 as [|l2 ? ls3 ? H2 HF3]; subst. inversion HF3 as [|l3 ? ls4 ? H3 HF4]; subst. inversion HF4; subst.
    eapply fk_perm; [|apply fk_add; [apply (fk_add K elem k c l0 l1)|apply (fk_add K elem k c l2 l3)]; eassumption].
    rewrite Hp. cbn. rewrite app_nil_r, <- !app_assoc. reflexivity.
  Qed.

  Lemma loop_fsumk : forall x y k l s, F k (2 * k) l s -> length x = length y ->
    F (k + length x) (2 * (k + length x)) (combine x y ++ l) (loop2 (fun sum a b => elem a b sum) s x y).
  Proof.
    induction x as [|a x IH]; intros [|b y] k l s Hs Hl; cbn [length loop2 combine app] in *; try discriminate;
      [now rewrite Nat.add_0_r|].
    rewrite Nat.add_succ_r. eapply fk_perm; [|apply (IH y (S k) ((a, b) :: l)); [|lia]].
    - symmetry. apply Permutation_middle.
    - replace (2 * S k) with (S (S (2 * k))) by lia. now apply fk_elem.
  Qed.

  Lemma kernel_fsumk x y r : length x = length y -> kernel K elem x y = Some r ->
    F (length x + 6) (4 * length x + 600) (combine x y) r.
  Proof.
    intros He. unfold kernel.
    destruct (blocks elem (length x) x y _) as [[[xt yt] s]|] eqn:E; [|discriminate].
    assert (Hz : klanes 0 0 [] (zeros8 K)).
    { exists (repeat [] 8). split; [|reflexivity]. unfold zeros8. cbn. repeat (constructor; [apply fk_zero|]). constructor. }
    eapply (blocks_fsumk _ _ _ _ 0 []) in E; [|exact He|repeat split|].
    2:{ exists [], [], [], []. cbn. auto. }
    destruct E as (l' & nb & (O0 & O1 & O2 & O3) & (l0 & l1 & l2 & l3 & F0 & F1 & F2 & F3 & Hp) & Hl & Hn & Ht32 & HP).
    cbn [Nat.add] in *. cbn [app] in HP.
    pose proof (loop_fsumk xt yt 0 [] _ (fk_zero K elem) Hl) as Ht. rewrite app_nil_r in Ht. cbn [Nat.add] in Ht.
    change (loop2 (fun sum a b => elem a b sum) (a_zero K) xt yt) with (tail K elem xt yt) in Ht.
    unfold reduce.
    set (y0 := lanes2 (a_add K) (acc0 s) (acc1 s)). set (y2 := lanes2 (a_add K) (acc2 s) (acc3 s)).
    set (y1 := lanes2 (a_add K) y0 y2).
    assert (L0 : length y0 = 8) by (unfold y0; rewrite lanes2_len; lia).
    assert (L2 : length y2 = 8) by (unfold y2; rewrite lanes2_len; lia).
    assert (L1 : length y1 = 8) by (unfold y1; rewrite lanes2_len; lia).
    assert (G1 : klanes (nb + 2) (8 * nb + 3) l' y1).
    { eapply klanes_perm; [symmetry; exact Hp|]. unfold y1, y0, y2.
      eapply klanes_weak; [..|apply klanes2; [|apply klanes2; [|exact F0|exact F1]|apply klanes2; [|exact F2|exact F3]]]; lia || (rewrite !lanes2_len; lia). }
    destruct (klanes_split _ _ 4 y1 l' G1) as (la & lb & Hab & Ga & Gb).
    set (x4 := lanes2 (a_add K) (firstn 4 y1) (skipn 4 y1)).
    assert (L4 : length x4 = 4) by (unfold x4; rewrite lanes2_len; rewrite firstn_length, ?skipn_length; lia).
    assert (G4 : klanes (length x + 3) (16 * nb + 62) l' x4).
    { eapply klanes_perm; [symmetry; exact Hab|]. eapply klanes_weak; [..|apply klanes2; [|exact Ga|exact Gb]]; [lia|lia|].
      rewrite firstn_length, skipn_length; lia. }
    assert (Gt : klanes (length x + 3) (16 * nb + 62) (combine xt yt) [tail K elem xt yt; a_zero K; a_zero K; a_zero K]).
    { exists [combine xt yt; []; []; []]. split; [|cbn; now rewrite app_nil_r].
      constructor; [eapply fk_weak; [..|exact Ht]; lia|].
      repeat (constructor; [eapply fk_weak; [..|apply fk_zero]; lia|]). constructor. }
    assert (G5 : klanes (S (length x + 3)) (S ((16 * nb + 62) + (16 * nb + 62))) (combine x y)
      (lanes2 (a_add K) x4 [tail K elem xt yt; a_zero K; a_zero K; a_zero K])).
    { eapply klanes_perm; [exact HP|]. apply klanes2; auto. }
    revert G5. destruct (lanes2 (a_add K) x4 _) as [|r0 [|r1 [|r2 [|r3 [|]]]]]; try discriminate.
    intros G5 Hr. inversion Hr; subst. eapply fk_weak; [..|apply klanes_4; exact G5]; lia.
  Qed.
End FSumK.
