(** Correctness of the array heap: multiset preservation, heap order, and
    therefore extremal pops and sorted draining. *)
From Verif Require Import Base F32 PQ.
From Coq Require Import FinFun Sorted.

From Coq Require Import ZifyNat.
Ltac Zify.zify_post_hook ::= Z.to_euclidean_division_equations.
Ltac zdiv := lia.

Local Arguments pq_parent : simpl never.
Local Arguments pq_left : simpl never.
Local Arguments pq_right : simpl never.
Local Arguments pq_smallest : simpl never.
Local Arguments pq_less : simpl never.

Section Generic.
  Context {A : Type}.
  Variable less : A -> A -> bool.

  Notation pq_less := (pq_less less).
  Notation pq_smallest := (pq_smallest less).
  Notation heapify := (heapify less).
  Notation heapify_f := (heapify_f less).
  Notation siftup := (siftup less).
  Notation siftup_f := (siftup_f less).
  Notation pq_insert := (pq_insert less).
  Notation pq_pop := (pq_pop less).
  Notation pq_drain := (pq_drain less).
  Notation drain_f := (drain_f less).

  (* ---------------- swap ---------------- *)
  Lemma swap_length l i j : length (@pq_swap A l i j) = length l.
  Proof.
    unfold pq_swap. destruct (nth_error l i), (nth_error l j); auto.
    now rewrite !upd_length.
  Qed.

  Lemma nth_error_Some_lt (l : list A) i a : nth_error l i = Some a -> i < length l.
  Proof. intros H. apply nth_error_Some. congruence. Qed.

  Lemma swap_nth l i j k :
    i < length l -> j < length l ->
    nth_error (@pq_swap A l i j) k =
      if Nat.eqb k i then nth_error l j else if Nat.eqb k j then nth_error l i else nth_error l k.
  Proof.
    intros Hi Hj. unfold pq_swap.
    destruct (nth_error l i) as [a|] eqn:Ei; [|apply nth_error_None in Ei; lia].
    destruct (nth_error l j) as [b|] eqn:Ej; [|apply nth_error_None in Ej; lia].
    rewrite !nth_error_upd, !upd_length.
    destruct (Nat.ltb_spec j (length l)); [|lia].
    destruct (Nat.ltb_spec i (length l)); [|lia].
    rewrite (Nat.eqb_sym k i), (Nat.eqb_sym k j).
    destruct (Nat.eqb_spec j k), (Nat.eqb_spec i k); subst; congruence.
  Qed.

  Lemma swap_perm l i j : i < length l -> j < length l -> Permutation l (@pq_swap A l i j).
  Proof.
    intros Hi Hj. apply Permutation_nth_error. split.
    - symmetry; apply swap_length.
    - exists (fun k => if Nat.eqb k i then j else if Nat.eqb k j then i else k). split.
      + intros x y. destruct (Nat.eqb_spec x i), (Nat.eqb_spec x j), (Nat.eqb_spec y i), (Nat.eqb_spec y j);
          subst; intros; congruence || lia.
      + intros k. rewrite swap_nth by assumption.
        destruct (Nat.eqb k i); [reflexivity|]. now destruct (Nat.eqb k j).
  Qed.

  (* ---------------- index facts ---------------- *)
  Lemma parent_left i : pq_parent (pq_left i) = i.
  Proof. unfold pq_parent, pq_left. zdiv. Qed.
  Lemma parent_right i : pq_parent (pq_right i) = i.
  Proof. unfold pq_parent, pq_right. zdiv. Qed.
  Lemma parent_lt i : i <> 0 -> pq_parent i < i.
  Proof. unfold pq_parent. intros. zdiv. Qed.
  Lemma parent_child c i : c <> 0 -> pq_parent c = i -> c = pq_left i \/ c = pq_right i.
  Proof. unfold pq_parent, pq_left, pq_right. intros. zdiv. Qed.
  Lemma left_gt i : i < pq_left i. Proof. unfold pq_left; lia. Qed.
  Lemma right_gt i : i < pq_right i. Proof. unfold pq_right; lia. Qed.
  Lemma left_ne_right i : pq_left i <> pq_right i. Proof. unfold pq_left, pq_right; lia. Qed.

  Lemma smallest_cases l i :
    i < length l ->
    pq_smallest l i < length l /\
    (pq_smallest l i = i \/ pq_smallest l i = pq_left i \/ pq_smallest l i = pq_right i).
  Proof.
    intros Hi. unfold PQ.pq_smallest.
    set (s1 := if Nat.ltb (pq_left i) (length l) && pq_less l (pq_left i) i then pq_left i else i).
    assert (H1 : s1 < length l /\ (s1 = i \/ s1 = pq_left i)).
    { unfold s1. destruct (Nat.ltb_spec (pq_left i) (length l)); cbn [andb]; [|auto].
      destruct (pq_less l (pq_left i) i); auto. }
    destruct (Nat.ltb_spec (pq_right i) (length l)); cbn [andb]; [|tauto].
    destruct (pq_less l (pq_right i) s1); tauto.
  Qed.

  Lemma smallest_gt l i : i < length l -> pq_smallest l i <> i -> i < pq_smallest l i.
  Proof.
    intros Hi Hne. destruct (smallest_cases l i Hi) as [_ [H|[H|H]]]; rewrite H in *.
    { lia. } { apply left_gt. } { apply right_gt. }
  Qed.

  (* ---------------- fuel independence: Go's recursive equations ------------- *)
  Lemma heapify_f_enough f1 : forall f2 l i,
    i < length l -> length l - i <= f1 -> length l - i <= f2 -> heapify_f f1 l i = heapify_f f2 l i.
  Proof.
    induction f1 as [|f1 IH]; intros f2 l i Hi H1 H2; [lia|].
    destruct f2 as [|f2]; [lia|]. cbn.
    destruct (Nat.eqb_spec (pq_smallest l i) i) as [E|E]; [reflexivity|].
    pose proof (smallest_gt l i Hi E). destruct (smallest_cases l i Hi) as [Hs _].
    apply IH; rewrite swap_length; lia.
  Qed.

  (** The equation of queue.go:58-74. *)
  Lemma heapify_unfold l i :
    i < length l ->
    heapify l i = let s := pq_smallest l i in
                  if Nat.eqb s i then l else heapify (pq_swap l i s) s.
  Proof.
    intros Hi. unfold PQ.heapify at 1. destruct (length l) as [|n] eqn:El; [lia|].
    cbn. destruct (Nat.eqb_spec (pq_smallest l i) i) as [E|E]; [reflexivity|].
    destruct (smallest_cases l i ltac:(lia)) as [Hs _].
    pose proof (smallest_gt l i ltac:(lia) E).
    unfold PQ.heapify. apply heapify_f_enough; rewrite swap_length; lia.
  Qed.

  Lemma siftup_f_enough f1 : forall f2 l i,
    i < f1 -> i < f2 -> siftup_f f1 l i = siftup_f f2 l i.
  Proof.
    induction f1 as [|f1 IH]; intros f2 l i H1 H2; [lia|].
    destruct f2 as [|f2]; [lia|]. cbn.
    destruct (Nat.eqb_spec i 0) as [E|E]; cbn; [reflexivity|].
    pose proof (parent_lt i E).
    destruct (pq_less l i (pq_parent i)); [|reflexivity].
    apply IH; lia.
  Qed.

  (** The equation of queue.go:79-82. *)
  Lemma siftup_unfold l i :
    i < length l ->
    siftup l i = if negb (Nat.eqb i 0) && pq_less l i (pq_parent i)
                 then siftup (pq_swap l i (pq_parent i)) (pq_parent i) else l.
  Proof.
    intros Hi. unfold PQ.siftup at 1. destruct (length l) as [|n] eqn:El; [lia|].
    cbn. destruct (Nat.eqb_spec i 0) as [E|E]; cbn; [reflexivity|].
    destruct (pq_less l i (pq_parent i)); [|reflexivity].
    pose proof (parent_lt i E). unfold PQ.siftup. rewrite swap_length.
    apply siftup_f_enough; lia.
  Qed.

  (* ---------------- permutation ---------------- *)
  Lemma heapify_f_perm f : forall l i, i < length l -> Permutation l (heapify_f f l i).
  Proof.
    induction f as [|f IH]; intros l i Hi; cbn; [reflexivity|].
    destruct (Nat.eqb (pq_smallest l i) i); [reflexivity|].
    destruct (smallest_cases l i Hi) as [Hs _].
    etransitivity; [apply (swap_perm l i (pq_smallest l i)); auto|].
    apply IH. now rewrite swap_length.
  Qed.

  Lemma heapify_perm l i : Permutation l (heapify l i).
  Proof.
    unfold PQ.heapify. destruct (Nat.lt_ge_cases i (length l)) as [H|H].
    - now apply heapify_f_perm.
    - assert (Hn : forall f, heapify_f f l i = l).
      { destruct f; cbn; [reflexivity|]. unfold PQ.pq_smallest.
        destruct (Nat.ltb_spec (pq_left i) (length l)); [pose proof (left_gt i); lia|].
        destruct (Nat.ltb_spec (pq_right i) (length l)); [pose proof (right_gt i); lia|].
        cbn. now rewrite Nat.eqb_refl. }
      now rewrite Hn.
  Qed.

  Lemma siftup_f_perm f : forall l i, i < length l -> Permutation l (siftup_f f l i).
  Proof.
    induction f as [|f IH]; intros l i Hi; cbn; [reflexivity|].
    destruct (Nat.eqb_spec i 0) as [E|E]; cbn; [reflexivity|].
    destruct (pq_less l i (pq_parent i)); [|reflexivity].
    pose proof (parent_lt i E).
    etransitivity; [apply (swap_perm l i (pq_parent i)); lia|].
    apply IH. rewrite swap_length; lia.
  Qed.

  Lemma insert_perm x l : Permutation (x :: l) (pq_insert x l).
  Proof.
    unfold PQ.pq_insert, PQ.siftup.
    etransitivity; [apply Permutation_cons_append|].
    apply siftup_f_perm. rewrite app_length; cbn; lia.
  Qed.

  Lemma insert_length x l : length (pq_insert x l) = S (length l).
  Proof. now rewrite <- (Permutation_length (insert_perm x l)). Qed.

  Lemma insert_In x y l : In y (pq_insert x l) <-> y = x \/ In y l.
  Proof.
    split; intros H.
    - apply Permutation_in with (2 := H) || apply (Permutation_in y (Permutation_sym (insert_perm x l))) in H.
      destruct H; auto.
    - apply (Permutation_in y (insert_perm x l)). destruct H; [left|right]; auto.
  Qed.

  Lemma removelast_last_perm (x : A) l : l <> [] -> Permutation l (last l x :: removelast l).
  Proof.
    intros H. rewrite (app_removelast_last x H) at 1. symmetry. apply Permutation_cons_append.
  Qed.

  (** The list [heapify] is called on by [Pop] (queue.go:87-88). *)
  Lemma pop_body (h : A) t : removelast (upd (h :: t) 0 (last (h :: t) h)) =
    match t with [] => [] | _ => last t h :: removelast t end.
  Proof. destruct t; reflexivity. Qed.

  Lemma pop_perm l x l' : pq_pop l = Some (x, l') -> Permutation l (x :: l').
  Proof.
    destruct l as [|h t]; cbn [PQ.pq_pop]; [discriminate|].
    rewrite pop_body. intros H; inversion H; subst; clear H.
    apply perm_skip. rewrite <- heapify_perm. destruct t as [|y t]; [reflexivity|].
    apply removelast_last_perm. discriminate.
  Qed.

  Lemma pop_length l x l' : pq_pop l = Some (x, l') -> length l = S (length l').
  Proof. intros H. now rewrite (Permutation_length (pop_perm _ _ _ H)). Qed.

  Lemma pop_None l : pq_pop l = None <-> l = [].
  Proof. destruct l; cbn; split; congruence. Qed.

  Lemma pop_top l x l' : pq_pop l = Some (x, l') -> pq_top l = Some x.
  Proof. destruct l; cbn; congruence. Qed.

  Lemma top_In (l : list A) x : pq_top l = Some x -> In x l.
  Proof. destruct l; cbn; [discriminate|]. intros H; inversion H; now left. Qed.

  Lemma drain_f_perm f : forall l, length l <= f -> Permutation l (drain_f f l).
  Proof.
    induction f as [|f IH]; intros l H; cbn.
    - destruct l; [constructor|cbn in H; lia].
    - destruct (pq_pop l) as [[x l']|] eqn:E.
      + pose proof (pop_length _ _ _ E). rewrite (pop_perm _ _ _ E). apply perm_skip, IH. lia.
      + apply pop_None in E. subst. constructor.
  Qed.

  Lemma drain_perm l : Permutation l (pq_drain l).
  Proof. now apply drain_f_perm. Qed.

  (* ---------------- heap order ---------------- *)
  (** [less] is a strict weak order on the items satisfying [P]. *)
  Variable P : A -> Prop.
  Hypothesis less_asym : forall a b, P a -> P b -> less a b = true -> less b a = false.
  Hypothesis nless_trans : forall a b c, P a -> P b -> P c ->
    less b a = false -> less c b = false -> less c a = false.

  (** Item [c] is not smaller than its parent. *)
  Definition ok_at (l : list A) (c : nat) : Prop :=
    forall a b, nth_error l c = Some a -> nth_error l (pq_parent c) = Some b -> less a b = false.

  Definition heap (l : list A) : Prop := forall c, c <> 0 -> ok_at l c.

  Definition allP (l : list A) : Prop := forall a, In a l -> P a.

  Lemma allP_nth l i a : allP l -> nth_error l i = Some a -> P a.
  Proof. intros H E. apply H. eapply nth_error_In; eauto. Qed.

  Lemma allP_perm l l' : Permutation l l' -> allP l -> allP l'.
  Proof. intros Hp H a Ha. apply H. eapply Permutation_in; [symmetry; eauto|auto]. Qed.

  Lemma less_refl a : P a -> less a a = false.
  Proof. intros Ha. destruct (less a a) eqn:E; [|reflexivity]. rewrite <- E. now apply less_asym. Qed.

  (** The root of a heap is not larger than any item. *)
  Lemma heap_root_min l r : heap l -> allP l -> nth_error l 0 = Some r ->
    forall i a, nth_error l i = Some a -> less a r = false.
  Proof.
    intros Hh HP Hr i. induction i as [i IH] using lt_wf_ind. intros a Ha.
    destruct (Nat.eq_dec i 0) as [->|Hi].
    - replace a with r by congruence. apply less_refl. eapply allP_nth; eauto.
    - pose proof (parent_lt i Hi) as Hp. pose proof (nth_error_Some_lt _ _ _ Ha) as Hl.
      destruct (nth_error l (pq_parent i)) as [b|] eqn:Eb; [|apply nth_error_None in Eb; lia].
      specialize (IH _ Hp _ Eb). pose proof (Hh i Hi a b Ha Eb).
      apply (nless_trans r b a); auto; eapply allP_nth; eauto.
  Qed.

  (** Sift-up: heap order everywhere except possibly between [i] and its
      parent, and [i]'s children are not smaller than [i]'s parent. *)
  Definition up_inv (l : list A) (i : nat) : Prop :=
    (forall c, c <> 0 -> c <> i -> ok_at l c) /\
    (forall c a b, c <> 0 -> i <> 0 -> pq_parent c = i ->
        nth_error l c = Some a -> nth_error l (pq_parent i) = Some b -> less a b = false).

  Lemma siftup_f_heap f : forall l i,
    i < f -> i < length l -> allP l -> up_inv l i -> heap (siftup_f f l i).
  Proof.
    induction f as [|f IH]; intros l i Hf Hi HP [H1 H2]; [lia|]. cbn.
    destruct (Nat.eqb_spec i 0) as [->|Hne]; cbn.
    { intros c Hc. now apply H1. }
    pose proof (parent_lt i Hne) as Hp.
    destruct (nth_error l i) as [x|] eqn:Ex; [|apply nth_error_None in Ex; lia].
    destruct (nth_error l (pq_parent i)) as [p|] eqn:Epar; [|apply nth_error_None in Epar; lia].
    unfold PQ.pq_less at 1. rewrite Ex, Epar.
    assert (Px : P x) by (eapply allP_nth; eauto).
    assert (Pp : P p) by (eapply allP_nth; eauto).
    destruct (less x p) eqn:El.
    2:{ intros c Hc. destruct (Nat.eq_dec c i) as [->|Hci]; [|now apply H1].
        intros a b Ha Hb. congruence. }
    apply IH.
    - lia.
    - rewrite swap_length; lia.
    - eapply allP_perm; [apply swap_perm; lia|assumption].
    - split.
      + intros c Hc Hcp a b Ha Hb.
        rewrite swap_nth in Ha, Hb by lia.
        destruct (Nat.eqb_spec c i) as [->|Hci].
        * (* c = i : item is old parent p, its parent position holds x *)
          rewrite Nat.eqb_refl in Hb.
          destruct (Nat.eqb_spec (pq_parent i) i); [lia|].
          assert (a = p) by congruence. assert (b = x) by congruence. subst.
          now apply less_asym.
        * destruct (Nat.eqb_spec c (pq_parent i)) as [?|Hcp']; [contradiction|].
          assert (Pa : P a) by (eapply allP_nth; eauto).
          destruct (Nat.eqb_spec (pq_parent c) i) as [Epc|Hpc].
          { (* child of i : new parent is p *)
            assert (b = p) by congruence. subst b.
            apply (H2 c a p); auto. }
          destruct (Nat.eqb_spec (pq_parent c) (pq_parent i)) as [Eq|Hq].
          { (* sibling of i : its parent position now holds x *)
            assert (b = x) by congruence. subst b.
            assert (less a p = false) by (apply (H1 c Hc Hci a p); [assumption|congruence]).
            apply (nless_trans x p a); auto. }
          apply (H1 c Hc Hci a b); assumption.
      + intros c a b Hc Hpi Hpc Ha Hb.
        pose proof (parent_lt _ Hpi) as Hpp.
        rewrite swap_nth in Ha, Hb by lia.
        destruct (Nat.eqb_spec (pq_parent (pq_parent i)) i); [lia|].
        destruct (Nat.eqb_spec (pq_parent (pq_parent i)) (pq_parent i)); [lia|].
        assert (Pb : P b) by (eapply allP_nth; eauto).
        assert (Hpb : less p b = false).
        { apply (H1 (pq_parent i)); auto. }
        destruct (Nat.eqb_spec c i) as [->|Hci].
        * assert (a = p) by congruence. now subst.
        * destruct (Nat.eqb_spec c (pq_parent i)) as [->|?].
          { pose proof (parent_lt (pq_parent i) Hpi). lia. }
          assert (Pa : P a) by (eapply allP_nth; eauto).
          assert (less a p = false) by (apply (H1 c Hc Hci a p); [assumption|congruence]).
          apply (nless_trans b p a); auto.
  Qed.

  Lemma insert_heap x l : heap l -> allP l -> P x -> heap (pq_insert x l).
  Proof.
    intros Hh HP Px. unfold PQ.pq_insert, PQ.siftup.
    apply siftup_f_heap.
    - rewrite app_length; cbn; lia.
    - rewrite app_length; cbn; lia.
    - intros a Ha. apply in_app_or in Ha. destruct Ha as [Ha|[<-|[]]]; auto.
    - split.
      + intros c Hc Hcl a b Ha Hb. pose proof (parent_lt c Hc).
        pose proof (nth_error_Some_lt _ _ _ Ha) as Hlt. rewrite app_length in Hlt; cbn in Hlt.
        rewrite nth_error_app1 in Ha, Hb by lia. apply (Hh c Hc a b); auto.
      + intros c a b Hc Hl Hpc Ha Hb. pose proof (parent_lt c Hc).
        pose proof (nth_error_Some_lt _ _ _ Ha) as Hlt. rewrite app_length in Hlt; cbn in Hlt. lia.
  Qed.

  (** Sift-down: heap order everywhere except below [i]. *)
  Definition down_inv (l : list A) (i : nat) : Prop :=
    (forall c, c <> 0 -> pq_parent c <> i -> ok_at l c) /\
    (forall c a b, c <> 0 -> i <> 0 -> pq_parent c = i ->
        nth_error l c = Some a -> nth_error l (pq_parent i) = Some b -> less a b = false).

  Lemma smallest_spec l i x s y :
    i < length l -> allP l -> nth_error l i = Some x ->
    s = pq_smallest l i -> nth_error l s = Some y ->
    (s <> i -> less y x = true \/ less x y = false) /\
    (forall c a, c <> 0 -> pq_parent c = i -> nth_error l c = Some a -> less a y = false) /\
    (s <> i -> less x y = false).
  Proof.
    intros Hi HP Hx -> Hy.
    assert (Hxx : P x) by (eapply allP_nth; eauto).
    revert Hy. unfold PQ.pq_smallest, PQ.pq_less.
    rewrite Hx.
    destruct (Nat.ltb_spec (pq_left i) (length l)) as [Hl|Hl];
      [destruct (nth_error l (pq_left i)) as [lx|] eqn:El; [|apply nth_error_None in El; lia]|];
      destruct (Nat.ltb_spec (pq_right i) (length l)) as [Hr|Hr];
      try (destruct (nth_error l (pq_right i)) as [rx|] eqn:Er; [|apply nth_error_None in Er; lia]);
      cbn [andb].
    - assert (Plx : P lx) by (eapply allP_nth; eauto).
      assert (Prx : P rx) by (eapply allP_nth; eauto).
      destruct (less lx x) eqn:E1; cbn [andb]; rewrite ?El, ?Hx.
      + destruct (less rx lx) eqn:E2; cbn [andb]; intros Hy.
        * assert (y = rx) by congruence; subst y. repeat split.
          -- intros _. right. apply (nless_trans rx lx x); auto.
          -- intros c a Hc Hpc Ha. destruct (parent_child c i Hc Hpc) as [->| ->].
             ++ assert (a = lx) by congruence; subst. now apply less_asym.
             ++ assert (a = rx) by congruence; subst. now apply less_refl.
          -- intros _. apply (nless_trans rx lx x); auto.
        * assert (y = lx) by congruence; subst y. repeat split.
          -- intros _. left. assumption.
          -- intros c a Hc Hpc Ha. destruct (parent_child c i Hc Hpc) as [->| ->].
             ++ assert (a = lx) by congruence; subst. now apply less_refl.
             ++ assert (a = rx) by congruence; subst. assumption.
          -- intros _. now apply less_asym.
      + destruct (less rx x) eqn:E2; cbn [andb]; intros Hy.
        * assert (y = rx) by congruence; subst y. repeat split.
          -- intros _. left. assumption.
          -- intros c a Hc Hpc Ha. destruct (parent_child c i Hc Hpc) as [->| ->].
             ++ assert (a = lx) by congruence; subst. apply (nless_trans rx x lx); auto.
             ++ assert (a = rx) by congruence; subst. now apply less_refl.
          -- intros _. now apply less_asym.
        * assert (y = x) by congruence; subst y. repeat split.
          -- congruence.
          -- intros c a Hc Hpc Ha. destruct (parent_child c i Hc Hpc) as [->| ->]; congruence.
          -- congruence.
    - assert (Plx : P lx) by (eapply allP_nth; eauto).
      destruct (less lx x) eqn:E1; cbn [andb]; intros Hy.
      + assert (y = lx) by congruence; subst y. repeat split.
        * intros _. now left.
        * intros c a Hc Hpc Ha. destruct (parent_child c i Hc Hpc) as [->| ->].
          -- assert (a = lx) by congruence; subst. now apply less_refl.
          -- apply nth_error_Some_lt in Ha. lia.
        * intros _. now apply less_asym.
      + assert (y = x) by congruence; subst y. repeat split; try congruence.
        intros c a Hc Hpc Ha. destruct (parent_child c i Hc Hpc) as [->| ->].
        * congruence.
        * apply nth_error_Some_lt in Ha. lia.
    - (* no left but right: impossible *)
      unfold pq_left, pq_right in *. lia.
    - intros Hy. assert (y = x) by congruence; subst y. repeat split; try congruence.
      intros c a Hc Hpc Ha. apply nth_error_Some_lt in Ha.
      destruct (parent_child c i Hc Hpc) as [->| ->]; lia.
  Qed.

  Lemma heapify_f_heap f : forall l i,
    i < length l -> length l - i <= f -> allP l -> down_inv l i -> heap (heapify_f f l i).
  Proof.
    induction f as [|f IH]; intros l i Hi Hf HP [H1 H2]; [lia|]. cbn.
    destruct (nth_error l i) as [x|] eqn:Ex; [|apply nth_error_None in Ex; lia].
    destruct (smallest_cases l i Hi) as [Hs Hcase].
    remember (pq_smallest l i) as s eqn:Es.
    destruct (nth_error l s) as [y|] eqn:Ey; [|apply nth_error_None in Ey; lia].
    destruct (smallest_spec l i x s y Hi HP Ex Es Ey) as (_ & Hmin & Hxy).
    destruct (Nat.eqb_spec s i) as [E|E].
    { subst s. rewrite E in Ey. assert (y = x) by congruence; subst y.
      intros c Hc a b Ha Hb. destruct (Nat.eq_dec (pq_parent c) i) as [Hpc|Hpc].
      - rewrite Hpc in Hb. assert (b = x) by congruence; subst b. eapply Hmin; eauto.
      - apply (H1 c Hc Hpc a b); auto. }
    assert (Hsi : i < s) by (rewrite Es; apply smallest_gt; congruence).
    assert (Hps : pq_parent s = i).
    { destruct Hcase as [?|[->| ->]]; [congruence|apply parent_left|apply parent_right]. }
    specialize (Hxy E).
    assert (Px : P x) by (eapply allP_nth; eauto).
    assert (Py : P y) by (eapply allP_nth; eauto).
    apply IH.
    - now rewrite swap_length.
    - rewrite swap_length; lia.
    - eapply allP_perm; [apply swap_perm; lia|assumption].
    - split.
      + intros c Hc Hcs a b Ha Hb.
        rewrite swap_nth in Ha, Hb by lia.
        destruct (Nat.eqb_spec (pq_parent c) s) as [?|Hps']; [contradiction|].
        destruct (Nat.eqb_spec c i) as [->|Hci].
        * (* c = i: holds y; parent unchanged *)
          pose proof (parent_lt i Hc).
          destruct (Nat.eqb_spec (pq_parent i) i); [lia|].
          assert (a = y) by congruence; subst a.
          apply (H2 s y b); auto. lia.
        * destruct (Nat.eqb_spec c s) as [->|Hcs'].
          { rewrite Hps, Nat.eqb_refl in Hb.
            assert (a = x) by congruence. assert (b = y) by congruence. subst. assumption. }
          destruct (Nat.eqb_spec (pq_parent c) i) as [Epc|Hpc].
          { assert (b = y) by congruence; subst b. eapply Hmin; eauto. }
          apply (H1 c Hc Hpc a b); auto.
      + intros c a b Hc _ Hpc Ha Hb.
        rewrite Hps in Hb.
        pose proof (parent_lt c Hc).
        rewrite swap_nth in Ha, Hb by lia.
        rewrite Nat.eqb_refl in Hb. assert (b = y) by congruence; subst b.
        destruct (Nat.eqb_spec c i); [lia|]. destruct (Nat.eqb_spec c s); [lia|].
        apply (H1 c Hc ltac:(lia) a y); auto. now rewrite Hpc.
  Qed.

  Lemma nth_error_removelast (l : list A) i :
    nth_error (removelast l) i = if Nat.ltb i (length l - 1) then nth_error l i else None.
  Proof.
    destruct l as [|h t]; [destruct i; reflexivity|].
    assert (Hne : h :: t <> []) by discriminate.
    pose proof (app_removelast_last h Hne) as Hal.
    assert (Hlen : length (removelast (h :: t)) = length (h :: t) - 1).
    { rewrite Hal at 2. rewrite app_length. cbn [length]. lia. }
    destruct (Nat.ltb_spec i (length (h :: t) - 1)) as [Hlt|Hge].
    - rewrite Hal at 2. rewrite nth_error_app1 by lia. reflexivity.
    - apply nth_error_None. lia.
  Qed.

  Lemma pop_heap l x l' : heap l -> allP l -> pq_pop l = Some (x, l') -> heap l'.
  Proof.
    destruct l as [|h t]; cbn [PQ.pq_pop]; [discriminate|].
    intros Hh HP H. rewrite pop_body in H. inversion H; subst; clear H.
    destruct t as [|y t]; [intros c Hc a b Ha; destruct c; discriminate|].
    unfold PQ.heapify. set (b0 := last (y :: t) x :: removelast (y :: t)).
    assert (Hb0 : forall i, i <> 0 -> forall a, nth_error b0 i = Some a -> nth_error (x :: y :: t) i = Some a).
    { intros i Hi a. destruct i as [|i]; [congruence|]. unfold b0. cbn [nth_error].
      rewrite nth_error_removelast. destruct (Nat.ltb i (length (y :: t) - 1)); [auto|discriminate]. }
    assert (Hsub : allP b0).
    { intros a Ha. apply HP. destruct Ha as [<-|Ha].
      - right. rewrite (app_removelast_last x (l := y :: t)) by discriminate.
        apply in_or_app; right. rewrite <- app_removelast_last by discriminate. now left.
      - right. rewrite (app_removelast_last x (l := y :: t)) by discriminate. apply in_or_app; now left. }
    apply heapify_f_heap.
    - cbn; lia.
    - lia.
    - assumption.
    - split.
      + intros c Hc Hpc a b Ha Hb. apply Hb0 in Ha; [|assumption]. apply Hb0 in Hb; [|assumption].
        apply (Hh c Hc a b); auto.
      + intros; lia.
  Qed.

  Lemma pop_min l x l' : heap l -> allP l -> pq_pop l = Some (x, l') ->
    forall a, In a l -> less a x = false.
  Proof.
    intros Hh HP E a Ha. apply In_nth_error in Ha. destruct Ha as [i Hi].
    apply (heap_root_min l x Hh HP) with (i := i); auto.
    destruct l; cbn in *; congruence.
  Qed.

  Lemma top_min l x : heap l -> allP l -> pq_top l = Some x ->
    forall a, In a l -> less a x = false.
  Proof.
    intros Hh HP E a Ha. apply In_nth_error in Ha. destruct Ha as [i Hi].
    apply (heap_root_min l x Hh HP) with (i := i); auto.
  Qed.

  Lemma nil_heap : heap [].
  Proof. intros c Hc a b Ha. destruct c; discriminate. Qed.

  Lemma pop_allP l x l' : allP l -> pq_pop l = Some (x, l') -> P x /\ allP l'.
  Proof.
    intros HP E. apply (allP_perm _ _ (pop_perm _ _ _ E)) in HP.
    split; [apply HP; now left|intros a Ha; apply HP; now right].
  Qed.

  Lemma insert_allP x l : allP l -> P x -> allP (pq_insert x l).
  Proof. intros HP Px a Ha. apply insert_In in Ha. destruct Ha as [->|Ha]; auto. Qed.

  (** Draining a heap gives a sorted list. *)
  Lemma drain_f_sorted f : forall l, length l <= f -> heap l -> allP l ->
    StronglySorted (fun a b => less b a = false) (drain_f f l).
  Proof.
    induction f as [|f IH]; intros l Hf Hh HP; cbn; [constructor|].
    destruct (pq_pop l) as [[x l']|] eqn:E; [|constructor].
    pose proof (pop_length _ _ _ E). constructor.
    - apply IH; [lia|eapply pop_heap; eauto|eapply pop_allP; eauto].
    - apply Forall_forall. intros a Ha. apply (pop_min l x l' Hh HP E).
      assert (Hp : Permutation l' (drain_f f l')) by (apply drain_f_perm; lia).
      eapply Permutation_in; [symmetry; apply (pop_perm _ _ _ E)|].
      right. eapply Permutation_in; [symmetry; exact Hp|exact Ha].
  Qed.

  Lemma drain_sorted l : heap l -> allP l ->
    StronglySorted (fun a b => less b a = false) (pq_drain l).
  Proof. intros. now apply drain_f_sorted. Qed.

  Lemma drain_unfold l : pq_drain l =
    match pq_pop l with None => [] | Some (x, l') => x :: pq_drain l' end.
  Proof.
    unfold PQ.pq_drain at 1. destruct (length l) as [|n] eqn:El.
    - destruct l; [reflexivity|discriminate].
    - cbn. destruct (pq_pop l) as [[x l']|] eqn:E; [|reflexivity].
      unfold PQ.pq_drain. pose proof (pop_length _ _ _ E). f_equal. f_equal. lia.
  Qed.
End Generic.

Arguments heap {A} less l.
Arguments allP {A} P l.

(* ------------------------------------------------------------------ *)
(** The two concrete orders are strict weak orders on items whose distance is a
    number. *)
Definition numItem (x : item) : Prop := is_num (it_dist x) = true.

Lemma less_min_asym a b : numItem a -> numItem b -> less_min a b = true -> less_min b a = false.
Proof. intros _ _. apply flt_asym. Qed.
Lemma less_min_trans a b c : numItem a -> numItem b -> numItem c ->
  less_min b a = false -> less_min c b = false -> less_min c a = false.
Proof. unfold less_min, numItem. intros. eapply nflt_trans with (b := it_dist b); eauto. Qed.
Lemma less_max_asym a b : numItem a -> numItem b -> less_max a b = true -> less_max b a = false.
Proof. intros _ _. apply flt_asym. Qed.
Lemma less_max_trans a b c : numItem a -> numItem b -> numItem c ->
  less_max b a = false -> less_max c b = false -> less_max c a = false.
Proof. unfold less_max, fgt, numItem. intros. eapply nflt_trans with (b := it_dist b); eauto. Qed.

(* ------------------------------------------------------------------ *)
(** Histories of queue operations against a multiset specification. *)
Section History.
  Context {A : Type}.
  Variable less : A -> A -> bool.

  Inductive qop := QInsert (x : A) | QPop.

  (** Run a history on the model; [None] as soon as a pop hits the empty queue
      (Go panics).  Returns the popped items in order and the final queue. *)
  Fixpoint qrun (ops : list qop) (l : list A) : option (list A * list A) :=
    match ops with
    | [] => Some ([], l)
    | QInsert x :: ops' => qrun ops' (pq_insert less x l)
    | QPop :: ops' =>
        match pq_pop less l with
        | None => None
        | Some (x, l') =>
            match qrun ops' l' with
            | None => None
            | Some (out, l'') => Some (x :: out, l'')
            end
        end
    end.

  (** Specification: a bag; a pop may remove any item that no other item of the
      bag beats. *)
  Inductive qspec : list qop -> list A -> list A -> list A -> Prop :=
  | qs_nil bag bag' : Permutation bag bag' -> qspec [] bag [] bag'
  | qs_ins x ops bag out bag' :
      qspec ops (x :: bag) out bag' -> qspec (QInsert x :: ops) bag out bag'
  | qs_pop x ops bag bag1 out bag' :
      Permutation bag (x :: bag1) ->
      (forall a, In a bag -> less a x = false) ->
      qspec ops bag1 out bag' -> qspec (QPop :: ops) bag (x :: out) bag'.

  Lemma qspec_perm ops : forall bag1 bag2 out bag',
    Permutation bag1 bag2 -> qspec ops bag1 out bag' -> qspec ops bag2 out bag'.
  Proof.
    induction ops as [|o ops IH]; intros bag1 bag2 out bag' Hp H; inversion H; subst.
    - constructor. now rewrite <- Hp.
    - constructor. eapply IH; [|eassumption]. now apply perm_skip.
    - eapply qs_pop with (bag1 := bag0); [now rewrite <- Hp| |assumption].
      intros a Ha. apply H2 || match goal with Hx : forall a, In a bag1 -> _ |- _ => apply Hx end.
      eapply Permutation_in; [symmetry; exact Hp|exact Ha].
  Qed.

  Variable P : A -> Prop.
  Hypothesis less_asym : forall a b, P a -> P b -> less a b = true -> less b a = false.
  Hypothesis nless_trans : forall a b c, P a -> P b -> P c ->
    less b a = false -> less c b = false -> less c a = false.

  Definition opP (o : qop) : Prop := match o with QInsert x => P x | QPop => True end.

  Lemma qrun_spec ops : forall l out l',
    Forall opP ops -> heap less l -> allP P l ->
    qrun ops l = Some (out, l') -> qspec ops l out l'.
  Proof.
    induction ops as [|o ops IH]; intros l out l' Hops Hh HP H; cbn in H.
    - inversion H; subst. constructor. reflexivity.
    - inversion Hops as [|o' ops' Ho Hops']; subst. destruct o as [x|].
      + constructor. cbn in Ho.
        apply (qspec_perm ops (pq_insert less x l) (x :: l)).
        * symmetry. apply insert_perm.
        * apply IH; auto.
          -- eapply insert_heap; eauto.
          -- now apply insert_allP.
      + destruct (pq_pop less l) as [[x l1]|] eqn:E; [|discriminate].
        destruct (qrun ops l1) as [[out1 l2]|] eqn:E2; [|discriminate].
        inversion H; subst. eapply qs_pop with (bag1 := l1).
        * now apply pop_perm with (less := less).
        * eapply pop_min; eauto.
        * apply IH; auto.
          -- eapply pop_heap; eauto.
          -- eapply pop_allP; eauto.
  Qed.

  (** A history panics exactly when at some point there are more pops than
      items. *)
  Fixpoint qneed (ops : list qop) (n : nat) : bool :=
    match ops with
    | [] => true
    | QInsert _ :: ops' => qneed ops' (S n)
    | QPop :: ops' => match n with O => false | S n' => qneed ops' n' end
    end.

  Lemma qrun_total ops : forall l, qneed ops (length l) = true <-> qrun ops l <> None.
  Proof.
    induction ops as [|o ops IH]; intros l; cbn; [split; congruence|].
    destruct o as [x|].
    - rewrite <- IH, insert_length. reflexivity.
    - destruct (pq_pop less l) as [[x l1]|] eqn:E.
      + pose proof (pop_length _ _ _ _ E) as Hl. rewrite Hl.
        rewrite IH. destruct (qrun ops l1) as [[? ?]|]; split; congruence.
      + apply pop_None in E. subst. cbn. split; congruence.
  Qed.
End History.

(* ------------------------------------------------------------------ *)
(** Closed forms used by the property file. *)
Definition fill {A} (less : A -> A -> bool) (xs : list A) : list A :=
  fold_left (fun l x => pq_insert less x l) xs [].

Section Fill.
  Context {A : Type}.
  Variable less : A -> A -> bool.
  Variable P : A -> Prop.
  Hypothesis less_asym : forall a b, P a -> P b -> less a b = true -> less b a = false.
  Hypothesis nless_trans : forall a b c, P a -> P b -> P c ->
    less b a = false -> less c b = false -> less c a = false.

  Lemma fill_from xs : forall l, heap less l -> allP P l -> Forall P xs ->
    heap less (fold_left (fun l x => pq_insert less x l) xs l) /\
    allP P (fold_left (fun l x => pq_insert less x l) xs l) /\
    Permutation (xs ++ l) (fold_left (fun l x => pq_insert less x l) xs l).
  Proof.
    induction xs as [|x xs IH]; intros l Hh HP Hxs; cbn; [auto|].
    inversion Hxs; subst. destruct (IH (pq_insert less x l)) as (H3 & H4 & H5).
    - eapply insert_heap; eauto.
    - now apply insert_allP.
    - assumption.
    - split; [exact H3|split; [exact H4|]]. rewrite <- H5, <- insert_perm.
      rewrite Permutation_middle. reflexivity.
  Qed.

  Lemma fill_drain xs : Forall P xs ->
    Permutation xs (pq_drain less (fill less xs)) /\
    StronglySorted (fun a b => less b a = false) (pq_drain less (fill less xs)).
  Proof.
    intros Hxs. destruct (fill_from xs [] (nil_heap less)) as (H1 & H2 & H3).
    - intros a [].
    - assumption.
    - rewrite app_nil_r in H3. split.
      + rewrite H3 at 1. apply drain_perm.
      + eapply drain_sorted; eauto.
  Qed.

  Lemma qrun_spec_empty ops out l' : Forall (opP P) ops ->
    qrun less ops [] = Some (out, l') -> qspec less ops [] out l'.
  Proof. intros H. apply qrun_spec with (P := P); auto using nil_heap. intros a []. Qed.
End Fill.

Definition numItemx (x : itemx) : Prop := is_num (ix_dist x) = true.
Lemma less_minx_asym a b : numItemx a -> numItemx b -> less_minx a b = true -> less_minx b a = false.
Proof. intros _ _. apply flt_asym. Qed.
Lemma less_minx_trans a b c : numItemx a -> numItemx b -> numItemx c ->
  less_minx b a = false -> less_minx c b = false -> less_minx c a = false.
Proof. unfold less_minx, numItemx. intros. eapply nflt_trans with (b := ix_dist b); eauto. Qed.
