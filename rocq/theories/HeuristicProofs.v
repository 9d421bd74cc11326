(** Facts about the neighbour selection heuristic (Insert.v): it returns a
    duplicate-free part of its input, at most [max] long. *)
From Verif Require Import Base F32 PQ PQProofs Graph Search Insert.

(** [Sub a b]: [a] is [b] with some elements left out. *)
Inductive Sub {A} : list A -> list A -> Prop :=
| Sub_nil : Sub [] []
| Sub_skip x a b : Sub a b -> Sub a (x :: b)
| Sub_take x a b : Sub a b -> Sub (x :: a) (x :: b).

Lemma Sub_nil_l {A} (l : list A) : Sub [] l.
Proof. induction l; constructor; auto. Qed.

Lemma Sub_In {A} (a b : list A) x : Sub a b -> In x a -> In x b.
Proof. induction 1; cbn; intuition. Qed.

Lemma Sub_length {A} (a b : list A) : Sub a b -> length a <= length b.
Proof. induction 1; cbn; lia. Qed.

Lemma Sub_map {A B} (f : A -> B) a b : Sub a b -> Sub (map f a) (map f b).
Proof. induction 1; cbn; [apply Sub_nil|apply Sub_skip|apply Sub_take]; auto. Qed.

Lemma Sub_NoDup {A} (a b : list A) : Sub a b -> NoDup b -> NoDup a.
Proof.
  induction 1; intros Hn; auto; inversion Hn; subst; auto.
  constructor; auto. intros Hi. eapply Sub_In in Hi; eauto.
Qed.

Lemma NoDup_app_l {A} (a b : list A) : NoDup (a ++ b) -> NoDup a.
Proof.
  induction a as [|x a IH]; cbn; intros H; [constructor|]. inversion H; subst.
  constructor; [|auto]. intros Hi. apply H2. apply in_or_app. auto.
Qed.

Lemma fold_insert_perm {A} (less : A -> A -> bool) xs : forall l,
  Permutation (xs ++ l) (fold_left (fun q x => pq_insert less x q) xs l).
Proof.
  induction xs as [|x xs IH]; intros l; cbn; [auto|].
  rewrite <- IH. rewrite <- insert_perm.
  change (x :: xs ++ l) with ((x :: xs) ++ l).
  rewrite Permutation_app_comm. cbn. rewrite Permutation_app_comm. cbn.
  apply Permutation_middle.
Qed.

Definition to_item (x : itemx) : item := mkItem (ix_id x) (ix_dist x).

Lemma with_index_items l : forall i, map to_item (with_index i l) = l.
Proof. induction l as [|[a d] l IH]; intros i; cbn; [reflexivity|]. unfold to_item at 1; cbn. now rewrite IH. Qed.

Lemma heur_loop_spec P deny vecs max l : forall ret out,
  heur_loop P deny vecs max l ret = Ok out ->
  exists kept, out = ret ++ kept /\ Sub kept l /\ length out <= Nat.max max (length ret) /\
    (forall x, In x kept -> deny (ix_id x) = false).
Proof.
  induction l as [|c l IH]; intros ret out H; cbn in H.
  - inversion H; subst. exists []. rewrite app_nil_r. repeat split; [constructor|lia|intros x []].
  - destruct (Nat.leb_spec max (length ret)) as [Hm|Hm].
    + inversion H; subst. exists []. rewrite app_nil_r.
      repeat split; [apply Sub_nil_l|lia|intros x []].
    + destruct (deny (ix_id c)) eqn:Ed.
      * destruct (IH _ _ H) as (k & -> & Hs & Hl & Hd). exists k. repeat split; auto. now apply Sub_skip.
      * destruct (nth_error vecs (ix_index c)) as [[cv|]|]; try discriminate.
        destruct (heur_good P vecs cv (ix_dist c) ret).
        -- destruct (IH _ _ H) as (k & -> & Hs & Hl & Hd). exists (c :: k).
           rewrite <- app_assoc. cbn. repeat split; [now apply Sub_take| |].
           ++ rewrite <- app_assoc in Hl. rewrite !app_length in *. cbn [app length] in *. lia.
           ++ intros x [<-|Hx]; auto.
        -- destruct (IH _ _ H) as (k & -> & Hs & Hl & Hd). exists k. repeat split; auto. now apply Sub_skip.
Qed.

Lemma heuristic_spec P get deny input max r :
  heuristic P get deny input max = Ok r ->
  (exists kept dropped, Permutation r kept /\ Permutation input (kept ++ dropped)) /\
  length r <= max /\
  (length input < max -> r = input).
Proof.
  unfold heuristic. destruct (Nat.ltb_spec (length input) max) as [Hlt|Hge].
  { intros H; inversion H; subst. split; [exists r, []; rewrite app_nil_r; auto|]. split; [lia|auto]. }
  intros H. apply bind_Ok in H. destruct H as (vecs & _ & H).
  apply bind_Ok in H. destruct H as (ret & Hl & H). inversion H; subst; clear H.
  apply heur_loop_spec in Hl. destruct Hl as (kept & -> & Hs & Hlen & _). cbn [app length] in *.
  set (closest := fold_left _ (with_index 0 (pq_drain less_max input)) []) in *.
  assert (Hr : Permutation (map to_item kept)
     (fold_left (fun q x => pq_insert less_max (mkItem (ix_id x) (ix_dist x)) q) kept [])).
  { transitivity (fold_left (fun q x => pq_insert less_max x q) (map to_item kept) []).
    - rewrite <- fold_insert_perm. now rewrite app_nil_r.
    - assert (Hx : forall l acc, fold_left (fun q x => pq_insert less_max x q) (map to_item l) acc =
         fold_left (fun q x => pq_insert less_max (mkItem (ix_id x) (ix_dist x)) q) l acc).
      { induction l as [|y l IH]; intros acc; cbn; auto. }
      rewrite Hx. reflexivity. }
  assert (Hsub : exists dropped, Permutation input (map to_item kept ++ dropped)).
  { assert (Hp : Permutation input (map to_item (pq_drain less_minx closest))).
    { rewrite <- (drain_perm less_minx closest). unfold closest.
      rewrite <- fold_insert_perm, app_nil_r, with_index_items. apply drain_perm. }
    apply (Sub_map to_item) in Hs. revert Hp Hs.
    generalize (map to_item (pq_drain less_minx closest)) (map to_item kept). clear.
    intros l k Hp Hs. assert (Hx : exists d, Permutation l (k ++ d)).
    { clear Hp. induction Hs as [|x a b Hs [d IH]|x a b Hs [d IH]].
      - exists []. auto.
      - exists (x :: d). rewrite IH. apply Permutation_middle.
      - exists d. cbn. now rewrite IH. }
    destruct Hx as [d Hd]. exists d. now rewrite Hp. }
  split; [|split; [|lia]].
  - destruct Hsub as [d Hd]. exists (map to_item kept), d. split; auto. now symmetry.
  - apply Permutation_length in Hr. rewrite map_length in Hr. rewrite <- Hr. lia.
Qed.

Lemma heuristic_In P get deny input max r x :
  heuristic P get deny input max = Ok r -> In x r -> In x input.
Proof.
  intros H Hx. destruct (heuristic_spec _ _ _ _ _ _ H) as [(k & d & H1 & H2) _].
  eapply Permutation_in; [symmetry; exact H2|]. apply in_or_app. left.
  eapply Permutation_in; eauto.
Qed.

Lemma heuristic_NoDup P get deny input max r :
  heuristic P get deny input max = Ok r -> NoDup (map it_id input) -> NoDup (map it_id r).
Proof.
  intros H Hn. destruct (heuristic_spec _ _ _ _ _ _ H) as [(k & d & H1 & H2) _].
  apply (Permutation_map it_id) in H1, H2. rewrite H2, map_app in Hn. rewrite H1.
  now apply NoDup_app_l in Hn.
Qed.

Lemma drain_ids_NoDup less (r : list item) : NoDup (map it_id r) -> NoDup (map it_id (pq_drain less r)).
Proof. intros H. rewrite <- (Permutation_map it_id (drain_perm less r)). exact H. Qed.

Lemma drain_ids_In less (r : list item) id : In id (map it_id (pq_drain less r)) <-> In id (map it_id r).
Proof.
  split; apply Permutation_in; [symmetry|]; apply Permutation_map, drain_perm.
Qed.

Lemma drain_length {A} (less : A -> A -> bool) (r : list A) : length (pq_drain less r) = length r.
Proof. symmetry. apply Permutation_length, drain_perm. Qed.
