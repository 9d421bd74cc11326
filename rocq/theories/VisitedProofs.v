(** The visited list is an exact set over all histories of resets, growth and
    marker wrap-around; borrowed lists are empty. *)
From Verif Require Import Base Visited.
From Coq Require Import ZifyNat ZifyN ZifyBool.

Local Open Scope Z_scope.

Lemma wrap_int_id z : - 2 ^ 63 <= z < 2 ^ 63 -> wrap_int z = z.
Proof. unfold wrap_int. intros. rewrite Z.mod_small; lia. Qed.

Lemma int_of_u64_id n : (n < 2 ^ 63)%N -> int_of_u64 n = Z.of_N n.
Proof. intros. unfold int_of_u64. apply wrap_int_id. lia. Qed.

Lemma quot4_bounds z : 0 <= z -> 4 * Z.quot z 4 <= z < 4 * Z.quot z 4 + 4.
Proof. intros. rewrite Z.quot_div_nonneg by lia. pose proof (Z.div_mod z 4). pose proof (Z.mod_pos_bound z 4). lia. Qed.

(** The growth loop ends and reaches the requested size. *)
Lemma growth_loop_ok fuel : forall newsize size,
  vl_threshold <= newsize -> newsize < 2 ^ 61 -> size <= 2 ^ 60 + 2 ^ 11 ->
  size - newsize <= Z.of_nat fuel ->
  exists r, growth_loop fuel newsize size = Some r /\ size <= r /\ newsize <= r /\ r < 2 ^ 61.
Proof.
  unfold vl_threshold.
  induction fuel as [|f IH]; intros newsize size H1 H2 H3 H4; cbn [growth_loop].
  - destruct (Z.ltb_spec 0 newsize), (Z.ltb_spec newsize size); cbn [andb]; try lia.
    exists newsize. repeat split; lia.
  - destruct (Z.ltb_spec 0 newsize), (Z.ltb_spec newsize size); cbn [andb]; try lia.
    + unfold vl_threshold. pose proof (quot4_bounds (newsize + 2048) ltac:(lia)).
      rewrite wrap_int_id by lia.
      destruct (IH (newsize + Z.quot (newsize + 2048) 4) size) as (r & Hr & ? & ? & ?); try lia.
      exists r. repeat split; try assumption; lia.
    + exists newsize. repeat split; lia.
Qed.

Lemma growth_ok oldsize size :
  0 < oldsize < 2 ^ 61 -> 0 < size <= 2 ^ 60 + 2 ^ 11 ->
  exists r, growth oldsize size = Some r /\ size <= r /\ r < 2 ^ 61 /\
            (oldsize <= size -> oldsize <= r) /\ (size <= oldsize -> oldsize <= r).
Proof.
  intros H1 H2. unfold growth. rewrite wrap_int_id by lia.
  destruct (Z.ltb_spec (oldsize * 2) size); [exists size; repeat split; lia|].
  destruct (Z.ltb_spec oldsize vl_threshold); unfold vl_threshold in *;
    [exists (oldsize * 2); repeat split; lia|].
  destruct (growth_loop_ok (Z.to_nat size) oldsize size) as (r & Hr & ? & ? & ?);
    unfold vl_threshold; try lia.
  rewrite Hr. destruct (Z.leb_spec r 0); [lia|].
  exists r. repeat split; lia.
Qed.

Lemma upd_app_cons {A} (h : A) t i x : upd (h :: t) (S i) x = h :: upd t i x.
Proof. reflexivity. Qed.

(** Refinement relation: list [l] represents the set [S] of ids. *)
Record vrep (l : lset) (S : N -> Prop) : Prop := {
  vr_shape : exists m cells, l = m :: cells /\ (1 <= m <= 255)%N /\
               (forall c, In c cells -> (c <= m)%N) /\
               (forall n : N, S n <-> nth_error cells (N.to_nat n) = Some m);
  vr_size : Z.of_nat (length l) < 2 ^ 61
}.

Definition bigbound : N := (2 ^ 60)%N.

Lemma nth_error_repeat_0 k i (x : N) : nth_error (repeat x k) i = Some x \/ nth_error (repeat x k) i = None.
Proof.
  destruct (Nat.lt_ge_cases i k).
  - left. now apply nth_error_repeat.
  - right. apply nth_error_None. now rewrite repeat_length.
Qed.

Lemma vrep_new size : Z.of_nat size < 2 ^ 60 -> vrep (vl_new size) (fun _ => False).
Proof.
  intros H. constructor.
  - exists 1%N, (repeat 0%N size). repeat split; try lia.
    + intros c Hc. apply repeat_spec in Hc. lia.
    + intros Hx. destruct (nth_error_repeat_0 size (N.to_nat n) 0%N) as [E|E]; rewrite E in Hx; discriminate.
  - unfold vl_new. cbn [length]. rewrite repeat_length. lia.
Qed.

Lemma vrep_visited l S n : vrep l S -> (n < bigbound)%N ->
  exists b, vl_visited l n = Ok b /\ (b = true <-> S n).
Proof.
  unfold bigbound. intros [(m & cells & -> & Hm & Hc & HS) Hsz] Hn.
  unfold vl_visited. rewrite int_of_u64_id by lia. unfold vl_len. cbn [length] in *.
  destruct (Z.ltb_spec (Z.of_N n) (Z.of_nat (Datatypes.S (length cells)) - 1)) as [Hlt|Hge].
  - unfold u64_add. rewrite N.mod_small by lia.
    destruct (N.ltb_spec (n + 1) (N.of_nat (Datatypes.S (length cells)))); [|lia].
    replace (N.to_nat (n + 1)) with (Datatypes.S (N.to_nat n)) by lia. cbn [nth_error].
    destruct (nth_error cells (N.to_nat n)) as [c|] eqn:E.
    + exists (N.eqb c m). split; [reflexivity|]. rewrite HS, E. rewrite N.eqb_eq.
      split; congruence.
    + apply nth_error_None in E. lia.
  - exists false. split; [reflexivity|]. rewrite HS.
    split; [discriminate|]. intros E.
    assert (N.to_nat n < length cells)%nat by (apply nth_error_Some; congruence). lia.
Qed.

Lemma vrep_mark m cells S n :
  vrep (m :: cells) S -> (N.to_nat n < length cells)%nat ->
  vrep (m :: upd cells (N.to_nat n) m) (fun k => k = n \/ S k).
Proof.
  intros [(m' & cells' & E & Hm & Hc & HS) Hsz] Hlt. inversion E; subst m' cells'; clear E.
  constructor; [|cbn [length] in *; now rewrite upd_length].
  exists m, (upd cells (N.to_nat n) m). repeat split; try lia.
  - intros c Hin. apply In_nth_error in Hin. destruct Hin as [i Hi].
    rewrite nth_error_upd in Hi. destruct (Nat.eqb_spec (N.to_nat n) i) as [->|Hne].
    + destruct (Nat.ltb _ _); [|discriminate]. inversion Hi. lia.
    + apply Hc. eapply nth_error_In; eauto.
  - intros [->|Hk].
    + now apply nth_error_upd_eq.
    + rewrite nth_error_upd. destruct (Nat.eqb_spec (N.to_nat n) (N.to_nat n0)) as [Eq|Hne].
      * destruct (Nat.ltb_spec (N.to_nat n) (length cells)); [reflexivity|lia].
      * now apply HS.
  - intros Hx. rewrite nth_error_upd in Hx.
    destruct (Nat.eqb_spec (N.to_nat n) (N.to_nat n0)) as [Eq|Hne].
    + left. lia.
    + right. now apply HS.
Qed.

Lemma vrep_grow m cells S k :
  vrep (m :: cells) S -> Z.of_nat (length (m :: cells) + k) < 2 ^ 61 ->
  vrep ((m :: cells) ++ repeat 0%N k) S.
Proof.
  intros [(m' & cells' & E & Hm & Hc & HS) Hsz] Hk. inversion E; subst m' cells'; clear E.
  constructor; [|rewrite app_length, repeat_length; exact Hk].
  exists m, (cells ++ repeat 0%N k). repeat split; try lia.
  - intros c Hin. apply in_app_or in Hin. destruct Hin as [Hin|Hin]; [now apply Hc|].
    apply repeat_spec in Hin. lia.
  - intros HSn. apply HS in HSn. rewrite nth_error_app1; [assumption|].
    apply nth_error_Some. congruence.
  - intros Hx. apply HS.
    destruct (Nat.lt_ge_cases (N.to_nat n) (length cells)) as [H|H].
    + now rewrite nth_error_app1 in Hx by assumption.
    + rewrite nth_error_app2 in Hx by assumption.
      destruct (nth_error_repeat_0 k (N.to_nat n - length cells) 0%N) as [E|E]; rewrite E in Hx; [|discriminate].
      inversion Hx. lia.
Qed.

Lemma vrep_visit l S n : vrep l S -> (n < bigbound)%N ->
  exists l', vl_visit l n = Ok l' /\ vrep l' (fun k => k = n \/ S k).
Proof.
  unfold bigbound. intros Hv Hn.
  pose proof Hv as [(m & cells & -> & Hm & Hc & HS) Hsz].
  unfold vl_visit. cbn [nth_error]. rewrite int_of_u64_id by lia. unfold vl_len.
  assert (Hidx : u64_add n 1 = (n + 1)%N) by (unfold u64_add; apply N.mod_small; lia).
  rewrite Hidx.
  destruct (Z.leb_spec (Z.of_nat (length (m :: cells)) - 1) (Z.of_N n)) as [Hge|Hlt].
  - rewrite wrap_int_id by lia.
    destruct (growth_ok (Z.of_nat (length (m :: cells))) (Z.of_N n + 1024)) as (r & Hr & Hr1 & Hr2 & Hr3 & Hr4);
      [cbn [length] in *; lia|lia|].
    rewrite Hr. destruct (Z.ltb_spec r 0); [lia|].
    assert (Hold : Z.of_nat (length (m :: cells)) <= r) by lia.
    rewrite firstn_all2 by lia. cbn [bind].
    set (k := (Z.to_nat r - length (m :: cells))%nat).
    assert (Hlen : length ((m :: cells) ++ repeat 0%N k) = Z.to_nat r).
    { rewrite app_length, repeat_length. unfold k. lia. }
    rewrite Hlen. destruct (N.ltb_spec (n + 1) (N.of_nat (Z.to_nat r))); [|lia].
    eexists; split; [reflexivity|].
    replace (N.to_nat (n + 1)) with (Datatypes.S (N.to_nat n)) by lia.
    cbn [app]. rewrite upd_app_cons. apply vrep_mark.
    + change (m :: cells ++ repeat 0%N k) with ((m :: cells) ++ repeat 0%N k).
      apply vrep_grow; [assumption|]. unfold k; lia.
    + cbn [app length] in Hlen. lia.
  - cbn [bind length]. cbn [length] in *.
    destruct (N.ltb_spec (n + 1) (N.of_nat (Datatypes.S (length cells)))); [|lia].
    eexists; split; [reflexivity|].
    replace (N.to_nat (n + 1)) with (Datatypes.S (N.to_nat n)) by lia.
    rewrite upd_app_cons. apply vrep_mark; [assumption|lia].
Qed.

Lemma vrep_reset l S : vrep l S -> exists l', vl_reset l = Ok l' /\ vrep l' (fun _ => False) /\ length l' = length l.
Proof.
  intros [(m & cells & -> & Hm & Hc & HS) Hsz]. unfold vl_reset.
  destruct (N.eqb_spec ((m + 1) mod 256) 0) as [E|E].
  - eexists; split; [reflexivity|]. split; [|cbn; now rewrite map_length]. constructor; [|cbn [length] in *; now rewrite map_length].
    exists 1%N, (map (fun _ => 0%N) cells). repeat split; try lia.
    + intros c Hin. apply in_map_iff in Hin. destruct Hin as (? & <- & _). lia.
    + intros Hx. rewrite nth_error_map in Hx. destruct (nth_error cells (N.to_nat n)); discriminate.
  - assert (Hm2 : ((m + 1) mod 256 = m + 1)%N).
    { apply N.mod_small. destruct (N.eq_dec m 255) as [->|]; [exfalso; apply E; reflexivity|lia]. }
    rewrite Hm2 in *. eexists; split; [reflexivity|]. split; [|reflexivity]. constructor; [|exact Hsz].
    exists (m + 1)%N, cells. repeat split; try lia.
    + intros c Hin. specialize (Hc c Hin). lia.
    + intros Hx. apply nth_error_In in Hx. specialize (Hc _ Hx). lia.
Qed.

(* ------------------------------------------------------------------ *)
(** Histories on one list. *)
Inductive vop := VVisit (n : N) | VQuery (n : N) | VReset.

Fixpoint vrun (ops : list vop) (l : lset) : res (list bool * lset) :=
  match ops with
  | [] => Ok ([], l)
  | VVisit n :: ops' => do! l' <- vl_visit l n; vrun ops' l'
  | VQuery n :: ops' =>
      do! b <- vl_visited l n; do! r <- vrun ops' l; Ok (b :: fst r, snd r)
  | VReset :: ops' => do! l' <- vl_reset l; vrun ops' l'
  end.

(** Specification: the list of ids marked since the last reset. *)
Fixpoint vspec (ops : list vop) (marked : list N) : list bool :=
  match ops with
  | [] => []
  | VVisit n :: ops' => vspec ops' (n :: marked)
  | VQuery n :: ops' => memN n marked :: vspec ops' marked
  | VReset :: ops' => vspec ops' []
  end.

Definition vop_ok (o : vop) : Prop :=
  match o with VVisit n | VQuery n => (n < bigbound)%N | VReset => True end.

Lemma vrep_ext l (S1 S2 : N -> Prop) : (forall n, S1 n <-> S2 n) -> vrep l S1 -> vrep l S2.
Proof.
  intros He [(m & cells & H1 & H2 & H3 & H4) H5]. constructor; [|assumption].
  exists m, cells. repeat split; try assumption; try lia.
  - intros H. apply H4. now apply He.
  - intros H. apply He. now apply H4.
Qed.

Lemma vrun_spec ops : forall l marked,
  Forall vop_ok ops -> vrep l (fun n => In n marked) ->
  exists l', vrun ops l = Ok (vspec ops marked, l').
Proof.
  induction ops as [|o ops IH]; intros l marked Hops Hrep; cbn; [eauto|].
  inversion Hops as [|o' ops' Ho Hops']; subst. destruct o as [n|n|]; cbn in Ho.
  - destruct (vrep_visit l _ n Hrep Ho) as (l1 & E & Hr1). rewrite E. cbn.
    apply IH; [assumption|]. apply (vrep_ext l1 _ (fun k => In k (n :: marked))) in Hr1; [assumption|].
    intros k. cbn. split; intros [?|?]; auto.
  - destruct (vrep_visited l _ n Hrep Ho) as (b & E & Hb). rewrite E. cbn.
    destruct (IH l marked Hops' Hrep) as (l1 & E1). rewrite E1. cbn. exists l1.
    repeat f_equal. rewrite <- memN_In in Hb. destruct b, (memN n marked); intuition congruence.
  - destruct (vrep_reset l _ Hrep) as (l1 & E & Hr1 & _). rewrite E. cbn.
    apply IH; [assumption|]. apply (vrep_ext l1 (fun _ => False)); [|assumption].
    intros k; cbn; tauto.
Qed.

(* ------------------------------------------------------------------ *)
(** Histories on a pool: lists are borrowed, used and returned.  The state of a
    client is the pool and the list of sets currently on loan. *)
Inductive pop := PBorrow | PUse (i : nat) (o : vop) | PReturn (i : nat).

Fixpoint removeAt {A} (i : nat) (l : list A) : list A :=
  match l, i with
  | [], _ => []
  | _ :: t, O => t
  | h :: t, Datatypes.S i' => h :: removeAt i' t
  end.

(** One pool operation; the answer is [Some b] for a query. *)
Definition pstep (o : pop) (st : vpool * list lset) : res (option bool * (vpool * list lset)) :=
  let (p, loans) := st in
  match o with
  | PBorrow => let (l, p') := vp_borrow p in Ok (None, (p', l :: loans))
  | PUse i u =>
      match nth_error loans i with
      | None => Ok (None, st)
      | Some l =>
          match u with
          | VVisit n => do! l' <- vl_visit l n; Ok (None, (p, upd loans i l'))
          | VQuery n => do! b <- vl_visited l n; Ok (Some b, st)
          | VReset => do! l' <- vl_reset l; Ok (None, (p, upd loans i l'))
          end
      end
  | PReturn i =>
      match nth_error loans i with
      | None => Ok (None, st)
      | Some l => do! p' <- vp_return p l; Ok (None, (p', removeAt i loans))
      end
  end.

Fixpoint prun (ops : list pop) (st : vpool * list lset) : res (list (option bool)) :=
  match ops with
  | [] => Ok []
  | o :: ops' => do! r <- pstep o st; do! out <- prun ops' (snd r); Ok (fst r :: out)
  end.

(** Specification: loans are plain sets of ids, every new loan is empty, the
    pool does not matter. *)
Definition pstep_spec (o : pop) (loans : list (list N)) : option bool * list (list N) :=
  match o with
  | PBorrow => (None, [] :: loans)
  | PUse i u =>
      match nth_error loans i with
      | None => (None, loans)
      | Some s =>
          match u with
          | VVisit n => (None, upd loans i (n :: s))
          | VQuery n => (Some (memN n s), loans)
          | VReset => (None, upd loans i [])
          end
      end
  | PReturn i => (None, removeAt i loans)
  end.

Fixpoint prun_spec (ops : list pop) (loans : list (list N)) : list (option bool) :=
  match ops with
  | [] => []
  | o :: ops' => fst (pstep_spec o loans) :: prun_spec ops' (snd (pstep_spec o loans))
  end.

Definition pop_ok (o : pop) : Prop := match o with PUse _ u => vop_ok u | _ => True end.

Definition pinv (st : vpool * list lset) (loans : list (list N)) : Prop :=
  Z.of_nat (vp_size (fst st)) < 2 ^ 60 /\
  Forall (fun l => vrep l (fun _ => False)) (vp_lists (fst st)) /\
  Forall2 (fun l s => vrep l (fun n => In n s)) (snd st) loans.

Lemma Forall2_nth {A B} (R : A -> B -> Prop) l1 l2 i a :
  Forall2 R l1 l2 -> nth_error l1 i = Some a -> exists b, nth_error l2 i = Some b /\ R a b.
Proof.
  intros H; revert i; induction H as [|x y l1 l2 Hxy H IH]; intros [|i] E; cbn in *; try discriminate; eauto.
  inversion E; subst; eauto.
Qed.

Lemma Forall2_nth_None {A B} (R : A -> B -> Prop) l1 l2 i :
  Forall2 R l1 l2 -> nth_error l1 i = None -> nth_error l2 i = None.
Proof.
  intros H; revert i; induction H as [|x y l1 l2 Hxy H IH]; intros [|i] E; cbn in *; try discriminate; auto.
Qed.

Lemma Forall2_upd {A B} (R : A -> B -> Prop) l1 l2 i a b :
  Forall2 R l1 l2 -> R a b -> Forall2 R (upd l1 i a) (upd l2 i b).
Proof.
  intros H Hab; revert i; induction H as [|x y l1 l2 Hxy H IH]; intros [|i]; cbn; constructor; auto.
Qed.

Lemma Forall2_removeAt {A B} (R : A -> B -> Prop) l1 l2 i :
  Forall2 R l1 l2 -> Forall2 R (removeAt i l1) (removeAt i l2).
Proof.
  intros H; revert i; induction H as [|x y l1 l2 Hxy H IH]; intros [|i]; cbn; auto.
Qed.

Lemma removeAt_None {A} (l : list A) i : nth_error l i = None -> removeAt i l = l.
Proof. revert i; induction l as [|h t IH]; intros [|i] E; cbn in *; try discriminate; auto. f_equal; auto. Qed.

Lemma pstep_ok o st loans : pop_ok o -> pinv st loans ->
  exists st', pstep o st = Ok (fst (pstep_spec o loans), st') /\ pinv st' (snd (pstep_spec o loans)).
Proof.
  destruct st as [p ls]. intros Ho (Hsz & Hp & Hl). cbn [fst snd] in *.
  destruct o as [|i u|i]; cbn [pstep pstep_spec fst snd].
  - unfold vp_borrow. destruct (rev (vp_lists p)) as [|l r] eqn:E.
    + eexists; split; [reflexivity|]. split; [exact Hsz|]. split; [exact Hp|]. constructor; [|exact Hl].
      eapply vrep_ext; [|apply vrep_new; exact Hsz]. intros; cbn; tauto.
    + assert (Hperm : vp_lists p = rev r ++ [l]).
      { rewrite <- (rev_involutive (vp_lists p)), E. reflexivity. }
      rewrite Hperm in Hp. apply Forall_app in Hp. destruct Hp as [Hr Hl1].
      inversion Hl1; subst.
      eexists; split; [reflexivity|]. split; [exact Hsz|]. split; [exact Hr|]. constructor; [|exact Hl].
      eapply vrep_ext; [|eassumption]. intros; cbn; tauto.
  - destruct (nth_error ls i) as [l|] eqn:El.
    + destruct (Forall2_nth _ _ _ _ _ Hl El) as (s & Es & Hrep). rewrite Es.
      destruct u as [n|n|]; cbn in Ho.
      * destruct (vrep_visit l _ n Hrep Ho) as (l1 & E & Hr1). rewrite E. cbn.
        eexists; split; [reflexivity|]. (split; [exact Hsz|split; [try exact Hp|try exact Hl]]); cbn.
        apply Forall2_upd; [assumption|]. eapply vrep_ext; [|eassumption].
        intros k; cbn; split; intros [?|?]; auto.
      * destruct (vrep_visited l _ n Hrep Ho) as (b & E & Hb). rewrite E. cbn.
        exists (p, ls); split; [|(split; [exact Hsz|split; [exact Hp|exact Hl]])].
        repeat f_equal. rewrite <- memN_In in Hb. destruct b, (memN n s); intuition congruence.
      * destruct (vrep_reset l _ Hrep) as (l1 & E & Hr1 & _). rewrite E. cbn.
        eexists; split; [reflexivity|]. (split; [exact Hsz|split; [try exact Hp|try exact Hl]]); cbn.
        apply Forall2_upd; [assumption|]. eapply vrep_ext; [|eassumption]. intros; cbn; tauto.
    + rewrite (Forall2_nth_None _ _ _ _ Hl El). eexists; split; [reflexivity|]. (split; [exact Hsz|split; [exact Hp|exact Hl]]).
  - destruct (nth_error ls i) as [l|] eqn:El.
    + destruct (Forall2_nth _ _ _ _ _ Hl El) as (s & Es & Hrep).
      unfold vp_return. destruct (_ || _) eqn:Ed; cbn [bind].
      * eexists; split; [reflexivity|]. (split; [exact Hsz|split; [try exact Hp|try exact Hl]]); cbn. now apply Forall2_removeAt.
      * destruct (vrep_reset l _ Hrep) as (l1 & E & Hr1 & _). rewrite E. cbn.
        eexists; split; [reflexivity|]. (split; [exact Hsz|split; [try exact Hp|try exact Hl]]); cbn.
        -- apply Forall_app; split; auto.
        -- now apply Forall2_removeAt.
    + rewrite removeAt_None by (eapply Forall2_nth_None; eauto).
      eexists; split; [reflexivity|]. (split; [exact Hsz|split; [exact Hp|exact Hl]]).
Qed.

Lemma prun_ok ops : forall st loans, Forall pop_ok ops -> pinv st loans ->
  prun ops st = Ok (prun_spec ops loans).
Proof.
  induction ops as [|o ops IH]; intros st loans Hops Hinv; cbn [prun prun_spec]; [reflexivity|].
  inversion Hops as [|o' ops' Ho Hops']; subst.
  destruct (pstep_ok o st loans Ho Hinv) as (st' & E & Hinv').
  rewrite E. cbn [bind fst snd]. rewrite (IH st' _ Hops' Hinv'). reflexivity.
Qed.

Lemma pinv_new size lsz : Z.of_nat lsz < 2 ^ 60 -> pinv (vp_new size lsz, []) [].
Proof.
  intros H. repeat split; cbn; auto.
  apply Forall_forall. intros l Hl. apply repeat_spec in Hl. subst. now apply vrep_new.
Qed.

(* ------------------------------------------------------------------ *)
(** Closed forms used by the property file. *)
Lemma vrun_new size ops :
  Z.of_nat size < 2 ^ 60 -> Forall vop_ok ops ->
  exists l', vrun ops (vl_new size) = Ok (vspec ops [], l').
Proof.
  intros Hs Ho. apply vrun_spec; [assumption|].
  eapply vrep_ext; [|apply vrep_new; assumption]. cbn; tauto.
Qed.

Lemma prun_new size lsz ops :
  Z.of_nat lsz < 2 ^ 60 -> Forall pop_ok ops ->
  prun ops (vp_new size lsz, []) = Ok (prun_spec ops []).
Proof. intros Hs Ho. apply prun_ok; [assumption|]. now apply pinv_new. Qed.

Lemma visited_max_always l : (length l >= 1)%nat -> vl_visited l (2 ^ 64 - 1) = Ok true.
Proof.
  intros Hl. unfold vl_visited.
  assert (E1 : (int_of_u64 (2 ^ 64 - 1) <? vl_len l) = true).
  { apply Z.ltb_lt. change (int_of_u64 (2 ^ 64 - 1)) with (-1). unfold vl_len. lia. }
  rewrite E1. change (u64_add (2 ^ 64 - 1) 1) with 0%N.
  destruct l as [|m l]; [cbn in Hl; lia|].
  assert (E2 : (0 <? N.of_nat (length (m :: l)))%N = true) by (apply N.ltb_lt; cbn; lia).
  rewrite E2. cbn. now rewrite N.eqb_refl.
Qed.

Lemma visit_huge_panics : vl_visit (vl_new 8) (2 ^ 63) = Panic.
Proof. vm_compute. reflexivity. Qed.

Lemma by_value_loses : exists l n l',
  vl_visit_by_value l n = Ok l' /\ vl_visited l' n = Ok false.
Proof. exists (vl_new 4), 4%N. eexists. split; vm_compute; reflexivity. Qed.

Lemma by_value_small size n :
  (n < N.of_nat size)%N -> Z.of_nat size < 2 ^ 60 ->
  exists l', vl_visit_by_value (vl_new size) n = Ok l' /\ vl_visited l' n = Ok true.
Proof.
  intros Hn Hs. assert (Hb : (n < bigbound)%N) by (unfold bigbound; lia).
  destruct (vrep_visit (vl_new size) _ n (vrep_new size Hs) Hb) as (l1 & E & Hr).
  unfold vl_visit_by_value. rewrite E. cbn [bind].
  assert (Ec : (vl_len (vl_new size) <=? int_of_u64 n) = false).
  { apply Z.leb_gt. rewrite int_of_u64_id by lia. unfold vl_len, vl_new. cbn [length].
    rewrite repeat_length. lia. }
  rewrite Ec. exists l1. split; [reflexivity|].
  destruct (vrep_visited l1 _ n Hr Hb) as (b & Eb & Hb2). rewrite Eb.
  destruct b; [reflexivity|]. exfalso. assert (false = true) by (apply Hb2; auto). discriminate.
Qed.
