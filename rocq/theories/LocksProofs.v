(** Lock order: no reachable state is a deadlock. *)
From Coq Require Import Permutation.
From Verif Require Import Base Locks.

Definition rank (l : lock) : N :=
  match l with
  | LClient => 1 | LIndices => 2 | LCompress => 3 | LDelIns => 4 | LOnce => 5 | LDelete => 6 | LReset => 7
  | LIndex => 8 | LVertex _ => 9 | LVisited => 10 | LTomb => 11 | LMaint => 12 | LShard _ => 13
  end%N.

(** [l] may be taken with [held]: everything held ranks lower, or ranks the same
    and the goroutine holds the maintenance lock. *)
Definition may (held : list (lock * mode)) (l : lock) : Prop :=
  forall l' m', In (l', m') held ->
    (rank l' < rank l)%N \/ (rank l' = rank l /\ l' <> l /\ In (LMaint, MW) held).
Fixpoint wf (held : list (lock * mode)) (t : list act) : Prop :=
  match t with
  | [] => held = []
  | Acq l m :: k => may held l /\ wf ((l, m) :: held) k
  | Rel l :: k => wf (release l held) k
  end.

(** [c] takes only locks above [r], in order; [g]: the maintenance lock is held. *)
Fixpoint fits (g : bool) (r : N) (c : cmd) : Prop :=
  match c with
  | Skip => True
  | With l m c => (r < rank l)%N /\ fits (match l, m with LMaint, MW => true | _, _ => false end) (rank l) c
  | Crit l m c => (r < rank l)%N /\ fits (match l, m with LMaint, MW => true | _, _ => false end) (rank l) c
  | Cross l1 l2 c => (r < rank l1)%N /\ (rank l1 < rank l2)%N /\ fits false (rank l2) c
  | AllShards _ c => g = true /\ (r < 13)%N /\ c = Skip
  | Seq a b => fits g r a /\ fits g r b
  | Alt a b => fits g r a /\ fits g r b
  | Star c => fits g r c
  | Any f => forall i, fits g r (f i)
  end.

Definition below (r : N) (held : list (lock * mode)) : Prop := forall l m, In (l, m) held -> (rank l <= r)%N.

Lemma release_above l held r : below r held -> (r < rank l)%N -> release l held = held.
Proof.
  intros Hb Hr. unfold release. induction held as [|[l' m'] held IH]; [reflexivity|]. cbn [filter fst].
  assert (H : (rank l' <= r)%N) by (apply (Hb l' m'); now left).
  destruct (lock_eq_dec l' l) as [->|]; [lia|]. f_equal. apply IH. intros a m Ha. apply (Hb a m). now right.
Qed.
Lemma may_above l held r : below r held -> (r < rank l)%N -> may held l.
Proof. intros Hb Hr l' m' H. left. specialize (Hb _ _ H). lia. Qed.
Lemma below_cons l m held r : below r held -> (r <= rank l)%N -> below (rank l) ((l, m) :: held).
Proof. intros Hb Hr l' m' [[= <- <-]|H]; [lia|]. specialize (Hb _ _ H). lia. Qed.
Lemma release_head l m held : release l ((l, m) :: held) = release l held.
Proof. unfold release. cbn [filter fst]. destruct (lock_eq_dec l l); [reflexivity|congruence]. Qed.

Lemma wf_acquire_all p : forall held k, In (LMaint, MW) held -> NoDup p ->
  (forall l m, In (l, m) held -> (rank l <= 13)%N /\ forall j, l = LShard (N.of_nat j) -> ~ In j p) ->
  (wf (map (fun j => (LShard (N.of_nat j), MW)) (rev p) ++ held) k) ->
  wf held (map (fun j => Acq (LShard (N.of_nat j)) MW) p ++ k).
Proof.
  induction p as [|a p IH]; intros held k Hm Hn Hh Hk; cbn [map app wf]; [exact Hk|].
  apply NoDup_cons_iff in Hn as [Ha Hn]. split.
  - intros l m Hl. destruct (Hh _ _ Hl) as [H1 H2]. cbn [rank].
    destruct (N.eq_dec (rank l) 13) as [E|E]; [right|left; lia]. split; [exact E|]. split; [|exact Hm].
    intros ->. apply (H2 a eq_refl). now left.
  - apply IH; [now right|exact Hn| |].
    + intros l m [[= <- <-]|Hl].
      * split; [cbn; lia|]. intros j [= Hj]. replace j with a by lia. exact Ha.
      * destruct (Hh _ _ Hl) as [H1 H2]. split; [exact H1|]. intros j Hj Hin. apply (H2 j Hj). now right.
    + cbn [rev] in Hk. rewrite map_app, <- app_assoc in Hk. exact Hk.
Qed.
Lemma wf_release_all q : forall held h0 k,
  (forall l m, In (l, m) held -> In (l, m) h0 \/ exists j, l = LShard (N.of_nat j) /\ In j q) ->
  filter (fun x => match fst x with LShard _ => false | _ => true end) held = h0 ->
  filter (fun x => match fst x with LShard _ => false | _ => true end) h0 = h0 ->
  wf h0 k -> wf held (map (fun j => Rel (LShard (N.of_nat j))) q ++ k).
Proof.
  induction q as [|a q IH]; intros held h0 k H1 H2 H3 Hk; cbn [map app wf].
  - replace held with h0; [exact Hk|]. rewrite <- H2. clear Hk. revert H1. clear H2. revert H3.
    intros H3. assert (Hns : forall x, In x h0 -> match fst x with LShard _ => false | _ => true end = true).
    { intros x Hx. rewrite <- H3 in Hx. now apply filter_In in Hx. }
    intros H1. assert (Hall : forall x, In x held -> match fst x with LShard _ => false | _ => true end = true).
    { intros [l m] Hx. destruct (H1 _ _ Hx) as [Hx'|(j & _ & [])]. now apply Hns in Hx'. }
    clear - Hall. induction held as [|x held IH]; [reflexivity|]. cbn [filter]. rewrite Hall by now left. f_equal.
    apply IH. intros y Hy. apply Hall. now right.
  - apply (IH (release (LShard (N.of_nat a)) held) h0 k).
    + intros l m Hl. unfold release in Hl. apply filter_In in Hl as [Hl Hne]. cbn [fst] in Hne.
      destruct (H1 _ _ Hl) as [H|(j & -> & [->|Hj])]; [now left| |right; eauto].
      destruct (lock_eq_dec (LShard (N.of_nat j)) (LShard (N.of_nat j))); [discriminate|congruence].
    + rewrite <- H2. clear. unfold release. induction held as [|[l m] held IH]; [reflexivity|]. cbn [filter fst].
      destruct (lock_eq_dec l (LShard (N.of_nat a))) as [->|]; [exact IH|]. cbn [filter fst]. destruct l; now rewrite IH.
    + exact H3.
    + exact Hk.
Qed.

Lemma traces_wf c t : traces c t -> forall g r held k, fits g r c -> below r held ->
  (g = true -> In (LMaint, MW) held) -> wf held k -> wf held (t ++ k).
Proof.
  induction 1 as [|l m c t Ht IH|l m c t Ht IH|l1 l2 c t Ht IH|n c p t Hp Ht IH|a b t u Ha IHa Hb IHb|a b t Ha IHa|a b t Hb IHb|c|c t u Ht IHt Hu IHu|f i t Ht IH];
    intros g r held k Hf Hb' Hg Hk; cbn [fits] in Hf; cbn [app].
  - exact Hk.
  - destruct Hf as [Hr Hf]. cbn [wf]. split; [now apply (may_above _ _ r)|]. rewrite <- app_assoc.
    apply (IH _ (rank l) _ _ Hf).
    + apply (below_cons _ _ _ r); [exact Hb'|lia].
    + destruct l, m; try discriminate. intros _. now left.
    + cbn [app wf]. rewrite release_head, (release_above _ _ r) by assumption. exact Hk.
  - destruct Hf as [Hr Hf]. cbn [wf]. split; [now apply (may_above _ _ r)|]. rewrite <- app_assoc.
    apply (IH _ (rank l) _ _ Hf).
    + apply (below_cons _ _ _ r); [exact Hb'|lia].
    + destruct l, m; try discriminate. intros _. now left.
    + cbn [app wf]. rewrite release_head, (release_above _ _ r) by assumption. exact Hk.
  - destruct Hf as (Hr & Hr2 & Hf). cbn [wf]. split; [now apply (may_above _ _ r)|].
    assert (Hb1 : below (rank l1) ((l1, MW) :: held)) by (apply (below_cons _ _ _ r); [exact Hb'|lia]).
    split; [now apply (may_above _ _ (rank l1))|]. rewrite <- app_assoc.
    apply (IH _ (rank l2) _ _ Hf).
    + apply (below_cons _ _ _ (rank l1)); [exact Hb1|lia].
    + discriminate.
    + cbn [app wf]. replace (release l1 ((l2, MW) :: (l1, MW) :: held)) with ((l2, MW) :: held).
      * rewrite release_head, (release_above _ _ r) by (assumption || lia). exact Hk.
      * unfold release. cbn [filter fst]. destruct (lock_eq_dec l2 l1) as [->|]; [lia|].
        destruct (lock_eq_dec l1 l1); [|congruence]. f_equal. symmetry. now apply (release_above _ _ r).
  - destruct Hf as (-> & Hr & ->). inversion Ht; subst. cbn [app]. rewrite <- app_assoc.
    assert (Hns : forall l m, In (l, m) held -> match l with LShard _ => False | _ => True end).
    { intros l m Hl. specialize (Hb' _ _ Hl). destruct l; auto. cbn in Hb'. lia. }
    assert (Hf0 : filter (fun x : lock * mode => match fst x with LShard _ => false | _ => true end) held = held).
    { clear - Hns. induction held as [|[l m] held IH]; [reflexivity|]. cbn [filter fst].
      assert (H : match l with LShard _ => False | _ => True end) by (apply (Hns l m); now left).
      destruct l; try contradiction; (f_equal; apply IH; intros l' m' H'; apply (Hns l' m'); now right). }
    apply wf_acquire_all; [now apply Hg| | |].
    + eapply Permutation_NoDup; [symmetry; exact Hp|apply seq_NoDup].
    + intros l m Hl. split; [specialize (Hb' _ _ Hl); lia|]. intros j ->. now specialize (Hns _ _ Hl).
    + apply (wf_release_all _ _ held).
      * intros l m Hl. apply in_app_or in Hl as [Hl|Hl]; [|now left]. right. apply in_map_iff in Hl as (j & [= <- <-] & Hj).
        exists j. split; [reflexivity|]. eapply Permutation_in; [exact Hp|]. now apply in_rev.
      * rewrite filter_app, Hf0. replace (filter _ (map _ _)) with (@nil (lock * mode)); [reflexivity|].
        clear. induction (rev p) as [|x l IH]; [reflexivity|]. cbn. exact IH.
      * exact Hf0.
      * exact Hk.
  - destruct Hf as [F1 F2]. rewrite <- app_assoc. eapply IHa; eauto.
  - destruct Hf as [F1 F2]. eapply IHa; eauto.
  - destruct Hf as [F1 F2]. eapply IHb; eauto.
  - exact Hk.
  - rewrite <- app_assoc. eapply IHt; eauto.
  - eapply IH; eauto.
Qed.

Lemma broken_wf c t : broken c t -> forall g r held k, fits g r c -> below r held ->
  (g = true -> In (LMaint, MW) held) -> wf held k -> wf held (t ++ k).
Proof.
  induction 1 as [c|l m c t Ht IH|l1 l2 c t Ht IH|a b t Ha IHa|a b t u Ha Hb IHb|a b t Ha IHa|a b t Hb IHb|c t Ht IHt|c t u Ht Hu IHu|f i t Ht IH];
    intros g r held k Hf Hb' Hg Hk; cbn [fits] in Hf; cbn [app].
  - exact Hk.
  - destruct Hf as [Hr Hf]. cbn [wf]. split; [now apply (may_above _ _ r)|]. rewrite <- app_assoc.
    apply (IH _ (rank l) _ _ Hf).
    + apply (below_cons _ _ _ r); [exact Hb'|lia].
    + destruct l, m; try discriminate. intros _. now left.
    + cbn [app wf]. rewrite release_head, (release_above _ _ r) by assumption. exact Hk.
  - destruct Hf as (Hr & Hr2 & Hf). cbn [wf]. split; [now apply (may_above _ _ r)|].
    assert (Hb1 : below (rank l1) ((l1, MW) :: held)) by (apply (below_cons _ _ _ r); [exact Hb'|lia]).
    split; [now apply (may_above _ _ (rank l1))|]. rewrite <- app_assoc.
    apply (IH _ (rank l2) _ _ Hf).
    + apply (below_cons _ _ _ (rank l1)); [exact Hb1|lia].
    + discriminate.
    + cbn [app wf]. replace (release l1 ((l2, MW) :: (l1, MW) :: held)) with ((l2, MW) :: held).
      * rewrite release_head, (release_above _ _ r) by (assumption || lia). exact Hk.
      * unfold release. cbn [filter fst]. destruct (lock_eq_dec l2 l1) as [->|]; [lia|].
        destruct (lock_eq_dec l1 l1); [|congruence]. f_equal. symmetry. now apply (release_above _ _ r).
  - destruct Hf as [F1 F2]. eapply IHa; eauto.
  - destruct Hf as [F1 F2]. rewrite <- app_assoc. eapply traces_wf; eauto.
  - destruct Hf as [F1 F2]. eapply IHa; eauto.
  - destruct Hf as [F1 F2]. eapply IHb; eauto.
  - eapply IHt; eauto.
  - rewrite <- app_assoc. eapply traces_wf; eauto.
  - eapply IH; eauto.
Qed.
Lemma served_wf c t : fits false 0 c -> served c t -> wf [] t.
Proof.
  intros Hf. induction 1 as [|t u Ht Hu IH|t u Ht Hu IH]; [reflexivity|..].
  - apply (traces_wf c t Ht false 0%N); [exact Hf|intros l m []|discriminate|exact IH].
  - apply (broken_wf c t Ht false 0%N); [exact Hf|intros l m []|discriminate|exact IH].
Qed.

(** The machine. *)
Definition twf (t : thr) : Prop := wf (t_held t) (t_todo t).
(** A writer excludes everyone else. *)
Definition excl (s : threads) : Prop :=
  forall i j t u l, nth_error s i = Some t -> nth_error s j = Some u -> i <> j ->
    In (l, MW) (t_held t) -> forall m, ~ In (l, m) (t_held u).

Lemma nth_upd_eq {A} n (x : A) l : n < length l -> nth_error (upd n x l) n = Some x.
Proof. revert n. induction l as [|a l IH]; intros [|n]; cbn; try lia; [reflexivity|]. intros H. apply IH. lia. Qed.
Lemma nth_upd_ne {A} n m (x : A) l : n <> m -> nth_error (upd n x l) m = nth_error l m.
Proof. revert n m. induction l as [|a l IH]; intros [|n] [|m] H; cbn; try reflexivity; try congruence. apply IH. congruence. Qed.
Lemma In_upd {A} n (x y : A) l : In y (upd n x l) -> y = x \/ In y l.
Proof.
  revert n. induction l as [|a l IH]; intros [|n]; cbn; auto.
  - intros [<-|H]; auto.
  - intros [<-|H]; auto. apply IH in H. tauto.
Qed.

Lemma holds_In t l : holds t l = true <-> exists m, In (l, m) (t_held t).
Proof.
  unfold holds. rewrite existsb_exists. split.
  - intros ([l' m] & H1 & H2). cbn in H2. destruct (lock_eq_dec l' l) as [->|]; [eauto|discriminate].
  - intros (m & H). exists (l, m). split; [exact H|]. cbn. destruct (lock_eq_dec l l); congruence.
Qed.
Lemma holdsW_In t l : holdsW t l = true <-> In (l, MW) (t_held t).
Proof.
  unfold holdsW. rewrite existsb_exists. split.
  - intros ([l' m] & H1 & H2). cbn in H2. destruct (lock_eq_dec l' l) as [->|]; [|discriminate]. now destruct m.
  - intros H. exists (l, MW). split; [exact H|]. cbn. destruct (lock_eq_dec l l); congruence.
Qed.

Lemma existsb_nth {A} f (l : list A) i x : existsb f l = false -> nth_error l i = Some x -> f x = false.
Proof.
  intros H Hx. destruct (f x) eqn:E; [|reflexivity]. apply Bool.not_true_iff_false in H. exfalso. apply H.
  apply existsb_exists. exists x. split; [eapply nth_error_In; eauto|exact E].
Qed.

Lemma step_inv s i s' : Forall twf s -> excl s -> lstep s i = Some s' -> Forall twf s' /\ excl s'.
Proof.
  intros W X H. unfold lstep in H. destruct (nth_error s i) as [t|] eqn:Et; [|discriminate].
  assert (Wt : twf t) by (rewrite Forall_forall in W; apply W; eapply nth_error_In; eauto).
  assert (Hi : i < length s) by (apply nth_error_Some; congruence).
  assert (Key : forall t', twf t' -> (forall l m, In (l, m) (t_held t') -> In (l, m) (t_held t) \/
      (forall j u, j <> i -> nth_error s j = Some u -> ~ In (l, MW) (t_held u)) /\
      (m = MW -> forall j u m', j <> i -> nth_error s j = Some u -> ~ In (l, m') (t_held u))) ->
    Forall twf (upd i t' s) /\ excl (upd i t' s)).
  { intros t' Wt' Hh. split.
    - apply Forall_forall. intros y Hy. apply In_upd in Hy as [->|Hy]; [exact Wt'|]. rewrite Forall_forall in W. auto.
    - intros a b u v l Ha Hb Hab Hl m Hm.
      destruct (Nat.eq_dec a i) as [->|Hai], (Nat.eq_dec b i) as [->|Hbi]; try congruence.
      + rewrite nth_upd_eq in Ha by exact Hi. injection Ha as <-. rewrite nth_upd_ne in Hb by congruence.
        destruct (Hh _ _ Hl) as [Ho|[_ Hn]]; [exact (X _ _ _ _ _ Et Hb Hab Ho m Hm)|]. exact (Hn eq_refl _ _ _ Hbi Hb Hm).
      + rewrite nth_upd_eq in Hb by exact Hi. injection Hb as <-. rewrite nth_upd_ne in Ha by congruence.
        destruct (Hh _ _ Hm) as [Ho|[Hn _]]; [exact (X _ _ _ _ _ Ha Et Hab Hl m Ho)|]. exact (Hn _ _ Hai Ha Hl).
      + rewrite nth_upd_ne in Ha by congruence. rewrite nth_upd_ne in Hb by congruence. exact (X _ _ _ _ _ Ha Hb Hab Hl m Hm). }
  destruct (t_todo t) as [|[l [|]|l] k] eqn:Ek; [discriminate|..]; unfold twf in Wt; rewrite Ek in Wt; cbn [wf] in Wt.
  - destruct (existsb _ s) eqn:Ex; [discriminate|]. injection H as <-. apply Key; [exact (proj2 Wt)|].
    intros l' m' [[= <- <-]|Hin]; [right|now left]. split; [|discriminate].
    intros j u Hj Hu Hw. apply (existsb_nth _ _ _ _ Ex) in Hu. cbv beta in Hu. apply Bool.orb_false_iff in Hu as [Hu _].
    apply holdsW_In in Hw. congruence.
  - destruct (t_wait t).
    + destruct (existsb _ s) eqn:Ex; [discriminate|]. injection H as <-. apply Key; [exact (proj2 Wt)|].
      assert (Hno : forall j u m, j <> i -> nth_error s j = Some u -> ~ In (l, m) (t_held u)).
      { intros j u m Hj Hu Hm. apply (existsb_nth _ _ _ _ Ex) in Hu. cbv beta in Hu.
        assert (holds u l = true) by (apply holds_In; eauto). congruence. }
      intros l' m' [[= <- <-]|Hin]; [right|now left]. split; [intros j u Hj Hu; eauto|intros _; exact Hno].
    + injection H as <-. apply Key; [|intros l' m' Hin; now left]. exact Wt.
  - injection H as <-. apply Key; [exact Wt|]. cbn [t_held]. intros l' m' Hin. unfold release in Hin. apply filter_In in Hin. left. tauto.
Qed.

Lemma run_inv sched : forall s, Forall twf s -> excl s -> Forall twf (lrun s sched) /\ excl (lrun s sched).
Proof.
  induction sched as [|i r IH]; intros s W X; cbn [lrun]; [auto|].
  destruct (lstep s i) as [s'|] eqn:E; [|auto]. destruct (step_inv _ _ _ W X E). auto.
Qed.

(** What an unfinished goroutine asks for. *)
Definition target (t : thr) : option lock := match t_todo t with Acq l _ :: _ => Some l | _ => None end.
Lemma holder_target s t l m : Forall twf s -> stuck s -> In t s -> In (l, m) (t_held t) ->
  exists l', target t = Some l' /\
    ((rank l < rank l')%N \/ (rank l = rank l' /\ l <> l' /\ In (LMaint, MW) (t_held t))).
Proof.
  intros W Hs Ht Hl. rewrite Forall_forall in W. specialize (W _ Ht). unfold twf in W.
  destruct (In_nth_error _ _ Ht) as (i & Hi). specialize (Hs i). unfold lstep in Hs. rewrite Hi in Hs. unfold target.
  destruct (t_todo t) as [|[l' m'|l'] k]; cbn [wf] in W; [rewrite W in Hl; destruct Hl| |discriminate].
  exists l'. split; [reflexivity|]. exact (proj1 W _ _ Hl).
Qed.
Lemma blocked_target s t l : stuck s -> In t s -> target t = Some l ->
  exists u, In u s /\ ((exists m, In (l, m) (t_held u)) \/ (waits u l = true /\ exists v m, In v s /\ In (l, m) (t_held v))).
Proof.
  intros Hs Ht Hl. destruct (In_nth_error _ _ Ht) as (i & Hi). pose proof (Hs i) as Hb. unfold lstep in Hb. rewrite Hi in Hb.
  unfold target in Hl. destruct (t_todo t) as [|[l0 m|l0] k] eqn:Ek; try discriminate. injection Hl as ->. destruct m.
  - destruct (existsb _ s) eqn:Ex in Hb; [|discriminate]. apply existsb_exists in Ex as (u & Hu & Hx).
    exists u. split; [exact Hu|]. apply Bool.orb_true_iff in Hx as [Hx|Hx]; [left; exists MW; now apply holdsW_In|].
    right. split; [exact Hx|]. unfold waits in Hx. apply andb_prop in Hx as [Hw Hx].
    destruct (In_nth_error _ _ Hu) as (j & Hj). specialize (Hs j). unfold lstep in Hs. rewrite Hj in Hs.
    destruct (t_todo u) as [|[l1 [|]|l1] k1]; try discriminate. destruct (lock_eq_dec l1 l) as [->|]; [|discriminate].
    rewrite Hw in Hs. destruct (existsb _ s) eqn:Ex in Hs; [|discriminate]. apply existsb_exists in Ex as (v & Hv & Hh).
    apply holds_In in Hh as (m & Hm). eauto.
  - destruct (t_wait t); [|discriminate]. destruct (existsb _ s) eqn:Ex in Hb; [|discriminate].
    apply existsb_exists in Ex as (u & Hu & Hh). apply holds_In in Hh. eauto.
Qed.
(** Whoever asks for a lock in a stuck state asks for one that somebody holds. *)
Lemma blocked_held s t l : stuck s -> In t s -> target t = Some l -> exists u m, In u s /\ In (l, m) (t_held u).
Proof.
  intros Hs Ht Hl. destruct (blocked_target _ _ _ Hs Ht Hl) as (u & Hu & [(m & Hm)|(_ & v & m & Hv & Hm)]); eauto.
Qed.

Lemma max_target s : (exists t l, In t s /\ target t = Some l) ->
  exists t l, In t s /\ target t = Some l /\ forall t' l', In t' s -> target t' = Some l' -> (rank l' <= rank l)%N.
Proof.
  induction s as [|a s IH]; [intros (t & l & [] & _)|]. intros (t0 & l0 & Ht0 & Hl0).
  assert (D : (exists t l, In t s /\ target t = Some l) \/ (forall t, In t s -> target t = None)).
  { clear. induction s as [|a s IH]; [right; intros t []|]. destruct (target a) as [l|] eqn:E; [left; exists a, l; split; [now left|exact E]|].
    destruct IH as [(t & l & H1 & H2)|H]; [left; exists t, l; split; [now right|exact H2]|right]. intros t [<-|Ht]; auto. }
  destruct D as [D|D].
  - destruct (IH D) as (t & l & H1 & H2 & H3). destruct (target a) as [la|] eqn:Ea.
    + destruct (N.le_gt_cases (rank la) (rank l)) as [Hle|Hgt].
      * exists t, l. split; [now right|]. split; [exact H2|]. intros t' l' [<-|Ht'] Hl'; [congruence|eauto].
      * exists a, la. split; [now left|]. split; [exact Ea|]. intros t' l' [<-|Ht'] Hl'.
        -- replace l' with la by congruence. lia.
        -- specialize (H3 _ _ Ht' Hl'). lia.
    + exists t, l. split; [now right|]. split; [exact H2|]. intros t' l' [<-|Ht'] Hl'; [congruence|eauto].
  - destruct Ht0 as [->|Ht0]; [|rewrite D in Hl0 by exact Ht0; discriminate].
    exists t0, l0. split; [now left|]. split; [exact Hl0|]. intros t' l' [<-|Ht'] Hl'; [replace l' with l0 by congruence; lia|].
    rewrite D in Hl' by exact Ht'. discriminate.
Qed.

Lemma stuck_finished s : Forall twf s -> excl s -> stuck s -> finished s.
Proof.
  intros W X Hs t Ht. destruct (t_todo t) as [|a k] eqn:Ek; [reflexivity|]. exfalso.
  assert (Hex : exists t l, In t s /\ target t = Some l).
  { exists t. destruct (In_nth_error _ _ Ht) as (i & Hi). pose proof (Hs i) as Hb. unfold lstep in Hb. rewrite Hi, Ek in Hb.
    unfold target. rewrite Ek. destruct a as [l m|l]; [exists l; auto|discriminate]. }
  destruct (max_target s Hex) as (t1 & l & Ht1 & Hl & Hmax).
  destruct (blocked_held _ _ _ Hs Ht1 Hl) as (u & m & Hu & Hm).
  destruct (holder_target _ _ _ _ W Hs Hu Hm) as (l' & Hl' & [Hlt|(He & Hne & Hg)]).
  { specialize (Hmax _ _ Hu Hl'). lia. }
  destruct (blocked_held _ _ _ Hs Hu Hl') as (v & m' & Hv & Hm').
  destruct (holder_target _ _ _ _ W Hs Hv Hm') as (l'' & Hl'' & [Hlt|(He2 & Hne2 & Hg2)]).
  { specialize (Hmax _ _ Hv Hl''). lia. }
  destruct (In_nth_error _ _ Hu) as (i & Hi). destruct (In_nth_error _ _ Hv) as (j & Hj).
  destruct (Nat.eq_dec i j) as [<-|Hij]; [|exact (X _ _ _ _ _ Hi Hj Hij Hg _ Hg2)].
  replace v with u in * by congruence.
  rewrite Forall_forall in W. specialize (W _ Hu). unfold twf in W. unfold target in Hl'.
  destruct (t_todo u) as [|[l0 m0|l0] k0]; try discriminate. injection Hl' as ->. destruct W as [Hmay _].
  destruct (Hmay _ _ Hm') as [?|(_ & ? & _)]; [lia|congruence].
Qed.

(** Every step uses up at most two units of what is left. *)
Definition left (s : threads) : nat := fold_right (fun t n => 2 * length (t_todo t) - (if t_wait t then 1 else 0) + n) 0 s.
Definition waitok (t : thr) : Prop := t_wait t = true -> t_todo t <> [].
Lemma left_upd s i t t' : nth_error s i = Some t ->
  (2 * length (t_todo t') - (if t_wait t' then 1 else 0) < 2 * length (t_todo t) - (if t_wait t then 1 else 0)) ->
  left (upd i t' s) < left s.
Proof.
  revert i. induction s as [|a s IH]; intros [|i]; cbn [nth_error upd left fold_right]; try discriminate.
  - intros [= ->] H. fold (left s). lia.
  - intros H1 H2. specialize (IH _ H1 H2). unfold left in IH. lia.
Qed.
Lemma step_left s i s' : lstep s i = Some s' -> left s' < left s.
Proof.
  unfold lstep. destruct (nth_error s i) as [t|] eqn:Et; [|discriminate].
  destruct (t_todo t) as [|[l [|]|l] k] eqn:Ek; [discriminate|..].
  - destruct (existsb _ s); [discriminate|]. intros [= <-]. apply (left_upd _ _ _ _ Et). cbn [t_todo t_wait]. rewrite Ek. cbn [length].
    destruct (t_wait t); lia.
  - destruct (t_wait t) eqn:Ew.
    + destruct (existsb _ s); [discriminate|]. intros [= <-]. apply (left_upd _ _ _ _ Et). cbn [t_todo t_wait]. rewrite Ek, Ew. cbn [length]. lia.
    + intros [= <-]. apply (left_upd _ _ _ _ Et). cbn [t_todo t_wait]. rewrite Ek, Ew. cbn [length]. lia.
  - intros [= <-]. apply (left_upd _ _ _ _ Et). cbn [t_todo t_wait]. rewrite Ek. cbn [length]. destruct (t_wait t); lia.
Qed.

Lemma start_wf ps : Forall (wf []) ps -> Forall twf (start ps) /\ excl (start ps).
Proof.
  intros Hp. split.
  - unfold start. apply Forall_forall. intros t Ht. apply in_map_iff in Ht as (p & <- & Hin). unfold twf. cbn [t_held t_todo].
    rewrite Forall_forall in Hp. exact (Hp _ Hin).
  - intros i j t u l Hi _ _ Hl. unfold start in Hi. rewrite nth_error_map in Hi. destruct (nth_error ps i); [|discriminate].
    injection Hi as <-. destruct Hl.
Qed.
Lemma start_inv c ps : fits false 0 c -> Forall (traces c) ps -> Forall twf (start ps) /\ excl (start ps).
Proof.
  intros Hf Hp. apply start_wf. eapply Forall_impl; [|exact Hp]. intros p H. rewrite <- (app_nil_r p).
  apply (traces_wf c p H false 0%N); [exact Hf|intros l m []|discriminate|reflexivity].
Qed.

Lemma lrun_app a b s : lrun s (a ++ b) = lrun (lrun s a) b.
Proof. revert s. induction a as [|i a IH]; intros s; cbn [app lrun]; [reflexivity|apply IH]. Qed.
(** From every state there is a way to an end. *)
Lemma run_on n : forall s, left s < n -> exists sched, stuck (lrun s sched).
Proof.
  induction n as [|n IH]; intros s Hn; [lia|].
  assert (D : (exists i s', lstep s i = Some s') \/ stuck s).
  { assert (D : forall m, (exists i s', lstep s i = Some s') \/ forall i, i < m -> lstep s i = None).
    { induction m as [|m [H|H]]; [right; lia|now left|]. destruct (lstep s m) as [s'|] eqn:E; [left; eauto|].
      right. intros i Hi. destruct (Nat.eq_dec i m) as [->|]; [exact E|apply H; lia]. }
    destruct (D (length s)) as [H|H]; [now left|right]. intros i. destruct (Nat.lt_ge_cases i (length s)) as [Hlt|Hge]; [auto|].
    unfold lstep. now rewrite (proj2 (nth_error_None s i) Hge). }
  destruct D as [(i & s' & E)|D].
  - pose proof (step_left _ _ _ E). destruct (IH s') as (sched & Hs); [lia|]. exists (i :: sched). cbn [lrun]. now rewrite E.
  - exists []. exact D.
Qed.

Lemma fits_goroutine : fits false 0 c_goroutine.
Proof. cbn. repeat split; intros; repeat split; try lia; try reflexivity. Qed.
Lemma fits_op : fits false 0 c_any_op.
Proof. exact fits_goroutine. Qed.
