(** The write-back of vertices when requests run at the same time. *)
From Verif Require Import Base WriteBack.

Lemma mdel_some' {V} k k' (m : nmap V) v : mget k (mdel k' m) = Some v -> mget k m = Some v /\ k <> k'.
Proof.
  destruct (N.eq_dec k k') as [->|Hne]; [now rewrite mget_mdel_eq|]. rewrite mget_mdel_ne by exact Hne. auto.
Qed.

Section P.
Context {V : Type}.
Implicit Types (s : wstate V) (o : wop V).

(** Some Flush is between marshalling vertex [id] and marking it. *)
Definition flushes s (t id : N) : Prop :=
  exists r, mget t (w_hand s) = Some (HPut id r) \/ exists v, mget t (w_hand s) = Some (HSnap id r v).

(** A step of a history in which, between the moment a Flush marshals a vertex and
    the moment it marks it, nobody changes that vertex and no other Flush writes it,
    and in which a vertex that is being added is not written before its request has
    linked it. *)
Definition tidy s o : Prop :=
  match o with
  | WMarshal t id => forall t', t' <> t -> ~ flushes s t' id
  | WLink t f b => forall id r t', mget t (w_hand s) = Some (HNode id r) -> ~ flushes s t' id
  | WSet t f => forall id r, mget t (w_hand s) = Some (HOwn id r) ->
      (forall t', ~ flushes s t' id) /\ forall x, mget r (w_heap s) = Some x -> w_comm x = false
  | _ => True
  end.
Fixpoint tidy_run s (os : list (wop V)) : Prop :=
  match os with
  | [] => True
  | o :: os' => tidy s o /\ tidy_run (wstep s o) os'
  end.
Definition all_written s : Prop :=
  forall id r x, mget id (w_cache s) = Some r -> mget r (w_heap s) = Some x -> w_comm x = true.

Definition holds (g : handle V) (id r : N) : Prop :=
  match g with
  | HLoaded _ _ => False
  | HOwn id' r' | HNode id' r' | HSnap id' r' _ | HPut id' r' => id' = id /\ r' = r
  end.
Definition refs s (id r : N) : Prop :=
  mget id (w_cache s) = Some r \/ exists t g, mget t (w_hand s) = Some g /\ holds g id r.

Record winv s : Prop := mkWinv {
  wi_fresh : forall r x, mget r (w_heap s) = Some x -> (r < w_next s)%N;
  wi_refs : forall id r, refs s id r -> exists x, mget r (w_heap s) = Some x;
  wi_own : forall a c r, refs s a r -> refs s c r -> a = c;
  wi_comm : forall id r x, mget id (w_cache s) = Some r -> mget r (w_heap s) = Some x -> w_comm x = true ->
            mget id (w_kv s) = Some (w_val x);
  wi_one : forall t t' id, flushes s t id -> flushes s t' id -> t = t';
  wi_snap : forall t id r v, mget t (w_hand s) = Some (HSnap id r v) ->
            (forall x, mget r (w_heap s) = Some x -> w_val x = v) /\
            (forall r' x, mget id (w_cache s) = Some r' -> mget r' (w_heap s) = Some x -> w_comm x = false);
  wi_put : forall t id r x, mget t (w_hand s) = Some (HPut id r) -> mget r (w_heap s) = Some x ->
            mget id (w_kv s) = Some (w_val x)
}.

Lemma winv_start kv : winv (mkWS [] 0 [] kv []).
Proof.
  constructor; cbn; try discriminate.
  - intros id r [H|(t & g & H & _)]; discriminate.
  - intros a c r [H|(t & g & H & _)]; discriminate.
  - intros t t' id (r & [H|(l & H)]); discriminate.
Qed.

Lemma flushes_put s t id r : mget t (w_hand s) = Some (HPut id r) -> flushes s t id.
Proof. intros H. exists r. now left. Qed.
Lemma flushes_snap s t id r v : mget t (w_hand s) = Some (HSnap id r v) -> flushes s t id.
Proof. intros H. exists r. right. eauto. Qed.

Lemma winv_hand s t g : winv s ->
  match g with HLoaded _ _ => True | HNode id r => mget id (w_cache s) = Some r | _ => False end ->
  winv (set_hand s t g).
Proof.
  intros [A B C E F G H] Hg.
  assert (R : forall id r, refs (set_hand s t g) id r -> refs s id r).
  { intros id r [X|(t' & g' & X & Y)]; [now left|]. cbn [set_hand w_hand] in X. rewrite mget_mset in X.
    destruct (N.eqb t' t); [|right; eauto]. injection X as <-. destruct g; cbn in Y, Hg; try contradiction.
    destruct Y as [-> ->]. now left. }
  assert (Fl : forall t' id, flushes (set_hand s t g) t' id -> flushes s t' id).
  { intros t' id (r & X). unfold flushes. cbn [set_hand w_hand] in X. rewrite mget_mset in X.
    destruct (N.eqb_spec t' t) as [->|Hne]; [|exists r; exact X].
    exfalso. destruct X as [X|(l & X)]; injection X as ->; exact Hg. }
  assert (Old : forall t' g', mget t' (w_hand (set_hand s t g)) = Some g' ->
            match g' with HSnap _ _ _ | HPut _ _ => mget t' (w_hand s) = Some g' | _ => True end).
  { intros t' g' X. cbn [set_hand w_hand] in X. rewrite mget_mset in X. destruct (N.eqb t' t).
    - injection X as <-. destruct g; try exact I; contradiction.
    - destruct g'; auto. }
  constructor; auto.
  - intros id r X. eauto.
  - intros a c r X Y. eauto.
  - intros t1 t2 id X Y. eauto.
  - intros t' id r l X. apply Old in X. exact (G _ _ _ _ X).
  - intros t' id r o X. apply Old in X. eauto.
Qed.

(** Handles and cache entries go away; nothing else changes. *)
Lemma winv_less s c g : winv s ->
  (forall id r, mget id c = Some r -> mget id (w_cache s) = Some r) ->
  (forall t x, mget t g = Some x -> mget t (w_hand s) = Some x) ->
  winv (mkWS (w_heap s) (w_next s) c (w_kv s) g).
Proof.
  intros [A B C E F G H] Hc Hg. set (s' := mkWS _ _ _ _ _).
  assert (R : forall id r, refs s' id r -> refs s id r).
  { intros id r [X|(t' & g' & X & Y)]; [left; auto|]. right. exists t', g'. split; [apply Hg, X|exact Y]. }
  assert (Fl : forall t' id, flushes s' t' id -> flushes s t' id).
  { intros t' id (r & [X|(l & X)]); apply Hg in X; exists r; [left; exact X|right; exists l; exact X]. }
  constructor; auto; cbn [s' w_heap w_cache w_hand w_kv] in *; try (intros; eauto; fail).
  intros t id r v X. destruct (G _ _ _ _ (Hg _ _ X)) as [G1 G2]. split; [exact G1|]. intros r' x Y. eauto.
Qed.
Lemma winv_drop s t : winv s -> winv (drop_hand s t).
Proof. intros I. apply winv_less; [exact I|auto|]. intros t' x X. now apply mdel_some' in X. Qed.
Lemma winv_none s : winv s -> winv (no_hands s).
Proof. intros I. apply winv_less; [exact I|auto|]. discriminate. Qed.
Lemma winv_evict s id : winv s -> winv (wstep s (WEvict id)).
Proof. intros I. cbn [wstep]. apply winv_less; [exact I| |auto]. intros t' x X. now apply mdel_some' in X. Qed.

Lemma winv_fresh s t id v g : winv s -> (g = HOwn id (w_next s) \/ g = HNode id (w_next s)) -> winv (fresh_obj s t id v g).
Proof.
  intros [A B C E F G H] Hg. set (s' := fresh_obj _ _ _ _ _).
  assert (Hc : forall id', mget id' (w_cache s') = if N.eqb id' id then Some (w_next s) else mget id' (w_cache s))
    by (intros; apply mget_mset).
  assert (Hh : forall r, (r < w_next s)%N -> mget r (w_heap s') = mget r (w_heap s)).
  { intros r X. unfold s'. cbn [fresh_obj w_heap]. apply mget_mset_ne. lia. }
  assert (Hn : mget (w_next s) (w_heap s') = Some (mkW v false)) by (unfold s'; cbn [fresh_obj w_heap]; apply mget_mset_eq).
  assert (Lt : forall id' r, refs s id' r -> (r < w_next s)%N).
  { intros id' r X. destruct (B _ _ X) as (o & Ho). eauto. }
  assert (R : forall id' r, refs s' id' r -> (id' = id /\ r = w_next s) \/ refs s id' r).
  { intros id' r [X|(t' & g' & X & Y)].
    - rewrite Hc in X. destruct (N.eqb_spec id' id) as [->|]; [left; split; congruence|].
      right. now left.
    - unfold s' in X. cbn [fresh_obj w_hand] in X. rewrite mget_mset in X. destruct (N.eqb t' t).
      + injection X as <-. destruct Hg as [-> | ->]; cbn in Y; destruct Y as [-> ->]; now left.
      + right. right. eauto. }
  assert (Old : forall t' g', mget t' (w_hand s') = Some g' ->
            match g' with HSnap _ _ _ | HPut _ _ => mget t' (w_hand s) = Some g' | _ => True end).
  { intros t' g' X. unfold s' in X. cbn [fresh_obj w_hand] in X. rewrite mget_mset in X. destruct (N.eqb t' t).
    - injection X as <-. destruct Hg as [-> | ->]; exact I.
    - destruct g'; auto. }
  assert (Fl : forall t' id', flushes s' t' id' -> flushes s t' id').
  { intros t' id' (r & [X|(l' & X)]); apply Old in X; exists r; [now left|right; eauto]. }
  constructor.
  - intros r o. unfold s'. cbn [fresh_obj w_heap w_next]. rewrite mget_mset. destruct (N.eqb_spec r (w_next s)) as [->|]; [lia|].
    intros X. apply A in X. lia.
  - intros id' r X. destruct (R _ _ X) as [[-> ->]|Y]; [eauto|]. rewrite Hh by eauto. eauto.
  - intros a c r X Y. destruct (R _ _ X) as [[-> Er]|X'], (R _ _ Y) as [[-> Er']|Y']; auto.
    + subst r. apply Lt in Y'. lia.
    + subst r. apply Lt in X'. lia.
    + eauto.
  - intros id' r o. rewrite Hc. destruct (N.eqb_spec id' id) as [->|].
    + intros [= <-]. rewrite Hn. intros [= <-]. discriminate.
    + intros X. rewrite Hh by (apply (Lt id'); now left). unfold s'. cbn [fresh_obj w_kv]. eauto.
  - intros t1 t2 id' X Y. eauto.
  - intros t' id' r l' X. apply Old in X. destruct (G _ _ _ _ X) as [G1 G2]. split.
    + intros o. rewrite Hh; [auto|]. apply (Lt id'). right. exists t', (HSnap id' r l'). split; [exact X|cbn; auto].
    + intros r' o. rewrite Hc. destruct (N.eqb_spec id' id) as [->|].
      * intros [= <-]. rewrite Hn. now intros [= <-].
      * intros Y. rewrite Hh by (apply (Lt id'); now left). eauto.
  - intros t' id' r o X. apply Old in X. rewrite Hh; [eauto|]. apply (Lt id'). right.
    exists t', (HPut id' r). split; [exact X|cbn; auto].
Qed.

(** An object that nobody is writing changes its value; it is uncommitted afterwards,
    and may enter the cache. *)
Lemma winv_change s id r x v c : winv s -> refs s id r -> mget r (w_heap s) = Some x ->
  (forall t', ~ flushes s t' id) -> (c = w_cache s \/ c = mset id r (w_cache s)) ->
  winv (mkWS (mset r (mkW v false) (w_heap s)) (w_next s) c (w_kv s) (w_hand s)).
Proof.
  intros [A B C E F G H] Hr Eo Hnf Hc0. set (s' := mkWS _ _ _ _ _).
  assert (Hca : forall id' r', mget id' (w_cache s') = Some r' -> (id' = id /\ r' = r) \/ mget id' (w_cache s) = Some r').
  { intros id' r'. unfold s'. cbn [w_cache]. destruct Hc0 as [-> | ->]; [auto|]. rewrite mget_mset.
    destruct (N.eqb_spec id' id) as [->|]; [|auto]. intros [= <-]. auto. }
  assert (R : forall id' r', refs s' id' r' -> refs s id' r').
  { intros id' r' [X|(t' & g' & X & Y)]; [|right; eauto]. destruct (Hca _ _ X) as [[-> ->]|X']; [exact Hr|now left]. }
  constructor; auto.
  + intros r' o'. unfold s'. cbn [w_heap w_next]. rewrite mget_mset. destruct (N.eqb_spec r' r) as [->|]; eauto.
  + intros id' r' X. unfold s'. cbn [w_heap]. rewrite mget_mset. destruct (N.eqb r' r); eauto.
  + intros a c' r' X Y. eauto.
  + intros id' r' o' X. destruct (Hca _ _ X) as [[-> ->]|X']; unfold s'; cbn [w_heap w_kv]; rewrite mget_mset.
    * rewrite N.eqb_refl. intros [= <-]. discriminate.
    * destruct (N.eqb_spec r' r) as [->|]; [intros [= <-]; discriminate|eauto].
  + intros t' id' r' l' X. assert (Hne : id' <> id) by (intros ->; eapply Hnf, flushes_snap; exact X).
    assert (Hrr : r' <> r).
    { intros ->. apply Hne. apply (C id' id r); [|exact Hr]. right. exists t', (HSnap id' r l'). split; [exact X|cbn; auto]. }
    destruct (G _ _ _ _ X) as [G1 G2]. split.
    * intros o'. unfold s'. cbn [w_heap]. rewrite mget_mset_ne by exact Hrr. auto.
    * intros r2 o' Y. destruct (Hca _ _ Y) as [[-> _]|Y']; [congruence|].
      unfold s'. cbn [w_heap]. rewrite mget_mset. destruct (N.eqb_spec r2 r) as [->|]; [now intros [= <-]|eauto].
  + intros t' id' r' o' X. assert (Hne : id' <> id) by (intros ->; eapply Hnf, flushes_put; exact X).
    assert (Hrr : r' <> r).
    { intros ->. apply Hne. apply (C id' id r); [|exact Hr]. right. exists t', (HPut id' r). split; [exact X|cbn; auto]. }
    unfold s'. cbn [w_heap w_kv]. rewrite mget_mset_ne by exact Hrr. eauto.
Qed.

Lemma winv_step s o : winv s -> tidy s o -> winv (wstep s o).
Proof.
  intros I Hc. destruct o as [t id v|t f|t id|t|t f b|t|t id|t|t|id|]; cbn [tidy] in Hc; try (cbn [wstep]).
  - apply winv_fresh; auto.
  - destruct (mget t (w_hand s)) as [[id v|id r|id r|id r v|id r]|] eqn:Eg; try exact I.
    destruct (mget r (w_heap s)) as [x|] eqn:Ex; [|exact I].
    destruct (Hc id r eq_refl) as [Hf Hx]. rewrite (Hx x Ex).
    apply (winv_change s id r x (f (w_val x)) (w_cache s)); auto. right. exists t, (HOwn id r). split; [exact Eg|cbn; auto].
  - destruct (mget id (w_cache s)) as [r|] eqn:Er; [apply winv_hand; [exact I|exact Er]|].
    destruct (mget id (w_kv s)) as [l|] eqn:El; [apply winv_hand; [exact I|exact Logic.I]|now apply winv_drop].
  - destruct (mget t (w_hand s)) as [[id v|id r|id r|id r v|id r]|] eqn:Eg; try exact I.
    apply winv_fresh; auto.
  - destruct (mget t (w_hand s)) as [[id v|id r|id r|id r v|id r]|] eqn:Eg; try exact I.
    destruct (mget r (w_heap s)) as [x|] eqn:Ex; [|exact I].
    apply (winv_change s id r x (f (w_val x))); auto.
    + right. exists t, (HNode id r). split; [exact Eg|cbn; auto].
    + intros t'. eapply Hc. reflexivity.
    + destruct b; auto.
  - now apply winv_drop.
  - destruct (mget id (w_cache s)) as [r|] eqn:Er; [|now apply winv_drop].
    destruct (mget r (w_heap s)) as [o|] eqn:Eo; [|exact I].
    destruct (w_comm o) eqn:Ec; [now apply winv_drop|].
    destruct I as [A B C E F G H]. set (s' := set_hand _ _ _).
    assert (Go : forall t' g, mget t' (w_hand s') = Some g ->
              (t' = t /\ g = HSnap id r (w_val o)) \/ (t' <> t /\ mget t' (w_hand s) = Some g)).
    { intros t' g X. unfold s' in X. cbn [set_hand w_hand] in X. rewrite mget_mset in X.
      destruct (N.eqb_spec t' t) as [->|Hne]; [left; split; congruence|right; auto]. }
    assert (R : forall id' r', refs s' id' r' -> refs s id' r').
    { intros id' r' [X|(t' & g' & X & Y)]; [now left|]. destruct (Go _ _ X) as [[-> ->]|[_ X']]; [|right; eauto].
      cbn in Y. destruct Y as [-> ->]. now left. }
    assert (Fl : forall t' id', flushes s' t' id' -> (t' = t /\ id' = id) \/ (t' <> t /\ flushes s t' id')).
    { intros t' id' (r' & [X|(l' & X)]); destruct (Go _ _ X) as [[-> E1]|[Hne X']].
      - discriminate.
      - right. split; [exact Hne|]. exists r'. now left.
      - left. split; congruence.
      - right. split; [exact Hne|]. exists r'. right. eauto. }
    constructor; auto.
    + intros id' r' X. eauto.
    + intros a c r' X Y. eauto.
    + intros t1 t2 id' X Y. destruct (Fl _ _ X) as [[-> ->]|[N1 X']], (Fl _ _ Y) as [[-> Ey]|[N2 Y']]; auto.
      * destruct (Hc _ N2 Y').
      * subst id'. destruct (Hc _ N1 X').
      * eauto.
    + intros t' id' r' l' X. destruct (Go _ _ X) as [[-> E1]|[_ X']]; [injection E1 as E1 E2 E3; subst id' r' l'|exact (G _ _ _ _ X')].
      split; [intros o'; unfold s'; cbn [set_hand w_heap]; congruence|].
      intros r2 o'. unfold s'. cbn [set_hand w_cache w_heap]. rewrite Er. intros [= <-]. congruence.
    + intros t' id' r' o' X. destruct (Go _ _ X) as [[_ E1]|[_ X']]; [discriminate|exact (H _ _ _ _ X')].
  - destruct (mget t (w_hand s)) as [[id v|id r|id r|id r v|id r]|] eqn:Eg; try exact I.
    destruct I as [A B C E F G H]. set (s' := mkWS _ _ _ _ _).
    destruct (G _ _ _ _ Eg) as [G1 G2].
    assert (Go : forall t' g, mget t' (w_hand s') = Some g ->
              (t' = t /\ g = HPut id r) \/ (t' <> t /\ mget t' (w_hand s) = Some g)).
    { intros t' g X. unfold s' in X. cbn [w_hand] in X. rewrite mget_mset in X.
      destruct (N.eqb_spec t' t) as [->|Hne]; [left; split; congruence|right; auto]. }
    assert (R : forall id' r', refs s' id' r' -> refs s id' r').
    { intros id' r' [X|(t' & g' & X & Y)]; [now left|]. destruct (Go _ _ X) as [[-> ->]|[_ X']]; [|right; eauto].
      cbn in Y. destruct Y as [<- <-]. right. exists t, (HSnap id r v). split; [exact Eg|cbn; auto]. }
    assert (Fl : forall t' id', flushes s' t' id' -> flushes s t' id').
    { intros t' id' (r' & [X|(l' & X)]); destruct (Go _ _ X) as [[-> E1]|[Hne X']].
      - injection E1 as E1 E2. subst id' r'. eapply flushes_snap; exact Eg.
      - exists r'. now left.
      - discriminate.
      - exists r'. right. eauto. }
    constructor; auto.
    + intros id' r' X. eauto.
    + intros a c r' X Y. eauto.
    + intros id' r' o' X Y Z. unfold s' in X, Y |- *. cbn [w_cache w_heap w_kv] in X, Y |- *.
      rewrite mget_mset. destruct (N.eqb_spec id' id) as [->|]; [|eauto]. rewrite (G2 _ _ X Y) in Z. discriminate.
    + intros t1 t2 id' X Y. eauto.
    + intros t' id' r' l' X. destruct (Go _ _ X) as [[_ E1]|[_ X']]; [discriminate|]. exact (G _ _ _ _ X').
    + intros t' id' r' o' X Y. unfold s' in Y |- *. cbn [w_heap w_kv] in Y |- *. rewrite mget_mset.
      destruct (Go _ _ X) as [[-> E1]|[Hne X']]; [injection E1 as E1 E2; subst id' r'|].
      * rewrite N.eqb_refl. now rewrite (G1 _ Y).
      * destruct (N.eqb_spec id' id) as [->|]; [|eauto]. exfalso. apply Hne. eapply F; [eapply flushes_put; exact X'|eapply flushes_snap; exact Eg].
  - destruct (mget t (w_hand s)) as [[id v|id r|id r|id r v|id r]|] eqn:Eg; try exact I.
    destruct (mget r (w_heap s)) as [o|] eqn:Eo; [|exact I].
    assert (Hr : refs s id r) by (right; exists t, (HPut id r); split; [exact Eg|cbn; auto]).
    destruct I as [A B C E F G H]. set (s' := mkWS _ _ _ _ _).
    assert (Hca : forall id', mget id' (w_cache s') = if N.eqb id' id then Some r else mget id' (w_cache s))
      by (intros; apply mget_mset).
    assert (Go : forall t' g, mget t' (w_hand s') = Some g -> mget t' (w_hand s) = Some g /\ t' <> t).
    { intros t' g X. unfold s' in X. cbn [w_hand] in X. now apply mdel_some' in X. }
    assert (R : forall id' r', refs s' id' r' -> refs s id' r').
    { intros id' r' [X|(t' & g' & X & Y)]; [|right; exists t', g'; split; [apply Go, X|exact Y]].
      rewrite Hca in X. destruct (N.eqb_spec id' id) as [->|]; [congruence|now left]. }
    assert (Fl : forall t' id', flushes s' t' id' -> flushes s t' id' /\ t' <> t).
    { intros t' id' (r' & [X|(l' & X)]); destruct (Go _ _ X) as [X' Hne]; (split; [|exact Hne]); exists r'; [now left|right; eauto]. }
    constructor; auto.
    + intros r' o'. unfold s'. cbn [w_heap w_next]. rewrite mget_mset. destruct (N.eqb_spec r' r) as [->|]; eauto.
    + intros id' r' X. unfold s'. cbn [w_heap]. rewrite mget_mset. destruct (N.eqb r' r); eauto.
    + intros a c r' X Y. eauto.
    + intros id' r' o' X. assert (X' : refs s id' r') by (apply R; now left).
      rewrite Hca in X. unfold s'. cbn [w_heap w_kv]. rewrite mget_mset.
      destruct (N.eqb_spec r' r) as [->|].
      * intros [= <-] _. cbn [w_val]. assert (id' = id) by eauto. subst id'. eauto.
      * destruct (N.eqb_spec id' id) as [->|]; [congruence|eauto].
    + intros t1 t2 id' X Y. eapply F; [apply Fl, X|apply Fl, Y].
    + intros t' id' r' l' X. destruct (Go _ _ X) as [X' Hne].
      assert (Hid : id' <> id).
      { intros ->. apply Hne. eapply F; [eapply flushes_snap; exact X'|eapply flushes_put; exact Eg]. }
      assert (Hrr : r' <> r).
      { intros ->. apply Hid. apply (C id' id r); [|exact Hr]. right. exists t', (HSnap id' r l'). split; [exact X'|cbn; auto]. }
      destruct (G _ _ _ _ X') as [G1 G2]. split.
      * intros o'. unfold s'. cbn [w_heap]. rewrite mget_mset_ne by exact Hrr. auto.
      * intros r2 o' Y. rewrite Hca in Y. destruct (N.eqb_spec id' id) as [->|]; [congruence|].
        unfold s'. cbn [w_heap]. rewrite mget_mset_ne; [eauto|]. intros ->. apply Hid. apply (C id' id r); [now left|exact Hr].
    + intros t' id' r' o' X. destruct (Go _ _ X) as [X' Hne]. unfold s'. cbn [w_heap w_kv]. rewrite mget_mset.
      destruct (N.eqb_spec r' r) as [->|]; [|eauto]. intros [= <-]. cbn [w_val]. eauto.
  - now apply (winv_evict s id).
  - apply winv_start.
Qed.

Lemma winv_run os : forall s, winv s -> tidy_run s os -> winv (wrun s os).
Proof.
  induction os as [|o os IH]; intros s I Hc; cbn [wrun fold_left]; [exact I|]. destruct Hc as [H1 H2].
  apply IH; [now apply winv_step|exact H2].
Qed.

(** The cache shows nothing that is not in the table. *)
Definition in_table s : Prop :=
  forall id r x, mget id (w_cache s) = Some r -> mget r (w_heap s) = Some x -> mget id (w_kv s) = Some (w_val x).
Lemma written_in_table s : winv s -> all_written s -> in_table s.
Proof. intros I H id r x Hc Hx. apply (wi_comm _ I id r x Hc Hx). eapply H; eauto. Qed.
Lemma in_table_shown s : winv s -> in_table s -> forall id, shown (wstep s WRestart) id = shown s id.
Proof.
  intros I H id. unfold shown. cbn [wstep w_cache w_kv mget]. destruct (mget id (w_cache s)) as [r|] eqn:Er; [|reflexivity].
  destruct (wi_refs _ I id r (or_introl Er)) as (x & Hx). rewrite Hx. cbn [option_map]. eauto.
Qed.

(** ** Requests one after the other *)

Lemma tidy_app os1 : forall s os2, tidy_run s os1 -> tidy_run (wrun s os1) os2 -> tidy_run s (os1 ++ os2).
Proof.
  induction os1 as [|o os1 IH]; intros s os2 H1 H2; [exact H2|]. destruct H1 as [H0 H1]. split; [exact H0|]. now apply IH.
Qed.
Lemma tidy_firstn n : forall os s, tidy_run s os -> tidy_run s (firstn n os).
Proof.
  induction n as [|n IH]; intros [|o os] s H; cbn [firstn tidy_run]; auto. destruct H as [H0 H]. split; [exact H0|]. now apply IH.
Qed.

(** While a request works, nobody flushes and the vertices being added are unwritten. *)
Definition at_work s : Prop :=
  (forall t id, ~ flushes s t id) /\
  (forall t id r x, mget t (w_hand s) = Some (HOwn id r) -> mget r (w_heap s) = Some x -> w_comm x = false).
Lemma at_work_tidy s o : at_work s -> works o = true -> tidy s o.
Proof.
  intros [A B] Hw. destruct o; cbn [tidy] in *; auto; try discriminate.
  intros id r Hg. split; [intros t'; apply A|]. intros x. eapply B; exact Hg.
Qed.
Lemma at_work_step s o : winv s -> at_work s -> works o = true -> at_work (wstep s o).
Proof.
  intros I [A B] Hw.
  assert (HD : forall t, at_work (drop_hand s t)).
  { intros t. split.
    - intros t' id (r & [X|(l & X)]); cbn [drop_hand w_hand] in X; apply mdel_some' in X as [X _];
        apply (A t' id); exists r; [now left|right; eauto].
    - intros t' id r x X. cbn [drop_hand w_hand] in X. apply mdel_some' in X as [X _]. eapply B; exact X. }
  assert (HS : forall t g, match g with HLoaded _ _ | HNode _ _ => True | _ => False end -> at_work (set_hand s t g)).
  { intros t g Hg. split.
    - intros t' id (r & X). cbn [set_hand w_hand] in X. rewrite mget_mset in X. destruct (N.eqb t' t).
      + destruct X as [X|(l & X)]; injection X as ->; exact Hg.
      + apply (A t' id). exists r. exact X.
    - intros t' id r x X. cbn [set_hand w_hand] in X. rewrite mget_mset in X. destruct (N.eqb t' t); [|eapply B; exact X].
      injection X as ->. contradiction. }
  assert (HF : forall t id v g, (g = HOwn id (w_next s) \/ g = HNode id (w_next s)) -> at_work (fresh_obj s t id v g)).
  { intros t id v g Hg. split.
    - intros t' id' (r & X). cbn [fresh_obj w_hand] in X. rewrite mget_mset in X. destruct (N.eqb t' t).
      + destruct X as [X|(l & X)]; destruct Hg as [-> | ->]; discriminate.
      + apply (A t' id'). exists r. exact X.
    - intros t' id' r x X. cbn [fresh_obj w_hand w_heap] in *. rewrite mget_mset in X. rewrite mget_mset.
      destruct (N.eqb_spec r (w_next s)) as [->|Hne]; [now intros [= <-]|]. destruct (N.eqb t' t); [|eapply B; exact X].
      injection X as X. destruct Hg as [-> | ->]; [injection X as _ X; congruence|discriminate]. }
  assert (HC : forall r x v c, mget r (w_heap s) = Some x ->
            at_work (mkWS (mset r (mkW v false) (w_heap s)) (w_next s) c (w_kv s) (w_hand s))).
  { intros r x v c Hx. split; [exact A|]. intros t' id' r' x' X. cbn [w_hand w_heap] in *. rewrite mget_mset.
    destruct (N.eqb r' r); [now intros [= <-]|eapply B; exact X]. }
  destruct o as [t id v|t f|t id|t|t f b|t|t id|t|t|id|]; try discriminate Hw; cbn [wstep].
  - auto.
  - destruct (mget t (w_hand s)) as [[id v|id r|id r|id r v|id r]|] eqn:Eg; try (split; assumption).
    destruct (mget r (w_heap s)) as [x|] eqn:Ex; [|split; assumption].
    rewrite (B t id r x Eg Ex). eapply HC; exact Ex.
  - destruct (mget id (w_cache s)) as [r|] eqn:Er; [apply HS; exact Logic.I|].
    destruct (mget id (w_kv s)) as [l|] eqn:El; [apply HS; exact Logic.I|auto].
  - destruct (mget t (w_hand s)) as [[id v|id r|id r|id r v|id r]|] eqn:Eg; try (split; assumption). auto.
  - destruct (mget t (w_hand s)) as [[id v|id r|id r|id r v|id r]|] eqn:Eg; try (split; assumption).
    destruct (mget r (w_heap s)) as [x|] eqn:Ex; [|split; assumption]. eapply HC; exact Ex.
  - auto.
  - split; assumption.
Qed.
Lemma work_inv os : forall s, winv s -> at_work s -> forallb works os = true -> winv (wrun s os) /\ tidy_run s os.
Proof.
  induction os as [|o os IH]; intros s I Hw Ho; cbn [wrun fold_left tidy_run]; [auto|]. cbn [forallb] in Ho.
  apply andb_prop in Ho as [H1 H2]. pose proof (at_work_tidy s o Hw H1) as Ht.
  destruct (IH (wstep s o)) as [P Q]; [now apply winv_step|now apply at_work_step|exact H2|]. auto.
Qed.
Lemma no_hands_at_work s : (forall t, mget t (w_hand s) = None) -> at_work s.
Proof.
  intros H. split.
  - intros t id (r & [X|(l & X)]); rewrite H in X; discriminate.
  - intros t id r x X. rewrite H in X. discriminate.
Qed.
Lemma filter_works (f : wop V -> bool) os : forallb f (filter f os) = true.
Proof. apply forallb_forall. intros o Ho. now apply filter_In in Ho. Qed.

Definition idle s : Prop := forall t, mget t (w_hand s) = None.

Lemma worked_winv s body : winv s -> idle s -> winv (worked s body).
Proof.
  intros I H. apply winv_none. apply work_inv; [exact I|now apply no_hands_at_work|apply filter_works].
Qed.

(** Flush: handle 0 alone; what is cached is among the keys to come, the current
    vertex, or written. *)
Definition cur s (k : N) (ph : bool) : Prop :=     (* [ph]: written to the table *)
  exists r v, mget 0 (w_hand s) = Some (if ph then HPut k r else HSnap k r v).
Definition only0 s : Prop := forall t, t <> 0%N -> mget t (w_hand s) = None.
Definition todo s (keys : list N) : Prop :=
  forall id r x, mget id (w_cache s) = Some r -> mget r (w_heap s) = Some x -> In id keys \/ w_comm x = true.

Lemma evict_keeps ids : forall s, let s' := wrun s (evictions ids) in
  w_hand s' = w_hand s /\ (winv s -> winv s') /\ (forall keys, todo s keys -> todo s' keys) /\
  (in_table s -> in_table s') /\ tidy_run s (evictions ids).
Proof.
  induction ids as [|i ids IH]; intros s; cbn [evictions map wrun fold_left tidy_run]; [split; [reflexivity|]; split; [auto|]; split; [auto|]; split; auto|].
  destruct (IH (wstep s (WEvict i))) as (A & B & C & D & E). fold (evictions (V := V) ids).
  fold (wrun (wstep s (WEvict i)) (evictions ids)). split; [exact A|]. split; [|split; [|split; [|split; [exact Logic.I|exact E]]]].
  - intros I. apply B. now apply winv_evict.
  - intros keys H. apply C. intros id r x X. cbn [wstep w_cache w_heap] in *. apply mdel_some' in X as [X _]. eauto.
  - intros H. apply D. intros id r x X. cbn [wstep w_cache w_heap w_kv] in *. apply mdel_some' in X as [X _]. eauto.
Qed.

Lemma marshal_step s k keys : winv s -> idle s -> todo s (k :: keys) ->
  let s' := wstep s (WMarshal 0 k) in
  only0 s' /\ ((mget 0 (w_hand s') = None /\ todo s' keys) \/ (cur s' k false /\ todo s' (k :: keys))).
Proof.
  intros I Hi Ht. cbn [wstep].
  assert (HD : only0 (drop_hand s 0) /\ mget 0 (w_hand (drop_hand s 0)) = None).
  { split; [|apply mget_mdel_eq]. intros t Hne. cbn [drop_hand w_hand]. rewrite mget_mdel_ne by exact Hne. apply Hi. }
  destruct (mget k (w_cache s)) as [r|] eqn:Er.
  - destruct (wi_refs _ I k r (or_introl Er)) as (x & Hx). rewrite Hx. destruct (w_comm x) eqn:Ec.
    + split; [apply HD|]. left. split; [apply HD|]. intros id r' x' X Y. cbn [drop_hand w_cache w_heap] in *.
      destruct (Ht _ _ _ X Y) as [[<-|Hin]|Hc]; auto. right. congruence.
    + split; [intros t Hne; cbn [set_hand w_hand]; rewrite mget_mset_ne by exact Hne; apply Hi|].
      right. split; [exists r, (w_val x); apply mget_mset_eq|exact Ht].
  - split; [apply HD|]. left. split; [apply HD|]. intros id r' x' X Y. cbn [drop_hand w_cache w_heap] in *.
    destruct (Ht _ _ _ X Y) as [[<-|Hin]|Hc]; auto. congruence.
Qed.
Lemma put_step s k keys : only0 s -> (mget 0 (w_hand s) = None /\ todo s keys) \/ (cur s k false /\ todo s (k :: keys)) ->
  let s' := wstep s (WPut 0) in
  only0 s' /\ ((mget 0 (w_hand s') = None /\ todo s' keys) \/ (cur s' k true /\ todo s' (k :: keys))).
Proof.
  intros Ho [[H0 Ht]|[(r & v & H0) Ht]]; cbn [wstep]; rewrite H0; [auto|].
  split; [intros t Hne; cbn [w_hand]; rewrite mget_mset_ne by exact Hne; now apply Ho|].
  right. split; [exists r, v; apply mget_mset_eq|exact Ht].
Qed.
Lemma mark_step s k keys : winv s -> only0 s ->
  (mget 0 (w_hand s) = None /\ todo s keys) \/ (cur s k true /\ todo s (k :: keys)) ->
  let s' := wstep s (WMark 0) in idle s' /\ todo s' keys.
Proof.
  intros I Ho [[H0 Ht]|[(r & v & H0) Ht]]; cbn [wstep]; rewrite H0.
  - split; [|exact Ht]. intros t. destruct (N.eq_dec t 0) as [->|Hne]; [exact H0|now apply Ho].
  - destruct (wi_refs _ I k r) as (x & Hx); [right; exists 0%N, (HPut k r); split; [exact H0|cbn; auto]|]. rewrite Hx.
    split.
    + intros t. cbn [w_hand]. destruct (N.eq_dec t 0) as [->|Hne]; [apply mget_mdel_eq|].
      rewrite mget_mdel_ne by exact Hne. now apply Ho.
    + intros id r' x' X. cbn [w_cache w_heap] in *. rewrite mget_mset in X. rewrite mget_mset.
      destruct (N.eqb_spec r' r) as [->|Hr]; [intros [= <-]; auto|]. destruct (N.eqb_spec id k) as [->|Hk]; [congruence|].
      intros Y. destruct (Ht _ _ _ X Y) as [[->|Hin]|Hc]; auto; congruence.
Qed.

Lemma flush_inv keys : forall drops s, winv s -> idle s -> todo s keys ->
  let s' := wrun s (flush_ops keys drops) in
  tidy_run s (flush_ops keys drops) /\ winv s' /\ idle s' /\ all_written s'.
Proof.
  induction keys as [|k keys IH]; intros drops s I Hi Ht; cbn [flush_ops].
  { cbn. split; [exact Logic.I|]. split; [exact I|]. split; [exact Hi|]. intros id r x X Y. now destruct (Ht _ _ _ X Y). }
  cbv zeta. unfold wrun. rewrite !fold_left_app. cbn [fold_left].
  destruct (evict_keeps (nth 0 drops []) s) as (A1 & A2 & A3 & _ & A5). unfold wrun in *.
  set (s1 := fold_left wstep (evictions (nth 0 drops [])) s) in *.
  assert (I1 : winv s1) by auto. assert (Hi1 : idle s1) by (intros t; rewrite A1; apply Hi).
  assert (T1 : tidy s1 (WMarshal 0 k)).
  { intros t' _ (r & [X|(l & X)]); rewrite Hi1 in X; discriminate. }
  destruct (marshal_step s1 k keys I1 Hi1 (A3 _ Ht)) as (O2 & P2).
  pose proof (winv_step s1 _ I1 T1) as I2. set (s2 := wstep s1 (WMarshal 0 k)) in *.
  destruct (evict_keeps (nth 1 drops []) s2) as (B1 & B2 & B3 & _ & B5). unfold wrun in *.
  set (s3 := fold_left wstep (evictions (nth 1 drops [])) s2) in *.
  assert (I3 : winv s3) by auto. assert (O3 : only0 s3) by (intros t; rewrite B1; apply O2).
  assert (P3 : (mget 0 (w_hand s3) = None /\ todo s3 keys) \/ (cur s3 k false /\ todo s3 (k :: keys))).
  { destruct P2 as [[X Y]|[X Y]]; [left|right]; (split; [|auto]); [now rewrite B1|]. unfold cur. rewrite B1. exact X. }
  destruct (put_step s3 k keys O3 P3) as (O4 & P4).
  pose proof (winv_step s3 (WPut 0) I3 Logic.I) as I4. set (s4 := wstep s3 (WPut 0)) in *.
  destruct (evict_keeps (nth 2 drops []) s4) as (C1 & C2 & C3 & _ & C5). unfold wrun in *.
  set (s5 := fold_left wstep (evictions (nth 2 drops [])) s4) in *.
  assert (I5 : winv s5) by auto. assert (O5 : only0 s5) by (intros t; rewrite C1; apply O4).
  assert (P5 : (mget 0 (w_hand s5) = None /\ todo s5 keys) \/ (cur s5 k true /\ todo s5 (k :: keys))).
  { destruct P4 as [[X Y]|[X Y]]; [left|right]; (split; [|auto]); [now rewrite C1|]. unfold cur. rewrite C1. exact X. }
  destruct (mark_step s5 k keys I5 O5 P5) as (O6 & P6).
  pose proof (winv_step s5 (WMark 0) I5 Logic.I) as I6. set (s6 := wstep s5 (WMark 0)) in *.
  destruct (IH (skipn 3 drops) s6 I6 O6 P6) as (T & R). split; [|exact R].
  apply tidy_app; [exact A5|]. fold s1. split; [exact T1|]. fold s2.
  change (tidy_run s2 (evictions (nth 1 drops []) ++ WPut 0 :: evictions (nth 2 drops []) ++ WMark 0 :: flush_ops keys (skipn 3 drops))).
  apply tidy_app; [exact B5|]. fold s3. split; [exact Logic.I|]. fold s4.
  apply tidy_app; [exact C5|]. fold s5. split; [exact Logic.I|]. exact T.
Qed.

Lemma todo_all s : todo s (map fst (w_cache s)).
Proof.
  intros id r x X _. left. clear -X. induction (w_cache s) as [|[k v] m IH]; [discriminate|]. cbn [mget] in X. cbn [map fst].
  destruct (N.eqb_spec id k) as [->|]; [now left|right; auto].
Qed.

(** Reading changes nothing. *)
Definition on_read s : Prop :=
  in_table s /\ (forall t id v, mget t (w_hand s) = Some (HLoaded id v) -> mget id (w_kv s) = Some v).
Lemma read_step s o : winv s -> on_read s -> reads o = true -> on_read (wstep s o).
Proof.
  intros I [A B] Hr. destruct o as [t id v|t f|t id|t|t f b|t|t id|t|t|id|]; try discriminate Hr; cbn [wstep].
  - destruct (mget id (w_cache s)) as [r|] eqn:Er.
    + split; [exact A|]. intros t' id' v X. cbn [set_hand w_hand w_kv] in *. rewrite mget_mset in X.
      destruct (N.eqb t' t); [discriminate|eapply B; exact X].
    + destruct (mget id (w_kv s)) as [l|] eqn:El.
      * split; [exact A|]. intros t' id' v X. cbn [set_hand w_hand w_kv] in *. rewrite mget_mset in X.
        destruct (N.eqb t' t); [congruence|eapply B; exact X].
      * split; [exact A|]. intros t' id' v X. cbn [drop_hand w_hand w_kv] in *. apply mdel_some' in X as [X _]. eapply B; exact X.
  - destruct (mget t (w_hand s)) as [[id v|id r|id r|id r v|id r]|] eqn:Eg; try (split; assumption).
    split.
    + intros id' r x X. cbn [fresh_obj w_cache w_heap w_kv] in *. rewrite mget_mset in X. rewrite mget_mset.
      destruct (N.eqb_spec id' id) as [->|Hne].
      * injection X as <-. rewrite N.eqb_refl. intros [= <-]. cbn [w_val]. eapply B; exact Eg.
      * destruct (N.eqb_spec r (w_next s)) as [->|]; [|eauto].
        destruct (wi_refs _ I id' _ (or_introl X)) as (y & Hy). apply (wi_fresh _ I) in Hy. lia.
    + intros t' id' v' X. cbn [fresh_obj w_hand w_kv] in *. rewrite mget_mset in X.
      destruct (N.eqb t' t); [discriminate|eapply B; exact X].
  - split; [exact A|]. intros t' id' v X. cbn [drop_hand w_hand w_kv] in *. apply mdel_some' in X as [X _]. eapply B; exact X.
  - split; [|exact B]. intros id' r x X. cbn [w_cache w_heap w_kv] in *. apply mdel_some' in X as [X _]. eauto.
Qed.
Lemma reads_works o : reads o = true -> works o = true.
Proof. destruct o; auto. Qed.
Lemma read_run os : forall s, winv s -> at_work s -> on_read s -> forallb reads os = true -> on_read (wrun s os) /\ winv (wrun s os).
Proof.
  induction os as [|o os IH]; intros s I Hw Hr Ho; cbn [wrun fold_left]; [auto|]. cbn [forallb] in Ho.
  apply andb_prop in Ho as [H1 H2]. pose proof (reads_works o H1) as H1'. apply IH; auto.
  - apply winv_step; [exact I|]. now apply at_work_tidy.
  - now apply at_work_step.
  - now apply read_step.
Qed.

Lemma event_inv s e : winv s -> idle s -> winv (wevent_step s e) /\ idle (wevent_step s e).
Proof.
  intros I Hi. destruct e as [body drops|body drops n|body|ids|]; cbn [wevent_step].
  - split; [|intros t; reflexivity]. apply winv_none. apply flush_inv; [now apply worked_winv|intros t; reflexivity|apply todo_all].
  - split; [|intros t; reflexivity]. apply winv_none. apply winv_run; [now apply worked_winv|]. apply tidy_firstn.
    apply flush_inv; [now apply worked_winv|intros t; reflexivity|apply todo_all].
  - split; [|intros t; reflexivity]. apply winv_none. apply work_inv; [exact I|now apply no_hands_at_work|].
    apply forallb_forall. intros o Ho. apply filter_In in Ho as [_ Ho]. now apply reads_works.
  - destruct (evict_keeps ids s) as (A & B & _). split; [auto|]. intros t. rewrite A. apply Hi.
  - split; [apply winv_start|intros t; reflexivity].
Qed.
Lemma events_inv es : forall s, winv s -> idle s -> winv (wevents s es) /\ idle (wevents s es).
Proof.
  induction es as [|e es IH]; intros s I Hi; [auto|]. destruct (event_inv s e I Hi). cbn [wevents fold_left]. now apply IH.
Qed.

Definition fails (e : wevent V) : bool := match e with EFail _ _ _ => true | _ => false end.
Lemma event_in_table s e : winv s -> idle s -> in_table s -> fails e = false -> in_table (wevent_step s e).
Proof.
  intros I Hi Ht Hf. destruct e as [body drops|body drops n|body|ids|]; try discriminate Hf; cbn [wevent_step].
  - assert (J : winv (worked s body)) by now apply worked_winv.
    destruct (flush_inv (map fst (w_cache (worked s body))) drops (worked s body) J (fun t => eq_refl) (todo_all _)) as (_ & A & _ & B).
    exact (written_in_table _ A B).
  - assert (R : on_read s) by (split; [exact Ht|]; intros t id v X; rewrite Hi in X; discriminate).
    destruct (read_run (filter reads body) s I (no_hands_at_work _ Hi) R (filter_works _ _)) as [[A _] _]. exact A.
  - now apply (evict_keeps ids s).
  - intros id r x X. discriminate.
Qed.
Lemma request_in_table s body drops : winv s -> idle s -> in_table (wevent_step s (EReq body drops)).
Proof.
  intros I Hi. cbn [wevent_step]. assert (J : winv (worked s body)) by now apply worked_winv.
  destruct (flush_inv (map fst (w_cache (worked s body))) drops (worked s body) J (fun t => eq_refl) (todo_all _)) as (_ & A & _ & B).
  exact (written_in_table _ A B).
Qed.
Lemma events_in_table es : forall s, winv s -> idle s -> in_table s -> forallb (fun e => negb (fails e)) es = true ->
  in_table (wevents s es).
Proof.
  induction es as [|e es IH]; intros s I Hi Ht Hf; [exact Ht|]. cbn [forallb] in Hf. apply andb_prop in Hf as [H1 H2].
  apply Bool.negb_true_iff in H1. destruct (event_inv s e I Hi). cbn [wevents fold_left]. apply IH; auto. now apply event_in_table.
Qed.
End P.
