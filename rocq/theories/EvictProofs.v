(** What survives a restart when the bounded node cache drops vertices at any time. *)
From Verif Require Import Base NodeRace NodeRaceProofs.

(** A step of a history on the single index [i0] in which, between the moment a
    Flush marshals a vertex and the moment it marks it, no link is added to that
    vertex and no other Flush writes it. *)
Definition tidy (i0 : N) (s : nstate) (o : nop) : Prop :=
  match o with
  | ONew t i id => i = i0
  | OGet t i id => i = i0
  | OEvict i id => i = i0
  | OMarshal t i id => i = i0 /\ forall t', t' <> t -> ~ flushing s t' i id
  | OLink t x => forall i id r t', mget t (n_go s) = Some (GHolds i id r) -> ~ flushing s t' i id
  | _ => True
  end.
Fixpoint tidy_run (i0 : N) (s : nstate) (os : list nop) : Prop :=
  match os with
  | [] => True
  | o :: os' => tidy i0 s o /\ tidy_run i0 (nstep s o) os'
  end.

(** Object [r] is a version of vertex [id] for the cache or a goroutine. *)
Definition holds (g : gost) (id r : N) : Prop :=
  match g with
  | GLoaded _ _ _ => False
  | GHolds _ id' r' | GSnap _ id' r' _ | GPut _ id' r' => id' = id /\ r' = r
  end.
Definition refs (s : nstate) (i0 id r : N) : Prop :=
  cached s i0 id = Some r \/ exists t g, mget t (n_go s) = Some g /\ holds g id r.
Definition on_index (i0 : N) (g : gost) : Prop :=
  match g with GLoaded i _ _ | GHolds i _ _ | GSnap i _ _ _ | GPut i _ _ => i = i0 end.

Record einv (i0 : N) (s : nstate) : Prop := mkEinv {
  ei_fresh : forall r o, mget r (n_heap s) = Some o -> (r < n_next s)%N;
  ei_refs : forall id r, refs s i0 id r -> exists o, mget r (n_heap s) = Some o;
  ei_own : forall a c r, refs s i0 a r -> refs s i0 c r -> a = c;
  ei_idx : forall t g, mget t (n_go s) = Some g -> on_index i0 g;
  ei_cidx : forall i id r, cached s i id = Some r -> i = i0;
  ei_comm : forall id r o, cached s i0 id = Some r -> mget r (n_heap s) = Some o -> o_comm o = true ->
            mget id (n_kv s) = Some (o_links o);
  ei_one : forall t t' id, flushing s t i0 id -> flushing s t' i0 id -> t = t';
  ei_snap : forall t id r l, mget t (n_go s) = Some (GSnap i0 id r l) ->
            (forall o, mget r (n_heap s) = Some o -> o_links o = l) /\
            (forall r' o, cached s i0 id = Some r' -> mget r' (n_heap s) = Some o -> o_comm o = false);
  ei_put : forall t id r o, mget t (n_go s) = Some (GPut i0 id r) -> mget r (n_heap s) = Some o ->
            mget id (n_kv s) = Some (o_links o)
}.

Lemma einv_start i0 kv : einv i0 (mkN [] 0 [] kv []).
Proof.
  constructor; cbn; try discriminate.
  - intros id r [H|(t & g & H & _)]; discriminate.
  - intros a c r [H|(t & g & H & _)]; discriminate.
  - intros t t' id (r & [H|(l & H)]); discriminate.
Qed.

Lemma flushing_put s t i id r : mget t (n_go s) = Some (GPut i id r) -> flushing s t i id.
Proof. intros H. exists r. now left. Qed.
Lemma flushing_snap s t i id r l : mget t (n_go s) = Some (GSnap i id r l) -> flushing s t i id.
Proof. intros H. exists r. right. eauto. Qed.

(** Goroutine [t] moves to a state that is not a flushing one and refers only to what
    is referred to already; nothing else changes. *)
Lemma einv_go i0 s t g : einv i0 s -> on_index i0 g ->
  match g with GLoaded _ _ _ => True | GHolds _ id r => cached s i0 id = Some r | _ => False end ->
  einv i0 (set_go s t g).
Proof.
  intros [A B C D D' E F G H] Hi Hg.
  assert (R : forall id r, refs (set_go s t g) i0 id r -> refs s i0 id r).
  { intros id r [X|(t' & g' & X & Y)]; [now left|]. cbn [set_go n_go] in X. rewrite mget_mset in X.
    destruct (N.eqb t' t); [|right; eauto]. injection X as <-. destruct g; cbn in Y, Hg; try contradiction.
    destruct Y as [-> ->]. now left. }
  assert (Fl : forall t' id, flushing (set_go s t g) t' i0 id -> flushing s t' i0 id /\ t' <> t).
  { intros t' id (r & X). unfold flushing. cbn [set_go n_go] in X. rewrite mget_mset in X.
    destruct (N.eqb_spec t' t) as [->|Hne]; [|split; [exists r; exact X|exact Hne]].
    exfalso. destruct X as [X|(l & X)]; injection X as ->; exact Hg. }
  assert (Old : forall t' g', mget t' (n_go (set_go s t g)) = Some g' ->
            match g' with GSnap _ _ _ _ | GPut _ _ _ => mget t' (n_go s) = Some g' | _ => True end).
  { intros t' g' X. cbn [set_go n_go] in X. rewrite mget_mset in X. destruct (N.eqb t' t).
    - injection X as <-. destruct g; try exact I; contradiction.
    - destruct g'; auto. }
  constructor; auto.
  - intros id r X. eauto.
  - intros a c r X Y. eauto.
  - intros t' g' X. cbn [set_go n_go] in X. rewrite mget_mset in X.
    destruct (N.eqb t' t); [injection X as <-; exact Hi|eauto].
  - intros t1 t2 id X Y. apply Fl in X. apply Fl in Y. eapply F; [apply X|apply Y].
  - intros t' id r l X. apply Old in X. exact (G _ _ _ _ X).
  - intros t' id r o X. apply Old in X. eauto.
Qed.

Lemma mdel_some {V} k k' (m : nmap V) v : mget k (mdel k' m) = Some v -> mget k m = Some v /\ k <> k'.
Proof.
  destruct (N.eq_dec k k') as [->|Hne]; [now rewrite mget_mdel_eq|]. rewrite mget_mdel_ne by exact Hne. auto.
Qed.

Lemma einv_end i0 s t : einv i0 s -> einv i0 (end_go s t).
Proof.
  intros [A B C D D' E F G H].
  assert (Old : forall t' g', mget t' (n_go (end_go s t)) = Some g' -> mget t' (n_go s) = Some g').
  { intros t' g' X. cbn [end_go n_go] in X. now apply mdel_some in X. }
  assert (R : forall id r, refs (end_go s t) i0 id r -> refs s i0 id r).
  { intros id r [X|(t' & g' & X & Y)]; [now left|]. right. eauto. }
  assert (Fl : forall t' id, flushing (end_go s t) t' i0 id -> flushing s t' i0 id).
  { intros t' id (r & [X|(l & X)]); exists r; [left|right; exists l]; auto. }
  constructor; auto; intros; eauto.
Qed.

(** A fresh uncommitted object enters the cache and [t] holds it. *)
Lemma einv_fresh i0 s t id l : einv i0 s ->
  einv i0 (mkN (mset (n_next s) (mkO l false) (n_heap s)) (n_next s + 1) (cache_add s i0 id (n_next s)) (n_kv s)
               (mset t (GHolds i0 id (n_next s)) (n_go s))).
Proof.
  intros I. destruct I as [A B C D D' E F G H]. set (s' := mkN _ _ _ _ _).
  assert (Hc : forall i' id', cached s' i' id' = if N.eqb i' i0 && N.eqb id' id then Some (n_next s) else cached s i' id')
    by (intros; apply cached_add).
  assert (Hh : forall r, (r < n_next s)%N -> mget r (n_heap s') = mget r (n_heap s)).
  { intros r X. unfold s'. cbn [n_heap]. apply mget_mset_ne. lia. }
  assert (Hn : mget (n_next s) (n_heap s') = Some (mkO l false)) by (unfold s'; cbn [n_heap]; apply mget_mset_eq).
  assert (Lt : forall id' r, refs s i0 id' r -> (r < n_next s)%N).
  { intros id' r X. destruct (B _ _ X) as (o & Ho). eauto. }
  assert (R : forall id' r, refs s' i0 id' r -> (id' = id /\ r = n_next s) \/ refs s i0 id' r).
  { intros id' r [X|(t' & g' & X & Y)].
    - rewrite Hc, N.eqb_refl in X. cbn [andb] in X. destruct (N.eqb_spec id' id) as [->|]; [left; split; congruence|].
      right. now left.
    - unfold s' in X. cbn [n_go] in X. rewrite mget_mset in X. destruct (N.eqb t' t).
      + injection X as <-. cbn in Y. destruct Y as [-> ->]. now left.
      + right. right. eauto. }
  assert (Old : forall t' g', mget t' (n_go s') = Some g' ->
            match g' with GSnap _ _ _ _ | GPut _ _ _ => mget t' (n_go s) = Some g' | _ => True end).
  { intros t' g' X. unfold s' in X. cbn [n_go] in X. rewrite mget_mset in X. destruct (N.eqb t' t).
    - injection X as <-. exact I.
    - destruct g'; auto. }
  assert (Fl : forall t' id', flushing s' t' i0 id' -> flushing s t' i0 id').
  { intros t' id' (r & [X|(l' & X)]); apply Old in X; exists r; [now left|right; eauto]. }
  constructor.
  - intros r o. unfold s'. cbn [n_heap n_next]. rewrite mget_mset. destruct (N.eqb_spec r (n_next s)) as [->|]; [lia|].
    intros X. apply A in X. lia.
  - intros id' r X. destruct (R _ _ X) as [[-> ->]|Y]; [eauto|]. rewrite Hh by eauto. eauto.
  - intros a c r X Y. destruct (R _ _ X) as [[-> Er]|X'], (R _ _ Y) as [[-> Er']|Y']; auto.
    + subst r. apply Lt in Y'. lia.
    + subst r. apply Lt in X'. lia.
    + eauto.
  - intros t' g X. unfold s' in X. cbn [n_go] in X. rewrite mget_mset in X.
    destruct (N.eqb t' t); [injection X as <-; reflexivity|eauto].
  - intros i' id' r. rewrite Hc. destruct (N.eqb_spec i' i0) as [->|]; [reflexivity|]. cbn [andb]. eauto.
  - intros id' r o. rewrite Hc, N.eqb_refl. cbn [andb]. destruct (N.eqb_spec id' id) as [->|].
    + intros [= <-]. rewrite Hn. intros [= <-]. discriminate.
    + intros X. rewrite Hh by (apply (Lt id'); now left). unfold s'. cbn [n_kv]. eauto.
  - intros t1 t2 id' X Y. eauto.
  - intros t' id' r l' X. apply Old in X. destruct (G _ _ _ _ X) as [G1 G2]. split.
    + intros o. rewrite Hh; [auto|]. apply (Lt id'). right. exists t', (GSnap i0 id' r l'). split; [exact X|cbn; auto].
    + intros r' o. rewrite Hc, N.eqb_refl. cbn [andb]. destruct (N.eqb_spec id' id) as [->|].
      * intros [= <-]. rewrite Hn. now intros [= <-].
      * intros Y. rewrite Hh by (apply (Lt id'); now left). eauto.
  - intros t' id' r o X. apply Old in X. rewrite Hh; [eauto|]. apply (Lt id'). right.
    exists t', (GPut i0 id' r). split; [exact X|cbn; auto].
Qed.

Lemma cached_evict s i id i' id' :
  cached (mkN (n_heap s) (n_next s) (mset i (mdel id (cache_of s i)) (n_cache s)) (n_kv s) (n_go s)) i' id' =
  if N.eqb i' i && N.eqb id' id then None else cached s i' id'.
Proof.
  unfold cached at 1, cache_of at 1. cbn [n_cache]. rewrite mget_mset.
  destruct (N.eqb_spec i' i) as [->|Hi]; cbn [andb].
  - destruct (N.eqb_spec id' id) as [->|Hne]; [apply mget_mdel_eq|]. rewrite mget_mdel_ne by exact Hne. reflexivity.
  - reflexivity.
Qed.

Lemma einv_step i0 s o : einv i0 s -> tidy i0 s o -> einv i0 (nstep s o).
Proof.
  intros I Hc. destruct o as [t i id|t i id|t|t x|t|t i id|t|t|i id|]; cbn [nstep tidy] in *.
  - subst i. now apply einv_fresh.
  - subst i. destruct (cached s i0 id) as [r|] eqn:Er; [apply einv_go; [exact I|reflexivity|exact Er]|].
    destruct (mget id (n_kv s)) as [l|] eqn:El; [apply einv_go; [exact I|reflexivity|exact Logic.I]|now apply einv_end].
  - destruct (mget t (n_go s)) as [[i id l|i id r|i id r l|i id r]|] eqn:Eg; try exact I.
    pose proof (ei_idx _ _ I _ _ Eg) as Hi. cbn in Hi. subst i. now apply einv_fresh.
  - destruct (mget t (n_go s)) as [[i id l|i id r|i id r l|i id r]|] eqn:Eg; try exact I.
    destruct (mget r (n_heap s)) as [o|] eqn:Eo; [|exact I].
    pose proof (ei_idx _ _ I _ _ Eg) as Hi. cbn in Hi. subst i.
    assert (Hr : refs s i0 id r) by (right; exists t, (GHolds i0 id r); split; [exact Eg|cbn; auto]).
    assert (Hnf : forall t', ~ flushing s t' i0 id) by (intros t'; eapply Hc; reflexivity).
    destruct I as [A B C D D' E F G H]. set (s' := mkN _ _ _ _ _).
    assert (Hca : forall i' id', cached s' i' id' = if N.eqb i' i0 && N.eqb id' id then Some r else cached s i' id')
      by (intros; apply cached_add).
    assert (R : forall id' r', refs s' i0 id' r' -> refs s i0 id' r').
    { intros id' r' [X|(t' & g' & X & Y)]; [|right; eauto]. rewrite Hca, N.eqb_refl in X. cbn [andb] in X.
      destruct (N.eqb_spec id' id) as [->|]; [congruence|now left]. }
    constructor; auto.
    + intros r' o'. unfold s'. cbn [n_heap n_next]. rewrite mget_mset. destruct (N.eqb_spec r' r) as [->|]; eauto.
    + intros id' r' X. unfold s'. cbn [n_heap]. rewrite mget_mset. destruct (N.eqb r' r); eauto.
    + intros a c r' X Y. eauto.
    + intros i' id' r'. rewrite Hca. destruct (N.eqb_spec i' i0) as [->|]; [reflexivity|]. cbn [andb]. eauto.
    + intros id' r' o'. rewrite Hca, N.eqb_refl. cbn [andb]. unfold s'. cbn [n_heap n_kv]. rewrite mget_mset.
      destruct (N.eqb_spec r' r) as [->|]; [intros _ [= <-]; discriminate|].
      destruct (N.eqb_spec id' id) as [->|]; [congruence|eauto].
    + intros t' id' r' l' X. assert (Hne : id' <> id) by (intros ->; eapply Hnf, flushing_snap; exact X).
      assert (Hrr : r' <> r).
      { intros ->. apply Hne. apply (C id' id r); [|exact Hr]. right. exists t', (GSnap i0 id' r l'). split; [exact X|cbn; auto]. }
      destruct (G _ _ _ _ X) as [G1 G2]. split.
      * intros o'. unfold s'. cbn [n_heap]. rewrite mget_mset_ne by exact Hrr. auto.
      * intros r2 o'. rewrite Hca, N.eqb_refl. cbn [andb]. destruct (N.eqb_spec id' id) as [->|]; [congruence|].
        intros Y. unfold s'. cbn [n_heap]. rewrite mget_mset. destruct (N.eqb_spec r2 r) as [->|]; [now intros [= <-]|eauto].
    + intros t' id' r' o' X. assert (Hne : id' <> id) by (intros ->; eapply Hnf, flushing_put; exact X).
      assert (Hrr : r' <> r).
      { intros ->. apply Hne. apply (C id' id r); [|exact Hr]. right. exists t', (GPut i0 id' r). split; [exact X|cbn; auto]. }
      unfold s'. cbn [n_heap n_kv]. rewrite mget_mset_ne by exact Hrr. eauto.
  - now apply einv_end.
  - destruct Hc as [-> Hnf]. destruct (cached s i0 id) as [r|] eqn:Er; [|now apply einv_end].
    destruct (mget r (n_heap s)) as [o|] eqn:Eo; [|exact I].
    destruct (o_comm o) eqn:Ec; [now apply einv_end|].
    destruct I as [A B C D D' E F G H]. set (s' := set_go _ _ _).
    assert (Go : forall t' g, mget t' (n_go s') = Some g ->
              (t' = t /\ g = GSnap i0 id r (o_links o)) \/ (t' <> t /\ mget t' (n_go s) = Some g)).
    { intros t' g X. unfold s' in X. cbn [set_go n_go] in X. rewrite mget_mset in X.
      destruct (N.eqb_spec t' t) as [->|Hne]; [left; split; congruence|right; auto]. }
    assert (R : forall id' r', refs s' i0 id' r' -> refs s i0 id' r').
    { intros id' r' [X|(t' & g' & X & Y)]; [now left|]. destruct (Go _ _ X) as [[-> ->]|[_ X']]; [|right; eauto].
      cbn in Y. destruct Y as [-> ->]. now left. }
    assert (Fl : forall t' id', flushing s' t' i0 id' -> (t' = t /\ id' = id) \/ (t' <> t /\ flushing s t' i0 id')).
    { intros t' id' (r' & [X|(l' & X)]); destruct (Go _ _ X) as [[-> E1]|[Hne X']].
      - discriminate.
      - right. split; [exact Hne|]. exists r'. now left.
      - left. split; congruence.
      - right. split; [exact Hne|]. exists r'. right. eauto. }
    constructor; auto.
    + intros id' r' X. eauto.
    + intros a c r' X Y. eauto.
    + intros t' g X. destruct (Go _ _ X) as [[-> ->]|[_ X']]; [reflexivity|eauto].
    + intros t1 t2 id' X Y. destruct (Fl _ _ X) as [[-> ->]|[N1 X']], (Fl _ _ Y) as [[-> Ey]|[N2 Y']]; auto.
      * destruct (Hnf _ N2 Y').
      * subst id'. destruct (Hnf _ N1 X').
      * eauto.
    + intros t' id' r' l' X. destruct (Go _ _ X) as [[-> E1]|[_ X']]; [injection E1 as E1 E2 E3; subst id' r' l'|exact (G _ _ _ _ X')].
      split; [intros o'; unfold s'; cbn [set_go n_heap]; congruence|].
      intros r2 o'. change (cached s' i0 id) with (cached s i0 id). rewrite Er. intros [= <-]. unfold s'. cbn [set_go n_heap].
      congruence.
    + intros t' id' r' o' X. destruct (Go _ _ X) as [[_ E1]|[_ X']]; [discriminate|exact (H _ _ _ _ X')].
  - destruct (mget t (n_go s)) as [[i id l|i id r|i id r l|i id r]|] eqn:Eg; try exact I.
    pose proof (ei_idx _ _ I _ _ Eg) as Hi. cbn in Hi. subst i.
    destruct I as [A B C D D' E F G H]. set (s' := mkN _ _ _ _ _).
    destruct (G _ _ _ _ Eg) as [G1 G2].
    assert (Go : forall t' g, mget t' (n_go s') = Some g ->
              (t' = t /\ g = GPut i0 id r) \/ (t' <> t /\ mget t' (n_go s) = Some g)).
    { intros t' g X. unfold s' in X. cbn [n_go] in X. rewrite mget_mset in X.
      destruct (N.eqb_spec t' t) as [->|Hne]; [left; split; congruence|right; auto]. }
    assert (R : forall id' r', refs s' i0 id' r' -> refs s i0 id' r').
    { intros id' r' [X|(t' & g' & X & Y)]; [now left|]. destruct (Go _ _ X) as [[-> ->]|[_ X']]; [|right; eauto].
      cbn in Y. destruct Y as [<- <-]. right. exists t, (GSnap i0 id r l). split; [exact Eg|cbn; auto]. }
    assert (Fl : forall t' id', flushing s' t' i0 id' -> flushing s t' i0 id').
    { intros t' id' (r' & [X|(l' & X)]); destruct (Go _ _ X) as [[-> E1]|[Hne X']].
      - injection E1 as E1 E2. subst id' r'. eapply flushing_snap; exact Eg.
      - exists r'. now left.
      - discriminate.
      - exists r'. right. eauto. }
    constructor; auto.
    + intros id' r' X. eauto.
    + intros a c r' X Y. eauto.
    + intros t' g X. destruct (Go _ _ X) as [[-> ->]|[_ X']]; [reflexivity|eauto].
    + intros id' r' o' X Y Z. change (cached s' i0 id') with (cached s i0 id') in X. unfold s' in Y |- *. cbn [n_heap n_kv] in Y |- *.
      rewrite mget_mset. destruct (N.eqb_spec id' id) as [->|]; [|eauto]. rewrite (G2 _ _ X Y) in Z. discriminate.
    + intros t1 t2 id' X Y. eauto.
    + intros t' id' r' l' X. destruct (Go _ _ X) as [[_ E1]|[_ X']]; [discriminate|]. exact (G _ _ _ _ X').
    + intros t' id' r' o' X Y. unfold s' in Y |- *. cbn [n_heap n_kv] in Y |- *. rewrite mget_mset.
      destruct (Go _ _ X) as [[-> E1]|[Hne X']]; [injection E1 as E1 E2; subst id' r'|].
      * rewrite N.eqb_refl. now rewrite (G1 _ Y).
      * destruct (N.eqb_spec id' id) as [->|]; [|eauto]. exfalso. apply Hne. eapply F; [eapply flushing_put; exact X'|eapply flushing_snap; exact Eg].
  - destruct (mget t (n_go s)) as [[i id l|i id r|i id r l|i id r]|] eqn:Eg; try exact I.
    destruct (mget r (n_heap s)) as [o|] eqn:Eo; [|exact I].
    pose proof (ei_idx _ _ I _ _ Eg) as Hi. cbn in Hi. subst i.
    assert (Hr : refs s i0 id r) by (right; exists t, (GPut i0 id r); split; [exact Eg|cbn; auto]).
    destruct I as [A B C D D' E F G H]. set (s' := mkN _ _ _ _ _).
    assert (Hca : forall i' id', cached s' i' id' = if N.eqb i' i0 && N.eqb id' id then Some r else cached s i' id')
      by (intros; apply cached_add).
    assert (Go : forall t' g, mget t' (n_go s') = Some g -> mget t' (n_go s) = Some g /\ t' <> t).
    { intros t' g X. unfold s' in X. cbn [n_go] in X. now apply mdel_some in X. }
    assert (R : forall id' r', refs s' i0 id' r' -> refs s i0 id' r').
    { intros id' r' [X|(t' & g' & X & Y)]; [|right; exists t', g'; split; [apply Go, X|exact Y]].
      rewrite Hca, N.eqb_refl in X. cbn [andb] in X. destruct (N.eqb_spec id' id) as [->|]; [congruence|now left]. }
    assert (Fl : forall t' id', flushing s' t' i0 id' -> flushing s t' i0 id' /\ t' <> t).
    { intros t' id' (r' & [X|(l' & X)]); destruct (Go _ _ X) as [X' Hne]; (split; [|exact Hne]); exists r'; [now left|right; eauto]. }
    constructor; auto.
    + intros r' o'. unfold s'. cbn [n_heap n_next]. rewrite mget_mset. destruct (N.eqb_spec r' r) as [->|]; eauto.
    + intros id' r' X. unfold s'. cbn [n_heap]. rewrite mget_mset. destruct (N.eqb r' r); eauto.
    + intros a c r' X Y. eauto.
    + intros t' g X. destruct (Go _ _ X) as [X' _]. eauto.
    + intros i' id' r'. rewrite Hca. destruct (N.eqb_spec i' i0) as [->|]; [reflexivity|]. cbn [andb]. eauto.
    + intros id' r' o' X. assert (X' : refs s i0 id' r') by (apply R; now left).
      rewrite Hca, N.eqb_refl in X. cbn [andb] in X. unfold s'. cbn [n_heap n_kv]. rewrite mget_mset.
      destruct (N.eqb_spec r' r) as [->|].
      * intros [= <-] _. cbn [o_links]. assert (id' = id) by eauto. subst id'. eauto.
      * destruct (N.eqb_spec id' id) as [->|]; [congruence|eauto].
    + intros t1 t2 id' X Y. eapply F; [apply Fl, X|apply Fl, Y].
    + intros t' id' r' l' X. destruct (Go _ _ X) as [X' Hne].
      assert (Hid : id' <> id).
      { intros ->. apply Hne. eapply F; [eapply flushing_snap; exact X'|eapply flushing_put; exact Eg]. }
      assert (Hrr : r' <> r).
      { intros ->. apply Hid. apply (C id' id r); [|exact Hr]. right. exists t', (GSnap i0 id' r l'). split; [exact X'|cbn; auto]. }
      destruct (G _ _ _ _ X') as [G1 G2]. split.
      * intros o'. unfold s'. cbn [n_heap]. rewrite mget_mset_ne by exact Hrr. auto.
      * intros r2 o' Y. rewrite Hca, N.eqb_refl in Y. cbn [andb] in Y. destruct (N.eqb_spec id' id) as [->|]; [congruence|].
        unfold s'. cbn [n_heap]. rewrite mget_mset_ne; [eauto|]. intros ->. apply Hid. apply (C id' id r); [now left|exact Hr].
    + intros t' id' r' o' X. destruct (Go _ _ X) as [X' Hne]. unfold s'. cbn [n_heap n_kv]. rewrite mget_mset.
      destruct (N.eqb_spec r' r) as [->|]; [|eauto]. intros [= <-]. cbn [o_links]. eauto.
  - subst i. destruct I as [A B C D D' E F G H]. set (s' := mkN _ _ _ _ _).
    assert (Hca : forall i' id' r, cached s' i' id' = Some r -> cached s i' id' = Some r).
    { intros i' id' r. unfold s'. rewrite cached_evict. now destruct (N.eqb i' i0 && N.eqb id' id). }
    assert (R : forall id' r', refs s' i0 id' r' -> refs s i0 id' r').
    { intros id' r' [X|X]; [left; auto|now right]. }
    constructor; auto; try (intros; eauto; fail).
    + intros t' id' r' l' X. destruct (G _ _ _ _ X) as [G1 G2]. split; [exact G1|]. intros r2 o' Y. eauto.
  - apply einv_start.
Qed.

Lemma einv_run i0 os : forall s, einv i0 s -> tidy_run i0 s os -> einv i0 (nrun s os).
Proof.
  induction os as [|o os IH]; intros s I Hc; cbn [nrun]; [exact I|]. destruct Hc as [H1 H2].
  apply IH; [now apply einv_step|exact H2].
Qed.

Lemma restart_same i0 s : einv i0 s -> all_written s ->
  forall id, links_of (nstep s ORestart) i0 id = links_of s i0 id.
Proof.
  intros I Hw id. unfold links_of. cbn [nstep]. change (cached (mkN [] 0 [] (n_kv s) []) i0 id) with (@None N). cbn [n_kv].
  destruct (cached s i0 id) as [r|] eqn:Er; [|reflexivity].
  destruct (ei_refs _ _ I id r (or_introl Er)) as (o & Ho). rewrite Ho. cbn [option_map].
  apply (ei_comm _ _ I id r o Er Ho). eapply Hw; eauto.
Qed.
