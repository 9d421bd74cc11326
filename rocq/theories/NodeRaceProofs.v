(** Interleavings that lose no link. *)
From Verif Require Import Base NodeRace.

(** Goroutine [t] is between marshalling vertex [id] and marking it as written. *)
Definition flushing (s : nstate) (t i id : N) : Prop :=
  exists r, mget t (n_go s) = Some (GPut i id r) \/ exists l, mget t (n_go s) = Some (GSnap i id r l).
(** No cached vertex has changes that are not written. *)
Definition all_written (s : nstate) : Prop :=
  forall i id r o, cached s i id = Some r -> mget r (n_heap s) = Some o -> o_comm o = true.

(** A step of a history on the single index [i0] in which the cache drops no vertex
    and no vertex is put into it that is there already; if [durable], also no link is added to a
    vertex that is being written, and a restart finds everything written. *)
Definition calm (durable : bool) (i0 : N) (s : nstate) (o : nop) : Prop :=
  match o with
  | ONew t i id => i = i0 /\ links_of s i id = None
  | OGet t i id => i = i0
  | OMarshal t i id => i = i0
  | OPublish t => forall i id l, mget t (n_go s) = Some (GLoaded i id l) -> cached s i id = None
  | OLink t x => durable = true -> forall i id r t', mget t (n_go s) = Some (GHolds i id r) -> ~ flushing s t' i id
  | ORestart => durable = true /\ all_written s
  | OEvict _ _ => False
  | _ => True
  end.
Fixpoint calm_run (durable : bool) (i0 : N) (s : nstate) (os : list nop) : Prop :=
  match os with
  | [] => True
  | o :: os' => calm durable i0 s o /\ calm_run durable i0 (nstep s o) os'
  end.

Definition go_ok (b : bool) (i0 : N) (s : nstate) (g : gost) : Prop :=
  match g with
  | GLoaded i id l => i = i0 /\ (cached s i0 id = None -> mget id (n_kv s) = Some l)
  | GHolds i id r => i = i0 /\ cached s i0 id = Some r
  | GSnap i id r l => i = i0 /\ cached s i0 id = Some r /\
      (b = true -> forall o, mget r (n_heap s) = Some o -> l = o_links o)
  | GPut i id r => i = i0 /\ cached s i0 id = Some r /\
      (b = true -> forall o, mget r (n_heap s) = Some o -> mget id (n_kv s) = Some (o_links o))
  end.
Record inv (b : bool) (i0 : N) (s : nstate) : Prop := mkInv {
  in_fresh : forall r o, mget r (n_heap s) = Some o -> (r < n_next s)%N;
  in_cache : forall i id r, cached s i id = Some r -> i = i0 /\ exists o, mget r (n_heap s) = Some o;
  in_inj : forall a c r, cached s i0 a = Some r -> cached s i0 c = Some r -> a = c;
  in_comm : b = true -> forall id r o, cached s i0 id = Some r -> mget r (n_heap s) = Some o -> o_comm o = true ->
            mget id (n_kv s) = Some (o_links o);
  in_go : forall t g, mget t (n_go s) = Some g -> go_ok b i0 s g
}.

Lemma inv_start b i0 : inv b i0 n_start.
Proof.
  constructor; cbn; discriminate.
Qed.

Lemma cached_add s i id r h nx kv g i' id' :
  cached (mkN h nx (cache_add s i id r) kv g) i' id' =
  if N.eqb i' i && N.eqb id' id then Some r else cached s i' id'.
Proof.
  unfold cached at 1, cache_of at 1, cache_add. cbn [n_cache]. rewrite mget_mset.
  destruct (N.eqb_spec i' i) as [->|Hi]; cbn [andb].
  - rewrite mget_mset. destruct (N.eqb id' id); [reflexivity|]. reflexivity.
  - reflexivity.
Qed.
(** Adding what is there already. *)
Lemma cached_again s i id r h nx kv g i' id' : cached s i id = Some r ->
  cached (mkN h nx (cache_add s i id r) kv g) i' id' = cached s i' id'.
Proof.
  intros H. rewrite cached_add. destruct (N.eqb_spec i' i) as [->|]; [|reflexivity]. cbn [andb].
  destruct (N.eqb_spec id' id) as [->|]; [congruence|reflexivity].
Qed.

(** A goroutine state survives if the cache, the objects' links and the rows of
    its vertex do. *)
Lemma go_same b i0 s s' g :
  (forall id, cached s' i0 id = cached s i0 id) ->
  (forall id r o', cached s i0 id = Some r -> mget r (n_heap s') = Some o' ->
     exists o, mget r (n_heap s) = Some o /\ o_links o' = o_links o) ->
  n_kv s' = n_kv s -> go_ok b i0 s g -> go_ok b i0 s' g.
Proof.
  intros Hc Hh Hk. destruct g as [i id l|i id r|i id r l|i id r]; cbn [go_ok]; rewrite Hc, ?Hk; [auto|auto|..].
  - intros (A & B & C). split; [exact A|]. split; [exact B|]. intros Hb o' Ho'.
    destruct (Hh _ _ _ B Ho') as (o & Ho & ->). auto.
  - intros (A & B & C). split; [exact A|]. split; [exact B|]. intros Hb o' Ho'.
    destruct (Hh _ _ _ B Ho') as (o & Ho & ->). auto.
Qed.

Lemma inv_go b i0 s t g : inv b i0 s -> go_ok b i0 s g -> inv b i0 (set_go s t g).
Proof.
  intros I Hg. destruct I as [A B C D E]. constructor; auto. cbn [set_go n_go]. intros t' g'. rewrite mget_mset.
  destruct (N.eqb t' t); [intros [= <-]|intros H; specialize (E _ _ H)].
  - exact Hg.
  - exact E.
Qed.
Lemma inv_end b i0 s t : inv b i0 s -> inv b i0 (end_go s t).
Proof.
  intros I. destruct I as [A B C D E]. constructor; auto. cbn [end_go n_go]. intros t' g' H.
  destruct (N.eq_dec t' t) as [->|Hne]; [now rewrite mget_mdel_eq in H|]. rewrite mget_mdel_ne in H by exact Hne. exact (E _ _ H).
Qed.

(** A fresh object under an id that is not cached. *)
Lemma inv_fresh b i0 s t id l : inv b i0 s -> cached s i0 id = None ->
  inv b i0 (mkN (mset (n_next s) (mkO l false) (n_heap s)) (n_next s + 1) (cache_add s i0 id (n_next s)) (n_kv s)
                (mset t (GHolds i0 id (n_next s)) (n_go s))).
Proof.
  intros I Hn. destruct I as [A B C D E]. set (s' := mkN _ _ _ _ _).
  assert (Hc : forall i' id', cached s' i' id' = if N.eqb i' i0 && N.eqb id' id then Some (n_next s) else cached s i' id')
    by (intros; apply cached_add).
  assert (Hold : forall i' id' r, cached s i' id' = Some r -> (r < n_next s)%N).
  { intros i' id' r H. destruct (B _ _ _ H) as (_ & o & Ho). eauto. }
  assert (Hh : forall r, (r < n_next s)%N -> mget r (n_heap s') = mget r (n_heap s)).
  { intros r H. unfold s'. cbn [n_heap]. apply mget_mset_ne. lia. }
  constructor.
  - intros r o. unfold s'. cbn [n_heap n_next]. rewrite mget_mset. destruct (N.eqb_spec r (n_next s)) as [->|]; [lia|].
    intros H. apply A in H. lia.
  - intros i' id' r. rewrite Hc. destruct (N.eqb_spec i' i0) as [->|]; cbn [andb].
    + destruct (N.eqb id' id); [intros [= <-]|]; [split; [reflexivity|]; eexists; apply mget_mset_eq|].
      intros H. destruct (B _ _ _ H) as (_ & o & Ho). split; [reflexivity|]. exists o. rewrite Hh; eauto.
    + intros H. destruct (B _ _ _ H) as (-> & _). congruence.
  - intros a c r. rewrite !Hc, N.eqb_refl. cbn [andb].
    destruct (N.eqb_spec a id) as [->|], (N.eqb_spec c id) as [->|]; auto; intros H1 H2; [| |eapply C; eauto].
    + injection H1 as <-. apply Hold in H2. lia.
    + injection H2 as <-. apply Hold in H1. lia.
  - intros Hb id' r o. rewrite Hc, N.eqb_refl. cbn [andb]. destruct (N.eqb_spec id' id) as [->|].
    + intros [= <-]. unfold s'. cbn [n_heap]. rewrite mget_mset_eq. intros [= <-]. discriminate.
    + intros H. rewrite Hh by eauto. apply D; auto.
  - intros t' g. unfold s' at 1. cbn [n_go]. rewrite mget_mset. destruct (N.eqb t' t); [intros [= <-]|].
    + cbn [go_ok]. split; [reflexivity|]. rewrite Hc, !N.eqb_refl. reflexivity.
    + intros H. specialize (E _ _ H). destruct g as [i2 id2 l2|i2 id2 r2|i2 id2 r2 l2|i2 id2 r2]; cbn [go_ok] in *;
        rewrite Hc, N.eqb_refl; cbn [andb]; (destruct (N.eqb_spec id2 id) as [->|Hne];
          [try (destruct E as (_ & E); try destruct E as (E & _); congruence)|]).
      * split; [tauto|]. discriminate.
      * exact E.
      * exact E.
      * destruct E as (E1 & E2 & E3). split; [exact E1|]. split; [exact E2|]. rewrite Hh by eauto. exact E3.
      * destruct E as (E1 & E2 & E3). split; [exact E1|]. split; [exact E2|]. rewrite Hh by eauto. exact E3.
Qed.

Lemma inv_step b i0 s o : inv b i0 s -> calm b i0 s o -> inv b i0 (nstep s o).
Proof.
  intros I Hc. destruct o as [t i id|t i id|t|t x|t|t i id|t|t|i id|]; cbn [nstep calm] in *; [..|destruct Hc|].
  - destruct Hc as [-> Hl]. apply inv_fresh; [exact I|]. unfold links_of in Hl. destruct (cached s i0 id) as [r|] eqn:Er; [|reflexivity].
    destruct (in_cache _ _ _ I _ _ _ Er) as (_ & o & Ho). rewrite Ho in Hl. discriminate.
  - subst i. destruct (cached s i0 id) as [r|] eqn:Er; [apply inv_go; [exact I|]; cbn; auto|].
    destruct (mget id (n_kv s)) as [l|] eqn:El; [apply inv_go; [exact I|]; cbn; auto|now apply inv_end].
  - destruct (mget t (n_go s)) as [[i id l|i id r|i id r l|i id r]|] eqn:Eg; try exact I.
    pose proof (in_go _ _ _ I _ _ Eg) as (-> & _). apply inv_fresh; [exact I|]. eapply Hc. reflexivity.
  - destruct (mget t (n_go s)) as [[i id l|i id r|i id r l|i id r]|] eqn:Eg; try exact I.
    destruct (mget r (n_heap s)) as [o|] eqn:Eo; [|exact I].
    pose proof (in_go _ _ _ I _ _ Eg) as (-> & Er). destruct I as [A B C D E]. set (s' := mkN _ _ _ _ _).
    assert (Hca : forall i' id', cached s' i' id' = cached s i' id') by (intros; now apply cached_again).
    constructor.
    + intros r' o'. unfold s'. cbn [n_heap n_next]. rewrite mget_mset. destruct (N.eqb_spec r' r) as [->|]; eauto.
    + intros i' id' r'. rewrite Hca. intros H. destruct (B _ _ _ H) as (-> & o' & Ho'). split; [reflexivity|].
      unfold s'. cbn [n_heap]. rewrite mget_mset. destruct (N.eqb r' r); eauto.
    + intros a c r'. rewrite !Hca. apply C.
    + intros Hb id' r' o'. rewrite Hca. unfold s'. cbn [n_heap n_kv]. rewrite mget_mset.
      destruct (N.eqb_spec r' r) as [->|]; [|apply D; auto]. intros _ [= <-]. discriminate.
    + intros t' g H. specialize (E _ _ H).
      destruct g as [i2 id2 l2|i2 id2 r2|i2 id2 r2 l2|i2 id2 r2]; cbn [go_ok] in *; rewrite Hca; [exact E|exact E|..].
      * destruct E as (E1 & E2 & E3). split; [exact E1|]. split; [exact E2|]. intros Hb. unfold s'. cbn [n_heap].
        rewrite mget_mset. destruct (N.eqb_spec r2 r) as [->|]; [|auto]. exfalso. assert (id2 = id) by eauto. subst id2.
        apply (Hc Hb _ _ _ t' eq_refl). exists r. right. exists l2. unfold s' in H. cbn [n_go] in H. congruence.
      * destruct E as (E1 & E2 & E3). split; [exact E1|]. split; [exact E2|]. intros Hb. unfold s'. cbn [n_heap n_kv].
        rewrite mget_mset. destruct (N.eqb_spec r2 r) as [->|]; [|auto]. exfalso. assert (id2 = id) by eauto. subst id2.
        apply (Hc Hb _ _ _ t' eq_refl). exists r. left. unfold s' in H. cbn [n_go] in H. congruence.
  - now apply inv_end.
  - subst i. destruct (cached s i0 id) as [r|] eqn:Er; [|now apply inv_end].
    destruct (mget r (n_heap s)) as [o|] eqn:Eo; [|exact I].
    destruct (o_comm o); [now apply inv_end|]. apply inv_go; [exact I|]. cbn [go_ok]. split; [reflexivity|]. split; [exact Er|].
    intros _ o'. rewrite Eo. now intros [= <-].
  - destruct (mget t (n_go s)) as [[i id l|i id r|i id r l|i id r]|] eqn:Eg; try exact I.
    pose proof (in_go _ _ _ I _ _ Eg) as (-> & Er & El). destruct I as [A B C D E]. set (s' := mkN _ _ _ _ _).
    assert (Hca : forall i' id', cached s' i' id' = cached s i' id') by reflexivity.
    constructor; auto.
    + intros Hb id' r' o'. rewrite Hca. unfold s'. cbn [n_heap n_kv]. rewrite mget_mset. intros H1 H2 H3.
      destruct (N.eqb_spec id' id) as [->|]; [|eapply D; eauto].
      assert (r' = r) by congruence. subst r'. f_equal. auto.
    + intros t' g. unfold s' at 1. cbn [n_go]. rewrite mget_mset. destruct (N.eqb t' t); [intros [= <-]|].
      * cbn [go_ok]. rewrite Hca. split; [reflexivity|]. split; [exact Er|]. intros Hb o Ho. unfold s'. cbn [n_kv].
        rewrite mget_mset_eq. f_equal. auto.
      * intros H. specialize (E _ _ H).
        destruct g as [i2 id2 l2|i2 id2 r2|i2 id2 r2 l2|i2 id2 r2]; cbn [go_ok] in *; rewrite ?Hca; try exact E.
        -- destruct E as (E1 & E2). split; [exact E1|]. intros H0. unfold s'. cbn [n_kv]. rewrite mget_mset.
           destruct (N.eqb_spec id2 id) as [->|]; [congruence|auto].
        -- destruct E as (E1 & E2 & E3). split; [exact E1|]. split; [exact E2|]. intros Hb o Ho. unfold s'. cbn [n_kv].
           rewrite mget_mset. destruct (N.eqb_spec id2 id) as [->|]; [|auto]. assert (r2 = r) by congruence. subst r2.
           f_equal. auto.
  - destruct (mget t (n_go s)) as [[i id l|i id r|i id r l|i id r]|] eqn:Eg; try exact I.
    destruct (mget r (n_heap s)) as [o|] eqn:Eo; [|exact I].
    pose proof (in_go _ _ _ I _ _ Eg) as (-> & Er & El). destruct I as [A B C D E]. set (s' := mkN _ _ _ _ _).
    assert (Hca : forall i' id', cached s' i' id' = cached s i' id') by (intros; now apply cached_again).
    constructor.
    + intros r' o'. unfold s'. cbn [n_heap n_next]. rewrite mget_mset. destruct (N.eqb_spec r' r) as [->|]; eauto.
    + intros i' id' r'. rewrite Hca. intros H. destruct (B _ _ _ H) as (-> & o' & Ho'). split; [reflexivity|].
      unfold s'. cbn [n_heap]. rewrite mget_mset. destruct (N.eqb r' r); eauto.
    + intros a c r'. rewrite !Hca. apply C.
    + intros Hb id' r' o'. rewrite Hca. unfold s'. cbn [n_heap n_kv]. rewrite mget_mset. intros H1 H2 H3.
      destruct (N.eqb_spec r' r) as [->|]; [|eapply D; eauto]. injection H2 as <-. cbn [o_links].
      assert (id' = id) by eauto. subst id'. auto.
    + intros t' g H. apply (go_same b i0 s s').
      * intros. apply Hca.
      * intros id' r' o' _. unfold s'. cbn [n_heap]. rewrite mget_mset. destruct (N.eqb_spec r' r) as [->|]; [|eauto].
        intros [= <-]. eauto.
      * reflexivity.
      * unfold s' in H. cbn [n_go] in H. destruct (N.eq_dec t' t) as [->|Hne]; [now rewrite mget_mdel_eq in H|].
        rewrite mget_mdel_ne in H by exact Hne. eauto.
  - constructor; cbn; discriminate.
Qed.

(** A calm step keeps the links a vertex shows. *)
Lemma step_keeps b i0 s o : inv b i0 s -> calm b i0 s o -> forall id l, links_of s i0 id = Some l ->
  exists l', links_of (nstep s o) i0 id = Some l' /\ incl l l'.
Proof.
  intros I Hc id l Hl.
  assert (Hsame : forall s', (forall id, cached s' i0 id = cached s i0 id) ->
    (forall r o, cached s i0 id = Some r -> mget r (n_heap s) = Some o ->
       exists o', mget r (n_heap s') = Some o' /\ incl (o_links o) (o_links o')) ->
    (cached s i0 id = None -> mget id (n_kv s') = mget id (n_kv s)) ->
    exists l', links_of s' i0 id = Some l' /\ incl l l').
  { intros s' Hca Hh Hk. unfold links_of in *. rewrite Hca. destruct (cached s i0 id) as [r|] eqn:Er.
    - destruct (mget r (n_heap s)) as [o1|] eqn:Eo; [|discriminate]. injection Hl as <-.
      destruct (Hh r o1 eq_refl Eo) as (o' & Ho' & Hi). rewrite Ho'. cbn. eauto.
    - rewrite Hk by reflexivity. exists l. split; [exact Hl|apply incl_refl]. }
  assert (Hid : forall r o0, cached s i0 id = Some r -> mget r (n_heap s) = Some o0 ->
    exists o', mget r (n_heap s) = Some o' /\ incl (o_links o0) (o_links o')).
  { intros r o0 _ H. exists o0. split; [exact H|apply incl_refl]. }
  assert (Hfresh : forall t id2 l2, cached s i0 id2 = None -> (id2 = id -> l2 = l) ->
    exists l', links_of (mkN (mset (n_next s) (mkO l2 false) (n_heap s)) (n_next s + 1) (cache_add s i0 id2 (n_next s)) (n_kv s)
                (mset t (GHolds i0 id2 (n_next s)) (n_go s))) i0 id = Some l' /\ incl l l').
  { intros t id2 l2 Hn He. unfold links_of. rewrite cached_add, N.eqb_refl. cbn [andb n_heap n_kv].
    destruct (N.eqb_spec id id2) as [->|Hne].
    - rewrite mget_mset_eq. cbn. exists l2. split; [reflexivity|]. rewrite He by reflexivity. apply incl_refl.
    - unfold links_of in Hl. destruct (cached s i0 id) as [r|] eqn:Er.
      + destruct (in_cache _ _ _ I _ _ _ Er) as (_ & o1 & Ho1). pose proof (in_fresh _ _ _ I _ _ Ho1).
        rewrite mget_mset_ne by lia. exists l. split; [exact Hl|apply incl_refl].
      + exists l. split; [exact Hl|apply incl_refl]. }
  destruct o as [t i id2|t i id2|t|t x|t|t i id2|t|t|i id2|]; cbn [nstep calm] in *; [..|destruct Hc|].
  - destruct Hc as [-> Hn]. apply Hfresh.
    + unfold links_of in Hn. destruct (cached s i0 id2) as [r|] eqn:Er; [|reflexivity].
      destruct (in_cache _ _ _ I _ _ _ Er) as (_ & o & Ho). rewrite Ho in Hn. discriminate.
    + intros ->. congruence.
  - apply Hsame; destruct (cached s i id2); try destruct (mget id2 (n_kv s)); try reflexivity; exact Hid.
  - destruct (mget t (n_go s)) as [[i id2 l2|i id2 r|i id2 r l2|i id2 r]|] eqn:Eg; try (apply Hsame; [reflexivity|exact Hid|reflexivity]).
    pose proof (in_go _ _ _ I _ _ Eg) as (-> & Hk). specialize (Hc _ _ _ eq_refl). apply Hfresh; [exact Hc|].
    intros ->. unfold links_of in Hl. rewrite Hc in Hl. specialize (Hk Hc). congruence.
  - destruct (mget t (n_go s)) as [[i id2 l2|i id2 r|i id2 r l2|i id2 r]|] eqn:Eg; try (apply Hsame; [reflexivity|exact Hid|reflexivity]).
    destruct (mget r (n_heap s)) as [o|] eqn:Eo; [|apply Hsame; [reflexivity|exact Hid|reflexivity]].
    pose proof (in_go _ _ _ I _ _ Eg) as (-> & Er). apply Hsame; [intros; now apply cached_again| |reflexivity].
    intros r' o' _ Ho'. cbn [n_heap]. rewrite mget_mset. destruct (N.eqb_spec r' r) as [->|]; [|exists o'; split; [exact Ho'|apply incl_refl]].
    eexists. split; [reflexivity|]. cbn [o_links]. replace o' with o by congruence. now apply incl_appl.
  - apply Hsame; [reflexivity|exact Hid|reflexivity].
  - apply Hsame; destruct (cached s i id2) as [r|]; try destruct (mget r (n_heap s)) as [o|]; try destruct (o_comm o); try reflexivity; exact Hid.
  - destruct (mget t (n_go s)) as [[i id2 l2|i id2 r|i id2 r l2|i id2 r]|] eqn:Eg; try (apply Hsame; [reflexivity|exact Hid|reflexivity]).
    pose proof (in_go _ _ _ I _ _ Eg) as (-> & Er & _). apply Hsame; [reflexivity|exact Hid|].
    intros Hn. cbn [n_kv]. apply mget_mset_ne. intros ->. congruence.
  - destruct (mget t (n_go s)) as [[i id2 l2|i id2 r|i id2 r l2|i id2 r]|] eqn:Eg; try (apply Hsame; [reflexivity|exact Hid|reflexivity]).
    destruct (mget r (n_heap s)) as [o|] eqn:Eo; [|apply Hsame; [reflexivity|exact Hid|reflexivity]].
    pose proof (in_go _ _ _ I _ _ Eg) as (-> & Er & _). apply Hsame; [intros; now apply cached_again| |reflexivity].
    intros r' o' _ Ho'. cbn [n_heap]. rewrite mget_mset. destruct (N.eqb_spec r' r) as [->|]; [|exists o'; split; [exact Ho'|apply incl_refl]].
    eexists. split; [reflexivity|]. cbn [o_links]. replace o' with o by congruence. apply incl_refl.
  - destruct Hc as [-> Hw]. exists l. split; [|apply incl_refl]. unfold links_of in *. cbn [n_kv].
    change (cached (mkN [] 0 [] (n_kv s) []) i0 id) with (@None N).
    destruct (cached s i0 id) as [r|] eqn:Er; [|exact Hl].
    destruct (mget r (n_heap s)) as [o|] eqn:Eo; [|discriminate]. injection Hl as <-.
    apply (in_comm _ _ _ I eq_refl id r o Er Eo). eapply Hw; eauto.
Qed.

(** The link a step adds is shown afterwards. *)
Lemma step_adds b i0 s o id x : inv b i0 s -> adds s o = Some (id, x) ->
  exists l, links_of (nstep s o) i0 id = Some l /\ In x l.
Proof.
  intros I. destruct o as [| | |t y| | | | | |]; cbn [adds]; try discriminate.
  destruct (mget t (n_go s)) as [[i id2 l2|i id2 r|i id2 r l2|i id2 r]|] eqn:Eg; try discriminate.
  destruct (mget r (n_heap s)) as [o|] eqn:Eo; [|discriminate]. intros [= -> ->].
  pose proof (in_go _ _ _ I _ _ Eg) as (-> & Er). cbn [nstep]. rewrite Eg, Eo. unfold links_of.
  rewrite cached_again by exact Er. rewrite Er. cbn [n_heap]. rewrite mget_mset_eq. cbn. eexists. split; [reflexivity|].
  apply in_or_app. right. now left.
Qed.

Lemma run_keeps b i0 os : forall s, inv b i0 s -> calm_run b i0 s os ->
  (forall id l, links_of s i0 id = Some l -> exists l', links_of (nrun s os) i0 id = Some l' /\ incl l l') /\
  (forall id x, In (id, x) (added s os) -> exists l, links_of (nrun s os) i0 id = Some l /\ In x l).
Proof.
  induction os as [|o os IH]; intros s I Hc; cbn [nrun added].
  - split; [intros id l H; exists l; split; [exact H|apply incl_refl]|intros id x []].
  - destruct Hc as [Hc1 Hc2]. destruct (IH _ (inv_step _ _ _ _ I Hc1) Hc2) as [K1 K2]. split.
    + intros id l H. destruct (step_keeps _ _ _ _ I Hc1 _ _ H) as (l1 & H1 & H2). destruct (K1 _ _ H1) as (l' & H3 & H4).
      exists l'. split; [exact H3|]. eapply incl_tran; eauto.
    + intros id x H. destruct (adds s o) as [[id2 x2]|] eqn:Ea; [|now apply K2].
      destruct H as [[= -> ->]|H]; [|now apply K2]. destruct (step_adds _ _ _ _ _ _ I Ea) as (l & H1 & H2).
      destruct (K1 _ _ H1) as (l' & H3 & H4). exists l'. auto.
Qed.
