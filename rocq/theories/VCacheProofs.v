(** Proofs about the vector cache. *)
From Verif Require Import Base VCache.

Lemma in_firstn {A} (x : A) n : forall l, In x (firstn n l) -> In x l.
Proof.
  induction n as [|n IH]; intros [|y l]; cbn [firstn]; try contradiction.
  intros [->|H]; [now left|right; now apply IH].
Qed.
Lemma mget_firstn {V} k (v : V) n : forall m : nmap V, mget k (firstn n m) = Some v -> mget k m = Some v.
Proof.
  induction n as [|n IH]; intros [|[k' x] m]; cbn [firstn]; try discriminate.
  cbn [mget]. destruct (N.eqb k k'); [auto|apply IH].
Qed.

Section VCacheProofs.
  Variable V : Type.
  Variable norm : V -> V.
  Local Notation vcache := (vcache V).
  Local Notation vop := (vop V).

  (** The vector that belongs to an id, as preloads and deletions change it. *)
  Definition truth_step (size : N) (tr : N -> option V) (o : vop) : N -> option V :=
    match o with
    | VPreload id v => fun i => if N.eqb i id && N.ltb id size then Some v else tr i
    | VDelete id => fun i => if N.eqb i id then None else tr i
    | _ => tr
    end.
  (** The vector source answers with the vector of the id (before
      normalisation). *)
  Definition source_ok (tr : N -> option V) (id : N) (src : res V) : Prop :=
    forall v, src = Ok v -> tr id = Some (norm v).
  Definition op_ok (tr : N -> option V) (o : vop) : Prop :=
    match o with VFetch _ id src => source_ok tr id src | _ => True end.

  (** The history is faithful from cache [c] and truth [tr] on. *)
  Fixpoint faithful (c : vcache) (tr : N -> option V) (ops : list vop) : Prop :=
    match ops with
    | [] => True
    | o :: ops' => op_ok tr o /\ faithful (fst (vstep norm c o)) (truth_step (vc_size c) tr o) ops'
    end.
  Fixpoint truth (c : vcache) (tr : N -> option V) (ops : list vop) : N -> option V :=
    match ops with
    | [] => tr
    | o :: ops' => truth (fst (vstep norm c o)) (truth_step (vc_size c) tr o) ops'
    end.

  (* ---------------------------------------------------------------- *)
  (** All interleavings: whatever is returned for an id was that id's vector. *)
  Definition inv (P : N -> V -> Prop) (c : vcache) : Prop :=
    (forall id v, mget id (vc_slots c) = Some v -> P id v) /\
    (forall t id v, mget t (vc_pend c) = Some (id, v) -> P id v).
  Lemma inv_step P c tr o : inv P c -> (forall id v, tr id = Some v -> P id v) -> op_ok tr o ->
    (forall id v, o = VPreload id v -> P id v) ->
    inv P (fst (vstep norm c o)) /\ forall id v, truth_step (vc_size c) tr o id = Some v -> P id v.
  Proof.
    intros [H1 H2] Ht Ho Hp. split.
    - destruct o as [t id|t id src|t|id v|id|id|id| | |m]; cbn [vstep].
      + destruct (negb (N.ltb id (vc_size c))); now split.
      + destruct src as [v|e| |]; cbn [fst]; [|now split|now split|now split]. split; [exact H1|].
        intros t' id' v'. cbn [vc_pend]. rewrite mget_mset. destruct (N.eqb t' t); [|apply H2].
        intros [= <- <-]. apply Ht, Ho. reflexivity.
      + destruct (mget t (vc_pend c)) as [[id v]|] eqn:E; [|now split].
        assert (Hpend : forall t' id' v', mget t' (mdel t (vc_pend c)) = Some (id', v') -> P id' v').
        { intros t' id' v'. destruct (N.eq_dec t' t) as [->|Hn]; [now rewrite mget_mdel_eq|].
          rewrite mget_mdel_ne by exact Hn. apply H2. }
        destruct (negb (N.ltb id (vc_size c))); (split; [|exact Hpend]); [exact H1|].
        intros id' v'. cbn [fst with_slots vc_slots]. rewrite mget_mset. destruct (N.eqb_spec id' id) as [->|]; [|apply H1].
        intros [= <-]. exact (H2 _ _ _ E).
      + destruct (negb (N.ltb id (vc_size c))); (split; [|exact H2]); [exact H1|].
        intros id' v'. cbn [fst with_slots vc_slots]. rewrite mget_mset. destruct (N.eqb_spec id' id) as [->|]; [|apply H1].
        intros [= <-]. now apply Hp.
      + destruct (mget id (vc_slots c)); [|now split]. destruct (negb (N.ltb id (vc_size c))); (split; [|exact H2]); [exact H1|].
        intros id' v'. cbn [fst with_slots vc_slots]. destruct (N.eq_dec id' id) as [->|Hn]; [now rewrite mget_mdel_eq|].
        rewrite mget_mdel_ne by exact Hn. apply H1.
      + now split.
      + destruct (N.ltb id (vc_size c)); now split.
      + split; [intros id v [=]|exact H2].
      + destruct (vc_max c <=? vc_count c)%Z; [split; [intros id v [=]|exact H2]|now split].
      + now split.
    - destruct o as [t id|t id src|t|id v|id|id|id| | |m]; cbn [truth_step]; auto.
      + intros id' v'. destruct (N.eqb_spec id' id) as [->|]; cbn [andb]; [|apply Ht].
        destruct (N.ltb id (vc_size c)); [|apply Ht]. intros [= <-]. now apply Hp.
      + intros id' v'. destruct (N.eqb id' id); [discriminate|apply Ht].
  Qed.
  Lemma inv_run P ops : forall c tr, inv P c -> (forall id v, tr id = Some v -> P id v) -> faithful c tr ops ->
    (forall id v, In (VPreload id v) ops -> P id v) ->
    inv P (vrun norm c ops) /\ forall id v, truth c tr ops id = Some v -> P id v.
  Proof.
    induction ops as [|o ops IH]; intros c tr Hi Ht Hf Hp; [now split|]. cbn [faithful vrun truth] in *. destruct Hf as [Ho Hf].
    destruct (inv_step P c tr o Hi Ht Ho) as [A B].
    { intros id v ->. apply Hp. now left. }
    apply IH; auto. intros id v Hin. apply Hp. now right.
  Qed.

  (** The id that a step answers for. *)
  Definition answers_for (c : vcache) (o : vop) : option N :=
    match o with
    | VRead _ id => Some id
    | VStore t => option_map fst (mget t (vc_pend c))
    | _ => None
    end.
  Lemma inv_answer P c o id v : inv P c -> answers_for c o = Some id -> snd (vstep norm c o) = Some (Ok v) -> P id v.
  Proof.
    intros [H1 H2]. destruct o as [t i|t i src|t|i w|i|i|i| | |m]; cbn [answers_for vstep]; try discriminate.
    - intros [= ->]. destruct (negb (N.ltb id (vc_size c))); cbn [snd]; [discriminate|].
      destruct (mget id (vc_slots c)) eqn:E; [|discriminate]. intros [= <-]. now apply H1.
    - destruct (mget t (vc_pend c)) as [[i w]|] eqn:E; cbn [option_map fst]; [|discriminate]. intros [= ->].
      destruct (negb (N.ltb id (vc_size c))); cbn [snd]; [discriminate|]. intros [= <-]. exact (H2 _ _ _ E).
  Qed.
  Lemma only_right_vectors max tr ops o id v : faithful (new_vcache max) tr ops ->
    answers_for (vrun norm (new_vcache max) ops) o = Some id ->
    snd (vstep norm (vrun norm (new_vcache max) ops) o) = Some (Ok v) ->
    tr id = Some v \/ In (VPreload id v) ops.
  Proof.
    intros Hf Ha Hs. set (P := fun i w => tr i = Some w \/ In (VPreload i w) ops).
    destruct (inv_run P ops (new_vcache max) tr) as [Hi _].
    - split; intros; discriminate.
    - intros i w H. now left.
    - exact Hf.
    - intros i w H. now right.
    - exact (inv_answer P _ o id v Hi Ha Hs).
  Qed.

  (* ---------------------------------------------------------------- *)
  (** Lookups that are not interrupted. *)
  Inductive seqop := SGet (id : N) (src : res V) | SOp (o : vop).
  Definition seq_ops (s : seqop) : list vop :=
    match s with
    | SGet id src => [VRead 0 id; VFetch 0 id src; VStore 0]
    | SOp o => [o]
    end.
  Definition plain (s : seqop) : Prop :=
    match s with SGet _ _ => True | SOp o => match o with VFetch _ _ _ | VStore _ => False | _ => True end end.
  Definition sstep (c : vcache) (s : seqop) : vcache :=
    match s with SGet id src => fst (vget norm c id src) | SOp o => fst (vstep norm c o) end.
  Definition struth (size : N) (tr : N -> option V) (s : seqop) : N -> option V :=
    match s with SGet _ _ => tr | SOp o => truth_step size tr o end.
  Fixpoint srun (c : vcache) (ops : list seqop) : vcache :=
    match ops with [] => c | s :: ops' => srun (sstep c s) ops' end.
  Fixpoint sfaithful (c : vcache) (tr : N -> option V) (ops : list seqop) : Prop :=
    match ops with
    | [] => True
    | s :: ops' => plain s /\ (match s with SGet id src => source_ok tr id src | _ => True end) /\
                   sfaithful (sstep c s) (struth (vc_size c) tr s) ops'
    end.
  Fixpoint struth_run (c : vcache) (tr : N -> option V) (ops : list seqop) : N -> option V :=
    match ops with [] => tr | s :: ops' => struth_run (sstep c s) (struth (vc_size c) tr s) ops' end.

  (** Slots hold current vectors. *)
  Definition current (c : vcache) (tr : N -> option V) : Prop :=
    (forall id v, mget id (vc_slots c) = Some v -> tr id = Some v) /\
    (forall id v, mget id (vc_slots c) = Some v -> (id < vc_size c)%N).
  Lemma vget_cases c id src :
    vget norm c id src =
    if negb (N.ltb id (vc_size c)) then (c, Panic)
    else match mget id (vc_slots c) with
         | Some v => (c, Ok v)
         | None => match src with
                   | Ok v => (mkVC (mset id (norm v) (vc_slots c)) (vc_size c) (vc_count c + 1) (vc_max c)
                                   (mdel 0 (mset 0%N (id, norm v) (vc_pend c))), Ok (norm v))
                   | Err e => (c, Err e) | Panic => (c, Panic) | OutOfFuel => (c, OutOfFuel)
                   end
         end.
  Proof.
    unfold vget. cbn [vstep]. destruct (N.ltb id (vc_size c)) eqn:E; cbn [negb]; [|reflexivity].
    destruct (mget id (vc_slots c)) eqn:Em; [reflexivity|].
    destruct src as [v|e| |]; try reflexivity. cbn [vstep vc_pend vc_size vc_count vc_max vc_slots].
    rewrite mget_mset_eq, E. reflexivity.
  Qed.
  Lemma vget_current c tr id src : current c tr -> source_ok tr id src ->
    current (fst (vget norm c id src)) tr /\ forall v, snd (vget norm c id src) = Ok v -> tr id = Some v.
  Proof.
    intros [H1 H2] Hs. rewrite vget_cases. destruct (N.ltb id (vc_size c)) eqn:E; cbn [negb fst snd]; [|now split].
    apply N.ltb_lt in E. destruct (mget id (vc_slots c)) eqn:Em; cbn [fst snd].
    - split; [now split|]. intros w [= <-]. now apply H1.
    - destruct src as [v|e| |]; cbn [fst snd]; try now split. split; [|intros w [= <-]; now apply Hs].
      split; intros id' v'; cbn [vc_slots vc_size]; rewrite mget_mset; destruct (N.eqb_spec id' id) as [->|]; auto.
      + intros [= <-]. now apply Hs.
      + intros H. now apply H2 with v'.
  Qed.
  Lemma sstep_current c tr s : current c tr -> plain s ->
    (match s with SGet id src => source_ok tr id src | _ => True end) ->
    current (sstep c s) (struth (vc_size c) tr s).
  Proof.
    intros [H1 H2] Hp Hs. destruct s as [id src|o]; cbn [sstep struth].
    { now apply vget_current. }
    destruct o as [t id|t id src|t|id v|id|id|id| | |m]; cbn [plain] in Hp; try contradiction; cbn [vstep truth_step].
    - destruct (negb (N.ltb id (vc_size c))); now split.
    - destruct (N.ltb id (vc_size c)) eqn:E; cbn [negb fst]; unfold with_slots.
      + apply N.ltb_lt in E. split; intros id' v'; cbn [vc_slots vc_size]; rewrite mget_mset; destruct (N.eqb_spec id' id) as [->|]; cbn [andb]; auto.
        apply H2.
      + split; intros id' v'; cbn [vc_slots]; [|apply H2]. rewrite andb_false_r. apply H1.
    - destruct (mget id (vc_slots c)) as [w|] eqn:Em.
      + pose proof (H2 _ _ Em) as Hl. apply N.ltb_lt in Hl. rewrite Hl. cbn [negb fst]; unfold with_slots.
        split; intros id' v'; cbn [vc_slots vc_size]; destruct (N.eqb_spec id' id) as [->|Hn];
          try (rewrite mget_mdel_eq; discriminate); rewrite mget_mdel_ne by exact Hn; [apply H1|apply H2].
      + split; intros id' v'; cbn [fst]; [|apply H2]. destruct (N.eqb_spec id' id) as [->|Hn]; [congruence|apply H1].
    - now split.
    - destruct (N.ltb id (vc_size c)) eqn:E; cbn [fst]; [now split|]. apply N.ltb_ge in E. split; cbn [vc_slots vc_size]; [exact H1|].
      intros id' v' H. apply H2 in H. lia.
    - split; intros id v [=].
    - destruct (vc_max c <=? vc_count c)%Z; [split; intros id v [=]|now split].
    - now split.
  Qed.
  Lemma srun_current ops : forall c tr, current c tr -> sfaithful c tr ops -> current (srun c ops) (struth_run c tr ops).
  Proof.
    induction ops as [|s ops IH]; intros c tr Hc Hf; [exact Hc|]. cbn [sfaithful srun struth_run] in *.
    destruct Hf as (A & B & C). apply IH; [now apply sstep_current|exact C].
  Qed.
  Lemma sequential_right max tr ops id src v : sfaithful (new_vcache max) tr ops ->
    let c := srun (new_vcache max) ops in let tr' := struth_run (new_vcache max) tr ops in
    source_ok tr' id src -> snd (vget norm c id src) = Ok v -> tr' id = Some v.
  Proof.
    intros Hf c tr' Hs. apply vget_current; [|exact Hs]. apply srun_current; [|exact Hf]. split; intros i w [=].
  Qed.
  (** multiGet: the answers are positional. *)
  Lemma multi_right tr src : (forall id, source_ok tr id (src id)) -> forall ids c rs, current c tr ->
    snd (vmulti norm c src ids) = Some rs ->
    length rs = length ids /\ forall i id v, nth_error ids i = Some id -> nth_error rs i = Some (Ok v) -> tr id = Some v.
  Proof.
    intros Hs. induction ids as [|id ids IH]; intros c rs Hc H; cbn [vmulti] in H.
    - injection H as <-. split; [reflexivity|]. intros [|i] id v H; discriminate H.
    - destruct (vget_current c tr id (src id) Hc (Hs id)) as [A B].
      destruct (vget norm c id (src id)) as [c1 r] eqn:E. cbn [fst snd] in A, B.
      assert (Hr : exists rs', snd (vmulti norm c1 src ids) = Some rs' /\ rs = r :: rs').
      { destruct r; try discriminate; destruct (vmulti norm c1 src ids) as [c2 [rs'|]]; cbn [snd] in *; try discriminate;
          injection H as <-; now exists rs'. }
      destruct Hr as (rs' & H1 & ->). destruct (IH _ _ A H1) as [I1 I2]. split; [cbn; lia|].
      intros [|i] id' v; cbn [nth_error]; [intros [= <-] [= ->]; now apply B|apply I2].
  Qed.

  (* ---------------------------------------------------------------- *)
  (** When lookups fail. *)
  Lemma vget_beyond c id src : (vc_size c <= id)%N -> snd (vget norm c id src) = Panic.
  Proof. intros H. rewrite vget_cases. apply N.ltb_ge in H. now rewrite H. Qed.
  Lemma vget_missing c id e : (id < vc_size c)%N -> mget id (vc_slots c) = None ->
    snd (vget norm c id (Err e)) = Err e.
  Proof. intros H Hm. rewrite vget_cases. apply N.ltb_lt in H. now rewrite H, Hm. Qed.

  (** The document cache keeps the last [cap] ids. *)
  Fixpoint dc_fill (cap : nat) (ids : list N) (v : N -> V) (d : dcache V) : dcache V :=
    match ids with [] => d | id :: ids' => dc_fill cap ids' v (dc_add cap id (v id) d) end.
  Lemma mdel_absent (d : nmap V) k : ~ In k (mkeys d) -> mdel k d = d.
  Proof.
    induction d as [|[k' x] d IH]; intros H; cbn [mdel]; [reflexivity|]. cbn [mkeys map fst In] in H.
    destruct (N.eqb_spec k k') as [->|Hn]; [exfalso; tauto|]. f_equal. apply IH. tauto.
  Qed.
  Lemma dc_fill_keys cap ids : forall v (d : dcache V), NoDup ids -> (forall k, In k ids -> ~ In k (mkeys d)) ->
    mkeys (dc_fill cap ids v d) = firstn (match ids with [] => length (mkeys d) | _ => cap end) (rev ids ++ mkeys d).
  Proof.
    induction ids as [|id ids IH]; intros v d Hn Hd; cbn [dc_fill rev app]; [now rewrite firstn_all|].
    apply NoDup_cons_iff in Hn. destruct Hn as [Hi Hn].
    assert (Hk : mkeys (dc_add cap id (v id) d) = firstn cap (id :: mkeys d)).
    { unfold dc_add, mset. rewrite mdel_absent by (apply Hd; now left). unfold mkeys. rewrite <- firstn_map. reflexivity. }
    rewrite IH; [|exact Hn|].
    - rewrite Hk. destruct ids as [|j ids].
      + cbn [rev app]. rewrite firstn_all. reflexivity.
      + rewrite <- app_assoc. cbn [app]. rewrite firstn_app, firstn_firstn.
        rewrite firstn_app. f_equal. f_equal. lia.
    - intros k Hin. rewrite Hk. intros Hf. apply in_firstn in Hf.
      destruct Hf as [->|Hf]; [contradiction|]. apply (Hd k); [now right|exact Hf].
  Qed.
  Lemma dc_fill_val cap ids : forall v (d : dcache V) k w, (forall k w, mget k d = Some w -> w = v k) ->
    mget k (dc_fill cap ids v d) = Some w -> w = v k.
  Proof.
    induction ids as [|id ids IH]; intros v d k w Hd; cbn [dc_fill]; [apply Hd|]. apply IH.
    intros k' w' H. unfold dc_add in H. apply mget_firstn in H. rewrite mget_mset in H.
    destruct (N.eqb_spec k' id) as [->|]; [now injection H|now apply Hd].
  Qed.
  (** Added ids are found exactly if they are among the last [cap]. *)
  Lemma dc_fill_get cap ids v k : NoDup ids ->
    snd (dc_get k (dc_fill cap ids v [])) =
    if in_dec N.eq_dec k (firstn cap (rev ids)) then Ok (v k) else Err EVectorSource.
  Proof.
    intros Hn. pose proof (dc_fill_keys cap ids v [] Hn (fun _ _ H => H)) as Hk. cbn [mkeys map] in Hk. rewrite app_nil_r in Hk.
    assert (Hk' : mkeys (dc_fill cap ids v []) = firstn cap (rev ids)).
    { rewrite Hk. destruct ids; [cbn [rev]; now rewrite !firstn_nil|reflexivity]. }
    unfold dc_get. destruct (mget k (dc_fill cap ids v [])) as [w|] eqn:E; cbn [snd].
    - assert (w = v k) by (apply (dc_fill_val cap ids v [] k w); [intros ? ? [=]|exact E]). subst w.
      apply mget_Some_in in E. rewrite Hk' in E. destruct (in_dec _ _ _); [reflexivity|contradiction].
    - destruct (in_dec _ _ _) as [H|]; [|reflexivity]. exfalso. rewrite <- Hk' in H. apply mget_None_notin in E. contradiction.
  Qed.
  (** Growing makes room for an id and keeps everything. *)
  Lemma grow_room c id id' : (id' <= id)%N ->
    let c' := fst (vstep norm c (VGrow id)) in
    (forall t, snd (vstep norm c' (VRead t id')) <> Some Panic) /\
    (forall v, snd (vstep norm c' (VPreload id' v)) <> Some Panic) /\
    snd (vstep norm c' (VPrefetch id')) <> Some Panic /\ vc_slots c' = vc_slots c /\ (vc_size c <= vc_size c')%N.
  Proof.
    intros Hle. cbv zeta. cbn [vstep].
    set (c' := fst _).
    assert (H : (id' < vc_size c')%N /\ vc_slots c' = vc_slots c /\ (vc_size c <= vc_size c')%N).
    { unfold c'. destruct (N.ltb_spec id (vc_size c)); cbn [fst vc_size vc_slots]; repeat split; lia. }
    destruct H as (H & H1 & H2). apply N.ltb_lt in H. rewrite H. cbn [negb snd].
    repeat split; try discriminate; auto. intros _. destruct (mget id' (vc_slots c')); discriminate.
  Qed.
  (** A looked-up vector survives fewer than [cap] additions of other ids. *)
  Lemma mget_front (d : nmap V) k : forall n i, nth_error (mkeys d) i = Some k -> i < n -> mget k (firstn n d) = mget k d.
  Proof.
    induction d as [|[k' x] d IH]; intros n i Hi Hn; [now destruct i|]. destruct n as [|n]; [lia|].
    cbn [firstn mget]. destruct (N.eqb_spec k k') as [->|Hne]; [reflexivity|].
    destruct i as [|i]; [cbn in Hi; congruence|]. apply (IH n i); [exact Hi|lia].
  Qed.
  Lemma mkeys_mdel_pos (d : nmap V) k k' : k <> k' -> forall i, nth_error (mkeys d) i = Some k ->
    exists j, nth_error (mkeys (mdel k' d)) j = Some k /\ j <= i.
  Proof.
    intros Hne. induction d as [|[a x] d IH]; intros i Hi; [now destruct i|]. cbn [mdel].
    destruct (N.eqb_spec k' a) as [<-|Hna].
    - destruct i as [|i]; [cbn in Hi; congruence|]. destruct (IH i Hi) as (j & H1 & H2). exists j. split; [exact H1|lia].
    - destruct i as [|i]; [now exists 0|]. destruct (IH i Hi) as (j & H1 & H2). exists (S j). split; [exact H1|lia].
  Qed.
  Lemma nth_firstn {A} (l : list A) : forall n i, i < n -> nth_error (firstn n l) i = nth_error l i.
  Proof.
    clear norm. induction l as [|x l IH]; intros n i H; [now rewrite firstn_nil|]. destruct n as [|n]; [lia|].
    destruct i as [|i]; [reflexivity|]. cbn [firstn nth_error]. apply IH. lia.
  Qed.
  Lemma dc_fill_front cap vf ids : forall (d : dcache V) k v i,
    nth_error (mkeys d) i = Some k -> mget k d = Some v -> ~ In k ids -> length ids + i < cap ->
    mget k (dc_fill cap ids vf d) = Some v.
  Proof.
    induction ids as [|a ids IH]; intros d k v i Hi Hg Hn Hl; cbn [dc_fill]; [exact Hg|]. cbn [length] in Hl.
    assert (Hka : k <> a) by (intros ->; apply Hn; now left).
    destruct (mkeys_mdel_pos d k a Hka i Hi) as (j & Hj1 & Hj2).
    assert (Hp : nth_error (mkeys (mset a (vf a) d)) (S j) = Some k) by exact Hj1.
    apply (IH _ k v (S j)).
    - unfold dc_add, mkeys. rewrite <- firstn_map. rewrite nth_firstn by lia. exact Hp.
    - unfold dc_add. rewrite (mget_front _ k cap (S j) Hp) by lia. rewrite mget_mset.
      destruct (N.eqb_spec k a); [contradiction|exact Hg].
    - intros H. apply Hn. now right.
    - lia.
  Qed.
  Lemma dc_recent cap vf ids (d : dcache V) k v :
    snd (dc_get k d) = Ok v -> ~ In k ids -> length ids < cap ->
    snd (dc_get k (dc_fill cap ids vf (fst (dc_get k d)))) = Ok v.
  Proof.
    unfold dc_get at 1 3. destruct (mget k d) as [w|] eqn:E; cbn [fst snd]; [|discriminate]. intros [= ->] Hn Hl.
    unfold dc_get. rewrite (dc_fill_front cap vf ids (mset k v d) k v 0); [reflexivity|reflexivity| |exact Hn|lia].
    rewrite mget_mset, N.eqb_refl. reflexivity.
  Qed.
End VCacheProofs.
Arguments SGet {V} id src.
Arguments SOp {V} o.
Arguments dc_fill {V} cap ids v d.
