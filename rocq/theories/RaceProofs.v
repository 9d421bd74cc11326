(** Accesses under their guard do not race. *)
From Coq Require Import Permutation.
From Verif Require Import Base Locks Race.

(** The lock that guards a variable where it is guarded at all. *)
Definition guard (x : var) : lock :=
  match x with
  | XIndices => LIndices | XTomb => LTomb | XReset => LReset | XVisited => LVisited
  | XEp | XMaxl => LIndex
  | XOnce => LDelIns
  | XSlot k => LShard k
  | XVertex v => LVertex v
  end.
Definition covered (h : list (lock * mode)) (x : var) (m : mode) : Prop :=
  match m with
  | MW => In (guard x, MW) h
  | MR => In (guard x, MW) h \/ In (guard x, MR) h
  end.

Section Guarded.
  Variable V : var -> bool.

  Fixpoint ok (h : list (lock * mode)) (t : list ev) : Prop :=
    match t with
    | [] => True
    | EL (Acq l m) :: t' => ok ((l, m) :: h) t'
    | EL (Rel l) :: t' => ok (release l h) t'
    | EA x m :: t' => (V x = true -> covered h x m) /\ ok h t'
    end.
  Definition guards (h : list (lock * mode)) (P : var -> mode -> Prop) : Prop :=
    forall x m, P x m -> V x = true -> covered h x m.
  Definition free (l : lock) (h : list (lock * mode)) : Prop := forall m, ~ In (l, m) h.
  Fixpoint safe (h : list (lock * mode)) (c : acmd) : Prop :=
    match c with
    | AAt P => guards h P
    | APre P c => guards h P /\ safe h c
    | APost c P => safe h c /\ guards h P
    | AWith l m c | ACrit l m c => free l h /\ safe ((l, m) :: h) c
    | ACross l1 l2 c => free l1 h /\ free l2 h /\ l1 <> l2 /\ safe ((l2, MW) :: (l1, MW) :: h) c
    | AAllShards n c =>
        (forall k, free (LShard k) h) /\
        forall p, Permutation p (seq 0 n) -> safe (rev (map (fun k => (LShard (N.of_nat k), MW)) p) ++ h) c
    | ASeq a b | AAlt a b => safe h a /\ safe h b
    | AStar c => safe h c
    | AAny f => forall i, safe h (f i)
    end.

  Lemma release_free l h : free l h -> release l h = h.
  Proof.
    induction h as [|[l' m] h IH]; intros F; [reflexivity|]. cbn.
    destruct (lock_eq_dec l' l) as [->|]; [exfalso; exact (F m (or_introl eq_refl))|].
    f_equal. apply IH. intros m' H. exact (F m' (or_intror H)).
  Qed.
  Lemma release_top l m h : free l h -> release l ((l, m) :: h) = h.
  Proof. intros F. cbn. destruct (lock_eq_dec l l); [apply release_free, F|congruence]. Qed.
  Lemma only_ok P h t k : only P t -> guards h P -> ok h k -> ok h (t ++ k).
  Proof.
    intros O G K. induction t as [|e t IH]; [exact K|]. cbn [app].
    destruct (O e (or_introl eq_refl)) as (x & m & -> & Px). cbn. split; [apply G, Px|].
    apply IH. intros e He. apply O. right. exact He.
  Qed.
  Lemma release_app l a b : release l (a ++ b) = release l a ++ release l b.
  Proof. unfold release. induction a as [|x a IH]; cbn; [reflexivity|]. destruct (lock_eq_dec (fst x) l); cbn; rewrite IH; reflexivity. Qed.
  Lemma acqs_ok p : forall h k, ok (rev (map (fun k => (LShard (N.of_nat k), MW)) p) ++ h) k ->
    ok h (map (fun k => EL (Acq (LShard (N.of_nat k)) MW)) p ++ k).
  Proof.
    induction p as [|a p IH]; intros h k H; [exact H|]. cbn [map app ok]. apply IH.
    cbn [map rev] in H. rewrite <- app_assoc in H. exact H.
  Qed.
  Fixpoint releases (l : list nat) (h : list (lock * mode)) : list (lock * mode) :=
    match l with [] => h | k :: l' => releases l' (release (LShard (N.of_nat k)) h) end.
  Lemma rels_ok l : forall h k, ok (releases l h) k -> ok h (map (fun k => EL (Rel (LShard (N.of_nat k)))) l ++ k).
  Proof. induction l as [|a l IH]; intros h k H; [exact H|]. cbn [map app ok]. apply IH, H. Qed.
  Lemma releases_app l : forall a b, releases l (a ++ b) = releases l a ++ releases l b.
  Proof. induction l as [|k l IH]; intros a b; [reflexivity|]. cbn [releases]. rewrite release_app. apply IH. Qed.
  Lemma releases_free l : forall h, (forall k, free (LShard k) h) -> releases l h = h.
  Proof. induction l as [|k l IH]; intros h F; [reflexivity|]. cbn [releases]. rewrite release_free by apply F. apply IH, F. Qed.
  Lemma releases_in l : forall h x, In x (releases l h) -> In x h /\ ~ In (fst x) (map (fun k => LShard (N.of_nat k)) l).
  Proof.
    induction l as [|k l IH]; intros h x H; [split; [exact H|intros []]|]. cbn [releases] in H.
    apply IH in H as (H & N1). unfold release in H. apply filter_In in H as (H & E).
    split; [exact H|]. cbn [map In]. intros [A|A]; [|exact (N1 A)]. rewrite A in E.
    destruct (lock_eq_dec (fst x) (fst x)); [discriminate|congruence].
  Qed.
  Lemma releases_all p n h : Permutation p (seq 0 n) -> (forall k, free (LShard k) h) ->
    releases (seq 0 n) (rev (map (fun k => (LShard (N.of_nat k), MW)) p) ++ h) = h.
  Proof.
    intros Hp F. rewrite releases_app, (releases_free _ h F).
    enough (E : releases (seq 0 n) (rev (map (fun k => (LShard (N.of_nat k), MW)) p)) = []) by (rewrite E; reflexivity).
    destruct (releases (seq 0 n) (rev (map (fun k => (LShard (N.of_nat k), MW)) p))) as [|x l] eqn:E; [reflexivity|exfalso].
    assert (Hx : In x (x :: l)) by (left; reflexivity). rewrite <- E in Hx. apply releases_in in Hx as (Hx & N1).
    apply in_rev, in_map_iff in Hx as (k & <- & Hk). apply N1. cbn [fst].
    apply in_map_iff. exists k. split; [reflexivity|]. eapply Permutation_in; eassumption.
  Qed.

  Lemma traces_ok c t : atraces c t -> forall h, safe h c -> forall k, ok h k -> ok h (t ++ k).
  Proof.
    induction 1; intros h S k' K; cbn [safe] in S.
    - eapply only_ok; eauto.
    - rewrite <- app_assoc. destruct S as (G & S). eapply only_ok; eauto.
    - rewrite <- app_assoc. destruct S as (S & G). apply IHatraces; [exact S|]. eapply only_ok; eauto.
    - destruct S as (F & S). cbn [app ok]. rewrite <- app_assoc. apply IHatraces; [exact S|]. cbn [app ok]. rewrite release_top by exact F. exact K.
    - destruct S as (F & S). cbn [app ok]. rewrite <- app_assoc. apply IHatraces; [exact S|]. cbn [app ok]. rewrite release_top by exact F. exact K.
    - destruct S as (F1 & F2 & N1 & S). cbn [app ok]. rewrite <- app_assoc. apply IHatraces; [exact S|]. cbn [app ok].
      replace (release l2 (release l1 ((l2, MW) :: (l1, MW) :: h))) with h; [exact K|].
      cbn. destruct (lock_eq_dec l2 l1); [congruence|]. destruct (lock_eq_dec l1 l1); [|congruence].
      cbn. destruct (lock_eq_dec l2 l2); [|congruence].
      fold (release l1 h). rewrite (release_free l1 h F1). fold (release l2 h). rewrite (release_free l2 h F2). reflexivity.
    - destruct S as (F & S). rewrite <- app_assoc. apply acqs_ok. rewrite <- app_assoc. apply IHatraces; [exact (S p H)|].
      apply rels_ok. rewrite releases_all by assumption. exact K.
    - destruct S as (S1 & S2). rewrite <- app_assoc. auto.
    - destruct S as (S1 & S2). auto.
    - destruct S as (S1 & S2). auto.
    - exact K.
    - rewrite <- app_assoc. apply IHatraces1; [exact S|]. apply IHatraces2; [exact S|exact K].
    - eauto.
  Qed.

  (** The machine. *)
  Definition sound (s : list rthr) : Prop :=
    (forall t, In t s -> ok (r_held t) (r_todo t))
    /\ forall i j t u l m, i <> j -> nth_error s i = Some t -> nth_error s j = Some u ->
         In (l, MW) (r_held t) -> ~ In (l, m) (r_held u).

  Lemma nth_upd_same {X} (s : list X) i t (x : X) : nth_error s i = Some t -> nth_error (Locks.upd i x s) i = Some x.
  Proof. revert i. induction s as [|a s IH]; intros [|i] E; cbn in *; try discriminate; auto. Qed.
  Lemma nth_upd_other {X} (s : list X) i j (x : X) : i <> j -> nth_error (Locks.upd i x s) j = nth_error s j.
  Proof. revert i j. induction s as [|a s IH]; intros [|i] [|j] E; cbn; auto; congruence. Qed.
  Lemma in_upd {X} (s : list X) i (x y : X) : In y (Locks.upd i x s) -> y = x \/ In y s.
  Proof.
    revert i. induction s as [|a s IH]; intros [|i]; cbn; [intros []|intros []| |].
    - intros [<-|H]; auto.
    - intros [<-|H]; auto. destruct (IH i H); auto.
  Qed.
  Lemma has_in t l m : In (l, m) (r_held t) -> has t l = true.
  Proof. intros H. apply existsb_exists. exists (l, m). split; [exact H|]. cbn. destruct (lock_eq_dec l l); [reflexivity|congruence]. Qed.
  Lemma hasW_in t l : In (l, MW) (r_held t) -> hasW t l = true.
  Proof. intros H. apply existsb_exists. exists (l, MW). split; [exact H|]. cbn. destruct (lock_eq_dec l l); [reflexivity|congruence]. Qed.

  Lemma replace_sound s i t h k w : sound s -> nth_error s i = Some t -> ok h k ->
    (forall l m j u, i <> j -> nth_error s j = Some u -> In (l, m) h ->
       (m = MW -> forall m', ~ In (l, m') (r_held u)) /\ ~ In (l, MW) (r_held u)) ->
    sound (Locks.upd i (mkR h k w) s).
  Proof.
    intros (O & X) E K H. split.
    - intros t' Ht. apply in_upd in Ht as [->|Ht]; [exact K|exact (O t' Ht)].
    - intros a b t1 t2 l m Nab Ea Eb L1 L2.
      destruct (Nat.eq_dec i a) as [->|Na].
      + rewrite (nth_upd_same _ _ _ _ E) in Ea. injection Ea as <-. rewrite nth_upd_other in Eb by exact Nab.
        exact (proj1 (H l MW b t2 Nab Eb L1) eq_refl m L2).
      + rewrite nth_upd_other in Ea by exact Na. destruct (Nat.eq_dec i b) as [->|Nb].
        * rewrite (nth_upd_same _ _ _ _ E) in Eb. injection Eb as <-. exact (proj2 (H l m a t1 (not_eq_sym Nab) Ea L2) L1).
        * rewrite nth_upd_other in Eb by exact Nb. exact (X a b t1 t2 l m Nab Ea Eb L1 L2).
  Qed.
  Lemma keeps s i t h : sound s -> nth_error s i = Some t -> (forall x, In x h -> In x (r_held t)) ->
    forall l m j u, i <> j -> nth_error s j = Some u -> In (l, m) h ->
       (m = MW -> forall m', ~ In (l, m') (r_held u)) /\ ~ In (l, MW) (r_held u).
  Proof.
    intros (O & X) E S l m j u N1 Eu L. apply S in L. split.
    - intros -> m' L'. exact (X i j t u l m' N1 E Eu L L').
    - intros L'. exact (X j i u t l m (not_eq_sym N1) Eu E L' L).
  Qed.
  Lemma rstep_sound s i s' : sound s -> rstep s i = Some s' -> sound s'.
  Proof.
    intros S. unfold rstep. destruct (nth_error s i) as [t|] eqn:E; [|discriminate].
    pose proof (proj1 S t (nth_error_In _ _ E)) as K.
    destruct (r_todo t) as [|[[l [|]|l]|x m] k] eqn:Et; [discriminate|..]; cbn [ok] in K.
    - destruct (existsb (fun t' => hasW t' l || rwaits t' l) s) eqn:B; [discriminate|]. intros [= <-].
      apply (replace_sound s i t); [exact S|exact E|exact K|].
      intros l' m' j u N1 Eu [[= <- <-]|L].
      + split; [discriminate|]. intros L. assert (A : existsb (fun t' => hasW t' l || rwaits t' l) s = true).
        { apply existsb_exists. exists u. split; [exact (nth_error_In _ _ Eu)|]. rewrite (hasW_in u l L). reflexivity. }
        congruence.
      + exact (keeps s i t (r_held t) S E (fun _ H => H) l' m' j u N1 Eu L).
    - destruct (r_wait t).
      + destruct (existsb (fun t' => has t' l) s) eqn:B; [discriminate|]. intros [= <-].
        apply (replace_sound s i t); [exact S|exact E|exact K|].
        intros l' m' j u N1 Eu [[= <- <-]|L].
        * assert (A : forall m', ~ In (l, m') (r_held u)).
          { intros m' L. assert (A : existsb (fun t' => has t' l) s = true).
            { apply existsb_exists. exists u. split; [exact (nth_error_In _ _ Eu)|]. exact (has_in u l m' L). }
            congruence. }
          split; [intros _; exact A|apply A].
        * exact (keeps s i t (r_held t) S E (fun _ H => H) l' m' j u N1 Eu L).
      + intros [= <-]. apply (replace_sound s i t); [exact S|exact E|cbn [ok]; exact K|].
        exact (keeps s i t (r_held t) S E (fun _ H => H)).
    - intros [= <-]. apply (replace_sound s i t); [exact S|exact E|exact K|].
      apply (keeps s i t); [exact S|exact E|]. intros x Hx. unfold release in Hx. apply filter_In in Hx. apply Hx.
    - intros [= <-]. apply (replace_sound s i t); [exact S|exact E|exact (proj2 K)|].
      exact (keeps s i t (r_held t) S E (fun _ H => H)).
  Qed.
  Lemma rrun_sound sched : forall s, sound s -> sound (rrun s sched).
  Proof.
    induction sched as [|i sched IH]; intros s S; [exact S|]. cbn [rrun]. apply IH.
    destruct (rstep s i) eqn:E; [exact (rstep_sound s i l S E)|exact S].
  Qed.
  Lemma sound_no_race s x : sound s -> V x = true -> ~ race s x.
  Proof.
    intros (O & X) Hx (i & j & t & u & a & b & k & k' & N1 & Ei & Ej & Ti & Tj & W).
    pose proof (O t (nth_error_In _ _ Ei)) as Kt. pose proof (O u (nth_error_In _ _ Ej)) as Ku.
    rewrite Ti in Kt. rewrite Tj in Ku. cbn [ok] in Kt, Ku. destruct Kt as (Kt & _), Ku as (Ku & _).
    specialize (Kt Hx). specialize (Ku Hx). destruct W as [-> | ->].
    - cbn in Kt. destruct b; cbn in Ku; [destruct Ku as [Ku|Ku]|]; exact (X i j t u _ _ N1 Ei Ej Kt Ku).
    - cbn in Ku. destruct a; cbn in Kt; [destruct Kt as [Kt|Kt]|]; exact (X j i u t _ _ (not_eq_sym N1) Ej Ei Ku Kt).
  Qed.

  Theorem race_free c : safe [] c -> forall ps, Forall (atraces (AStar c)) ps ->
    forall sched x, V x = true -> ~ race (rrun (rstart ps) sched) x.
  Proof.
    intros S ps Hp sched x Hx. apply sound_no_race; [|exact Hx]. apply rrun_sound. split.
    - intros t Ht. unfold rstart in Ht. apply in_map_iff in Ht as (p & <- & Hin). cbn.
      rewrite Forall_forall in Hp. rewrite <- (app_nil_r p). eapply traces_ok; [exact (Hp p Hin)|exact S|exact I].
    - intros i j t u l m _ Ei _ L. unfold rstart in Ei. rewrite nth_error_map in Ei.
      destruct (nth_error ps i); [|discriminate]. injection Ei as <-. destruct L.
  Qed.
End Guarded.

(** The lock operations are those of Locks.v. *)
Lemma locks_app a b : locks (a ++ b) = locks a ++ locks b.
Proof. apply flat_map_app. Qed.
Lemma locks_only P t : only P t -> locks t = [].
Proof.
  intros O. induction t as [|e t IH]; [reflexivity|]. destruct (O e (or_introl eq_refl)) as (x & m & -> & _).
  cbn. apply IH. intros e He. apply O. right. exact He.
Qed.
Lemma locks_acqs p : locks (map (fun k => EL (Acq (LShard (N.of_nat k)) MW)) p) = map (fun k => Acq (LShard (N.of_nat k)) MW) p.
Proof. induction p as [|k p IH]; [reflexivity|]. cbn. f_equal. exact IH. Qed.
Lemma locks_rels p : locks (map (fun k => EL (Rel (LShard (N.of_nat k)))) p) = map (fun k => Rel (LShard (N.of_nat k))) p.
Proof. induction p as [|k p IH]; [reflexivity|]. cbn. f_equal. exact IH. Qed.
Lemma erase_traces c t : atraces c t -> traces (erase c) (locks t).
Proof.
  induction 1; cbn [erase].
  - rewrite (locks_only P t H). constructor.
  - rewrite locks_app, (locks_only P t H). exact IHatraces.
  - rewrite locks_app, (locks_only P u H0), app_nil_r. exact IHatraces.
  - change (traces (With l m (erase c)) (Acq l m :: locks (t ++ [EL (Rel l)]))). rewrite locks_app. constructor. exact IHatraces.
  - change (traces (Crit l m (erase c)) (Acq l m :: locks (t ++ [EL (Rel l)]))). rewrite locks_app. constructor. exact IHatraces.
  - change (traces (Cross l1 l2 (erase c)) (Acq l1 MW :: Acq l2 MW :: locks (t ++ [EL (Rel l1); EL (Rel l2)]))).
    rewrite locks_app. constructor. exact IHatraces.
  - rewrite !locks_app, locks_acqs, locks_rels. constructor; assumption.
  - rewrite locks_app. constructor; assumption.
  - now apply T_Alt1.
  - now apply T_Alt2.
  - constructor.
  - rewrite locks_app. constructor; assumption.
  - econstructor. exact IHatraces.
Qed.

(** Discharging [safe]. *)
Ltac freshness := intros ? ?; cbn [In] in *; repeat match goal with H : _ \/ _ |- _ => destruct H as [H|H] end; try discriminate; try contradiction.
Ltac held := cbn [covered guard In]; tauto.
Ltac guardedness :=
  let x := fresh "x" in let m := fresh "m" in let H := fresh "H" in let V := fresh "V" in
  intros x m H V; unfold rd, rw, acc in H; cbn [In] in H;
  repeat match goal with K : _ \/ _ |- _ => destruct K as [K|K] end; try contradiction;
  injection H as <- <-; first [discriminate V | held].
Lemma shards_held V h p : Permutation p (seq 0 shard_factor) ->
  guards V (rev (map (fun k => (LShard (N.of_nat k), MW)) p) ++ h) slots.
Proof.
  intros Hp x m (k & Hk & ->) _.
  assert (L : In (LShard (N.of_nat k), MW) (rev (map (fun k => (LShard (N.of_nat k), MW)) p) ++ h)).
  { apply in_app_iff. left. apply -> in_rev. apply in_map_iff. exists k. split; [reflexivity|].
    eapply Permutation_in; [symmetry; exact Hp|]. apply in_seq. lia. }
  destruct m; cbn; auto.
Qed.
Ltac flushed :=
  let x := fresh "x" in let m := fresh "m" in let V := fresh "V" in
  intros x m [(? & ->)|(-> & _)] V; first [discriminate V | held].
Ltac safety :=
  repeat match goal with
  | |- safe _ _ ?c => let c' := eval hnf in c in progress change c with c'
  | |- safe _ _ _ => progress cbn [safe]
  | |- forall _, _ => intro
  | |- _ /\ _ => split
  | |- free _ _ => freshness
  | |- _ <> _ => discriminate
  | |- guards _ _ flush_acc => flushed
  | |- guards _ _ slots => apply shards_held; assumption
  | |- guards _ _ _ => guardedness
  end.

(** Building traces. *)
Lemma at_ (P : var -> mode -> Prop) l : (forall x m, In (x, m) l -> P x m) -> atraces (AAt P) (map (fun a => EA (fst a) (snd a)) l).
Proof. intros H. constructor. intros e He. apply in_map_iff in He as ((x & m) & <- & Hi). cbn. exists x, m. auto. Qed.
Lemma none : atraces nothing [].
Proof. exact (at_ (acc []) [] (fun _ _ H => H)). Qed.
Lemma pre_ (P : var -> mode -> Prop) l c t : (forall x m, In (x, m) l -> P x m) -> atraces c t -> atraces (APre P c) (map (fun a => EA (fst a) (snd a)) l ++ t).
Proof. intros H T. constructor; [|exact T]. intros e He. apply in_map_iff in He as ((x & m) & <- & Hi). cbn. exists x, m. auto. Qed.
Lemma post_ (P : var -> mode -> Prop) l c t : atraces c t -> (forall x m, In (x, m) l -> P x m) -> atraces (APost c P) (t ++ map (fun a => EA (fst a) (snd a)) l).
Proof. intros T H. constructor; [exact T|]. intros e He. apply in_map_iff in He as ((x & m) & <- & Hi). cbn. exists x, m. auto. Qed.
Lemma opt_no c : atraces (AOpt c) [].
Proof. apply A_Alt1, none. Qed.
Lemma opt_yes c t : atraces c t -> atraces (AOpt c) t.
Proof. apply A_Alt2. Qed.
Lemma then_stop a b t : atraces a t -> atraces (AThen a b) t.
Proof. intros H. rewrite <- (app_nil_r t). constructor; [exact H|apply opt_no]. Qed.
Lemma then_go a b t u : atraces a t -> atraces b u -> atraces (AThen a b) (t ++ u).
Proof. intros H K. constructor; [exact H|apply opt_yes, K]. Qed.
Lemma once c t : atraces c t -> atraces (AStar c) t.
Proof. intros H. rewrite <- (app_nil_r t). constructor; [exact H|constructor]. Qed.
