(** Proofs about the bounded node cache. *)
From Verif Require Import Base Graph LRU.
From Coq Require Import Permutation.

(** What a history of operations means with an unbounded store. *)
Fixpoint spec_run {V} (m : N -> option V) (ops : list (lop V)) : (N -> option V) * list (option V) :=
  match ops with
  | [] => (m, [])
  | LGet k :: ops' => let r := spec_run m ops' in (fst r, m k :: snd r)
  | LPut k v :: ops' => spec_run (fun j => if N.eqb j k then Some v else m j) ops'
  | LFlush :: ops' => spec_run m ops'
  end.

(** Between two write-backs at most [cap] distinct vertices are touched. *)
Fixpoint fits {V} (cap : nat) (T : list N) (ops : list (lop V)) : Prop :=
  match ops with
  | [] => True
  | LGet k :: ops' | LPut k _ :: ops' =>
      let T' := if memN k T then T else k :: T in length T' <= cap /\ fits cap T' ops'
  | LFlush :: ops' => fits cap [] ops'
  end.

Fixpoint touched {V} (T : list N) (ops : list (lop V)) : list N :=
  match ops with
  | [] => T
  | LGet k :: ops' | LPut k _ :: ops' => touched (if memN k T then T else k :: T) ops'
  | LFlush :: ops' => touched [] ops'
  end.

Lemma mdel_app {V} k (a b : nmap V) : mdel k (a ++ b) = mdel k a ++ mdel k b.
Proof. induction a as [|[j v] a IH]; cbn; [reflexivity|]. destruct (N.eqb k j); cbn; now rewrite IH. Qed.

Lemma mdel_in {V} k j (m : nmap V) : In j (map fst (mdel k m)) <-> In j (map fst m) /\ j <> k.
Proof.
  induction m as [|[i v] m IH]; cbn; [tauto|]. destruct (N.eqb_spec k i) as [->|Hn]; cbn; rewrite IH; [|intuition congruence].
  intuition congruence.
Qed.

Lemma mdel_nodup {V} k (m : nmap V) : NoDup (map fst m) -> NoDup (map fst (mdel k m)).
Proof.
  induction m as [|[i v] m IH]; cbn; [auto|]. intros H. inversion H; subst. destruct (N.eqb k i); [auto|].
  cbn. constructor; [|auto]. rewrite mdel_in. tauto.
Qed.

Lemma mdel_len {V} k (m : nmap V) : length (mdel k m) <= length m.
Proof. induction m as [|[i v] m IH]; cbn; [lia|]. destruct (N.eqb k i); cbn; lia. Qed.

Lemma mdel_notin {V} k (m : nmap V) : ~ In k (map fst m) -> mdel k m = m.
Proof.
  induction m as [|[i v] m IH]; cbn; [reflexivity|]. intros H. destruct (N.eqb_spec k i); [subst; tauto|].
  rewrite IH; tauto.
Qed.

Lemma mdel_len_in {V} k (m : nmap V) : NoDup (map fst m) -> In k (map fst m) -> S (length (mdel k m)) = length m.
Proof.
  induction m as [|[i v] m IH]; cbn; [tauto|]. intros H Hin. inversion H; subst.
  destruct (N.eqb_spec k i) as [->|Hn]; cbn.
  - now rewrite mdel_notin.
  - f_equal. apply IH; [assumption|]. destruct Hin; [congruence|assumption].
Qed.

Lemma mget_app {V} k (a b : nmap V) : mget k (a ++ b) = match mget k a with Some v => Some v | None => mget k b end.
Proof. induction a as [|[i v] a IH]; cbn; [reflexivity|]. destruct (N.eqb k i); auto. Qed.

Lemma nodup_app_l {A} (a b : list A) : NoDup (a ++ b) -> NoDup a /\ NoDup b /\ forall x, In x a -> In x b -> False.
Proof.
  induction a as [|x a IH]; cbn; intros H; [repeat split; [constructor|exact H|tauto]|].
  inversion H as [|? ? Hx Hn]; subst. destruct (IH Hn) as (H1 & H2 & H3). split; [|split; [exact H2|]].
  - constructor; [|exact H1]. intros Hi. apply Hx. apply in_or_app. now left.
  - intros y [->|Hy] Hb; [apply Hx; apply in_or_app; now right|eauto].
Qed.

Section Proofs.
  Context {V : Type}.
  Variable cap : nat.
  Implicit Types (c a b : list (N * (V * bool))) (s : lstore V) (m : N -> option V).

  Definition keys c := map fst c.
  Definition cval c k := option_map fst (mget k c).
  (** The table holds the cached version of [k]. *)
  Definition clean s k := forall x, mget k (l_cache s) = Some x -> mget k (l_kv s) = Some (fst x).

  Record linv m (T : list N) s : Prop := {
    li_nodup : NoDup (keys (l_cache s));
    li_len : length (l_cache s) <= cap;
    li_val : forall k x, mget k (l_cache s) = Some x -> m k = Some (fst x);
    li_miss : forall k, mget k (l_cache s) = None -> mget k (l_kv s) = m k;
    li_com : forall k x, mget k (l_cache s) = Some (x, true) -> mget k (l_kv s) = Some x;
    li_part : exists a b, l_cache s = a ++ b /\ incl (keys a) T /\
                (forall k, In k (keys b) -> clean s k)
  }.

  Lemma firstn_app_le {A} (x y : list A) n : length x <= n -> firstn n (x ++ y) = x ++ firstn (n - length x) y.
  Proof. intros H. rewrite firstn_app, firstn_all2 by lia. reflexivity. Qed.

  (** Making [k] the most recent key, with value [x]. *)
  Lemma touch_inv m m' T k x s : linv m T s -> 
    m' k = Some (fst x) -> (forall j, j <> k -> m' j = m j) ->
    (snd x = true -> mget k (l_kv s) = Some (fst x)) ->
    length (if memN k T then T else k :: T) <= cap ->
    linv m' (if memN k T then T else k :: T) (mkL (lru_add cap k x (l_cache s)) (l_kv s)).
  Proof.
    intros [Hnd Hlen Hv Hms Hcom (a & b & Hc & Ha & Hb)] Hk Hj Hcx HT.
    set (T' := if memN k T then T else k :: T) in *.
    assert (HkT : In k T').
    { unfold T'. destruct (memN k T) eqn:E; [now apply memN_In|now left]. }
    assert (HTT : incl T T') by (unfold T'; destruct (memN k T); [apply incl_refl|apply incl_tl, incl_refl]).
    unfold keys in Hnd. rewrite Hc, map_app in Hnd. destruct (nodup_app_l _ _ Hnd) as (Na & Nb & Nab).
    set (a' := (k, x) :: mdel k a).
    assert (Na' : NoDup (map fst a')).
    { unfold a'. cbn. constructor; [rewrite mdel_in; tauto|]. now apply mdel_nodup. }
    assert (Ha' : incl (map fst a') T').
    { intros j [<-|Hin]; [exact HkT|]. apply mdel_in in Hin. apply HTT, Ha, Hin. }
    assert (La : length a' <= cap).
    { rewrite <- (map_length fst). pose proof (NoDup_incl_length Na' Ha'). lia. }
    set (b' := firstn (cap - length a') (mdel k b)).
    assert (Hadd : lru_add cap k x (l_cache s) = a' ++ b').
    { unfold lru_add. rewrite Hc, mdel_app. change ((k, x) :: mdel k a ++ mdel k b) with (a' ++ mdel k b).
      now rewrite firstn_app_le. }
    assert (Hsplit : exists r, mdel k b = b' ++ r).
    { exists (skipn (cap - length a') (mdel k b)). unfold b'. now rewrite firstn_skipn. }
    destruct Hsplit as (r & Hr).
    assert (Hget : forall j, j <> k -> mget j (l_cache s) = match mget j (a' ++ b') with Some y => Some y | None => mget j r end).
    { intros j Hne. transitivity (mget j (a' ++ mdel k b)).
      - rewrite Hc. unfold a'. cbn [mget app]. destruct (N.eqb_spec j k); [congruence|].
        rewrite <- mdel_app. symmetry. now apply mget_mdel_ne.
      - rewrite Hr, app_assoc. apply mget_app. }
    assert (Hgk : mget k (a' ++ b') = Some x) by (unfold a'; cbn; now rewrite N.eqb_refl).
    assert (Hnd' : NoDup (map fst (a' ++ b'))).
    { assert (NoDup (map fst (a' ++ b' ++ r))).
      { rewrite <- Hr. unfold a'. cbn. rewrite <- mdel_app. constructor; [rewrite mdel_in; tauto|].
        apply mdel_nodup. rewrite map_app. exact Hnd. }
      rewrite app_assoc, map_app in H. now apply nodup_app_l in H. }
    constructor; cbn [l_cache l_kv]; rewrite ?Hadd.
    - exact Hnd'.
    - rewrite app_length. unfold b'. rewrite firstn_length. lia.
    - intros j y Hy. destruct (N.eq_dec j k) as [->|Hne]; [congruence|].
      rewrite Hj by exact Hne. apply Hv. rewrite Hget, Hy by exact Hne. reflexivity.
    - intros j Hy. destruct (N.eq_dec j k) as [->|Hne]; [congruence|]. rewrite Hj by exact Hne.
      specialize (Hget j Hne). rewrite Hy in Hget.
      destruct (mget j r) as [y|] eqn:Er; [|now apply Hms].
      rewrite (Hv j y Hget). apply (Hb j); [|exact Hget].
      apply mget_Some_in in Er. unfold mkeys in Er.
      assert (Hin : In j (map fst (mdel k b))) by (rewrite Hr, map_app; apply in_or_app; now right).
      now apply mdel_in in Hin.
    - intros j y Hy. destruct (N.eq_dec j k) as [->|Hne].
      + rewrite Hgk in Hy. injection Hy as ->. now apply Hcx.
      + apply Hcom. rewrite Hget, Hy by exact Hne. reflexivity.
    - exists a', b'. split; [reflexivity|]. split; [exact Ha'|].
      intros j Hin y Hy. cbn [l_cache l_kv] in Hy |- *.
      assert (Hin' : In j (map fst (mdel k b))) by (rewrite Hr, map_app; apply in_or_app; now left).
      apply mdel_in in Hin'. destruct Hin' as [Hjb Hne].
      apply (Hb j Hjb). rewrite Hget, Hy by exact Hne. reflexivity.
  Qed.

  Lemma lru_get_add k x c : mget k c = Some x -> length c <= cap -> NoDup (keys c) ->
    lru_get k c = (Some x, lru_add cap k x c).
  Proof.
    intros Hg Hl Hn. unfold lru_get, lru_add. rewrite Hg. f_equal.
    symmetry. apply firstn_all2. cbn [length].
    rewrite (mdel_len_in k c Hn); [exact Hl|]. eapply mget_Some_in; eauto.
  Qed.

  Lemma linv_weaken m T T' s : incl T T' -> linv m T s -> linv m T' s.
  Proof.
    intros Hi [H1 H2 H3 H4 H5 (a & b & E & Ha & Hb)]. constructor; auto. exists a, b.
    split; [exact E|]. split; [eapply incl_tran; eauto|exact Hb].
  Qed.

  Lemma get_spec m T s k : linv m T s -> length (if memN k T then T else k :: T) <= cap ->
    snd (node_get cap s k) = m k /\ linv m (if memN k T then T else k :: T) (fst (node_get cap s k)).
  Proof.
    intros Hi HT. unfold node_get. destruct (mget k (l_cache s)) as [[v f]|] eqn:E.
    - rewrite (lru_get_add k (v, f) _ E (li_len _ _ _ Hi) (li_nodup _ _ _ Hi)). cbn [fst snd].
      pose proof (li_val _ _ _ Hi k _ E) as Hv. split; [now rewrite Hv|].
      apply (touch_inv m); auto. cbn. intros ->. exact (li_com _ _ _ Hi k v E).
    - unfold lru_get. rewrite E. pose proof (li_miss _ _ _ Hi k E) as Hm.
      destruct (mget k (l_kv s)) as [v|] eqn:Ek; cbn [fst snd]; (split; [exact Hm|]).
      + apply (touch_inv m); auto.
      + destruct (memN k T); [exact Hi|]. eapply linv_weaken; [apply incl_tl, incl_refl|exact Hi].
  Qed.

  Lemma put_spec m T s k v : linv m T s -> length (if memN k T then T else k :: T) <= cap ->
    linv (fun j => if N.eqb j k then Some v else m j) (if memN k T then T else k :: T) (node_set cap s k v).
  Proof.
    intros Hi HT. apply (touch_inv m); auto.
    - now rewrite N.eqb_refl.
    - intros j Hj. destruct (N.eqb_spec j k); congruence.
    - discriminate.
  Qed.

  (** One key of the write-back. *)
  Lemma flush_key_spec s k : NoDup (keys (l_cache s)) -> length (l_cache s) <= cap -> In k (keys (l_cache s)) ->
    (forall x, mget k (l_cache s) = Some (x, true) -> mget k (l_kv s) = Some x) ->
    let s' := flush_key cap s k in
    NoDup (keys (l_cache s')) /\ length (l_cache s') = length (l_cache s) /\
    (forall j, In j (keys (l_cache s')) <-> In j (keys (l_cache s))) /\
    (forall j, cval (l_cache s') j = cval (l_cache s) j) /\
    (forall j, j <> k -> mget j (l_cache s') = mget j (l_cache s) /\ mget j (l_kv s') = mget j (l_kv s)) /\
    (exists v, mget k (l_cache s') = Some (v, true) /\ mget k (l_kv s') = Some v).
  Proof.
    intros Hn Hl Hin Hcom. cbv zeta. unfold flush_key, keys in *.
    destruct (mget_in_keys k (l_cache s) Hin) as [[v f] Hg]. rewrite (lru_get_add k (v, f) _ Hg Hl Hn).
    assert (Hfull : forall x : V * bool, lru_add cap k x (l_cache s) = (k, x) :: mdel k (l_cache s)).
    { intros x. unfold lru_add. apply firstn_all2. cbn [length]. rewrite (mdel_len_in k _ Hn Hin). exact Hl. }
    assert (Hadd2 : forall x y : V * bool, lru_add cap k y (lru_add cap k x (l_cache s)) = (k, y) :: mdel k (l_cache s)).
    { intros x y. rewrite Hfull. unfold lru_add. cbn [mdel]. rewrite N.eqb_refl.
      rewrite (mdel_notin k (mdel k (l_cache s))) by (rewrite mdel_in; tauto).
      apply firstn_all2. cbn [length]. rewrite (mdel_len_in k _ Hn Hin). exact Hl. }
    assert (Hgen : forall y : V * bool, fst y = v ->
      NoDup (map fst ((k, y) :: mdel k (l_cache s))) /\
      length ((k, y) :: mdel k (l_cache s)) = length (l_cache s) /\
      (forall j, In j (map fst ((k, y) :: mdel k (l_cache s))) <-> In j (map fst (l_cache s))) /\
      (forall j, cval ((k, y) :: mdel k (l_cache s)) j = cval (l_cache s) j) /\
      (forall j, j <> k -> mget j ((k, y) :: mdel k (l_cache s)) = mget j (l_cache s))).
    { intros y Hy. cbn [map fst]. split; [constructor; [rewrite mdel_in; tauto|now apply mdel_nodup]|].
      split; [cbn [length]; now apply mdel_len_in|]. split; [|split].
      - intros j. cbn [In]. rewrite mdel_in. destruct (N.eq_dec j k) as [->|]; intuition congruence.
      - intros j. unfold cval. cbn [mget]. destruct (N.eqb_spec j k) as [->|Hne].
        + rewrite Hg. cbn. now rewrite Hy.
        + now rewrite mget_mdel_ne.
      - intros j Hne. cbn [mget]. destruct (N.eqb_spec j k); [congruence|]. now apply mget_mdel_ne. }
    destruct f; cbn [l_cache l_kv].
    - rewrite Hfull. destruct (Hgen (v, true) eq_refl) as (G1 & G2 & G3 & G4 & G5).
      repeat (split; [assumption|]). split; [intros j Hj; split; [now apply G5|reflexivity]|].
      exists v. split; [cbn; now rewrite N.eqb_refl|now apply Hcom].
    - rewrite Hadd2. destruct (Hgen (v, true) eq_refl) as (G1 & G2 & G3 & G4 & G5).
      repeat (split; [assumption|]). split; [intros j Hj; split; [now apply G5|now apply mget_mset_ne]|].
      exists v. split; [cbn; now rewrite N.eqb_refl|apply mget_mset_eq].
  Qed.

  Lemma flush_keys_spec ks : forall s, NoDup (keys (l_cache s)) -> length (l_cache s) <= cap ->
    incl ks (keys (l_cache s)) ->
    (forall k x, mget k (l_cache s) = Some (x, true) -> mget k (l_kv s) = Some x) ->
    let s' := fold_left (flush_key cap) ks s in
    NoDup (keys (l_cache s')) /\ length (l_cache s') = length (l_cache s) /\
    (forall j, cval (l_cache s') j = cval (l_cache s) j) /\
    (forall j x, mget j (l_cache s') = Some (x, true) -> mget j (l_kv s') = Some x) /\
    (forall j, ~ In j (keys (l_cache s)) -> mget j (l_kv s') = mget j (l_kv s)) /\
    (forall j, In j ks \/ (exists v, mget j (l_cache s) = Some (v, true)) -> exists v, mget j (l_cache s') = Some (v, true)).
  Proof.
    induction ks as [|k ks IH]; intros s Hn Hl Hi Hcom; cbn [fold_left]; cbv zeta.
    { repeat split; auto. intros j [[]|H]; exact H. }
    assert (Hk : In k (keys (l_cache s))) by (apply Hi; now left).
    destruct (flush_key_spec s k Hn Hl Hk (Hcom k)) as (A1 & A2 & A3 & A4 & A5 & (v & A6 & A7)). cbv zeta in *.
    destruct (IH (flush_key cap s k)) as (B1 & B2 & B3 & B4 & B5 & B6).
    - exact A1.
    - lia.
    - intros j Hj. apply A3, Hi. now right.
    - intros j x Hx. destruct (N.eq_dec j k) as [->|Hne]; [congruence|].
      destruct (A5 j Hne) as [E1 E2]. rewrite E2. apply Hcom. congruence.
    - cbv zeta in *. split; [exact B1|]. split; [lia|]. split; [intros j; now rewrite B3|].
      split; [exact B4|]. split.
      + intros j Hj. rewrite B5 by (rewrite A3; exact Hj).
        destruct (N.eq_dec j k) as [->|Hne]; [contradiction|]. now apply A5.
      + intros j [[<-|Hj]|(w & Hw)]; apply B6; [right; eauto|now left|].
        destruct (N.eq_dec j k) as [->|Hne]; [right; eauto|]. right. exists w. now rewrite (proj1 (A5 j Hne)).
  Qed.

  Lemma flush_spec m T s : linv m T s -> linv m [] (lflush cap s) /\
    (forall k, mget k (l_kv (lflush cap s)) = m k).
  Proof.
    intros [H1 H2 H3 H4 H5 _]. unfold lflush.
    destruct (flush_keys_spec (rev (map fst (l_cache s))) s H1 H2) as (B1 & B2 & B3 & B4 & B5 & B6).
    { intros j Hj. now apply in_rev in Hj. }
    { exact H5. }
    cbv zeta in *. set (s' := fold_left (flush_key cap) (rev (map fst (l_cache s))) s) in *.
    assert (Hc : forall k x, mget k (l_cache s') = Some x -> m k = Some (fst x) /\ mget k (l_kv s') = Some (fst x)).
    { intros k x Hx. specialize (B3 k). unfold cval in B3. rewrite Hx in B3.
      destruct (mget k (l_cache s)) as [y|] eqn:Ey; [|discriminate]. cbn in B3. injection B3 as Exy.
      split; [rewrite Exy; now apply H3|].
      destruct (B6 k) as (w & Hw). { left. rewrite <- in_rev. exact (mget_Some_in _ _ _ Ey). }
      rewrite Hx in Hw. injection Hw as ->. cbn. now apply B4. }
    assert (Hm : forall k, mget k (l_cache s') = None -> mget k (l_kv s') = m k).
    { intros k Hk. specialize (B3 k). unfold cval in B3. rewrite Hk in B3.
      destruct (mget k (l_cache s)) eqn:Ey; [discriminate|]. rewrite B5; [now apply H4|].
      intros Hin. destruct (mget_in_keys k _ Hin). congruence. }
    split; [constructor; auto|].
    - lia.
    - intros k x Hx. now apply Hc.
    - exists [], (l_cache s'). split; [reflexivity|]. split; [intros j []|].
      intros k _ x Hx. now apply Hc.
    - intros k. destruct (mget k (l_cache s')) as [x|] eqn:E; [|now apply Hm].
      destruct (Hc k x E) as [-> ->]. reflexivity.
  Qed.

  Lemma run_spec ops : forall m T s, linv m T s -> fits cap T ops ->
    snd (lrun cap s ops) = snd (spec_run m ops) /\
    linv (fst (spec_run m ops)) (touched T ops) (fst (lrun cap s ops)).
  Proof.
    induction ops as [|o ops IH]; intros m T s Hi Hf; cbn [lrun spec_run touched]; [auto|].
    destruct o as [k|k v|]; cbn [lstep fits] in *.
    - destruct Hf as [HT Hf]. destruct (get_spec m T s k Hi HT) as [Hr Hi'].
      destruct (node_get cap s k) as [s1 r]. cbn [fst snd] in *. specialize (IH _ _ _ Hi' Hf).
      destruct (lrun cap s1 ops) as [s2 rs]. cbn [fst snd] in *. destruct IH as [IH1 IH2]. split; [now f_equal|exact IH2].
    - destruct Hf as [HT Hf]. pose proof (put_spec m T s k v Hi HT) as Hi'. specialize (IH _ _ _ Hi' Hf).
      destruct (lrun cap (node_set cap s k v) ops) as [s2 rs]. exact IH.
    - destruct (flush_spec m T s Hi) as [Hi' _]. specialize (IH _ _ _ Hi' Hf).
      destruct (lrun cap (lflush cap s) ops) as [s2 rs]. exact IH.
  Qed.

  Lemma linv_empty : linv (fun _ => None) [] lempty.
  Proof.
    constructor; cbn; try discriminate; [constructor|lia|auto|].
    exists [], []. split; [reflexivity|]. split; [intros j []|intros j []].
  Qed.

  (** Transparency from a new process on, over any table. *)
  Lemma linv_open (kv : nmap V) : linv (fun k => mget k kv) [] (mkL [] kv).
  Proof.
    constructor; cbn; try discriminate; [constructor|lia|auto|].
    exists [], []. split; [reflexivity|]. split; [intros j []|intros j []].
  Qed.

  (* ---------------------------------------------------------------- *)
  (** The cache never holds more than [cap] vertices. *)
  Definition no_flush (ops : list (lop V)) : Prop := ~ In LFlush ops.

  Lemma lru_add_len k (x : V * bool) c : length (lru_add cap k x c) <= cap.
  Proof. unfold lru_add. rewrite firstn_length. lia. Qed.

  Lemma firstn_keys_nodup n : forall c, NoDup (keys c) -> NoDup (keys (firstn n c)).
  Proof.
    intros c H. unfold keys in *. rewrite <- firstn_map. rewrite <- (firstn_skipn n (map fst c)) in H.
    now apply nodup_app_l in H.
  Qed.
  Lemma lru_add_nodup k (x : V * bool) c : NoDup (keys c) -> NoDup (keys (lru_add cap k x c)).
  Proof.
    intros H. unfold lru_add. apply firstn_keys_nodup. cbn. constructor; [rewrite mdel_in; tauto|now apply mdel_nodup].
  Qed.

  Lemma get_bound s k : NoDup (keys (l_cache s)) -> length (l_cache s) <= cap ->
    NoDup (keys (l_cache (fst (node_get cap s k)))) /\ length (l_cache (fst (node_get cap s k))) <= cap /\
    l_kv (fst (node_get cap s k)) = l_kv s.
  Proof.
    intros Hn Hl. unfold node_get. destruct (mget k (l_cache s)) as [[v f]|] eqn:E.
    - rewrite (lru_get_add k (v, f) _ E Hl Hn). cbn. split; [now apply lru_add_nodup|]. split; [apply lru_add_len|auto].
    - unfold lru_get. rewrite E. destruct (mget k (l_kv s)); cbn; [|auto].
      split; [now apply lru_add_nodup|]. split; [apply lru_add_len|auto].
  Qed.

  Lemma run_bound ops : forall s, no_flush ops -> NoDup (keys (l_cache s)) -> length (l_cache s) <= cap ->
    NoDup (keys (l_cache (fst (lrun cap s ops)))) /\ length (l_cache (fst (lrun cap s ops))) <= cap /\
    l_kv (fst (lrun cap s ops)) = l_kv s.
  Proof.
    induction ops as [|o ops IH]; intros s Hf Hn Hl; cbn [lrun]; [auto|].
    assert (Hf' : no_flush ops) by (intros H; apply Hf; now right).
    destruct o as [k|k v|]; cbn [lstep].
    - destruct (get_bound s k Hn Hl) as (G1 & G2 & G3). destruct (node_get cap s k) as [s1 r]. cbn [fst] in *.
      destruct (IH s1 Hf' G1 G2) as (A & B & C). destruct (lrun cap s1 ops). cbn [fst] in *.
      split; [exact A|]. split; [exact B|congruence].
    - assert (G1 : NoDup (keys (l_cache (node_set cap s k v)))) by (apply lru_add_nodup; exact Hn).
      destruct (IH (node_set cap s k v) Hf' G1 (lru_add_len _ _ _)) as (A & B & C).
      destruct (lrun cap (node_set cap s k v) ops). cbn [fst] in *. auto.
    - destruct Hf. now left.
  Qed.

  (** The write-back of one batch into an empty table stores at most [cap]
      vertices, whatever was put. *)
  Lemma batch_bound ops : no_flush ops ->
    forall ids, NoDup ids ->
      (forall i, In i ids -> mget i (l_kv (lflush cap (fst (lrun cap lempty ops)))) <> None) -> length ids <= cap.
  Proof.
    intros Hf ids Hnd Hin.
    destruct (run_bound ops lempty Hf) as (A & B & C); [constructor|cbn; lia|].
    set (s := fst (lrun cap lempty ops)) in *. cbn [lempty l_kv] in C.
    assert (Hsub : incl ids (keys (l_cache s))).
    { intros i Hi. specialize (Hin i Hi).
      destruct (mget i (l_cache s)) as [x|] eqn:E; [exact (mget_Some_in _ _ _ E)|]. exfalso. apply Hin.
      assert (Hni : ~ In i (keys (l_cache s))) by (intros H; destruct (mget_in_keys i _ H); congruence).
      unfold lflush. change (map fst (l_cache s)) with (keys (l_cache s)).
      assert (Hg : forall ks (g : lstore V), incl ks (keys (l_cache s)) -> mget i (l_kv g) = None ->
                mget i (l_kv (fold_left (flush_key cap) ks g)) = None).
      { induction ks as [|k ks IH]; intros g Hks Hg; cbn [fold_left]; [exact Hg|].
        apply IH; [intros j Hj; apply Hks; now right|]. unfold flush_key.
        assert (i <> k) by (intros ->; apply Hni, Hks; now left).
        destruct (lru_get k (l_cache g)) as [[[v []]|] c0]; cbn [l_kv]; auto. now rewrite mget_mset_ne. }
      apply Hg; [intros j Hj; now apply in_rev in Hj|]. now rewrite C. }
    pose proof (NoDup_incl_length Hnd Hsub) as H. unfold keys in H. rewrite map_length in H. lia.
  Qed.
End Proofs.
