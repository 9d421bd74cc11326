(** Proofs about [Slices]: no list is written while somebody else reads it, so
    the memory shows what lists as values would. *)
From Verif Require Import Base Slices.
From Coq Require Import Lia.

#[local] Arguments arr : simpl never.
#[local] Arguments cap : simpl never.
#[local] Arguments contents : simpl never.

Lemma arr_app1 m m' a : a < length m -> arr (m ++ m') a = arr m a.
Proof. intros. unfold arr. now apply app_nth1. Qed.
Lemma arr_new m x m' : arr (m ++ x :: m') (length m) = x.
Proof. unfold arr. rewrite app_nth2, Nat.sub_diag by lia. reflexivity. Qed.
Lemma arr_upd_same m a x : a < length m -> arr (upd m a x) a = x.
Proof. unfold arr. revert a; induction m as [|y m IH]; destruct a as [|a]; cbn; intros; try lia; auto. apply IH. lia. Qed.
Lemma arr_upd_other m a b x : a <> b -> arr (upd m a x) b = arr m b.
Proof. unfold arr. revert a b; induction m as [|y m IH]; destruct a as [|a], b as [|b]; cbn; intros; auto; congruence. Qed.

Lemma firstn_upd {A} (l : list A) n x : n < length l -> firstn (S n) (upd l n x) = firstn n l ++ [x].
Proof. revert n; induction l as [|y l IH]; destruct n as [|n]; cbn [upd length firstn app]; intros; try lia; auto. f_equal. apply IH. lia. Qed.

Lemma list_ext {A} : forall (l l' : list A), (forall i, nth_error l i = nth_error l' i) -> l = l'.
Proof.
  induction l as [|x l IH]; destruct l' as [|y l']; intros H; auto.
  - discriminate (H 0).
  - discriminate (H 0).
  - pose proof (H 0) as H0. cbn in H0. injection H0 as ->. f_equal. apply IH. intros i. exact (H (S i)).
Qed.

Section Proofs.
  Variable M : nat.
  Notation max_links := (max_links M).

  (* ---------------------------------------------------------------- *)
  (** What a change of one list does to the arrays: [fr] says that the array it
      was in must not be written. *)
  Record change (fr : Prop) (m : arrays) (s : slice) (m' : arrays) (s' : slice) : Prop := {
    ch_len : length m <= length m';
    ch_in : s_arr s' < length m';
    ch_cap : s_len s' <= cap m' s';
    ch_arr : s_arr s' = s_arr s \/ length m <= s_arr s';
    ch_others : forall a, a < length m -> a <> s_arr s -> arr m' a = arr m a;
    ch_frozen : fr -> arr m' (s_arr s) = arr m (s_arr s) /\ length m <= s_arr s'
  }.

  Lemma target_room mx len : len + 1 <= target mx len.
  Proof.
    unfold target. set (t := if Nat.ltb (4 * len) mx then _ else _).
    destruct (Nat.ltb_spec t (len + 1)); lia.
  Qed.

  Lemma append_spec mx m s x :
    s_arr s < length m -> s_len s <= cap m s ->
    let r := append_link mx m s x in
    change (s_len s = cap m s) m s (fst r) (snd r) /\
    contents (fst r) (snd r) = contents m s ++ [x] /\
    s_len (snd r) = S (s_len s) /\
    (s_len s < cap m s -> s_arr (snd r) = s_arr s /\ length (fst r) = length m /\ cap (fst r) (snd r) = cap m s).
  Proof.
    intros Ha Hl. unfold append_link, grow. destruct (Nat.eqb_spec (s_len s) (cap m s)) as [E|E]; cbn [fst snd s_arr s_len].
    - set (t := target mx (s_len s)). pose proof (target_room mx (s_len s)) as Ht. fold t in Ht.
      set (n := contents m s ++ repeat 0%N (t - s_len s)).
      assert (Hc : length (contents m s) = s_len s).
      { unfold contents. rewrite firstn_length. unfold cap in *. lia. }
      assert (Hn : length n = t) by (unfold n; rewrite app_length, repeat_length; lia).
      rewrite arr_new.
      assert (Hlast : arr (upd (m ++ [n]) (length m) (upd n (s_len s) x)) (length m) = upd n (s_len s) x).
      { apply arr_upd_same. rewrite app_length. cbn. lia. }
      split; [constructor|split; [|split]].
      + rewrite upd_length, app_length. lia.
      + cbn. rewrite upd_length, app_length. cbn. lia.
      + unfold cap. cbn [s_arr s_len]. rewrite Hlast, upd_length. lia.
      + cbn. lia.
      + intros a Hla _. rewrite arr_upd_other by lia. now apply arr_app1.
      + intros _. cbn. split; [|lia]. rewrite arr_upd_other by lia. now apply arr_app1.
      + unfold contents at 1. cbn [s_arr s_len]. rewrite Hlast, firstn_upd by lia.
        f_equal. unfold n. rewrite firstn_app, firstn_all2, Hc, Nat.sub_diag by lia. cbn. apply app_nil_r.
      + reflexivity.
      + intros. lia.
    - assert (Hlt : s_len s < cap m s) by lia.
      split; [constructor|split; [|split]]; cbn.
      + rewrite upd_length. lia.
      + rewrite upd_length. lia.
      + unfold cap in *. cbn. rewrite arr_upd_same, upd_length by auto. lia.
      + auto.
      + intros a _ Hne. apply arr_upd_other. congruence.
      + intros. lia.
      + unfold contents. cbn. rewrite arr_upd_same by auto. now apply firstn_upd.
      + reflexivity.
      + intros _. split; auto. rewrite upd_length. split; auto. unfold cap. cbn. rewrite arr_upd_same by auto. apply upd_length.
  Qed.

  Lemma change_trans (fr : Prop) m s m1 s1 m2 s2 (fr2 : Prop) :
    s_arr s < length m ->
    change fr m s m1 s1 -> change fr2 m1 s1 m2 s2 -> change fr m s m2 s2.
  Proof.
    intros Ha [A1 A2 A3 A4 A5 A6] [B1 B2 B3 B4 B5 B6]. constructor; try lia; auto.
    - intros a Hl Hn. rewrite B5; auto; [lia|]. destruct A4; lia.
    - intros Hf. destruct (A6 Hf) as [H1 H2]. split; [|lia]. rewrite B5, H1; auto; lia.
  Qed.

  Lemma appends_spec mx : forall xs m s,
    s_arr s < length m -> s_len s <= cap m s ->
    let r := append_links mx m s xs in
    change False m s (fst r) (snd r) /\
    contents (fst r) (snd r) = contents m s ++ xs /\
    (s_len s + length xs <= cap m s -> s_arr (snd r) = s_arr s /\ length (fst r) = length m /\ cap (fst r) (snd r) = cap m s).
  Proof.
    induction xs as [|x xs IH]; intros m s Ha Hl; cbn [append_links].
    - cbn. split; [constructor; auto; tauto|]. rewrite app_nil_r. auto.
    - pose proof (append_spec mx m s x Ha Hl) as H. cbn zeta in H.
      destruct (append_link mx m s x) as [m1 s1]. cbn [fst snd] in H. destruct H as (C & Hc & Hs & Hp).
      specialize (IH m1 s1 (ch_in _ _ _ _ _ C) (ch_cap _ _ _ _ _ C)). cbn zeta in IH.
      destruct (append_links mx m1 s1 xs) as [m2 s2]. cbn [fst snd] in *. destruct IH as (C2 & Hc2 & Hp2).
      split; [|split].
      + eapply change_trans; eauto. destruct C as [C1 C3 C4 C5 C6 C7]. constructor; auto. tauto.
      + rewrite Hc2, Hc, <- app_assoc. reflexivity.
      + cbn [length]. intros Hle. destruct Hp as (P1 & P2 & P3); [lia|].
        destruct Hp2 as (Q1 & Q2 & Q3); [lia|]. repeat split; congruence.
  Qed.

  (* ---------------------------------------------------------------- *)
  Definition obj_at (st : memst) (o l : nat) : option slice :=
    match nth_error (m_objs st) o with Some c => nth_error c l | None => None end.

  Record inv (st : memst) : Prop := {
    i_in : forall o l s, obj_at st o l = Some s -> s_arr s < length (m_arr st) /\ s_len s <= cap (m_arr st) s;
    i_inj : forall o l s o' l' s', obj_at st o l = Some s -> obj_at st o' l' = Some s' ->
      s_arr s = s_arr s' -> o = o' /\ l = l';
    i_cur : forall g G l n i, nth_error (m_add st) g = Some G -> g_cur G = Some (l, n, i) ->
      s_arr n < length (m_arr st) /\ s_len n = cap (m_arr st) n /\
      forall o' l' s', obj_at st o' l' = Some s' -> s_arr s' = s_arr n -> s_len s' = s_len n /\ s_len n < max_links l';
    i_todo : forall g G l nbs, nth_error (m_add st) g = Some G -> In (l, nbs) (g_todo G) ->
      length nbs <= max_links l /\ exists s, obj_at st (g_own G) l = Some s /\ cap (m_arr st) s = max_links l;
    i_nd : forall g G, nth_error (m_add st) g = Some G -> NoDup (map fst (g_todo G));
    i_own : forall g G, nth_error (m_add st) g = Some G -> g_own G < length (m_objs st);
    i_own1 : forall g G g' G', nth_error (m_add st) g = Some G -> nth_error (m_add st) g' = Some G' ->
      g_own G = g_own G' -> g = g'
  }.

  Definition reading (st : memst) (a : nat) : Prop :=
    exists g G l n i, nth_error (m_add st) g = Some G /\ g_cur G = Some (l, n, i) /\ s_arr n = a.

  (** One list of one vertex changes. *)
  Lemma obj_change st o c l s m' s' :
    inv st -> nth_error (m_objs st) o = Some c -> nth_error c l = Some s ->
    change (reading st (s_arr s)) (m_arr st) s m' s' ->
    (forall g G nbs, nth_error (m_add st) g = Some G -> g_own G = o -> In (l, nbs) (g_todo G) -> cap m' s' = max_links l) ->
    inv (mkM m' (upd (m_objs st) o (upd c l s')) (m_add st)) /\
    map (map (contents m')) (upd (m_objs st) o (upd c l s')) =
      upd (map (map (contents (m_arr st))) (m_objs st)) o (upd (map (contents (m_arr st)) c) l (contents m' s')) /\
    map (view_add m') (m_add st) = map (view_add (m_arr st)) (m_add st).
  Proof.
    intros I Ho Hl [C1 C2 C3 C4 C5 C6] Ht.
    set (st' := mkM m' (upd (m_objs st) o (upd c l s')) (m_add st)).
    assert (Hos : obj_at st o l = Some s) by (unfold obj_at; now rewrite Ho).
    destruct (i_in _ I _ _ _ Hos) as [Hs1 Hs2].
    assert (Lo : o < length (m_objs st)) by (apply nth_error_Some; congruence).
    assert (Ll : l < length c) by (apply nth_error_Some; congruence).
    assert (Hat : forall o' l', obj_at st' o' l' = if Nat.eqb o o' && Nat.eqb l l' then Some s' else obj_at st o' l').
    { intros o' l'. unfold obj_at, st'. cbn. destruct (Nat.eqb_spec o o') as [<-|Hne]; cbn.
      - rewrite nth_error_upd_eq, Ho by auto. destruct (Nat.eqb_spec l l') as [<-|Hne].
        + now apply nth_error_upd_eq.
        + now apply nth_error_upd_ne.
      - now rewrite nth_error_upd_ne. }
    assert (Hkeep : forall o' l' t, obj_at st o' l' = Some t -> ~ (o = o' /\ l = l') ->
              arr m' (s_arr t) = arr (m_arr st) (s_arr t) /\ s_arr t <> s_arr s').
    { intros o' l' t Hot Hne. destruct (i_in _ I _ _ _ Hot) as [Ht1 _].
      assert (s_arr t <> s_arr s).
      { intros E. apply Hne. eapply (i_inj _ I); eauto. }
      split; [apply C5; auto|]. destruct C4; lia. }
    assert (Hcur : forall g G l0 n i, nth_error (m_add st) g = Some G -> g_cur G = Some (l0, n, i) ->
              arr m' (s_arr n) = arr (m_arr st) (s_arr n) /\ s_arr n <> s_arr s').
    { intros g G l0 n i Hg Hc. destruct (i_cur _ I _ _ _ _ _ Hg Hc) as (Hn1 & _).
      destruct (Nat.eq_dec (s_arr n) (s_arr s)) as [E|E].
      - destruct C6 as [D1 D2]; [exists g, G, l0, n, i; auto|]. rewrite E. split; auto. lia.
      - split; [apply C5; auto|]. destruct C4; lia. }
    split; [constructor|split].
    - intros o' l' t. rewrite Hat. destruct (Nat.eqb_spec o o') as [<-|No]; cbn.
      + destruct (Nat.eqb_spec l l') as [<-|Nl].
        * intros E. injection E as <-. auto.
        * intros E. destruct (Hkeep _ _ _ E) as [K _]; [tauto|]. destruct (i_in _ I _ _ _ E).
          subst st'; cbn [m_arr m_objs m_add] in *. unfold cap in *. rewrite K. split; [lia|auto].
      + intros E. destruct (Hkeep _ _ _ E) as [K _]; [tauto|]. destruct (i_in _ I _ _ _ E).
        subst st'; cbn [m_arr m_objs m_add] in *. unfold cap in *. rewrite K. split; [lia|auto].
    - assert (Hx : forall o' l' t, obj_at st' o' l' = Some t ->
               (o = o' /\ l = l' /\ t = s') \/ (~ (o = o' /\ l = l') /\ obj_at st o' l' = Some t)).
      { intros o' l' t. rewrite Hat. destruct (Nat.eqb_spec o o'), (Nat.eqb_spec l l'); cbn; intros E; try (right; split; [tauto|exact E]).
        left. split; auto. split; auto. congruence. }
      intros o1 l1 t1 o2 l2 t2 H1 H2 E.
      destruct (Hx _ _ _ H1) as [(<- & <- & ->)|[N1 G1]]; destruct (Hx _ _ _ H2) as [(<- & <- & ->)|[N2 G2]]; auto.
      + destruct (Hkeep _ _ _ G2 N2). congruence.
      + destruct (Hkeep _ _ _ G1 N1). congruence.
      + eapply (i_inj _ I); eauto.
    - intros g G l0 n i Hg Hc. cbn in Hg. destruct (Hcur _ _ _ _ _ Hg Hc) as [K1 K2].
      destruct (i_cur _ I _ _ _ _ _ Hg Hc) as (Hn1 & Hn2 & Hn3). subst st'; cbn [m_arr m_objs m_add] in *. unfold cap in *. rewrite K1.
      split; [lia|]. split; auto. intros o' l' t. rewrite Hat.
      destruct (Nat.eqb_spec o o') as [<-|No]; cbn; [destruct (Nat.eqb_spec l l') as [<-|Nl]|]; eauto.
      intros E. injection E as <-. congruence.
    - intros g G l0 nbs Hg Hin. cbn in Hg. destruct (i_todo _ I _ _ _ _ Hg Hin) as (T1 & t & T2 & T3).
      split; auto. subst st'; cbn [m_arr m_objs m_add] in *. setoid_rewrite Hat.
      destruct (Nat.eqb_spec o (g_own G)) as [Eo|No]; cbn; [destruct (Nat.eqb_spec l l0) as [<-|Nl]|].
      + exists s'. split; auto. eapply Ht; eauto.
      + exists t. split; auto. destruct (Hkeep _ _ _ T2) as [K _]; [tauto|]. unfold cap in *. now rewrite K.
      + exists t. split; auto. destruct (Hkeep _ _ _ T2) as [K _]; [tauto|]. unfold cap in *. now rewrite K.
    - apply (i_nd _ I).
    - cbn. rewrite upd_length. apply (i_own _ I).
    - apply (i_own1 _ I).
    - apply list_ext. intros o'. rewrite nth_error_map, !nth_error_upd, nth_error_map, !map_length.
      destruct (Nat.eqb_spec o o') as [<-|No].
      + destruct (Nat.ltb_spec o (length (m_objs st))); [|lia]. cbn [option_map]. f_equal.
        apply list_ext. intros l'. rewrite nth_error_map, !nth_error_upd, nth_error_map, map_length.
        destruct (Nat.eqb_spec l l') as [<-|Nl].
        * destruct (Nat.ltb_spec l (length c)); [reflexivity|lia].
        * destruct (nth_error c l') as [t|] eqn:Et; auto. cbn. f_equal. unfold contents.
          destruct (Hkeep o l' t) as [K _]; [unfold obj_at; now rewrite Ho|tauto|]. now rewrite K.
      + destruct (nth_error (m_objs st) o') as [c'|] eqn:Ec; auto. cbn. f_equal. apply map_ext_in.
        intros t Hin. apply In_nth_error in Hin. destruct Hin as [l' Hl']. unfold contents.
        destruct (Hkeep o' l' t) as [K _]; [unfold obj_at; now rewrite Ec|tauto|]. now rewrite K.
    - apply map_ext_in. intros G Hin. apply In_nth_error in Hin. destruct Hin as [g Hg].
      unfold view_add. f_equal. destruct (g_cur G) as [[[l0 n] i]|] eqn:Ec; auto. cbn.
      destruct (Hcur _ _ _ _ _ Hg Ec) as [K _]. unfold contents. now rewrite K.
  Qed.

  (** Vertices and lists appear, over new arrays. *)
  Lemma inv_extend st ms objs' :
    inv st -> length (m_objs st) <= length objs' ->
    let st' := mkM (m_arr st ++ ms) objs' (m_add st) in
    (forall o l t, obj_at st o l = Some t -> obj_at st' o l = Some t) ->
    (forall o l t, obj_at st' o l = Some t ->
       obj_at st o l = Some t \/
       (length (m_arr st) <= s_arr t /\ s_arr t < length (m_arr st ++ ms) /\ s_len t <= cap (m_arr st ++ ms) t /\
        forall o' l' t', obj_at st' o' l' = Some t' -> s_arr t = s_arr t' -> o = o' /\ l = l')) ->
    inv st'.
  Proof.
    intros I Hlen st' Hkeep Hnew. constructor.
    - intros o l t H. destruct (Hnew _ _ _ H) as [K|(A & B & C & _)]; auto.
      destruct (i_in _ I _ _ _ K) as [K1 K2]. cbn. rewrite app_length. split; [lia|]. unfold cap in *. now rewrite arr_app1.
    - intros o l t o' l' t' H H' E.
      destruct (Hnew _ _ _ H) as [K|(A & B & C & D)]; [|eapply D; eauto].
      destruct (Hnew _ _ _ H') as [K'|(A & B & C & D)].
      + eapply (i_inj _ I); eauto.
      + destruct (D _ _ _ H); [congruence|]. auto.
    - intros g G l n i Hg Hc. destruct (i_cur _ I _ _ _ _ _ Hg Hc) as (C1 & C2 & C3). cbn.
      rewrite app_length. split; [lia|]. split; [unfold cap in *; now rewrite arr_app1|].
      intros o' l' t H E. destruct (Hnew _ _ _ H) as [K|(A & B & _)]; eauto. lia.
    - intros g G l nbs Hg Hin. destruct (i_todo _ I _ _ _ _ Hg Hin) as (T1 & t & T2 & T3).
      split; auto. exists t. split; auto. destruct (i_in _ I _ _ _ T2). cbn. unfold cap in *. now rewrite arr_app1.
    - apply (i_nd _ I).
    - intros g G Hg. pose proof (i_own _ I _ _ Hg). cbn. lia.
    - apply (i_own1 _ I).
  Qed.

  Lemma contents_app st ms o l t :
    inv st -> obj_at st o l = Some t -> contents (m_arr st ++ ms) t = contents (m_arr st) t.
  Proof. intros I H. destruct (i_in _ I _ _ _ H). unfold contents. now rewrite arr_app1. Qed.

  Lemma view_objs_app st ms :
    inv st -> map (map (contents (m_arr st ++ ms))) (m_objs st) = map (map (contents (m_arr st))) (m_objs st).
  Proof.
    intros I. apply map_ext_in. intros c Hc. apply In_nth_error in Hc. destruct Hc as [o Ho].
    apply map_ext_in. intros t Ht. apply In_nth_error in Ht. destruct Ht as [l Hl].
    eapply contents_app with (o := o) (l := l); eauto. unfold obj_at. now rewrite Ho.
  Qed.

  Lemma view_add_app st ms :
    inv st -> map (view_add (m_arr st ++ ms)) (m_add st) = map (view_add (m_arr st)) (m_add st).
  Proof.
    intros I. apply map_ext_in. intros G Hc. apply In_nth_error in Hc. destruct Hc as [g Hg].
    unfold view_add. f_equal. destruct (g_cur G) as [[[l n] i]|] eqn:Ec; auto. cbn.
    destruct (i_cur _ I _ _ _ _ _ Hg Ec) as (C1 & _). unfold contents. now rewrite arr_app1.
  Qed.

  (** An addition changes. *)
  Lemma inv_adder st g G G' :
    inv st -> nth_error (m_add st) g = Some G ->
    g_own G' = g_own G -> incl (g_todo G') (g_todo G) -> NoDup (map fst (g_todo G')) ->
    (forall l n i, g_cur G' = Some (l, n, i) ->
       s_arr n < length (m_arr st) /\ s_len n = cap (m_arr st) n /\
       forall o' l' s', obj_at st o' l' = Some s' -> s_arr s' = s_arr n -> s_len s' = s_len n /\ s_len n < max_links l') ->
    inv (mkM (m_arr st) (m_objs st) (upd (m_add st) g G')).
  Proof.
    intros I Hg Eo Hi Hnd Hc.
    assert (Hx : forall g1 G1, nth_error (upd (m_add st) g G') g1 = Some G1 ->
              (g1 = g /\ G1 = G') \/ (g1 <> g /\ nth_error (m_add st) g1 = Some G1)).
    { intros g1 G1. rewrite nth_error_upd. destruct (Nat.eqb_spec g g1) as [->|Ne]; auto.
      destruct (Nat.ltb g1 (length (m_add st))); [|discriminate]. intros E. injection E as <-. auto. }
    constructor; cbn [m_arr m_objs m_add].
    - apply (i_in _ I).
    - apply (i_inj _ I).
    - intros g1 G1 l n i H1 H2. destruct (Hx _ _ H1) as [(-> & ->)|(Hne & H1')]; [now apply (Hc l n i)|].
      exact (i_cur _ I _ _ _ _ _ H1' H2).
    - intros g1 G1 l nbs H1 H2. destruct (Hx _ _ H1) as [(-> & ->)|(Hne & H1')].
      + rewrite Eo. apply Hi in H2. exact (i_todo _ I _ _ _ _ Hg H2).
      + exact (i_todo _ I _ _ _ _ H1' H2).
    - intros g1 G1 H1. destruct (Hx _ _ H1) as [(-> & ->)|(Hne & H1')]; auto. exact (i_nd _ I _ _ H1').
    - intros g1 G1 H1. destruct (Hx _ _ H1) as [(-> & ->)|(Hne & H1')].
      + rewrite Eo. exact (i_own _ I _ _ Hg).
      + exact (i_own _ I _ _ H1').
    - intros g1 G1 g2 G2 H1 H2 E.
      destruct (Hx _ _ H1) as [(-> & ->)|(Hne & H1')]; destruct (Hx _ _ H2) as [(-> & ->)|(Hne2 & H2')]; auto.
      + exfalso. apply Hne2. eapply (i_own1 _ I); eauto. congruence.
      + exfalso. apply Hne. eapply (i_own1 _ I); eauto. congruence.
      + eapply (i_own1 _ I); eauto.
  Qed.

  Lemma inv_new_adder st G :
    inv st -> g_cur G = None -> NoDup (map fst (g_todo G)) ->
    (forall l nbs, In (l, nbs) (g_todo G) ->
       length nbs <= max_links l /\ exists s, obj_at st (g_own G) l = Some s /\ cap (m_arr st) s = max_links l) ->
    g_own G < length (m_objs st) ->
    (forall g1 G1, nth_error (m_add st) g1 = Some G1 -> g_own G1 <> g_own G) ->
    inv (mkM (m_arr st) (m_objs st) (m_add st ++ [G])).
  Proof.
    intros I Hc Hnd Ht Ho Hn.
    assert (Hx : forall g1 G1, nth_error (m_add st ++ [G]) g1 = Some G1 ->
              (g1 = length (m_add st) /\ G1 = G) \/ nth_error (m_add st) g1 = Some G1).
    { intros g1 G1 H. destruct (Nat.lt_ge_cases g1 (length (m_add st))) as [L|L].
      - rewrite nth_error_app1 in H by auto. auto.
      - rewrite nth_error_app2 in H by auto. destruct (g1 - length (m_add st)) as [|k] eqn:E.
        + cbn in H. injection H as <-. left. split; auto. lia.
        + destruct k; discriminate. }
    constructor; cbn [m_arr m_objs m_add].
    - apply (i_in _ I).
    - apply (i_inj _ I).
    - intros g1 G1 l n i H1 H2. destruct (Hx _ _ H1) as [(-> & ->)|H1']; [congruence|].
      exact (i_cur _ I _ _ _ _ _ H1' H2).
    - intros g1 G1 l nbs H1 H2. destruct (Hx _ _ H1) as [(-> & ->)|H1']; [exact (Ht _ _ H2)|].
      exact (i_todo _ I _ _ _ _ H1' H2).
    - intros g1 G1 H1. destruct (Hx _ _ H1) as [(-> & ->)|H1']; auto. exact (i_nd _ I _ _ H1').
    - intros g1 G1 H1. destruct (Hx _ _ H1) as [(-> & ->)|H1']; auto. exact (i_own _ I _ _ H1').
    - intros g1 G1 g2 G2 H1 H2 E.
      destruct (Hx _ _ H1) as [(-> & ->)|H1']; destruct (Hx _ _ H2) as [(-> & ->)|H2']; auto.
      + exfalso. eapply Hn; eauto.
      + exfalso. eapply Hn; eauto.
      + eapply (i_own1 _ I); eauto.
  Qed.

  (* ---------------------------------------------------------------- *)
  (** Setting the links of a layer. *)
  Lemma set_spec m s nbs :
    s_arr s < length m -> s_len s <= cap m s ->
    let n := mkSl (length m) (length nbs) in
    let r := set_links (m ++ [nbs]) s n in
    change False m s (fst r) (snd r) /\ contents (fst r) (snd r) = nbs /\
    length (fst r) = S (length m) /\ arr (fst r) (length m) = nbs /\
    (snd r = n /\ (length nbs < cap m s \/ cap m s < length nbs) \/ s_arr (snd r) = s_arr s).
  Proof.
    intros Ha Hl n. unfold set_links.
    assert (Ec : cap (m ++ [nbs]) s = cap m s) by (unfold cap; now rewrite arr_app1).
    assert (En : contents (m ++ [nbs]) n = nbs).
    { unfold contents, n. cbn [s_arr s_len]. rewrite arr_new. apply firstn_all. }
    assert (L1 : length (m ++ [nbs]) = S (length m)) by (rewrite app_length; cbn; lia).
    rewrite Ec. change (s_len n) with (length nbs). destruct (replaces (cap m s) (length nbs)) eqn:Er; cbn [fst snd].
    - split; [|split; [auto|split; [auto|split; [apply arr_new|left; split; auto]]]].
      + constructor; rewrite ?L1; unfold n; cbn [s_arr s_len]; try lia.
        * unfold cap. cbn [s_arr]. rewrite arr_new. lia.
        * intros a Hla _. now apply arr_app1.
      + unfold replaces in Er. apply Bool.orb_true_iff in Er. destruct Er as [Er|Er]; apply Nat.ltb_lt in Er; lia.
    - fold n. rewrite En, arr_app1 by auto.
      unfold replaces in Er. apply Bool.orb_false_iff in Er. destruct Er as [_ Er]. apply Nat.ltb_ge in Er.
      set (w := nbs ++ skipn (length nbs) (arr m (s_arr s))).
      assert (Lw : length w = cap m s) by (unfold w; rewrite app_length, skipn_length; unfold cap in *; lia).
      assert (Aw : arr (upd (m ++ [nbs]) (s_arr s) w) (s_arr s) = w) by (apply arr_upd_same; lia).
      split; [|split; [|split; [|split; [|right; auto]]]].
      + constructor; rewrite ?upd_length, ?L1; cbn [s_arr s_len]; try lia.
        * unfold cap at 1. cbn [s_arr]. rewrite Aw, Lw. lia.
        * intros a Hla Hne. rewrite arr_upd_other by congruence. now apply arr_app1.
      + unfold contents. cbn [s_arr s_len]. rewrite Aw. unfold w. rewrite firstn_app, Nat.sub_diag. cbn. rewrite app_nil_r. apply firstn_all.
      + rewrite upd_length. auto.
      + rewrite arr_upd_other by lia. apply arr_new.
  Qed.

  Lemma nils_contents m : forall k b, map (contents m) (nils b k) = repeat [] k.
  Proof. induction k as [|k IH]; intros b; cbn; auto. now rewrite IH. Qed.

  Lemma upd_twice {A} (l : list A) i x y : upd (upd l i x) i y = upd l i y.
  Proof. revert i; induction l; destruct i; cbn; auto. now rewrite IHl. Qed.
  Lemma upd_map {A B} (f : A -> B) (l : list A) i x : map f (upd l i x) = upd (map f l) i (f x).
  Proof. revert i; induction l; destruct i; cbn; auto. now rewrite IHl. Qed.

  Lemma reading_same st o l s g G l0 n i :
    inv st -> obj_at st o l = Some s -> nth_error (m_add st) g = Some G -> g_cur G = Some (l0, n, i) ->
    s_arr n = s_arr s -> s_len s = cap (m_arr st) s /\ s_len s < max_links l.
  Proof.
    intros I Ho Hg Hc E. destruct (i_cur _ I _ _ _ _ _ Hg Hc) as (_ & C2 & C3).
    destruct (C3 _ _ _ Ho) as [D1 D2]; [congruence|]. unfold cap in *. rewrite <- E. split; lia.
  Qed.

  Lemma go_ok st g o sel :
    inv st -> (forall l, length (sel l) <= max_links l) ->
    inv (go M st g o sel) /\ view (go M st g o sel) = val_go M (view st) g o sel.
  Proof.
    intros I Hsel. unfold go, val_go. cbn [view vs_add vs_objs].
    rewrite nth_error_map. destruct (nth_error (m_add st) g) as [G|] eqn:Hg; [|auto]. cbn [option_map].
    cbn [view_add va_cur va_todo va_own va_id va_log va_eps].
    destruct (g_cur G) as [[[l n] i]|] eqn:Hc; cbn [view_cur].
    - (* it ranges over neighbours *)
      destruct (i_cur _ I _ _ _ _ _ Hg Hc) as (C1 & C2 & C3).
      destruct (nth_error (contents (m_arr st) n) i) as [nb|] eqn:Hi.
      + set (G' := mkAd (g_own G) (g_id G) (g_todo G) (Some (l, n, S i)) (g_log G ++ [(l, nb)]) (g_eps G)).
        assert (Iskip : inv (mkM (m_arr st) (m_objs st) (upd (m_add st) g G'))).
        { eapply inv_adder; eauto; cbn; try apply incl_refl.
          - apply (i_nd _ I _ _ Hg).
          - intros l0 n0 i0 E. injection E as <- <- <-. auto. }
        assert (Vskip : view (mkM (m_arr st) (m_objs st) (upd (m_add st) g G')) =
                  mkVS (map (map (contents (m_arr st))) (m_objs st))
                       (upd (map (view_add (m_arr st)) (m_add st)) g
                          (mkVA (g_own G) (g_id G) (g_todo G) (Some (l, contents (m_arr st) n, S i)) (g_log G ++ [(l, nb)]) (g_eps G)))).
        { unfold view. cbn [m_arr m_objs m_add]. f_equal. rewrite upd_map. reflexivity. }
        destruct o as [ob|]; [|auto]. destruct (Nat.eqb_spec ob (g_own G)) as [Eo|Eo]; [auto|].
        rewrite nth_error_map. destruct (nth_error (m_objs st) ob) as [conns|] eqn:Hob; cbn [option_map]; [|auto].
        assert (Lob : ob < length (m_objs st)) by (apply nth_error_Some; congruence).
        unfold link_back, val_link_back, upgrade. rewrite map_length.
        set (k := S l - length conns). set (c1 := conns ++ nils (length (m_arr st)) k).
        set (m1 := m_arr st ++ repeat [] k).
        set (st1 := mkM m1 (upd (m_objs st) ob c1) (m_add st)).
        assert (Hnil : forall k b j t, nth_error (nils b k) j = Some t -> j < k /\ t = mkSl (b + j) 0).
        { induction k0 as [|k0 IH]; intros b j t H; [destruct j; discriminate|]. destruct j; cbn in H.
          - injection H as <-. rewrite Nat.add_0_r. split; auto. lia.
          - apply IH in H. destruct H as [? ->]. split; [lia|]. f_equal. lia. }
        assert (Hl1 : forall b, length (nils b k) = k).
        { intros b. revert b. induction k; cbn; auto. }
        assert (Lc1 : length c1 = length conns + k) by (unfold c1; rewrite app_length, Hl1; reflexivity).
        assert (Hat1 : forall o' l', obj_at st1 o' l' = if Nat.eqb ob o' then nth_error c1 l' else obj_at st o' l').
        { intros o' l'. unfold obj_at, st1. cbn [m_objs]. rewrite nth_error_upd. destruct (Nat.eqb_spec ob o') as [<-|]; auto.
          destruct (Nat.ltb_spec ob (length (m_objs st))); [auto|lia]. }
        assert (Hc1 : forall l' t, nth_error c1 l' = Some t ->
                  obj_at st ob l' = Some t \/
                  (length conns <= l' /\ l' < length conns + k /\ t = mkSl (length (m_arr st) + (l' - length conns)) 0)).
        { intros l' t H. unfold c1 in H. destruct (Nat.lt_ge_cases l' (length conns)) as [L|L].
          - rewrite nth_error_app1 in H by auto. left. unfold obj_at. now rewrite Hob.
          - rewrite nth_error_app2 in H by auto. apply Hnil in H. destruct H. right. split; [auto|]. split; [lia|auto]. }
        assert (I1 : inv st1).
        { apply inv_extend; auto.
          - rewrite upd_length. auto.
          - intros o' l' t H. fold m1 st1. rewrite Hat1. destruct (Nat.eqb_spec ob o') as [<-|]; auto.
            unfold obj_at in H. rewrite Hob in H. unfold c1. rewrite nth_error_app1; auto. apply nth_error_Some. congruence.
          - fold m1 st1. intros o' l' t. rewrite Hat1. destruct (Nat.eqb_spec ob o') as [<-|]; auto.
            intros H. destruct (Hc1 _ _ H) as [H'|(A & B & ->)]; auto. right. cbn [s_arr s_len].
            assert (Lm1 : length m1 = length (m_arr st) + k) by (unfold m1; rewrite app_length, repeat_length; reflexivity).
            rewrite Lm1. split; [lia|]. split; [lia|]. split; [lia|].
            intros o' l2 t2 H2 E. rewrite Hat1 in H2. destruct (Nat.eqb_spec ob o') as [<-|].
            + split; auto. destruct (Hc1 _ _ H2) as [H3|(A2 & B2 & ->)].
              * destruct (i_in _ I _ _ _ H3). lia.
              * cbn [s_arr] in E. lia.
            + exfalso. destruct (i_in _ I _ _ _ H2). lia. }
        assert (Vc1 : map (contents m1) c1 = map (contents (m_arr st)) conns ++ repeat [] k).
        { unfold c1. rewrite map_app. f_equal.
          - apply map_ext_in. intros t Ht. apply In_nth_error in Ht. destruct Ht as [l' Hl'].
            eapply contents_app with (o := ob) (l := l'); eauto. unfold obj_at. now rewrite Hob.
          - apply nils_contents. }
        assert (Vo1 : map (map (contents m1)) (m_objs st1) =
                  upd (map (map (contents (m_arr st))) (m_objs st)) ob (map (contents (m_arr st)) conns ++ repeat [] k)).
        { unfold st1. cbn [m_objs]. rewrite upd_map, Vc1. f_equal. now apply view_objs_app. }
        assert (Va1 : map (view_add m1) (m_add st) = map (view_add (m_arr st)) (m_add st)) by now apply view_add_app.
        assert (Ll : l < length c1) by (rewrite Lc1; unfold k; lia).
        rewrite <- Vc1, nth_error_map.
        destruct (nth_error c1 l) as [s|] eqn:Hs; [|exfalso; apply nth_error_None in Hs; lia].
        cbn [option_map].
        assert (Hs1 : obj_at st1 ob l = Some s) by (rewrite Hat1, Nat.eqb_refl; auto).
        destruct (i_in _ I1 _ _ _ Hs1) as [S1 S2]. change (m_arr st1) with m1 in S1, S2.
        assert (Lcon : length (contents m1 s) = s_len s).
        { unfold contents. rewrite firstn_length. unfold cap in S2. lia. }
        rewrite Lcon.
        set (r := if Nat.ltb (s_len s) (max_links l) then append_link (max_links l) m1 s (g_id G)
                  else append_links (max_links l) m1 (reset_links s) (sel l)).
        assert (Hr : change (reading st1 (s_arr s)) m1 s (fst r) (snd r) /\
                     contents (fst r) (snd r) = (if Nat.ltb (s_len s) (max_links l) then contents m1 s ++ [g_id G] else sel l) /\
                     (cap m1 s = max_links l -> cap (fst r) (snd r) = max_links l)).
        { unfold r. destruct (Nat.ltb_spec (s_len s) (max_links l)) as [L|L].
          - destruct (append_spec (max_links l) m1 s (g_id G) S1 S2) as (A & B & _ & D). cbn zeta in *.
            split; [|split; auto].
            + destruct A as [A1 A2 A3 A4 A5 A6]. constructor; auto.
              intros (g1 & G1 & l1 & n1 & i1 & R1 & R2 & R3). apply A6.
              destruct (reading_same st1 _ _ _ _ _ _ _ _ I1 Hs1 R1 R2 R3). auto.
            + intros E. destruct D as (_ & _ & D); [lia|]. congruence.
          - destruct (appends_spec (max_links l) (sel l) m1 (reset_links s)) as (A & B & D); [auto|cbn; lia|]. cbn zeta in *.
            split; [|split].
            + destruct A as [A1 A2 A3 A4 A5 A6]. constructor; auto.
              intros (g1 & G1 & l1 & n1 & i1 & R1 & R2 & R3). exfalso.
              destruct (reading_same st1 _ _ _ _ _ _ _ _ I1 Hs1 R1 R2 R3). lia.
            + rewrite B. reflexivity.
            + intros E. destruct D as (_ & _ & D).
              * cbn. unfold cap in *. cbn. rewrite E. apply Hsel.
              * rewrite D. unfold cap in *. cbn. auto. }
        fold r. destruct r as [m2 s2]. cbn [fst snd] in Hr. destruct Hr as (R1 & R2 & R3).
        destruct (obj_change st1 ob c1 l s m2 s2 I1) as (J1 & J2 & J3); auto.
        { unfold st1. cbn [m_objs]. now apply nth_error_upd_eq. }
        { intros g1 G1 nbs Hg1 Eo1 Hin. apply R3.
          destruct (i_todo _ I1 _ _ _ _ Hg1 Hin) as (_ & t & T2 & T3). rewrite Eo1, Hs1 in T2. injection T2 as <-. exact T3. }
        cbn [m_objs m_arr m_add st1] in J1, J2, J3. rewrite upd_twice in J1, J2.
        assert (Hcur2 : contents m2 n = contents (m_arr st) n).
        { apply (f_equal (fun v => nth_error v g)) in J3. rewrite !nth_error_map, Hg in J3. cbn [option_map] in J3.
          unfold view_add in J3. rewrite Hc in J3. cbn [view_cur] in J3. injection J3 as J3. rewrite J3.
          unfold m1, contents. now rewrite arr_app1. }
        split.
        * apply (inv_adder _ g G G') in J1; cbn [m_add m_arr m_objs] in *; auto.
          -- apply incl_refl.
          -- apply (i_nd _ I _ _ Hg).
          -- intros l0 n0 i0 E. injection E as <- <- <-. exact (i_cur _ J1 _ _ _ _ _ Hg Hc).
        * unfold view. cbn [m_arr m_objs m_add]. f_equal.
          -- unfold st1 in Vo1, J2. cbn [m_objs m_arr] in Vo1, J2. rewrite J2, Vo1, upd_twice, R2. reflexivity.
          -- rewrite upd_map, J3, Va1. f_equal. unfold view_add, G'. cbn. now rewrite Hcur2.
      + (* it leaves the layer *)
        split.
        * eapply inv_adder; eauto; cbn; try apply incl_refl; [apply (i_nd _ I _ _ Hg)|discriminate].
        * unfold view. cbn [m_arr m_objs m_add]. f_equal. rewrite upd_map. reflexivity.
    - (* the next layer *)
      destruct (g_todo G) as [|[l nbs] todo] eqn:Ht; [auto|].
      rewrite nth_error_map. destruct (nth_error (m_objs st) (g_own G)) as [conns|] eqn:Ho; cbn [option_map]; [|auto].
      rewrite nth_error_map. destruct (nth_error conns l) as [s|] eqn:Hs; cbn [option_map]; [|auto].
      assert (Hs1 : obj_at st (g_own G) l = Some s) by (unfold obj_at; now rewrite Ho).
      destruct (i_in _ I _ _ _ Hs1) as [S1 S2].
      destruct (i_todo _ I g G l nbs Hg) as (T1 & t & T2 & T3); [rewrite Ht; now left|].
      rewrite Hs1 in T2. injection T2 as <-.
      pose proof (i_nd _ I _ _ Hg) as Hnd. rewrite Ht in Hnd. cbn in Hnd. apply NoDup_cons_iff in Hnd. destruct Hnd as [Hnin Hnd].
      set (n := mkSl (length (m_arr st)) (length nbs)).
      pose proof (set_spec (m_arr st) s nbs S1 S2) as Hset. cbn zeta in Hset. fold n in Hset.
      destruct (set_links (m_arr st ++ [nbs]) s n) as [m' s'] eqn:Es. cbn [fst snd] in Hset.
      destruct Hset as (A & B & L & D & E).
      set (G0 := mkAd (g_own G) (g_id G) todo None (g_log G) (g_eps G)).
      set (st0 := mkM (m_arr st) (m_objs st) (upd (m_add st) g G0)).
      assert (Lg : g < length (m_add st)) by (apply nth_error_Some; congruence).
      assert (I0 : inv st0).
      { eapply inv_adder; eauto; cbn; [rewrite Ht; apply incl_tl, incl_refl|discriminate]. }
      destruct (obj_change st0 (g_own G) conns l s m' s' I0) as (J1 & J2 & J3); auto.
      { destruct A as [A1 A2 A3 A4 A5 A6]. constructor; auto.
        intros (g1 & G1 & l1 & n1 & i1 & R1 & R2 & R3). exfalso.
        destruct (reading_same st0 _ _ _ _ _ _ _ _ I0 Hs1 R1 R2 R3). cbn [m_arr st0] in *. lia. }
      { intros g1 G1 nbs1 Hg1 Eo1 Hin. exfalso.
        assert (g1 = g).
        { apply (i_own1 _ I0 g1 G1 g G0 Hg1); [unfold st0; cbn; now apply nth_error_upd_eq|exact Eo1]. }
        subst g1. unfold st0 in Hg1. cbn in Hg1. rewrite nth_error_upd_eq in Hg1 by auto. injection Hg1 as <-.
        cbn in Hin. apply Hnin. apply (in_map fst) in Hin. exact Hin. }
      cbn [m_objs m_arr m_add st0] in J1, J2, J3.
      assert (Hn : contents m' n = nbs).
      { unfold contents, n. cbn [s_arr s_len]. rewrite D. apply firstn_all. }
      set (G1 := mkAd (g_own G) (g_id G) todo (Some (l, n, 0)) (g_log G) (g_eps G)).
      split.
      + apply (inv_adder _ g G0 G1) in J1; cbn [m_add m_arr m_objs] in *; auto.
        * rewrite upd_twice in J1. exact J1.
        * apply nth_error_upd_eq. auto.
        * apply incl_refl.
        * intros l0 n0 i0 X. injection X as <- <- <-. split; [cbn; lia|]. split; [unfold cap, n; cbn [s_arr s_len]; now rewrite D|].
          intros o' l' s1 Hs2 Ea. unfold obj_at in Hs2. cbn [m_objs] in Hs2. rewrite nth_error_upd in Hs2.
          destruct (Nat.eqb_spec (g_own G) o') as [<-|No].
          -- destruct (Nat.ltb (g_own G) (length (m_objs st))); [|discriminate].
             rewrite nth_error_upd in Hs2. destruct (Nat.eqb_spec l l') as [<-|Nl].
             ++ destruct (Nat.ltb l (length conns)); [|discriminate]. injection Hs2 as <-.
                destruct E as [[-> E]|E]; [|cbn in Ea; lia]. split; auto. cbn. lia.
             ++ exfalso. destruct (i_in _ I (g_own G) l' s1); [unfold obj_at; now rewrite Ho|]. cbn in Ea. lia.
          -- exfalso. destruct (i_in _ I o' l' s1); [exact Hs2|]. cbn in Ea. lia.
      + unfold view. cbn [m_arr m_objs m_add]. f_equal.
        * rewrite J2, B. reflexivity.
        * rewrite !upd_map in J3. rewrite upd_map.
          apply (f_equal (fun v => upd v g (view_add m' G1))) in J3. rewrite !upd_twice in J3. rewrite J3.
          f_equal. unfold view_add, G1. cbn. now rewrite Hn.
  Qed.

  (* ---------------------------------------------------------------- *)
  (** New and loaded vertices. *)
  Lemma fresh_spec : forall k l base,
    let r := fresh_lists M l k base in
    length (fst r) = k /\ length (snd r) = k /\
    (forall j, j < k -> nth_error (snd r) j = Some (mkSl (base + j) 0) /\ length (nth j (fst r) []) = max_links (l + j)).
  Proof.
    induction k as [|k IH]; intros l base; cbn; [split; [auto|split; [auto|intros; lia]]|].
    specialize (IH (S l) (S base)). destruct (fresh_lists M (S l) k (S base)) as [m c]. cbn in *.
    destruct IH as (A & B & C). split; [auto|]. split; [auto|].
    intros j Hj. split; destruct j as [|j]; cbn.
    - now rewrite Nat.add_0_r.
    - destruct (C j) as [C1 _]; [lia|]. rewrite C1. rewrite Nat.add_succ_r. reflexivity.
    - rewrite repeat_length. now rewrite Nat.add_0_r.
    - destruct (C j) as [_ C2]; [lia|]. rewrite C2, Nat.add_succ_r. reflexivity.
  Qed.

  Lemma load_spec : forall ls base j t,
    nth_error (load_lists ls base) j = Some t ->
    exists x, nth_error ls j = Some x /\ t = mkSl (base + j) (length (fst x)).
  Proof.
    induction ls as [|x ls IH]; intros base j t H; [destruct j; discriminate|]. destruct j as [|j]; cbn in *.
    - injection H as <-. exists x. rewrite Nat.add_0_r. auto.
    - apply IH in H. destruct H as (y & H1 & ->). exists y. split; auto. f_equal. lia.
  Qed.

  Lemma new_obj_ok st ms c :
    inv st -> length c = length ms ->
    (forall j t, nth_error c j = Some t -> s_arr t = length (m_arr st) + j /\ s_len t <= length (nth j ms [])) ->
    inv (mkM (m_arr st ++ ms) (m_objs st ++ [c]) (m_add st)).
  Proof.
    intros I Lc Hc. apply inv_extend; auto.
    - rewrite app_length. lia.
    - intros o l t H. unfold obj_at in *. cbn [m_objs]. destruct (nth_error (m_objs st) o) as [x|] eqn:E; [|discriminate].
      rewrite nth_error_app1 by (apply nth_error_Some; congruence). now rewrite E.
    - assert (Hx : forall o l t, obj_at (mkM (m_arr st ++ ms) (m_objs st ++ [c]) (m_add st)) o l = Some t ->
               (o < length (m_objs st) /\ obj_at st o l = Some t) \/ (o = length (m_objs st) /\ nth_error c l = Some t)).
      { intros o l t H. unfold obj_at in *. cbn [m_objs] in H. destruct (Nat.lt_ge_cases o (length (m_objs st))) as [L|L].
        - rewrite nth_error_app1 in H by auto. auto.
        - rewrite nth_error_app2 in H by auto. destruct (o - length (m_objs st)) as [|k] eqn:E.
          + cbn in H. right. split; auto. lia.
          + destruct k; discriminate. }
      intros o l t H. destruct (Hx _ _ _ H) as [[_ H']|(-> & H')]; auto. right.
      destruct (Hc _ _ H') as [C1 C2].
      assert (Ll : l < length ms) by (rewrite <- Lc; apply nth_error_Some; congruence).
      rewrite app_length, C1. split; [lia|]. split; [lia|]. split.
      + unfold cap, arr. rewrite C1, app_nth2, Nat.add_comm, Nat.add_sub by lia. exact C2.
      + intros o' l' t' H2 E. destruct (Hx _ _ _ H2) as [[_ H3]|(-> & H3)].
        * destruct (i_in _ I _ _ _ H3). lia.
        * split; auto. destruct (Hc _ _ H3). lia.
  Qed.

  Lemma step_ok st e :
    inv st -> ev_ok M e -> inv (mem_step M st e) /\ view (mem_step M st e) = val_step M (view st) e.
  Proof.
    intros I He. destruct e as [id t script|ls|g o sel].
    - cbn [mem_step val_step ev_ok] in *. destruct He as [Hnd Hok].
      pose proof (fresh_spec (S t) 0 (length (m_arr st))) as F. cbn zeta in F.
      destruct (fresh_lists M 0 (S t) (length (m_arr st))) as [m c]. cbn [fst snd] in F. destruct F as (F1 & F2 & F3).
      assert (I1 : inv (mkM (m_arr st ++ m) (m_objs st ++ [c]) (m_add st))).
      { apply new_obj_ok; auto; [congruence|]. intros j s Hj.
        assert (j < S t) by (rewrite <- F2; apply nth_error_Some; congruence).
        destruct (F3 j) as [E _]; auto. rewrite E in Hj. injection Hj as <-. cbn. lia. }
      split.
      + apply (inv_new_adder _ (mkAd (length (m_objs st)) id script None [] [])) in I1; cbn [g_own g_todo g_cur m_arr m_objs m_add] in *; auto.
        * intros l nbs Hin. rewrite Forall_forall in Hok. apply Hok in Hin. cbn in Hin. destruct Hin as [L1 L2].
          split; auto. destruct (F3 l) as [E1 E2]; [lia|]. exists (mkSl (length (m_arr st) + l) 0). split.
          -- unfold obj_at. cbn [m_objs]. rewrite nth_error_app2, Nat.sub_diag by auto. exact E1.
          -- unfold cap, arr. cbn [s_arr]. rewrite app_nth2, Nat.add_comm, Nat.add_sub by lia. exact E2.
        * rewrite app_length. cbn. lia.
        * intros g1 G1 Hg1. pose proof (i_own _ I _ _ Hg1). lia.
      + unfold view. cbn [m_arr m_objs m_add vs_objs vs_add]. rewrite !map_app, view_objs_app, view_add_app, map_length by auto.
        f_equal. f_equal. cbn [map]. f_equal. apply list_ext. intros j. rewrite nth_error_map.
        destruct (Nat.lt_ge_cases j (S t)) as [L|L].
        * destruct (F3 j L) as [E _]. rewrite E. cbn [option_map]. symmetry. apply nth_error_repeat. exact L.
        * rewrite (proj2 (nth_error_None c j)) by lia. symmetry. apply nth_error_None. rewrite repeat_length. auto.
    - cbn [mem_step val_step ev_ok] in *.
      set (ms := map (fun x : list N * list N => fst x ++ snd x) ls).
      assert (Hc : forall j t, nth_error (load_lists ls (length (m_arr st))) j = Some t ->
                s_arr t = length (m_arr st) + j /\ exists x, nth_error ls j = Some x /\ nth j ms [] = fst x ++ snd x /\ s_len t = length (fst x)).
      { intros j t H. apply load_spec in H. destruct H as (x & Hx & ->). split; auto. exists x. split; auto. split; auto.
        unfold ms. apply nth_error_nth. now rewrite nth_error_map, Hx. }
      assert (Ll : forall ls b, length (load_lists ls b) = length ls) by (induction ls0; cbn; auto).
      split.
      + apply new_obj_ok; auto; [unfold ms; rewrite map_length; apply Ll|].
        intros j t H. destruct (Hc _ _ H) as (A & x & _ & B & C). split; auto. rewrite B, C, app_length. lia.
      + unfold view. cbn [m_arr m_objs m_add vs_objs vs_add]. rewrite !map_app, view_objs_app, view_add_app by auto. f_equal. f_equal.
        cbn [map]. f_equal. apply list_ext. intros j. rewrite !nth_error_map.
        destruct (nth_error (load_lists ls (length (m_arr st))) j) as [t|] eqn:E.
        * destruct (Hc _ _ E) as (A & x & Hx & B & C). rewrite Hx. cbn [option_map]. f_equal.
          unfold contents, arr. rewrite A, C, app_nth2, Nat.add_comm, Nat.add_sub, B by lia.
          rewrite firstn_app, Nat.sub_diag. cbn. rewrite app_nil_r. apply firstn_all.
        * apply nth_error_None in E. rewrite Ll in E. rewrite (proj2 (nth_error_None ls j)) by auto. reflexivity.
    - apply go_ok; auto.
  Qed.

  Lemma run_ok : forall evs st, inv st -> Forall (ev_ok M) evs ->
    inv (fold_left (mem_step M) evs st) /\ view (fold_left (mem_step M) evs st) = fold_left (val_step M) evs (view st).
  Proof.
    induction evs as [|e evs IH]; intros st I H; [auto|]. apply Forall_cons_iff in H. destruct H as [He H].
    destruct (step_ok st e I He) as [I1 V1]. cbn [fold_left]. rewrite <- V1. now apply IH.
  Qed.

  Lemma inv_empty : inv (mkM [] [] []).
  Proof.
    constructor; unfold obj_at; cbn; intros.
    - destruct o; discriminate.
    - destruct o; discriminate.
    - destruct g; discriminate.
    - destruct g; discriminate.
    - destruct g; discriminate.
    - destruct g; discriminate.
    - destruct g; discriminate.
  Qed.

  Theorem mem_is_val evs : Forall (ev_ok M) evs -> view (mem_run M evs) = val_run M evs.
  Proof. intros H. exact (proj2 (run_ok evs _ inv_empty H)). Qed.

  Theorem mem_inv evs : Forall (ev_ok M) evs -> inv (mem_run M evs).
  Proof. intros H. exact (proj1 (run_ok evs _ inv_empty H)). Qed.
End Proofs.
