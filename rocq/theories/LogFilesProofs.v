(** The directory of commit logs: what a start-up sees, before and after
    combining and condensing. *)
From Coq Require Import Sorted.
From Verif Require Import Base CommitLog CommitLogFacts CommitLogReplay CommitLogEffect
  CommitLogCondense LogFiles.

(** ** Names and contents *)

Lemma fname_eqb_spec a b : reflect (a = b) (fname_eqb a b).
Proof.
  destruct a as [ta ka], b as [tb kb]. unfold fname_eqb. cbn.
  destruct (N.eqb_spec ta tb) as [->|Hne]; cbn.
  - destruct ka, kb; cbn; constructor; congruence.
  - constructor. congruence.
Qed.

Lemma fname_eqb_refl a : fname_eqb a a = true.
Proof. destruct (fname_eqb_spec a a); congruence. Qed.

Lemma dget_ddel f g d : dget f (ddel g d) = if fname_eqb f g then None else dget f d.
Proof.
  unfold ddel. induction d as [|[h c] d IH]; cbn; [now destruct (fname_eqb f g)|].
  destruct (fname_eqb_spec g h) as [->|Hgh]; cbn.
  - rewrite IH. now destruct (fname_eqb f h).
  - rewrite IH. destruct (fname_eqb_spec f h) as [->|Hfh]; [|reflexivity].
    destruct (fname_eqb_spec h g); congruence.
Qed.

Lemma dget_dput f g c d : dget f (dput g c d) = if fname_eqb f g then Some c else dget f d.
Proof. unfold dput. cbn. rewrite dget_ddel. now destruct (fname_eqb f g). Qed.

Lemma map_fst_ddel g d : map fst (ddel g d) = filter (fun f => negb (fname_eqb g f)) (map fst d).
Proof.
  unfold ddel. induction d as [|[h c] d IH]; cbn; [reflexivity|]. destruct (fname_eqb g h); cbn; now rewrite IH.
Qed.

Definition dirok (d : dir) : Prop := NoDup (map fst d).

Lemma dirok_ddel g d : dirok d -> dirok (ddel g d).
Proof. intros H. unfold dirok. rewrite map_fst_ddel. now apply NoDup_filter. Qed.

Lemma dirok_dput g c d : dirok d -> dirok (dput g c d).
Proof.
  intros H. unfold dirok, dput. cbn. constructor; [|now apply dirok_ddel].
  rewrite map_fst_ddel. intros Hin. apply filter_In in Hin as [_ Hin]. now rewrite fname_eqb_refl in Hin.
Qed.

Lemma dget_in f d : dget f d <> None <-> In f (map fst d).
Proof.
  induction d as [|[h c] d IH]; cbn; [tauto|]. destruct (fname_eqb_spec f h) as [->|Hne].
  - split; [now left|congruence].
  - rewrite IH. split; [now right|]. intros [->|H]; [congruence|exact H].
Qed.

Definition live (f : fname) : bool :=
  match snd f with Plain | Condensed => true | _ => false end.

(** What a start-up reads under a name. *)
Definition hidden (d : dir) (f : fname) : bool :=
  (kind_eqb (snd f) Condensed && match dget (fst f, Plain) d with Some _ => true | None => false end)%bool.
Definition seen (d : dir) (f : fname) : option (list N) :=
  if (live f && negb (hidden d f))%bool then dget f d else None.

(** ** Logs *)

Definition log : Type := list (fname * list lop).

Fixpoint lget (f : fname) (lg : log) : option (list lop) :=
  match lg with
  | [] => None
  | (g, os) :: lg => if fname_eqb f g then Some os else lget f lg
  end.

Definition earlier (a b : fname) : Prop := (fst a < fst b)%N.

(** The start-up reads the logs [lg], in this order. *)
Record shows (d : dir) (lg : log) : Prop := {
  sh_dir : dirok d;
  sh_seen : forall f, seen d f = option_map encode_all (lget f lg);
  sh_sorted : StronglySorted earlier (map fst lg);
  sh_ok : Forall (fun fo => Forall op_ok (snd fo) /\ Forall op_mem (snd fo)) lg
}.

(** No file is hidden. *)
Definition no_hidden (d : dir) : Prop :=
  forall t, dget (t, Plain) d <> None -> dget (t, Condensed) d = None.

Definition sorts (srt : list fname -> list fname) : Prop :=
  forall l, Permutation (srt l) l /\ StronglySorted (fun a b => (fst a <= fst b)%N) (srt l).

Lemma lget_in f lg : lget f lg <> None <-> In f (map fst lg).
Proof.
  induction lg as [|[h c] d IH]; cbn; [tauto|]. destruct (fname_eqb_spec f h) as [->|Hne].
  - split; [now left|congruence].
  - rewrite IH. split; [now right|]. intros [->|H]; [congruence|exact H].
Qed.

Lemma sorted_head_notin a l : StronglySorted earlier (a :: l) -> ~ In a l.
Proof.
  intros H Hin. inversion H; subst. apply (proj1 (Forall_forall _ _) H3) in Hin. unfold earlier in Hin. lia.
Qed.

Lemma earlier_nodup l : StronglySorted earlier l -> NoDup l.
Proof.
  induction l as [|a l IH]; intros H; constructor.
  - now apply sorted_head_notin.
  - apply IH. now inversion H.
Qed.

Lemma sorted_unique : forall l2 l1, StronglySorted (fun a b => (fst a <= fst b)%N) l1 ->
  StronglySorted earlier l2 -> Permutation l1 l2 -> l1 = l2.
Proof.
  induction l2 as [|b l2 IH]; intros l1 H1 H2 Hp.
  - now apply Permutation_sym, Permutation_nil in Hp.
  - destruct l1 as [|a l1]; [now apply Permutation_nil in Hp|].
    inversion H1; inversion H2; subst.
    assert (a = b).
    { destruct (fname_eqb_spec a b) as [|Hne]; [assumption|]. exfalso.
      assert (Ha : In a l2).
      { assert (Hi : In a (b :: l2)) by (apply (Permutation_in _ Hp); now left).
        destruct Hi as [->|Hi]; [congruence|exact Hi]. }
      assert (Hb : In b l1).
      { assert (Hi : In b (a :: l1)) by (apply (Permutation_in _ (Permutation_sym Hp)); now left).
        destruct Hi as [->|Hi]; [congruence|exact Hi]. }
      apply (proj1 (Forall_forall _ _) H8) in Ha. apply (proj1 (Forall_forall _ _) H4) in Hb.
      unfold earlier in Ha. lia. }
    subst b. rewrite (IH l1); auto. now apply Permutation_cons_inv in Hp.
Qed.

Lemma sorted_filter (p : fname -> bool) l : StronglySorted (fun a b => (fst a <= fst b)%N) l ->
  StronglySorted (fun a b => (fst a <= fst b)%N) (filter p l).
Proof.
  induction l as [|a l IH]; cbn; intros H; [constructor|]. inversion H; subst.
  destruct (p a); [|auto]. constructor; [auto|]. apply Forall_forall. intros x Hx.
  apply filter_In in Hx as [Hx _]. now apply (proj1 (Forall_forall _ _) H3).
Qed.

(** ** Start-up *)

Definition lives (d : dir) : list fname := remove_tmp_scratch (map fst (remove_tmp_combining d)).

Lemma map_fst_tmp d : map fst (remove_tmp_combining d)
  = filter (fun f => negb (kind_eqb (snd f) CombinedTmp)) (map fst d).
Proof.
  unfold remove_tmp_combining. induction d as [|[h c] d IH]; cbn; [reflexivity|]. destruct (negb _); cbn; now rewrite IH.
Qed.

Lemma lives_in d f : In f (lives d) <-> live f = true /\ dget f d <> None.
Proof.
  unfold lives, remove_tmp_scratch. rewrite map_fst_tmp, filter_In, filter_In, dget_in.
  unfold live. destruct f as [t []]; cbn; intuition congruence.
Qed.

Lemma lives_nodup d : dirok d -> NoDup (lives d).
Proof. intros H. unfold lives, remove_tmp_scratch. rewrite map_fst_tmp. now apply NoDup_filter, NoDup_filter. Qed.

Lemma dget_tmp f d : live f = true -> dget f (remove_tmp_combining d) = dget f d.
Proof.
  intros Hl. unfold remove_tmp_combining. induction d as [|[h c] d IH]; cbn; [reflexivity|].
  destruct (kind_eqb (snd h) CombinedTmp) eqn:E; cbn.
  - rewrite IH. destruct (fname_eqb_spec f h) as [->|]; [|reflexivity].
    unfold live in Hl. destruct (snd h); discriminate.
  - now rewrite IH.
Qed.

Lemma corrupt_hidden d names f : live f = true -> (forall g, In g names <-> In g (lives d)) ->
  corrupt names f = hidden d f.
Proof.
  intros Hl Hn. unfold corrupt, hidden. destruct (kind_eqb (snd f) Condensed); [cbn|reflexivity].
  destruct (existsb (fname_eqb (fst f, Plain)) names) eqn:E.
  - apply existsb_exists in E as (x & Hx & He). apply Hn, lives_in in Hx as [_ Hx].
    destruct (fname_eqb_spec (fst f, Plain) x) as [<-|]; [|discriminate].
    now destruct (dget (fst f, Plain) d).
  - destruct (dget (fst f, Plain) d) eqn:Ed; [|reflexivity]. exfalso.
    assert (existsb (fname_eqb (fst f, Plain)) names = true); [|congruence].
    apply existsb_exists. exists (fst f, Plain). split; [|apply fname_eqb_refl].
    apply Hn, lives_in. split; [reflexivity|congruence].
Qed.

Lemma fix_dir_get names f : forall l d, corrupt names f = false ->
  dget f (fold_left (fun d f => if corrupt names f then ddel f d else d) l d) = dget f d.
Proof.
  induction l as [|g l IH]; intros d Hc; [reflexivity|]. cbn. rewrite IH by exact Hc.
  destruct (corrupt names g) eqn:E; [|reflexivity]. rewrite dget_ddel.
  destruct (fname_eqb_spec f g) as [->|]; [congruence|reflexivity].
Qed.

Lemma replay_logs d : forall lg st, len_ok st ->
  (forall f os, In (f, os) lg -> dget f d = Some (encode_all os)) ->
  Forall (fun fo => Forall op_ok (snd fo) /\ Forall op_mem (snd fo)) lg ->
  exists st', apply_all false (flat_map snd lg) st = Ok st'
    /\ replay d (map fst lg) st = Ok st'.
Proof.
  induction lg as [|[f os] lg IH]; intros st Hl Hg Hok.
  - exists st. split; reflexivity.
  - inversion Hok as [|? ? [Ho Hm] Hok']; subst. cbn [snd] in Ho, Hm.
    destruct (apply_all_ok false os st Hm Hl) as (s1 & E1 & Hl1).
    destruct (IH s1 Hl1) as (s2 & E2 & R2); [intros; apply Hg; now right|exact Hok'|].
    exists s2. cbn [flat_map snd map fst replay]. rewrite apply_all_app, E1. cbn [bind].
    split; [exact E2|]. rewrite (Hg f os) by now left.
    rewrite <- (app_nil_r (encode_all os)), deserialize_ops, E1, deserialize_nil by exact Ho.
    exact R2.
Qed.

Lemma lget_of_in f os lg : NoDup (map fst lg) -> In (f, os) lg -> lget f lg = Some os.
Proof.
  induction lg as [|[g o] lg IH]; cbn; [intros _ []|]. intros Hnd. inversion Hnd; subst.
  intros [[= -> ->]|Hin]; [now rewrite fname_eqb_refl|].
  destruct (fname_eqb_spec f g) as [->|]; [|auto]. exfalso. apply H1.
  change g with (fst (g, os)). now apply in_map.
Qed.

Lemma shows_in d lg f os : shows d lg -> In (f, os) lg ->
  live f = true /\ hidden d f = false /\ dget f d = Some (encode_all os).
Proof.
  intros Hs Hin. pose proof (sh_seen _ _ Hs f) as H.
  rewrite (lget_of_in f os lg) in H; [|apply earlier_nodup, (sh_sorted _ _ Hs)|exact Hin].
  unfold seen in H. cbn in H. destruct (live f); [|discriminate]. cbn in H.
  destruct (hidden d f); [discriminate|]. auto.
Qed.

(** What the listing and the fixer return. *)
Lemma fixed_names srt d lg : sorts srt -> shows d lg -> fix_names (srt (lives d)) = map fst lg.
Proof.
  intros Hsrt Hs. destruct (Hsrt (lives d)) as [Hp Hso].
  assert (Hmem : forall g, In g (srt (lives d)) <-> In g (lives d)).
  { intros g. split; apply Permutation_in; [exact Hp|now apply Permutation_sym]. }
  apply sorted_unique; [now apply sorted_filter|exact (sh_sorted _ _ Hs)|].
  apply NoDup_Permutation.
  - apply NoDup_filter. apply (Permutation_NoDup (Permutation_sym Hp)). apply lives_nodup, (sh_dir _ _ Hs).
  - apply earlier_nodup, (sh_sorted _ _ Hs).
  - intros f. unfold fix_names. rewrite filter_In, Hmem, <- lget_in.
    pose proof (sh_seen _ _ Hs f) as H. split.
    + intros [Hin Hc]. pose proof (proj1 (lives_in d f) Hin) as [Hl Hd].
      rewrite (corrupt_hidden d _ f Hl Hmem) in Hc. unfold seen in H. rewrite Hl, Hc in H. cbn in H.
      destruct (lget f lg); [congruence|]. cbn in H. congruence.
    + intros Hlg. destruct (lget f lg) as [os|] eqn:E; [|congruence]. cbn in H. unfold seen in H.
      destruct (live f) eqn:El; [|discriminate]. cbn in H. destruct (hidden d f) eqn:Eh; [discriminate|].
      cbn in H. split; [apply lives_in; split; [exact El|congruence]|].
      now rewrite (corrupt_hidden d _ f El Hmem), Eh.
Qed.

Lemma restore_shows srt d lg : sorts srt -> shows d lg ->
  exists st, apply_all false (flat_map snd lg) ls_init = Ok st /\ restore srt d = Ok st.
Proof.
  intros Hsrt Hs.
  destruct (replay_logs (fix_dir (srt (lives d)) (remove_tmp_combining d)) lg ls_init init_len_ok) as (st & E & R).
  - intros f os Hin. destruct (shows_in d lg f os Hs Hin) as (Hl & Hh & Hd).
    unfold fix_dir. rewrite fix_dir_get; [now rewrite dget_tmp|].
    rewrite (corrupt_hidden d); auto. intros g. destruct (Hsrt (lives d)) as [Hp _].
    split; apply Permutation_in; [exact Hp|now apply Permutation_sym].
  - exact (sh_ok _ _ Hs).
  - exists st. split; [exact E|]. unfold restore, get_names. fold (lives d).
    now rewrite (fixed_names srt d lg Hsrt Hs).
Qed.

(** ** Combining *)

Lemma clean_not_hidden d f : no_hidden d -> dget f d <> None -> hidden d f = false.
Proof.
  intros Hn Hd. unfold hidden. destruct f as [t k]. cbn. destruct k; cbn; auto.
  destruct (dget (t, Plain) d) eqn:E; [|reflexivity]. exfalso. apply Hd, Hn. congruence.
Qed.

Lemma filter_all {A} (p : A -> bool) l : (forall x, In x l -> p x = true) -> filter p l = l.
Proof.
  induction l as [|a l IH]; intros H; [reflexivity|]. cbn. rewrite H by now left. f_equal.
  apply IH. intros; apply H; now right.
Qed.

(** The listing without hidden files. *)
Lemma clean_names srt d lg : sorts srt -> shows d lg -> no_hidden d -> srt (lives d) = map fst lg.
Proof.
  intros Hsrt Hs Hn. rewrite <- (fixed_names srt d lg Hsrt Hs). destruct (Hsrt (lives d)) as [Hp _].
  assert (Hmem : forall g, In g (srt (lives d)) <-> In g (lives d)).
  { intros g. split; apply Permutation_in; [exact Hp|now apply Permutation_sym]. }
  unfold fix_names. symmetry.
  assert (Hall : forall f, In f (srt (lives d)) -> negb (corrupt (srt (lives d)) f) = true).
  { intros f Hf. apply Hmem, lives_in in Hf as [Hl Hd].
    rewrite (corrupt_hidden d _ f Hl Hmem), clean_not_hidden; auto. }
  now apply filter_all.
Qed.

Lemma shows_tmp d lg : shows d lg -> shows (remove_tmp_combining d) lg.
Proof.
  intros Hs. constructor.
  - unfold dirok. rewrite map_fst_tmp. apply NoDup_filter, (sh_dir _ _ Hs).
  - intros f. rewrite <- (sh_seen _ _ Hs f). unfold seen.
    destruct (live f) eqn:El; [|reflexivity]. cbn. unfold hidden. rewrite dget_tmp by reflexivity.
    now rewrite dget_tmp by exact El.
  - exact (sh_sorted _ _ Hs).
  - exact (sh_ok _ _ Hs).
Qed.

Lemma no_hidden_tmp d : no_hidden d -> no_hidden (remove_tmp_combining d).
Proof. intros H t. rewrite !dget_tmp by reflexivity. apply H. Qed.

(** Two neighbouring logs are found. *)
Lemma first_match_ok th d : forall lg, shows d lg -> forall lg2 pre, lg = pre ++ lg2 ->
  exists m, first_match th d (map fst lg2) = Ok m
    /\ match m with
       | None => True
       | Some (f, g) => exists a o1 o2 b, lg2 = a ++ (f, o1) :: (g, o2) :: b
                          /\ snd f = Condensed /\ snd g = Condensed
       end.
Proof.
  intros lg Hs. induction lg2 as [|[f o1] lg2 IH]; intros pre Heq.
  - exists None. split; reflexivity.
  - assert (Hrec : exists m, first_match th d (map fst lg2) = Ok m
              /\ match m with
                 | None => True
                 | Some (f0, g) => exists a o1' o2 b, (f, o1) :: lg2 = a ++ (f0, o1') :: (g, o2) :: b
                                    /\ snd f0 = Condensed /\ snd g = Condensed
                 end).
    { destruct (IH (pre ++ [(f, o1)])) as (m & E & Hm); [now rewrite <- app_assoc|].
      exists m. split; [exact E|]. destruct m as [[f0 g0]|]; [|exact I].
      destruct Hm as (a & p1 & p2 & b & -> & H). exists ((f, o1) :: a), p1, p2, b. split; [reflexivity|exact H]. }
    cbn [map fst first_match]. destruct (kind_eqb (snd f) Condensed) eqn:Ef; cbn [negb]; [|exact Hrec].
    destruct lg2 as [|[g o2] lg2]; cbn [map fst] in *.
    + exists None. split; [reflexivity|exact I].
    + destruct (kind_eqb (snd g) Condensed) eqn:Eg; cbn [negb]; [|exact Hrec].
      destruct (shows_in d lg f o1 Hs) as (_ & _ & D1); [rewrite Heq; apply in_or_app; right; now left|].
      destruct (shows_in d lg g o2 Hs) as (_ & _ & D2);
        [rewrite Heq; apply in_or_app; right; right; now left|].
      rewrite D1, D2. destruct (_ <? _)%N; [exact Hrec|]. destruct (_ <? _)%N; [exact Hrec|].
      exists (Some (f, g)). split; [reflexivity|]. exists [], o1, o2, lg2.
      split; [reflexivity|]. split; [now destruct (snd f)|now destruct (snd g)].
Qed.

Lemma lget_app f a b : lget f (a ++ b) = match lget f a with Some o => Some o | None => lget f b end.
Proof.
  induction a as [|[g o] a IH]; cbn; [reflexivity|]. now destruct (fname_eqb f g).
Qed.

Lemma sorted_mid a f g b : StronglySorted earlier (a ++ f :: g :: b) ->
  (forall x, In x a -> (fst x < fst f)%N) /\ (fst f < fst g)%N /\ (forall x, In x b -> (fst g < fst x)%N)
  /\ forall h, fst h = fst f -> StronglySorted earlier (a ++ h :: b)
                                /\ StronglySorted earlier (a ++ h :: g :: b).
Proof.
  induction a as [|x a IH]; cbn [app]; intros H.
  - inversion H as [|? ? H2 H3]; subst. inversion H2 as [|? ? H4 H5]; subst. inversion H3; subst.
    split; [intros x []|]. split; [assumption|].
    split; [intros x Hx; now apply (proj1 (Forall_forall _ _) H5)|].
    intros h Hh. split; constructor; auto.
    + apply Forall_forall. intros x Hx. unfold earlier. rewrite Hh.
      apply (proj1 (Forall_forall _ _) H7) in Hx. exact Hx.
    + apply Forall_forall. intros x Hx. unfold earlier. rewrite Hh.
      apply (proj1 (Forall_forall _ _) H3) in Hx. exact Hx.
  - inversion H as [|? ? H2 H3]; subst. destruct (IH H2) as (I1 & I2 & I3 & I4).
    split; [|split; [assumption|split; [assumption|]]].
    + intros y [<-|Hy]; [|auto]. apply (proj1 (Forall_forall _ _) H3 f). apply in_or_app. right. now left.
    + intros h Hh. destruct (I4 h Hh) as [J1 J2].
      assert (Hx : earlier x h).
      { unfold earlier. rewrite Hh. apply (proj1 (Forall_forall _ _) H3 f). apply in_or_app. right. now left. }
      split; constructor; auto; apply Forall_forall; intros y Hy; apply in_app_or in Hy as [Hy|[<-|Hy]];
        auto; apply (proj1 (Forall_forall _ _) H3); apply in_or_app; auto; right; right; auto.
      now right.
Qed.

Lemma lget_none_ts f lg : (forall x, In x (map fst lg) -> fst x <> fst f) -> lget f lg = None.
Proof.
  intros H. destruct (lget f lg) as [o|] eqn:E; [|reflexivity]. exfalso.
  assert (Hin : In f (map fst lg)) by (apply lget_in; congruence). now apply (H f Hin).
Qed.

Lemma lget_skip h a mid b : (forall x, In x (map fst mid) -> fst x <> fst h) ->
  lget h (a ++ mid ++ b) = lget h (a ++ b).
Proof. intros H. now rewrite !lget_app, (lget_none_ts h mid H). Qed.

Lemma lget_only h a mid b : (forall x, In x (map fst a) -> fst x <> fst h) ->
  (forall x, In x (map fst b) -> fst x <> fst h) -> lget h (a ++ mid ++ b) = lget h mid.
Proof.
  intros H1 H2. rewrite !lget_app, (lget_none_ts h a H1), (lget_none_ts h b H2).
  now destruct (lget h mid).
Qed.

(** Two directories that agree on the live names of a time stamp. *)
Lemma seen_same d d' h : (forall k, live (fst h, k) = true -> dget (fst h, k) d' = dget (fst h, k) d) ->
  seen d' h = seen d h.
Proof.
  intros H. destruct h as [t k]. cbn [fst] in H. unfold seen, hidden. cbn [fst snd].
  rewrite (H Plain) by reflexivity. destruct (live (t, k)) eqn:E; [|reflexivity]. now rewrite (H k E).
Qed.

Lemma seen_at d t x y : dget (t, Plain) d = x -> dget (t, Condensed) d = y -> forall k,
  seen d (t, k) = match k with
                  | Plain => x
                  | Condensed => match x with Some _ => None | None => y end
                  | _ => None
                  end.
Proof.
  intros <- <- k. unfold seen, hidden. destruct k; cbn; auto. now destruct (dget (t, Plain) d).
Qed.

Lemma pair_eta (f : fname) k : snd f = k -> (fst f, k) = f.
Proof. destruct f. cbn. congruence. Qed.

Section Pair.
  Variables (d : dir) (a b : log) (f g : fname) (o1 o2 : list lop).
  Hypothesis Hs : shows d (a ++ (f, o1) :: (g, o2) :: b).
  Hypothesis Hn : no_hidden d.
  Hypothesis Hf : snd f = Condensed.
  Hypothesis Hg : snd g = Condensed.

  Let c := encode_all (o1 ++ o2).

  Lemma pair_order : (forall x, In x (map fst a) -> (fst x < fst f)%N) /\ (fst f < fst g)%N
    /\ (forall x, In x (map fst b) -> (fst g < fst x)%N)
    /\ forall h, fst h = fst f -> StronglySorted earlier (map fst a ++ h :: map fst b)
                                  /\ StronglySorted earlier (map fst a ++ h :: g :: map fst b).
  Proof.
    pose proof (sh_sorted _ _ Hs) as H. rewrite map_app in H. cbn [map fst] in H. now apply sorted_mid.
  Qed.

  Lemma pair_contents : dget f d = Some (encode_all o1) /\ dget g d = Some (encode_all o2).
  Proof.
    split.
    - apply (shows_in d _ f o1 Hs). apply in_or_app. right. now left.
    - apply (shows_in d _ g o2 Hs). apply in_or_app. right. right. now left.
  Qed.

  Lemma pair_merged : merged d f g = Ok c.
  Proof.
    unfold merged, c. destruct pair_contents as [-> ->]. unfold encode_all. now rewrite flat_map_app.
  Qed.

  Lemma pair_ops : Forall (fun fo => Forall op_ok (snd fo) /\ Forall op_mem (snd fo)) a
    /\ Forall op_ok o1 /\ Forall op_mem o1 /\ Forall op_ok o2 /\ Forall op_mem o2
    /\ Forall (fun fo => Forall op_ok (snd fo) /\ Forall op_mem (snd fo)) b.
  Proof.
    pose proof (sh_ok _ _ Hs) as H. apply Forall_app in H as [Ha H]. inversion H as [|? ? [] H']; subst.
    inversion H' as [|? ? [] ?]; subst. auto 10.
  Qed.

  Lemma pair_plain : dget (fst f, Plain) d = None /\ dget (fst g, Plain) d = None.
  Proof.
    destruct pair_contents as [Df Dg]. destruct f as [tf kf], g as [tg kg]. cbn in *. subst kf kg.
    split.
    - destruct (dget (tf, Plain) d) eqn:E; [|reflexivity].
      assert (H : dget (tf, Condensed) d = None) by (apply Hn; congruence). congruence.
    - destruct (dget (tg, Plain) d) eqn:E; [|reflexivity].
      assert (H : dget (tg, Condensed) d = None) by (apply Hn; congruence). congruence.
  Qed.

  (** While the temporary file is written. *)
  Lemma pair_in_merge x : shows (dput (tmp_name f) x d) (a ++ (f, o1) :: (g, o2) :: b).
  Proof.
    constructor; try apply Hs.
    - apply dirok_dput, Hs.
    - intros h. rewrite <- (sh_seen _ _ Hs h). apply seen_same. intros k Hl. rewrite dget_dput.
      destruct (fname_eqb_spec (fst h, k) (tmp_name f)) as [E|]; [|reflexivity].
      injection E as _ ->. discriminate.
  Qed.

  Definition after_rename : dir := renamed (dput (tmp_name f) c d) f c.

  Lemma after_rename_get h : live h = true ->
    dget h after_rename = if fname_eqb h (final_name f) then Some c else dget h d.
  Proof.
    intros Hl. unfold after_rename, renamed. rewrite dget_dput, dget_ddel, dget_dput.
    destruct (fname_eqb h (final_name f)); [reflexivity|].
    destruct (fname_eqb_spec h (tmp_name f)) as [->|]; [discriminate|reflexivity].
  Qed.

  Lemma after_rename_ok : dirok after_rename.
  Proof. apply dirok_dput, dirok_ddel, dirok_dput, Hs. Qed.

  (** The names of the resulting directories. *)
  Lemma pair_shows d' mid :
    dirok d' ->
    (forall h, live h = true -> fst h <> fst f -> fst h <> fst g -> dget h d' = dget h d) ->
    (forall h, fst h = fst f \/ fst h = fst g -> seen d' h = option_map encode_all (lget h mid)) ->
    StronglySorted earlier (map fst (a ++ mid ++ b)) ->
    Forall (fun fo => Forall op_ok (snd fo) /\ Forall op_mem (snd fo)) mid ->
    (forall x, In x (map fst mid) -> fst x = fst f \/ fst x = fst g) ->
    shows d' (a ++ mid ++ b).
  Proof.
    intros H1 H2 H3 H4 H5 H6. destruct pair_order as (Oa & Ofg & Ob & _).
    destruct pair_ops as (Pa & _ & _ & _ & _ & Pb).
    constructor; auto.
    - intros h. destruct (N.eq_dec (fst h) (fst f)) as [Ef|Ef].
      { rewrite lget_only; [apply H3; now left| |].
        - intros x Hx. apply Oa in Hx. lia.
        - intros x Hx. apply Ob in Hx. lia. }
      destruct (N.eq_dec (fst h) (fst g)) as [Eg|Eg].
      { rewrite lget_only; [apply H3; now right| |].
        - intros x Hx. apply Oa in Hx. lia.
        - intros x Hx. apply Ob in Hx. lia. }
      rewrite lget_skip; [|intros x Hx; apply H6 in Hx as [->| ->]; congruence].
      rewrite (seen_same d d' h); [|intros k Hl; now apply H2].
      rewrite (sh_seen _ _ Hs h).
      change ((f, o1) :: (g, o2) :: b) with ([(f, o1); (g, o2)] ++ b). rewrite lget_skip; [reflexivity|].
      cbn. intros x [<-|[<-|[]]]; congruence.
    - apply Forall_app. split; [exact Pa|]. apply Forall_app. auto.
  Qed.

  Lemma pair_mid_ok : Forall op_ok (o1 ++ o2) /\ Forall op_mem (o1 ++ o2).
  Proof. destruct pair_ops as (_ & ? & ? & ? & ? & _). split; apply Forall_app; auto. Qed.

  (** The live names of the two time stamps after the rename. *)
  Lemma after_rename_at :
    dget (fst f, Plain) after_rename = Some c /\ dget (fst f, Condensed) after_rename = Some (encode_all o1)
    /\ dget (fst g, Plain) after_rename = None /\ dget (fst g, Condensed) after_rename = Some (encode_all o2).
  Proof.
    destruct pair_order as (_ & Ofg & _). destruct pair_contents as [Df Dg]. destruct pair_plain as [Pf Pg].
    rewrite <- (pair_eta f Condensed Hf) in Df. rewrite <- (pair_eta g Condensed Hg) in Dg.
    rewrite !after_rename_get by reflexivity. unfold final_name, fname_eqb. cbn [fst snd kind_eqb andb].
    rewrite N.eqb_refl, (proj2 (N.eqb_neq (fst g) (fst f))) by lia. cbn [andb]. auto.
  Qed.

  Lemma after_rename_elsewhere h : live h = true -> fst h <> fst f -> dget h after_rename = dget h d.
  Proof.
    intros Hl H. rewrite after_rename_get by exact Hl. destruct (fname_eqb_spec h (final_name f)) as [->|]; [|reflexivity].
    cbn in H. congruence.
  Qed.

  Lemma two_logs (h : fname) (o : list lop) : fst h = fst f \/ fst h = fst g ->
    lget h [(final_name f, o); (g, o2)]
    = match snd h with
      | Plain => if N.eqb (fst h) (fst f) then Some o else None
      | Condensed => if N.eqb (fst h) (fst f) then None else Some o2
      | _ => None
      end.
  Proof.
    destruct pair_order as (_ & Ofg & _). intros H. cbn [lget].
    unfold fname_eqb, final_name. cbn [fst snd]. rewrite Hg.
    destruct H as [->| ->].
    - rewrite N.eqb_refl, (proj2 (N.eqb_neq (fst f) (fst g))) by lia. now destruct (snd h).
    - rewrite N.eqb_refl, (proj2 (N.eqb_neq (fst g) (fst f))) by lia. now destruct (snd h).
  Qed.

  Lemma one_log (h : fname) (o : list lop) : fst h = fst f \/ fst h = fst g ->
    lget h [(final_name f, o)]
    = match snd h with
      | Plain => if N.eqb (fst h) (fst f) then Some o else None
      | _ => None
      end.
  Proof.
    intros _. cbn [lget]. unfold fname_eqb, final_name. cbn [fst snd].
    destruct (snd h); cbn; rewrite ?andb_true_r, ?andb_false_r; reflexivity.
  Qed.

  Lemma pair_after_rename :
    shows after_rename (a ++ [(final_name f, o1 ++ o2); (g, o2)] ++ b).
  Proof.
    destruct pair_order as (Oa & Ofg & Ob & Osort).
    destruct after_rename_at as (A1 & A2 & A3 & A4).
    apply pair_shows.
    - apply after_rename_ok.
    - intros. now apply after_rename_elsewhere.
    - intros h H. rewrite two_logs by exact H. destruct h as [t k]. cbn [fst snd] in *.
      destruct H as [->| ->].
      + rewrite (seen_at _ _ _ _ A1 A2), N.eqb_refl. now destruct k.
      + rewrite (seen_at _ _ _ _ A3 A4), (proj2 (N.eqb_neq (fst g) (fst f))) by lia. now destruct k.
    - rewrite !map_app. cbn [map fst app]. now apply (Osort (final_name f)).
    - destruct pair_mid_ok, pair_ops as (_ & _ & _ & ? & ? & _). repeat constructor; auto.
    - cbn. intros x [<-|[<-|[]]]; auto.
  Qed.

  Lemma pair_after_first_removal :
    shows (ddel f after_rename) (a ++ [(final_name f, o1 ++ o2); (g, o2)] ++ b).
  Proof.
    destruct pair_order as (Oa & Ofg & Ob & Osort).
    destruct after_rename_at as (A1 & A2 & A3 & A4).
    assert (B : forall t k, (t, k) <> f -> dget (t, k) (ddel f after_rename) = dget (t, k) after_rename).
    { intros t k H. rewrite dget_ddel. now destruct (fname_eqb_spec (t, k) f). }
    assert (Ne : forall t k, (t <> fst f \/ k <> snd f) -> (t, k) <> f).
    { intros t k H E. rewrite <- E in H. cbn in H. tauto. }
    apply pair_shows.
    - apply dirok_ddel, after_rename_ok.
    - intros h Hl H1 H2. rewrite <- (after_rename_elsewhere h) by auto. destruct h as [t k].
      apply B, Ne. now left.
    - intros h H. rewrite two_logs by exact H. destruct h as [t k]. cbn [fst snd] in *.
      destruct H as [->| ->].
      + rewrite N.eqb_refl, (seen_at _ _ (Some c) None).
        * now destruct k.
        * rewrite B; [exact A1|]. apply Ne. right. rewrite Hf. discriminate.
        * rewrite dget_ddel. destruct (fname_eqb_spec (fst f, Condensed) f) as [|E]; [reflexivity|].
          exfalso. apply E, pair_eta, Hf.
      + rewrite (proj2 (N.eqb_neq (fst g) (fst f))) by lia.
        rewrite (seen_at _ _ None (Some (encode_all o2))).
        * now destruct k.
        * rewrite B; [exact A3|]. apply Ne. left. lia.
        * rewrite B; [exact A4|]. apply Ne. left. lia.
    - rewrite !map_app. cbn [map fst app]. now apply (Osort (final_name f)).
    - destruct pair_mid_ok, pair_ops as (_ & _ & _ & ? & ? & _). repeat constructor; auto.
    - cbn. intros x [<-|[<-|[]]]; auto.
  Qed.

  Lemma pair_done :
    shows (ddel g (ddel f after_rename)) (a ++ [(final_name f, o1 ++ o2)] ++ b)
    /\ no_hidden (ddel g (ddel f after_rename)).
  Proof.
    destruct pair_order as (Oa & Ofg & Ob & Osort).
    destruct after_rename_at as (A1 & A2 & A3 & A4).
    assert (B : forall t k, (t, k) <> f -> (t, k) <> g ->
              dget (t, k) (ddel g (ddel f after_rename)) = dget (t, k) after_rename).
    { intros t k H1 H2. rewrite !dget_ddel. destruct (fname_eqb_spec (t, k) f); [congruence|].
      now destruct (fname_eqb_spec (t, k) g). }
    assert (Nef : forall t k, (t <> fst f \/ k <> snd f) -> (t, k) <> f).
    { intros t k H E. rewrite <- E in H. cbn in H. tauto. }
    assert (Neg : forall t k, (t <> fst g \/ k <> snd g) -> (t, k) <> g).
    { intros t k H E. rewrite <- E in H. cbn in H. tauto. }
    assert (C1 : dget (fst f, Plain) (ddel g (ddel f after_rename)) = Some c).
    { rewrite B; [exact A1| |]; [apply Nef|apply Neg]; right; rewrite ?Hf, ?Hg; discriminate. }
    assert (C2 : dget (fst f, Condensed) (ddel g (ddel f after_rename)) = None).
    { rewrite !dget_ddel. destruct (fname_eqb_spec (fst f, Condensed) f) as [|E];
        [now destruct (fname_eqb _ g)|]. exfalso. apply E, pair_eta, Hf. }
    assert (C3 : dget (fst g, Plain) (ddel g (ddel f after_rename)) = None).
    { rewrite B; [exact A3| |]; [apply Nef|apply Neg]; right; rewrite ?Hf, ?Hg; discriminate. }
    assert (C4 : dget (fst g, Condensed) (ddel g (ddel f after_rename)) = None).
    { rewrite !dget_ddel. destruct (fname_eqb_spec (fst g, Condensed) g) as [|E]; [reflexivity|].
      exfalso. apply E, pair_eta, Hg. }
    assert (C5 : forall t k, live (t, k) = true -> t <> fst f -> t <> fst g ->
              dget (t, k) (ddel g (ddel f after_rename)) = dget (t, k) d).
    { intros t k Hl H1 H2. rewrite B; [now apply after_rename_elsewhere| |]; [apply Nef|apply Neg]; now left. }
    split.
    - apply pair_shows.
      + apply dirok_ddel, dirok_ddel, after_rename_ok.
      + intros [t k] Hl H1 H2. now apply C5.
      + intros h H. rewrite one_log by exact H. destruct h as [t k]. cbn [fst snd] in *.
        destruct H as [->| ->].
        * rewrite N.eqb_refl, (seen_at _ _ _ _ C1 C2). now destruct k.
        * rewrite (proj2 (N.eqb_neq (fst g) (fst f))) by lia. rewrite (seen_at _ _ _ _ C3 C4). now destruct k.
      + rewrite !map_app. cbn [map fst app]. now apply (Osort (final_name f)).
      + destruct pair_mid_ok. repeat constructor; auto.
      + cbn. intros x [<-|[]]; auto.
    - intros t. destruct (N.eq_dec t (fst f)) as [->|H1]; [now intros|].
      destruct (N.eq_dec t (fst g)) as [->|H2]; [now intros|].
      rewrite !C5 by (auto; reflexivity). apply Hn.
  Qed.
End Pair.

(** Combining makes no condensed logs. *)
Definition from (lg lg' : log) : Prop :=
  forall g o, snd g = Condensed -> In (g, o) lg' -> In (g, o) lg.

Lemma from_pair a f g o1 o2 b : from (a ++ (f, o1) :: (g, o2) :: b) (a ++ [(final_name f, o1 ++ o2); (g, o2)] ++ b).
Proof.
  intros h o Hh Hin. apply in_app_or in Hin as [Hin|[E|[E|Hin]]]; apply in_or_app; auto.
  - injection E as E1 _. subst h. discriminate.
  - right. right. now left.
  - right. right. now right.
Qed.

Lemma from_one a f g o1 o2 b : from (a ++ (f, o1) :: (g, o2) :: b) (a ++ [(final_name f, o1 ++ o2)] ++ b).
Proof.
  intros h o Hh Hin. apply (from_pair a f g o1 o2 b); auto.
  apply in_app_or in Hin as [Hin|[E|Hin]]; apply in_or_app; auto; right; cbn; auto.
Qed.

(** Combining keeps what a start-up reads. *)
Lemma combine_until_shows srt th : sorts srt -> forall j d lg, shows d lg -> no_hidden d ->
  forall k, exists d' lg', combine_until j k srt th d = Ok d' /\ shows d' lg' /\ from lg lg'
    /\ (flat_map snd lg' = flat_map snd lg
        \/ ((k = AfterRename \/ k = AfterFirstRemoval)
            /\ exists a o1 o2 b g, snd g = Condensed /\ In (g, o2) lg
                 /\ flat_map snd lg = a ++ o1 ++ o2 ++ b
                 /\ flat_map snd lg' = a ++ (o1 ++ o2) ++ o2 ++ b)).
Proof.
  intros Hsrt. induction j as [|j IH]; intros d lg Hs Hn k; cbn [combine_until]; unfold get_names;
    fold (lives d); rewrite (clean_names srt d lg Hsrt Hs Hn);
    pose proof (shows_tmp d lg Hs) as Hs'; pose proof (no_hidden_tmp d Hn) as Hn';
    destruct (first_match_ok th (remove_tmp_combining d) lg Hs' lg [] eq_refl) as (m & -> & Hm);
    cbn [bind]; (destruct m as [[f g]|];
      [|exists (remove_tmp_combining d), lg; split; [reflexivity|]; split; [exact Hs'|]; split; [now intros h o|now left]]);
    destruct Hm as (a & o1 & o2 & b & -> & Hf & Hg).
  - unfold combine_crash. rewrite (pair_merged _ a b f g o1 o2 Hs'). cbn [bind].
    assert (Htwice : exists a0 p1 p2 b0 g0, snd g0 = Condensed /\ In (g0, p2) (a ++ (f, o1) :: (g, o2) :: b)
       /\ flat_map snd (a ++ (f, o1) :: (g, o2) :: b) = a0 ++ p1 ++ p2 ++ b0
       /\ flat_map snd (a ++ [(final_name f, o1 ++ o2); (g, o2)] ++ b) = a0 ++ (p1 ++ p2) ++ p2 ++ b0).
    { exists (flat_map snd a), o1, o2, (flat_map snd b), g. split; [exact Hg|].
      split; [apply in_or_app; right; right; now left|].
      split; rewrite !flat_map_app; cbn; now rewrite ?app_nil_r, <- ?app_assoc. }
    destruct k as [n| |]; eexists.
    + exists (a ++ (f, o1) :: (g, o2) :: b). split; [reflexivity|].
      split; [now apply pair_in_merge|]. split; [now intros h o|now left].
    + exists (a ++ [(final_name f, o1 ++ o2); (g, o2)] ++ b). split; [reflexivity|].
      split; [now apply pair_after_rename|]. split; [apply from_pair|]. right. auto.
    + exists (a ++ [(final_name f, o1 ++ o2); (g, o2)] ++ b). split; [reflexivity|].
      split; [now apply pair_after_first_removal|]. split; [apply from_pair|]. right. auto.
  - unfold combine. rewrite (pair_merged _ a b f g o1 o2 Hs'). cbn [bind].
    destruct (pair_done _ a b f g o1 o2 Hs' Hn' Hf Hg) as [Hs2 Hn2]. unfold after_rename in Hs2, Hn2.
    destruct (IH _ _ Hs2 Hn2 k) as (d' & lg' & E & Hs3 & Hfr & Hl). rewrite E.
    assert (Hcat : flat_map snd (a ++ [(final_name f, o1 ++ o2)] ++ b)
                   = flat_map snd (a ++ (f, o1) :: (g, o2) :: b)).
    { rewrite !flat_map_app. cbn. now rewrite app_nil_r, <- !app_assoc. }
    pose proof (from_one a f g o1 o2 b) as Hone.
    rewrite Hcat in Hl. exists d', lg'. split; [reflexivity|]. split; [exact Hs3|].
    split; [intros h o Hh Hin; apply Hone; auto|].
    destruct Hl as [Hl|(Hk & a' & p1 & p2 & b' & g' & Hg' & Hin & H1 & H2)]; [now left|]. right.
    split; [exact Hk|]. exists a', p1, p2, b', g'. split; [exact Hg'|]. split; [|auto]. now apply Hone.
Qed.

Lemma combine_all_shows srt th : sorts srt -> forall fuel ex d lg, shows d lg -> no_hidden d ->
  length lg < fuel ->
  exists ex' d' lg', combine_all fuel srt th ex d = Ok (ex', d') /\ shows d' lg' /\ no_hidden d'
    /\ flat_map snd lg' = flat_map snd lg.
Proof.
  intros Hsrt. induction fuel as [|fuel IH]; intros ex d lg Hs Hn Hlt; [lia|].
  cbn [combine_all]. unfold get_names. fold (lives d). rewrite (clean_names srt d lg Hsrt Hs Hn).
  pose proof (shows_tmp d lg Hs) as Hs'. pose proof (no_hidden_tmp d Hn) as Hn'.
  destruct (first_match_ok th (remove_tmp_combining d) lg Hs' lg [] eq_refl) as (m & -> & Hm).
  cbn [bind]. destruct m as [[f g]|]; [|exists ex, (remove_tmp_combining d), lg; auto].
  destruct Hm as (a & o1 & o2 & b & -> & Hf & Hg).
  unfold combine. rewrite (pair_merged _ a b f g o1 o2 Hs'). cbn [bind].
  destruct (pair_done _ a b f g o1 o2 Hs' Hn' Hf Hg) as [Hs2 Hn2]. unfold after_rename in Hs2, Hn2.
  destruct (IH true _ _ Hs2 Hn2) as (ex' & d' & lg' & E & Hs3 & Hn3 & Hl).
  { rewrite !app_length in *. cbn in *. lia. }
  rewrite E. exists ex', d', lg'. split; [reflexivity|]. split; [exact Hs3|]. split; [exact Hn3|].
  rewrite Hl. rewrite !flat_map_app. cbn. now rewrite app_nil_r, <- !app_assoc.
Qed.
