(** Start-ups after crashes; condensing in the directory. *)
From Coq Require Import Permutation Sorted.
From Verif Require Import Base CommitLog CommitLogFacts CommitLogReplay CommitLogEffect
  CommitLogCondense LogFiles LogFilesProofs LogIdem LogOver.

(** ** The directory after a start-up *)

Lemma fix_dir_gone names f : forall l d, In f l -> corrupt names f = true ->
  dget f (fold_left (fun d f => if corrupt names f then ddel f d else d) l d) = None.
Proof.
  induction l as [|g l IH]; intros d Hin Hc; [destruct Hin|]. cbn.
  destruct (fname_eqb_spec f g) as [<-|Hne].
  - rewrite Hc. clear - Hc.
    assert (Hnone : forall l d, dget f d = None ->
      dget f (fold_left (fun d f => if corrupt names f then ddel f d else d) l d) = None).
    { induction l0 as [|g l0 IH0]; intros d0 H; [exact H|]. cbn. apply IH0.
      destruct (corrupt names g); [|exact H]. rewrite dget_ddel. now destruct (fname_eqb f g). }
    apply Hnone. now rewrite dget_ddel, fname_eqb_refl.
  - apply IH; [|exact Hc]. destruct Hin as [->|]; [congruence|assumption].
Qed.

Lemma fix_dir_ok names : forall l d, dirok d ->
  dirok (fold_left (fun d f => if corrupt names f then ddel f d else d) l d).
Proof.
  induction l as [|g l IH]; intros d H; [exact H|]. cbn. apply IH.
  destruct (corrupt names g); [now apply dirok_ddel|exact H].
Qed.

Lemma restart_shows srt d lg : sorts srt -> shows d lg ->
  shows (restart_dir srt d) lg /\ no_hidden (restart_dir srt d).
Proof.
  intros Hsrt Hs. unfold restart_dir, get_names. fold (lives d).
  destruct (Hsrt (lives d)) as [Hp _].
  assert (Hmem : forall g, In g (srt (lives d)) <-> In g (lives d)).
  { intros g. split; apply Permutation_in; [exact Hp|now apply Permutation_sym]. }
  assert (Hget : forall f, live f = true -> dget f (fix_dir (srt (lives d)) (remove_tmp_combining d))
                   = if hidden d f then None else dget f d).
  { intros f Hl. rewrite <- (corrupt_hidden d (srt (lives d)) f Hl Hmem). unfold fix_dir.
    destruct (corrupt (srt (lives d)) f) eqn:E.
    - destruct (dget f d) eqn:Ed.
      + apply fix_dir_gone; [|exact E]. apply Hmem, lives_in. split; [exact Hl|congruence].
      + assert (Hnone : forall l d0, dget f d0 = None ->
          dget f (fold_left (fun e f => if corrupt (srt (lives d)) f then ddel f e else e) l d0) = None).
        { induction l as [|g l IH]; intros d0 H; [exact H|]. cbn. apply IH.
          destruct (corrupt _ g); [|exact H]. rewrite dget_ddel. now destruct (fname_eqb f g). }
        apply Hnone. now rewrite dget_tmp.
    - rewrite fix_dir_get by exact E. now apply dget_tmp. }
  split.
  - constructor; try apply Hs.
    + apply fix_dir_ok. apply (sh_dir _ _ (shows_tmp d lg Hs)).
    + intros f. rewrite <- (sh_seen _ _ Hs f). unfold seen.
      destruct (live f) eqn:El; cbn [andb]; [|reflexivity].
      assert (Hh : hidden (fix_dir (srt (lives d)) (remove_tmp_combining d)) f = hidden d f).
      { unfold hidden. destruct (kind_eqb (snd f) Condensed); cbn [andb]; [|reflexivity].
        rewrite Hget by reflexivity. now unfold hidden at 1. }
      rewrite Hh, (Hget f El). now destruct (hidden d f).
  - intros t Hd. rewrite Hget in Hd |- * by reflexivity. unfold hidden in *. cbn in *.
    now destruct (dget (t, Plain) d).
Qed.

(** ** Crashes of the combiner *)

Lemma crash_runs_shows srt th : sorts srt -> forall cs d lg, shows d lg -> no_hidden d ->
  (forall f os, In (f, os) lg -> snd f = Condensed -> Forall sets os) ->
  exists d' lg' st st', crash_runs cs srt th d = Ok d' /\ shows d' lg'
    /\ apply_all false (flat_map snd lg) ls_init = Ok st
    /\ apply_all false (flat_map snd lg') ls_init = Ok st' /\ same_index st st'.
Proof.
  intros Hsrt. induction cs as [|[j k] cs IH]; intros d lg Hs Hn Hset.
  - destruct (restore_shows srt d lg Hsrt Hs) as (st & E & _).
    exists d, lg, st, st. split; [reflexivity|]. split; [exact Hs|]. split; [exact E|].
    split; [exact E|apply same_index_refl].
  - cbn [crash_runs].
    destruct (combine_until_shows srt th Hsrt j d lg Hs Hn k) as (d1 & lg1 & E1 & Hs1 & Hfr & Hcase).
    rewrite E1. cbn [bind]. destruct (restart_shows srt d1 lg1 Hsrt Hs1) as [Hs2 Hn2].
    destruct (IH _ lg1 Hs2 Hn2) as (d' & lg' & st1 & st' & E & Hs' & A1 & A2 & Hsame).
    { intros f os Hin Hf. apply (Hset f); auto. }
    destruct (restore_shows srt d lg Hsrt Hs) as (st & A0 & _).
    exists d', lg', st, st'. split; [exact E|]. split; [exact Hs'|]. split; [exact A0|].
    split; [exact A2|]. apply (same_index_trans st st1); [|exact Hsame].
    destruct Hcase as [Hcat|(_ & a & o1 & o2 & b & g & Hg & Hin & H1 & H2)].
    + rewrite Hcat in A1. assert (st = st1) by congruence. subst st1. apply same_index_refl.
    + pose proof (sh_ok _ _ Hs) as Hops.
      assert (Hall : Forall op_mem (flat_map snd lg)).
      { apply Forall_forall. intros o Ho. apply in_flat_map in Ho as (x & Hx & Ho).
        apply (proj1 (Forall_forall _ _) Hops) in Hx as [_ Hx]. now apply (proj1 (Forall_forall _ _) Hx). }
      rewrite H1 in A0, Hall. rewrite H2 in A1.
      apply Forall_app in Hall as [Ma Hall]. apply Forall_app in Hall as [M1 Hall].
      apply Forall_app in Hall as [M2 Mb].
      rewrite apply_all_app in A0. apply bind_ok in A0 as (sa & Ea & A0).
      rewrite apply_all_app, Ea in A1. cbn [bind] in A1.
      rewrite <- app_assoc in A1.
      rewrite apply_all_app in A0. apply bind_ok in A0 as (s1 & E1' & A0).
      rewrite apply_all_app, E1' in A1. cbn [bind] in A1.
      rewrite apply_all_app in A0. apply bind_ok in A0 as (s2 & E2' & A0).
      rewrite apply_all_app, E2' in A1. cbn [bind] in A1.
      destruct (apply_all_slice a ls_init sa Ma init_in_slice init_len_ok Ea) as [Sa La].
      destruct (apply_all_slice o1 sa s1 M1 Sa La E1') as [S1 L1].
      destruct (apply_all_slice o2 s1 s2 M2 S1 L1 E2') as [S2 L2].
      destruct (replay_twice o2 s1 s2 (Hset g o2 Hin Hg) M2 L1 E2') as (s3 & E3 & Hs3).
      rewrite apply_all_app, E3 in A1. cbn [bind] in A1.
      destruct (apply_all_slice o2 s2 s3 M2 S2 L2 E3) as [S3 L3].
      destruct (apply_all_same b s2 s3 Mb S2 S3 L2 L3 Hs3) as (x & y & X1 & X2 & Hxy). congruence.
Qed.

(** ** Condensing *)

Lemma condense_candidate_in (lg : log) : Forall (fun fo => live (fst fo) = true) lg ->
  match condense_candidate (map fst lg) with
  | None => True
  | Some f => exists a os b, lg = a ++ (f, os) :: b /\ b <> [] /\ snd f = Plain
                /\ Forall (fun go : fname * list lop => snd (fst go) = Condensed) a
  end.
Proof.
  induction lg as [|[g os] lg IH]; intros Hl; [exact I|]. inversion Hl; subst. cbn [map fst condense_candidate].
  destruct lg as [|x lg]; [exact I|]. cbn [map] in *.
  destruct (kind_eqb (snd g) Condensed) eqn:E.
  - specialize (IH H2). destruct (condense_candidate (fst x :: map fst lg)); [|exact I].
    destruct IH as (a & o & b & E1 & H3 & H4 & H5). exists ((g, os) :: a), o, b. rewrite E1.
    split; [reflexivity|]. split; [exact H3|]. split; [exact H4|]. constructor; [|exact H5]. cbn.
    now destruct (snd g).
  - exists [], os, (x :: lg). split; [reflexivity|]. split; [discriminate|]. split; [|constructor].
    cbn in H1. unfold live in H1. now destruct (snd g).
Qed.

Section One.
  Variables (d : dir) (a b : log) (f : fname) (os : list lop).
  Hypothesis Hs : shows d (a ++ (f, os) :: b).
  Hypothesis Hn : no_hidden d.
  Hypothesis Hf : snd f = Plain.
  Let g : fname := (fst f, Condensed).

  Lemma one_get : dget f d = Some (encode_all os) /\ dget g d = None.
  Proof.
    assert (H : dget f d = Some (encode_all os)).
    { apply (shows_in d _ f os Hs). apply in_or_app. right. now left. }
    split; [exact H|]. apply Hn. rewrite (pair_eta f Plain Hf). congruence.
  Qed.

  Lemma one_order : (forall x, In x (map fst a) -> (fst x < fst f)%N)
    /\ (forall x, In x (map fst b) -> (fst f < fst x)%N)
    /\ StronglySorted earlier (map fst a ++ g :: map fst b).
  Proof.
    pose proof (sh_sorted _ _ Hs) as H. rewrite map_app in H. cbn [map fst] in H.
    revert H. generalize (map fst a), (map fst b). intros la lb. induction la as [|x la IH]; cbn [app]; intros H.
    - inversion H as [|? ? H2 H3]; subst. split; [intros x []|].
      split; [intros x Hx; exact (proj1 (Forall_forall _ _) H3 x Hx)|]. constructor; assumption.
    - inversion H as [|? ? H2 H3]; subst. destruct (IH H2) as (I1 & I2 & I3).
      assert (Hx : earlier x f).
      { apply (proj1 (Forall_forall _ _) H3). apply in_or_app. right. now left. }
      split; [intros y [<-|Hy]; [exact Hx|now apply I1]|]. split; [exact I2|].
      constructor; [exact I3|]. apply Forall_forall. intros y Hy.
      apply in_app_or in Hy as [Hy|[<-|Hy]].
      + apply (proj1 (Forall_forall _ _) H3). apply in_or_app. now left.
      + exact Hx.
      + apply (proj1 (Forall_forall _ _) H3). apply in_or_app. right. now right.
  Qed.

  (** While the condensed file is written it is hidden by the original. *)
  Lemma one_crash x : shows (dput g x d) (a ++ (f, os) :: b).
  Proof.
    destruct one_get as [Df Dg]. constructor; try apply Hs.
    - apply dirok_dput, Hs.
    - intros h. rewrite <- (sh_seen _ _ Hs h). unfold seen, hidden. rewrite !dget_dput.
      assert (E : fname_eqb (fst h, Plain) g = false).
      { unfold g, fname_eqb. cbn. apply andb_false_r. }
      rewrite E. destruct (fname_eqb_spec h g) as [->|]; [|reflexivity].
      cbn [fst snd g]. change (fst g) with (fst f). rewrite (pair_eta f Plain Hf), Df. now rewrite !andb_false_r.
  Qed.

  Lemma one_done cs : Forall op_ok cs -> Forall op_mem cs ->
    shows (ddel f (dput g (encode_all cs) d)) (a ++ (g, cs) :: b)
    /\ no_hidden (ddel f (dput g (encode_all cs) d)).
  Proof.
    intros Ho Hm. destruct one_get as [Df Dg]. destruct one_order as (Oa & Ob & Osort).
    assert (Hfg : f <> g) by (intros E; rewrite E in Hf; discriminate).
    assert (C1 : dget (fst f, Plain) (ddel f (dput g (encode_all cs) d)) = None).
    { rewrite (pair_eta f Plain Hf), dget_ddel, fname_eqb_refl. reflexivity. }
    assert (C2 : dget (fst f, Condensed) (ddel f (dput g (encode_all cs) d)) = Some (encode_all cs)).
    { fold g. rewrite dget_ddel, dget_dput, fname_eqb_refl.
      destruct (fname_eqb_spec g f); [congruence|reflexivity]. }
    assert (C3 : forall h, fst h <> fst f -> dget h (ddel f (dput g (encode_all cs) d)) = dget h d).
    { intros h Hh. rewrite dget_ddel, dget_dput. destruct (fname_eqb_spec h f) as [->|]; [congruence|].
      destruct (fname_eqb_spec h g) as [->|]; [cbn in Hh; congruence|reflexivity]. }
    split.
    - constructor.
      + apply dirok_ddel, dirok_dput, Hs.
      + intros h. destruct (N.eq_dec (fst h) (fst f)) as [E|E].
        * change ((g, cs) :: b) with ([(g, cs)] ++ b). rewrite lget_only.
          2:{ intros x Hx. apply Oa in Hx. lia. }
          2:{ intros x Hx. apply Ob in Hx. lia. }
          destruct h as [t k]. cbn [fst] in E. subst t. rewrite (seen_at _ _ _ _ C1 C2). cbn [lget].
          unfold fname_eqb, g. cbn [fst snd]. rewrite N.eqb_refl. now destruct k.
        * rewrite (seen_same d _ h); [|intros k _; now apply C3].
          rewrite (sh_seen _ _ Hs h). f_equal.
          change ((f, os) :: b) with ([(f, os)] ++ b). change ((g, cs) :: b) with ([(g, cs)] ++ b).
          rewrite !lget_skip; [reflexivity| |]; cbn; intros x [<-|[]]; cbn; congruence.
      + rewrite map_app. exact Osort.
      + pose proof (sh_ok _ _ Hs) as H. apply Forall_app in H as [Ha H]. inversion H; subst.
        apply Forall_app. split; [exact Ha|]. constructor; auto.
    - intros t. destruct (N.eq_dec t (fst f)) as [->|H]; [congruence|].
      rewrite !C3 by (cbn; exact H). apply Hn.
  Qed.
End One.

Lemma shows_live d lg : shows d lg -> Forall (fun fo => live (fst fo) = true) lg.
Proof.
  intros Hs. apply Forall_forall. intros [f os] Hin. now apply (shows_in d lg f os Hs).
Qed.

Lemma log_state d lg1 lg2 : shows d (lg1 ++ lg2) ->
  exists st, apply_all false (flat_map snd lg1) ls_init = Ok st /\ in_slice st /\ len_ok st.
Proof.
  intros Hs. pose proof (sh_ok _ _ Hs) as H. apply Forall_app in H as [H _].
  assert (Hm : Forall op_mem (flat_map snd lg1)).
  { apply Forall_forall. intros o Ho. apply in_flat_map in Ho as (x & Hx & Ho).
    apply (proj1 (Forall_forall _ _) H) in Hx as [_ Hx]. now apply (proj1 (Forall_forall _ _) Hx). }
  destruct (apply_all_ok false _ ls_init Hm init_len_ok) as (st & E & _).
  exists st. split; [exact E|]. now apply (apply_all_slice (flat_map snd lg1) ls_init st Hm init_in_slice init_len_ok).
Qed.

(** Condensing one log keeps what a start-up restores. *)
Lemma condense_old_shows srt ord d lg : sorts srt -> (forall l t, In t (ord l) <-> In t l) ->
  shows d lg -> no_hidden d ->
  (forall a f os b st, lg = a ++ (f, os) :: b -> snd f = Plain -> b <> [] ->
     Forall (fun go : fname * list lop => snd (fst go) = Condensed) a ->
     apply_all false (flat_map snd a) ls_init = Ok st -> additive os st /\ own_short os) ->
  exists d' lg' st st', condense_old None ord srt d = Ok d' /\ shows d' lg' /\ no_hidden d'
    /\ apply_all false (flat_map snd lg) ls_init = Ok st
    /\ apply_all false (flat_map snd lg') ls_init = Ok st' /\ same_index st st'
    /\ length lg' = length lg
    /\ (forall a f os b, lg = a ++ (f, os) :: b -> snd f = Plain -> b <> [] ->
          Forall (fun go : fname * list lop => snd (fst go) = Condensed) a ->
          exists cs, lg' = a ++ ((fst f, Condensed), cs) :: b).
Proof.
  intros Hsrt Hord Hs Hn Hadd. unfold condense_old, get_names. fold (lives d).
  rewrite (clean_names srt d lg Hsrt Hs Hn).
  pose proof (shows_tmp d lg Hs) as Hs'. pose proof (no_hidden_tmp d Hn) as Hn'.
  pose proof (condense_candidate_in lg (shows_live d lg Hs)) as Hc.
  destruct (restore_shows srt d lg Hsrt Hs) as (st & A0 & _).
  assert (Hfirst : forall a f os b, lg = a ++ (f, os) :: b -> snd f = Plain -> b <> [] ->
            Forall (fun go : fname * list lop => snd (fst go) = Condensed) a -> condense_candidate (map fst lg) = Some f).
  { intros a f os b -> Hf Hb Ha. clear - Hf Hb Ha. induction a as [|[x ox] a IH]; cbn [app map fst].
    - cbn. destruct b as [|y b]; [congruence|]. cbn. now rewrite Hf.
    - inversion Ha; subst. cbn in H1. cbn [condense_candidate]. rewrite H1. cbn [kind_eqb]. rewrite IH by assumption.
      now destruct a as [|[y oy] a]. }
  destruct (condense_candidate (map fst lg)) as [f|] eqn:Ec.
  - destruct Hc as (a & os & b & -> & Hb & Hf & Hca).
    destruct (log_state d a ((f, os) :: b) Hs) as (sa & Ea & Sa & La).
    destruct (Hadd a f os b sa eq_refl Hf Hb Hca Ea) as [Had Hsh].
    pose proof (sh_ok _ _ Hs) as Hops. apply Forall_app in Hops as [_ Hops].
    inversion Hops as [|? ? [Ho Hm] Hops']; subst. cbn [snd] in *.
    destruct (condense_over os ord sa Ho Hm Had Hsh Hord La Sa) as (cs & t & t' & C1 & C2 & C3 & C4 & C5 & C6).
    unfold condense_file. destruct (one_get _ a b f os Hs' Hn' Hf) as [-> Dg]. rewrite C1. cbv zeta.
    rewrite Dg. cbn [app].
    destruct (one_done _ a b f os Hs' Hn' Hf cs C2 C3) as [Hs2 Hn2].
    assert (Hmb : Forall op_mem (flat_map snd b)).
    { apply Forall_forall. intros o Hio. apply in_flat_map in Hio as (x & Hx & Hio).
      apply (proj1 (Forall_forall _ _) Hops') in Hx as [_ Hx]. now apply (proj1 (Forall_forall _ _) Hx). }
    destruct (apply_all_slice os sa t Hm Sa La C4) as [St Lt].
    destruct (apply_all_slice cs sa t' C3 Sa La C5) as [St' Lt'].
    destruct (apply_all_same (flat_map snd b) t t' Hmb St St' Lt Lt' C6) as (u & u' & U1 & U2 & U3).
    eexists. exists (a ++ ((fst f, Condensed), cs) :: b), u, u'. split; [reflexivity|].
    split; [exact Hs2|]. split; [exact Hn2|].
    split; [rewrite flat_map_app, apply_all_app, Ea; cbn [bind flat_map snd]; now rewrite apply_all_app, C4|].
    split; [rewrite flat_map_app, apply_all_app, Ea; cbn [bind flat_map snd]; now rewrite apply_all_app, C5|].
    split; [exact U3|]. split; [rewrite !app_length; reflexivity|].
    intros a2 f2 os2 b2 E Hf2 Hb2 Ha2.
    assert (Hff : f = f2) by (specialize (Hfirst a2 f2 os2 b2 E Hf2 Hb2 Ha2); congruence). subst f2.
    exists cs.
    assert (Hsplit : forall (x y : log) u v, NoDup (map fst (x ++ (f, os) :: u)) ->
              x ++ (f, os) :: u = y ++ (f, os2) :: v -> x = y /\ u = v).
    { induction x as [|p x IH]; intros [|q y] u0 v0 Hnd H0; cbn in *.
      - injection H0 as _ ->. auto.
      - injection H0 as <- ->. inversion Hnd as [|? ? Hni _]; subst. exfalso. apply Hni. rewrite map_app. apply in_or_app.
        right. now left.
      - injection H0 as -> <-. inversion Hnd as [|? ? Hni _]; subst. exfalso. apply Hni. rewrite map_app. apply in_or_app.
        right. now left.
      - injection H0 as <- H0. inversion Hnd as [|? ? _ Hnd']; subst. destruct (IH y u0 v0 Hnd' H0) as [-> ->]. auto. }
    destruct (Hsplit a a2 b b2) as [-> ->]; [|exact E|reflexivity].
    apply earlier_nodup, (sh_sorted _ _ Hs).
  - exists (remove_tmp_combining d), lg, st, st. split; [reflexivity|]. split; [exact Hs'|]. split; [exact Hn'|].
    split; [exact A0|]. split; [exact A0|]. split; [apply same_index_refl|]. split; [reflexivity|].
    intros a f os b E Hf Hb Ha. specialize (Hfirst a f os b E Hf Hb Ha). congruence.
Qed.

(** A crash while the condensed file is written. *)
Lemma condense_crash_shows srt ord n d lg : sorts srt -> (forall l t, In t (ord l) <-> In t l) ->
  shows d lg -> no_hidden d ->
  forall d', condense_old (Some n) ord srt d = Ok d' -> shows d' lg.
Proof.
  intros Hsrt Hord Hs Hn d'. unfold condense_old, get_names. fold (lives d).
  rewrite (clean_names srt d lg Hsrt Hs Hn).
  pose proof (shows_tmp d lg Hs) as Hs'. pose proof (no_hidden_tmp d Hn) as Hn'.
  pose proof (condense_candidate_in lg (shows_live d lg Hs)) as Hc.
  destruct (condense_candidate (map fst lg)) as [f|]; [|now intros [= <-]].
  destruct Hc as (a & os & b & -> & Hb & Hf & Hca).
  unfold condense_file. destruct (one_get _ a b f os Hs' Hn' Hf) as [-> Dg].
  destruct (condense ord (encode_all os)) as [bs|]; [|discriminate]. cbv zeta. rewrite Dg. intros [= <-].
  now apply one_crash.
Qed.
