(** Facts about the writing side of the commit log. *)
From Coq Require Import Sorted.
From Verif Require Import Base CommitLog CommitLogFacts CommitLogReplay CommitLogEffect
  CommitLogCondense LogFiles LogFilesProofs Switch.

Definition rsorts (desc : list fname -> list fname) : Prop :=
  forall l, Permutation (desc l) l /\ StronglySorted (fun a b => (fst b <= fst a)%N) (desc l).

(** ** Directories with the same files *)

Lemma dget_append f g bs d : dget f (append g bs d)
  = if fname_eqb f g then Some (match dget g d with Some c => c | None => [] end ++ bs) else dget f d.
Proof.
  unfold append. destruct (dget g d) eqn:E; rewrite dget_dput; destruct (fname_eqb_spec f g); auto.
Qed.

Lemma dirok_append g bs d : dirok d -> dirok (append g bs d).
Proof. intros H. unfold append. destruct (dget g d); now apply dirok_dput. Qed.

Lemma dget_create f g d : dget f (create g d)
  = match dget f d with Some c => Some c | None => if fname_eqb f g then Some [] else None end.
Proof.
  unfold create. destruct (dget g d) eqn:E.
  - destruct (dget f d) eqn:E2; [reflexivity|]. destruct (fname_eqb_spec f g) as [->|]; congruence.
  - rewrite dget_dput. destruct (fname_eqb_spec f g) as [->|]; [now rewrite E|now destruct (dget f d)].
Qed.

Lemma dirok_create g d : dirok d -> dirok (create g d).
Proof. intros H. unfold create. destruct (dget g d); [exact H|now apply dirok_dput]. Qed.

Lemma seen_ext d d' f : (forall g, dget g d' = dget g d) -> seen d' f = seen d f.
Proof. intros H. unfold seen, hidden. now rewrite !H. Qed.

Lemma shows_ext d d' lg : dirok d' -> (forall g, dget g d' = dget g d) -> shows d lg -> shows d' lg.
Proof.
  intros Hd He Hs. constructor; [exact Hd| |apply (sh_sorted _ _ Hs)|apply (sh_ok _ _ Hs)].
  intros f. rewrite (seen_ext d d' f He). apply (sh_seen _ _ Hs).
Qed.

Lemma append_nil_get g f d c : dget g d = Some c -> dget f (append g [] d) = dget f d.
Proof.
  intros H. rewrite dget_append. destruct (fname_eqb_spec f g) as [->|]; [|reflexivity].
  now rewrite H, app_nil_r.
Qed.

(** ** Changing the last log *)

Lemma last_nodup (a : log) f os : StronglySorted earlier (map fst (a ++ [(f, os)])) ->
  forall x, In x (map fst a) -> (fst x < fst f)%N.
Proof.
  induction a as [|[g o] a IH]; cbn; [intros _ x []|]. intros H x. inversion H as [|? ? H1 H2]; subst.
  intros [<-|Hx]; [|now apply IH].
  apply (proj1 (Forall_forall _ _) H2). rewrite map_app. apply in_or_app. right. now left.
Qed.

Lemma lget_last a f os g : (forall x, In x (map fst a) -> (fst x < fst f)%N) ->
  lget g (a ++ [(f, os)]) = if fname_eqb g f then Some os else lget g a.
Proof.
  intros H. rewrite lget_app. cbn. destruct (fname_eqb_spec g f) as [->|].
  - destruct (lget f a) eqn:E; [|reflexivity].
    assert (Hi : In f (map fst a)) by (apply lget_in; congruence). apply H in Hi. lia.
  - now destruct (lget g a).
Qed.

Lemma in_last {A} (l : list A) x : In x (l ++ [x]).
Proof. apply in_or_app. right. now left. Qed.

Lemma shows_put d a f os os' : shows d (a ++ [(f, os)]) ->
  Forall op_ok os' -> Forall op_mem os' ->
  shows (dput f (encode_all os') d) (a ++ [(f, os')]).
Proof.
  intros Hs Ho Hm.
  pose proof (last_nodup _ _ _ (sh_sorted _ _ Hs)) as Hlt.
  destruct (shows_in d _ f os Hs (in_last _ _)) as (Hl & Hh & Hg).
  constructor.
  - apply dirok_dput, (sh_dir _ _ Hs).
  - intros g. pose proof (sh_seen _ _ Hs g) as H. rewrite lget_last in * by exact Hlt.
    unfold seen in *.
    assert (Hhid : hidden (dput f (encode_all os') d) g = hidden d g).
    { unfold hidden. rewrite dget_dput. destruct (fname_eqb (fst g, Plain) f) eqn:E; [|reflexivity].
      assert (E2 : (fst g, Plain) = f) by now destruct (fname_eqb_spec (fst g, Plain) f).
      rewrite E2, Hg. reflexivity. }
    rewrite Hhid, dget_dput. destruct (fname_eqb g f) eqn:E; [|exact H].
    assert (E2 : g = f) by now destruct (fname_eqb_spec g f).
    rewrite E2, Hl, Hh. reflexivity.
  - pose proof (sh_sorted _ _ Hs) as H. rewrite map_app in *. exact H.
  - pose proof (sh_ok _ _ Hs) as H. apply Forall_app in H as [H _]. apply Forall_app. split; [exact H|].
    constructor; [split; assumption|constructor].
Qed.

(** ** The state of a logger *)

Record linv (s : clog) (a : log) (os : list lop) (c : list N) (T : N) : Prop := {
  li_shows : shows (append (cl_act s) (cl_buf s) (cl_dir s)) (a ++ [(cl_act s, os)]);
  li_get : dget (cl_act s) (cl_dir s) = Some c;
  li_ok : dirok (cl_dir s);
  li_clean : no_hidden (cl_dir s);
  li_time : forall f, live f = true -> dget f (cl_dir s) <> None ->
    (fst f <= T)%N /\ (snd f = Condensed -> (fst f < T)%N)
}.

Lemma li_bytes s a os c T : linv s a os c T -> encode_all os = c ++ cl_buf s.
Proof.
  intros H. destruct (shows_in _ _ _ os (li_shows _ _ _ _ _ H) (in_last _ _))
    as (_ & _ & Hg).
  rewrite dget_append, fname_eqb_refl, (li_get _ _ _ _ _ H) in Hg. congruence.
Qed.

Lemma li_live s a os c T : linv s a os c T -> live (cl_act s) = true.
Proof.
  intros H. now destruct (shows_in _ _ _ os (li_shows _ _ _ _ _ H) (in_last _ _)).
Qed.

Lemma li_mono s a os c T T' : linv s a os c T -> (T <= T')%N -> linv s a os c T'.
Proof.
  intros [] HT. constructor; auto. intros f H1 H2. destruct (li_time0 f H1 H2) as [H3 H4].
  split; [lia|]. intros E. specialize (H4 E). lia.
Qed.

Lemma no_hidden_keys d d' : (forall f, dget f d' <> None <-> dget f d <> None) -> no_hidden d -> no_hidden d'.
Proof.
  intros H Hn t Ht. apply H, Hn in Ht. destruct (dget (t, Condensed) d') eqn:E; [|reflexivity].
  assert (dget (t, Condensed) d' <> None) as E2 by congruence. apply H in E2. congruence.
Qed.

Lemma append_keys g bs d c f : dget g d = Some c -> dget f (append g bs d) <> None <-> dget f d <> None.
Proof.
  intros H. rewrite dget_append. destruct (fname_eqb_spec f g) as [->|]; [|tauto].
  rewrite H. intuition congruence.
Qed.

Lemma li_log s a os c T o : linv s a os c T -> op_ok o -> op_mem o ->
  linv (log_op o s) a (os ++ [o]) c T.
Proof.
  intros H Ho Hm. pose proof (li_bytes _ _ _ _ _ H) as Hb. destruct H as [Hs Hg Hd Hn Ht].
  constructor; cbn [log_op cl_act cl_buf cl_dir]; auto.
  pose proof (sh_ok _ _ Hs) as Hok. apply Forall_app in Hok as [_ Hok]. inversion Hok as [|? ? [H1 H2] _]; subst.
  cbn [snd] in H1, H2.
  refine (shows_ext _ _ _ _ _ (shows_put _ a (cl_act s) os (os ++ [o]) Hs _ _)).
  - now apply dirok_append.
  - intros g. rewrite dget_append, dget_dput, dget_append, Hg. destruct (fname_eqb g (cl_act s)); [|reflexivity].
    unfold encode_all in *. rewrite flat_map_app, Hb. cbn. now rewrite app_nil_r, app_assoc.
  - apply Forall_app. auto.
  - apply Forall_app. auto.
Qed.

Lemma li_spill s a os c T n : linv s a os c T -> linv (spill n s) a os (c ++ firstn n (cl_buf s)) T.
Proof.
  intros [Hs Hg Hd Hn Ht].
  constructor; cbn [spill cl_act cl_buf cl_dir].
  - refine (shows_ext _ _ _ _ _ Hs); [now apply dirok_append, dirok_append|].
    intros g. rewrite !dget_append, fname_eqb_refl, Hg. destruct (fname_eqb g (cl_act s)); [|reflexivity].
    now rewrite <- app_assoc, firstn_skipn.
  - now rewrite dget_append, fname_eqb_refl, Hg.
  - now apply dirok_append.
  - apply (no_hidden_keys (cl_dir s)); [|exact Hn]. intros f. now apply (append_keys _ _ _ c).
  - intros f Hl Hf. apply (append_keys (cl_act s) (firstn n (cl_buf s)) (cl_dir s) c) in Hf; auto.
Qed.

Lemma li_flush s a os c T : linv s a os c T ->
  linv (flush_log s) a os (c ++ cl_buf s) T /\ cl_buf (flush_log s) = [].
Proof.
  intros H. split.
  - unfold flush_log. rewrite <- (firstn_all (cl_buf s)) at 2. now apply li_spill.
  - unfold flush_log, spill. cbn. apply skipn_all.
Qed.

(** The names in the directory are those of the logs. *)
Lemma li_lives s a os c T f : linv s a os c T ->
  live f = true -> dget f (cl_dir s) <> None -> In f (map fst (a ++ [(cl_act s, os)])).
Proof.
  intros [Hs Hg Hd Hn Ht] Hl Hf. apply lget_in. pose proof (sh_seen _ _ Hs f) as H.
  unfold seen in H. rewrite Hl in H. rewrite clean_not_hidden in H.
  - cbn [andb negb] in H. rewrite dget_append in H. destruct (lget f _); [discriminate|]. cbn in H.
    destruct (fname_eqb f (cl_act s)); [discriminate|congruence].
  - apply (no_hidden_keys (cl_dir s)); [|exact Hn]. intros g. now apply (append_keys _ _ _ c).
  - now apply (append_keys _ _ _ c).
Qed.

Lemma li_max s a os c T f : linv s a os c T ->
  live f = true -> dget f (cl_dir s) <> None -> f = cl_act s \/ (fst f < fst (cl_act s))%N.
Proof.
  intros H Hl Hf. pose proof (li_lives _ _ _ _ _ _ H Hl Hf) as Hin.
  rewrite map_app in Hin. apply in_app_or in Hin as [Hin|[<-|[]]]; [|now left].
  right. exact (last_nodup _ _ _ (sh_sorted _ _ (li_shows _ _ _ _ _ H)) f Hin).
Qed.

(** Switching at a time not before any file. *)
Lemma li_switch s a os c T now : linv s a os c T -> cl_buf s = [] -> (T <= now)%N ->
  let s' := mkCL (create (now, Plain) (cl_dir s)) (now, Plain) [] in
  (linv s' a os c now /\ cl_act s = (now, Plain) /\ s' = mkCL (cl_dir s) (now, Plain) [])
  \/ (linv s' (a ++ [(cl_act s, os)]) [] [] now /\ dget (now, Plain) (cl_dir s) = None).
Proof.
  intros H Hb HT s'. destruct (dget (now, Plain) (cl_dir s)) as [x|] eqn:E.
  - left. assert (Hact : cl_act s = (now, Plain)).
    { destruct (li_max _ _ _ _ _ (now, Plain) H eq_refl) as [Hm|Hm]; [congruence|auto|].
      destruct (li_time _ _ _ _ _ H (cl_act s)) as [Hle _];
        [exact (li_live _ _ _ _ _ H)|rewrite (li_get _ _ _ _ _ H); discriminate|].
      cbn in Hm. lia. }
    assert (Hs' : s' = mkCL (cl_dir s) (now, Plain) []) by (unfold s', create; now rewrite E).
    split; [|auto]. rewrite Hs', <- Hact, <- Hb. destruct s. now apply (li_mono _ _ _ _ T).
  - right. split; [|reflexivity]. destruct H as [Hs Hg Hd Hn Ht].
    assert (Hlt : forall f, live f = true -> dget f (cl_dir s) <> None -> (fst f < now)%N).
    { intros f Hl Hf. destruct (Ht f Hl Hf) as [H1 H2].
      destruct (N.eq_dec (fst f) now) as [Ef|]; [|lia]. destruct f as [t k]. cbn in *. subst t.
      unfold live in Hl. cbn in Hl. destruct k; try discriminate; [congruence|]. specialize (H2 eq_refl). lia. }
    assert (Hfull : forall g, dget g (append (cl_act s) (cl_buf s) (cl_dir s)) = dget g (cl_dir s)).
    { intros g. rewrite Hb. now apply (append_nil_get _ _ _ c). }
    assert (Hlast : forall x, In x (map fst (a ++ [(cl_act s, os)])) -> (fst x < now)%N).
    { intros x Hx. apply in_map_iff in Hx as ([y o] & <- & Hx). cbn.
      destruct (shows_in _ _ _ _ Hs Hx) as (Hl & _ & Hgx). rewrite Hfull in Hgx. apply Hlt; congruence. }
    constructor; cbn [cl_act cl_buf cl_dir s'].
    + constructor.
      * now apply dirok_append, dirok_create.
      * intros f. rewrite lget_last by exact Hlast.
        pose proof (sh_seen _ _ Hs f) as Hf. rewrite (seen_ext _ _ f Hfull) in Hf.
        unfold seen in *.
        assert (Hhid : live f = true -> dget f (append (now, Plain) [] (create (now, Plain) (cl_dir s))) <> None ->
                       hidden (append (now, Plain) [] (create (now, Plain) (cl_dir s))) f = hidden (cl_dir s) f).
        { intros Hl Hne. unfold hidden. destruct (kind_eqb (snd f) Condensed) eqn:Ek; [|reflexivity]. cbn [andb].
          rewrite dget_append in Hne.
          assert (Hnp : fname_eqb f (now, Plain) = false).
          { destruct (fname_eqb_spec f (now, Plain)) as [->|]; [discriminate|reflexivity]. }
          rewrite Hnp, dget_create, Hnp in Hne.
          assert (Hf0 : dget f (cl_dir s) <> None) by (destruct (dget f (cl_dir s)); congruence).
          pose proof (Hlt f Hl Hf0) as Hl2.
          rewrite dget_append.
          assert (Hnq : fname_eqb (fst f, Plain) (now, Plain) = false).
          { destruct (fname_eqb_spec (fst f, Plain) (now, Plain)) as [E2|]; [injection E2; lia|reflexivity]. }
          rewrite Hnq, dget_create, Hnq. now destruct (dget (fst f, Plain) (cl_dir s)). }
        destruct (live f) eqn:El; cbn [andb] in *.
        2:{ destruct (fname_eqb_spec f (now, Plain)) as [->|]; [discriminate|]. exact Hf. }
        assert (Hget : dget f (append (now, Plain) [] (create (now, Plain) (cl_dir s)))
          = if fname_eqb f (now, Plain) then Some [] else dget f (cl_dir s)).
        { rewrite dget_append, !dget_create, E, fname_eqb_refl.
          destruct (fname_eqb f (now, Plain)); [reflexivity|]. now destruct (dget f (cl_dir s)). }
        rewrite Hget in *. destruct (fname_eqb f (now, Plain)) eqn:Efn.
        { assert (f = (now, Plain)) by now destruct (fname_eqb_spec f (now, Plain)). subst f.
          rewrite Hhid by (auto; discriminate). reflexivity. }
        destruct (dget f (cl_dir s)) as [y|] eqn:Ey.
        -- rewrite Hhid by (auto; discriminate). exact Hf.
        -- destruct (lget f (a ++ [(cl_act s, os)])); [|match goal with |- (if ?b then _ else _) = _ => destruct b; reflexivity end].
           cbn in Hf. destruct (negb (hidden (cl_dir s) f)); discriminate.
      * rewrite map_app. pose proof (sh_sorted _ _ Hs) as Hso. cbn [map fst].
        clear - Hso Hlast. induction (map fst (a ++ [(cl_act s, os)])) as [|x l IH]; cbn; [repeat constructor|].
        inversion Hso as [|? ? H1 H2]; subst. constructor.
        -- apply IH; [|exact H1]. intros y Hy. apply Hlast. now right.
        -- apply Forall_app. split; [exact H2|]. constructor; [|constructor]. unfold earlier. cbn.
           apply Hlast. now left.
      * apply Forall_app. split; [exact (sh_ok _ _ Hs)|]. constructor; [|constructor]. split; constructor.
    + rewrite dget_create, E, fname_eqb_refl. reflexivity.
    + now apply dirok_create.
    + intros t Hp. rewrite dget_create in *.
      destruct (dget (t, Plain) (cl_dir s)) eqn:Ep.
      * rewrite (Hn t) by congruence. now destruct (fname_eqb_spec (t, Condensed) (now, Plain)).
      * destruct (fname_eqb_spec (t, Plain) (now, Plain)) as [E2|]; [|congruence]. injection E2 as ->.
        destruct (dget (now, Condensed) (cl_dir s)) eqn:Ec.
        -- assert (now < now)%N; [|lia]. apply (Hlt (now, Condensed)); [reflexivity|congruence].
        -- now destruct (fname_eqb_spec (now, Condensed) (now, Plain)).
    + intros f Hl Hf. rewrite dget_create in Hf.
      destruct (dget f (cl_dir s)) eqn:Ef.
      * assert (fst f < now)%N by (apply Hlt; congruence). split; [lia|auto].
      * destruct (fname_eqb_spec f (now, Plain)) as [->|]; [|congruence]. cbn. split; [lia|discriminate].
Qed.

(** Opening. *)
Lemma desc_head desc l f : rsorts desc -> NoDup l -> In f l ->
  (forall g, In g l -> g = f \/ (fst g < fst f)%N) -> exists t, desc l = f :: t.
Proof.
  intros Hr Hnd Hin Hmax. destruct (Hr l) as [Hp Hs].
  destruct (desc l) as [|g t] eqn:E.
  - apply Permutation_nil in Hp. subst l. destruct Hin.
  - exists t. f_equal. apply (Permutation_in _ (Permutation_sym Hp)) in Hin.
    assert (Hg : In g l) by (apply (Permutation_in _ Hp); now left).
    destruct (Hmax g Hg) as [->|Hlt]; [reflexivity|]. exfalso.
    destruct Hin as [->|Hin]; [lia|]. inversion Hs as [|? ? _ H2]; subst.
    apply (proj1 (Forall_forall _ _) H2) in Hin. lia.
Qed.

Lemma li_current desc s a os c T : rsorts desc -> linv s a os c T ->
  get_current desc (cl_dir s) = Ok (Some (cl_act s), remove_tmp_combining (cl_dir s)).
Proof.
  intros Hr H.
  assert (Hne : cl_dir s <> []).
  { intros E. pose proof (li_get _ _ _ _ _ H) as Hg. rewrite E in Hg. discriminate. }
  destruct (desc_head desc (lives (cl_dir s)) (cl_act s) Hr) as (t & E).
  - apply lives_nodup, (li_ok _ _ _ _ _ H).
  - apply lives_in. split; [exact (li_live _ _ _ _ _ H)|rewrite (li_get _ _ _ _ _ H); discriminate].
  - intros g Hg. apply lives_in in Hg as [Hl Hg]. exact (li_max _ _ _ _ _ g H Hl Hg).
  - unfold lives in E. unfold get_current. destruct (cl_dir s); [congruence|]. now rewrite E.
Qed.

Lemma dget_tmp_some f d c : dget f (remove_tmp_combining d) = Some c -> dget f d = Some c.
Proof.
  unfold remove_tmp_combining. induction d as [|[h x] d IH]; cbn; [discriminate|].
  destruct (kind_eqb (snd h) CombinedTmp) eqn:E; cbn.
  - intros H. destruct (fname_eqb_spec f h) as [->|]; [|auto]. exfalso. clear IH.
    induction d as [|[g y] d IH]; cbn in H; [discriminate|].
    destruct (kind_eqb (snd g) CombinedTmp) eqn:E2; cbn in H; [auto|].
    destruct (fname_eqb_spec h g) as [->|]; [congruence|auto].
  - now destruct (fname_eqb f h).
Qed.

Lemma dirok_tmp d : dirok d -> dirok (remove_tmp_combining d).
Proof. unfold dirok. rewrite map_fst_tmp. now apply NoDup_filter. Qed.

Lemma li_reopen desc s a os c T now : rsorts desc -> linv s a os c T -> cl_buf s = [] ->
  exists s', open_log desc now (cl_dir s) = Ok s' /\ linv s' a os c T.
Proof.
  intros Hr H Hb. pose proof (li_live _ _ _ _ _ H) as Hla. pose proof (li_current desc s a os c T Hr H) as Hc.
  destruct H as [Hs Hg Hd Hn Ht].
  unfold open_log. rewrite Hc. cbn [bind fst snd]. eexists. split; [reflexivity|].
  assert (Hg2 : dget (cl_act s) (remove_tmp_combining (cl_dir s)) = Some c) by now rewrite dget_tmp.
  assert (Hcr : create (cl_act s) (remove_tmp_combining (cl_dir s)) = remove_tmp_combining (cl_dir s)).
  { unfold create. now rewrite Hg2. }
  rewrite Hcr. constructor; cbn [cl_act cl_buf cl_dir]; auto.
  - refine (shows_ext (remove_tmp_combining (append (cl_act s) (cl_buf s) (cl_dir s))) _ _ _ _ (shows_tmp _ _ Hs)).
    + now apply dirok_append, dirok_tmp.
    + intros g. rewrite (append_nil_get _ _ _ c) by exact Hg2. rewrite Hb.
      destruct (live g) eqn:El.
      * rewrite !dget_tmp by exact El. symmetry. now apply (append_nil_get _ _ _ c).
      * assert (Hneq : fname_eqb g (cl_act s) = false).
        { destruct (fname_eqb_spec g (cl_act s)) as [->|]; [congruence|reflexivity]. }
        unfold append. rewrite Hg. clear - Hneq Hla. unfold dput, remove_tmp_combining. cbn [filter fst snd].
        assert (Ha : negb (kind_eqb (snd (cl_act s)) CombinedTmp) = true).
        { unfold live in Hla. destruct (snd (cl_act s)); try discriminate; reflexivity. }
        rewrite Ha. cbn [dget]. rewrite Hneq.
        induction (cl_dir s) as [|[h x] d IH]; cbn; [reflexivity|].
        destruct (kind_eqb (snd h) CombinedTmp) eqn:E1; cbn.
        { destruct (fname_eqb (cl_act s) h); cbn; [exact IH|]. rewrite E1. cbn. exact IH. }
        destruct (fname_eqb_spec (cl_act s) h) as [<-|]; cbn; [now rewrite Hneq, IH|].
        rewrite E1. cbn. now rewrite IH.
  - now apply dirok_tmp.
  - now apply no_hidden_tmp.
  - intros f Hl Hf. rewrite dget_tmp in Hf by exact Hl. auto.
Qed.

(** ** Histories *)

Definition logged (l : list lact) : list lop :=
  flat_map (fun a => match a with ALog o => [o] | _ => [] end) l.
Definition times (l : list lact) : list N :=
  flat_map (fun a => match a with ATick t | AForce t => [t] | _ => [] end) l.
(** Records known to be in the files: those logged before the last flush, forced
    switch or reopening; [n] records so far, [k] of them in the files. *)
Fixpoint durable_from (n k : nat) (l : list lact) : nat :=
  match l with
  | [] => k
  | ALog _ :: l => durable_from (S n) k l
  | (AFlush | AForce _ | AReopen _) :: l => durable_from n n l
  | _ :: l => durable_from n k l
  end.

Definition held (a : log) (os : list lop) (c : list N) (k : nat) : Prop :=
  exists j, k <= length (flat_map snd a) + j /\ j <= length os /\ length (encode_all (firstn j os)) <= length c.

Lemma held_all a os : held a os (encode_all os) (length (flat_map snd (a ++ [((0%N, Plain), os)]))).
Proof.
  exists (length os). rewrite flat_map_app, app_length. cbn. rewrite app_nil_r, firstn_all. lia.
Qed.

Lemma flat_snd_last (a : log) f os : flat_map snd (a ++ [(f, os)]) = flat_map snd a ++ os.
Proof. rewrite flat_map_app. cbn. now rewrite app_nil_r. Qed.

Lemma held_last s a os c T : linv s a os c T -> cl_buf s = [] ->
  held a os c (length (flat_map snd a) + length os).
Proof.
  intros H Hb. exists (length os). rewrite firstn_all. pose proof (li_bytes _ _ _ _ _ H) as E.
  rewrite Hb, app_nil_r in E. rewrite E. lia.
Qed.

Lemma last_cons : forall r (y T : N), last (y :: r) T = last r y.
Proof.
  induction r as [|z r IH]; intros y T; [reflexivity|].
  change (last (y :: z :: r) T) with (last (z :: r) T). now rewrite !IH.
Qed.

Lemma lrun_inv desc max : rsorts desc -> forall l s a os c T n k, linv s a os c T ->
  Forall op_ok (logged l) -> Forall op_mem (logged l) ->
  StronglySorted N.le (T :: times l) ->
  n = length (flat_map snd a) + length os -> held a os c k ->
  exists s' a' os' c', lrun desc max l s = Ok s'
    /\ linv s' a' os' c' (last (times l) T)
    /\ flat_map snd a' ++ os' = (flat_map snd a ++ os) ++ logged l
    /\ held a' os' c' (durable_from n k l).
Proof.
  intros Hr. induction l as [|x l IH]; intros s a os c T n k H Ho Hm Ht Hn Hk.
  - exists s, a, os, c. cbn. rewrite app_nil_r. auto.
  - assert (Hsw : forall now, (T <= now)%N -> StronglySorted N.le (now :: times l) -> logged (x :: l) = logged l ->
      exists s' a' os' c',
        lrun desc max l (snd (switch_log true max now None s)) = Ok s'
        /\ linv s' a' os' c' (last (times l) now)
        /\ flat_map snd a' ++ os' = (flat_map snd a ++ os) ++ logged l
        /\ held a' os' c' (durable_from n n l)).
    { intros now HT Hts Hl. destruct (li_flush _ _ _ _ _ H) as [Hf Hfb].
      unfold switch_log. rewrite andb_false_r. cbn [snd].
      destruct (li_switch _ _ _ _ _ now Hf Hfb HT) as [(Hs & _ & _)|[Hs _]].
      - destruct (IH _ a os _ now n n Hs) as (s' & a' & os' & c' & E & Hi & Hfl & Hh); auto.
        + now rewrite <- Hl.
        + now rewrite <- Hl.
        + rewrite Hn. exact (held_last _ _ _ _ _ Hs eq_refl).
        + exists s', a', os', c'. auto.
      - change (cl_act (flush_log s)) with (cl_act s) in Hs.
        destruct (IH _ (a ++ [(cl_act s, os)]) [] [] now n n Hs) as (s' & a' & os' & c' & E & Hi & Hfl & Hh); auto.
        + now rewrite <- Hl.
        + now rewrite <- Hl.
        + rewrite flat_snd_last, app_length. cbn. lia.
        + exists 0. rewrite flat_snd_last, app_length. cbn. lia.
        + exists s', a', os', c'. rewrite flat_snd_last, app_nil_r in Hfl. auto. }
    destruct x as [o|m| |now|now|now]; cbn [lrun lstep bind].
    + cbn in Ho, Hm, Ht. inversion Ho; inversion Hm; subst.
      destruct (IH (log_op o s) a (os ++ [o]) c T (S (length (flat_map snd a) + length os)) k)
        as (s' & a' & os' & c' & E & Hi & Hfl & Hh); auto.
      * now apply li_log.
      * rewrite app_length. cbn. lia.
      * destruct Hk as (j & H1' & H2' & H3'). exists j. rewrite app_length. split; [lia|]. split; [lia|].
        rewrite firstn_app. replace (j - length os) with 0 by lia. cbn. now rewrite app_nil_r.
      * exists s', a', os', c'. split; [exact E|]. split; [exact Hi|]. split; [|exact Hh].
        rewrite Hfl. cbn. now rewrite <- !app_assoc.
    + destruct (IH (spill m s) a os (c ++ firstn m (cl_buf s)) T n k) as (s' & a' & os' & c' & E & Hi & Hfl & Hh); auto.
      * now apply li_spill.
      * destruct Hk as (j & H1 & H2 & H3). exists j. rewrite app_length. repeat split; lia.
      * exists s', a', os', c'. auto.
    + destruct (li_flush _ _ _ _ _ H) as [Hf Hfb].
      destruct (IH (flush_log s) a os (c ++ cl_buf s) T n n) as (s' & a' & os' & c' & E & Hi & Hfl & Hh); auto.
      * rewrite Hn. exact (held_last _ _ _ _ _ Hf Hfb).
      * exists s', a', os', c'. auto.
    + cbn in Ht. inversion Ht as [|? ? Ht1 Ht2]; subst. inversion Ht2; subst.
      cbn [durable_from]. change (last (times (ATick now :: l)) T) with (last (now :: times l) T).
      assert (Hlast : last (now :: times l) T = last (times l) now).
      { apply last_cons. }
      rewrite Hlast. unfold switch_log. destruct (_ && _)%bool eqn:Eb; cbn [snd].
      * destruct (IH s a os c now (length (flat_map snd a) + length os) k) as (s' & a' & os' & c' & E & Hi & Hfl & Hh); auto.
        { apply (li_mono _ _ _ _ T); assumption. }
        exists s', a', os', c'. auto.
      * destruct (li_flush _ _ _ _ _ H) as [Hf Hfb].
        destruct (li_switch _ _ _ _ _ now Hf Hfb H2) as [(Hs & _ & _)|[Hs _]].
        -- destruct (IH _ a os _ now (length (flat_map snd a) + length os) k Hs)
             as (s' & a' & os' & c' & E & Hi & Hfl & Hh); auto.
           { destruct Hk as (j & K1 & K2 & K3). exists j. rewrite app_length. repeat split; lia. }
           exists s', a', os', c'. auto.
        -- change (cl_act (flush_log s)) with (cl_act s) in Hs.
           destruct (IH _ (a ++ [(cl_act s, os)]) [] [] now (length (flat_map snd a) + length os) k Hs)
             as (s' & a' & os' & c' & E & Hi & Hfl & Hh); auto.
           { rewrite flat_snd_last, app_length. cbn. lia. }
           { destruct Hk as (j & K1 & K2 & K3). exists 0. rewrite flat_snd_last, app_length. cbn. lia. }
           exists s', a', os', c'. rewrite flat_snd_last, app_nil_r in Hfl. auto.
    + cbn in Ht. inversion Ht as [|? ? Ht1 Ht2]; subst. inversion Ht2; subst.
      change (last (times (AForce now :: l)) T) with (last (now :: times l) T).
      assert (Hlast : last (now :: times l) T = last (times l) now).
      { apply last_cons. }
      rewrite Hlast. cbn [durable_from]. now apply Hsw.
    + destruct (li_flush _ _ _ _ _ H) as [Hf Hfb].
      destruct (li_reopen desc _ _ _ _ _ now Hr Hf Hfb) as (s1 & E1 & H1). rewrite E1. cbn [bind durable_from].
      destruct (IH s1 a os (c ++ cl_buf s) T n n) as (s' & a' & os' & c' & E & Hi & Hfl & Hh); auto.
      * rewrite Hn. exact (held_last _ _ _ _ _ Hf Hfb).
      * exists s', a', os', c'. auto.
Qed.

(** ** Reading back *)

Lemma names_of srt d names : sorts srt -> dirok d ->
  (forall f, In f names <-> live f = true /\ hidden d f = false /\ dget f d <> None) ->
  StronglySorted earlier names -> fix_names (srt (lives d)) = names.
Proof.
  intros Hsrt Hd Hiff Hsn. destruct (Hsrt (lives d)) as [Hp Hso].
  assert (Hmem : forall g, In g (srt (lives d)) <-> In g (lives d)).
  { intros g. split; apply Permutation_in; [exact Hp|now apply Permutation_sym]. }
  apply sorted_unique; [now apply sorted_filter|exact Hsn|].
  apply NoDup_Permutation.
  - apply NoDup_filter. apply (Permutation_NoDup (Permutation_sym Hp)). now apply lives_nodup.
  - now apply earlier_nodup.
  - intros f. unfold fix_names. rewrite filter_In, Hmem, Hiff. split.
    + intros [Hin Hc]. pose proof (proj1 (lives_in d f) Hin) as [Hl Hf].
      rewrite (corrupt_hidden d _ f Hl Hmem) in Hc. repeat split; auto. now destruct (hidden d f).
    + intros (Hl & Hh & Hf). split; [apply lives_in; auto|]. now rewrite (corrupt_hidden d _ f Hl Hmem), Hh.
Qed.

Lemma replay_app d a b st : replay d (a ++ b) st = (do! s <- replay d a st; replay d b s).
Proof.
  revert st. induction a as [|f a IH]; intros st; [reflexivity|]. cbn [app replay].
  destruct (dget f d); [|reflexivity]. destruct (deserialize false st l) as [? ?|? ? []| |]; cbn [bind]; auto.
Qed.

Lemma encode_all_mono os i j : i <= j -> length (encode_all (firstn i os)) <= length (encode_all (firstn j os)).
Proof.
  intros H. rewrite <- (firstn_skipn i (firstn j os)). rewrite firstn_firstn, Nat.min_l by exact H.
  unfold encode_all. rewrite flat_map_app, app_length. lia.
Qed.

Lemma li_restore srt s a os c T k : sorts srt -> linv s a os c T -> held a os c k ->
  exists i st1 st, k <= i <= length (flat_map snd a ++ os)
    /\ apply_all false (firstn i (flat_map snd a ++ os)) ls_init = Ok st1
    /\ restore srt (cl_dir s) = Ok st
    /\ (st = st1 \/ exists o, nth_error (flat_map snd a ++ os) i = Some o /\ torn o st1 st)
    /\ (cl_buf s = [] -> i = length (flat_map snd a ++ os) /\ st = st1).
Proof.
  intros Hsrt H (j & Hj1 & Hj2 & Hj3).
  pose proof (li_bytes _ _ _ _ _ H) as Hb. pose proof (li_live _ _ _ _ _ H) as Hla.
  pose proof (fun f => li_lives _ _ _ _ _ f H) as Hlv.
  destruct H as [Hs Hg Hd Hn Ht].
  assert (Hkeys : forall f, dget f (append (cl_act s) (cl_buf s) (cl_dir s)) <> None <-> dget f (cl_dir s) <> None).
  { intros f. now apply (append_keys _ _ _ c). }
  assert (Hnames : fix_names (srt (lives (cl_dir s))) = map fst a ++ [cl_act s]).
  { replace (map fst a ++ [cl_act s]) with (map fst (a ++ [(cl_act s, os)])) by now rewrite map_app.
    apply names_of; auto; [|exact (sh_sorted _ _ Hs)]. intros f. split.
    - intros Hin. apply in_map_iff in Hin as ([g o] & <- & Hin). cbn.
      destruct (shows_in _ _ _ _ Hs Hin) as (Hl & _ & Hgx).
      assert (Hf : dget g (cl_dir s) <> None) by (apply Hkeys; congruence).
      repeat split; auto. now apply clean_not_hidden.
    - intros (Hl & _ & Hf). now apply Hlv. }
  pose proof (sh_ok _ _ Hs) as Hok. apply Forall_app in Hok as [Hoka Hoko].
  inversion Hoko as [|? ? [Ho Hm] _]; subst. cbn [snd] in Ho, Hm.
  set (d1 := fix_dir (srt (lives (cl_dir s))) (remove_tmp_combining (cl_dir s))).
  assert (Hget : forall f, In f (map fst a ++ [cl_act s]) -> dget f d1 = dget f (cl_dir s)).
  { intros f Hin. unfold d1, fix_dir. rewrite <- Hnames in Hin. unfold fix_names in Hin. apply filter_In in Hin as [Hin Hc].
    destruct (Hsrt (lives (cl_dir s))) as [Hp _]. apply (Permutation_in _ Hp), lives_in in Hin as [Hl _].
    rewrite fix_dir_get; [now apply dget_tmp|now destruct (corrupt _ f)]. }
  destruct (replay_logs d1 a ls_init init_len_ok) as (s0 & E0 & R0).
  { intros f o Hin. rewrite Hget by (apply in_or_app; left; change f with (fst (f, o)); now apply in_map).
    assert (Hin2 : In (f, o) (a ++ [(cl_act s, os)])) by (apply in_or_app; now left).
    destruct (shows_in _ _ _ _ Hs Hin2) as (_ & _ & Hgx). rewrite dget_append in Hgx.
    destruct (fname_eqb_spec f (cl_act s)) as [->|]; [|exact Hgx]. exfalso.
    pose proof (last_nodup _ _ _ (sh_sorted _ _ Hs) (cl_act s)) as Hlt.
    assert (fst (cl_act s) < fst (cl_act s))%N; [|lia]. apply Hlt.
    change (cl_act s) with (fst (cl_act s, o)) at 1. now apply in_map. }
  { exact Hoka. }
  assert (Hlen0 : len_ok s0).
  { destruct (apply_all_ok false (flat_map snd a) ls_init) as (z & Ez & Hz); [|exact init_len_ok|congruence].
    clear - Hoka. induction Hoka as [|x l [_ Hx] _ IH]; cbn; [constructor|]. apply Forall_app. auto. }
  destruct (apply_all_ok false os s0 Hm Hlen0) as (s9 & E9 & _).
  assert (Hc : c = firstn (length c) (encode_all os)).
  { rewrite Hb, firstn_app, Nat.sub_diag, firstn_all. cbn. now rewrite app_nil_r. }
  assert (Hcl : length c <= length (encode_all os)) by (rewrite Hb, app_length; lia).
  destruct (replay_cut false os (length c) s0 s9 Ho Hcl E9) as (os1 & os2 & s1 & Eos & E1 & Hle & D1 & _ & Hcase).
  assert (Hrest : restore srt (cl_dir s) = match deserialize false s0 c with
          | DDone st _ => Ok st | DErr st _ REOF | DErr st _ RUnexpectedEOF => Ok st
          | DErr _ _ _ => Err EOther | DPanic => Panic | DFuel => OutOfFuel end).
  { unfold restore, get_names. fold (lives (cl_dir s)). rewrite Hnames. fold d1.
    rewrite replay_app, R0. cbn [bind replay]. rewrite Hget by (apply in_or_app; right; now left).
    rewrite Hg. destruct (deserialize false s0 c) as [? ?|? ? []| |]; reflexivity. }
  exists (length (flat_map snd a) + length os1), s1.
  assert (Hi : firstn (length (flat_map snd a) + length os1) (flat_map snd a ++ os) = flat_map snd a ++ os1).
  { rewrite firstn_app, firstn_all2 by lia. f_equal.
    replace (length (flat_map snd a) + length os1 - length (flat_map snd a)) with (length os1) by lia.
    rewrite Eos, firstn_app, Nat.sub_diag, firstn_all. cbn. now rewrite app_nil_r. }
  rewrite Hi, apply_all_app, E0. cbn [bind]. rewrite E1.
  assert (Hj : j <= length os1).
  { destruct (Nat.le_gt_cases j (length os1)) as [|Hgt]; [assumption|]. exfalso.
    destruct os2 as [|o os3]; [rewrite Eos, app_nil_r in Hj2; lia|].
    assert (Hsm : length (encode_all (firstn (length os1 + 1) os)) <= length c).
    { etransitivity; [|exact Hj3]. apply encode_all_mono. lia. }
    rewrite Eos, firstn_app, firstn_all2 in Hsm by lia.
    replace (length os1 + 1 - length os1) with 1 in Hsm by lia. cbn [firstn] in Hsm.
    unfold encode_all in Hsm. rewrite flat_map_app, app_length in Hsm. cbn [flat_map] in Hsm.
    rewrite app_nil_r in Hsm. destruct Hcase as [[Hk _]|(o' & os3' & s2 & e & E & Hk & _)].
    - fold (encode_all os1) in Hsm. rewrite (encode_split o) in Hsm. cbn [length] in Hsm. lia.
    - injection E as <- <-. fold (encode_all os1) in Hsm. lia. }
  destruct Hcase as [[Hk D]|(o & os3 & s2 & e & E2 & Hk & D & He & Htorn)].
  - rewrite <- Hc in D. rewrite D in Hrest. exists s1.
    split; [rewrite app_length, Eos, app_length; lia|]. split; [reflexivity|]. split; [exact Hrest|].
    split; [now left|]. intros Hbuf. split; [|reflexivity].
    assert (os2 = []); [|subst; now rewrite app_length, app_nil_r].
    destruct os2 as [|o os3]; [reflexivity|]. exfalso. rewrite Hbuf, app_nil_r in Hb.
    apply (f_equal (@length N)) in Hb. rewrite Eos in Hb. unfold encode_all in Hb, Hk.
    rewrite flat_map_app, app_length in Hb. cbn [flat_map] in Hb. rewrite app_length, (encode_split o) in Hb.
    cbn [length] in Hb. lia.
  - rewrite <- Hc in D. rewrite D in Hrest. exists s2.
    split; [rewrite app_length, Eos, app_length; lia|]. split; [reflexivity|].
    split; [destruct He as [-> | ->]; exact Hrest|].
    split.
    + right. exists o. split; [|exact Htorn].
      rewrite nth_error_app2 by lia.
      replace (length (flat_map snd a) + length os1 - length (flat_map snd a)) with (length os1) by lia.
      rewrite Eos, E2, nth_error_app2 by lia. now rewrite Nat.sub_diag.
    + intros Hbuf. exfalso. rewrite Hbuf, app_nil_r in Hb. apply (f_equal (@length N)) in Hb.
      rewrite Eos, E2 in Hb. unfold encode_all in Hb. rewrite flat_map_app, app_length in Hb. cbn [flat_map] in Hb.
      rewrite app_length in Hb. fold (encode_all os1) in Hb. lia.
Qed.

(** ** Opening a directory *)

Lemma open_inv desc t0 d0 lg0 : rsorts desc -> shows d0 lg0 -> no_hidden d0 ->
  (d0 = [] \/ exists f, live f = true /\ dget f d0 <> None) ->
  (forall f, live f = true -> dget f d0 <> None -> (fst f <= t0)%N /\ (snd f = Condensed -> (fst f < t0)%N)) ->
  exists s a os c, open_log desc t0 d0 = Ok s /\ linv s a os c t0 /\ cl_buf s = []
    /\ flat_map snd a ++ os = flat_map snd lg0.
Proof.
  intros Hr Hs Hn He Ht. destruct He as [->|(f0 & Hl0 & Hf0)].
  - unfold open_log, get_current. cbn [bind fst snd].
    assert (lg0 = []).
    { destruct lg0 as [|[f o] lg]; [reflexivity|].
      destruct (shows_in _ _ _ _ Hs (or_introl eq_refl)) as (_ & _ & H). discriminate. }
    subst lg0. eexists. exists [], [], []. split; [reflexivity|]. split; [|auto].
    change (create (t0, Plain) []) with [((t0, Plain), @nil N)].
    assert (Hne : forall f, dget f [((t0, Plain), @nil N)] <> None -> f = (t0, Plain)).
    { intros f. cbn [dget]. now destruct (fname_eqb_spec f (t0, Plain)). }
    assert (Hd : dirok [((t0, Plain), @nil N)]).
    { unfold dirok. cbn. constructor; [intros []|constructor]. }
    assert (Hg : dget (t0, Plain) [((t0, Plain), @nil N)] = Some []) by (cbn [dget]; now rewrite fname_eqb_refl).
    constructor; cbn [cl_act cl_buf cl_dir].
    + apply (shows_ext [((t0, Plain), @nil N)]).
      * now apply dirok_append.
      * intros g. now apply (append_nil_get _ _ _ []).
      * constructor; [exact Hd| |cbn; constructor; constructor|].
        -- intros f. unfold seen. cbn [app lget].
           destruct (fname_eqb_spec f (t0, Plain)) as [->|Hneq].
           ++ rewrite Hg. unfold hidden. cbn. reflexivity.
           ++ cbn [dget]. destruct (fname_eqb_spec f (t0, Plain)); [congruence|]. now destruct (_ && _)%bool.
        -- constructor; [split; constructor|constructor].
    + exact Hg.
    + exact Hd.
    + intros t _. cbn [dget]. now destruct (fname_eqb_spec (t, Condensed) (t0, Plain)).
    + intros f _ Hf. apply Hne in Hf. subst f. cbn. split; [lia|discriminate].
  - assert (Hlg : lg0 <> []).
    { intros ->. pose proof (sh_seen _ _ Hs f0) as H. unfold seen in H. rewrite Hl0 in H.
      rewrite clean_not_hidden in H by assumption. cbn in H. congruence. }
    destruct (exists_last Hlg) as (a & [f os] & ->).
    destruct (shows_in _ _ _ _ Hs (in_last a (f, os))) as (Hl & Hh & Hg).
    assert (Hinv : linv (mkCL d0 f []) a os (encode_all os) t0).
    { constructor; cbn [cl_act cl_buf cl_dir]; auto; [|exact (sh_dir _ _ Hs)].
      refine (shows_ext _ _ _ _ _ Hs); [apply dirok_append, (sh_dir _ _ Hs)|].
      intros g. now apply (append_nil_get _ _ _ (encode_all os)). }
    destruct (li_reopen desc _ _ _ _ _ t0 Hr Hinv eq_refl) as (s & E & H).
    exists s, a, os, (encode_all os). split; [exact E|]. split; [exact H|]. split; [|symmetry; apply flat_snd_last].
    unfold open_log in E. destruct (get_current desc _) as [r| | |]; try discriminate. cbn [bind] in E.
    injection E as <-. reflexivity.
Qed.

(** ** Temporary files *)

Definition no_tmp (d : dir) : Prop := forall t, dget (t, CombinedTmp) d = None.

Lemma no_tmp_removed d : no_tmp (remove_tmp_combining d).
Proof.
  intros t. unfold remove_tmp_combining. induction d as [|[h x] d IH]; cbn; [reflexivity|].
  destruct (kind_eqb (snd h) CombinedTmp) eqn:E; cbn; [exact IH|].
  destruct (fname_eqb_spec (t, CombinedTmp) h) as [<-|]; [discriminate|exact IH].
Qed.

Lemma no_tmp_append f bs d : live f = true -> no_tmp d -> no_tmp (append f bs d).
Proof.
  intros Hl H t. rewrite dget_append. destruct (fname_eqb_spec (t, CombinedTmp) f) as [<-|]; [discriminate|apply H].
Qed.
Lemma no_tmp_create f d : live f = true -> no_tmp d -> no_tmp (create f d).
Proof.
  intros Hl H t. rewrite dget_create, H. destruct (fname_eqb_spec (t, CombinedTmp) f) as [<-|]; [discriminate|reflexivity].
Qed.

Lemma get_current_tmp desc d c d' : get_current desc d = Ok (c, d') -> no_tmp d'.
Proof.
  unfold get_current. destruct d as [|x d]; [intros [= <- <-] t; reflexivity|].
  destruct (desc _); [discriminate|]. intros E. injection E as <- <-. exact (no_tmp_removed (x :: d)).
Qed.

Lemma desc_live desc d f t : rsorts desc -> desc (lives d) = f :: t -> live f = true.
Proof.
  intros Hr E. destruct (Hr (lives d)) as [Hp _]. rewrite E in Hp.
  apply (lives_in d f). apply (Permutation_in _ Hp). now left.
Qed.

Lemma open_tmp desc t0 d s : rsorts desc -> open_log desc t0 d = Ok s ->
  no_tmp (cl_dir s) /\ live (cl_act s) = true.
Proof.
  intros Hr. unfold open_log. destruct (get_current desc d) as [[c d']| | |] eqn:E; try discriminate.
  cbn [bind fst snd]. intros [= <-]. cbn [cl_dir cl_act].
  assert (Hl : live (match c with Some f => f | None => (t0, Plain) end) = true).
  { unfold get_current in E. destruct d as [|x d]; [now injection E as <- <-|].
    fold (lives (x :: d)) in E. destruct (desc (lives (x :: d))) as [|f t] eqn:Ed; [discriminate|].
    injection E as <- <-. exact (desc_live _ _ _ _ Hr Ed). }
  split; [|exact Hl]. apply no_tmp_create; [exact Hl|]. exact (get_current_tmp _ _ _ _ E).
Qed.

Lemma lrun_tmp desc max : rsorts desc -> forall l s s', no_tmp (cl_dir s) -> live (cl_act s) = true ->
  lrun desc max l s = Ok s' -> no_tmp (cl_dir s') /\ live (cl_act s') = true.
Proof.
  intros Hr. induction l as [|x l IH]; intros s s' Hn Hl E; [injection E as <-; auto|].
  cbn [lrun] in E. apply bind_ok in E as (s1 & E1 & E).
  assert (H1 : no_tmp (cl_dir s1) /\ live (cl_act s1) = true); [|now apply (IH s1)].
  destruct x as [o|m| |now|now|now]; cbn [lstep] in E1.
  - injection E1 as <-. auto.
  - injection E1 as <-. split; [now apply no_tmp_append|auto].
  - injection E1 as <-. split; [now apply no_tmp_append|auto].
  - unfold switch_log in E1. destruct (_ && _)%bool; injection E1 as <-; [auto|].
    split; [|reflexivity]. apply no_tmp_create; [reflexivity|]. now apply no_tmp_append.
  - unfold switch_log in E1. rewrite andb_false_r in E1. injection E1 as <-.
    split; [|reflexivity]. apply no_tmp_create; [reflexivity|]. now apply no_tmp_append.
  - exact (open_tmp _ _ _ _ Hr E1).
Qed.

(** ** Backups *)

(** Only records, writes and flushes: what happens while maintenance is paused. *)
Definition quiet (a : lact) : Prop := match a with ALog _ | ASpill _ | AFlush => True | _ => False end.

Lemma quiet_run desc max : forall l s, Forall quiet l ->
  exists s', lrun desc max l s = Ok s' /\ cl_act s' = cl_act s
    /\ forall f, f <> cl_act s -> dget f (cl_dir s') = dget f (cl_dir s).
Proof.
  induction l as [|x l IH]; intros s Hq; [exists s; auto|]. inversion Hq as [|? ? Hx Hl]; subst.
  assert (Hst : exists s1, lstep desc max x s = Ok s1 /\ cl_act s1 = cl_act s
    /\ forall f, f <> cl_act s -> dget f (cl_dir s1) = dget f (cl_dir s)).
  { assert (Hsp : forall n f, f <> cl_act s -> dget f (cl_dir (spill n s)) = dget f (cl_dir s)).
    { intros n f Hf. cbn [spill cl_dir]. rewrite dget_append.
      destruct (fname_eqb_spec f (cl_act s)); [congruence|reflexivity]. }
    destruct x; try destruct Hx; cbn [lstep]; eexists; (split; [reflexivity|]); (split; [reflexivity|]); auto.
    intros f Hf. now apply Hsp. }
  destruct Hst as (s1 & E1 & A1 & D1). destruct (IH s1 Hl) as (s' & E & A & D).
  exists s'. cbn [lrun]. rewrite E1. cbn [bind]. split; [exact E|]. split; [congruence|].
  intros f Hf. rewrite D by congruence. auto.
Qed.

Lemma copy_ok : forall names d, (forall f, In f names -> dget f d <> None) ->
  exists b, copy_files names d = Ok b /\ map fst b = names
    /\ forall f, dget f b = if existsb (fname_eqb f) names then dget f d else None.
Proof.
  induction names as [|g names IH]; intros d H; [exists []; auto|].
  destruct (IH d) as (b & E & K & G); [intros f Hf; apply H; now right|].
  destruct (dget g d) as [c|] eqn:Eg; [|exfalso; now apply (H g (or_introl eq_refl))].
  exists ((g, c) :: b). cbn [copy_files]. rewrite Eg, E. cbn [bind]. split; [reflexivity|].
  split; [cbn; congruence|]. intros f. cbn [dget existsb].
  destruct (fname_eqb_spec f g) as [->|]; [now rewrite Eg|apply G].
Qed.

Lemma encode_all_nil os : encode_all os = [] -> os = [].
Proof. destruct os as [|o os]; [reflexivity|]. unfold encode_all. cbn. rewrite (encode_split o). discriminate. Qed.

Definition nonempty_log (fo : fname * list lop) : bool := match snd fo with [] => false | _ => true end.

Lemma flat_nonempty (lg : log) : flat_map snd (filter nonempty_log lg) = flat_map snd lg.
Proof.
  induction lg as [|[f [|o os]] lg IH]; cbn; [reflexivity|exact IH|now rewrite IH].
Qed.

Lemma lget_nonempty f lg : NoDup (map fst lg) ->
  lget f (filter nonempty_log lg) = match lget f lg with Some [] => None | x => x end.
Proof.
  induction lg as [|[g os] lg IH]; cbn; [reflexivity|]. intros H. inversion H as [|? ? H1 H2]; subst.
  assert (Hno : f = g -> lget f lg = None).
  { intros ->. destruct (lget g lg) eqn:E; [|reflexivity]. exfalso. apply H1, lget_in. congruence. }
  destruct os as [|o os]; cbn.
  - rewrite IH by exact H2. destruct (fname_eqb_spec f g) as [E|]; [now rewrite Hno|reflexivity].
  - destruct (fname_eqb f g); [reflexivity|]. now apply IH.
Qed.

Lemma sorted_sub (p : fname * list lop -> bool) lg : StronglySorted earlier (map fst lg) ->
  StronglySorted earlier (map fst (filter p lg)).
Proof.
  induction lg as [|x lg IH]; cbn; [auto|]. intros H. inversion H as [|? ? H1 H2]; subst.
  destruct (p x); cbn; [|now apply IH]. constructor; [now apply IH|].
  apply Forall_forall. intros y Hy. apply (proj1 (Forall_forall _ _) H2).
  apply in_map_iff in Hy as (z & <- & Hz). apply filter_In in Hz as [Hz _]. now apply in_map.
Qed.

Lemma in_found f d c : dirok d -> dget f d = Some c ->
  In f (map fst (filter (fun fc : fname * list N => match snd fc with [] => false | _ => true end) d)) <-> c <> [].
Proof.
  unfold dirok. induction d as [|[g x] d IH]; cbn; [discriminate|]. intros Hnd. inversion Hnd as [|? ? H1 H2]; subst.
  destruct (fname_eqb_spec f g) as [->|Hne].
  - intros [= ->]. destruct c; cbn; [|intuition congruence]. split; [|congruence]. intros Hin. exfalso. apply H1.
    apply in_map_iff in Hin as (y & <- & Hy). apply filter_In in Hy as [Hy _]. now apply in_map.
  - intros E. destruct x; cbn; [now apply IH|]. rewrite (IH H2 E). intuition congruence.
Qed.

Lemma found_in f d : dirok d ->
  In f (map fst (filter (fun fc : fname * list N => match snd fc with [] => false | _ => true end) d)) ->
  exists c, dget f d = Some c /\ c <> [].
Proof.
  intros Hd Hin. assert (Hk : In f (map fst d)).
  { apply in_map_iff in Hin as (y & <- & Hy). apply filter_In in Hy as [Hy _]. now apply in_map. }
  apply dget_in in Hk. destruct (dget f d) as [c|] eqn:E; [|congruence]. exists c. split; [reflexivity|].
  now apply (in_found f d c).
Qed.

Lemma dget_scratch f d : snd f = ScratchTmp -> dget f (remove_tmp_combining d) = dget f d.
Proof.
  intros Ek. unfold remove_tmp_combining. induction d as [|[h x] d IH]; cbn; [reflexivity|].
  destruct (kind_eqb (snd h) CombinedTmp) eqn:E; cbn.
  - rewrite IH. destruct (fname_eqb_spec f h) as [->|]; [rewrite Ek in E; discriminate|reflexivity].
  - now rewrite IH.
Qed.

Ltac by_if := match goal with |- (if ?b then _ else _) = _ => destruct b; reflexivity end.

(** A backup right after a switch to a fresh file. *)
Lemma backup_ok desc srt max s a now later : rsorts desc -> sorts srt ->
  linv s a [] [] now -> cl_buf s = [] -> no_tmp (cl_dir s) -> Forall quiet later ->
  exists names d2 s2 b st,
    list_files desc (Some (cl_dir s)) = Ok (names, d2)
    /\ lrun desc max later (mkCL d2 (cl_act s) []) = Ok s2
    /\ copy_files names (cl_dir s2) = Ok b
    /\ apply_all false (flat_map snd a) ls_init = Ok st
    /\ restore srt b = Ok st.
Proof.
  intros Hr Hsrt H Hb Htmp Hq. pose proof (li_current desc _ _ _ _ _ Hr H) as Hcur.
  set (found := map fst (filter (fun fc : fname * list N => match snd fc with [] => false | _ => true end) (cl_dir s))).
  set (names := filter (fun f => negb (fname_eqb f (cl_act s))) found).
  set (d2 := remove_tmp_combining (cl_dir s)).
  destruct (quiet_run desc max later (mkCL d2 (cl_act s) []) Hq) as (s2 & E2 & A2 & D2). cbn [cl_act cl_dir] in A2, D2.
  assert (Hd2 : forall f, dget f d2 = dget f (cl_dir s)).
  { intros f. unfold d2. destruct (snd f) eqn:Ek; try (apply dget_tmp; unfold live; now rewrite Ek).
    - destruct f as [t k]. cbn in Ek. subst k. now rewrite Htmp, no_tmp_removed.
    - now apply dget_scratch. }
  assert (Hdir2 : forall f, In f names -> dget f (cl_dir s2) = dget f (cl_dir s)).
  { intros f Hf. unfold names in Hf. apply filter_In in Hf as [_ Hf]. rewrite D2, Hd2; [reflexivity|].
    intros ->. now rewrite fname_eqb_refl in Hf. }
  pose proof (li_ok _ _ _ _ _ H) as Hd.
  destruct (copy_ok names (cl_dir s2)) as (b & Eb & Kb & Gb).
  { intros f Hf. rewrite Hdir2 by exact Hf. unfold names in Hf. apply filter_In in Hf as [Hf _].
    apply found_in in Hf as (c & E & _); [congruence|exact Hd]. }
  assert (Gb2 : forall f, dget f b = if fname_eqb f (cl_act s) then None
                 else match dget f (cl_dir s) with Some [] => None | x => x end).
  { intros f. rewrite Gb. destruct (existsb (fname_eqb f) names) eqn:Ex.
    - apply existsb_exists in Ex as (g & Hg & Efg).
      destruct (fname_eqb_spec f g) as [<-|]; [|discriminate]. rewrite Hdir2 by exact Hg.
      unfold names in Hg. apply filter_In in Hg as [Hg Hn]. destruct (fname_eqb f (cl_act s)); [discriminate|].
      apply found_in in Hg as (c & -> & Hc); [|exact Hd]. now destruct c.
    - destruct (fname_eqb f (cl_act s)) eqn:Ea; [reflexivity|].
      destruct (dget f (cl_dir s)) as [[|x c]|] eqn:Ef; try reflexivity. exfalso.
      assert (Hin : In f names).
      { unfold names. apply filter_In. rewrite Ea. split; [|reflexivity]. apply (in_found f _ (x :: c)); [exact Hd|exact Ef|discriminate]. }
      assert (existsb (fname_eqb f) names = true); [|congruence]. apply existsb_exists. exists f.
      split; [exact Hin|apply fname_eqb_refl]. }
  assert (Hdb : dirok b).
  { unfold dirok. rewrite Kb. unfold names, found. apply NoDup_filter.
    clear - Hd. unfold dirok in Hd. induction (cl_dir s) as [|x d IH]; cbn; [constructor|].
    cbn in Hd. inversion Hd as [|? ? H1 H2]; subst. destruct (snd x); cbn; [now apply IH|]. constructor; [|now apply IH].
    intros Hin. apply H1. apply in_map_iff in Hin as (y & <- & Hy). apply filter_In in Hy as [Hy _]. now apply in_map. }
  pose proof (li_shows _ _ _ _ _ H) as Hs. pose proof (li_get _ _ _ _ _ H) as Hga.
  pose proof (li_clean _ _ _ _ _ H) as Hcl.
  assert (Hfull : forall g, dget g (append (cl_act s) (cl_buf s) (cl_dir s)) = dget g (cl_dir s)).
  { intros g. rewrite Hb. now apply (append_nil_get _ _ _ []). }
  pose proof (last_nodup _ _ _ (sh_sorted _ _ Hs)) as Hlt.
  assert (Hclb : no_hidden b).
  { intros t Ht. rewrite Gb2 in *. destruct (fname_eqb (t, Plain) (cl_act s)); [congruence|].
    destruct (dget (t, Plain) (cl_dir s)) eqn:E; [|congruence]. rewrite (Hcl t) by congruence.
    now destruct (fname_eqb (t, Condensed) (cl_act s)). }
  assert (Hsa : StronglySorted earlier (map fst a)).
  { pose proof (sh_sorted _ _ Hs) as Hso. rewrite map_app in Hso. clear - Hso.
    induction (map fst a) as [|x l IH]; cbn in *; [constructor|]. inversion Hso as [|? ? H1 H2]; subst.
    apply Forall_app in H2 as [H2 _]. constructor; auto. }
  assert (Hsb : shows b (filter nonempty_log a)).
  { constructor; [exact Hdb| |now apply sorted_sub|].
    - intros f. rewrite lget_nonempty by now apply earlier_nodup.
      pose proof (sh_seen _ _ Hs f) as Hf. rewrite (seen_ext _ _ f Hfull), lget_last in Hf by exact Hlt.
      unfold seen in *. rewrite Gb2. destruct (live f) eqn:El; cbn [andb] in *.
      2:{ destruct (fname_eqb f (cl_act s)); [discriminate|]. now destruct (lget f a). }
      destruct (dget f b) as [x|] eqn:Ex.
      + rewrite clean_not_hidden by (auto; congruence). rewrite Gb2 in Ex.
        destruct (fname_eqb f (cl_act s)); [discriminate|].
        destruct (dget f (cl_dir s)) as [[|y c]|] eqn:Ey; try discriminate.
        rewrite clean_not_hidden in Hf by (auto; congruence). cbn [negb] in *.
        destruct (lget f a) as [[|o os]|] eqn:Ea; try discriminate. exact Hf.
      + rewrite Gb2 in Ex. destruct (fname_eqb_spec f (cl_act s)) as [Efa|].
        * destruct (lget f a) eqn:Ea; [|by_if].
          exfalso. assert (Hi : In f (map fst a)) by (apply lget_in; congruence). apply Hlt in Hi. rewrite Efa in Hi. lia.
        * destruct (dget f (cl_dir s)) as [[|y c]|] eqn:Ey; try discriminate.
          -- rewrite clean_not_hidden in Hf by (auto; congruence). cbn [negb] in Hf.
             destruct (lget f a) as [os|]; [|discriminate]. injection Hf as Hf. symmetry in Hf.
             apply encode_all_nil in Hf. subst os. by_if.
          -- destruct (lget f a); [destruct (negb (hidden (cl_dir s) f)); discriminate|]. by_if.
    - pose proof (sh_ok _ _ Hs) as Hok. apply Forall_app in Hok as [Hok _].
      apply Forall_forall. intros x Hx. apply filter_In in Hx as [Hx _]. exact (proj1 (Forall_forall _ _) Hok x Hx). }
  destruct (restore_shows srt b _ Hsrt Hsb) as (st & Est & Rst). rewrite flat_nonempty in Est.
  exists names, d2, s2, b, st. unfold list_files. rewrite Hcur. cbn [bind fst snd].
  split; [reflexivity|]. auto.
Qed.
