(** Proofs about the configuration. *)
From Coq Require Import String Ascii DecimalString DecimalN Decimal.
From Verif Require Import Base JsonNum Collections CollectionsProofs Config.
Local Open Scope string_scope.

(* ------------------------------------------------------------------ *)
(** Printed integers are read back. *)
Fixpoint dval (d : Decimal.uint) (n : Z) : Z :=
  match d with
  | Nil => n
  | D0 d => dval d (10 * n)
  | D1 d => dval d (10 * n + 1)
  | D2 d => dval d (10 * n + 2)
  | D3 d => dval d (10 * n + 3)
  | D4 d => dval d (10 * n + 4)
  | D5 d => dval d (10 * n + 5)
  | D6 d => dval d (10 * n + 6)
  | D7 d => dval d (10 * n + 7)
  | D8 d => dval d (10 * n + 8)
  | D9 d => dval d (10 * n + 9)
  end.
Lemma dval_acc d : forall p, dval d (Zpos p) = Zpos (Pos.of_uint_acc d p).
Proof. induction d; intros p; cbn [dval Pos.of_uint_acc]; auto; rewrite <- IHd; f_equal; lia. Qed.
Lemma dval_of_uint d : dval d 0 = Z.of_N (N.of_uint d).
Proof.
  induction d; cbn [dval]; try reflexivity; try (cbn; exact (dval_acc d _)). exact IHd.
Qed.
Lemma dval_ge d : forall n, (0 <= n -> n <= dval d n)%Z.
Proof.
  induction d; intros n Hn; cbn [dval]; try lia;
    match goal with |- (_ <= dval _ ?e)%Z => specialize (IHd e); lia end.
Qed.

Definition limit64 : Z := 18446744073709551616.
Lemma parse_uint_digits d : forall n rest, (0 <= n)%Z ->
  parse_uint (NilEmpty.string_of_uint d ++ rest) n =
  if (dval d n <? limit64)%Z then parse_uint rest (dval d n)
  else match d with Nil => parse_uint rest n | _ => PRange end.
Proof.
  assert (Hstep : forall e (c : ascii) k n rest, (0 <= n)%Z -> (0 <= k)%Z -> digit c = Some k ->
    (forall n rest, (0 <= n)%Z ->
      parse_uint (NilEmpty.string_of_uint e ++ rest) n =
      if (dval e n <? limit64)%Z then parse_uint rest (dval e n)
      else match e with Nil => parse_uint rest n | _ => PRange end) ->
    parse_uint (String c (NilEmpty.string_of_uint e ++ rest)) n =
    if (dval e (10 * n + k) <? limit64)%Z then parse_uint rest (dval e (10 * n + k)) else PRange).
  { intros e c k n rest Hn Hk Hc IH. cbn [parse_uint]. rewrite Hc. unfold limit64 in *.
    pose proof (dval_ge e (10 * n + k) ltac:(lia)) as Hge.
    destruct (18446744073709551616 <=? 10 * n + k)%Z eqn:E.
    - apply Z.leb_le in E. destruct (Z.ltb_spec (dval e (10 * n + k)) 18446744073709551616); [lia|reflexivity].
    - apply Z.leb_gt in E. rewrite IH by lia.
      destruct (Z.ltb_spec (dval e (10 * n + k)) 18446744073709551616); [reflexivity|].
      destruct e; try reflexivity. cbn [dval] in *. lia. }
  induction d; intros n rest Hn; cbn [NilEmpty.string_of_uint append dval].
  - now destruct (n <? limit64)%Z.
  - replace (10 * n)%Z with (10 * n + 0)%Z by lia. apply Hstep; auto; try lia; reflexivity.
  - apply Hstep; auto; try lia; reflexivity.
  - apply Hstep; auto; try lia; reflexivity.
  - apply Hstep; auto; try lia; reflexivity.
  - apply Hstep; auto; try lia; reflexivity.
  - apply Hstep; auto; try lia; reflexivity.
  - apply Hstep; auto; try lia; reflexivity.
  - apply Hstep; auto; try lia; reflexivity.
  - apply Hstep; auto; try lia; reflexivity.
  - apply Hstep; auto; try lia; reflexivity.
Qed.

(** [decimal n] with something after it. *)
Lemma to_uint_cases n : N.to_uint n <> Nil.
Proof.
  intros E. pose proof (DecimalN.Unsigned.of_to n) as H1. rewrite E in H1. cbn in H1. subst n. discriminate.
Qed.
Lemma parse_uint_decimal n rest :
  parse_uint (decimal n ++ rest) 0 = if (Z.of_N n <? limit64)%Z then parse_uint rest (Z.of_N n) else PRange.
Proof.
  unfold decimal, NilZero.string_of_uint. pose proof (to_uint_cases n) as Hn.
  assert (Hv : dval (N.to_uint n) 0 = Z.of_N n) by (rewrite dval_of_uint; now rewrite DecimalN.Unsigned.of_to).
  destruct (N.to_uint n) eqn:E; [congruence| | | | | | | | | |];
    rewrite <- Hv, parse_uint_digits by lia; reflexivity.
Qed.
Lemma decimal_head n : exists c s, decimal n = String c s /\ digit c <> None.
Proof.
  unfold decimal, NilZero.string_of_uint. destruct (N.to_uint n) eqn:E; eexists _, _; (split; [reflexivity|]); discriminate.
Qed.
Lemma parse_int_decimal n : parse_int (decimal n) = if (Z.of_N n <=? max_int64)%Z then PInt (Z.of_N n) else PRange.
Proof.
  destruct (decimal_head n) as (c & s & E & Hc). assert (H : parse_int (decimal n) =
    match parse_uint (decimal n) 0 with PInt z => if (max_int64 <? z)%Z then PRange else PInt z | r => r end).
  { unfold parse_int. rewrite E.
    destruct c as [[] [] [] [] [] [] [] []]; try (exfalso; apply Hc; reflexivity); reflexivity. }
  rewrite H. rewrite <- (append_nil_r (decimal n)), parse_uint_decimal. cbn [parse_uint]. unfold limit64, max_int64 in *.
  destruct (Z.ltb_spec (Z.of_N n) 18446744073709551616); destruct (Z.leb_spec (Z.of_N n) 9223372036854775807);
    try lia; try reflexivity; destruct (Z.ltb_spec 9223372036854775807 (Z.of_N n)); try lia; reflexivity.
Qed.
Lemma parse_int_negative n : parse_int ("-" ++ decimal n) = if (Z.of_N n <=? 9223372036854775808)%Z then PInt (- Z.of_N n) else PRange.
Proof.
  destruct (decimal_head n) as (c & s & E & Hc). assert (H : parse_int ("-" ++ decimal n) =
    match parse_uint (decimal n) 0 with PInt z => if (9223372036854775808 <? z)%Z then PRange else PInt (- z) | r => r end).
  { unfold parse_int. cbn [append]. rewrite E. reflexivity. }
  rewrite H. rewrite <- (append_nil_r (decimal n)), parse_uint_decimal. cbn [parse_uint]. unfold limit64 in *.
  destruct (Z.ltb_spec (Z.of_N n) 18446744073709551616); destruct (Z.leb_spec (Z.of_N n) 9223372036854775808);
    try lia; try reflexivity; destruct (Z.ltb_spec 9223372036854775808 (Z.of_N n)); try lia; reflexivity.
Qed.
(** A fraction or an exponent after the integer part. *)
Lemma parse_int_fraction n c t : digit c = None ->
  parse_int (decimal n ++ String c t) = if (Z.of_N n <? limit64)%Z then PSyntax else PRange.
Proof.
  intros Hd. destruct (decimal_head n) as (c0 & s & E & Hc). assert (H : parse_int (decimal n ++ String c t) =
    match parse_uint (decimal n ++ String c t) 0 with PInt z => if (max_int64 <? z)%Z then PRange else PInt z | r => r end).
  { unfold parse_int. rewrite E. cbn [append].
    destruct c0 as [[] [] [] [] [] [] [] []]; try (exfalso; apply Hc; reflexivity); reflexivity. }
  rewrite H, parse_uint_decimal. cbn [parse_uint]. rewrite Hd. now destruct (Z.of_N n <? limit64)%Z.
Qed.

(* ------------------------------------------------------------------ *)
(** The integer fields. *)
Definition int_fields : list (string * (uconf -> Z) * Z) :=
  [("maxConnections", u_maxconn, 64); ("cleanupIntervalSeconds", u_cleanup, 300); ("efConstruction", u_efc, 128);
   ("ef", u_ef, -1); ("dynamicEfFactor", u_effactor, 8); ("dynamicEfMax", u_efmax, 500); ("dynamicEfMin", u_efmin, 100);
   ("vectorCacheMaxObjects", u_cachemax, 1000000000000); ("flatSearchCutoff", u_flat, 40000)]%Z.

Ltac step_or H :=
  let E := fresh "E" in
  match type of H with obind ?x _ = Some _ => destruct x eqn:E; [cbn [obind] in H|discriminate H] end.

Lemma parse_config_fields m u : parse_config (Some (CMap m)) = Some u ->
  (4 <= u_maxconn u)%Z /\ (4 <= u_efc u)%Z /\
  (forall f, In f int_fields -> int_or m (fst (fst f)) (snd f) = Some (snd (fst f) u)) /\
  u_skip u = bool_from_map m "skip" false /\ u_distance u = string_from_map m "distance" "cosine" /\
  parse_pq m default_pq = Some (u_pq u).
Proof.
  cbn [parse_config]. intros H. do 10 step_or H. cbv zeta in H.
  match type of H with (if valid ?x then _ else _) = _ => destruct (valid x) eqn:Ev; [|discriminate H]; injection H as H; subst u end.
  unfold valid in Ev. cbn [u_maxconn u_efc] in Ev. apply andb_prop in Ev. destruct Ev as [V1 V2]. apply Z.leb_le in V1, V2.
  split; [exact V1|]. split; [exact V2|]. split; [|repeat split; assumption].
  intros f Hf. cbn [int_fields In] in Hf. repeat (destruct Hf as [<-|Hf]; [cbn [fst snd u_maxconn u_cleanup u_efc u_ef u_effactor u_efmax u_efmin u_cachemax u_flat]; assumption|]). destruct Hf.
Qed.

(** Rejection. *)
Definition bad_int (m : list (string * cval)) (name : string) : Prop :=
  exists s, aget name m = Some (CNum s) /\ parse_int s = PSyntax.
Lemma int_or_none m name d : int_or m name d = None <-> bad_int m name.
Proof.
  unfold int_or, int_from_map, bad_int. destruct (aget name m) as [[s|z|b|s|m'|]|]; split; try discriminate;
    try (intros (s0 & H & _); discriminate).
  - destruct (parse_int s) eqn:E; try discriminate. intros _. now exists s.
  - intros (s0 & [= ->] & ->). reflexivity.
Qed.
Definition bad_pq (m : list (string * cval)) : Prop :=
  exists pm, aget "pq" m = Some (CMap pm) /\
    (bad_int pm "segments" \/ bad_int pm "centroids" \/
     exists em s, aget "encoder" pm = Some (CMap em) /\
       ((aget "type" em = Some (CStr s) /\ s <> "tile" /\ s <> "kmeans") \/
        (aget "distribution" em = Some (CStr s) /\ s <> "log-normal" /\ s <> "normal"))).
Lemma checked_none valid em name d : checked_from_map valid em name d = None <-> exists s, aget name em = Some (CStr s) /\ valid s = false.
Proof.
  unfold checked_from_map. destruct (aget name em) as [[s|z|b|s|m'|]|]; split; try discriminate; try (intros (s0 & H & _); discriminate).
  - destruct (valid s) eqn:E; [discriminate|]. intros _. now exists s.
  - intros (s0 & [= ->] & ->). reflexivity.
Qed.
Lemma valid_two s a b : (String.eqb s a || String.eqb s b)%bool = false <-> s <> a /\ s <> b.
Proof. rewrite orb_false_iff, !String.eqb_neq. tauto. Qed.
Lemma parse_pq_none m d : parse_pq m d = None <-> bad_pq m.
Proof.
  unfold parse_pq, bad_pq. destruct (aget "pq" m) as [[s|z|b|s|pm|]|]; try (split; [discriminate|intros (x & H & _); discriminate]).
  split.
  - intros H. exists pm. split; [reflexivity|].
    destruct (int_or pm "segments" (pq_segments d)) eqn:E1; [|left; now apply int_or_none in E1].
    destruct (int_or pm "centroids" (pq_centroids d)) eqn:E2; [|right; left; now apply int_or_none in E2].
    cbn [obind] in H. right. right. destruct (aget "encoder" pm) as [[s|z1|b|s|em|]|]; try discriminate.
    destruct (checked_from_map valid_encoder em "type" (pq_encoder d)) eqn:E3.
    + destruct (checked_from_map valid_distribution em "distribution" (pq_distribution d)) eqn:E4; [discriminate|].
      apply checked_none in E4. destruct E4 as (s' & H1 & H2). exists em, s'. split; [reflexivity|]. right.
      split; [exact H1|]. now apply valid_two.
    + apply checked_none in E3. destruct E3 as (s' & H1 & H2). exists em, s'. split; [reflexivity|]. left.
      split; [exact H1|]. now apply valid_two.
  - intros (pm' & [= <-] & H).
    destruct H as [H|[H|(em & s & He & H)]].
    + apply (int_or_none pm "segments" (pq_segments d)) in H. now rewrite H.
    + apply (int_or_none pm "centroids" (pq_centroids d)) in H. rewrite H. now destruct (int_or pm "segments" (pq_segments d)).
    + rewrite He. destruct (int_or pm "segments" (pq_segments d)); [|reflexivity]. destruct (int_or pm "centroids" (pq_centroids d)); [|reflexivity].
      cbn [obind]. destruct H as [[H1 H2]|[H1 H2]]; apply valid_two in H2.
      * assert (E : checked_from_map valid_encoder em "type" (pq_encoder d) = None) by (apply checked_none; now exists s).
        now rewrite E.
      * assert (E : checked_from_map valid_distribution em "distribution" (pq_distribution d) = None) by (apply checked_none; now exists s).
        rewrite E. now destruct (checked_from_map valid_encoder em "type" (pq_encoder d)).
Qed.
Definition too_small (m : list (string * cval)) (name : string) (dflt : Z) : Prop :=
  exists z, int_or m name dflt = Some z /\ (z < 4)%Z.
Lemma parse_config_none m : parse_config (Some (CMap m)) = None <->
  (exists f, In f int_fields /\ bad_int m (fst (fst f))) \/ bad_pq m \/
  too_small m "maxConnections" 64 \/ too_small m "efConstruction" 128.
Proof.
  split.
  - cbn [parse_config]. cbn [u_maxconn u_efc u_ef u_cleanup u_efmin u_efmax u_effactor u_cachemax u_flat u_skip u_distance u_pq defaults].
    intros H.
    assert (Hbad : forall n g d, In (n, g, d) int_fields -> int_or m n d = None -> exists f, In f int_fields /\ bad_int m (fst (fst f))).
    { intros n g d Hin Hn. exists (n, g, d). split; [exact Hin|]. cbn [fst]. now apply int_or_none in Hn. }
    repeat match type of H with
    | obind (int_or m ?n ?d) _ = None => let E := fresh "E" in destruct (int_or m n d) eqn:E;
        [cbn [obind] in H|left; refine (Hbad n _ d _ E); cbn [int_fields In]; tauto]
    end.
    destruct (parse_pq m default_pq) eqn:Ep; [cbn [obind] in H|right; left; now apply parse_pq_none in Ep].
    cbv zeta in H. match type of H with (if valid ?x then _ else _) = _ => destruct (valid x) eqn:Ev; [discriminate H|] end.
    unfold valid in Ev. cbn [u_maxconn u_efc] in Ev. right. right. apply andb_false_iff in Ev.
    destruct Ev as [Ev|Ev]; apply Z.leb_gt in Ev; [left|right]; eexists; (split; [eassumption|exact Ev]).
  - intros H. destruct (parse_config (Some (CMap m))) as [u|] eqn:E; [|reflexivity]. exfalso.
    apply parse_config_fields in E. destruct E as (H1 & H2 & H3 & _ & _ & H4).
    destruct H as [(f & Hf & Hb)|[H|[(z & Hz & Hl)|(z & Hz & Hl)]]].
    + specialize (H3 f Hf). apply (int_or_none m (fst (fst f)) (snd f)) in Hb. congruence.
    + apply (parse_pq_none m default_pq) in H. congruence.
    + specialize (H3 ("maxConnections", u_maxconn, 64%Z) ltac:(cbn [int_fields In]; tauto)). cbn [fst snd] in H3.
      rewrite Hz in H3. injection H3 as ->. lia.
    + specialize (H3 ("efConstruction", u_efc, 128%Z) ltac:(cbn [int_fields In]; tauto)). cbn [fst snd] in H3.
      rewrite Hz in H3. injection H3 as ->. lia.
Qed.

(** The value of an accepted integer field. *)
Lemma int_or_values m name dflt z : int_or m name dflt = Some z ->
  match aget name m with
  | None => z = dflt
  | Some (CNum s) => (forall n, s = decimal n -> z = Z.min (Z.of_N n) max_int64) /\
                     (forall n, s = "-" ++ decimal n -> z = if (Z.of_N n <=? 9223372036854775808)%Z then (- Z.of_N n)%Z else max_int64) /\
                     (forall n c t, digit c = None -> s = decimal n ++ String c t -> (18446744073709551616 <= Z.of_N n)%Z /\ z = max_int64)
  | Some (CFloat x) => z = x
  | Some _ => z = 0%Z
  end.
Proof.
  unfold int_or, int_from_map. destruct (aget name m) as [[s|x|b|s|m'|]|]; try congruence.
  intros H. split; [|split].
  - intros n ->. rewrite parse_int_decimal in H. destruct (Z.leb_spec (Z.of_N n) max_int64); injection H as <-; lia.
  - intros n ->. rewrite parse_int_negative in H. destruct (Z.of_N n <=? 9223372036854775808)%Z; now injection H as <-.
  - intros n c t Hc ->. rewrite (parse_int_fraction n c t Hc) in H. unfold limit64 in H.
    destruct (Z.ltb_spec (Z.of_N n) 18446744073709551616); [discriminate|]. injection H as <-. auto.
Qed.

(* ------------------------------------------------------------------ *)
(** Search breadth. *)
Lemma wrap64_id z : (-9223372036854775808 <= z < 9223372036854775808)%Z -> wrap64 z = z.
Proof. intros H. unfold wrap64. rewrite Z.mod_small by lia. lia. Qed.
Ltac ltbs := repeat match goal with |- context [(?a <? ?b)%Z] =>
  lazymatch a with context [if _ then _ else _] => fail | _ => destruct (Z.ltb_spec a b) end end.
Lemma search_ef_ge s k : (k <= search_ef s k)%Z.
Proof.
  unfold search_ef, auto_ef. cbv zeta.
  ltbs; lia.
Qed.
Lemma search_ef_set s k : (1 <= s_ef s)%Z -> search_ef s k = Z.max (s_ef s) k.
Proof.
  intros H. unfold search_ef. destruct (Z.ltb_spec (s_ef s) 1); [lia|]. destruct (Z.ltb_spec (s_ef s) k); lia.
Qed.
Lemma search_ef_auto s k : (s_ef s < 1)%Z -> (s_efmin s <= s_efmax s)%Z ->
  (-9223372036854775808 <= k * s_effactor s < 9223372036854775808)%Z ->
  search_ef s k = Z.max k (Z.max (s_efmin s) (Z.min (s_efmax s) (k * s_effactor s))).
Proof.
  intros H1 H2 H3. unfold search_ef, auto_ef. cbv zeta. rewrite (wrap64_id _ H3). generalize dependent (k * s_effactor s)%Z. intros x H3.
  destruct (Z.ltb_spec (s_ef s) 1); [|lia].
  ltbs; lia.
Qed.
Lemma search_ef_large s k : (s_ef s < 1)%Z -> (s_efmin s <= s_efmax s <= k)%Z -> search_ef s k = k.
Proof.
  intros H1 H2. unfold search_ef, auto_ef. cbv zeta. destruct (Z.ltb_spec (s_ef s) 1); [|lia].
  ltbs; lia.
Qed.
