(** C68: the numbers of a request and the floats they become. *)
From Coq Require Import ZArith Reals Psatz Ascii String List.
From Flocq Require Import Core.Core IEEE754.BinarySingleNaN.
From Verif Require Import Base F32 F32Real F32Norm F32Err F32Cmp JsonNum Graph Client Handlers HandlersProofs Vectorizer NumProofs.
Import ListNotations.
Local Open Scope string_scope.
Local Open Scope list_scope.
Local Open Scope R_scope.

(** A float32 (float64) nearest to the real number [v]. *)
Definition nearest32 (v : R) (c : f32) : Prop :=
  f32_valid c /\ fin c /\ forall y, f32_valid y -> fin y -> Rabs (rv c - v) <= Rabs (rv y - v).
Definition nearest64 (v : R) (c : f64) : Prop :=
  f64_valid c /\ fin c /\ forall y, f64_valid y -> fin y -> Rabs (rv c - v) <= Rabs (rv y - v).
(** The array of the literals as it stands in a request. *)
Definition array_of (ls : list lit) : list jval := map (fun l => JNum (lit_text l)) ls.

Lemma floats_each ls w : floats (array_of ls) = Some w -> Forall2 (fun l c => f32_of_text (lit_text l) = Some c) ls w.
Proof.
  revert w. induction ls as [|l ls IH]; intros w; cbn [array_of map floats].
  - intros [= <-]. constructor.
  - destruct (f32_of_text (lit_text l)) as [c|] eqn:E; [|discriminate]. fold (array_of ls).
    destruct (floats (array_of ls)) as [w'|]; [|discriminate]. intros [= <-]. constructor; [exact E|now apply IH].
Qed.
Lemma vector_each ls w : vector_of (array_of ls) = Some w -> Forall2 (fun l c => f32_of_num (lit_text l) = Some c) ls w.
Proof.
  revert w. induction ls as [|l ls IH]; intros w; cbn [array_of map vector_of].
  - intros [= <-]. constructor.
  - destruct (f32_of_num (lit_text l)) as [c|] eqn:E; [|discriminate]. fold (array_of ls).
    destruct (vector_of (array_of ls)) as [w'|]; [|discriminate]. intros [= <-]. constructor; [exact E|now apply IH].
Qed.
Lemma forall2_imp {A B} (P Q : A -> B -> Prop) (H : A -> Prop) l m :
  Forall H l -> Forall2 P l m -> (forall a b, H a -> P a b -> Q a b) -> Forall2 Q l m.
Proof.
  intros Hl F HQ. induction F; [constructor|]. inversion Hl; subst. constructor; [now apply HQ|now apply IHF].
Qed.

(** The vector of a query, and the vectors the vectorizer answers with: every
    component is the nearest float32, and only numbers beyond the range of
    float32 are refused. *)
Theorem C68_query_nearest : forall ls,
  Forall lit_ok ls ->
  (forall w, float_slice (JArr (array_of ls)) = Some w -> Forall2 (fun l c => nearest32 (lit_value l) c) ls w) /\
  ((exists w, float_slice (JArr (array_of ls)) = Some w) <->
   Forall (fun l => Rabs (lit_value l) < pow2 128 - pow2 103) ls).
Proof.
  intros ls H. cbn [float_slice]. split.
  - intros w E. refine (forall2_imp _ _ _ _ _ H (floats_each _ _ E) _). clear. intros l c Hl E.
    destruct (f32_text_real _ _ E) as (v & Ev & V & F & R). rewrite (lit_num l Hl) in Ev. injection Ev as <-.
    split; [exact V|]. split; [exact F|]. intros y Vy _. rewrite R. now apply rnd32_nearest.
  - induction H as [|l ls Hl H IH]; [split; [constructor|now exists []]|]. cbn [array_of map floats]. fold (array_of ls).
    pose proof (f32_text_iff l Hl) as I. unfold over32 in I. split.
    + intros [w E]. destruct (f32_of_text (lit_text l)) as [c|]; [|discriminate].
      destruct (floats (array_of ls)) as [w'|]; [|discriminate]. constructor; [apply I; eauto|apply IH; eauto].
    + intros K. inversion K as [|? ? K1 K2]; subst. apply I in K1. destruct K1 as [c ->]. apply IH in K2. destruct K2 as [w ->]. eauto.
Qed.

(** The vector of a document (AddDocuments).  Missing: the nearest float32; the
    component is nearest up to the error of the float64 in between. *)
Theorem C68_document_faithful_partial : forall ls w,
  Forall lit_ok ls -> vector_of (array_of ls) = Some w ->
  Forall2 (fun l c =>
    let v := lit_value l in
    f32_valid c /\
    (Rabs v <= pow2 128 - pow2 104 ->
     fin c /\
     (forall y, f32_valid y -> fin y -> (rv y <= v -> rv y <= rv c) /\ (v <= rv y -> rv c <= rv y)) /\
     (forall y, f32_valid y -> fin y -> Rabs (rv c - v) <= Rabs (rv y - v) + (pow2 (-52) * Rabs v + pow2 (-1074))) /\
     Rabs (rv c - v) <= (pow2 (-24) + pow2 (-52)) * Rabs v + pow2 (-149)) /\
    (pow2 128 <= Rabs v -> exists b, c = SpecFloat.S754_infinity b)) ls w.
Proof.
  intros ls w H E. refine (forall2_imp _ _ _ _ _ H (vector_each _ _ E) _). clear. intros l c Hl E. cbv zeta.
  destruct (f32_num_real l c Hl E) as (V & A & B). split; [exact V|]. split.
  - intros K. destruct (A (rnd64_max _ K)) as [F R]. split; [exact F|]. rewrite R. split; [|split].
    + intros y Vy _. now apply twice_faithful.
    + intros y Vy _. now apply twice_near.
    + set (v := lit_value l). pose proof (rnd64_err v) as E1. pose proof (rnd32_err (rnd64 v)) as E2. fold v in K.
      assert (T1 : Rabs (rnd32 (rnd64 v) - v) <= Rabs (rnd32 (rnd64 v) - rnd64 v) + Rabs (rnd64 v - v)).
      { eapply Rle_trans; [|apply Rabs_triang]. right. f_equal. ring. }
      assert (T2 : Rabs (rnd64 v) <= Rabs (rnd64 v - v) + Rabs v).
      { eapply Rle_trans; [|apply Rabs_triang]. right. f_equal. ring. }
      unfold u, eta in E2. pose proof (Rabs_pos v).
      assert (P1 : pow2 (-24) = / 16777216) by reflexivity. assert (P2 : pow2 (-52) = 2 * pow2 (-53)) by (change (-52)%Z with (1 + -53)%Z; rewrite bpow_plus; reflexivity).
      assert (P3 : pow2 (-149) = 2 * pow2 (-150)) by (change (-149)%Z with (1 + -150)%Z; rewrite bpow_plus; reflexivity).
      assert (P4 : pow2 (-1075) <= / 4 * pow2 (-150)).
      { replace (/ 4) with (pow2 (-2)) by reflexivity. rewrite <- bpow_plus. apply bpow_le. lia. }
      pose proof (bpow_gt_0 radix2 (-53)) as P5. pose proof (bpow_gt_0 radix2 (-150)) as P6.
      assert (P7 : 0 <= pow2 (-53) * Rabs v) by (apply Rmult_le_pos; lra).
      rewrite P1 in *. rewrite P2, P3. lra.
  - intros K. apply B. now apply pow_ge_over.
Qed.

(** A document's vector is refused only for a number beyond the range of
    float64: one between the ranges is stored as an infinity. *)
Theorem C68_document_accepted : forall ls,
  Forall lit_ok ls ->
  (exists w, vector_of (array_of ls) = Some w) <-> Forall (fun l => Rabs (lit_value l) < pow2 1024 - pow2 970) ls.
Proof.
  intros ls H. induction H as [|l ls Hl H IH]; [split; [constructor|now exists []]|]. cbn [array_of map vector_of]. fold (array_of ls).
  pose proof (f64_num_iff l Hl) as I. unfold over64 in I. split.
  - intros [w E]. destruct (f32_of_num (lit_text l)) as [c|]; [|discriminate].
    destruct (vector_of (array_of ls)) as [w'|]; [|discriminate]. constructor; [apply I; eauto|apply IH; eauto].
  - intros K. inversion K as [|? ? K1 K2]; subst. apply I in K1. destruct K1 as [c ->]. apply IH in K2. destruct K2 as [w ->]. eauto.
Qed.

(** float32 values sent with 9 significant digits, or exactly, come back
    unchanged, in documents and in queries. *)
Theorem C68_round_trip : forall ls ys,
  Forall lit_ok ls ->
  Forall2 (fun l y => f32_valid y /\ fin y /\ Rabs (lit_value l - rv y) <= pow2 (-26) * Rabs (rv y)) ls ys ->
  exists w q, vector_of (array_of ls) = Some w /\ float_slice (JArr (array_of ls)) = Some q /\
    map rv w = map rv ys /\ map rv q = map rv ys.
Proof.
  intros ls ys H F. induction F as [|l y ls ys (Vy & Fy & D) F IH]; [now exists [], []|].
  inversion H as [|? ? Hl H']; subst. destruct (IH H') as (w & q & Ew & Eq & Mw & Mq). cbn [float_slice] in Eq |- *.
  assert (Hy : Rabs (rv y) <= max32).
  { apply Rnot_lt_le. intros K. pose proof (valid_lt prec32 emax32 _ Vy) as L. pose proof (valid_format prec32 emax32 _ Vy) as G.
    change (SF2R radix2 y) with (rv y) in L, G. change emax32 with 128%Z in L. apply generic_format_abs in G.
    assert (S := succ_le_lt radix2 (SpecFloat.fexp prec32 emax32) max32 (Rabs (rv y)) max32_format G K). rewrite max32_succ in S. lra. }
  assert (R1 := twice_back _ _ Vy D).
  assert (R0 : rnd32 (lit_value l) = rv y).
  { destruct (Req_dec (rv y) 0) as [Z|N].
    - rewrite Z in *. rewrite Rabs_R0, Rmult_0_r in D. assert (E : lit_value l = 0).
      { destruct (Req_dec (lit_value l) 0) as [E|E]; [exact E|]. apply Rabs_pos_lt in E. rewrite Rminus_0_r in D. lra. }
      rewrite E. apply rnd32_0.
    - apply rnd32_near; [exact Vy|exact N|]. change (-25)%Z with (1 + -26)%Z. rewrite bpow_plus. change (pow2 1) with 2.
      apply Rabs_pos_lt in N. pose proof (bpow_gt_0 radix2 (-26)) as P. assert (0 < pow2 (-26) * Rabs (rv y)) by now apply Rmult_lt_0_compat. lra. }
  assert (S0 : Rabs (lit_value l) < over32).
  { apply small32. rewrite R0. apply (valid_lt prec32 emax32 _ Vy). }
  assert (S1 : Rabs (lit_value l) < over64).
  { eapply Rlt_trans; [exact S0|]. unfold over32, over64. apply Rlt_trans with (pow2 128); [pose proof (bpow_gt_0 radix2 103); lra|].
    assert (pow2 1024 = pow2 54 * pow2 970) by (rewrite <- bpow_plus; reflexivity).
    assert (pow2 128 < pow2 970) by (apply bpow_lt; reflexivity). replace (pow2 54) with 18014398509481984 in H0 by reflexivity. pose proof (bpow_gt_0 radix2 970). lra. }
  apply (f64_num_iff l Hl) in S1. destruct S1 as [c Ec]. apply (f32_text_iff l Hl) in S0. destruct S0 as [c' Ec'].
  exists (c :: w), (c' :: q). cbn [array_of map vector_of floats]. fold (array_of ls). rewrite Ec, Ec', Ew, Eq.
  split; [reflexivity|]. split; [reflexivity|].
  destruct (f32_text_real _ _ Ec') as (v & Ev & _ & _ & R'). rewrite (lit_num l Hl) in Ev. injection Ev as <-.
  destruct (f32_num_real l c Hl Ec) as (_ & A & _). rewrite R' , R0.
  assert (Sm : Rabs (rnd64 (lit_value l)) < over32).
  { apply small32. rewrite R1. apply (valid_lt prec32 emax32 _ Vy). }
  destruct (A Sm) as [_ ->]. rewrite R1, Mw, Mq. split; reflexivity.
Qed.

(** Order is kept: a larger number gives no smaller component. *)
Theorem C68_monotone : forall l l' c c',
  lit_ok l -> lit_ok l' -> Rabs (lit_value l) <= pow2 128 - pow2 104 -> Rabs (lit_value l') <= pow2 128 - pow2 104 ->
  lit_value l <= lit_value l' ->
  (vector_of (array_of [l]) = Some [c] -> vector_of (array_of [l']) = Some [c'] -> rv c <= rv c') /\
  (float_slice (JArr (array_of [l])) = Some [c] -> float_slice (JArr (array_of [l'])) = Some [c'] -> rv c <= rv c').
Proof.
  intros l l' c c' Hl Hl' B B' L. split; intros E E'.
  - apply vector_each in E, E'. inversion E; inversion E'; subst.
    destruct (f32_num_real l c Hl ltac:(eassumption)) as (_ & A & _). destruct (f32_num_real l' c' Hl' ltac:(eassumption)) as (_ & A' & _).
    destruct (A (rnd64_max _ B)) as [_ ->]. destruct (A' (rnd64_max _ B')) as [_ ->]. now apply rnd32_mono, rnd64_mono.
  - cbn [float_slice] in E, E'. apply floats_each in E, E'. inversion E as [|? ? ? ? K]; inversion E' as [|? ? ? ? K']; subst.
    destruct (f32_text_real _ _ K) as (v & Ev & _ & _ & R). destruct (f32_text_real _ _ K') as (v' & Ev' & _ & _ & R').
    rewrite lit_num in Ev, Ev' by assumption. injection Ev as <-. injection Ev' as <-. rewrite R, R'. now apply rnd32_mono.
Qed.

(** Number properties: the number given back with a document is the nearest
    float64; no number in range is refused. *)
Theorem C68_property_nearest : forall l,
  lit_ok l ->
  (forall x, shown (JNum (lit_text l)) (RNum x) -> nearest64 (lit_value l) x) /\
  ((exists x, shown (JNum (lit_text l)) (RNum x)) <-> Rabs (lit_value l) < pow2 1024 - pow2 970).
Proof.
  intros l Hl. split.
  - intros x H. assert (E : f64_of_num (lit_text l) = Some x) by (inversion H; subst; assumption). destruct (f64_num_real _ _ E) as (v & Ev & V & F & R).
    rewrite (lit_num l Hl) in Ev. injection Ev as <-. split; [exact V|]. split; [exact F|]. intros y Vy _. rewrite R.
    destruct (round_N_pt radix2 (SpecFloat.fexp prec64 emax64) (fun z => negb (Z.even z)) (lit_value l)) as [_ N].
    apply N. now apply (valid_format prec64 emax64).
  - rewrite <- (f64_num_iff l Hl). unfold f32_of_num. split.
    + intros [x H]. assert (E : f64_of_num (lit_text l) = Some x) by (inversion H; subst; assumption). rewrite E. eauto.
    + intros [c E]. destruct (f64_of_num (lit_text l)) as [x|] eqn:K; [|discriminate]. exists x. now constructor.
Qed.

(** The literals of a text, for the examples. *)
Definition ip (neg : bool) (i f : list Z) : lit := mkLit neg i (Some f) None.
Lemma ok_dec l : (negb (match l_int l with [] => true | _ => false end) && forallb (fun d => (0 <=? d) && (d <=? 9))%Z (l_int l) &&
  match l_frac l with None => true | Some ds => negb (match ds with [] => true | _ => false end) && forallb (fun d => (0 <=? d) && (d <=? 9))%Z ds end &&
  match l_exp l with None => true | Some (_, _, ds) => negb (match ds with [] => true | _ => false end) && forallb (fun d => (0 <=? d) && (d <=? 9))%Z ds end)%bool
  = true -> lit_ok l.
Proof.
  assert (D : forall ds, (negb (match ds with [] => true | _ => false end) && forallb (fun d => (0 <=? d) && (d <=? 9))%Z ds)%bool = true -> digits_ok ds).
  { intros ds H. apply andb_prop in H. destruct H as [H1 H2]. split; [destruct ds; [discriminate|congruence]|].
    apply Forall_forall. intros d Hd. rewrite forallb_forall in H2. apply H2 in Hd. apply andb_prop in Hd.
    destruct Hd as [A B]. apply Z.leb_le in A, B. lia. }
  intros H. apply andb_prop in H. destruct H as [H H3]. apply andb_prop in H. destruct H as [H1 H2]. split; [now apply D|]. split.
  - intros ds E. rewrite E in H2. now apply D.
  - intros b g ds E. rewrite E in H3. now apply D.
Qed.

(** 1.000000059604644775390626 is a little more than half way from 1 to the next
    float32, but its float64 is exactly half way: the document's component is 1,
    the query's 1 + 2^-23. *)
Definition half_up : lit := ip false [1]%Z [0;0;0;0;0;0;0;5;9;6;0;4;6;4;4;7;7;5;3;9;0;6;2;6]%Z.
Definition f32_next1 : f32 := SpecFloat.S754_finite false 8388609 (-23).
Lemma half_up_value : lit_value half_up = 1 + pow2 (-24) + / 10 ^ 24.
Proof.
  unfold lit_value, half_up, ip. cbn [l_neg l_int l_frac l_exp lit_exp length].
  change (digits_value [1]%Z) with 1%Z.
  change (digits_value [0;0;0;0;0;0;0;5;9;6;0;4;6;4;4;7;7;5;3;9;0;6;2;6]%Z) with 59604644775390626%Z.
  unfold lit_exp. cbn [l_exp powerRZ]. replace (pow2 (-24)) with (/ 16777216) by reflexivity.
  lra.
Qed.
Theorem C68_document_nearest_refuted : exists l c,
  lit_ok l /\ lit_text l = "1.000000059604644775390626" /\ vector_of (array_of [l]) = Some [c] /\ ~ nearest32 (lit_value l) c.
Proof.
  exists half_up, f32_one. split; [apply ok_dec; vm_compute; reflexivity|]. split; [vm_compute; reflexivity|].
  split; [vm_compute; reflexivity|]. intros (_ & _ & H). specialize (H f32_next1 eq_refl eq_refl).
  rewrite half_up_value in H. replace (rv f32_one) with 1 in H.
  - replace (rv f32_next1) with (1 + pow2 (-23)) in H.
    + replace (pow2 (-24)) with (/ 16777216) in H by reflexivity. replace (pow2 (-23)) with (/ 8388608) in H by reflexivity.
      assert (P : 0 < / 10 ^ 24) by (apply Rinv_0_lt_compat, pow_lt; lra). assert (P' : / 10 ^ 24 < / 16777216).
      { apply Rinv_lt_contravar; [apply Rmult_lt_0_compat; [lra|apply pow_lt; lra]|]. lra. }
      rewrite Rabs_left in H by lra. rewrite Rabs_pos_eq in H by lra. lra.
    + unfold rv, f32_next1, SF2R, F2R. cbn [Fnum Fexp cond_Zopp]. replace (pow2 (-23)) with (/ 8388608) by reflexivity. lra.
  - change f32_one with (SpecFloat.S754_finite false 8388608 (-23)). unfold rv, SF2R, F2R. cbn [Fnum Fexp cond_Zopp]. replace (pow2 (-23)) with (/ 8388608) by reflexivity. lra.
Qed.
(** The same numbers sent as a document's vector and as a query are different
    vectors. *)
Theorem C68_document_query_differ_refuted : exists l c c',
  lit_ok l /\ vector_of (array_of [l]) = Some [c] /\ float_slice (JArr (array_of [l])) = Some [c'] /\ c <> c'.
Proof.
  exists half_up, f32_one, f32_next1. split; [apply ok_dec; vm_compute; reflexivity|].
  split; [vm_compute; reflexivity|]. split; [vm_compute; reflexivity|]. discriminate.
Qed.
(** 1e39 is refused in a query and stored as an infinity in a document. *)
Theorem C68_infinite_stored_refuted : exists l,
  lit_ok l /\ lit_text l = "1e39" /\ vector_of (array_of [l]) = Some [SpecFloat.S754_infinity false] /\
  float_slice (JArr (array_of [l])) = None.
Proof.
  exists (mkLit false [1]%Z None (Some (false, None, [3; 9]%Z))). split; [apply ok_dec; vm_compute; reflexivity|].
  split; [vm_compute; reflexivity|]. split; vm_compute; reflexivity.
Qed.

(** Examples. *)
Definition lits3 : list lit :=
  [ip true [0]%Z [5]%Z; mkLit false [1; 2]%Z (Some [2; 5]%Z) (Some (true, Some true, [1]%Z)); mkLit false [3]%Z None (Some (false, Some false, [0; 2]%Z))].
Example C68_texts : map lit_text lits3 = ["-0.5"; "12.25E-1"; "3e+02"].
Proof. vm_compute. reflexivity. Qed.
Example C68_literals_ok : Forall lit_ok lits3.
Proof. do 3 (apply Forall_cons; [apply ok_dec; vm_compute; reflexivity|]). apply Forall_nil. Qed.
Example C68_accepted : (exists w, vector_of (array_of lits3) = Some w) /\ (exists w, float_slice (JArr (array_of lits3)) = Some w).
Proof. split; eexists; vm_compute; reflexivity. Qed.
Example C68_value : lit_value (mkLit false [1; 2]%Z (Some [2; 5]%Z) (Some (true, Some true, [1]%Z))) = 1225 / 1000.
Proof. unfold lit_value, lit_exp. cbn [l_neg l_int l_frac l_exp length]. change (digits_value [1; 2]%Z) with 12%Z.
  change (digits_value [2; 5]%Z) with 25%Z. change (- digits_value [1]%Z)%Z with (-1)%Z. cbn [powerRZ Pos.to_nat]. change (Pos.to_nat 1) with 1%nat. lra. Qed.
(** 0.100000001 stands for the float32 13421773 * 2^-27 and is read as it. *)
Definition tenth : f32 := SpecFloat.S754_finite false 13421773 (-27).
Example C68_tenth_near : lit_ok (ip false [0]%Z [1;0;0;0;0;0;0;0;1]%Z) /\
  Forall2 (fun l y => f32_valid y /\ fin y /\ Rabs (lit_value l - rv y) <= pow2 (-26) * Rabs (rv y))
    [ip false [0]%Z [1;0;0;0;0;0;0;0;1]%Z] [tenth] /\
  vector_of (array_of [ip false [0]%Z [1;0;0;0;0;0;0;0;1]%Z]) = Some [tenth].
Proof.
  split; [apply ok_dec; vm_compute; reflexivity|]. split; [|vm_compute; reflexivity]. constructor; [|constructor].
  split; [reflexivity|]. split; [reflexivity|].
  unfold lit_value, lit_exp, ip. cbn [l_neg l_int l_frac l_exp length powerRZ]. change (digits_value [0]%Z) with 0%Z.
  change (digits_value [1;0;0;0;0;0;0;0;1]%Z) with 100000001%Z.
  unfold rv, tenth, SF2R, F2R. cbn [Fnum Fexp cond_Zopp]. replace (pow2 (-27)) with (/ 134217728) by reflexivity.
  replace (pow2 (-26)) with (/ 67108864) by reflexivity. rewrite (Rabs_pos_eq (13421773 * _)) by lra. apply Rabs_le. lra.
Qed.

Print Assumptions C68_query_nearest.
Print Assumptions C68_document_faithful_partial.
Print Assumptions C68_document_accepted.
Print Assumptions C68_round_trip.
Print Assumptions C68_monotone.
Print Assumptions C68_property_nearest.
Print Assumptions C68_document_nearest_refuted.
Print Assumptions C68_document_query_differ_refuted.
Print Assumptions C68_infinite_stored_refuted.
