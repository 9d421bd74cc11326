(** Rounding of decimal texts: json.Number to float64 to float32, and to float32
    at once. *)
From Coq Require Import ZArith Reals Psatz Ascii String SpecFloat.
From Flocq Require Import Core.Core Calc.Round IEEE754.BinarySingleNaN.
From Verif Require Import Base F32 F32Real F32Norm F32Err F32Cmp JsonNum JsonNumProofs Graph Client Vectorizer.
Local Open Scope string_scope.
Local Open Scope R_scope.

(** The real number a JSON number literal stands for. *)
Definition dec_value (neg : bool) (m e : Z) : R := (if neg then -1 else 1) * IZR m * powerRZ 10 e.
Definition num_value (s : string) : option R :=
  match decimal_of s with Some (neg, m, e) => Some (dec_value neg m e) | None => None end.

Lemma read_digits_nonneg s : forall n k, (0 <= n)%Z -> (0 <= fst (fst (read_digits s n k)))%Z.
Proof.
  induction s as [|c s IH]; intros n k Hn; cbn [read_digits]; [exact Hn|]. destruct (digit c) as [d|] eqn:E; [|exact Hn].
  apply IH. unfold digit in E. destruct (_ && _)%bool eqn:F; [|discriminate]. injection E as <-.
  apply andb_prop in F. destruct F as [F _]. apply Z.leb_le in F. lia.
Qed.
Lemma decimal_nonneg_m s neg m e : decimal_of s = Some (neg, m, e) -> (0 <= m)%Z.
Proof.
  unfold decimal_of. destruct (match s with String "-" t => (true, t) | _ => (false, s) end) as [ng s1].
  pose proof (read_digits_nonneg s1 0 0 ltac:(lia)) as H1. destruct (read_digits s1 0 0) as [[n k] s2]. cbn [fst] in H1.
  destruct (k =? 0)%Z; [discriminate|].
  assert (H : forall r, match read_exp s2 with Some e0 => Some (ng, n, e0) | None => None end = Some r -> (0 <= snd (fst r))%Z).
  { intros r. destruct (read_exp s2); [|discriminate]. now intros [= <-]. }
  destruct s2 as [|c s3]; [intros E; apply (H _ E)|].
  assert (H' : match (let (p, s4) := read_digits s3 n 0 in let (m0, f) := p in
     if (f =? 0)%Z then None else match read_exp s4 with Some e0 => Some (ng, m0, (e0 - f)%Z) | None => None end) with
     | Some r => (0 <= snd (fst r))%Z | None => True end).
  { pose proof (read_digits_nonneg s3 n 0 H1) as H2. destruct (read_digits s3 n 0) as [[m0 f] s4]. cbn [fst] in H2.
    destruct (f =? 0)%Z; [exact I|]. destruct (read_exp s4); [exact H2|exact I]. }
  destruct c as [[|] [|] [|] [|] [|] [|] [|] [|]]; try (intros E; exact (H _ E)).
  intros E. rewrite E in H'. exact H'.
Qed.

Section Any.
  Variables prec emax : Z.
  Context (Hprec : Prec_gt_0 prec).
  Context (Hmax : Prec_lt_emax prec emax).
  Notation rnd := (Generic_fmt.round radix2 (SpecFloat.fexp prec emax) ZnearestE).
  Notation small r := (Rabs (rnd r) < bpow radix2 emax).

  (** Division rounds the exact quotient whatever the form of the operands. *)
  Lemma div_any sx mx ex sy my ey :
    let z := SFdiv prec emax (S754_finite sx mx ex) (S754_finite sy my ey) in
    let r := F2R (Float radix2 (cond_Zopp sx (Zpos mx)) ex) / F2R (Float radix2 (cond_Zopp sy (Zpos my)) ey) in
    SpecFloat.valid_binary prec emax z = true /\
    ((small r /\ is_finite_SF z = true /\ SF2R radix2 z = rnd r) \/ (~ small r /\ z = S754_infinity (xorb sx sy))).
  Proof.
    cbv zeta. pose proof (Bdiv_correct_aux prec emax Hprec Hmax mode_NE sx mx ex sy my ey) as H. cbv zeta in H.
    cbn [SFdiv]. destruct (SFdiv_core_binary prec emax (Zpos mx) ex (Zpos my) ey) as [[mz ez] lz].
    rewrite (round_aux_SF prec emax). destruct H as [H1 H2]. split; [exact H1|]. simpl round_mode in H2. revert H2.
    case Rlt_bool_spec; intros H.
    - intros (A & B & _). left. auto.
    - intros A. right. split; [lra|exact A].
  Qed.

  (** [f64_of_decimal] and [f32_of_decimal] as one function. *)
  Definition of_decimal (neg : bool) (m e : Z) : spec_float :=
    match m with
    | Zpos p =>
        if (0 <=? e)%Z then
          match (m * 10 ^ e)%Z with
          | Zpos q => SpecFloat.binary_round prec emax neg q 0
          | _ => S754_zero neg
          end
        else
          match (10 ^ (- e))%Z with
          | Zpos q => SFdiv prec emax (S754_finite neg p 0) (S754_finite false q 0)
          | _ => S754_zero neg
          end
    | _ => S754_zero neg
    end.
  Lemma cond_val neg p : IZR (cond_Zopp neg (Zpos p)) = (if neg then -1 else 1) * IZR (Zpos p).
  Proof. destruct neg; cbn [cond_Zopp]; [change (- Z.pos p)%Z with (Zneg p); rewrite <- (opp_IZR (Zpos p)) || idtac|]; try ring.
    change (Zneg p) with (- Zpos p)%Z. rewrite opp_IZR. ring. Qed.
  Lemma of_decimal_real neg m e : (0 <= m)%Z ->
    let z := of_decimal neg m e in let r := dec_value neg m e in
    SpecFloat.valid_binary prec emax z = true /\
    ((small r /\ is_finite_SF z = true /\ SF2R radix2 z = rnd r) \/ (~ small r /\ z = S754_infinity neg)).
  Proof.
    intros Hm. cbv zeta. destruct m as [|p|p]; [| |lia].
    - cbn [of_decimal]. split; [reflexivity|]. left. unfold dec_value. rewrite !Rmult_0_r, Rmult_0_l.
      rewrite round_0; [|apply valid_rnd_N]. rewrite Rabs_R0. split; [apply bpow_gt_0|]. split; reflexivity.
    - unfold of_decimal. destruct (Z.leb_spec 0 e) as [He|He].
      + assert (Hp : (0 < Zpos p * 10 ^ e)%Z) by (apply Z.mul_pos_pos; [lia|apply Z.pow_pos_nonneg; lia]).
        destruct (Zpos p * 10 ^ e)%Z as [|q|q] eqn:E; try lia.
        destruct (round_real prec emax _ _ neg q 0) as [V H]. cbv zeta in H. split; [exact V|].
        replace (dec_value neg (Z.pos p) e) with (F2R (Float radix2 (cond_Zopp neg (Z.pos q)) 0)); [exact H|].
        unfold F2R. cbn [Fnum Fexp bpow]. rewrite Rmult_1_r, cond_val, <- E, mult_IZR. unfold dec_value.
        replace (powerRZ 10 e) with (IZR (10 ^ e)); [ring|]. rewrite <- (Z2Nat.id e He), <- pow_powerRZ.
        rewrite <- pow_IZR. reflexivity.
      + assert (Hp : (0 < 10 ^ (- e))%Z) by (apply Z.pow_pos_nonneg; lia).
        destruct (10 ^ (- e))%Z as [|q|q] eqn:E; try lia.
        destruct (div_any neg p 0 false q 0) as [V H]. cbv zeta in H. rewrite xorb_false_r in H. split; [exact V|].
        replace (dec_value neg (Z.pos p) e)
          with (F2R (Float radix2 (cond_Zopp neg (Z.pos p)) 0) / F2R (Float radix2 (cond_Zopp false (Z.pos q)) 0)); [exact H|].
        unfold F2R. cbn [Fnum Fexp bpow cond_Zopp]. rewrite !Rmult_1_r, cond_val, <- E. unfold dec_value, Rdiv.
        replace (powerRZ 10 e) with (/ IZR (10 ^ (- e))); [reflexivity|].
        assert (He' : (0 <= - e)%Z) by lia. rewrite <- (Z2Nat.id (- e) He').
        replace e with (- Z.of_nat (Z.to_nat (- e)))%Z at 2 by lia. rewrite powerRZ_neg'.
        rewrite <- pow_powerRZ, <- pow_IZR. reflexivity.
  Qed.
End Any.

(** A float32 from a text at once: the nearest one. *)
Lemma f32_text_real s c : f32_of_text s = Some c ->
  exists v, num_value s = Some v /\ f32_valid c /\ fin c /\ rv c = rnd32 v.
Proof.
  unfold f32_of_text, num_value. destruct (decimal_of s) as [[[neg m] e]|] eqn:E; [|discriminate]. intros H.
  exists (dec_value neg m e). split; [reflexivity|].
  change (f32_of_decimal neg m e) with (of_decimal prec32 emax32 neg m e) in H.
  destruct (of_decimal_real prec32 emax32 _ _ neg m e (decimal_nonneg_m _ _ _ _ E)) as [V [(S & F & R)|[S I]]]; cbv zeta in *.
  - set (z := of_decimal prec32 emax32 neg m e) in *. assert (c = z) by (destruct z; try discriminate; now injection H as <-). subst c.
    split; [exact V|]. split; [exact F|exact R].
  - rewrite I in H. discriminate.
Qed.
(** By way of float64, as AddDocuments does: rounded twice. *)
Lemma f64_num_real s x : f64_of_num s = Some x ->
  exists v, num_value s = Some v /\ f64_valid x /\ fin x /\ rv x = rnd64 v.
Proof.
  unfold f64_of_num, num_value. destruct (decimal_of s) as [[[neg m] e]|] eqn:E; [|discriminate]. intros H.
  exists (dec_value neg m e). split; [reflexivity|].
  change (f64_of_decimal neg m e) with (of_decimal prec64 emax64 neg m e) in H.
  destruct (of_decimal_real prec64 emax64 _ _ neg m e (decimal_nonneg_m _ _ _ _ E)) as [V [(S & F & R)|[S I]]]; cbv zeta in *.
  - set (z := of_decimal prec64 emax64 neg m e) in *. assert (x = z) by (destruct z; try discriminate; now injection H as <-). subst x.
    split; [exact V|]. split; [exact F|exact R].
  - rewrite I in H. discriminate.
Qed.

(* ------------------------------------------------------------------ *)
(** Which reals are in the range of float32. *)

Definition max32 : R := pow2 128 - pow2 104.
Definition over32 : R := pow2 128 - pow2 103.
Lemma rnd32_over : Rabs (rnd32 over32) = pow2 128.
Proof.
  destruct (round_real prec32 emax32 _ _ false 33554431 103) as [_ [(_ & F & _)|[S _]]]; [vm_compute in F; discriminate|].
  replace over32 with (F2R (Float radix2 (cond_Zopp false 33554431) 103)).
  - assert (H : Rabs (rnd32 (F2R (Float radix2 (cond_Zopp false 33554431) 103))) <= pow2 128).
    { apply rnd32_abs_le; [lia|]. unfold F2R. cbn [Fnum Fexp cond_Zopp]. change 128%Z with (25 + 103)%Z. rewrite bpow_plus.
      pose proof (bpow_gt_0 radix2 103). rewrite Rabs_pos_eq; [|apply Rmult_le_pos; lra]. apply Rmult_le_compat_r; [lra|].
      replace (pow2 25) with 33554432 by reflexivity. lra. }
    apply Rle_antisym; [exact H|]. apply Rnot_lt_le. exact S.
  - unfold over32, F2R. cbn [Fnum Fexp cond_Zopp]. change 128%Z with (25 + 103)%Z. rewrite bpow_plus.
    replace (pow2 25) with 33554432 by reflexivity. ring.
Qed.
Lemma max32_format : generic_format radix2 (SpecFloat.fexp prec32 emax32) max32.
Proof.
  unfold max32. change (pow2 104) with (pow2 (SpecFloat.fexp prec32 emax32 128)). rewrite <- pred_bpow.
  apply generic_format_pred; auto with typeclass_instances. apply generic_format_bpow. vm_compute. discriminate.
Qed.
Lemma max32_succ : succ radix2 (SpecFloat.fexp prec32 emax32) max32 = pow2 128.
Proof.
  unfold max32. change (pow2 104) with (pow2 (SpecFloat.fexp prec32 emax32 128)). rewrite <- pred_bpow.
  apply succ_pred; auto with typeclass_instances. apply generic_format_bpow. vm_compute. discriminate.
Qed.
Lemma pow104 : pow2 104 = 2 * pow2 103.
Proof. change 104%Z with (1 + 103)%Z. rewrite bpow_plus. reflexivity. Qed.
Lemma over32_pos : 0 < over32.
Proof. unfold over32. assert (H : pow2 103 < pow2 128) by (apply bpow_lt; reflexivity). lra. Qed.
Lemma small32 v : Rabs (rnd32 v) < pow2 128 <-> Rabs v < over32.
Proof.
  assert (Hp : forall w, 0 <= w -> rnd32 w < pow2 128 <-> w < over32).
  { intros w Hw. split; intros H.
    - destruct (Rlt_or_le w over32) as [L|L]; [exact L|exfalso]. apply rnd32_mono in L. pose proof rnd32_over as O.
      rewrite Rabs_pos_eq in O; [lra|]. rewrite <- rnd32_0. apply rnd32_mono. pose proof over32_pos. lra.
    - assert (L : rnd32 w <= max32).
      { apply round_N_le_midp; auto with typeclass_instances; [apply max32_format|]. rewrite max32_succ.
        unfold max32, over32 in *. rewrite pow104. lra. }
      unfold max32 in L. pose proof (bpow_gt_0 radix2 104). lra. }
  destruct (Rle_or_lt 0 v) as [Hv|Hv].
  - rewrite (Rabs_pos_eq v Hv). rewrite Rabs_pos_eq; [now apply Hp|]. rewrite <- rnd32_0. now apply rnd32_mono.
  - rewrite (Rabs_left v Hv). rewrite <- (Ropp_involutive v) at 1. rewrite round_NE_opp, Rabs_Ropp.
    rewrite Rabs_pos_eq; [apply Hp; lra|]. rewrite <- rnd32_0. apply rnd32_mono. lra.
Qed.

(** The same for float64. *)
Lemma rnd64_abs_le x e : (-1074 <= e)%Z -> Rabs x <= pow2 e -> Rabs (rnd64 x) <= pow2 e.
Proof.
  intros He H. apply Rabs_le_inv in H. apply Rabs_le. split.
  - rewrite <- (rnd64_pow e He), <- round_NE_opp. apply rnd64_mono. lra.
  - rewrite <- (rnd64_pow e He). apply rnd64_mono. lra.
Qed.
Definition max64 : R := pow2 1024 - pow2 971.
Definition over64 : R := pow2 1024 - pow2 970.
Lemma rnd64_over : Rabs (rnd64 over64) = pow2 1024.
Proof.
  destruct (round_real prec64 emax64 _ _ false 18014398509481983 970) as [_ [(_ & F & _)|[S _]]]; [vm_compute in F; discriminate|].
  replace over64 with (F2R (Float radix2 (cond_Zopp false 18014398509481983) 970)).
  - assert (H : Rabs (rnd64 (F2R (Float radix2 (cond_Zopp false 18014398509481983) 970))) <= pow2 1024).
    { apply rnd64_abs_le; [lia|]. unfold F2R. cbn [Fnum Fexp cond_Zopp]. change 1024%Z with (54 + 970)%Z. rewrite bpow_plus.
      pose proof (bpow_gt_0 radix2 970). rewrite Rabs_pos_eq; [|apply Rmult_le_pos; lra]. apply Rmult_le_compat_r; [lra|].
      replace (pow2 54) with 18014398509481984 by reflexivity. lra. }
    apply Rle_antisym; [exact H|]. apply Rnot_lt_le. exact S.
  - unfold over64, F2R. cbn [Fnum Fexp cond_Zopp]. change 1024%Z with (54 + 970)%Z. rewrite bpow_plus.
    replace (pow2 54) with 18014398509481984 by reflexivity. ring.
Qed.
Lemma max64_format : generic_format radix2 (SpecFloat.fexp prec64 emax64) max64.
Proof.
  unfold max64. change (pow2 971) with (pow2 (SpecFloat.fexp prec64 emax64 1024)). rewrite <- pred_bpow.
  apply generic_format_pred; auto with typeclass_instances. apply generic_format_bpow. vm_compute. discriminate.
Qed.
Lemma max64_succ : succ radix2 (SpecFloat.fexp prec64 emax64) max64 = pow2 1024.
Proof.
  unfold max64. change (pow2 971) with (pow2 (SpecFloat.fexp prec64 emax64 1024)). rewrite <- pred_bpow.
  apply succ_pred; auto with typeclass_instances. apply generic_format_bpow. vm_compute. discriminate.
Qed.
Lemma pow971 : pow2 971 = 2 * pow2 970.
Proof. change 971%Z with (1 + 970)%Z. rewrite bpow_plus. reflexivity. Qed.
Lemma over64_pos : 0 < over64.
Proof. unfold over64. assert (H : pow2 970 < pow2 1024) by (apply bpow_lt; reflexivity). lra. Qed.
Lemma small64 v : Rabs (rnd64 v) < pow2 1024 <-> Rabs v < over64.
Proof.
  assert (Hp : forall w, 0 <= w -> rnd64 w < pow2 1024 <-> w < over64).
  { intros w Hw. split; intros H.
    - destruct (Rlt_or_le w over64) as [L|L]; [exact L|exfalso]. apply rnd64_mono in L. pose proof rnd64_over as O.
      rewrite Rabs_pos_eq in O; [lra|]. rewrite <- rnd64_0. apply rnd64_mono. pose proof over64_pos. lra.
    - assert (L : rnd64 w <= max64).
      { apply round_N_le_midp; auto with typeclass_instances; [apply max64_format|]. rewrite max64_succ.
        unfold max64, over64 in *. rewrite pow971. lra. }
      unfold max64 in L. pose proof (bpow_gt_0 radix2 971). lra. }
  destruct (Rle_or_lt 0 v) as [Hv|Hv].
  - rewrite (Rabs_pos_eq v Hv). rewrite Rabs_pos_eq; [now apply Hp|]. rewrite <- rnd64_0. now apply rnd64_mono.
  - rewrite (Rabs_left v Hv). rewrite <- (Ropp_involutive v) at 1. rewrite round_NE_opp, Rabs_Ropp.
    rewrite Rabs_pos_eq; [apply Hp; lra|]. rewrite <- rnd64_0. apply rnd64_mono. lra.
Qed.

(** Conversion of a float64 to float32. *)
Lemma f32_f64_real x : fin x ->
  (Rabs (rv x) < over32 -> fin (f32_of_f64 x) /\ rv (f32_of_f64 x) = rnd32 (rv x)) /\
  (over32 <= Rabs (rv x) -> exists b, f32_of_f64 x = S754_infinity b).
Proof.
  intros F. destruct x as [s|s| |s m e]; try discriminate.
  - cbn [f32_of_f64 rv SF2R]. rewrite rnd32_0, Rabs_R0. split; [now split|]. pose proof over32_pos. lra.
  - cbn [f32_of_f64]. destruct (round_real prec32 emax32 _ _ s m e) as [V [(S & F' & E)|[S E]]]; cbv zeta in *.
    + split; [intros _; split; [exact F'|exact E]|]. intros H. change emax32 with 128%Z in S.
      apply small32 in S. cbn [rv SF2R] in H. lra.
    + split; [|intros _; now exists s]. intros H. exfalso. apply S. change emax32 with 128%Z. apply small32. exact H.
Qed.

(** Nearest float32. *)
Lemma rnd32_nearest v y : f32_valid y -> Rabs (rnd32 v - v) <= Rabs (rv y - v).
Proof.
  intros V. destruct (round_N_pt radix2 (SpecFloat.fexp prec32 emax32) (fun z => negb (Z.even z)) v) as [_ H].
  apply H. now apply (valid_format prec32 emax32).
Qed.

(* ------------------------------------------------------------------ *)
(** Number literals: sign, digits before and after the point, exponent. *)

Definition digit_char (d : Z) : ascii := ascii_of_N (Z.to_N (48 + d)).
Definition digits_text (ds : list Z) (rest : string) : string := List.fold_right (fun d => String (digit_char d)) rest ds.
Definition digits_value (ds : list Z) : Z := List.fold_left (fun n d => (10 * n + d)%Z) ds 0%Z.
(** The exponent: capital E, sign ([None]: no sign; [Some true]: minus), digits. *)
Record lit := mkLit { l_neg : bool; l_int : list Z; l_frac : option (list Z); l_exp : option (bool * option bool * list Z) }.
Definition digits_ok (ds : list Z) : Prop := ds <> nil /\ List.Forall (fun d => 0 <= d <= 9)%Z ds.
Definition lit_ok (l : lit) : Prop :=
  digits_ok (l_int l) /\
  (forall ds, l_frac l = Some ds -> digits_ok ds) /\ (forall b g ds, l_exp l = Some (b, g, ds) -> digits_ok ds).
Definition exp_text (x : option (bool * option bool * list Z)) : string :=
  match x with
  | None => ""
  | Some (cap, g, ds) =>
      String (if cap then "E" else "e")
        (match g with None => digits_text ds "" | Some true => String "-" (digits_text ds "") | Some false => String "+" (digits_text ds "") end)
  end.
Definition lit_text (l : lit) : string :=
  let body := digits_text (l_int l)
    (match l_frac l with None => exp_text (l_exp l) | Some ds => String "." (digits_text ds (exp_text (l_exp l))) end) in
  if l_neg l then String "-" body else body.
Definition lit_exp (l : lit) : Z :=
  match l_exp l with
  | None => 0
  | Some (_, Some true, ds) => - digits_value ds
  | Some (_, _, ds) => digits_value ds
  end.
Definition lit_value (l : lit) : R :=
  (if l_neg l then -1 else 1) *
  (IZR (digits_value (l_int l)) +
   match l_frac l with None => 0 | Some ds => IZR (digits_value ds) / 10 ^ length ds end) *
  powerRZ 10 (lit_exp l).

Lemma digit_of_char d : (0 <= d <= 9)%Z -> digit (digit_char d) = Some d.
Proof.
  intros H. assert (E : List.In d (0 :: 1 :: 2 :: 3 :: 4 :: 5 :: 6 :: 7 :: 8 :: 9 :: nil)%Z) by (cbn [List.In]; lia).
  cbn [List.In] in E. repeat (destruct E as [<-|E]; [reflexivity|]). destruct E.
Qed.
Definition stops (s : string) : Prop := match s with EmptyString => True | String c _ => digit c = None end.
Lemma read_digits_text ds : forall rest n k, List.Forall (fun d => 0 <= d <= 9)%Z ds -> stops rest ->
  read_digits (digits_text ds rest) n k =
    (List.fold_left (fun n d => (10 * n + d)%Z) ds n, (k + Z.of_nat (length ds))%Z, rest).
Proof.
  induction ds as [|d ds IH]; intros rest n k H S; cbn [digits_text List.fold_right List.fold_left length].
  - change (Z.of_nat 0) with 0%Z. rewrite Z.add_0_r. destruct rest as [|c rest]; [reflexivity|]. cbn [read_digits]. cbn [stops] in S. now rewrite S.
  - inversion H; subst. cbn [read_digits]. rewrite digit_of_char by assumption. fold (digits_text ds rest). rewrite IH by assumption.
    f_equal. f_equal. lia.
Qed.
Lemma fold_digits ds : forall n, List.fold_left (fun n d => (10 * n + d)%Z) ds n = (n * 10 ^ Z.of_nat (length ds) + digits_value ds)%Z.
Proof.
  unfold digits_value. induction ds as [|d ds IH]; intros n; cbn [List.fold_left length]; [change (Z.of_nat 0) with 0%Z; ring|].
  rewrite IH, (IH (10 * 0 + d)%Z). rewrite Nat2Z.inj_succ, Z.pow_succ_r by lia. ring.
Qed.
Lemma digits_head ds rest : digits_ok ds -> exists d t, (0 <= d <= 9)%Z /\ digits_text ds rest = String (digit_char d) t.
Proof.
  intros [H F]. destruct ds as [|d ds]; [congruence|]. inversion F; subst. now exists d, (digits_text ds rest).
Qed.
Lemma digits_len ds : digits_ok ds -> (0 + Z.of_nat (length ds) =? 0)%Z = false.
Proof. intros [H _]. destruct ds; [congruence|]. cbn [length]. apply Z.eqb_neq. lia. Qed.

(** Comparisons of the first character. *)
Lemma digit_sign d (t : string) {A} (f g : string -> A) (h : A) : (0 <= d <= 9)%Z ->
  match String (digit_char d) t with String "-" u => f u | String "+" u => g u | _ => h end = h.
Proof.
  intros H. assert (E : List.In d (0 :: 1 :: 2 :: 3 :: 4 :: 5 :: 6 :: 7 :: 8 :: 9 :: nil)%Z) by (cbn [List.In]; lia).
  cbn [List.In] in E. repeat (destruct E as [<-|E]; [reflexivity|]). destruct E.
Qed.
Lemma digit_minus d (t : string) {A} (f : string -> A) (h : A) : (0 <= d <= 9)%Z ->
  match String (digit_char d) t with String "-" u => f u | _ => h end = h.
Proof.
  intros H. assert (E : List.In d (0 :: 1 :: 2 :: 3 :: 4 :: 5 :: 6 :: 7 :: 8 :: 9 :: nil)%Z) by (cbn [List.In]; lia).
  cbn [List.In] in E. repeat (destruct E as [<-|E]; [reflexivity|]). destruct E.
Qed.

Lemma read_exp_text l : lit_ok l -> read_exp (exp_text (l_exp l)) = Some (lit_exp l).
Proof.
  intros (_ & _ & H). unfold lit_exp. destruct (l_exp l) as [[[cap g] ds]|]; [|reflexivity].
  pose proof (H _ _ _ eq_refl) as K. assert (HF := proj2 K). cbn [exp_text].
  assert (E : forall t, read_exp (String (if cap then "E" else "e") t) =
    let (neg, s2) := match t with String "-" t => (true, t) | String "+" t => (false, t) | _ => (false, t) end in
        match read_digits s2 0 0 with
        | (n, k, EmptyString) => if (k =? 0)%Z then None else Some (if neg then (- n)%Z else n)
        | _ => None
        end) by (intros t; destruct cap; reflexivity).
  rewrite E. destruct g as [[|]|].
  - rewrite read_digits_text by (assumption || exact I). rewrite digits_len by assumption. reflexivity.
  - rewrite read_digits_text by (assumption || exact I). rewrite digits_len by assumption. reflexivity.
  - destruct (digits_head ds "" K) as (d & t & Hd & Et).
    assert (E2 : match digits_text ds "" with String "-" t => (true, t) | String "+" t => (false, t) | _ => (false, digits_text ds "") end
      = (false, digits_text ds "")).
    { rewrite Et at 1. apply (digit_sign d t (fun u => (true, u)) (fun u => (false, u)) (false, digits_text ds "") Hd). }
    rewrite E2. rewrite read_digits_text by (assumption || exact I). rewrite digits_len by assumption. reflexivity.
Qed.
Lemma exp_stops x : stops (exp_text x).
Proof. destruct x as [[[[|] g] ds]|]; [reflexivity|reflexivity|exact I]. Qed.

Lemma lit_decimal l : lit_ok l ->
  decimal_of (lit_text l) = Some (l_neg l,
    match l_frac l with None => digits_value (l_int l)
    | Some ds => (digits_value (l_int l) * 10 ^ Z.of_nat (length ds) + digits_value ds)%Z end,
    match l_frac l with None => lit_exp l | Some ds => (lit_exp l - Z.of_nat (length ds))%Z end).
Proof.
  intros H. pose proof (read_exp_text l H) as HE. pose proof (exp_stops (l_exp l)) as HS. destruct H as (Hi & Hf & _).
  set (tail := match l_frac l with None => exp_text (l_exp l) | Some ds => String "." (digits_text ds (exp_text (l_exp l))) end).
  assert (Ht : stops tail) by (unfold tail; destruct (l_frac l); [reflexivity|exact HS]).
  assert (E1 : (match lit_text l with String "-" t => (true, t) | _ => (false, lit_text l) end) = (l_neg l, digits_text (l_int l) tail)).
  { unfold lit_text. fold tail. destruct (l_neg l); [reflexivity|]. destruct (digits_head (l_int l) tail Hi) as (d & t & Hd & Et).
    rewrite Et at 1. apply (digit_minus d t (fun u => (true, u)) (false, digits_text (l_int l) tail) Hd). }
  unfold decimal_of. rewrite E1. rewrite read_digits_text by (exact Ht || exact (proj2 Hi)). rewrite digits_len by assumption.
  fold (digits_value (l_int l)). unfold tail. destruct (l_frac l) as [ds|] eqn:Ef.
  - specialize (Hf _ eq_refl). rewrite read_digits_text by (exact HS || exact (proj2 Hf)). rewrite digits_len by assumption.
    rewrite HE, fold_digits. reflexivity.
  - destruct (l_exp l) as [[[[|] g] ds]|] eqn:Ex; cbn [exp_text] in *; rewrite HE; reflexivity.
Qed.
Lemma lit_num l : lit_ok l -> num_value (lit_text l) = Some (lit_value l).
Proof.
  intros H. unfold num_value. rewrite (lit_decimal l H). f_equal. unfold dec_value, lit_value. rewrite !Rmult_assoc. f_equal.
  destruct (l_frac l) as [ds|]; [|rewrite Rplus_0_r; reflexivity].
  rewrite plus_IZR, mult_IZR. rewrite <- pow_IZR. unfold Zminus. rewrite powerRZ_add by lra. rewrite powerRZ_neg'.
  rewrite <- !pow_powerRZ. assert (10 ^ length ds <> 0) by (apply pow_nonzero; lra).
  field. assumption.
Qed.

(* ------------------------------------------------------------------ *)
(** One component. *)

Lemma f32_text_iff l : lit_ok l -> (exists c, f32_of_text (lit_text l) = Some c) <-> Rabs (lit_value l) < over32.
Proof.
  intros H. pose proof (lit_num l H) as E. unfold num_value in E. unfold f32_of_text.
  destruct (decimal_of (lit_text l)) as [[[neg m] e]|] eqn:D; [|discriminate]. injection E as <-.
  change (f32_of_decimal neg m e) with (of_decimal prec32 emax32 neg m e).
  destruct (of_decimal_real prec32 emax32 _ _ neg m e (decimal_nonneg_m _ _ _ _ D)) as [V [(S & F & R)|[S I]]]; cbv zeta in *;
    change emax32 with 128%Z in S; rewrite small32 in S.
  - split; [intros _; exact S|]. intros _. destruct (of_decimal prec32 emax32 neg m e); try discriminate; eauto.
  - rewrite I. split; [intros [c K]; discriminate|]. intros K. now elim S.
Qed.
Lemma f64_num_iff l : lit_ok l -> (exists c, f32_of_num (lit_text l) = Some c) <-> Rabs (lit_value l) < over64.
Proof.
  intros H. pose proof (lit_num l H) as E. unfold num_value in E. unfold f32_of_num, f64_of_num.
  destruct (decimal_of (lit_text l)) as [[[neg m] e]|] eqn:D; [|discriminate]. injection E as <-.
  change (f64_of_decimal neg m e) with (of_decimal prec64 emax64 neg m e).
  destruct (of_decimal_real prec64 emax64 _ _ neg m e (decimal_nonneg_m _ _ _ _ D)) as [V [(S & F & R)|[S I]]]; cbv zeta in *;
    change emax64 with 1024%Z in S; rewrite small64 in S.
  - split; [intros _; exact S|]. intros _. destruct (of_decimal prec64 emax64 neg m e); try discriminate; eauto.
  - rewrite I. split; [intros [c K]; discriminate|]. intros K. now elim S.
Qed.
Lemma f32_num_real l c : lit_ok l -> f32_of_num (lit_text l) = Some c ->
  f32_valid c /\
  (Rabs (rnd64 (lit_value l)) < over32 -> fin c /\ rv c = rnd32 (rnd64 (lit_value l))) /\
  (over32 <= Rabs (rnd64 (lit_value l)) -> exists b, c = S754_infinity b).
Proof.
  intros H. unfold f32_of_num. destruct (f64_of_num (lit_text l)) as [x|] eqn:E; [|discriminate]. intros [= <-].
  destruct (f64_num_real _ _ E) as (v & Ev & V & F & R). rewrite (lit_num l H) in Ev. injection Ev as <-.
  split; [apply f32_of_f64_valid|]. rewrite <- R. now apply f32_f64_real.
Qed.
Lemma max32_64 : rnd64 max32 = max32.
Proof.
  destruct (round_real prec32 emax32 _ _ false 16777215 104) as [V [(S & F & E)|[_ I]]]; cbv zeta in *; [|vm_compute in I; discriminate].
  assert (G : F2R (Float radix2 (cond_Zopp false 16777215) 104) = max32).
  { unfold max32, F2R. cbn [Fnum Fexp cond_Zopp]. change 128%Z with (24 + 104)%Z. rewrite bpow_plus.
    replace (pow2 24) with 16777216 by reflexivity. ring. }
  rewrite G in E. rewrite round_generic in E; [|auto with typeclass_instances|apply max32_format].
  pose proof (rv_32_64 _ V) as W. unfold rv in W. rewrite E in W. exact W.
Qed.
Lemma rnd64_max v : Rabs v <= max32 -> Rabs (rnd64 v) < over32.
Proof.
  intros H. apply Rabs_le_inv in H. apply Rle_lt_trans with max32.
  - apply Rabs_le. split.
    + rewrite <- max32_64, <- round_NE_opp. apply rnd64_mono. lra.
    + rewrite <- max32_64. apply rnd64_mono. lra.
  - unfold max32, over32. rewrite pow104. pose proof (bpow_gt_0 radix2 103). lra.
Qed.
Lemma pow_ge_over v : pow2 128 <= Rabs v -> over32 <= Rabs (rnd64 v).
Proof.
  intros H. apply Rle_trans with (pow2 128); [unfold over32; pose proof (bpow_gt_0 radix2 103); lra|].
  destruct (Rle_or_lt 0 v) as [K|K].
  - rewrite (Rabs_pos_eq v K) in H. apply rnd64_mono in H. rewrite rnd64_pow in H by lia. rewrite Rabs_pos_eq; [exact H|].
    pose proof (bpow_gt_0 radix2 128). lra.
  - rewrite (Rabs_left v K) in H. apply rnd64_mono in H. rewrite rnd64_pow in H by lia. rewrite round_NE_opp in H.
    eapply Rle_trans; [exact H|]. rewrite <- Rabs_Ropp. apply Rle_abs.
Qed.

(** Twice rounded: no float32 strictly between the number and the component. *)
Lemma twice_faithful v y : f32_valid y ->
  (rv y <= v -> rv y <= rnd32 (rnd64 v)) /\ (v <= rv y -> rnd32 (rnd64 v) <= rv y).
Proof.
  intros V. assert (E : rnd32 (rnd64 (rv y)) = rv y) by (rewrite rv_32_64 by exact V; apply rnd32_id; exact V).
  split; intros H; apply rnd64_mono, rnd32_mono in H; lra.
Qed.
Lemma twice_near v y : f32_valid y ->
  Rabs (rnd32 (rnd64 v) - v) <= Rabs (rv y - v) + (pow2 (-52) * Rabs v + pow2 (-1074)).
Proof.
  intros V. pose proof (rnd32_nearest (rnd64 v) y V) as H. pose proof (rnd64_err v) as E.
  assert (T1 : Rabs (rnd32 (rnd64 v) - v) <= Rabs (rnd32 (rnd64 v) - rnd64 v) + Rabs (rnd64 v - v)).
  { eapply Rle_trans; [|apply Rabs_triang]. right. f_equal. ring. }
  assert (T2 : Rabs (rv y - rnd64 v) <= Rabs (rv y - v) + Rabs (rnd64 v - v)).
  { rewrite (Rabs_minus_sym (rnd64 v) v). eapply Rle_trans; [|apply Rabs_triang]. right. f_equal. ring. }
  change (-52)%Z with (1 + -53)%Z. change (-1074)%Z with (1 + -1075)%Z. rewrite !bpow_plus. change (pow2 1) with 2. lra.
Qed.

(** A number near enough to a float32 becomes that float32. *)
Lemma gap_succ y : 0 < y -> y * pow2 (-24) <= ulp radix2 (SpecFloat.fexp prec32 emax32) y.
Proof.
  intros H. change (SpecFloat.fexp prec32 emax32) with (FLT_exp (-149) 24).
  pose proof (ulp_FLT_gt radix2 (-149) 24 y) as G. rewrite Rabs_pos_eq in G by lra. apply Rlt_le. exact G.
Qed.
Lemma gap_pred y : generic_format radix2 (SpecFloat.fexp prec32 emax32) y -> 0 < y ->
  y * pow2 (-24) <= y - pred radix2 (SpecFloat.fexp prec32 emax32) y.
Proof.
  intros F H. rewrite pred_eq_pos by lra. unfold pred_pos. destruct (Req_bool_spec y (pow2 (mag radix2 y - 1))) as [E|E].
  - replace (y - (y - pow2 (SpecFloat.fexp prec32 emax32 (mag radix2 y - 1)))) with (pow2 (SpecFloat.fexp prec32 emax32 (mag radix2 y - 1))) by ring.
    rewrite E at 1. rewrite <- bpow_plus. apply bpow_le. unfold SpecFloat.fexp, SpecFloat.emin, prec32, emax32. lia.
  - replace (y - (y - ulp radix2 (SpecFloat.fexp prec32 emax32) y)) with (ulp radix2 (SpecFloat.fexp prec32 emax32) y) by ring.
    now apply gap_succ.
Qed.
Lemma rnd32_near_pos y w : generic_format radix2 (SpecFloat.fexp prec32 emax32) y -> 0 < y ->
  Rabs (w - y) < pow2 (-25) * y -> rnd32 w = y.
Proof.
  intros F H K. apply Rabs_lt_inv in K. pose proof (gap_succ y H) as G1. pose proof (gap_pred y F H) as G2.
  change (-24)%Z with (1 + -25)%Z in G1, G2. rewrite bpow_plus in G1, G2. change (pow2 1) with 2 in G1, G2.
  apply Rle_antisym.
  - apply round_N_le_midp; auto with typeclass_instances. rewrite succ_eq_pos by lra. lra.
  - apply round_N_ge_midp; auto with typeclass_instances. lra.
Qed.
Lemma rnd32_near y w : f32_valid y -> rv y <> 0 -> Rabs (w - rv y) < pow2 (-25) * Rabs (rv y) -> rnd32 w = rv y.
Proof.
  intros V N H. pose proof (valid_format prec32 emax32 _ V) as F. change (SF2R radix2 y) with (rv y) in F.
  destruct (Rlt_or_le 0 (rv y)) as [K|K].
  - rewrite (Rabs_pos_eq (rv y)) in H by lra. now apply rnd32_near_pos.
  - assert (K' : rv y < 0) by lra. rewrite (Rabs_left (rv y)) in H by lra.
    replace w with (- - w) by ring. rewrite round_NE_opp. rewrite (rnd32_near_pos (- rv y) (- w)); [ring| |lra|].
    + now apply generic_format_opp.
    + rewrite <- Rabs_Ropp. replace (- (- w - - rv y)) with (w - rv y) by ring. exact H.
Qed.
Lemma small_valid y : f32_valid y -> rv y <> 0 -> pow2 (-149) <= Rabs (rv y).
Proof.
  intros V N. pose proof (valid_format prec32 emax32 _ V) as F. change (SF2R radix2 y) with (rv y) in F.
  change (SpecFloat.fexp prec32 emax32) with (FLT_exp (-149) 24) in F.
  apply (generic_format_ge_bpow radix2 (FLT_exp (-149) 24) (-149)); [|now apply Rabs_pos_lt|now apply generic_format_abs].
  intros e. unfold FLT_exp. lia.
Qed.
Lemma twice_back v y : f32_valid y -> Rabs (v - rv y) <= pow2 (-26) * Rabs (rv y) -> rnd32 (rnd64 v) = rv y.
Proof.
  intros V H. destruct (Req_dec (rv y) 0) as [Z|N].
  - rewrite Z in *. rewrite Rabs_R0, Rmult_0_r in H. assert (E : v = 0).
    { destruct (Req_dec v 0) as [E|E]; [exact E|]. apply Rabs_pos_lt in E. rewrite Rminus_0_r in H. lra. }
    rewrite E, rnd64_0. apply rnd32_0.
  - apply rnd32_near; [exact V|exact N|]. pose proof (rnd64_err v) as E. pose proof (small_valid y V N) as S.
    assert (T : Rabs (rnd64 v - rv y) <= Rabs (rnd64 v - v) + Rabs (v - rv y)).
    { eapply Rle_trans; [|apply Rabs_triang]. right. f_equal. ring. }
    assert (T2 : Rabs v <= Rabs (v - rv y) + Rabs (rv y)).
    { eapply Rle_trans; [|apply Rabs_triang]. right. f_equal. ring. }
    assert (P1 : pow2 (-1075) <= pow2 (-53) * pow2 (-149)) by (rewrite <- bpow_plus; apply bpow_le; lia).
    assert (P2 : pow2 (-26) = / 67108864) by reflexivity. assert (P3 : pow2 (-53) = / 9007199254740992) by reflexivity.
    assert (P4 : pow2 (-25) = / 33554432) by reflexivity. rewrite P3 in *. rewrite P2 in *. rewrite P4.
    pose proof (bpow_gt_0 radix2 (-149)). pose proof (Rabs_pos (rv y)). lra.
Qed.
