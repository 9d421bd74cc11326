(** Integers below 2^53 survive the conversion to float64. *)
From Coq Require Import String Ascii DecimalString Decimal DecimalN.
From Verif Require Import Base F32 JsonNum.
Local Open Scope string_scope.
Local Open Scope Z_scope.

(* ------------------------------------------------------------------ *)
(** Reading back the decimal text of an integer. *)

Fixpoint uval (d : uint) (n : Z) : Z :=
  match d with
  | Nil => n
  | D0 d => uval d (10 * n) | D1 d => uval d (10 * n + 1) | D2 d => uval d (10 * n + 2)
  | D3 d => uval d (10 * n + 3) | D4 d => uval d (10 * n + 4) | D5 d => uval d (10 * n + 5)
  | D6 d => uval d (10 * n + 6) | D7 d => uval d (10 * n + 7) | D8 d => uval d (10 * n + 8)
  | D9 d => uval d (10 * n + 9)
  end.

Lemma read_digits_uint d : forall n k,
  exists k', read_digits (NilEmpty.string_of_uint d) n k = (uval d n, k', "") /\ k <= k' /\ (d <> Nil -> k < k').
Proof.
  induction d; intros n k; cbn [NilEmpty.string_of_uint read_digits uval];
    [exists k; split; [reflexivity|split; [lia|congruence]]|..].
  all: match goal with |- context [digit ?c] => let r := eval vm_compute in (digit c) in change (digit c) with r end;
    cbv iota; match goal with |- context [read_digits _ ?m ?k'] => destruct (IHd m k') as (k0 & E & H & _) end;
    exists k0; split; [|split; [lia|intros _; lia]]; rewrite E; try reflexivity;
    rewrite Z.add_0_r; reflexivity.
Qed.

Lemma uval_acc d : forall p, uval d (Zpos p) = Zpos (Pos.of_uint_acc d p).
Proof.
  induction d; intros p; cbn [uval Pos.of_uint_acc]; [reflexivity|..];
    rewrite <- IHd; f_equal; lia.
Qed.
Lemma uval_0 d : uval d 0 = Z.of_N (N.of_uint d).
Proof.
  unfold N.of_uint. induction d; cbn [uval Pos.of_uint]; [reflexivity|exact IHd|..]; apply (uval_acc d).
Qed.

Lemma uint_text n : exists k, read_digits (NilZero.string_of_uint (N.to_uint n)) 0 0 = (Z.of_N n, k, "") /\ 0 < k.
Proof.
  replace (Z.of_N n) with (Z.of_N (N.of_uint (N.to_uint n))) by now rewrite Unsigned.of_to.
  unfold NilZero.string_of_uint. destruct (N.to_uint n) as [|u|u|u|u|u|u|u|u|u|u].
  1: exists 1; split; [reflexivity|lia].
  all: match goal with |- context [NilEmpty.string_of_uint ?d] =>
    destruct (read_digits_uint d 0 0) as (k & -> & _ & H); exists k; split; [now rewrite uval_0|apply H; discriminate] end.
Qed.

Lemma uint_head n : exists c s, NilZero.string_of_uint (N.to_uint n) = String c s /\ Ascii.eqb c "-" = false.
Proof.
  unfold NilZero.string_of_uint. destruct (N.to_uint n) as [|u|u|u|u|u|u|u|u|u|u]; cbn; eexists _, _; split; reflexivity.
Qed.

Lemma decimal_nonneg n : decimal_of (NilZero.string_of_uint (N.to_uint n)) = Some (false, Z.of_N n, 0).
Proof.
  destruct (uint_head n) as (c & s & E & Hc). destruct (uint_text n) as (k & Hr & Hk). rewrite E in *.
  unfold decimal_of.
  assert (H : (let (neg, s1) := match String c s with String "-" t => (true, t) | _ => (false, String c s) end in
     (neg, s1)) = (false, String c s)).
  { apply Ascii.eqb_neq in Hc. destruct c as [[|] [|] [|] [|] [|] [|] [|] [|]]; try reflexivity. congruence. }
  destruct (match String c s with String "-" t => (true, t) | _ => (false, String c s) end) as [neg s1].
  injection H as -> ->. rewrite Hr. destruct (Z.eqb_spec k 0); [lia|]. reflexivity.
Qed.
Lemma decimal_int z : decimal_of (int_text z) = Some (z <? 0, Z.abs z, 0).
Proof.
  destruct z as [|p|p]; cbn [int_text].
  - apply (decimal_nonneg 0).
  - rewrite decimal_nonneg. reflexivity.
  - destruct (uint_text (Npos p)) as (k & Hr & Hk). unfold decimal_of. cbn [append]. rewrite Hr.
    destruct (Z.eqb_spec k 0); [lia|]. reflexivity.
Qed.

(* ------------------------------------------------------------------ *)
(** Rounding an integer that fits. *)

Lemma digits2_bound p : 2 ^ (Zpos (digits2_pos p) - 1) <= Zpos p < 2 ^ Zpos (digits2_pos p).
Proof.
  induction p as [p IH|p IH|]; cbn [digits2_pos]; [| |vm_compute; split; [discriminate|reflexivity]].
  all: rewrite Pos2Z.inj_succ; replace (Z.succ (Zpos (digits2_pos p)) - 1) with (Z.succ (Zpos (digits2_pos p) - 1)) by lia;
    rewrite !Z.pow_succ_r by lia; lia.
Qed.
Lemma digits2_unique p d : 0 <= d -> 2 ^ d <= Zpos p < 2 ^ Z.succ d -> Zpos (digits2_pos p) = Z.succ d.
Proof.
  intros Hd H. pose proof (digits2_bound p) as B.
  assert (d < Zpos (digits2_pos p)) by (apply (Z.pow_lt_mono_r_iff 2); lia).
  assert (Zpos (digits2_pos p) - 1 < Z.succ d) by (apply (Z.pow_lt_mono_r_iff 2); lia). lia.
Qed.
Lemma shift_pos_Z d p : Zpos (shift_pos d p) = Zpos p * 2 ^ Zpos d.
Proof. rewrite shift_pos_correct, Z.mul_comm. reflexivity. Qed.

(** A mantissa of 53 digits is left alone. *)
Lemma round_aux_exact s m e : Zpos (digits2_pos m) = prec64 -> -1074 <= e <= 971 ->
  binary_round_aux prec64 emax64 s (Zpos m) e loc_Exact = S754_finite s m e.
Proof.
  intros Hd He. unfold binary_round_aux, shr_fexp. cbn [Zdigits2 shr_record_of_loc]. rewrite Hd.
  assert (Hf : SpecFloat.fexp prec64 emax64 (prec64 + e) - e = 0).
  { unfold SpecFloat.fexp, SpecFloat.emin, prec64, emax64. lia. }
  rewrite Hf. cbn [shr shr_m loc_of_shr_record round_nearest_even Zdigits2]. rewrite Hd, Hf. cbn [shr shr_m].
  destruct (Zle_bool e (emax64 - prec64)) eqn:E; [reflexivity|]. apply Z.leb_gt in E. unfold prec64, emax64 in E. lia.
Qed.

Lemma round_int_exact s p : Zpos p < 2 ^ 53 ->
  exists m e, binary_round prec64 emax64 s p 0 = S754_finite s m e /\ -53 < e <= 0 /\ Zpos m = Zpos p * 2 ^ (- e).
Proof.
  intros Hp. unfold binary_round. pose proof (digits2_bound p) as B. set (d := Zpos (digits2_pos p)) in *.
  assert (Hd : d <= 53).
  { assert (d - 1 < 53) by (apply (Z.pow_lt_mono_r_iff 2); lia). lia. }
  assert (Hd1 : 1 <= d) by lia.
  replace (SpecFloat.fexp prec64 emax64 (d + 0)) with (d - 53)
    by (unfold SpecFloat.fexp, SpecFloat.emin, prec64, emax64; lia).
  unfold shl_align. rewrite Z.sub_0_r.
  destruct (d - 53) as [|k|k] eqn:E; [|lia|].
  - exists p, 0. rewrite round_aux_exact; [|unfold prec64; lia|lia]. split; [reflexivity|]. split; [lia|]. cbn. lia.
  - exists (shift_pos k p), (Zneg k). rewrite round_aux_exact; [|unfold prec64|lia].
    + split; [reflexivity|]. split; [lia|]. apply shift_pos_Z.
    + apply (digits2_unique (shift_pos k p) 52); [lia|]. rewrite shift_pos_Z.
      assert (Zpos k = 53 - d) by lia. rewrite H.
      replace (2 ^ 52) with (2 ^ (d - 1) * 2 ^ (53 - d)) by (rewrite <- Z.pow_add_r by lia; f_equal; lia).
      replace (2 ^ Z.succ 52) with (2 ^ d * 2 ^ (53 - d)) by (rewrite <- Z.pow_add_r by lia; f_equal; lia).
      assert (0 < 2 ^ (53 - d)) by (apply Z.pow_pos_nonneg; lia). nia.
Qed.

(** The float64 [x] is the integer [z]. *)
Definition f64_is (x : f64) (z : Z) : Prop :=
  match x with
  | S754_zero _ => z = 0
  | S754_finite s m e => e <= 0 /\ Zpos m = Z.abs z * 2 ^ (- e) /\ s = (z <? 0)
  | _ => False
  end.

Lemma f64_int z : Z.abs z < 2 ^ 53 -> exists x, f64_of_num (int_text z) = Some x /\ f64_is x z.
Proof.
  intros Hz. unfold f64_of_num. rewrite decimal_int. unfold f64_of_decimal.
  destruct (Z.abs z) as [|p|p] eqn:E; [|change (0 <=? 0) with true; cbv iota|lia].
  - exists (S754_zero (z <? 0)). split; [reflexivity|]. cbn. lia.
  - replace (Zpos p * 10 ^ 0) with (Zpos p) by (cbn; lia).
    destruct (round_int_exact (z <? 0) p Hz) as (m & e & H1 & H2 & H3). rewrite H1.
    eexists. split; [reflexivity|]. cbn [f64_is]. rewrite E. split; [lia|]. auto.
Qed.
