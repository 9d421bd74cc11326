(** C32: the buffered log writer loses and reorders nothing. *)
From Verif Require Import Base BufIO BufIOFacts.

(** C32, before a flush.  Whatever the calls, the buffer size and the behaviour
    of the file: what is in the file is what was there before followed by a
    prefix of the bytes taken by the calls in order; no more than one buffer is
    missing; a call that reports no error took all its bytes. *)
Theorem C32_prefix_in_file : forall fuel w f0 size cs b rs,
  Forall (fun c => match c with CRune r => (0 <= r)%Z | _ => True end) cs ->
  wrun fuel w (new_writer_size f0 size) cs = Some (b, rs) ->
  length rs = length cs
  /\ (exists rest,
        f_data (w_file b) ++ rest
        = f_data f0 ++ flat_map (fun '(c, r) => firstn (fst r) (bytes_of c)) (combine cs rs)
        /\ length rest <= (if (size <=? 0)%Z then N.to_nat 4096 else Z.to_nat size))
  /\ (Forall (fun r => snd r = None) rs ->
      flat_map (fun '(c, r) => firstn (fst r) (bytes_of c)) (combine cs rs)
      = flat_map bytes_of cs).
Proof.
  intros fuel w f0 size cs b rs Hc Hr.
  destruct (wrun_facts _ _ _ _ _ _ (new_wok f0 size) Hc Hr) as (L & [_ O] & S & D).
  split; [exact L|]. split.
  - exists (w_buf b). split; [exact D|]. rewrite S in O. exact O.
  - intros Hn. exact (accepted_all _ _ _ _ _ _ (new_wok f0 size) Hc Hr Hn).
Qed.

(** C32, after a flush: if no call reported an error and the last one is Flush,
    the file holds exactly the bytes of all calls, in order. *)
Theorem C32_flushed_exactly : forall fuel w f0 size cs b rs,
  Forall (fun c => match c with CRune r => (0 <= r)%Z | _ => True end) cs ->
  wrun fuel w (new_writer_size f0 size) (cs ++ [CFlush]) = Some (b, rs) ->
  Forall (fun r => snd r = None) rs ->
  f_data (w_file b) = f_data f0 ++ flat_map bytes_of cs.
Proof.
  intros fuel w f0 size cs b rs Hc Hr Hn.
  assert (Hc' : Forall call_rune_ok (cs ++ [CFlush])).
  { apply Forall_app. split; [exact Hc|]. repeat constructor. }
  destruct (wrun_facts _ _ _ _ _ _ (new_wok f0 size) Hc' Hr) as (_ & _ & _ & D).
  rewrite (accepted_all _ _ _ _ _ _ (new_wok f0 size) Hc' Hr Hn) in D.
  destruct (wrun_app _ _ _ _ _ _ _ Hr) as (b1 & r1 & r2 & H1 & H2 & ->).
  destruct (wrun_facts _ _ _ _ _ _ (new_wok f0 size) Hc H1) as (_ & O & _).
  cbn [wrun] in H2. destruct (wstep fuel w b1 CFlush) as [[[b2 n] e]|] eqn:Es; [|discriminate].
  injection H2 as -> <-.
  destruct (wstep_facts _ _ _ _ _ _ _ O (I : call_rune_ok CFlush) Es) as [_ He].
  apply Forall_app in Hn as [_ Hn]. inversion Hn as [|? ? Hn1 ?]; subst. cbn in Hn1.
  rewrite (He eq_refl Hn1), app_nil_r in D. rewrite D.
  rewrite flat_map_app. cbn. now rewrite app_nil_r.
Qed.

(** C32, after an error: the file stays as it is and every later call takes
    nothing and reports that same error. *)
Theorem C32_error_stops : forall fuel w f0 size cs1 cs2 b rs1 n e rs2,
  Forall (fun c => match c with CRune r => (0 <= r)%Z | _ => True end) cs1 ->
  wrun fuel w (new_writer_size f0 size) (cs1 ++ cs2) = Some (b, rs1 ++ (n, Some e) :: rs2) ->
  length cs1 = S (length rs1) ->
  (exists b1, wrun fuel w (new_writer_size f0 size) cs1 = Some (b1, rs1 ++ [(n, Some e)])
              /\ w_file b = w_file b1)
  /\ Forall (fun r => r = (0, Some e)) rs2.
Proof.
  intros fuel w f0 size cs1 cs2 b rs1 n e rs2 Hc Hr Hl.
  destruct (wrun_errors _ _ _ _ _ _ _ _ _ _ (new_wok f0 size) Hc Hr Hl) as (b1 & H1 & -> & F).
  split; [exists b1; auto|exact F].
Qed.

(** The calls return: with a file that reports an error whenever it takes fewer
    bytes than it was given (the contract of io.Writer, which os.File keeps),
    the loops of Write and WriteString end. *)
Theorem C32_calls_return : forall w f0 size cs fuel,
  (forall k p, fst (w k p) < length p -> snd (w k p) <> None) ->
  Forall (fun c => match c with CRune r => (0 <= r)%Z | _ => True end) cs ->
  Forall (fun c => length (bytes_of c) + 3 <= fuel) cs ->
  wrun fuel w (new_writer_size f0 size) cs <> None.
Proof.
  intros w f0 size cs fuel Hw Hr Hf. exact (wrun_ends w fuel Hw cs _ (new_wok f0 size) Hr Hf).
Qed.

(** A file that takes everything, one that takes at most two bytes per call
    without saying so, one that fails at its third call after one byte. *)
Definition good_file : file_oracle := fun _ p => (length p, None).
Definition short_file : file_oracle := fun _ p => (2, None).
Definition bad_file : file_oracle :=
  fun k p => if Nat.eqb k 2 then (1, Some 5%N) else (length p, None).

Definition calls7 : list wcall :=
  [CWrite [1;2;3]%N; CByte 4%N; CString [5;6;7;8;9;10]%N; CRune 233%Z; CRune 8364%Z;
   CWrite [11;12;13;14;15;16;17;18;19]%N; CFlush].

Example C32_nonvacuous :
  wrun 20 good_file (new_writer_size (mkFile [99]%N 0) 4) calls7
  = Some (mkWriter None [] 4
            (mkFile [99;1;2;3;4;5;6;7;8;9;10;195;169;226;130;172;11;12;13;14;15;16;17;18;19]%N 6),
          [(3, None); (1, None); (6, None); (2, None); (3, None); (9, None); (0, None)]).
Proof. vm_compute. reflexivity. Qed.

(** A short write inside Flush is reported and the rest stays in the buffer; an
    error in the middle of a sequence stops everything after it. *)
Example C32_short_nonvacuous :
  wrun 20 short_file (new_writer_size (mkFile [] 0) 4) [CWrite [1;2;3]%N; CFlush; CByte 9%N]
  = Some (mkWriter (Some ShortWrite) [3]%N 4 (mkFile [1;2]%N 1),
          [(3, None); (0, Some ShortWrite); (0, Some ShortWrite)]).
Proof. vm_compute. reflexivity. Qed.

Example C32_error_nonvacuous :
  wrun 20 bad_file (new_writer_size (mkFile [] 0) 4) calls7
  = Some (mkWriter (Some (FileError 5)) [10]%N 4 (mkFile [1;2;3;4;5;6;7;8;9]%N 3),
          [(3, None); (1, None); (6, None); (0, Some (FileError 5)); (0, Some (FileError 5));
           (0, Some (FileError 5)); (0, Some (FileError 5))]).
Proof. vm_compute. reflexivity. Qed.

(** Outside the statement: WriteRune of a negative int32 writes its low byte,
    where WriteString of the same rune writes U+FFFD (bufiowriter.go:140
    compares the signed value). *)
Example C32_negative_rune :
  wrun 20 good_file (new_writer_size (mkFile [] 0) 4) [CRune (-1)%Z; CFlush]
  = Some (mkWriter None [] 4 (mkFile [255]%N 1), [(1, None); (0, None)])
  /\ utf8_encode (-1)%Z = [239; 191; 189]%N.
Proof. vm_compute. split; reflexivity. Qed.

Print Assumptions C32_prefix_in_file.
Print Assumptions C32_flushed_exactly.
Print Assumptions C32_error_stops.
Print Assumptions C32_calls_return.

(** WriteRune and string(r) put out UTF-8: read back, by the definition of UTF-8
    (RFC 3629: shortest form, no surrogates), the bytes are the rune, or U+FFFD
    for what is no character. *)
Definition utf8_value (l : list N) : option N :=
  let tail b := ((128 <=? b) && (b <? 192))%N in
  match l with
  | [a] => if (a <? 128)%N then Some a else None
  | [a; b] => let c := ((a - 192) * 64 + (b - 128))%N in
      if ((192 <=? a) && (a <? 224) && tail b && (128 <=? c))%N then Some c else None
  | [a; b; d] => let c := ((a - 224) * 4096 + (b - 128) * 64 + (d - 128))%N in
      if ((224 <=? a) && (a <? 240) && tail b && tail d && (2048 <=? c) && negb ((55296 <=? c) && (c <? 57344)))%N then Some c else None
  | [a; b; d; e] => let c := ((a - 240) * 262144 + (b - 128) * 4096 + (d - 128) * 64 + (e - 128))%N in
      if ((240 <=? a) && (a <? 248) && tail b && tail d && tail e && (65536 <=? c) && (c <? 1114112))%N then Some c else None
  | _ => None
  end.
Theorem C32_runes : forall r,
  ((0 <= r < 55296 \/ 57344 <= r < 1114112)%Z -> utf8_value (bytes_of (CRune r)) = Some (Z.to_N r)) /\
  (~ (0 <= r < 55296 \/ 57344 <= r < 1114112)%Z -> utf8_value (bytes_of (CRune r)) = Some 65533%N).
Proof.
  intros r. cbn [bytes_of]. unfold utf8_encode.
  assert (B : forall b : bool, b = true -> forall (x : N), (if b then Some x else None) = Some x) by (now intros b ->).
  destruct (Z.ltb_spec r 0) as [Hr|Hr]; [split; [lia|reflexivity]|].
  set (c := Z.to_N r). assert (Hc : Z.of_N c = r) by (unfold c; lia). clearbody c.
  assert (D1 : (c = 64 * (c / 64) + c mod 64)%N) by apply N.div_mod'.
  assert (D2 : (c / 64 = 64 * (c / 4096) + (c / 64) mod 64)%N).
  { change 4096%N with (64 * 64)%N. rewrite <- N.div_div by lia. apply N.div_mod'. }
  assert (D3 : (c / 4096 = 64 * (c / 262144) + (c / 4096) mod 64)%N).
  { change 262144%N with (4096 * 64)%N. rewrite <- (N.div_div c 4096 64) by lia. apply N.div_mod'. }
  pose proof (N.mod_lt c 64 ltac:(lia)) as M1. pose proof (N.mod_lt (c / 64) 64 ltac:(lia)) as M2. pose proof (N.mod_lt (c / 4096) 64 ltac:(lia)) as M3.
  set (q1 := (c / 64)%N) in *. set (q2 := (c / 4096)%N) in *. set (q3 := (c / 262144)%N) in *.
  set (m1 := (c mod 64)%N) in *. set (m2 := (q1 mod 64)%N) in *. set (m3 := (q2 mod 64)%N) in *. clearbody q1 q2 q3 m1 m2 m3.
  destruct (N.ltb_spec c 128) as [L1|L1].
  { split; [|intros; lia]. intros _. cbn [utf8_value]. apply B. now apply N.ltb_lt. }
  destruct (N.ltb_spec c 2048) as [L2|L2].
  { split; [|intros; lia]. intros _. cbn [utf8_value]. replace ((192 + q1 - 192) * 64 + (128 + m1 - 128))%N with c by lia. apply B.
    repeat (apply andb_true_intro; split); first [apply N.leb_le|apply N.ltb_lt]; lia. }
  destruct ((55296 <=? c) && (c <=? 57343))%N eqn:Sg.
  { apply andb_prop in Sg as [S1 S2]. apply N.leb_le in S1, S2. split; [lia|reflexivity]. }
  apply andb_false_iff in Sg.
  assert (Sg' : (c < 55296 \/ 57344 <= c)%N) by (destruct Sg as [S1|S1]; apply N.leb_gt in S1; lia). clear Sg.
  destruct (N.ltb_spec c 65536) as [L3|L3].
  { split; [|intros; lia]. intros _. cbn [utf8_value].
    replace ((224 + q2 - 224) * 4096 + (128 + m2 - 128) * 64 + (128 + m1 - 128))%N with c by lia. apply B.
    apply andb_true_intro. split; [repeat (apply andb_true_intro; split); first [apply N.leb_le|apply N.ltb_lt]; lia|].
    apply negb_true_iff, andb_false_iff. destruct Sg' as [S1|S1]; [left; apply N.leb_gt|right; apply N.ltb_ge]; lia. }
  destruct (N.leb_spec c 1114111) as [L4|L4]; [|split; [lia|reflexivity]].
  split; [|intros; lia]. intros _. cbn [utf8_value].
  replace ((240 + q3 - 240) * 262144 + (128 + m3 - 128) * 4096 + (128 + m2 - 128) * 64 + (128 + m1 - 128))%N with c by lia. apply B.
  repeat (apply andb_true_intro; split); first [apply N.leb_le|apply N.ltb_lt]; lia.
Qed.
Example C32_runes_nonvacuous :
  utf8_value (bytes_of (CRune 8364)) = Some 8364%N /\ utf8_value (bytes_of (CRune 128512)) = Some 128512%N /\
  utf8_value (bytes_of (CRune 55296)) = Some 65533%N /\ utf8_value (bytes_of (CRune 57343)) = Some 65533%N /\
  utf8_value (bytes_of (CRune 1114112)) = Some 65533%N /\ utf8_value (bytes_of (CRune 1114111)) = Some 1114111%N.
Proof. vm_compute. repeat split; reflexivity. Qed.
Print Assumptions C32_runes.
