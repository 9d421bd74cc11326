(** Facts about the buffered writer. *)
From Verif Require Import Base BufIO.

(** The bytes a call asks to write. *)
Definition bytes_of (c : wcall) : list N :=
  match c with
  | CWrite p => p
  | CString p => p
  | CByte c => [c]
  | CRune r => utf8_encode r
  | CFlush => []
  end.

(** Runes are non-negative (a negative int32 is no code point; WriteRune writes
    its low byte). *)
Definition call_rune_ok (c : wcall) : Prop :=
  match c with CRune r => (0 <= r)%Z | _ => True end.

(** The writer can hold at least one byte and its buffer is not overfull. *)
Definition wok (b : writer) : Prop :=
  0 < w_size b /\ length (w_buf b) <= w_size b.

(** What one call that took [n] of the bytes [p] did. *)
Record took (b b' : writer) (p : list N) (n : nat) (e : option werr) : Prop := {
  tk_le : n <= length p;
  tk_data : f_data (w_file b') ++ w_buf b' = f_data (w_file b) ++ w_buf b ++ firstn n p;
  tk_ok : wok b';
  tk_size : w_size b' = w_size b;
  tk_err : e = w_err b';
  tk_all : e = None -> n = length p
}.

Lemma new_wok f size : wok (new_writer_size f size).
Proof.
  unfold wok, new_writer_size, default_size; cbn [w_size w_buf length].
  destruct (Z.leb_spec size 0); lia.
Qed.

Lemma flush_facts w b b' e : wok b -> flush w b = (b', e) ->
  f_data (w_file b') ++ w_buf b' = f_data (w_file b) ++ w_buf b
  /\ wok b' /\ w_size b' = w_size b /\ e = w_err b' /\ (e = None -> w_buf b' = [])
  /\ (w_err b <> None -> b' = b).
Proof.
  intros [Hs Hl]. unfold flush.
  destruct (w_err b) as [e0|] eqn:E0.
  { intros [= <- <-]. repeat split; try lia; auto. discriminate. }
  destruct (w_buf b) as [|c q] eqn:Eb.
  { intros [= <- <-]. rewrite Eb. repeat split; cbn; try lia; auto; congruence. }
  rewrite <- Eb in *. clear Eb.
  unfold file_write. destruct (w (f_calls (w_file b)) (w_buf b)) as [n oe].
  set (m := Nat.min n (length (w_buf b))).
  assert (Hcat : firstn m (w_buf b) ++ skipn m (w_buf b) = w_buf b) by apply firstn_skipn.
  assert (Hm : m <= length (w_buf b)) by (unfold m; lia).
  assert (Hsk : length (skipn m (w_buf b)) <= w_size b) by (rewrite skipn_length; lia).
  destruct oe as [e1|]; cbn [option_map].
  - intros [= <- <-]. cbn. repeat split; cbn; try lia; auto; try congruence.
    now rewrite <- app_assoc, Hcat.
  - destruct (Nat.ltb_spec m (length (w_buf b))) as [Hlt|Hge].
    + intros [= <- <-]. cbn. repeat split; cbn; try lia; auto; try congruence.
      now rewrite <- app_assoc, Hcat.
    + intros [= <- <-]. cbn. repeat split; cbn; try lia; auto; try congruence.
      rewrite app_nil_r. rewrite firstn_all2 by lia. reflexivity.
Qed.

Lemma copy_in_facts b b' n p : wok b -> copy_in b p = (b', n) ->
  n <= length p /\ n = Nat.min (available b) (length p)
  /\ f_data (w_file b') ++ w_buf b' = f_data (w_file b) ++ w_buf b ++ firstn n p
  /\ wok b' /\ w_size b' = w_size b /\ w_err b' = w_err b
  /\ w_file b' = w_file b /\ length (w_buf b') = length (w_buf b) + n.
Proof.
  intros [Hs Hl]. unfold copy_in. intros [= <- <-]. cbn.
  assert (Hf : length (firstn (Nat.min (available b) (length p)) p)
               = Nat.min (available b) (length p)) by (rewrite firstn_length; lia).
  unfold wok; cbn. rewrite app_length, Hf. unfold available in *.
  repeat split; try lia; auto.
Qed.

Lemma firstn_plus {A} (l : list A) n m : firstn (n + m) l = firstn n l ++ firstn m (skipn n l).
Proof.
  revert n. induction l as [|x l IH]; intros [|n]; cbn; auto.
  - now destruct m.
  - now rewrite IH.
Qed.

Lemma write_loop_facts fuel w : forall b p nn b' n e,
  wok b -> write_loop fuel w b p nn = Some (b', n, e) ->
  exists k, n = nn + k /\ took b b' p k e.
Proof.
  induction fuel as [|fuel IH]; [discriminate|]. intros b p nn b' n e Hb.
  cbn [write_loop].
  destruct (Nat.ltb (available b) (length p)
            && match w_err b with None => true | Some _ => false end) eqn:Eg.
  - apply andb_prop in Eg as [Elt Eerr]. apply Nat.ltb_lt in Elt.
    destruct (w_err b) eqn:Ew; [discriminate|].
    destruct (w_buf b) as [|c q] eqn:Eb.
    + unfold file_write. destruct (w (f_calls (w_file b)) p) as [n0 oe].
      set (m := Nat.min n0 (length p)). assert (m <= length p) by (unfold m; lia).
      intros Hrec. apply IH in Hrec; [|destruct Hb; split; cbn; lia].
      destruct Hrec as (k & -> & Hk). exists (m + k). split; [lia|].
      destruct Hk as [K1 K2 K3 K4 K5 K6]. rewrite skipn_length in *. cbn in *.
      constructor; auto; try lia.
      * rewrite K2, Eb, firstn_plus. cbn. now rewrite <- app_assoc.
      * intros He. specialize (K6 He). lia.
    + clear Eb c q.
      destruct (copy_in b p) as [b1 m] eqn:Ec.
      destruct (copy_in_facts _ _ _ _ Hb Ec) as (C1 & _ & C3 & C4 & C5 & C6 & C7 & _).
      destruct (flush w b1) as [b2 e2] eqn:Ef.
      destruct (flush_facts _ _ _ _ C4 Ef) as (F1 & F2 & F3 & F4 & F5 & _).
      intros Hrec. apply IH in Hrec; [|exact F2].
      destruct Hrec as (k & -> & Hk). exists (m + k). split; [lia|].
      destruct Hk as [K1 K2 K3 K4 K5 K6]. rewrite skipn_length in *.
      constructor; auto; try lia.
      * rewrite K2, app_assoc, F1, C3, firstn_plus, <- !app_assoc. reflexivity.
      * intros He. specialize (K6 He). lia.
  - destruct (w_err b) as [e0|] eqn:Ew.
    + intros [= <- <- <-]. exists 0. split; [lia|].
      constructor; auto; try lia; try congruence. cbn. now rewrite app_nil_r.
    + rewrite andb_true_r in Eg. apply Nat.ltb_ge in Eg.
      destruct (copy_in b p) as [b1 m] eqn:Ec.
      destruct (copy_in_facts _ _ _ _ Hb Ec) as (C1 & C2 & C3 & C4 & C5 & C6 & _).
      intros [= <- <- <-]. exists m. split; [lia|].
      constructor; auto; try congruence. intros _. lia.
Qed.

Lemma write_string_loop_facts fuel w : forall b p nn b' n e,
  wok b -> write_string_loop fuel w b p nn = Some (b', n, e) ->
  exists k, n = nn + k /\ took b b' p k e.
Proof.
  induction fuel as [|fuel IH]; [discriminate|]. intros b p nn b' n e Hb.
  cbn [write_string_loop].
  destruct (Nat.ltb (available b) (length p)
            && match w_err b with None => true | Some _ => false end) eqn:Eg.
  - destruct (copy_in b p) as [b1 m] eqn:Ec.
    destruct (copy_in_facts _ _ _ _ Hb Ec) as (C1 & _ & C3 & C4 & C5 & C6 & C7 & _).
    destruct (flush w b1) as [b2 e2] eqn:Ef.
    destruct (flush_facts _ _ _ _ C4 Ef) as (F1 & F2 & F3 & F4 & F5 & _).
    intros Hrec. apply IH in Hrec; [|exact F2].
    destruct Hrec as (k & -> & Hk). exists (m + k). split; [lia|].
    destruct Hk as [K1 K2 K3 K4 K5 K6]. rewrite skipn_length in *.
    constructor; auto; try lia.
    * rewrite K2, app_assoc, F1, C3, firstn_plus, <- !app_assoc. reflexivity.
    * intros He. specialize (K6 He). lia.
  - destruct (w_err b) as [e0|] eqn:Ew.
    + intros [= <- <- <-]. exists 0. split; [lia|].
      constructor; auto; try lia; try congruence. cbn. now rewrite app_nil_r.
    + rewrite andb_true_r in Eg. apply Nat.ltb_ge in Eg.
      destruct (copy_in b p) as [b1 m] eqn:Ec.
      destruct (copy_in_facts _ _ _ _ Hb Ec) as (C1 & C2 & C3 & C4 & C5 & C6 & _).
      intros [= <- <- <-]. exists m. split; [lia|].
      constructor; auto; try congruence. intros _. lia.
Qed.

Lemma write_byte_facts w b c b' n e : wok b -> write_byte w b c = (b', n, e) ->
  took b b' [c] n e.
Proof.
  intros Hb. unfold write_byte. destruct (w_err b) as [e0|] eqn:E0.
  { intros [= <- <- <-]. constructor; cbn; auto; try lia; try congruence.
    now rewrite app_nil_r. }
  destruct (Nat.leb_spec (available b) 0) as [Ha|Ha].
  - destruct (flush w b) as [b1 e1] eqn:Ef.
    destruct (flush_facts _ _ _ _ Hb Ef) as (F1 & F2 & F3 & F4 & F5 & _).
    destruct e1 as [e1|].
    + intros [= <- <- <-]. constructor; cbn; auto; try lia; try congruence.
      now rewrite app_nil_r.
    + intros [= <- <- <-]. specialize (F5 eq_refl).
      constructor; cbn; auto; try lia.
      * rewrite app_assoc, F1, <- app_assoc. reflexivity.
      * destruct F2. split; cbn; [lia|]. rewrite F5. cbn. lia.
  - intros [= <- <- <-]. constructor; cbn; auto; try lia.
    destruct Hb. split; cbn; [lia|]. rewrite app_length; cbn. unfold available in Ha. lia.
Qed.

Lemma utf8_len r : length (utf8_encode r) <= 4.
Proof.
  unfold utf8_encode. destruct (r <? 0)%Z; [cbn; lia|].
  repeat match goal with |- context [if ?c then _ else _] => destruct c; [cbn; lia|] end.
  cbn; lia.
Qed.

Lemma rune_small r : (0 <= r < 128)%Z -> utf8_encode r = [byte_of r].
Proof.
  intros H. unfold utf8_encode, byte_of.
  destruct (Z.ltb_spec r 0); [lia|].
  destruct (N.ltb_spec (Z.to_N r) 128); [|lia].
  rewrite Z.mod_small by lia. reflexivity.
Qed.

Lemma write_rune_facts fuel w b r b' n e : wok b -> (0 <= r)%Z ->
  write_rune fuel w b r = Some (b', n, e) -> took b b' (utf8_encode r) n e.
Proof.
  intros Hb Hr. unfold write_rune. destruct (Z.ltb_spec r 128) as [Hlt|Hge].
  { intros [= H]. rewrite rune_small by lia. eapply write_byte_facts; eauto. }
  destruct (w_err b) as [e0|] eqn:E0.
  { intros [= <- <- <-]. constructor; cbn; auto; try lia; try congruence.
    now rewrite app_nil_r. }
  pose proof (utf8_len r) as HL.
  destruct (Nat.ltb_spec (available b) 4) as [Ha|Ha].
  - destruct (flush w b) as [b1 e1] eqn:Ef.
    destruct (flush_facts _ _ _ _ Hb Ef) as (F1 & F2 & F3 & F4 & F5 & _).
    destruct (w_err b1) as [e2|] eqn:E2.
    { intros [= <- <- <-]. constructor; cbn; auto; try lia; try congruence.
      now rewrite app_nil_r. }
    destruct (Nat.ltb_spec (available b1) 4) as [Ha1|Ha1].
    + intros H. apply write_string_loop_facts in H; [|exact F2].
      destruct H as (k & -> & [K1 K2 K3 K4 K5 K6]). cbn [Nat.add].
      constructor; auto; try congruence.
      rewrite K2, app_assoc, F1, <- app_assoc. reflexivity.
    + intros [= <- <- <-]. constructor; cbn; auto; try lia.
      * rewrite app_assoc, F1, <- app_assoc, firstn_all. reflexivity.
      * destruct F2. split; cbn; [lia|]. rewrite app_length. unfold available in Ha1. lia.
  - intros [= <- <- <-]. constructor; cbn; auto; try lia.
    + now rewrite firstn_all.
    + destruct Hb. split; cbn; [lia|]. rewrite app_length. unfold available in Ha. lia.
Qed.

Lemma wstep_facts fuel w b c b' n e : wok b -> call_rune_ok c ->
  wstep fuel w b c = Some (b', n, e) ->
  took b b' (bytes_of c) n e /\ (c = CFlush -> e = None -> w_buf b' = []).
Proof.
  intros Hb Hc. destruct c as [p|p|x|r|]; cbn [wstep bytes_of]; intros H.
  - apply write_loop_facts in H; [|exact Hb]. destruct H as (k & -> & K). split; [exact K|discriminate].
  - apply write_string_loop_facts in H; [|exact Hb]. destruct H as (k & -> & K). split; [exact K|discriminate].
  - injection H as H. split; [eapply write_byte_facts; eauto|discriminate].
  - split; [eapply write_rune_facts; eauto|discriminate].
  - destruct (flush w b) as [b1 e1] eqn:Ef. injection H as <- <- <-.
    destruct (flush_facts _ _ _ _ Hb Ef) as (F1 & F2 & F3 & F4 & F5 & _). split; [|auto].
    constructor; cbn; auto; try lia. now rewrite app_nil_r.
Qed.

(** After an error nothing changes any more. *)
Lemma wstep_stuck fuel w b c e0 b' n e : w_err b = Some e0 ->
  wstep fuel w b c = Some (b', n, e) -> b' = b /\ n = 0 /\ e = Some e0.
Proof.
  intros E0. destruct c as [p|p|x|r|]; cbn [wstep].
  - destruct fuel as [|fuel]; [discriminate|]. cbn [write_loop]. rewrite E0, andb_false_r.
    intros [= <- <- <-]. auto.
  - destruct fuel as [|fuel]; [discriminate|]. cbn [write_string_loop]. rewrite E0, andb_false_r.
    intros [= <- <- <-]. auto.
  - unfold write_byte. rewrite E0. intros [= <- <- <-]. auto.
  - unfold write_rune, write_byte. rewrite E0.
    destruct (r <? 128)%Z; intros [= <- <- <-]; auto.
  - unfold flush. rewrite E0. intros [= <- <- <-]. auto.
Qed.

(** The bytes the answers say were taken. *)
Definition accepted (cs : list wcall) (rs : list (nat * option werr)) : list N :=
  flat_map (fun '(c, r) => firstn (fst r) (bytes_of c)) (combine cs rs).

Lemma wrun_facts fuel w : forall cs b b' rs, wok b -> Forall call_rune_ok cs ->
  wrun fuel w b cs = Some (b', rs) ->
  length rs = length cs /\ wok b' /\ w_size b' = w_size b
  /\ f_data (w_file b') ++ w_buf b' = f_data (w_file b) ++ w_buf b ++ accepted cs rs.
Proof.
  induction cs as [|c cs IH]; intros b b' rs Hb Hc; cbn [wrun].
  { intros [= <- <-]. cbn. rewrite !app_nil_r. auto. }
  inversion Hc as [|? ? Hc1 Hc2]; subst.
  destruct (wstep fuel w b c) as [[[b1 n] e]|] eqn:Es; [|discriminate].
  destruct (wstep_facts _ _ _ _ _ _ _ Hb Hc1 Es) as [[T1 T2 T3 T4 T5 T6] _].
  destruct (wrun fuel w b1 cs) as [[b2 rs2]|] eqn:Er; [|discriminate].
  intros [= <- <-]. destruct (IH _ _ _ T3 Hc2 Er) as (L & O & S & D).
  cbn [length]. rewrite L, S, T4. repeat split; auto; try apply O.
  rewrite D, app_assoc, T2. cbn. now rewrite <- !app_assoc.
Qed.

Lemma accepted_all fuel w : forall cs b b' rs, wok b -> Forall call_rune_ok cs ->
  wrun fuel w b cs = Some (b', rs) -> Forall (fun r => snd r = None) rs ->
  accepted cs rs = flat_map bytes_of cs.
Proof.
  induction cs as [|c cs IH]; intros b b' rs Hb Hc; cbn [wrun].
  { intros [= <- <-]. reflexivity. }
  inversion Hc as [|? ? Hc1 Hc2]; subst.
  destruct (wstep fuel w b c) as [[[b1 n] e]|] eqn:Es; [|discriminate].
  destruct (wstep_facts _ _ _ _ _ _ _ Hb Hc1 Es) as [[T1 T2 T3 T4 T5 T6] _].
  destruct (wrun fuel w b1 cs) as [[b2 rs2]|] eqn:Er; [|discriminate].
  intros [= <- <-] Hn. inversion Hn as [|? ? Hn1 Hn2]; subst. cbn in Hn1.
  unfold accepted. cbn. rewrite T6, firstn_all by exact Hn1. f_equal.
  eapply IH; eauto.
Qed.

Lemma wrun_app fuel w : forall cs1 cs2 b b' rs,
  wrun fuel w b (cs1 ++ cs2) = Some (b', rs) ->
  exists b1 rs1 rs2, wrun fuel w b cs1 = Some (b1, rs1)
    /\ wrun fuel w b1 cs2 = Some (b', rs2) /\ rs = rs1 ++ rs2.
Proof.
  induction cs1 as [|c cs1 IH]; intros cs2 b b' rs; cbn [app wrun].
  { intros H. exists b, [], rs. auto. }
  destruct (wstep fuel w b c) as [[[b1 n] e]|]; [|discriminate].
  destruct (wrun fuel w b1 (cs1 ++ cs2)) as [[b2 rs2]|] eqn:Er; [|discriminate].
  intros [= <- <-]. destruct (IH _ _ _ _ Er) as (b3 & r1 & r2 & H1 & H2 & ->).
  rewrite H1. exists b3, ((n, e) :: r1), r2. auto.
Qed.

Lemma wrun_stuck fuel w e0 : forall cs b b' rs, w_err b = Some e0 ->
  wrun fuel w b cs = Some (b', rs) ->
  b' = b /\ Forall (fun r => r = (0, Some e0)) rs.
Proof.
  induction cs as [|c cs IH]; intros b b' rs E0; cbn [wrun].
  { intros [= <- <-]. auto. }
  destruct (wstep fuel w b c) as [[[b1 n] e]|] eqn:Es; [|discriminate].
  destruct (wstep_stuck _ _ _ _ _ _ _ _ E0 Es) as (-> & -> & ->).
  destruct (wrun fuel w b cs) as [[b2 rs2]|] eqn:Er; [|discriminate].
  intros [= <- <-]. destruct (IH _ _ _ E0 Er) as (-> & F). auto.
Qed.

Lemma app_inj_len {A} : forall (a b x y : list A),
  a ++ x = b ++ y -> length a = length b -> a = b /\ x = y.
Proof.
  induction a as [|h a IH]; intros [|h' b] x y Hq Hl; try discriminate; [auto|].
  injection Hq as <- Hq. injection Hl as Hl. destruct (IH _ _ _ Hq Hl) as [-> ->]. auto.
Qed.

(** The first error is sticky. *)
Lemma wrun_errors fuel w cs1 cs2 b b' rs n e rs2 :
  wok b -> Forall call_rune_ok (cs1) ->
  wrun fuel w b (cs1 ++ cs2) = Some (b', rs ++ (n, Some e) :: rs2) ->
  length cs1 = S (length rs) ->
  exists b1, wrun fuel w b cs1 = Some (b1, rs ++ [(n, Some e)]) /\ b' = b1
    /\ Forall (fun r => r = (0, Some e)) rs2.
Proof.
  intros Hb Hc Hr Hl. destruct (wrun_app _ _ _ _ _ _ _ Hr) as (b1 & r1 & r2 & H1 & H2 & Hq).
  destruct (wrun_facts _ _ _ _ _ _ Hb Hc H1) as (L & O & _).
  assert (Hr1 : r1 = rs ++ [(n, Some e)] /\ r2 = rs2).
  { replace (rs ++ (n, Some e) :: rs2) with ((rs ++ [(n, Some e)]) ++ rs2) in Hq
      by (rewrite <- app_assoc; reflexivity).
    assert (Hlen : length r1 = length (rs ++ [(n, Some e)])).
    { rewrite app_length; cbn. lia. }
    symmetry in Hq. now apply app_inj_len. }
  destruct Hr1 as [-> ->]. exists b1. split; [exact H1|].
  assert (He : w_err b1 = Some e).
  { destruct (exists_last (l := cs1)) as (cs0 & c & ->).
    { intros ->. discriminate. }
    destruct (wrun_app _ _ _ _ _ _ _ H1) as (b0 & q1 & q2 & G1 & G2 & Gq).
    rewrite Forall_app in Hc. destruct Hc as [Hc0 Hc1]. inversion Hc1; subst.
    destruct (wrun_facts _ _ _ _ _ _ Hb Hc0 G1) as (_ & O0 & _).
    cbn [wrun] in G2. destruct (wstep fuel w b0 c) as [[[b2 n2] e2]|] eqn:Es; [|discriminate].
    destruct (wstep_facts _ _ _ _ _ _ _ O0 H3 Es) as [T _].
    injection G2 as <- <-. apply app_inj_tail in Gq as [_ Gq]. injection Gq as _ <-.
    symmetry. apply (tk_err _ _ _ _ _ T). }
  destruct (wrun_stuck _ _ _ _ _ _ _ He H2) as [-> F]. auto.
Qed.

(** ** The loops end when the file keeps the io.Writer contract *)

Definition file_contract (w : file_oracle) : Prop :=
  forall k p, fst (w k p) < length p -> snd (w k p) <> None.

Definition fuel_for (c : wcall) : nat := length (bytes_of c) + 3.

Lemma flush_empties w b b' : flush w b = (b', None) -> w_buf b' = [].
Proof.
  unfold flush. destruct (w_err b); [discriminate|].
  destruct (w_buf b) eqn:Eb; [intros [= <-]; exact Eb|].
  destruct (file_write w (w_file b) (n :: l)) as [[f m] [e|]]; [discriminate|].
  destruct (Nat.ltb _ _); [discriminate|]. now intros [= <-].
Qed.

Lemma write_string_ends w : forall fuel b p nn, wok b ->
  length p + (if Nat.ltb (length (w_buf b)) (w_size b) then 0 else 1) < fuel ->
  write_string_loop fuel w b p nn <> None.
Proof.
  induction fuel as [|fuel IH]; intros b p nn Hb Hf; [lia|]. cbn [write_string_loop].
  destruct (Nat.ltb (available b) (length p) && _) eqn:Eg.
  2:{ destruct (w_err b); [discriminate|]. destruct (copy_in b p). discriminate. }
  apply andb_prop in Eg as [Elt Eerr]. apply Nat.ltb_lt in Elt.
  destruct (copy_in b p) as [b1 m] eqn:Ec.
  destruct (copy_in_facts _ _ _ _ Hb Ec) as (C1 & C2 & C3 & C4 & C5 & C6 & C7 & C8).
  destruct (flush w b1) as [b2 e2] eqn:Ef.
  destruct (flush_facts _ _ _ _ C4 Ef) as (F1 & F2 & F3 & F4 & F5 & _).
  destruct e2 as [e2|].
  { destruct fuel as [|fuel].
    - unfold available in *. destruct (Nat.ltb_spec (length (w_buf b)) (w_size b)); lia.
    - cbn [write_string_loop]. rewrite <- F4, andb_false_r. discriminate. }
  apply IH; [exact F2|]. rewrite (F5 eq_refl), skipn_length. cbn [length].
  destruct F2 as [Hp _].
  destruct (Nat.ltb_spec 0 (w_size b2)); [|lia].
  unfold available in *. destruct (Nat.ltb_spec (length (w_buf b)) (w_size b)); lia.
Qed.

Lemma write_ends w : file_contract w -> forall fuel b p nn, wok b -> 3 <= fuel ->
  write_loop fuel w b p nn <> None.
Proof.
  intros Hw fuel b p nn Hb Hf.
  assert (Hempty : forall fuel b p nn, wok b -> w_buf b = [] -> 2 <= fuel ->
            write_loop fuel w b p nn <> None).
  { clear fuel b p nn Hb Hf. intros fuel b p nn Hb He Hf.
    destruct fuel as [|fuel]; [lia|]. cbn [write_loop]. rewrite He.
    destruct (Nat.ltb (available b) (length p) && _) eqn:Eg.
    2:{ destruct (w_err b); [discriminate|]. destruct (copy_in b p). discriminate. }
    unfold file_write. pose proof (Hw (f_calls (w_file b)) p) as Hc.
    destruct (w (f_calls (w_file b)) p) as [n oe]. cbn in Hc.
    destruct fuel as [|fuel]; [lia|]. cbn [write_loop w_err].
    destruct oe as [e|]; cbn [option_map].
    - rewrite andb_false_r. discriminate.
    - replace (Nat.ltb (available _) _) with false; cbn [andb].
      + destruct (copy_in _ _). discriminate.
      + symmetry. apply Nat.ltb_ge. rewrite skipn_length.
        destruct (Nat.lt_ge_cases n (length p)) as [Hlt|]; [|lia].
        exfalso. now apply Hc. }
  destruct fuel as [|fuel]; [lia|]. cbn [write_loop].
  destruct (Nat.ltb (available b) (length p) && _) eqn:Eg.
  2:{ destruct (w_err b); [discriminate|]. destruct (copy_in b p). discriminate. }
  destruct (w_buf b) as [|c q] eqn:Eb.
  - unfold file_write. destruct (w (f_calls (w_file b)) p) as [n oe].
    apply Hempty; cbn; auto; try lia. destruct Hb; split; cbn; lia.
  - destruct (copy_in b p) as [b1 m] eqn:Ec.
    destruct (copy_in_facts _ _ _ _ Hb Ec) as (C1 & C2 & C3 & C4 & C5 & C6 & C7 & C8).
    destruct (flush w b1) as [b2 e2] eqn:Ef.
    destruct (flush_facts _ _ _ _ C4 Ef) as (F1 & F2 & F3 & F4 & F5 & _).
    destruct e2 as [e2|].
    + destruct fuel as [|fuel]; [lia|]. cbn [write_loop]. rewrite <- F4, andb_false_r. discriminate.
    + apply Hempty; auto. lia.
Qed.

Lemma wstep_ends w fuel b c : file_contract w -> wok b -> fuel_for c <= fuel ->
  wstep fuel w b c <> None.
Proof.
  intros Hw Hb Hf. unfold fuel_for in Hf. destruct c as [p|p|x|r|]; cbn [wstep bytes_of] in *.
  - apply write_ends; auto. lia.
  - apply write_string_ends; auto. destruct (Nat.ltb _ _); lia.
  - discriminate.
  - unfold write_rune. destruct (r <? 128)%Z; [discriminate|].
    destruct (w_err b); [discriminate|].
    destruct (Nat.ltb _ _); [|discriminate].
    destruct (flush w b) as [b1 e1] eqn:Ef.
    destruct (flush_facts _ _ _ _ Hb Ef) as (F1 & F2 & _).
    destruct (w_err b1); [discriminate|].
    destruct (Nat.ltb (available b1) 4); [|discriminate].
    apply write_string_ends; auto. destruct (Nat.ltb _ _); lia.
  - destruct (flush w b). discriminate.
Qed.

Lemma wrun_ends w fuel : file_contract w -> forall cs b, wok b ->
  Forall call_rune_ok cs -> Forall (fun c => fuel_for c <= fuel) cs ->
  wrun fuel w b cs <> None.
Proof.
  intros Hw. induction cs as [|c cs IH]; intros b Hb Hr Hf; cbn [wrun]; [discriminate|].
  inversion Hr; inversion Hf; subst.
  pose proof (wstep_ends w fuel b c Hw Hb H5) as He.
  destruct (wstep fuel w b c) as [[[b1 n] e]|] eqn:Es; [|congruence].
  destruct (wstep_facts _ _ _ _ _ _ _ Hb H1 Es) as [[T1 T2 T3 T4 T5 T6] _].
  pose proof (IH b1 T3 H2 H6) as He2.
  destruct (wrun fuel w b1 cs) as [[b2 rs]|]; [discriminate|congruence].
Qed.
