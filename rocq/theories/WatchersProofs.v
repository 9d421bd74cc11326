(** Progress of the goroutines of [Watchers]. *)
From Coq Require Import String.
From Verif Require Import Base Client Collections Watchers.

(** Sends a program can still make, to the goroutine of the vector cache and of the
    code cache; [m]: h.compressed is known to be set. *)
Fixpoint av (m : bool) (p : prog) : nat :=
  match p with
  | PDone => 0
  | PRLock k | PRUnlock k | PLock k | PLockW k | PUnlock k | PSetComp k | PStopCodes k => av m k
  | PStopVec k => S (av m k)
  | PIfComp a b => if m then av m a else Nat.max (av m a) (av m b)
  | PChoice a b => Nat.max (av m a) (av m b)
  | PGo q k => av m q + av m k
  end.
Fixpoint ac (m : bool) (p : prog) : nat :=
  match p with
  | PDone => 0
  | PRLock k | PRUnlock k | PLock k | PLockW k | PUnlock k | PSetComp k | PStopVec k => ac m k
  | PStopCodes k => S (ac m k)
  | PIfComp a b => if m then ac m a else Nat.max (ac m a) (ac m b)
  | PChoice a b => Nat.max (ac m a) (ac m b)
  | PGo q k => ac m q + ac m k
  end.
(** The program stands inside its write-locked or read-locked section. *)
Fixpoint hw (p : prog) : bool :=
  match p with
  | PUnlock _ => true
  | PSetComp k | PStopVec k | PStopCodes k | PGo _ k => hw k
  | PIfComp a _ | PChoice a _ => hw a
  | _ => false
  end.
Definition hr (p : prog) : nat := match p with PRUnlock _ => 1 | _ => 0 end.
Definition is_stopvec (p : prog) : bool := match p with PStopVec _ => true | _ => false end.
(** Locks and unlocks match. *)
Fixpoint wf (p : prog) : Prop :=
  match p with
  | PDone => True
  | PRLock k => hr k = 1 /\ hw k = false /\ wf k
  | PRUnlock k | PUnlock k => hr k = 0 /\ hw k = false /\ wf k
  | PLock k | PLockW k => hr k = 0 /\ hw k = true /\ wf k
  | PSetComp k => is_stopvec k = true /\ hr k = 0 /\ wf k
  | PStopVec k | PStopCodes k => hr k = 0 /\ wf k
  | PIfComp a b | PChoice a b => hr a = 0 /\ hr b = 0 /\ hw a = hw b /\ wf a /\ wf b
  | PGo q k => hr q = 0 /\ hw q = false /\ hr k = 0 /\ wf q /\ wf k
  end.
Fixpoint size (p : prog) : nat :=
  match p with
  | PDone => 0
  | PRLock k | PRUnlock k | PLockW k | PUnlock k | PSetComp k | PStopVec k | PStopCodes k => S (size k)
  | PLock k => S (S (size k))
  | PIfComp a b | PChoice a b => S (size a + size b)
  | PGo q k => S (size q + size k)
  end.

Definition b2n (b : bool) : nat := if b then 1 else 0.
Fixpoint total (f : prog -> nat) (l : list prog) : nat :=
  match l with [] => 0 | p :: l' => f p + total f l' end.

Lemma total_app f l l' : total f (l ++ l') = total f l + total f l'.
Proof. induction l as [|x l IH]; cbn; [reflexivity|]. rewrite IH. lia. Qed.
Lemma total_upd f l g p k : nth_error l g = Some p -> total f (upd l g k) + f p = total f l + f k.
Proof.
  revert g. induction l as [|x l IH]; intros [|g] E; cbn in E; try discriminate.
  - injection E as ->. cbn. lia.
  - specialize (IH _ E). cbn. lia.
Qed.
Lemma total_ge f l g p : nth_error l g = Some p -> f p <= total f l.
Proof.
  revert g. induction l as [|x l IH]; intros [|g] E; cbn in E; try discriminate; cbn.
  - injection E as ->. lia.
  - specialize (IH _ E). lia.
Qed.
Lemma total_pos f l : total f l <> 0 -> exists g p, nth_error l g = Some p /\ f p <> 0.
Proof.
  induction l as [|x l IH]; cbn; intros H; [lia|].
  destruct (Nat.eq_dec (f x) 0) as [E|E].
  - destruct IH as (g & p & A & B); [lia|]. exists (S g), p. split; [exact A|exact B].
  - exists 0, x. split; [reflexivity|exact E].
Qed.

(** The state of an index whose sends all find their receiver. *)
Record inv (m : bool) (w : ist) : Prop := {
  v_wf : Forall wf (i_thr w);
  v_m : m = true -> i_comp w = true;
  v_vec : total (av m) (i_thr w) <= b2n (i_vec w);
  v_codes : total (ac m) (i_thr w) <= b2n (i_codes w);
  v_rd : i_rd w = total hr (i_thr w);
  v_wr : b2n (i_wr w) = total (fun p => b2n (hw p)) (i_thr w);
  v_set : i_comp w = true -> i_vec w = false \/ exists g k, nth_error (i_thr w) g = Some (PStopVec k)
}.

Lemma forall_upd (P : prog -> Prop) l g k : Forall P l -> P k -> Forall P (upd l g k).
Proof.
  intros F K. revert g. induction F as [|x l X F IH]; intros [|g]; cbn; constructor; auto.
Qed.
Lemma nth_upd_ne {A} (l : list A) g g' x : g <> g' -> nth_error (upd l g x) g' = nth_error l g'.
Proof. revert g g'. induction l as [|y l IH]; intros [|g] [|g'] N; cbn; auto; try congruence. Qed.
Lemma nth_upd_same {A} (l : list A) g p x : nth_error l g = Some p -> nth_error (upd l g x) g = Some x.
Proof. revert g. induction l as [|y l IH]; intros [|g] E; cbn in *; try discriminate; auto. Qed.

Lemma total_le f f' l : (forall p, f p <= f' p) -> total f l <= total f' l.
Proof. intros H. induction l as [|x l IH]; cbn; [lia|]. specialize (H x). lia. Qed.

Lemma step_inv m w g b w' : inv m w -> istep w g b = Some w' -> inv m w'.
Proof.
  intros [F M V C R W T] E. unfold istep in E.
  destruct (nth_error (i_thr w) g) as [p|] eqn:Eg; [|discriminate].
  assert (Wp : wf p) by (rewrite Forall_forall in F; apply F; apply nth_error_In in Eg; exact Eg).
  assert (UV : forall k, total (av m) (upd (i_thr w) g k) + av m p = total (av m) (i_thr w) + av m k) by (intros; apply total_upd, Eg).
  assert (UC : forall k, total (ac m) (upd (i_thr w) g k) + ac m p = total (ac m) (i_thr w) + ac m k) by (intros; apply total_upd, Eg).
  assert (UR : forall k, total hr (upd (i_thr w) g k) + hr p = total hr (i_thr w) + hr k) by (intros; apply total_upd, Eg).
  assert (UW : forall k, total (fun q => b2n (hw q)) (upd (i_thr w) g k) + b2n (hw p) = total (fun q => b2n (hw q)) (i_thr w) + b2n (hw k))
    by (intros; exact (total_upd (fun q => b2n (hw q)) _ _ _ k Eg)).
  assert (KEEP : is_stopvec p = false -> forall k ex,
    i_comp w = true -> i_vec w = false \/ exists g' k', nth_error (upd (i_thr w) g k ++ ex) g' = Some (PStopVec k')).
  { intros NS k ex Hc. destruct (T Hc) as [A|(g' & k' & A)]; [left; exact A|right].
    exists g', k'. destruct (Nat.eq_dec g g') as [->|N].
    - rewrite Eg in A. injection A as ->. discriminate.
    - rewrite nth_error_app1; [rewrite nth_upd_ne by exact N; exact A|].
      rewrite upd_length. apply nth_error_Some. congruence. }
  assert (KEEP0 : is_stopvec p = false -> forall k,
    i_comp w = true -> i_vec w = false \/ exists g' k', nth_error (upd (i_thr w) g k) g' = Some (PStopVec k')).
  { intros NS k Hc. specialize (KEEP NS k [] Hc). rewrite app_nil_r in KEEP. exact KEEP. }
  destruct p as [|k|k|k|k|k|k|a b'|k|k|a b'|q k]; cbn [wf av ac hw hr] in *.
  - discriminate.
  - destruct (i_wr w || existsb waiting (i_thr w)) eqn:Eb; [discriminate|].
    injection E as <-. destruct Wp as (W1 & W2 & W3).
    specialize (UV k). specialize (UC k). specialize (UR k). specialize (UW k). rewrite W2 in UW. cbn in UW.
    constructor; cbn; auto; try lia. apply forall_upd; assumption.
  - injection E as <-. destruct Wp as (W1 & W2 & W3).
    specialize (UV k). specialize (UC k). specialize (UR k). specialize (UW k). rewrite W2 in UW. cbn in UW.
    constructor; cbn; auto; try lia. apply forall_upd; assumption.
  - injection E as <-. destruct Wp as (W1 & W2 & W3).
    specialize (UV (PLockW k)). specialize (UC (PLockW k)). specialize (UR (PLockW k)). specialize (UW (PLockW k)).
    cbn in UV, UC, UR, UW.
    constructor; cbn; auto; try lia. apply forall_upd; [assumption|cbn; auto].
  - destruct (i_wr w || negb (Nat.eqb (i_rd w) 0)) eqn:Eb; [discriminate|].
    apply Bool.orb_false_iff in Eb. destruct Eb as (Eb & _).
    injection E as <-. destruct Wp as (W1 & W2 & W3).
    specialize (UV k). specialize (UC k). specialize (UR k). specialize (UW k). rewrite W2 in UW. cbn in UW.
    rewrite Eb in W. cbn in W.
    constructor; cbn; auto; try lia. apply forall_upd; assumption.
  - injection E as <-. destruct Wp as (W1 & W2 & W3).
    specialize (UV k). specialize (UC k). specialize (UR k). specialize (UW k). rewrite W2 in UW. cbn in UW.
    assert (b2n (i_wr w) <= 1) by (destruct (i_wr w); cbn; lia).
    constructor; cbn; auto; try lia. apply forall_upd; assumption.
  - injection E as <-. destruct Wp as (W1 & W2 & W3).
    specialize (UV k). specialize (UC k). specialize (UR k). specialize (UW k).
    constructor; cbn; auto; try lia; try (apply forall_upd; assumption).
    intros _. right. destruct k; try discriminate. exists g, k. exact (nth_upd_same _ _ _ _ Eg).
  - injection E as <-. destruct Wp as (W1 & W2 & W3 & W4 & W5).
    set (k := if i_comp w then a else b').
    assert (Hk : hr k = 0 /\ hw k = hw a /\ wf k) by (unfold k; destruct (i_comp w); auto).
    destruct Hk as (K1 & K2 & K3).
    specialize (UV k). specialize (UC k). specialize (UR k). specialize (UW k). rewrite K2 in UW.
    assert (KV : av m k <= (if m then av m a else Nat.max (av m a) (av m b'))).
    { unfold k. destruct m; [rewrite M by reflexivity; lia|destruct (i_comp w); lia]. }
    assert (KC : ac m k <= (if m then ac m a else Nat.max (ac m a) (ac m b'))).
    { unfold k. destruct m; [rewrite M by reflexivity; lia|destruct (i_comp w); lia]. }
    constructor; cbn; auto; try lia. apply forall_upd; assumption.
  - destruct (i_vec w) eqn:Ev; [|discriminate].
    injection E as <-. destruct Wp as (W1 & W2).
    specialize (UV k). specialize (UC k). specialize (UR k). specialize (UW k). cbn in V.
    constructor; cbn; auto; try lia. apply forall_upd; assumption.
  - destruct (i_codes w) eqn:Ev; [|discriminate].
    injection E as <-. destruct Wp as (W1 & W2).
    specialize (UV k). specialize (UC k). specialize (UR k). specialize (UW k). cbn in C.
    constructor; cbn; auto; try lia. apply forall_upd; assumption.
  - injection E as <-. destruct Wp as (W1 & W2 & W3 & W4 & W5).
    set (k := if b then b' else a).
    assert (Hk : hr k = 0 /\ hw k = hw a /\ wf k) by (unfold k; destruct b; auto).
    destruct Hk as (K1 & K2 & K3).
    specialize (UV k). specialize (UC k). specialize (UR k). specialize (UW k). rewrite K2 in UW.
    assert (KV : av m k <= Nat.max (av m a) (av m b')) by (unfold k; destruct b; lia).
    assert (KC : ac m k <= Nat.max (ac m a) (ac m b')) by (unfold k; destruct b; lia).
    constructor; cbn; auto; try lia. apply forall_upd; assumption.
  - injection E as <-. destruct Wp as (W1 & W2 & W3 & W4 & W5).
    specialize (UV k). specialize (UC k). specialize (UR k). specialize (UW k).
    constructor; cbn [i_thr i_comp i_vec i_codes i_rd i_wr]; auto; rewrite ?total_app; try (cbn [total]; rewrite ?W1, ?W2; cbn [b2n]; lia).
    apply Forall_app. split; [apply forall_upd; assumption|constructor; [assumption|constructor]].
Qed.

Lemma run_inv m w sched : inv m w -> inv m (irun w sched).
Proof.
  revert w. induction sched as [|[g b] sched IH]; intros w H; cbn; [exact H|].
  apply IH. destruct (istep w g b) eqn:E; [eapply step_inv; eassumption|exact H].
Qed.

Lemma done_dec (p : prog) : {p = PDone} + {p <> PDone}.
Proof. destruct p; [left; reflexivity|right; discriminate..]. Defined.

(** Somebody can step unless all have returned. *)
Lemma can_step m w g p : inv m w -> nth_error (i_thr w) g = Some p ->
  match p with PDone | PRLock _ | PLockW _ => False | _ => True end ->
  exists w', istep w g true = Some w'.
Proof.
  intros H E K. unfold istep. rewrite E.
  destruct p; try contradiction; try (eexists; reflexivity).
  - pose proof (v_vec _ _ H) as V. pose proof (total_ge (av m) _ _ _ E) as G. cbn in G.
    destruct (i_vec w); cbn in V; [eexists; reflexivity|lia].
  - pose proof (v_codes _ _ H) as V. pose proof (total_ge (ac m) _ _ _ E) as G. cbn in G.
    destruct (i_codes w); cbn in V; [eexists; reflexivity|lia].
Qed.
Lemma progress m w : inv m w -> returned w \/ exists g w', istep w g true = Some w'.
Proof.
  intros H.
  destruct (i_wr w) eqn:Ew.
  { pose proof (v_wr _ _ H) as W. rewrite Ew in W. cbn in W.
    destruct (total_pos (fun p => b2n (hw p)) (i_thr w)) as (g & p & E & N); [lia|]. right. exists g.
    apply (can_step m w g p H E). destruct p; cbn in N; try (exfalso; lia); exact I. }
  destruct (Nat.eq_dec (i_rd w) 0) as [Er|Er].
  2:{ pose proof (v_rd _ _ H) as R.
      destruct (total_pos hr (i_thr w)) as (g & p & E & N); [lia|]. right. exists g.
      apply (can_step m w g p H E). destruct p; cbn in N; try (exfalso; lia); exact I. }
  destruct (existsb waiting (i_thr w)) eqn:Ex.
  { apply existsb_exists in Ex. destruct Ex as (p & Hin & Wp). apply In_nth_error in Hin. destruct Hin as (g & E).
    right. exists g. unfold istep. rewrite E. destruct p; try discriminate. rewrite Ew, Er. cbn. eexists. reflexivity. }
  assert (D : forall l, (forall g p, nth_error l g = Some p -> nth_error (i_thr w) (g + (length (i_thr w) - length l)) = Some p) ->
    length l <= length (i_thr w) ->
    (forall p, In p l -> p = PDone) \/ exists g p, nth_error (i_thr w) g = Some p /\ p <> PDone).
  { induction l as [|x l IH]; intros HL HLn; [left; intros p []|].
    destruct (done_dec x) as [->|N].
    - destruct IH as [A|A]; [| cbn in HLn; lia | | right; exact A].
      + intros g p E. specialize (HL (S g) p E). cbn in HLn. replace (g + (length (i_thr w) - length l)) with (S g + (length (i_thr w) - length (PDone :: l))) by (cbn; lia). exact HL.
      + left. intros p [<-|Hin]; [reflexivity|apply A, Hin].
    - right. exists (0 + (length (i_thr w) - length (x :: l))), x. split; [apply HL; reflexivity|exact N]. }
  destruct (D (i_thr w)) as [A|(g & p & E & N)].
  { intros g p E. replace (g + _) with g by lia. exact E. }
  { lia. }
  { left. exact A. }
  right. exists g. destruct p; try congruence; try (apply (can_step m w g _ H E); exact I).
  - unfold istep. rewrite E, Ew, Ex. cbn. eexists. reflexivity.
  - exfalso. assert (existsb waiting (i_thr w) = true); [|congruence].
    apply existsb_exists. exists (PLockW p). split; [eapply nth_error_In; exact E|reflexivity].
Qed.

Lemma step_size w g b w' : istep w g b = Some w' -> total size (i_thr w') < total size (i_thr w).
Proof.
  unfold istep. destruct (nth_error (i_thr w) g) as [p|] eqn:Eg; [|discriminate].
  assert (U : forall k, total size (upd (i_thr w) g k) + size p = total size (i_thr w) + size k) by (intros; apply total_upd, Eg).
  destruct p; intros E; try discriminate;
    repeat match type of E with (if ?c then _ else _) = _ => destruct c; try discriminate end;
    injection E as <-; cbn [i_thr].
  all: try (rewrite total_app; cbn [total]).
  all: try match goal with |- context [upd _ _ ?k] => specialize (U k) end; cbn [size] in *; try lia.
  - destruct (i_comp w); lia.
  - destruct b; lia.
Qed.

Lemma all_return m w : inv m w -> exists sched, returned (irun w sched).
Proof.
  remember (total size (i_thr w)) as n eqn:En. revert w En.
  induction n as [n IH] using lt_wf_ind. intros w -> H.
  destruct (progress m w H) as [R|(g & w' & E)]; [exists []; exact R|].
  destruct (IH _ (step_size _ _ _ _ E) w' eq_refl (step_inv _ _ _ _ _ H E)) as (sched & R).
  exists ((g, true) :: sched). cbn. rewrite E. exact R.
Qed.
Lemma blocked_returned m w : inv m w -> blocked w -> returned w.
Proof.
  intros H B. destruct (progress m w H) as [R|(g & w' & E)]; [exact R|]. rewrite B in E. discriminate.
Qed.

Lemma wf_call c : wf (call_p c) /\ hr (call_p c) = 0 /\ hw (call_p c) = false.
Proof. destruct c as [|[]| | |]; cbn; repeat split; reflexivity. Qed.
Lemma total_calls f cs : total f (map call_p cs) = list_sum (map (fun c => f (call_p c)) cs).
Proof. induction cs as [|c cs IH]; cbn; [reflexivity|]. rewrite IH. reflexivity. Qed.
Lemma total_zero f l : (forall p, In p l -> f p = 0) -> total f l = 0.
Proof.
  intros H. induction l as [|x l IH]; [reflexivity|]. cbn.
  rewrite (H x (or_introl eq_refl)), IH; [reflexivity|]. intros p Hp. apply H. right. exact Hp.
Qed.
