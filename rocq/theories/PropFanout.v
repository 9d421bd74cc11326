(** C92: the parallel lookup of the documents of an answer. *)
From Coq Require Import Permutation String.
From Verif Require Import Base F32 JsonNum PQ Graph Search Insert InsertHist Persist Client Fanout.

(** Nobody can step; everybody has ended. *)
Definition stuck (find : nat -> N -> res sdoc) (ids : list N) (s : fan) : Prop :=
  forall a, fan_step find ids s a = None.
Definition finished (s : fan) : Prop :=
  (exists r, f_main s = MRet r) /\ f_clo s = CEnd /\ forall w, In w (f_w s) -> w = WEnd.

Section Fan.
  Variable find : nat -> N -> res sdoc.
  Variable ids : list N.
  Notation n := (length ids).

  Definition past (w : wkr) : bool := match w with WDone | WEnd => true | _ => false end.
  Definition busy (w : wkr) : bool := match w with WFind | WSend _ | WDone => true | _ => false end.
  Definition fails (i : nat) (e : err) : Prop :=
    exists id, nth_error ids i = Some id /\
      match find i id with Ok _ => False | Err e' => e = e' | _ => e = EOther end.

  Lemma fetch_app o1 o2 : forall sl es,
    run_fetch find ids (o1 ++ o2) sl es = let (sl', es') := run_fetch find ids o1 sl es in run_fetch find ids o2 sl' es'.
  Proof.
    induction o1 as [|i o1 IH]; intros sl es; [reflexivity|]. cbn [app run_fetch].
    destruct (nth_error ids i); [|apply IH]. destruct (find i n); apply IH.
  Qed.
  Lemma fetch_errs o : forall sl es, exists x, snd (run_fetch find ids o sl es) = es ++ x /\ length x <= length o.
  Proof.
    induction o as [|i o IH]; intros sl es; [exists []; rewrite app_nil_r; split; [reflexivity|cbn; lia]|].
    cbn [run_fetch]. destruct (nth_error ids i) as [id|].
    2:{ destruct (IH sl es) as (x & E & L). exists x. split; [exact E|cbn; lia]. }
    destruct (find i id).
    - destruct (IH (upd sl i (Some a)) es) as (x & E & L). exists x. split; [exact E|cbn; lia].
    - destruct (IH sl (es ++ [e])) as (x & E & L). exists (e :: x). rewrite E, <- app_assoc. split; [reflexivity|cbn; lia].
    - destruct (IH sl (es ++ [EOther])) as (x & E & L). exists (EOther :: x). rewrite E, <- app_assoc. split; [reflexivity|cbn; lia].
    - destruct (IH sl (es ++ [EOther])) as (x & E & L). exists (EOther :: x). rewrite E, <- app_assoc. split; [reflexivity|cbn; lia].
  Qed.

  Fixpoint count (f : wkr -> bool) (l : list wkr) : nat :=
    match l with [] => 0 | w :: l' => (if f w then 1 else 0) + count f l' end.
  Lemma count_upd f l : forall i w k, nth_error l i = Some w ->
    count f (upd l i k) + (if f w then 1 else 0) = count f l + (if f k then 1 else 0).
  Proof.
    induction l as [|x l IH]; intros [|i] w k E; cbn in E; try discriminate; cbn [upd count].
    - injection E as ->. lia.
    - specialize (IH i w k E). lia.
  Qed.
  Lemma count_zero f l : count f l = 0 -> forall w, In w l -> f w = false.
  Proof.
    induction l as [|x l IH]; cbn; intros H w Hw; [destruct Hw|]. destruct Hw as [<-|Hw]; [destruct (f x); [lia|reflexivity]|].
    apply IH; [lia|exact Hw].
  Qed.
  Lemma nth_same (A : Type) (l : list A) i x k : nth_error l i = Some x -> nth_error (upd l i k) i = Some k.
  Proof. revert i. induction l as [|y l IH]; intros [|i] E; cbn in *; try discriminate; auto. Qed.
  Lemma nth_other (A : Type) (l : list A) i j k : i <> j -> nth_error (upd l i k) j = nth_error l j.
  Proof. revert i j. induction l as [|y l IH]; intros [|i] [|j] E; cbn; auto; congruence. Qed.

  Record inv (s : fan) : Prop := {
    v_len : length (f_w s) = n;
    v_panic : f_panic s = false;
    v_new : forall i, i < n ->
      (nth_error (f_w s) i = Some WNew <-> match f_main s with MSpawn k => k <= i | _ => False end);
    v_spawn : match f_main s with MSpawn k => k <= n /\ f_clo s = CNone | _ => f_clo s <> CNone end;
    v_wg : f_wg s = count busy (f_w s);
    v_closed : f_closed s = true <-> f_clo s = CEnd;
    v_clo : f_clo s = CClose \/ f_clo s = CEnd -> f_wg s = 0;
    v_send : forall i e, nth_error (f_w s) i = Some (WSend e) -> fails i e;
    v_done : exists done rcv, NoDup done
      /\ (forall i, In i done <-> exists w, nth_error (f_w s) i = Some w /\ past w = true)
      /\ run_fetch find ids done (repeat None n) [] = (f_slots s, rcv ++ f_buf s)
      /\ (rcv = match f_main s with MRet (Err e) => [e] | _ => [] end);
    v_ret : match f_main s with
            | MRet (Ok l) => l = f_slots s /\ f_closed s = true /\ f_buf s = []
            | MRet (Err _) => True
            | MRet _ => False
            | _ => True
            end
  }.

  Lemma start_inv : inv (fan_start ids).
  Proof.
    constructor; cbn; try reflexivity; try discriminate.
    - apply repeat_length.
    - intros i Hi. split; [lia|intros _]. rewrite nth_error_repeat by exact Hi. reflexivity.
    - split; [lia|reflexivity].
    - induction n as [|k IH]; [reflexivity|exact IH].
    - split; discriminate.
    - intros i e H. apply nth_error_In, repeat_spec in H. discriminate.
    - exists [], []. split; [constructor|]. split; [|split; reflexivity].
      intros i. split; [intros []|]. intros (w & H & P). apply nth_error_In, repeat_spec in H. subst w. discriminate.
  Qed.

  (** Closed: all have ended. *)
  Lemma all_ended s : inv s -> f_wg s = 0 -> (forall k, f_main s <> MSpawn k) -> forall w, In w (f_w s) -> w = WEnd.
  Proof.
    intros H W M w Hw. pose proof (v_wg s H) as G. rewrite W in G.
    pose proof (count_zero busy (f_w s) (eq_sym G) w Hw) as B.
    destruct w; try discriminate; [|reflexivity].
    apply In_nth_error in Hw. destruct Hw as (i & Hi).
    assert (L : i < n) by (rewrite <- (v_len s H); apply nth_error_Some; congruence).
    apply (v_new s H i L) in Hi. destruct (f_main s) as [k| |]; [exfalso; exact (M k eq_refl)|destruct Hi..].
  Qed.
  Lemma clo_no_spawn s : inv s -> f_clo s <> CNone -> forall k, f_main s <> MSpawn k.
  Proof. intros H N k E. pose proof (v_spawn s H) as V. rewrite E in V. destruct V as (_ & V). congruence. Qed.

  (** The slots of the working list after one more fetch. *)
  Lemma more_done s i w k sl' buf' rcv done :
    nth_error (f_w s) i = Some w -> past w = false -> past k = true ->
    NoDup done ->
    (forall j, In j done <-> exists w', nth_error (f_w s) j = Some w' /\ past w' = true) ->
    run_fetch find ids done (repeat None n) [] = (f_slots s, rcv ++ f_buf s) ->
    run_fetch find ids [i] (f_slots s) (rcv ++ f_buf s) = (sl', rcv ++ buf') ->
    NoDup (done ++ [i])
    /\ (forall j, In j (done ++ [i]) <-> exists w', nth_error (upd (f_w s) i k) j = Some w' /\ past w' = true)
    /\ run_fetch find ids (done ++ [i]) (repeat None n) [] = (sl', rcv ++ buf').
  Proof.
    intros E P K ND HD R1 R2. split; [|split].
    - apply NoDup_app_intro; [exact ND|constructor; [intros []|constructor]|].
      intros j Hj [<-|[]]. apply HD in Hj. destruct Hj as (w' & E' & P'). congruence.
    - intros j. rewrite in_app_iff, HD. cbn. destruct (Nat.eq_dec i j) as [->|Nj].
      + rewrite (nth_same _ _ _ _ k E). split; [intros _; eauto|auto].
      + rewrite nth_other by exact Nj. split; [intros [A|[->|[]]]; [exact A|congruence]|auto].
    - rewrite fetch_app, R1. exact R2.
  Qed.

  Lemma same_done s i w k done :
    nth_error (f_w s) i = Some w -> past w = past k ->
    (forall j, In j done <-> exists w', nth_error (f_w s) j = Some w' /\ past w' = true) ->
    forall j, In j done <-> exists w', nth_error (upd (f_w s) i k) j = Some w' /\ past w' = true.
  Proof.
    intros E P HD j. rewrite HD. destruct (Nat.eq_dec i j) as [->|Nj].
    - rewrite (nth_same _ _ _ _ k E), E. split; intros (w' & [= <-] & P'); eexists; (split; [reflexivity|congruence]).
    - rewrite nth_other by exact Nj. reflexivity.
  Qed.
  Lemma keep_new s i w k : inv s -> nth_error (f_w s) i = Some w -> w <> WNew -> k <> WNew ->
    forall j, j < n -> (nth_error (upd (f_w s) i k) j = Some WNew <-> match f_main s with MSpawn m => m <= j | _ => False end).
  Proof.
    intros H E Nw Nk j Hj. rewrite <- (v_new s H j Hj). destruct (Nat.eq_dec i j) as [->|Nj].
    - rewrite (nth_same _ _ _ _ k E), E. split; congruence.
    - rewrite nth_other by exact Nj. reflexivity.
  Qed.
  Lemma keep_send s i k : inv s -> (forall e, k = WSend e -> fails i e) ->
    forall j e, nth_error (upd (f_w s) i k) j = Some (WSend e) -> fails j e.
  Proof.
    intros H K j e E. destruct (Nat.eq_dec i j) as [->|Nj].
    - destruct (nth_error (f_w s) j) as [w|] eqn:Ej.
      + rewrite (nth_same _ _ _ _ k Ej) in E. injection E as ->. apply K. reflexivity.
      + exfalso. assert (nth_error (upd (f_w s) j k) j <> None) by congruence.
        apply nth_error_Some in H0. rewrite upd_length in H0. apply nth_error_None in Ej. lia.
    - rewrite nth_other in E by exact Nj. exact (v_send s H j e E).
  Qed.

  (** There is room in the channel for everybody who still has to send. *)
  Lemma room s i e : inv s -> nth_error (f_w s) i = Some (WSend e) -> length (f_buf s) < n.
  Proof.
    intros H E. destruct (v_done s H) as (done & rcv & ND & HD & R & _).
    destruct (fetch_errs done (repeat None n) []) as (x & Ex & Lx). rewrite R in Ex. cbn in Ex.
    assert (L : length (i :: done) <= length (seq 0 n)).
    { apply NoDup_incl_length.
      - constructor; [|exact ND]. intros Hi. apply HD in Hi. destruct Hi as (w & A & B). rewrite E in A. injection A as <-. discriminate.
      - intros j [<-|Hj].
        + apply in_seq. split; [lia|]. cbn. rewrite <- (v_len s H). apply nth_error_Some. congruence.
        + apply HD in Hj. destruct Hj as (w & A & _). apply in_seq. split; [lia|]. cbn. rewrite <- (v_len s H). apply nth_error_Some. congruence. }
    rewrite seq_length in L. cbn in L. assert (length (rcv ++ f_buf s) = length x) by (rewrite Ex; reflexivity).
    rewrite app_length in H0. lia.
  Qed.
  Lemma busy_open s i w : inv s -> nth_error (f_w s) i = Some w -> busy w = true -> f_wg s <> 0 /\ f_closed s = false /\ f_clo s <> CClose.
  Proof.
    intros H E B.
    assert (W : f_wg s <> 0).
    { intros Z. pose proof (v_wg s H) as G. rewrite Z in G. pose proof (count_zero busy (f_w s) (eq_sym G) w (nth_error_In _ _ E)). congruence. }
    split; [exact W|]. split.
    - destruct (f_closed s) eqn:Ec; [|reflexivity]. exfalso. apply W, (v_clo s H). right. apply (v_closed s H), Ec.
    - intros Ec. apply W, (v_clo s H). left. exact Ec.
  Qed.

  Lemma step_inv s a s' : inv s -> fan_step find ids s a = Some s' -> inv s'.
  Proof.
    intros H E. destruct a as [| |i]; cbn [fan_step] in E.
    - destruct (f_main s) as [k| |r] eqn:Em; [| |discriminate].
      + pose proof (v_spawn s H) as Hs. rewrite Em in Hs. destruct Hs as (Hk & Hc).
        destruct (Nat.ltb_spec k n) as [Hlt|Hge]; injection E as <-.
        * assert (Ek : nth_error (f_w s) k = Some WNew) by (apply (v_new s H k Hlt); rewrite Em; lia).
          destruct (v_done s H) as (done & rcv & ND & HD & R & RC). rewrite Em in RC.
          constructor; cbn [f_w f_slots f_buf f_closed f_wg f_clo f_main f_panic].
          -- rewrite upd_length. exact (v_len s H).
          -- exact (v_panic s H).
          -- intros j Hj. destruct (Nat.eq_dec k j) as [->|Nj].
             ++ rewrite (nth_same _ _ _ _ WFind Ek). split; [discriminate|lia].
             ++ rewrite nth_other by exact Nj. rewrite (v_new s H j Hj), Em. lia.
          -- split; [lia|exact Hc].
          -- pose proof (count_upd busy (f_w s) k WNew WFind Ek) as U. cbn in U. rewrite (v_wg s H). lia.
          -- exact (v_closed s H).
          -- rewrite Hc. intros [A|A]; discriminate.
          -- apply keep_send; [exact H|discriminate].
          -- exists done, rcv. split; [exact ND|]. split; [apply (same_done s k WNew); auto|]. split; [exact R|exact RC].
          -- exact I.
        * assert (k = n) by lia. subst k.
          destruct (v_done s H) as (done & rcv & ND & HD & R & RC). rewrite Em in RC.
          constructor; cbn [f_w f_slots f_buf f_closed f_wg f_clo f_main f_panic].
          -- exact (v_len s H).
          -- exact (v_panic s H).
          -- intros j Hj. rewrite (v_new s H j Hj), Em. lia.
          -- discriminate.
          -- exact (v_wg s H).
          -- split; [|discriminate]. intros A. apply (v_closed s H) in A. congruence.
          -- intros [A|A]; discriminate.
          -- exact (v_send s H).
          -- exists done, rcv. auto.
          -- exact I.
      + destruct (v_done s H) as (done & rcv & ND & HD & R & RC). rewrite Em in RC.
        pose proof (v_spawn s H) as Hs. rewrite Em in Hs.
        assert (HN : forall j, j < n -> (nth_error (f_w s) j = Some WNew <-> False)).
        { intros j Hj. rewrite (v_new s H j Hj), Em. reflexivity. }
        destruct (f_buf s) as [|e b] eqn:Eb.
        * destruct (f_closed s) eqn:Ec; [|discriminate]. injection E as <-.
          constructor; cbn [f_w f_slots f_buf f_closed f_wg f_clo f_main f_panic]; try exact HN; try exact Hs.
          -- exact (v_len s H).
          -- exact (v_panic s H).
          -- exact (v_wg s H).
          -- pose proof (v_closed s H) as V. rewrite Ec in V. exact V.
          -- exact (v_clo s H).
          -- exact (v_send s H).
          -- exists done, rcv. auto.
          -- auto.
        * injection E as <-.
          constructor; cbn [f_w f_slots f_buf f_closed f_wg f_clo f_main f_panic]; try exact HN; try exact Hs.
          -- exact (v_len s H).
          -- exact (v_panic s H).
          -- exact (v_wg s H).
          -- exact (v_closed s H).
          -- exact (v_clo s H).
          -- exact (v_send s H).
          -- exists done, [e]. split; [exact ND|]. split; [exact HD|]. split; [|reflexivity].
             rewrite R, RC. reflexivity.
          -- exact I.
    - destruct (f_clo s) eqn:Ec; try discriminate.
      + destruct (Nat.eqb_spec (f_wg s) 0) as [Ew|]; [|discriminate]. injection E as <-.
        pose proof (v_spawn s H) as Hs.
        constructor; cbn [f_w f_slots f_buf f_closed f_wg f_clo f_main f_panic];
          try solve [apply H | intros; assumption].
        * destruct (f_main s) as [k| |]; [destruct Hs; congruence|discriminate..].
        * split; [|discriminate]. intros A. apply (v_closed s H) in A. congruence.
      + injection E as <-. pose proof (v_spawn s H) as Hs.
        pose proof (v_clo s H (or_introl Ec)) as W0.
        assert (Cl : f_closed s = false).
        { destruct (f_closed s) eqn:A; [|reflexivity]. apply (v_closed s H) in A. congruence. }
        constructor; cbn [f_w f_slots f_buf f_closed f_wg f_clo f_main f_panic];
          try solve [apply H | intros; assumption].
        * rewrite Cl, (v_panic s H). reflexivity.
        * destruct (f_main s) as [k| |]; [destruct Hs; congruence|discriminate..].
        * tauto.
        * pose proof (v_ret s H) as V. destruct (f_main s) as [| |[l| | |]]; auto. destruct V as (A & B & C). auto.
    - destruct (nth_error (f_w s) i) as [w|] eqn:Ei; [|discriminate].
      assert (Hi : i < n) by (rewrite <- (v_len s H); apply nth_error_Some; congruence).
      destruct (nth_error ids i) as [id|] eqn:Eid; [|apply nth_error_None in Eid; lia].
      destruct (v_done s H) as (done & rcv & ND & HD & R & RC).
      pose proof (v_ret s H) as VR.
      destruct w as [| |e| |]; try discriminate.
      + destruct (busy_open s i WFind H Ei eq_refl) as (W & Cl & Cc).
        assert (VR' : forall l, f_main s <> MRet (Ok l)).
        { intros l A. rewrite A in VR. destruct VR as (_ & B & _). congruence. }
        assert (G : forall k : wkr, busy k = true -> k <> WNew -> (forall e, k = WSend e -> fails i e) ->
          length (upd (f_w s) i k) = n
          /\ (forall j, j < n -> (nth_error (upd (f_w s) i k) j = Some WNew <-> match f_main s with MSpawn m => m <= j | _ => False end))
          /\ f_wg s = count busy (upd (f_w s) i k)
          /\ (forall j e, nth_error (upd (f_w s) i k) j = Some (WSend e) -> fails j e)).
        { intros k Bk Nk Fk. split; [rewrite upd_length; exact (v_len s H)|].
          split; [apply (keep_new s i WFind k H Ei); [discriminate|exact Nk]|].
          split; [pose proof (count_upd busy (f_w s) i WFind k Ei) as U; rewrite Bk in U; cbn in U; rewrite (v_wg s H); lia|].
          apply keep_send; assumption. }
        destruct (find i id) as [d|e| |] eqn:Ef; injection E as <-.
        * destruct (G WDone eq_refl ltac:(discriminate) ltac:(discriminate)) as (G1 & G2 & G3 & G4).
          constructor; cbn [f_w f_slots f_buf f_closed f_wg f_clo f_main f_panic];
            try exact G1; try exact G2; try exact G3; try exact G4;
            try solve [apply H].
          -- exists (done ++ [i]), rcv.
             destruct (more_done s i WFind WDone (upd (f_slots s) i (Some d)) (f_buf s) rcv done Ei eq_refl eq_refl ND HD R) as (A & B & C).
             { cbn [run_fetch]. rewrite Eid, Ef. reflexivity. }
             auto.
          -- destruct (f_main s) as [| |[l| | |]]; auto. exfalso. exact (VR' l eq_refl).
        * destruct (G (WSend e) eq_refl ltac:(discriminate)) as (G1 & G2 & G3 & G4).
          { intros e' [= ->]. exists id. split; [exact Eid|]. rewrite Ef. reflexivity. }
          constructor; cbn [f_w f_slots f_buf f_closed f_wg f_clo f_main f_panic];
            try exact G1; try exact G2; try exact G3; try exact G4;
            try solve [apply H].
          exists done, rcv. split; [exact ND|]. split; [apply (same_done s i WFind); auto|]. auto.
        * destruct (G (WSend EOther) eq_refl ltac:(discriminate)) as (G1 & G2 & G3 & G4).
          { intros e' [= <-]. exists id. split; [exact Eid|]. rewrite Ef. reflexivity. }
          constructor; cbn [f_w f_slots f_buf f_closed f_wg f_clo f_main f_panic];
            try exact G1; try exact G2; try exact G3; try exact G4;
            try solve [apply H].
          exists done, rcv. split; [exact ND|]. split; [apply (same_done s i WFind); auto|]. auto.
        * destruct (G (WSend EOther) eq_refl ltac:(discriminate)) as (G1 & G2 & G3 & G4).
          { intros e' [= <-]. exists id. split; [exact Eid|]. rewrite Ef. reflexivity. }
          constructor; cbn [f_w f_slots f_buf f_closed f_wg f_clo f_main f_panic];
            try exact G1; try exact G2; try exact G3; try exact G4;
            try solve [apply H].
          exists done, rcv. split; [exact ND|]. split; [apply (same_done s i WFind); auto|]. auto.
      + destruct (busy_open s i (WSend e) H Ei eq_refl) as (W & Cl & Cc). rewrite Cl in E.
        pose proof (room s i e H Ei) as Rm. destruct (Nat.ltb_spec (length (f_buf s)) n) as [_|]; [|lia]. injection E as <-.
        assert (VR' : forall l, f_main s <> MRet (Ok l)).
        { intros l A. rewrite A in VR. destruct VR as (_ & B & _). congruence. }
        destruct (v_send s H i e Ei) as (id' & Eid' & Fe). rewrite Eid in Eid'. injection Eid' as <-.
        destruct (more_done s i (WSend e) WDone (f_slots s) (f_buf s ++ [e]) rcv done Ei eq_refl eq_refl ND HD R) as (A & B & C).
        { cbn [run_fetch]. rewrite Eid. rewrite app_assoc. destruct (find i id); [destruct Fe|subst e; reflexivity..]. }
        constructor; cbn [f_w f_slots f_buf f_closed f_wg f_clo f_main f_panic];
          try solve [apply H].
        * rewrite upd_length. exact (v_len s H).
        * apply (keep_new s i (WSend e)); auto; discriminate.
        * pose proof (count_upd busy (f_w s) i (WSend e) WDone Ei) as U. cbn in U. rewrite (v_wg s H). lia.
        * pose proof (v_closed s H) as V. rewrite Cl in V. exact V.
        * apply keep_send; [exact H|discriminate].
        * exists (done ++ [i]), rcv. auto.
        * destruct (f_main s) as [| |[l| | |]]; auto. exfalso. exact (VR' l eq_refl).
      + destruct (busy_open s i WDone H Ei eq_refl) as (W & Cl & Cc). injection E as <-.
        pose proof (count_upd busy (f_w s) i WDone WEnd Ei) as U. cbn in U. pose proof (v_wg s H) as G.
        constructor; cbn [f_w f_slots f_buf f_closed f_wg f_clo f_main f_panic];
          try solve [apply H].
        * rewrite upd_length. exact (v_len s H).
        * rewrite (v_panic s H). cbn. apply Nat.eqb_neq. exact W.
        * apply (keep_new s i WDone); auto; discriminate.
        * lia.
        * intros A. pose proof (v_clo s H A). lia.
        * apply keep_send; [exact H|discriminate].
        * exists done, rcv. split; [exact ND|]. split; [apply (same_done s i WDone); auto|]. auto.
  Qed.

  Lemma run_inv sched : forall s, inv s -> inv (fan_run find ids s sched).
  Proof.
    induction sched as [|a sched IH]; intros s H; cbn; [exact H|]. apply IH.
    destruct (fan_step find ids s a) eqn:E; [exact (step_inv s a f H E)|exact H].
  Qed.

  (** Progress. *)
  Lemma progress s : inv s -> finished s \/ exists a s', fan_step find ids s a = Some s'.
  Proof.
    intros H.
    destruct (f_main s) as [k| |r] eqn:Em.
    { right. exists AMain. cbn [fan_step]. rewrite Em. destruct (Nat.ltb k n); eexists; reflexivity. }
    all: pose proof (v_spawn s H) as Hs; rewrite Em in Hs.
    all: destruct (Nat.eq_dec (f_wg s) 0) as [W|W].
    all: try (right; pose proof (v_wg s H) as G;
      assert (X : exists i w, nth_error (f_w s) i = Some w /\ busy w = true);
      [ clear - G W; rewrite G in W; clear G; induction (f_w s) as [|x l IH]; cbn in W; [lia|];
        destruct (busy x) eqn:B; [exists 0, x; split; [reflexivity|exact B]|];
        destruct IH as (i & w & A & C); [lia|]; exists (S i), w; split; [exact A|exact C]
      | destruct X as (i & w & Ei & B); exists (AWork i); cbn [fan_step]; rewrite Ei;
        assert (Hi : i < n) by (rewrite <- (v_len s H); apply nth_error_Some; congruence);
        destruct (nth_error ids i) as [id|] eqn:Eid; [|apply nth_error_None in Eid; lia];
        destruct w; try discriminate;
        [ destruct (find i id); eexists; reflexivity
        | destruct (busy_open s i _ H Ei eq_refl) as (_ & Cl & _); rewrite Cl;
          pose proof (room s i e H Ei) as Rm; destruct (Nat.ltb_spec (length (f_buf s)) n); [eexists; reflexivity|lia]
        | eexists; reflexivity ] ]).
    - destruct (f_clo s) eqn:Ec.
      + congruence.
      + right. exists AClo. cbn [fan_step]. rewrite Ec, W. eexists. reflexivity.
      + right. exists AClo. cbn [fan_step]. rewrite Ec. eexists. reflexivity.
      + right. exists AMain. cbn [fan_step]. rewrite Em. destruct (f_buf s); [|eexists; reflexivity].
        rewrite (proj2 (v_closed s H) Ec). eexists. reflexivity.
    - destruct (f_clo s) eqn:Ec.
      + congruence.
      + right. exists AClo. cbn [fan_step]. rewrite Ec, W. eexists. reflexivity.
      + right. exists AClo. cbn [fan_step]. rewrite Ec. eexists. reflexivity.
      + left. split; [eauto|]. split; [exact Ec|]. apply all_ended; [exact H|exact W|]. intros k. congruence.
  Qed.

  Definition wsize (w : wkr) : nat := match w with WNew => 4 | WFind => 3 | WSend _ => 2 | WDone => 1 | WEnd => 0 end.
  Definition wsum (l : list wkr) : nat := fold_right (fun w a => wsize w + a) 0 l.
  Definition fsize (s : fan) : nat :=
    wsum (f_w s) + (match f_clo s with CNone => 3 | CWait => 2 | CClose => 1 | CEnd => 0 end)
    + (match f_main s with MSpawn k => 2 + (n - k) | MRecv => 1 | MRet _ => 0 end).
  Lemma wsum_upd l : forall i w k, nth_error l i = Some w -> wsum (upd l i k) + wsize w = wsum l + wsize k.
  Proof.
    induction l as [|x l IH]; intros [|i] w k E; cbn in E; try discriminate; cbn.
    - injection E as ->. unfold wsum. lia.
    - specialize (IH i w k E). unfold wsum in *. lia.
  Qed.
  Lemma step_size s a s' : inv s -> fan_step find ids s a = Some s' -> fsize s' < fsize s.
  Proof.
    intros H E. unfold fsize. destruct a as [| |i]; cbn [fan_step] in E.
    - destruct (f_main s) as [k| |r] eqn:Em; [| |discriminate].
      + pose proof (v_spawn s H) as Hs. rewrite Em in Hs. destruct Hs as (Hk & Hc).
        destruct (Nat.ltb_spec k n) as [Hlt|Hge]; injection E as <-; cbn [f_w f_clo f_main].
        * assert (Ek : nth_error (f_w s) k = Some WNew) by (apply (v_new s H k Hlt); rewrite Em; lia).
          pose proof (wsum_upd (f_w s) k WNew WFind Ek) as U. cbn in U. lia.
        * rewrite Hc. lia.
      + destruct (f_buf s); [destruct (f_closed s); [|discriminate]|]; injection E as <-; cbn [f_w f_clo f_main]; lia.
    - destruct (f_clo s) eqn:Ec; try discriminate.
      + destruct (Nat.eqb (f_wg s) 0); [|discriminate]. injection E as <-. cbn [f_w f_clo f_main]. lia.
      + injection E as <-. cbn [f_w f_clo f_main]. lia.
    - destruct (nth_error (f_w s) i) as [w|] eqn:Ei; [|discriminate].
      destruct (nth_error ids i) as [id|]; [|destruct w; discriminate].
      destruct w as [| |e| |]; try discriminate.
      + pose proof (fun k => wsum_upd (f_w s) i WFind k Ei) as U.
        destruct (find i id); injection E as <-; cbn [f_w f_clo f_main];
          match goal with |- context [upd _ _ ?k] => specialize (U k); cbn in U; lia end.
      + destruct (busy_open s i (WSend e) H Ei eq_refl) as (_ & Cl & _). rewrite Cl in E.
        destruct (Nat.ltb (length (f_buf s)) n); [|discriminate]. injection E as <-. cbn [f_w f_clo f_main].
        pose proof (wsum_upd (f_w s) i (WSend e) WDone Ei) as U. cbn in U. lia.
      + injection E as <-. cbn [f_w f_clo f_main]. pose proof (wsum_upd (f_w s) i WDone WEnd Ei) as U. cbn in U. lia.
  Qed.
  Lemma finishes s : inv s -> exists sched, finished (fan_run find ids s sched).
  Proof.
    remember (fsize s) as m eqn:Em. revert s Em. induction m as [m IH] using lt_wf_ind. intros s -> H.
    destruct (progress s H) as [F|(a & s' & E)]; [exists []; exact F|].
    destruct (IH _ (step_size s a s' H E) s' eq_refl (step_inv s a s' H E)) as (sched & F).
    exists (a :: sched). cbn. rewrite E. exact F.
  Qed.

  (** What is returned is what [fetch_docs] returns for some order. *)
  Lemma complete_order done : NoDup done -> incl done (seq 0 n) -> exists more, Permutation (done ++ more) (seq 0 n).
  Proof.
    intros ND I.
    exists (filter (fun i => negb (existsb (Nat.eqb i) done)) (seq 0 n)).
    apply NoDup_Permutation.
    - apply NoDup_app_intro; [exact ND|apply NoDup_filter, seq_NoDup|].
      intros i Hi Hf. apply filter_In in Hf. destruct Hf as (_ & Hf).
      assert (A : existsb (Nat.eqb i) done = true) by (apply existsb_exists; exists i; split; [exact Hi|apply Nat.eqb_refl]).
      rewrite A in Hf. discriminate.
    - apply seq_NoDup.
    - intros i. rewrite in_app_iff, filter_In. split; [intros [A|(A & _)]; [apply I, A|exact A]|].
      intros A. destruct (existsb (Nat.eqb i) done) eqn:B; [left|right; split; [exact A|reflexivity]].
      apply existsb_exists in B. destruct B as (j & Hj & Ej). apply Nat.eqb_eq in Ej. subst j. exact Hj.
  Qed.
  Lemma returned_order s r : inv s -> f_main s = MRet r ->
    exists order, Permutation order (seq 0 n) /\ r = fetch_docs find ids order.
  Proof.
    intros H Em. destruct (v_done s H) as (done & rcv & ND & HD & R & RC). rewrite Em in RC.
    pose proof (v_ret s H) as VR. rewrite Em in VR.
    assert (I : incl done (seq 0 n)).
    { intros i Hi. apply HD in Hi. destruct Hi as (w & A & _). apply in_seq. cbn.
      split; [lia|]. rewrite <- (v_len s H). apply nth_error_Some. congruence. }
    destruct (complete_order done ND I) as (more & P). exists (done ++ more). split; [exact P|].
    unfold fetch_docs. rewrite fetch_app, R.
    destruct r as [l|e| |]; [| |destruct VR..].
    - destruct VR as (-> & Cl & Eb).
      assert (more = []).
      { apply (v_closed s H) in Cl. pose proof (v_clo s H (or_intror Cl)) as W.
        assert (All : forall w, In w (f_w s) -> w = WEnd) by (apply all_ended; [exact H|exact W|intros k; congruence]).
        destruct more as [|i more]; [reflexivity|exfalso].
        assert (Hi : In i (seq 0 n)) by (eapply Permutation_in; [exact P|apply in_app_iff; right; left; reflexivity]).
        apply in_seq in Hi. destruct Hi as (_ & Hi). cbn in Hi. rewrite <- (v_len s H) in Hi.
        destruct (nth_error (f_w s) i) as [w|] eqn:Ei; [|apply nth_error_None in Ei; lia].
        assert (Hd : In i done) by (apply HD; exists w; split; [exact Ei|rewrite (All w (nth_error_In _ _ Ei)); reflexivity]).
        assert (ND' : NoDup (done ++ i :: more)) by (eapply Permutation_NoDup; [symmetry; exact P|apply seq_NoDup]).
        apply NoDup_remove_2 in ND'. apply ND'. apply in_app_iff. left. exact Hd. }
      subst more. cbn [run_fetch]. rewrite RC, Eb. reflexivity.
    - rewrite RC. cbn [app].
      destruct (run_fetch find ids more (f_slots s) (e :: f_buf s)) as [sl es] eqn:E2.
      destruct (fetch_errs more (f_slots s) (e :: f_buf s)) as (x & Ex & _). rewrite E2 in Ex. cbn in Ex. subst es. reflexivity.
  Qed.
End Fan.

(** However the goroutines are scheduled: nothing panics, nobody is left waiting, every
    schedule can be continued until all have ended, what the caller returns is the
    answer of the sequential model for some order of all fetches, and the documents of
    a successful answer are not written any more. *)
Theorem C92_lookup : forall find ids sched,
  let s := fan_run find ids (fan_start ids) sched in
  f_panic s = false
  /\ (stuck find ids s -> finished s)
  /\ (exists sched', finished (fan_run find ids s sched'))
  /\ (forall r, f_main s = MRet r -> exists order, Permutation order (seq 0 (length ids)) /\ r = fetch_docs find ids order)
  /\ (forall l sched', f_main s = MRet (Ok l) -> f_slots (fan_run find ids s sched') = l).
Proof.
  intros find ids sched s. pose proof (run_inv find ids sched _ (start_inv find ids)) as H. fold s in H.
  split; [exact (v_panic _ _ _ H)|]. split; [|split; [|split]].
  - intros S. destruct (progress find ids s H) as [F|(a & s' & E)]; [exact F|]. rewrite (S a) in E. discriminate.
  - exact (finishes find ids s H).
  - intros r. apply returned_order. exact H.
  - intros l sched' Em.
    assert (G : forall sc t, inv find ids t -> f_main t = MRet (Ok l) -> f_main (fan_run find ids t sc) = MRet (Ok l)).
    { induction sc as [|a sc IH]; intros t Ht Et; cbn; [exact Et|].
      destruct (fan_step find ids t a) eqn:E; [|apply IH; assumption].
      apply IH; [exact (step_inv _ _ _ _ _ Ht E)|].
      destruct a as [| |i]; cbn [fan_step] in E; [rewrite Et in E; discriminate| |].
      - destruct (f_clo t); try discriminate; [destruct (Nat.eqb (f_wg t) 0); [|discriminate]|]; injection E as <-; exact Et.
      - destruct (nth_error (f_w t) i) as [w|]; [|discriminate]. destruct (nth_error ids i) as [id|]; [|destruct w; discriminate].
        destruct w; try discriminate.
        + destruct (find i id); injection E as <-; exact Et.
        + destruct (f_closed t); [injection E as <-; exact Et|].
          destruct (Nat.ltb (length (f_buf t)) (length ids)); [injection E as <-; exact Et|discriminate].
        + injection E as <-. exact Et. }
    pose proof (run_inv find ids sched' s H) as H'. pose proof (v_ret _ _ _ H') as V. rewrite (G sched' s H Em) in V.
    destruct V as (V & _). symmetry. exact V.
Qed.

(** In terms of the lookups alone: a successful answer has every document in its place,
    and an error is the error of one of the lookups. *)
Lemma fetch_ok find ids order : Permutation order (seq 0 (length ids)) ->
  match fetch_docs find ids order with
  | Ok l => length l = length ids
      /\ forall i id, nth_error ids i = Some id -> exists d, find i id = Ok d /\ nth_error l i = Some (Some d)
  | Err e => exists i id, nth_error ids i = Some id /\ match find i id with Ok _ => False | Err e' => e = e' | _ => e = EOther end
  | _ => False
  end.
Proof.
  intros P. unfold fetch_docs.
  assert (G : forall o sl es, NoDup o -> length sl = length ids ->
    (forall e, In e es -> exists i id, nth_error ids i = Some id /\ match find i id with Ok _ => False | Err e' => e = e' | _ => e = EOther end) ->
    let (sl', es') := run_fetch find ids o sl es in
    (forall e, In e es' -> exists i id, nth_error ids i = Some id /\ match find i id with Ok _ => False | Err e' => e = e' | _ => e = EOther end)
    /\ (es' = [] -> es = [] /\ length sl' = length ids /\ forall i id, nth_error ids i = Some id ->
          (In i o -> exists d, find i id = Ok d /\ nth_error sl' i = Some (Some d)) /\ (~ In i o -> nth_error sl' i = nth_error sl i))).
  { induction o as [|i o IH]; intros sl es ND L He; cbn [run_fetch].
    - split; [exact He|]. intros ->. split; [reflexivity|]. split; [exact L|]. intros i id Hi. split; [intros []|reflexivity].
    - inversion_clear ND as [|? ? Ni NDo].
      destruct (nth_error ids i) as [id|] eqn:Ei.
      2:{ specialize (IH sl es NDo L He). destruct (run_fetch find ids o sl es) as [sl' es']. destruct IH as (A & B).
          split; [exact A|]. intros E. destruct (B E) as (B1 & B2 & B3). split; [exact B1|]. split; [exact B2|].
          intros j jd Hj. destruct (B3 j jd Hj) as (C1 & C2). split.
          - intros [->|Hin]; [congruence|apply C1, Hin].
          - intros Nj. apply C2. intros A'. apply Nj. right. exact A'. }
      destruct (find i id) as [d|e| |] eqn:Ef.
      1:{ specialize (IH (upd sl i (Some d)) es NDo). rewrite upd_length in IH. specialize (IH L He).
          destruct (run_fetch find ids o (upd sl i (Some d)) es) as [sl' es']. destruct IH as (A & B).
          split; [exact A|]. intros E. destruct (B E) as (B1 & B2 & B3). split; [exact B1|]. split; [exact B2|].
          intros j jd Hj. destruct (B3 j jd Hj) as (C1 & C2). split.
          - intros [<-|Hin]; [|apply C1, Hin]. assert (jd = id) by congruence. subst jd. exists d. split; [exact Ef|].
            rewrite (C2 Ni). destruct (nth_error sl i) as [x|] eqn:Es; [exact (nth_same _ _ _ _ _ Es)|].
            apply nth_error_None in Es. assert (i < length ids) by (apply nth_error_Some; congruence). lia.
          - intros Nj. rewrite C2; [apply nth_other; intros ->; apply Nj; left; reflexivity|]. intros A'. apply Nj. right. exact A'. }
      + assert (He' : forall e0, In e0 (es ++ [e]) -> exists i id, nth_error ids i = Some id /\ match find i id with Ok _ => False | Err e' => e0 = e' | _ => e0 = EOther end).
        { intros e0 H0. apply in_app_iff in H0. destruct H0 as [H0|[<-|[]]]; [apply He, H0|]. exists i, id. split; [exact Ei|]. rewrite Ef. reflexivity. }
        specialize (IH sl (es ++ [e]) NDo L He'). destruct (run_fetch find ids o sl (es ++ [e])) as [sl' es']. destruct IH as (A & B).
        split; [exact A|]. intros E. destruct (B E) as (B1 & _). destruct es; discriminate.
      + assert (He' : forall e0, In e0 (es ++ [EOther]) -> exists i id, nth_error ids i = Some id /\ match find i id with Ok _ => False | Err e' => e0 = e' | _ => e0 = EOther end).
        { intros e0 H0. apply in_app_iff in H0. destruct H0 as [H0|[<-|[]]]; [apply He, H0|]. exists i, id. split; [exact Ei|]. rewrite Ef. reflexivity. }
        specialize (IH sl (es ++ [EOther]) NDo L He'). destruct (run_fetch find ids o sl (es ++ [EOther])) as [sl' es']. destruct IH as (A & B).
        split; [exact A|]. intros E. destruct (B E) as (B1 & _). destruct es; discriminate.
      + assert (He' : forall e0, In e0 (es ++ [EOther]) -> exists i id, nth_error ids i = Some id /\ match find i id with Ok _ => False | Err e' => e0 = e' | _ => e0 = EOther end).
        { intros e0 H0. apply in_app_iff in H0. destruct H0 as [H0|[<-|[]]]; [apply He, H0|]. exists i, id. split; [exact Ei|]. rewrite Ef. reflexivity. }
        specialize (IH sl (es ++ [EOther]) NDo L He'). destruct (run_fetch find ids o sl (es ++ [EOther])) as [sl' es']. destruct IH as (A & B).
        split; [exact A|]. intros E. destruct (B E) as (B1 & _). destruct es; discriminate. }
  assert (ND : NoDup order) by (eapply Permutation_NoDup; [symmetry; exact P|apply seq_NoDup]).
  specialize (G order (repeat None (length ids)) [] ND (repeat_length _ _) ltac:(intros e [])).
  destruct (run_fetch find ids order (repeat None (length ids)) []) as [sl es]. destruct G as (A & B).
  destruct es as [|e es].
  - destruct (B eq_refl) as (_ & L & C). split; [exact L|]. intros i id Hi. apply (C i id Hi).
    eapply Permutation_in; [symmetry; exact P|]. apply in_seq. split; [lia|]. cbn. apply nth_error_Some. congruence.
  - apply A. left. reflexivity.
Qed.
Theorem C92_answer : forall find ids sched r,
  f_main (fan_run find ids (fan_start ids) sched) = MRet r ->
  match r with
  | Ok l => length l = length ids
      /\ forall i id, nth_error ids i = Some id -> exists d, find i id = Ok d /\ nth_error l i = Some (Some d)
  | Err e => exists i id, nth_error ids i = Some id /\ match find i id with Ok _ => False | Err e' => e = e' | _ => e = EOther end
  | _ => False
  end.
Proof.
  intros find ids sched r E. destruct (C92_lookup find ids sched) as (_ & _ & _ & R & _).
  destruct (R r E) as (order & P & ->). apply fetch_ok. exact P.
Qed.

(** Three lookups of which the second and the third fail: the caller returns the error
    of the third while the second has not started its lookup, and all still end. *)
Definition find92 (i : nat) (id : N) : res sdoc :=
  match i with 0 => Ok (mkSD "a"%string 7%Z [] None) | 1 => Err EStore | _ => Err EDocNotFound end.
Example C92_nonvacuous :
  let ids := [7; 8; 9]%N in
  let sched := [AMain; AMain; AMain; AMain; AWork 2; AWork 2; AMain] in
  let s := fan_run find92 ids (fan_start ids) sched in
  f_main s = MRet (Err EDocNotFound) /\ nth_error (f_w s) 1 = Some WFind
  /\ (let s' := fan_run find92 ids s [AWork 2; AWork 0; AWork 1; AWork 1; AWork 0; AWork 1; AClo; AClo] in
      f_clo s' = CEnd /\ f_w s' = [WEnd; WEnd; WEnd] /\ f_buf s' = [EStore]).
Proof. vm_compute. auto. Qed.
Example C92_success :
  let ids := [7]%N in
  f_main (fan_run find92 ids (fan_start ids) [AMain; AMain; AWork 0; AWork 0; AClo; AClo; AMain])
  = MRet (Ok [Some (mkSD "a"%string 7%Z [] None)]).
Proof. vm_compute. reflexivity. Qed.

Print Assumptions C92_lookup.
Print Assumptions C92_answer.
