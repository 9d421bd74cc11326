(** Proofs about [Pools]: programs that use the pools properly compute the same
    in every interleaving, and the programs of [Pools] do use them properly. *)
From Verif Require Import Base F32 PQ Graph Search Insert Pools PQProofs.
From Coq Require Import Lia.

Lemma slot_eqb_spec a b : reflect (a = b) (slot_eqb a b).
Proof. destruct a, b; constructor; congruence. Qed.
Lemma set_same {B} (m : slot -> B) s x : set_var m s x s = x.
Proof. unfold set_var. destruct (slot_eqb_spec s s); congruence. Qed.
Lemma set_other {B} (m : slot -> B) s s' x : s <> s' -> set_var m s x s' = m s'.
Proof. unfold set_var. intros. destruct (slot_eqb_spec s s'); congruence. Qed.

(** [good p H m a]: with the variables [m], of which those in [H] are held, [p]
    works on held objects only, gives clean objects back and yields [a]. *)
Fixpoint good {A} (p : prog A) (H : slot -> bool) (m : slot -> obj) (a : A) : Prop :=
  match p with
  | Ret b => b = a
  | Get s _ k => good k (set_var H s true) (set_var m s (new_obj s)) a
  | Use s f k => H s = true /\ good (k (m s)) H (set_var m s (f (m s))) a
  | Put s k => H s = true /\ on_get s (on_put s (m s)) = new_obj s /\ good k (set_var H s false) m a
  end.

(** Own turns until the end. *)
Fixpoint turns {A} (p : prog A) (m : slot -> obj) : nat :=
  match p with
  | Ret _ => 0
  | Get s _ k => S (turns k (set_var m s (new_obj s)))
  | Use s f k => S (turns (k (m s)) (set_var m s (f (m s))))
  | Put s k => S (turns k m)
  end.

(* ------------------------------------------------------------------ *)
Section Interleave.
  Context {A : Type}.
  Inductive owner := Held (g : nat) (s : slot) | Pooled (s : slot).
  Record ghost := mkG { g_held : slot -> bool; g_mem : slot -> obj; g_res : A }.

  Definition set_at {B} (f : nat -> B) (i : nat) (x : B) : nat -> B :=
    fun j => if Nat.eqb i j then x else f j.
  Lemma at_same {B} (f : nat -> B) i x : set_at f i x i = x.
  Proof. unfold set_at. now rewrite Nat.eqb_refl. Qed.
  Lemma at_other {B} (f : nat -> B) i j x : i <> j -> set_at f i x j = f j.
  Proof. unfold set_at. intros. destruct (Nat.eqb_spec i j); congruence. Qed.

  Definition thr_ok (own : nat -> option owner) (heap : list (Z * obj)) (g : nat) (G : ghost) (t : thread A) : Prop :=
    good (t_prog t) (g_held G) (g_mem G) (g_res G) /\
    forall s, g_held G s = true -> exists r c,
      t_var t s = Some r /\ own r = Some (Held g s) /\ nth_error heap r = Some (c, g_mem G s).

  Record inv (own : nat -> option owner) (G : nat -> ghost) (w : world A) : Prop := {
    i_nil : w_nil w = false;
    i_own : forall r x, own r = Some x -> r < length (w_heap w);
    i_thr : forall g t, nth_error (w_thr w) g = Some t -> thr_ok own (w_heap w) g (G g) t;
    i_nd : forall s, NoDup (w_pool w s);
    i_pool : forall s r, In r (w_pool w s) -> own r = Some (Pooled s) /\
      exists c o, nth_error (w_heap w) r = Some (c, o) /\ on_get s o = new_obj s
  }.

  Lemma nth_upd_same {B} (l : list B) i x y : nth_error l i = Some y -> nth_error (upd l i x) i = Some x.
  Proof. revert i; induction l; destruct i; cbn; try discriminate; eauto. Qed.
  Lemma nth_upd_other {B} (l : list B) i j x : i <> j -> nth_error (upd l i x) j = nth_error l j.
  Proof. revert i j; induction l; destruct i, j; cbn; intros; auto; try congruence. Qed.
  Lemma upd_len {B} (l : list B) i x : length (upd l i x) = length l.
  Proof. revert i; induction l; destruct i; cbn; auto. Qed.

  Lemma in_remove {B} n (l : list B) x : In x (remove_nth n l) -> In x l.
  Proof. revert n; induction l; destruct n; cbn; intuition eauto. Qed.
  Lemma remove_nodup {B} n (l : list B) : NoDup l -> NoDup (remove_nth n l).
  Proof.
    revert n; induction l; destruct n; cbn; intros Hn; auto; inversion Hn; subst; auto.
    constructor; auto. intros Hi. apply in_remove in Hi. tauto.
  Qed.
  Lemma remove_gone {B} n (l : list B) x : NoDup l -> nth_error l n = Some x -> ~ In x (remove_nth n l).
  Proof.
    revert n; induction l; destruct n; cbn; intros Hn He; try discriminate; inversion Hn; subst.
    - injection He as <-. auto.
    - intros [<-|Hi]; [apply nth_error_In in He; tauto | eapply IHl; eauto].
  Qed.

  (** Other goroutines do not notice a change of an object that is not theirs. *)
  Lemma thr_frame own own' heap heap' g G t :
    thr_ok own heap g G t ->
    (forall r s, own r = Some (Held g s) -> own' r = Some (Held g s) /\ nth_error heap' r = nth_error heap r) ->
    thr_ok own' heap' g G t.
  Proof.
    intros [H1 H2] Hf. split; auto. intros s Hs. destruct (H2 s Hs) as (r & c & Ha & Hb & Hc).
    destruct (Hf r s Hb) as [Hb' Hh]. exists r, c. rewrite Hh. auto.
  Qed.

  (** What one turn of [g] does to its turns left; the others keep theirs. *)
  Definition left_ (G : nat -> ghost) (w : world A) (g : nat) : nat :=
    match nth_error (w_thr w) g with Some t => turns (t_prog t) (g_mem (G g)) | None => 0 end.

  Lemma step_inv own G w g n :
    inv own G w ->
    exists own' G', inv own' G' (step w g n) /\
      (forall j, g_res (G' j) = g_res (G j)) /\
      length (w_thr (step w g n)) = length (w_thr w) /\
      left_ G' (step w g n) g = Nat.pred (left_ G w g) /\
      (forall j, j <> g -> left_ G' (step w g n) j = left_ G w j).
  Proof.
    intros Hi. unfold step, left_.
    destruct (nth_error (w_thr w) g) as [[p var]|] eqn:Et.
    2:{ exists own, G. rewrite Et. auto. }
    pose proof (i_thr _ _ _ Hi g _ Et) as [Hg Hv]. cbn [t_prog t_var] in *.
    destruct p as [a|s cap k|s f k|s k].
    - exists own, G. rewrite Et. cbn. auto.
    - cbn in Hg.
      destruct (nth_error (w_pool w s) n) as [r|] eqn:Ep.
      + pose proof (i_pool _ _ _ Hi s r (nth_error_In _ _ Ep)) as [Ho (c & o & Eh & Ec)].
        rewrite Eh. cbn [w_thr].
        set (G1 := mkG (set_var (g_held (G g)) s true) (set_var (g_mem (G g)) s (new_obj s)) (g_res (G g))).
        exists (set_at own r (Some (Held g s))), (set_at G g G1).
        assert (Hne : forall r' x, own r' = Some x -> x <> Pooled s -> r' <> r) by (intros r' x Hx Hn ->; congruence).
        repeat split.
        * apply (i_nil _ _ _ Hi).
        * cbn. intros r' x. rewrite upd_len. unfold set_at. destruct (Nat.eqb_spec r r') as [<-|].
          -- intros _. eapply (i_own _ _ _ Hi); eauto.
          -- eapply (i_own _ _ _ Hi).
        * cbn in H |- *. destruct (Nat.eq_dec g g0) as [<-|Hj].
          -- rewrite (nth_upd_same _ _ _ _ Et) in H. injection H as <-. rewrite at_same. exact Hg.
          -- rewrite nth_upd_other in H by auto. rewrite at_other by auto. apply (i_thr _ _ _ Hi _ _ H).
        * cbn in H |- *. intros s' Hs'. destruct (Nat.eq_dec g g0) as [<-|Hj].
          -- rewrite (nth_upd_same _ _ _ _ Et) in H. injection H as <-. rewrite at_same in *. cbn in *.
             destruct (slot_eqb_spec s s') as [<-|Hs].
             ++ exists r, (cap_get c cap). rewrite !set_same, at_same, (nth_upd_same _ _ _ _ Eh), Ec. auto.
             ++ rewrite set_other in Hs' by auto. destruct (Hv s' Hs') as (r' & c' & Ha & Hb & Hc).
                assert (r' <> r) by (eapply Hne; [exact Hb | discriminate]).
                exists r', c'. rewrite !set_other, at_other, nth_upd_other by auto. auto.
          -- rewrite nth_upd_other in H by auto. rewrite at_other in * by auto.
             destruct (i_thr _ _ _ Hi _ _ H) as [_ Hw]. destruct (Hw s' Hs') as (r' & c' & Ha & Hb & Hc).
             assert (r' <> r) by (eapply Hne; [exact Hb | discriminate]).
             exists r', c'. rewrite at_other, nth_upd_other by auto. auto.
        * cbn. intros s'. destruct (slot_eqb_spec s s') as [<-|Hs].
          -- rewrite set_same. apply remove_nodup, (i_nd _ _ _ Hi).
          -- rewrite set_other by auto. apply (i_nd _ _ _ Hi).
        * cbn in *. destruct (slot_eqb_spec s s0) as [<-|Hs].
          -- rewrite set_same in H.
             assert (r <> r0) by (intros <-; revert H; apply remove_gone; auto; apply (i_nd _ _ _ Hi)).
             rewrite at_other by auto. apply (i_pool _ _ _ Hi). eapply in_remove; eauto.
          -- rewrite set_other in H by auto. destruct (i_pool _ _ _ Hi _ _ H) as [Hp _].
             rewrite at_other by (intros <-; congruence). exact Hp.
        * cbn in *.
          assert (r <> r0 /\ In r0 (w_pool w s0)) as [Hr Hin].
          { destruct (slot_eqb_spec s s0) as [<-|Hs].
            - rewrite set_same in H. split; [|eapply in_remove; eauto].
              intros <-; revert H; apply remove_gone; auto; apply (i_nd _ _ _ Hi).
            - rewrite set_other in H by auto. split; auto. intros <-.
              destruct (i_pool _ _ _ Hi _ _ H) as [Hp _]. congruence. }
          rewrite nth_upd_other by auto. apply (i_pool _ _ _ Hi _ _ Hin).
        * intros j. unfold set_at. destruct (Nat.eqb_spec g j) as [<-|]; reflexivity.
        * cbn. apply upd_len.
        * cbn. rewrite (nth_upd_same _ _ _ _ Et), at_same. reflexivity.
        * intros j Hj. cbn. rewrite nth_upd_other, at_other by auto. reflexivity.
      + cbn [w_thr].
        set (G1 := mkG (set_var (g_held (G g)) s true) (set_var (g_mem (G g)) s (new_obj s)) (g_res (G g))).
        set (r := length (w_heap w)).
        assert (Hfree : forall r' x, own r' = Some x -> r' <> r /\ forall z, nth_error (w_heap w ++ [z]) r' = nth_error (w_heap w) r').
        { intros r' x Hx. pose proof (i_own _ _ _ Hi _ _ Hx). split; [unfold r; lia|].
          intros z. apply nth_error_app1. auto. }
        assert (Hnew : forall z, nth_error (w_heap w ++ [z]) r = Some z).
        { intros z. unfold r. rewrite nth_error_app2, Nat.sub_diag by lia. reflexivity. }
        exists (set_at own r (Some (Held g s))), (set_at G g G1).
        repeat split.
        * apply (i_nil _ _ _ Hi).
        * cbn. intros r' x. rewrite app_length. cbn. unfold set_at. destruct (Nat.eqb_spec r r') as [<-|].
          -- intros _. unfold r. lia.
          -- intros Hx. pose proof (i_own _ _ _ Hi _ _ Hx). lia.
        * cbn in H |- *. destruct (Nat.eq_dec g g0) as [<-|Hj].
          -- rewrite (nth_upd_same _ _ _ _ Et) in H. injection H as <-. rewrite at_same. exact Hg.
          -- rewrite nth_upd_other in H by auto. rewrite at_other by auto. apply (i_thr _ _ _ Hi _ _ H).
        * cbn in H |- *. intros s' Hs'. destruct (Nat.eq_dec g g0) as [<-|Hj].
          -- rewrite (nth_upd_same _ _ _ _ Et) in H. injection H as <-. rewrite at_same in *. cbn in *.
             destruct (slot_eqb_spec s s') as [<-|Hs].
             ++ exists r, cap. rewrite !set_same, at_same, Hnew. auto.
             ++ rewrite set_other in Hs' by auto. destruct (Hv s' Hs') as (r' & c' & Ha & Hb & Hc).
                destruct (Hfree _ _ Hb) as [Hr Hh].
                exists r', c'. rewrite !set_other, at_other, Hh by auto. auto.
          -- rewrite nth_upd_other in H by auto. rewrite at_other in * by auto.
             destruct (i_thr _ _ _ Hi _ _ H) as [_ Hw]. destruct (Hw s' Hs') as (r' & c' & Ha & Hb & Hc).
             destruct (Hfree _ _ Hb) as [Hr Hh].
             exists r', c'. rewrite at_other, Hh by auto. auto.
        * cbn. apply (i_nd _ _ _ Hi).
        * cbn in *. destruct (i_pool _ _ _ Hi _ _ H) as [Hp _]. destruct (Hfree _ _ Hp) as [Hr _].
          rewrite at_other by auto. exact Hp.
        * cbn in *. destruct (i_pool _ _ _ Hi _ _ H) as [Hp Hq]. destruct (Hfree _ _ Hp) as [_ Hh].
          rewrite Hh. exact Hq.
        * intros j. unfold set_at. destruct (Nat.eqb_spec g j) as [<-|]; reflexivity.
        * cbn. apply upd_len.
        * cbn. rewrite (nth_upd_same _ _ _ _ Et), at_same. reflexivity.
        * intros j Hj. cbn. rewrite nth_upd_other, at_other by auto. reflexivity.
    - cbn in Hg. destruct Hg as [Hh Hk]. destruct (Hv s Hh) as (r & c & Ha & Hb & Hc).
      rewrite Ha, Hc. cbn [w_thr].
      set (G1 := mkG (g_held (G g)) (set_var (g_mem (G g)) s (f (g_mem (G g) s))) (g_res (G g))).
      exists own, (set_at G g G1).
      repeat split.
      + apply (i_nil _ _ _ Hi).
      + cbn. intros r' x. rewrite upd_len. apply (i_own _ _ _ Hi).
      + cbn in H |- *. destruct (Nat.eq_dec g g0) as [<-|Hj].
        * rewrite (nth_upd_same _ _ _ _ Et) in H. injection H as <-. rewrite at_same. exact Hk.
        * rewrite nth_upd_other in H by auto. rewrite at_other by auto. apply (i_thr _ _ _ Hi _ _ H).
      + cbn in H |- *. intros s' Hs'. destruct (Nat.eq_dec g g0) as [<-|Hj].
        * rewrite (nth_upd_same _ _ _ _ Et) in H. injection H as <-. rewrite at_same in *. cbn in *.
          destruct (slot_eqb_spec s s') as [<-|Hs].
          -- exists r, c. rewrite set_same, (nth_upd_same _ _ _ _ Hc). auto.
          -- destruct (Hv s' Hs') as (r' & c' & Ha' & Hb' & Hc').
             assert (r <> r') by (intros <-; congruence).
             exists r', c'. rewrite set_other, nth_upd_other by auto. auto.
        * rewrite nth_upd_other in H by auto. rewrite at_other in * by auto.
          destruct (i_thr _ _ _ Hi _ _ H) as [_ Hw]. destruct (Hw s' Hs') as (r' & c' & Ha' & Hb' & Hc').
          assert (r <> r') by (intros <-; congruence).
          exists r', c'. rewrite nth_upd_other by auto. auto.
      + cbn. apply (i_nd _ _ _ Hi).
      + apply (i_pool _ _ _ Hi _ _ H).
      + cbn in *. destruct (i_pool _ _ _ Hi _ _ H) as [Hp Hq].
        rewrite nth_upd_other by (intros <-; congruence). exact Hq.
      + intros j. unfold set_at. destruct (Nat.eqb_spec g j) as [<-|]; reflexivity.
      + cbn. apply upd_len.
      + cbn. rewrite (nth_upd_same _ _ _ _ Et), at_same. reflexivity.
      + intros j Hj. cbn. rewrite nth_upd_other, at_other by auto. reflexivity.
    - cbn in Hg. destruct Hg as (Hh & Hcl & Hk). destruct (Hv s Hh) as (r & c & Ha & Hb & Hc).
      rewrite Ha, Hc. cbn [w_thr].
      set (G1 := mkG (set_var (g_held (G g)) s false) (g_mem (G g)) (g_res (G g))).
      set (P := match n with O => set_var (w_pool w) s (w_pool w s ++ [r]) | S _ => w_pool w end).
      assert (HP : forall s' r', In r' (P s') -> (r' = r /\ s' = s) \/ (r' <> r /\ In r' (w_pool w s'))).
      { intros s' r' Hin. destruct (Nat.eq_dec r' r) as [->|Hr].
        - left. split; auto. destruct (slot_eqb_spec s s') as [|Hs]; auto. exfalso.
          assert (In r (w_pool w s')) as Hp.
          { unfold P in Hin. destruct n; auto. rewrite set_other in Hin; auto. }
          destruct (i_pool _ _ _ Hi _ _ Hp) as [Hq _]. congruence.
        - right. split; auto. unfold P in Hin. destruct n; auto.
          destruct (slot_eqb_spec s s') as [<-|Hs].
          + rewrite set_same in Hin. apply in_app_or in Hin. destruct Hin as [|[]]; auto; try congruence. contradiction.
          + rewrite set_other in Hin; auto. }
      exists (set_at own r (Some (Pooled s))), (set_at G g G1).
      repeat split.
      + apply (i_nil _ _ _ Hi).
      + cbn. intros r' x. rewrite upd_len. unfold set_at. destruct (Nat.eqb_spec r r') as [<-|].
        * intros _. eapply (i_own _ _ _ Hi); eauto.
        * apply (i_own _ _ _ Hi).
      + cbn in H |- *. destruct (Nat.eq_dec g g0) as [<-|Hj].
        * rewrite (nth_upd_same _ _ _ _ Et) in H. injection H as <-. rewrite at_same. exact Hk.
        * rewrite nth_upd_other in H by auto. rewrite at_other by auto. apply (i_thr _ _ _ Hi _ _ H).
      + cbn in H |- *. intros s' Hs'. destruct (Nat.eq_dec g g0) as [<-|Hj].
        * rewrite (nth_upd_same _ _ _ _ Et) in H. injection H as <-. rewrite at_same in *. cbn in *.
          destruct (slot_eqb_spec s s') as [<-|Hs]; [rewrite set_same in Hs'; discriminate|].
          rewrite set_other in Hs' by auto. destruct (Hv s' Hs') as (r' & c' & Ha' & Hb' & Hc').
          assert (r <> r') by (intros <-; congruence).
          exists r', c'. rewrite at_other, nth_upd_other by auto. auto.
        * rewrite nth_upd_other in H by auto. rewrite at_other in * by auto.
          destruct (i_thr _ _ _ Hi _ _ H) as [_ Hw]. destruct (Hw s' Hs') as (r' & c' & Ha' & Hb' & Hc').
          assert (r <> r') by (intros <-; congruence).
          exists r', c'. rewrite at_other, nth_upd_other by auto. auto.
      + cbn. intros s'. unfold P. destruct n; [|apply (i_nd _ _ _ Hi)].
        destruct (slot_eqb_spec s s') as [<-|Hs].
        * rewrite set_same. apply NoDup_app_intro; [apply (i_nd _ _ _ Hi)|repeat constructor; tauto|].
          intros x Hin [<-|[]]. destruct (i_pool _ _ _ Hi _ _ Hin). congruence.
        * rewrite set_other by auto. apply (i_nd _ _ _ Hi).
      + cbn in *. destruct (HP _ _ H) as [[-> ->]|[Hr Hin]].
        * now rewrite at_same.
        * rewrite at_other by auto. apply (i_pool _ _ _ Hi _ _ Hin).
      + cbn in *. destruct (HP _ _ H) as [[-> ->]|[Hr Hin]].
        * rewrite (nth_upd_same _ _ _ _ Hc). eauto.
        * rewrite nth_upd_other by auto. apply (i_pool _ _ _ Hi _ _ Hin).
      + intros j. unfold set_at. destruct (Nat.eqb_spec g j) as [<-|]; reflexivity.
      + cbn. apply upd_len.
      + cbn. rewrite (nth_upd_same _ _ _ _ Et), at_same. reflexivity.
      + intros j Hj. cbn. rewrite nth_upd_other, at_other by auto. reflexivity.
  Qed.

  (** Turns given to [g] by a schedule. *)
  Definition given (g : nat) (sched : list (nat * nat)) : nat :=
    length (filter (fun x => Nat.eqb (fst x) g) sched).

  Lemma run_inv sched : forall own G w, inv own G w ->
    exists own' G', inv own' G' (run w sched) /\
      (forall j, g_res (G' j) = g_res (G j)) /\
      length (w_thr (run w sched)) = length (w_thr w) /\
      (forall j, left_ G' (run w sched) j = left_ G w j - given j sched).
  Proof.
    induction sched as [|[g n] sched IH]; intros own G w Hi; cbn [run].
    - exists own, G. split; [exact Hi|]. split; [auto|]. split; [auto|]. intros j. unfold given. cbn [filter length]. lia.
    - destruct (step_inv own G w g n Hi) as (own1 & G1 & Hi1 & Hr1 & Hl1 & Hg1 & Ho1).
      destruct (IH _ _ _ Hi1) as (own2 & G2 & Hi2 & Hr2 & Hl2 & Hg2).
      exists own2, G2. split; [exact Hi2|]. split; [intros; congruence|]. split; [congruence|].
      intros j. rewrite Hg2. unfold given. cbn [filter fst]. destruct (Nat.eqb_spec g j) as [<-|Hj].
      + rewrite Hg1. cbn [length]. lia.
      + rewrite Ho1 by auto. reflexivity.
  Qed.

  (** Any number of well-behaved programs, any schedule. *)
  Theorem interleaved (ps : list (prog A)) (rs : list A) :
    length rs = length ps ->
    (forall g p a, nth_error ps g = Some p -> nth_error rs g = Some a ->
       good p (fun _ => false) new_obj a) ->
    forall sched,
      w_nil (run (start ps) sched) = false /\
      forall g p a, nth_error ps g = Some p -> nth_error rs g = Some a ->
        (forall b, result (run (start ps) sched) g = Some b -> b = a) /\
        (turns p new_obj <= given g sched -> result (run (start ps) sched) g = Some a).
  Proof.
    intros Hlen Hgood sched.
    assert (Hthr : forall g t, nth_error (w_thr (start ps)) g = Some t ->
              exists p, nth_error ps g = Some p /\ t = mkT p (fun _ => None)).
    { intros g t. cbn. rewrite nth_error_map. destruct (nth_error ps g); cbn; intros E; inversion E; eauto. }
    destruct rs as [|a0 rs'] eqn:Ers.
    { destruct ps; [|discriminate]. split.
      - induction sched as [|[g n] sched IH]; auto. cbn [run].
        unfold step at 1. cbn. destruct g; exact IH.
      - intros g p a Hp. destruct g; discriminate. }
    rewrite <- Ers in *.
    set (G0 := fun g => mkG (fun _ => false) new_obj (nth g rs a0)).
    assert (Hi : inv (fun r => match r with O => Some (Pooled SVis) | _ => None end) G0 (start ps)).
    { constructor.
      - reflexivity.
      - intros [|r] x; cbn; [lia|discriminate].
      - intros g t Et. destruct (Hthr _ _ Et) as (p & Ep & ->). split; [|discriminate]. cbn.
        eapply Hgood; eauto. apply nth_error_nth'. rewrite Hlen. apply nth_error_Some. congruence.
      - intros []; cbn; repeat constructor; auto.
      - intros [] r; cbn; intros []; try contradiction. subst r. split; auto.
        exists 0%Z, (new_obj SVis). auto. }
    destruct (run_inv sched _ _ _ Hi) as (own & G & Hi' & Hr & Hl & Hleft).
    split; [apply Hi'|]. intros g p a Hp Ha.
    assert (Hres : g_res (G g) = a).
    { rewrite Hr. cbn. apply nth_error_nth. exact Ha. }
    assert (Hin : nth_error (w_thr (run (start ps) sched)) g <> None).
    { apply nth_error_Some. rewrite Hl. cbn. rewrite map_length. apply nth_error_Some. congruence. }
    destruct (nth_error (w_thr (run (start ps) sched)) g) as [t|] eqn:Et; [|congruence].
    destruct (i_thr _ _ _ Hi' _ _ Et) as [Hg _]. unfold result. rewrite Et. split.
    - intros b. destruct (t_prog t); try discriminate. intros E. injection E as ->. cbn in Hg. congruence.
    - intros Hle. specialize (Hleft g). unfold left_ in Hleft. rewrite Et in Hleft.
      cbn [start w_thr] in Hleft. rewrite nth_error_map, Hp in Hleft. cbn [option_map t_prog] in Hleft.
      change (g_mem (G0 g)) with new_obj in Hleft.
      destruct (t_prog t); cbn in Hleft; try (exfalso; lia). cbn in Hg. congruence.
  Qed.
End Interleave.
