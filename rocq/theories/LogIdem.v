(** Replaying records on equal indexes, and replaying records twice. *)
From Verif Require Import Base CommitLog CommitLogFacts CommitLogReplay CommitLogEffect
  CommitLogCondense.

(** ** Equal indexes stay equal *)

Lemma same_mset (m m' : nmap lvert) id v : (forall i, mget i m = mget i m') ->
  forall i, mget i (mset id v m) = mget i (mset id v m').
Proof. intros H i. rewrite !mget_mset. destruct (N.eqb i id); auto. Qed.

Lemma do_conns_same id l f a b a' b' : same_index a b ->
  do_conns id l f a = Ok a' -> do_conns id l f b = Ok b' -> same_index a' b'.
Proof.
  intros (Hn & He & Hl & Ht & Hp & Hc). unfold do_conns. intros Ha Hb.
  apply bind_ok in Ha as (na & _ & Ha). apply bind_ok in Hb as (nb & _ & Hb). rewrite <- (Hn id) in Hb.
  apply bind_ok in Ha as (ca & Ea & Ha). apply bind_ok in Hb as (cb & Eb & Hb).
  rewrite Ea in Eb. injection Eb as <-. injection Ha as <-. injection Hb as <-.
  repeat split; auto; try apply Ht. cbn [ls_nodes with_nodes]. now apply same_mset.
Qed.

Lemma absent_beyond st id : in_slice st -> (ls_len st <= id)%N -> mget id (ls_nodes st) = None.
Proof.
  intros Hs Hle. destruct (mget id (ls_nodes st)) eqn:E; [|reflexivity].
  assert (present st id) by (unfold present; congruence). apply Hs in H. lia.
Qed.

Lemma apply_same o a b a' b' : op_mem o -> in_slice a -> in_slice b -> same_index a b ->
  apply_op false o a = Ok a' -> apply_op false o b = Ok b' -> same_index a' b'.
Proof.
  intros Hm Sa Sb Hs.
  destruct o as [id l|id l|id l t|id l ts|id|id|id|id| |id l|id l ts|pq]; cbn [apply_op op_mem] in *.
  - destruct Hs as (Hn & He & Hl & Ht & Hp & Hc). unfold do_node. intros Ha Hb.
    apply bind_ok in Ha as (na & _ & Ha). apply bind_ok in Hb as (nb & _ & Hb). rewrite <- (Hn id) in Hb.
    injection Ha as <-. injection Hb as <-. repeat split; auto; try apply Ht.
    cbn [ls_nodes with_nodes]. now apply same_mset.
  - intros [= <-] [= <-]. destruct Hs as (Hn & He & Hl & Ht & Hp & Hc). repeat split; auto; apply Ht.
  - now apply do_conns_same.
  - unfold do_replace_links. intros Ha Hb. apply bind_ok in Ha as (a1 & Ha & H1).
    apply bind_ok in Hb as (b1 & Hb & H2). injection H1 as <-. injection H2 as <-.
    now apply (do_conns_same id l (fun _ => ts) a b).
  - intros [= <-] [= <-]. destruct Hs as (Hn & He & Hl & Ht & Hp & Hc).
    assert (Hx : forall s t, In t (ls_tomb (do_add_tomb id s)) <-> t = id \/ In t (ls_tomb s)).
    { intros s t. cbn. destruct (memN id (ls_tomb s)) eqn:Em; cbn.
      - split; [auto|]. intros [->|]; auto. now apply mem_iff.
      - intuition congruence. }
    repeat split; auto; intros Hi; apply Hx; apply Hx in Hi as [->|Hi]; auto; right; now apply Ht.
  - intros [= <-] [= <-]. destruct Hs as (Hn & He & Hl & Ht & Hp & Hc). repeat split; auto;
      cbn; intros Hi; apply filter_In in Hi as [Hi Hk]; apply filter_In; split; auto; now apply Ht.
  - unfold do_clear_links, beyond, index_panics.
    assert (Hlt : (id <? 2 ^ 63)%N = true) by now apply N.ltb_lt. rewrite Hlt. cbn [andb].
    destruct Hs as (Hn & He & Hl & Ht & Hp & Hc).
    destruct (N.leb_spec (ls_len a) id) as [La|La]; destruct (N.leb_spec (ls_len b) id) as [Lb|Lb].
    + intros [= <-] [= <-]. repeat split; auto; apply Ht.
    + rewrite <- (Hn id), (absent_beyond a id Sa La). intros [= <-] [= <-]. repeat split; auto; apply Ht.
    + rewrite (Hn id), (absent_beyond b id Sb Lb). intros [= <-] [= <-]. repeat split; auto; apply Ht.
    + rewrite <- (Hn id). destruct (mget id (ls_nodes a)) as [v|]; intros [= <-] [= <-];
        repeat split; auto; try apply Ht. cbn [ls_nodes with_nodes]. now apply same_mset.
  - unfold do_delete, beyond, index_panics.
    assert (Hlt : (id <? 2 ^ 63)%N = true) by now apply N.ltb_lt. rewrite Hlt. cbn [andb].
    destruct Hs as (Hn & He & Hl & Ht & Hp & Hc).
    assert (Hdel : forall m : nmap lvert, forall i, mget i (mdel id m) = if N.eqb i id then None else mget i m).
    { intros m i. destruct (N.eqb_spec i id) as [->|]; [apply mget_mdel_eq|now apply mget_mdel_ne]. }
    destruct (N.leb_spec (ls_len a) id) as [La|La]; destruct (N.leb_spec (ls_len b) id) as [Lb|Lb];
      intros [= <-] [= <-]; repeat split; auto; try apply Ht; cbn [ls_nodes with_nodes]; intros i;
      rewrite ?Hdel; destruct (N.eqb_spec i id) as [->|]; auto.
    + now rewrite (absent_beyond a id Sa La).
    + now rewrite (absent_beyond b id Sb Lb).
  - intros [= <-] [= <-]. destruct Hs as (Hn & He & Hl & Ht & Hp & Hc). repeat split; auto; apply Ht.
  - destruct Hm as [Hm _]. unfold do_clear_links_at, beyond, index_panics.
    assert (Hlt : (id <? 2 ^ 63)%N = true) by now apply N.ltb_lt. rewrite Hlt. cbn [andb].
    destruct Hs as (Hn & He & Hl & Ht & Hp & Hc). cbv zeta.
    destruct (N.leb_spec (ls_len a) id) as [La|La]; destruct (N.leb_spec (ls_len b) id) as [Lb|Lb].
    + intros [= <-] [= <-]. repeat split; auto; apply Ht.
    + rewrite <- (Hn id), (absent_beyond a id Sa La). intros [= <-] [= <-]. repeat split; auto; apply Ht.
    + rewrite (Hn id), (absent_beyond b id Sb Lb). intros [= <-] [= <-]. repeat split; auto; apply Ht.
    + rewrite <- (Hn id). destruct (mget id (ls_nodes a)) as [v|].
      * intros Ha Hb. apply bind_ok in Ha as (ca & Ea & Ha). apply bind_ok in Hb as (cb & Eb & Hb).
        rewrite Ea in Eb. injection Eb as <-. injection Ha as <-. injection Hb as <-.
        repeat split; auto; try apply Ht. cbn [ls_nodes with_nodes]. now apply same_mset.
      * intros [= <-] [= <-]. repeat split; auto; apply Ht.
  - now apply do_conns_same.
  - intros [= <-] [= <-]. destruct Hs as (Hn & He & Hl & Ht & Hp & Hc). repeat split; auto; apply Ht.
Qed.

Lemma apply_all_same : forall os a b, Forall op_mem os -> in_slice a -> in_slice b ->
  len_ok a -> len_ok b -> same_index a b ->
  exists a' b', apply_all false os a = Ok a' /\ apply_all false os b = Ok b' /\ same_index a' b'.
Proof.
  induction os as [|o os IH]; intros a b Hm Sa Sb La Lb Hs; [exists a, b; auto|].
  inversion Hm; subst. cbn [apply_all].
  destruct (apply_op_ok false o a H1 La) as (a1 & Ea & La1). rewrite Ea.
  destruct (apply_op_ok false o b H1 Lb) as (b1 & Eb & Lb1). rewrite Eb. cbn [bind].
  apply IH; auto.
  - now apply (apply_effect o a a1).
  - now apply (apply_effect o b b1).
  - now apply (apply_same o a b).
Qed.

Lemma apply_all_slice : forall os a a', Forall op_mem os -> in_slice a -> len_ok a ->
  apply_all false os a = Ok a' -> in_slice a' /\ len_ok a'.
Proof.
  induction os as [|o os IH]; intros a a' Hm Sa La; cbn [apply_all].
  - intros [= <-]. auto.
  - inversion Hm; subst. destruct (apply_op_ok false o a H1 La) as (a1 & Ea & La1). rewrite Ea. cbn [bind].
    apply IH; auto. now apply (apply_effect o a a1).
Qed.

Lemma same_index_sym a b : same_index a b -> same_index b a.
Proof. intros (Hn & He & Hl & Ht & Hp & Hc). repeat split; auto; apply Ht. Qed.

Lemma same_index_trans a b c : same_index a b -> same_index b c -> same_index a c.
Proof.
  intros (Hn & He & Hl & Ht & Hp & Hc) (Hn' & He' & Hl' & Ht' & Hp' & Hc').
  repeat split; try congruence.
  - intros Hi. now apply Ht', Ht.
  - intros Hi. now apply Ht, Ht'.
Qed.

(** ** Records that can be replayed twice *)

(** A record that only sets values: no links are appended. *)
Definition sets (o : lop) : Prop :=
  match o with
  | LNode _ _ | LSetEp _ _ | LReplace _ _ _ | LAddTomb _ => True
  | LAddLinks _ _ ts => ts = []
  | _ => False
  end.

(** Values of a node, an absent node having the values a new one starts from. *)
Definition vid (s : lstate) (id : N) : N :=
  match mget id (ls_nodes s) with Some v => lv_id v | None => id end.
Definition lev (s : lstate) (id : N) : N :=
  match mget id (ls_nodes s) with Some v => lv_level v | None => 0%N end.
Definition len (s : lstate) (id : N) : nat :=
  match mget id (ls_nodes s) with Some v => length (lv_conns v) | None => 0 end.

(** The node and level a record reaches. *)
Definition reach (o : lop) : option (N * N) :=
  match o with
  | LNode id l | LReplace id l _ | LAddLinks id l _ => Some (id, l)
  | _ => None
  end.

Fixpoint need (os : list lop) (id : N) : nat :=
  match os with
  | [] => 0
  | o :: os =>
      match reach o with
      | Some (i, l) => if N.eqb i id then Nat.max (S (N.to_nat l)) (need os id) else need os id
      | None => need os id
      end
  end.

(** The states agree on everything [os] does not set. *)
Record agree (os : list lop) (s t : lstate) : Prop := {
  ag_pres : forall id, (forall o l, In o os -> reach o <> Some (id, l)) -> (present s id <-> present t id);
  ag_vid : forall id, vid s id = vid t id;
  ag_lev : forall id, (forall l, ~ In (LNode id l) os) -> lev s id = lev t id;
  ag_links : forall id j, (forall ts, ~ In (LReplace id j ts) os) -> links s id j = links t id j;
  ag_len : forall id, Nat.max (len s id) (need os id) = Nat.max (len t id) (need os id);
  ag_ep : (forall id l, ~ In (LSetEp id l) os) -> ls_ep s = ls_ep t /\ ls_level s = ls_level t;
  ag_tomb : forall x, ~ In (LAddTomb x) os -> (In x (ls_tomb s) <-> In x (ls_tomb t));
  ag_pq : ls_pq s = ls_pq t /\ ls_comp s = ls_comp t
}.

(** One record, by its values. *)
Record touched (id l : N) (lv : N) (f : list N -> list N) (s s' : lstate) : Prop := {
  to_others : same_others id s s';
  to_present : present s' id;
  to_vid : vid s' id = vid s id;
  to_lev : lev s' id = lv;
  to_len : len s' id = Nat.max (len s id) (S (N.to_nat l));
  to_links : forall j, links s' id j = if N.eqb j l then f (links s id j) else links s id j;
  to_rest : ls_ep s' = ls_ep s /\ ls_level s' = ls_level s /\ ls_tomb s' = ls_tomb s
            /\ ls_pq s' = ls_pq s /\ ls_comp s' = ls_comp s
}.

Lemma do_conns_touched id l f s s' : (l < 65535)%N -> do_conns id l f s = Ok s' ->
  touched id l (lev s id) f s s'.
Proof.
  intros Hl H. unfold do_conns in H. apply bind_ok in H as (n & _ & H).
  set (v := match mget id (ls_nodes s) with None => _ | Some v => v end) in *.
  apply bind_ok in H as (c & Hc & H). injection H as <-.
  pose proof (at_level_length _ _ _ _ Hc) as Hlen. rewrite maybe_grow_length in Hlen by exact Hl.
  assert (Hv : lv_id v = vid s id /\ lv_level v = lev s id
               /\ Nat.max (length (lv_conns v)) (S (N.to_nat l)) = Nat.max (len s id) (S (N.to_nat l))
               /\ forall j, nth j (lv_conns v) [] = links s id (N.of_nat j)).
  { unfold v, vid, lev, len, links. destruct (mget id (ls_nodes s)) as [w|].
    - repeat split. intros j. now rewrite Nat2N.id.
    - cbn [lv_id lv_level lv_conns]. rewrite fresh_conns_length by exact Hl. repeat split; [lia|].
      intros j. unfold fresh_conns. apply nth_repeat_nil. }
  destruct Hv as (H1 & H2 & H3 & H4).
  constructor.
  - intros i Hi. cbn [ls_nodes with_nodes]. now apply mget_mset_ne.
  - unfold present. cbn [ls_nodes with_nodes]. rewrite mget_mset_eq. discriminate.
  - unfold vid at 1. cbn [ls_nodes with_nodes]. now rewrite mget_mset_eq.
  - unfold lev at 1. cbn [ls_nodes with_nodes]. now rewrite mget_mset_eq.
  - unfold len at 1. cbn [ls_nodes with_nodes]. rewrite mget_mset_eq. cbn [lv_conns]. lia.
  - intros j. unfold links at 1. cbn [ls_nodes with_nodes]. rewrite mget_mset_eq. cbn [lv_conns].
    destruct (at_level_nth _ _ _ _ Hc) as [Hat Hoff]. destruct (N.eqb_spec j l) as [->|Hne].
    + now rewrite Hat, nth_grow, H4, N2Nat.id by exact Hl.
    + rewrite Hoff by lia. now rewrite nth_grow, H4, N2Nat.id by exact Hl.
  - repeat split.
Qed.

Lemma do_node_touched id l s s' : (l < 65535)%N -> do_node id l s = Ok s' ->
  touched id l l (fun x => x) s s'.
Proof.
  intros Hl H. unfold do_node in H. apply bind_ok in H as (n & _ & H). injection H as <-.
  constructor.
  - intros i Hi. cbn [ls_nodes with_nodes]. now apply mget_mset_ne.
  - unfold present. cbn [ls_nodes with_nodes]. rewrite mget_mset_eq. discriminate.
  - unfold vid. cbn [ls_nodes with_nodes]. rewrite mget_mset_eq. now destruct (mget id (ls_nodes s)).
  - unfold lev. cbn [ls_nodes with_nodes]. rewrite mget_mset_eq. now destruct (mget id (ls_nodes s)).
  - unfold len. cbn [ls_nodes with_nodes]. rewrite mget_mset_eq.
    destruct (mget id (ls_nodes s)) as [v|]; cbn [lv_conns].
    + now rewrite maybe_grow_length by exact Hl.
    + rewrite fresh_conns_length by exact Hl. lia.
  - intros j. unfold links. cbn [ls_nodes with_nodes]. rewrite mget_mset_eq.
    replace (if N.eqb j l then _ else _)
      with (match mget id (ls_nodes s) with Some v => nth (N.to_nat j) (lv_conns v) [] | None => [] end)
      by now destruct (N.eqb j l).
    destruct (mget id (ls_nodes s)) as [v|]; cbn [lv_conns].
    + now rewrite nth_grow by exact Hl.
    + unfold fresh_conns. apply nth_repeat_nil.
  - repeat split.
Qed.

(** How a record sets a list of links, and a level. *)
Definition set_links (o : lop) (x : list N) : list N :=
  match o with LReplace _ _ ts => ts | _ => x end.
Definition set_lev (o : lop) (x : N) : N :=
  match o with LNode _ l => l | _ => x end.

Lemma sets_touched o s s' id l : sets o -> op_mem o -> apply_op false o s = Ok s' ->
  reach o = Some (id, l) -> touched id l (set_lev o (lev s id)) (set_links o) s s'.
Proof.
  intros Hs Hm H Hr. destruct o; cbn in Hr; try discriminate; injection Hr as -> ->;
    cbn [op_mem apply_op] in *; destruct Hm as [Hi Hl].
  - now apply do_node_touched.
  - unfold do_replace_links in H. apply bind_ok in H as (s1 & H & H1). injection H1 as <-.
    now apply (do_conns_touched id l (fun _ => ts)).
  - cbn in Hs. subst ts. apply do_conns_touched in H; [|exact Hl].
    destruct H as [T1 T2 T3 T4 T5 T6 T7]. constructor; auto. intros j. rewrite T6. cbn.
    destruct (N.eqb j l); [apply app_nil_r|reflexivity].
Qed.

(** The other records leave the nodes. *)
Lemma sets_untouched o s s' : sets o -> apply_op false o s = Ok s' -> reach o = None ->
  ls_nodes s' = ls_nodes s
  /\ (ls_ep s', ls_level s') = match o with LSetEp id l => (id, l) | _ => (ls_ep s, ls_level s) end
  /\ (forall x, In x (ls_tomb s') <-> o = LAddTomb x \/ In x (ls_tomb s))
  /\ ls_pq s' = ls_pq s /\ ls_comp s' = ls_comp s.
Proof.
  intros Hs H Hr. destruct o; cbn in Hr, Hs; try discriminate; try contradiction;
    cbn [apply_op] in H; injection H as <-.
  - repeat split; auto. intros [|]; [discriminate|assumption].
  - repeat split; auto.
    + cbn. intros Hi. destruct (memN id (ls_tomb s)); [now right|]. destruct Hi as [->|]; auto.
    + cbn. destruct (memN id (ls_tomb s)) eqn:Em.
      * intros [[= ->]|]; [now apply mem_iff|assumption].
      * intros [[= ->]|]; [now left|now right].
Qed.

Lemma need_cons o os id : need (o :: os) id
  = match reach o with
    | Some (i, l) => if N.eqb i id then Nat.max (S (N.to_nat l)) (need os id) else need os id
    | None => need os id
    end.
Proof. reflexivity. Qed.

Lemma others_obs id s s' i : same_others id s s' -> i <> id ->
  (present s' i <-> present s i) /\ vid s' i = vid s i /\ lev s' i = lev s i /\ len s' i = len s i
  /\ forall j, links s' i j = links s i j.
Proof.
  intros H Hi. unfold present, vid, lev, len, links. rewrite (H i Hi). repeat split; auto.
Qed.

Lemma nodes_obs s s' i : ls_nodes s' = ls_nodes s ->
  (present s' i <-> present s i) /\ vid s' i = vid s i /\ lev s' i = lev s i /\ len s' i = len s i
  /\ forall j, links s' i j = links s i j.
Proof. intros H. unfold present, vid, lev, len, links. rewrite H. repeat split; auto. Qed.

Lemma agree_refl os s : agree os s s.
Proof. constructor; auto; try reflexivity. Qed.

(** A record and the records after it change only what they set. *)
Lemma agree_start : forall os s s', Forall sets os -> Forall op_mem os ->
  apply_all false os s = Ok s' -> agree os s s'.
Proof.
  induction os as [|o os IH]; intros s s' Hs Hm H; cbn [apply_all] in H.
  - injection H as <-. apply agree_refl.
  - inversion Hs; inversion Hm; subst. apply bind_ok in H as (s1 & H1 & H).
    pose proof (IH s1 s' H3 H7 H) as [A1 A2 A3 A4 A5 A6 A7 A8].
    destruct (reach o) as [[i l]|] eqn:Er.
    + destruct (sets_touched o s s1 i l H2 H6 H1 Er) as [T1 T2 T3 T4 T5 T6 (T7 & T8 & T9 & T10 & T11)].
      constructor.
      * intros id Hno. destruct (N.eq_dec id i) as [->|Hne].
        { exfalso. now apply (Hno o l (or_introl eq_refl)). }
        rewrite <- (A1 id) by (intros o' l' Hin; apply Hno; now right).
        destruct (others_obs i s s1 id T1 Hne) as (P & _). tauto.
      * intros id. rewrite <- A2. destruct (N.eq_dec id i) as [->|Hne]; [auto|].
        now destruct (others_obs i s s1 id T1 Hne) as (_ & P & _).
      * intros id Hno. rewrite <- A3 by (intros l' Hin; apply (Hno l'); now right).
        destruct (N.eq_dec id i) as [->|Hne].
        { rewrite T4. destruct o; try reflexivity. cbn in Er. injection Er as -> ->.
          exfalso. apply (Hno l). now left. }
        now destruct (others_obs i s s1 id T1 Hne) as (_ & _ & P & _).
      * intros id j Hno. rewrite <- A4 by (intros ts Hin; apply (Hno ts); now right).
        destruct (N.eq_dec id i) as [->|Hne].
        { rewrite T6. destruct (N.eqb_spec j l) as [->|]; [|reflexivity].
          destruct o; try reflexivity. cbn in Er. injection Er as -> ->. exfalso. apply (Hno ts). now left. }
        now destruct (others_obs i s s1 id T1 Hne) as (_ & _ & _ & _ & P).
      * intros id. rewrite need_cons, Er. specialize (A5 id). destruct (N.eqb_spec i id) as [->|Hne]; [lia|].
        destruct (others_obs i s s1 id T1) as (_ & _ & _ & P & _); [congruence|]. lia.
      * intros Hno. rewrite <- T7, <- T8. apply A6. intros id l' Hin. apply (Hno id l'). now right.
      * intros x Hno. rewrite <- T9. apply A7. intros Hin. apply Hno. now right.
      * rewrite <- T10, <- T11. exact A8.
    + destruct (sets_untouched o s s1 H2 H1 Er) as (T1 & T2 & T3 & T4 & T5).
      constructor.
      * intros id Hno. rewrite <- (A1 id) by (intros o' l' Hin; apply Hno; now right).
        destruct (nodes_obs s s1 id T1) as (P & _). tauto.
      * intros id. rewrite <- A2. now destruct (nodes_obs s s1 id T1) as (_ & P & _).
      * intros id Hno. rewrite <- A3 by (intros l' Hin; apply (Hno l'); now right).
        now destruct (nodes_obs s s1 id T1) as (_ & _ & P & _).
      * intros id j Hno. rewrite <- A4 by (intros ts Hin; apply (Hno ts); now right).
        now destruct (nodes_obs s s1 id T1) as (_ & _ & _ & _ & P).
      * intros id. rewrite need_cons, Er. rewrite <- A5.
        now destruct (nodes_obs s s1 id T1) as (_ & _ & _ & -> & _).
      * intros Hno. destruct A6 as [<- <-]; [intros id l' Hin; apply (Hno id l'); now right|].
        destruct o; try (injection T2 as -> ->; auto). exfalso. apply (Hno id level). now left.
      * intros x Hno. rewrite <- A7 by (intros Hin; apply Hno; now right). rewrite T3. split; [now right|].
        intros [->|]; [exfalso; apply Hno; now left|assumption].
      * rewrite <- T4, <- T5. exact A8.
Qed.

Lemma classic_tomb o x : o = LAddTomb x \/ o <> LAddTomb x.
Proof.
  destruct o; try (right; discriminate). destruct (N.eq_dec id x) as [->|]; [now left|right; congruence].
Qed.

Lemma agree_step o os s t s' t' : sets o -> op_mem o -> agree (o :: os) s t ->
  apply_op false o s = Ok s' -> apply_op false o t = Ok t' -> agree os s' t'.
Proof.
  intros Hs Hm [A1 A2 A3 A4 A5 A6 A7 A8] H1 H2.
  destruct (reach o) as [[i l]|] eqn:Er.
  - destruct (sets_touched o s s' i l Hs Hm H1 Er) as [T1 T2 T3 T4 T5 T6 (T7 & T8 & T9 & T10 & T11)].
    destruct (sets_touched o t t' i l Hs Hm H2 Er) as [U1 U2 U3 U4 U5 U6 (U7 & U8 & U9 & U10 & U11)].
    constructor.
    + intros id Hno. destruct (N.eq_dec id i) as [->|Hne]; [tauto|].
      destruct (others_obs i s s' id T1 Hne) as (P & _). destruct (others_obs i t t' id U1 Hne) as (Q & _).
      rewrite P, Q. apply A1. intros o' l' [<-|Hin]; [congruence|now apply Hno].
    + intros id. destruct (N.eq_dec id i) as [->|Hne]; [rewrite T3, U3; apply A2|].
      destruct (others_obs i s s' id T1 Hne) as (_ & -> & _). destruct (others_obs i t t' id U1 Hne) as (_ & -> & _).
      apply A2.
    + intros id Hno. destruct (N.eq_dec id i) as [->|Hne].
      * rewrite T4, U4. destruct o; cbn [set_lev]; try reflexivity;
          apply A3; intros l' [E|Hin]; try discriminate; now apply (Hno l').
      * destruct (others_obs i s s' id T1 Hne) as (_ & _ & -> & _).
        destruct (others_obs i t t' id U1 Hne) as (_ & _ & -> & _).
        apply A3. intros l' [->|Hin]; [cbn in Er; congruence|now apply (Hno l')].
    + intros id j Hno. destruct (N.eq_dec id i) as [->|Hne].
      * rewrite T6, U6. destruct (N.eqb_spec j l) as [->|Hj].
        { destruct o; cbn [set_links]; try reflexivity;
            apply A4; intros ts' [E|Hin]; try discriminate; now apply (Hno ts'). }
        apply A4. intros ts' [->|Hin]; [cbn in Er; congruence|now apply (Hno ts')].
      * destruct (others_obs i s s' id T1 Hne) as (_ & _ & _ & _ & ->).
        destruct (others_obs i t t' id U1 Hne) as (_ & _ & _ & _ & ->).
        apply A4. intros ts' [->|Hin]; [cbn in Er; congruence|now apply (Hno ts')].
    + intros id. specialize (A5 id). rewrite need_cons, Er in A5.
      destruct (N.eqb_spec i id) as [->|Hne]; [lia|].
      destruct (others_obs i s s' id T1) as (_ & _ & _ & P & _); [congruence|].
      destruct (others_obs i t t' id U1) as (_ & _ & _ & Q & _); [congruence|]. lia.
    + intros Hno. rewrite T7, T8, U7, U8. apply A6. intros id l' [->|Hin]; [discriminate|now apply (Hno id l')].
    + intros x Hno. rewrite T9, U9. apply A7. intros [->|Hin]; [discriminate|auto].
    + now rewrite T10, T11, U10, U11.
  - destruct (sets_untouched o s s' Hs H1 Er) as (T1 & T2 & T3 & T4 & T5).
    destruct (sets_untouched o t t' Hs H2 Er) as (U1 & U2 & U3 & U4 & U5).
    constructor.
    + intros id Hno. destruct (nodes_obs s s' id T1) as (P & _). destruct (nodes_obs t t' id U1) as (Q & _).
      rewrite P, Q. apply A1. intros o' l' [<-|Hin]; [congruence|now apply Hno].
    + intros id. destruct (nodes_obs s s' id T1) as (_ & -> & _). destruct (nodes_obs t t' id U1) as (_ & -> & _).
      apply A2.
    + intros id Hno. destruct (nodes_obs s s' id T1) as (_ & _ & -> & _).
      destruct (nodes_obs t t' id U1) as (_ & _ & -> & _).
      apply A3. intros l' [->|Hin]; [discriminate|now apply (Hno l')].
    + intros id j Hno. destruct (nodes_obs s s' id T1) as (_ & _ & _ & _ & ->).
      destruct (nodes_obs t t' id U1) as (_ & _ & _ & _ & ->).
      apply A4. intros ts' [->|Hin]; [discriminate|now apply (Hno ts')].
    + intros id. specialize (A5 id). rewrite need_cons, Er in A5.
      destruct (nodes_obs s s' id T1) as (_ & _ & _ & -> & _).
      now destruct (nodes_obs t t' id U1) as (_ & _ & _ & -> & _).
    + intros Hno. destruct o; try (injection T2 as -> ->; injection U2 as -> ->; auto; fail);
        injection T2 as -> ->; injection U2 as -> ->;
        apply A6; intros id' l' [E|Hin]; try discriminate; now apply (Hno id' l').
    + intros x Hno. rewrite T3, U3. destruct (classic_tomb o x) as [->|Hne]; [tauto|].
      rewrite A7 by (intros [E|Hin]; auto). tauto.
    + now rewrite T4, T5, U4, U5.
Qed.

Lemma agree_end s t : agree [] s t -> same_index s t.
Proof.
  intros [A1 A2 A3 A4 A5 A6 A7 A8]. split; [|split; [|split; [|split; [|exact A8]]]].
  - intros id. specialize (A1 id (fun _ _ H => match H with end)). specialize (A2 id).
    specialize (A3 id (fun _ H => H)). specialize (A5 id). cbn in A5. rewrite !Nat.max_0_r in A5.
    assert (A4' : forall j, links s id j = links t id j) by (intros j; apply A4; auto).
    unfold present, vid, lev, len, links in *.
    destruct (mget id (ls_nodes s)) as [[i1 l1 c1]|], (mget id (ls_nodes t)) as [[i2 l2 c2]|]; cbn in *.
    + f_equal. f_equal; auto. apply nth_ext with (d := []) (d' := []); [exact A5|].
      intros n _. specialize (A4' (N.of_nat n)). now rewrite Nat2N.id in A4'.
    + exfalso. destruct A1 as [A1 _]. apply A1; [discriminate|reflexivity].
    + exfalso. destruct A1 as [_ A1]. apply A1; [discriminate|reflexivity].
    + reflexivity.
  - now apply A6.
  - now apply A6.
  - intros x. now apply A7.
Qed.

Lemma agree_run : forall os s t, Forall sets os -> Forall op_mem os -> len_ok s -> len_ok t ->
  agree os s t ->
  exists s' t', apply_all false os s = Ok s' /\ apply_all false os t = Ok t' /\ same_index s' t'.
Proof.
  induction os as [|o os IH]; intros s t Hs Hm Ls Lt Ha.
  - exists s, t. split; [reflexivity|]. split; [reflexivity|]. now apply agree_end.
  - inversion Hs; inversion Hm; subst. cbn [apply_all].
    destruct (apply_op_ok false o s H5 Ls) as (s1 & Es & Ls1). rewrite Es.
    destruct (apply_op_ok false o t H5 Lt) as (t1 & Et & Lt1). rewrite Et. cbn [bind].
    apply IH; auto. now apply (agree_step o os s t).
Qed.

(** Records that only set values can be replayed twice. *)
Lemma replay_twice os s s1 : Forall sets os -> Forall op_mem os -> len_ok s ->
  apply_all false os s = Ok s1 ->
  exists s2, apply_all false os s1 = Ok s2 /\ same_index s1 s2.
Proof.
  intros Hs Hm Hl H. pose proof (agree_start os s s1 Hs Hm H) as Ha.
  assert (Hl1 : len_ok s1).
  { destruct (apply_all_ok false os s Hm Hl) as (s1' & E & Hl1). congruence. }
  destruct (agree_run os s s1 Hs Hm Hl Hl1 Ha) as (x & s2 & E1 & E2 & Hsame).
  rewrite H in E1. injection E1 as <-. eauto.
Qed.
