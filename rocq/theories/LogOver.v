(** Condensing a log that is replayed on top of earlier logs. *)
From Verif Require Import Base CommitLog CommitLogFacts CommitLogReplay CommitLogEffect
  CommitLogCondense LogIdem.

(** A record that only adds or sets, on the index [t] it is replayed on: nothing
    is deleted, no node is lowered to level 0, links are cleared only of a node
    that exists and is in the first 25000. *)
Definition adds (o : lop) (t : lstate) : Prop :=
  match o with
  | LNode id l => l = 0%N -> lev t id = 0%N
  | LSetEp _ _ | LLink _ _ _ | LReplace _ _ _ | LAddTomb _ | LAddLinks _ _ _ => True
  | LClearAt id _ => present t id /\ (id < initial_size)%N
  | LRemoveTomb _ | LClear _ | LDelete _ | LReset | LPq _ => False
  end.

Fixpoint additive (os : list lop) (t : lstate) : Prop :=
  match os with
  | [] => True
  | o :: os => adds o t /\ forall t', apply_op false o t = Ok t' -> additive os t'
  end.

(** [t] is the index [a] with the log's own state [s] laid over it. *)
Record over (a s t : lstate) : Prop := {
  ov_pres : forall id, present t id <-> present a id \/ present s id;
  ov_vid : forall id, vid t id = vid a id;
  ov_lev : forall id, lev t id = if (0 <? lev s id)%N then lev s id else lev a id;
  ov_len : forall id, len t id = Nat.max (len a id) (len s id);
  ov_links : forall id j, links t id j
      = if pair_mem (id, j) (ls_replaced s) then links s id j else links a id j ++ links s id j;
  ov_ep : (ls_ep t, ls_level t)
      = if ls_epch s then (ls_ep s, ls_level s) else (ls_ep a, ls_level a);
  ov_tomb : forall x, In x (ls_tomb t) <-> In x (ls_tomb a) \/ In x (ls_tomb s);
  ov_pq : ls_pq t = ls_pq a /\ ls_comp t = ls_comp a
}.

Lemma over_init a : over a ls_init a.
Proof.
  constructor.
  - intros id. split; [now left|]. intros [H|H]; [exact H|]. unfold present in H. cbn in H. congruence.
  - reflexivity.
  - reflexivity.
  - intros id. change (len ls_init id) with 0. lia.
  - intros id j. change (links ls_init id j) with (@nil N). cbn. now rewrite app_nil_r.
  - reflexivity.
  - intros x. cbn. tauto.
  - auto.
Qed.

(** Two indexes laid out alike are the same. *)
Lemma over_same a s t t' : over a s t -> over a s t' -> same_index t t'.
Proof.
  intros [A1 A2 A3 A4 A5 A6 A7 A8] [B1 B2 B3 B4 B5 B6 B7 B8].
  apply agree_end. constructor.
  - intros id _. now rewrite A1, B1.
  - intros id. now rewrite A2, B2.
  - intros id _. now rewrite A3, B3.
  - intros id j _. now rewrite A5, B5.
  - intros id. now rewrite A4, B4.
  - intros _. rewrite <- B6 in A6. now injection A6.
  - intros x _. now rewrite A7, B7.
  - destruct A8 as [-> ->], B8 as [-> ->]. auto.
Qed.

(** What a record of links does with a list. *)
Definition list_op (o : lop) (x : list N) : list N :=
  match o with
  | LLink _ _ t => x ++ [t]
  | LAddLinks _ _ ts => x ++ ts
  | LReplace _ _ ts => ts
  | LClearAt _ _ => []
  | _ => x
  end.

Definition spot (o : lop) : option (N * N) :=
  match o with
  | LNode id l | LLink id l _ | LReplace id l _ | LAddLinks id l _ | LClearAt id l => Some (id, l)
  | _ => None
  end.

Definition replaces (o : lop) : bool :=
  match o with LReplace _ _ _ | LClearAt _ _ => true | _ => false end.

Lemma touched_mark id l lv f s s' i j : touched id l lv f s s' -> touched id l lv f s (mark i j s').
Proof. intros [T1 T2 T3 T4 T5 T6 T7]. constructor; auto. Qed.

(** [do_clear_links_at] is [do_conns] with the slice long enough. *)
Lemma clear_conns id l st : (id < ls_len st)%N ->
  do_conns id l (fun _ => []) st
  = (do! c <- at_level (maybe_grow (lv_conns match mget id (ls_nodes st) with
                                               | None => mkLvert id 0 (fresh_conns l) | Some v => v end) l)
                l (fun _ => []);
     Ok (with_nodes st (ls_len st)
           (mset id (mkLvert (lv_id match mget id (ls_nodes st) with
                                    | None => mkLvert id 0 (fresh_conns l) | Some v => v end)
                             (lv_level match mget id (ls_nodes st) with
                                       | None => mkLvert id 0 (fresh_conns l) | Some v => v end) c)
                 (ls_nodes st)))).
Proof.
  intros H. unfold do_conns, grow_len. apply N.ltb_lt in H. rewrite H. cbn [bind]. cbv zeta. reflexivity.
Qed.

Lemma mark_fields id l st : ls_len (mark id l st) = ls_len st /\ ls_nodes (mark id l st) = ls_nodes st.
Proof. split; reflexivity. Qed.

Lemma clear_at_keep id l st s : (id < 2 ^ 63)%N -> (id < ls_len st)%N ->
  do_clear_links_at true id l st = Ok s ->
  exists s1, do_conns id l (fun _ => []) (mark id l st) = Ok s1 /\ s = mark id l s1.
Proof.
  intros H63 Hlt. unfold do_clear_links_at, beyond, index_panics.
  destruct (N.leb_spec (ls_len st) id) as [?|_]; [lia|]. rewrite Bool.andb_false_r. cbv zeta.
  cbn [ls_len mark with_replaced]. destruct (N.leb_spec (ls_len st) id) as [?|_]; [lia|].
  rewrite clear_conns by exact Hlt. cbn [ls_len ls_nodes mark with_replaced].
  intros H.
  assert (Hgo : forall v, (do! c <- at_level (maybe_grow (lv_conns v) l) l (fun _ => []);
            Ok (mark id l (with_nodes (mark id l st) (ls_len st)
                  (mset id (mkLvert (lv_id v) (lv_level v) c) (ls_nodes st))))) = Ok s ->
          exists s1, (do! c <- at_level (maybe_grow (lv_conns v) l) l (fun _ => []);
            Ok (with_nodes (mark id l st) (ls_len st)
                  (mset id (mkLvert (lv_id v) (lv_level v) c) (ls_nodes st)))) = Ok s1 /\ s = mark id l s1).
  { intros v Hv. apply bind_ok in Hv as (c & -> & Hv). cbn [bind]. injection Hv as <-. eauto. }
  destruct (mget id (ls_nodes st)) as [v|]; now apply Hgo.
Qed.

Lemma clear_at_plain id l st s : (id < 2 ^ 63)%N -> (id < ls_len st)%N -> present st id ->
  do_clear_links_at false id l st = Ok s -> do_conns id l (fun _ => []) st = Ok s.
Proof.
  intros H63 Hlt Hp. unfold do_clear_links_at, beyond, index_panics.
  destruct (N.leb_spec (ls_len st) id) as [?|_]; [lia|]. rewrite Bool.andb_false_r. cbv zeta.
  destruct (N.leb_spec (ls_len st) id) as [?|_]; [lia|].
  rewrite clear_conns by exact Hlt. unfold present in Hp.
  destruct (mget id (ls_nodes st)) as [v|]; [|congruence]. auto.
Qed.

(** Invariants of the log's own state. *)
Record own (s : lstate) : Prop := {
  ow_wf : wf s;
  ow_len : len_ok s;
  ow_size : (initial_size <= ls_len s)%N;
  ow_marks : forall id j, pair_mem (id, j) (ls_replaced s) = true -> N.to_nat j < len s id
}.

Lemma own_init : own ls_init.
Proof.
  constructor; [exact init_wf|exact init_len_ok|cbn; lia|discriminate].
Qed.

Lemma grow_len_ge n id m : grow_len n id = Ok m -> (n <= 2 ^ 41)%N -> (id < 2 ^ 40)%N -> (n <= m)%N.
Proof.
  intros H Hn Hi. destruct (grow_len_ok n id Hn Hi) as (m' & E & _ & _ & Hle). congruence.
Qed.

Lemma do_conns_size id l f s s' : len_ok s -> (id < 2 ^ 40)%N -> do_conns id l f s = Ok s' ->
  (ls_len s <= ls_len s')%N /\ ls_replaced s' = ls_replaced s /\ ls_epch s' = ls_epch s.
Proof.
  intros Hl Hi H. unfold do_conns in H. apply bind_ok in H as (n & Hn & H).
  apply bind_ok in H as (c & _ & H). injection H as <-. cbn.
  split; [now apply (grow_len_ge _ id)|auto].
Qed.

Definition reaches (keep : bool) (o : lop) (s : lstate) : Prop :=
  match o with
  | LClearAt id _ => (id < ls_len s)%N /\ (keep = false -> present s id)
  | _ => True
  end.

Lemma adds_touched keep o s s' id l : op_mem o -> len_ok s -> reaches keep o s ->
  spot o = Some (id, l) -> apply_op keep o s = Ok s' ->
  touched id l (set_lev o (lev s id)) (list_op o) s s'
  /\ (forall p, pair_mem p (ls_replaced s')
        = (if keep && replaces o then (N.eqb (fst p) id && N.eqb (snd p) l) || pair_mem p (ls_replaced s)
           else pair_mem p (ls_replaced s))%bool)
  /\ ls_epch s' = ls_epch s /\ (ls_len s <= ls_len s')%N.
Proof.
  intros Hm Hl Hr Hs H.
  destruct o; cbn in Hs; try discriminate; injection Hs as -> ->; cbn [op_mem apply_op reaches] in *;
    destruct Hm as [Hi Hlv]; cbn [replaces set_lev]; rewrite ?Bool.andb_false_r, ?Bool.andb_true_r.
  - split; [now apply do_node_touched|]. unfold do_node in H. apply bind_ok in H as (n & Hn & H).
    injection H as <-. cbn. repeat split. now apply (grow_len_ge _ id).
  - split; [now apply do_conns_touched|]. unfold do_link in H. apply do_conns_size in H as (H1 & -> & ->); auto.
  - unfold do_replace_links in H. apply bind_ok in H as (s1 & H & H1). injection H1 as <-.
    pose proof (do_conns_size _ _ _ _ _ Hl Hi H) as (Hz & Hr1 & He).
    apply do_conns_touched in H; [|exact Hlv]. destruct keep.
    + split; [now apply touched_mark|]. cbn. rewrite Hr1. auto.
    + rewrite Hr1. auto.
  - destruct Hr as [Hlt Hp]. destruct keep.
    + apply clear_at_keep in H as (s1 & H & ->); auto.
      assert (Hi' : do_conns id l (fun _ => []) (mark id l s) = Ok s1) by exact H.
      apply do_conns_touched in H; [|exact Hlv].
      unfold do_conns, grow_len in Hi'. cbn [ls_len mark with_replaced] in Hi'.
      apply N.ltb_lt in Hlt. rewrite Hlt in Hi'. cbn [bind] in Hi'.
      apply bind_ok in Hi' as (c & _ & Hi'). injection Hi' as <-.
      split; [|cbn; repeat split; try reflexivity; intros p; now destruct (N.eqb (fst p) id && N.eqb (snd p) l)%bool].
      destruct H as [T1 T2 T3 T4 T5 T6 T7]. constructor; auto.
    + apply clear_at_plain in H; auto.
      split; [now apply do_conns_touched|].
      unfold do_conns, grow_len in H. apply N.ltb_lt in Hlt. rewrite Hlt in H. cbn [bind] in H.
      apply bind_ok in H as (c & _ & H). injection H as <-. cbn. repeat split; auto; try lia.
  - split; [now apply do_conns_touched|]. unfold do_add_links in H.
    apply do_conns_size in H as (H1 & -> & ->); auto.
Qed.

Lemma adds_untouched keep o s s' t : adds o t -> spot o = None -> apply_op keep o s = Ok s' ->
  ls_nodes s' = ls_nodes s /\ ls_replaced s' = ls_replaced s /\ ls_len s' = ls_len s
  /\ (ls_ep s', ls_level s', ls_epch s')
     = match o with LSetEp id l => (id, l, true) | _ => (ls_ep s, ls_level s, ls_epch s) end
  /\ (forall x, In x (ls_tomb s') <-> o = LAddTomb x \/ In x (ls_tomb s))
  /\ ls_pq s' = ls_pq s /\ ls_comp s' = ls_comp s.
Proof.
  intros Hs Hr H. destruct o; cbn in Hr, Hs; try discriminate; try contradiction;
    cbn [apply_op] in H; injection H as <-.
  - repeat split; auto. intros [|]; [discriminate|assumption].
  - repeat split; auto.
    + cbn. intros Hi. destruct (memN id (ls_tomb s)); [now right|]. destruct Hi as [->|]; auto.
    + cbn. destruct (memN id (ls_tomb s)) eqn:Em.
      * intros [[= ->]|]; [now apply mem_iff|assumption].
      * intros [[= ->]|]; [now left|now right].
Qed.

Lemma clear_at_wf id l st s : wf st -> (id < 2 ^ 40)%N -> (l < 65535)%N -> (id < ls_len st)%N ->
  do_clear_links_at true id l st = Ok s -> wf s.
Proof.
  intros Hw Hi Hl Hlt H. apply clear_at_keep in H as (s1 & H & ->); [|lia|exact Hlt].
  apply wf_mark. apply (do_conns_wf id l (fun _ => []) (mark id l st)); auto. now apply wf_mark.
Qed.

Lemma own_reaches o s t : own s -> adds o t -> reaches true o s.
Proof.
  intros Hw Ha. destruct o; cbn in *; auto. destruct Ha as [_ Ha].
  split; [|discriminate]. pose proof (ow_size _ Hw). lia.
Qed.

Lemma own_step o s s' t : op_ok o -> op_mem o -> adds o t -> own s -> apply_op true o s = Ok s' -> own s'.
Proof.
  intros Ho Hm Ha Hw H. pose proof (own_reaches o s t Hw Ha) as Hr.
  destruct (apply_op_ok true o s Hm (ow_len _ Hw)) as (s2 & E & L). rewrite H in E. injection E as <-.
  destruct Hw as [W1 W2 W3 W4].
  assert (Hwf : wf s').
  { destruct o; cbn [adds] in Ha; try contradiction;
      try (apply (apply_wf true _ s s' Ho Hm I I W1 H)).
    cbn [op_mem apply_op] in *. destruct Ha as [_ Ha], Hm as [_ Hl].
    apply (clear_at_wf id level s s'); auto; unfold initial_size in *; lia. }
  destruct (spot o) as [[id l]|] eqn:Es.
  - destruct (adds_touched true o s s' id l Hm W2 Hr Es H) as ([T1 T2 T3 T4 T5 T6 T7] & R & _ & Z).
    constructor; auto; [lia|]. intros i j Hp. rewrite R in Hp. cbn [fst snd andb] in Hp.
    destruct (N.eq_dec i id) as [->|Hne].
    + rewrite T5. destruct (replaces o).
      * destruct (N.eqb_spec j l) as [Hj|Hj]; [lia|]. rewrite Bool.andb_false_r in Hp. cbn in Hp.
        apply W4 in Hp. lia.
      * apply W4 in Hp. lia.
    + destruct (others_obs id s s' i T1 Hne) as (_ & _ & _ & -> & _). apply W4.
      destruct (replaces o); [|exact Hp]. apply N.eqb_neq in Hne. now rewrite Hne in Hp.
  - destruct (adds_untouched true o s s' t Ha Es H) as (U1 & U2 & U3 & _).
    constructor; auto; [rewrite U3; exact W3|]. intros i j Hp. rewrite U2 in Hp.
    destruct (nodes_obs s s' i U1) as (_ & _ & _ & -> & _). auto.
Qed.

(** One record, in the log's own state and on the index. *)
Lemma over_step a o s t s' t' : op_mem o -> adds o t -> own s -> len_ok t -> in_slice t ->
  over a s t -> apply_op true o s = Ok s' -> apply_op false o t = Ok t' -> over a s' t'.
Proof.
  intros Hm Ha Hw Lt St [A1 A2 A3 A4 A5 A6 A7 A8] Hs Ht.
  assert (Hrt : reaches false o t).
  { destruct o; cbn in *; auto. destruct Ha as [Hp _]. split; [now apply St|auto]. }
  destruct (spot o) as [[id l]|] eqn:Es.
  - destruct (adds_touched true o s s' id l Hm (ow_len _ Hw) (own_reaches o s t Hw Ha) Es Hs)
      as ([T1 T2 T3 T4 T5 T6 (T7 & T8 & T9 & T10 & T11)] & RT & ET & _).
    destruct (adds_touched false o t t' id l Hm Lt Hrt Es Ht)
      as ([U1 U2 U3 U4 U5 U6 (U7 & U8 & U9 & U10 & U11)] & _).
    constructor.
    + intros i. destruct (N.eq_dec i id) as [->|Hne]; [tauto|].
      destruct (others_obs id s s' i T1 Hne) as (P & _). destruct (others_obs id t t' i U1 Hne) as (Q & _).
      rewrite P, Q. apply A1.
    + intros i. destruct (N.eq_dec i id) as [->|Hne]; [rewrite U3; apply A2|].
      destruct (others_obs id t t' i U1 Hne) as (_ & -> & _). apply A2.
    + intros i. destruct (N.eq_dec i id) as [->|Hne].
      * rewrite T4, U4. specialize (A3 id). destruct o; cbn [set_lev adds] in *; try exact A3.
        cbn in Es. injection Es as -> ->. destruct (N.ltb_spec 0 l) as [Hl|Hl]; [reflexivity|].
        assert (Hl0 : l = 0%N) by lia. specialize (Ha Hl0). rewrite Ha in A3. rewrite Hl0.
        destruct (N.ltb_spec 0 (lev s id)); [lia|exact A3].
      * destruct (others_obs id s s' i T1 Hne) as (_ & _ & -> & _).
        destruct (others_obs id t t' i U1 Hne) as (_ & _ & -> & _). apply A3.
    + intros i. destruct (N.eq_dec i id) as [->|Hne].
      * rewrite T5, U5, A4. lia.
      * destruct (others_obs id s s' i T1 Hne) as (_ & _ & _ & -> & _).
        destruct (others_obs id t t' i U1 Hne) as (_ & _ & _ & -> & _). apply A4.
    + intros i j. rewrite RT. cbn [fst snd andb]. destruct (N.eqb_spec i id) as [->|Hne]; cbn [andb].
      * rewrite T6, U6, A5. destruct (N.eqb_spec j l) as [->|Hj]; cbn [orb].
        { destruct o; cbn [replaces list_op]; cbn in Es; try discriminate; try reflexivity;
            destruct (pair_mem (id, l) (ls_replaced s)); try reflexivity; now rewrite <- app_assoc. }
        now destruct (replaces o).
      * destruct (others_obs id s s' i T1 Hne) as (_ & _ & _ & _ & ->).
        destruct (others_obs id t t' i U1 Hne) as (_ & _ & _ & _ & ->). rewrite A5. now destruct (replaces o).
    + rewrite ET, T7, T8, U7, U8. exact A6.
    + intros x. rewrite T9, U9. apply A7.
    + now rewrite U10, U11.
  - destruct (adds_untouched true o s s' t Ha Es Hs) as (T1 & T2 & _ & T3 & T4 & _).
    destruct (adds_untouched false o t t' t Ha Es Ht) as (U1 & U2 & _ & U3 & U4 & U5 & U6).
    assert (Ns := fun i => nodes_obs s s' i T1). assert (Nt := fun i => nodes_obs t t' i U1).
    constructor.
    + intros i. destruct (Ns i) as (P & _), (Nt i) as (Q & _). rewrite P, Q. apply A1.
    + intros i. destruct (Nt i) as (_ & -> & _). apply A2.
    + intros i. destruct (Ns i) as (_ & _ & -> & _), (Nt i) as (_ & _ & -> & _). apply A3.
    + intros i. destruct (Ns i) as (_ & _ & _ & -> & _), (Nt i) as (_ & _ & _ & -> & _). apply A4.
    + intros i j. destruct (Ns i) as (_ & _ & _ & _ & ->), (Nt i) as (_ & _ & _ & _ & ->). rewrite T2. apply A5.
    + destruct o; cbn in Es; try discriminate; injection T3 as -> -> ->; injection U3 as -> -> _; auto.
    + intros x. rewrite T4, U4, A7. tauto.
    + now rewrite U5, U6.
Qed.

Lemma over_run a : forall os s t, Forall op_ok os -> Forall op_mem os -> additive os t -> own s ->
  len_ok t -> in_slice t -> over a s t ->
  exists s' t', apply_all true os s = Ok s' /\ apply_all false os t = Ok t' /\ own s' /\ over a s' t'.
Proof.
  induction os as [|o os IH]; intros s t Ho Hm Ha Hw Lt St Hov.
  - exists s, t. auto.
  - inversion Ho; inversion Hm; subst. cbn [additive apply_all] in *. destruct Ha as [Ha1 Ha2].
    destruct (apply_op_ok true o s H5 (ow_len _ Hw)) as (s1 & Es & _). rewrite Es.
    destruct (apply_op_ok false o t H5 Lt) as (t1 & Et & Lt1). rewrite Et. cbn [bind].
    apply IH; auto.
    + now apply (own_step o s s1 t).
    + now apply (apply_effect o t t1).
    + now apply (over_step a o s t s1 t1).
Qed.

(** ** The condensed records on an index *)

(** One node, [i] levels done. *)
Record laid (rep : list (N * N)) (k : N) (i : nat) (conns : list (list N)) (t t' : lstate) : Prop := {
  la_others : same_others k t t';
  la_vid : vid t' k = vid t k;
  la_lev : lev t' k = lev t k;
  la_len : len t' k = match conns with [] => len t k | _ => Nat.max (len t k) (i + length conns) end;
  la_pres : conns <> [] -> present t' k;
  la_links : forall j, links t' k j
      = if (N.of_nat i <=? j)%N && (j <? N.of_nat (i + length conns))%N
        then if pair_mem (k, j) rep then nth (N.to_nat j - i) conns []
             else links t k j ++ nth (N.to_nat j - i) conns []
        else links t k j;
  la_rest : frame t t'
}.

Lemma do_conns_frame id l f s s' : do_conns id l f s = Ok s' -> frame s s'.
Proof.
  intros H. unfold do_conns in H. apply bind_ok in H as (n & _ & H).
  apply bind_ok in H as (c & _ & H). injection H as <-. repeat split.
Qed.

Lemma links_ops_laid rep k : (k < 2 ^ 40)%N -> forall conns i t, len_ok t ->
  (N.of_nat (i + length conns) <= 65535)%N ->
  exists t', apply_all false (links_ops rep k i conns) t = Ok t' /\ len_ok t' /\ laid rep k i conns t t'.
Proof.
  intros Hk. induction conns as [|c conns IH]; intros i t Hl Hlen.
  - exists t. split; [reflexivity|]. split; [exact Hl|]. constructor; auto.
    + intros x _. reflexivity.
    + congruence.
    + intros j. cbn [length]. destruct (N.leb_spec (N.of_nat i) j); cbn [andb]; [|reflexivity].
      destruct (N.ltb_spec j (N.of_nat (i + 0))); [lia|reflexivity].
    + apply frame_refl.
  - cbn [links_ops apply_all length] in *. cbv zeta.
    assert (Hu : u16 (N.of_nat i) = N.of_nat i) by (unfold u16; apply N.mod_small; lia).
    rewrite Hu.
    set (f := fun x : list N => if pair_mem (k, N.of_nat i) rep then c else x ++ c).
    assert (Heq : apply_op false (if pair_mem (k, N.of_nat i) rep then LReplace k (N.of_nat i) c
                                  else LAddLinks k (N.of_nat i) c) t = do_conns k (N.of_nat i) f t).
    { unfold f. destruct (pair_mem (k, N.of_nat i) rep); [|reflexivity]. cbn [apply_op].
      unfold do_replace_links. now destruct (do_conns k (N.of_nat i) (fun _ => c) t). }
    rewrite Heq. destruct (do_conns_ok k (N.of_nat i) f t Hk) as (t1 & E1 & L1); [lia|exact Hl|].
    rewrite E1. cbn [bind]. pose proof (do_conns_frame _ _ _ _ _ E1) as F1.
    apply do_conns_touched in E1; [|lia]. destruct E1 as [T1 T2 T3 T4 T5 T6 _].
    destruct (IH (S i) t1 L1) as (t2 & E2 & L2 & [P1 P2 P3 P4 P5 P6 P7]); [lia|].
    exists t2. split; [exact E2|]. split; [exact L2|]. constructor.
    + intros x Hx. rewrite P1, T1 by exact Hx. reflexivity.
    + now rewrite P2.
    + now rewrite P3.
    + rewrite P4, T5, Nat2N.id. destruct conns; cbn [length]; lia.
    + intros _. destruct conns; [|now apply P5].
      cbn in E2. injection E2 as <-. exact T2.
    + intros j. rewrite P6, T6. cbn [length].
      destruct (N.eqb_spec j (N.of_nat i)) as [->|Hj].
      * destruct (N.leb_spec (N.of_nat (S i)) (N.of_nat i)); [lia|]. cbn [andb].
        destruct (N.leb_spec (N.of_nat i) (N.of_nat i)); [|lia]. cbn [andb].
        destruct (N.ltb_spec (N.of_nat i) (N.of_nat (i + S (length conns)))); [|lia].
        rewrite Nat2N.id, Nat.sub_diag. reflexivity.
      * replace (S i + length conns) with (i + S (length conns)) by lia.
        destruct (N.leb_spec (N.of_nat (S i)) j), (N.leb_spec (N.of_nat i) j); try lia; cbn [andb]; auto.
        destruct (N.ltb_spec j (N.of_nat (i + S (length conns)))); [|reflexivity].
        replace (N.to_nat j - i) with (S (N.to_nat j - S i)) by lia. reflexivity.
    + now apply (frame_trans _ t1).
Qed.

(** A node of the log over the one of the index. *)
Record noded (rep : list (N * N)) (k : N) (v : lvert) (t t' : lstate) : Prop := {
  no_others : same_others k t t';
  no_pres : present t' k;
  no_vid : vid t' k = vid t k;
  no_lev : lev t' k = if (0 <? lv_level v)%N then lv_level v else lev t k;
  no_len : len t' k = Nat.max (len t k) (length (lv_conns v));
  no_links : forall j, N.to_nat j < length (lv_conns v) \/ pair_mem (k, j) rep = false ->
      links t' k j = if pair_mem (k, j) rep then nth (N.to_nat j) (lv_conns v) []
                     else links t k j ++ nth (N.to_nat j) (lv_conns v) [];
  no_rest : frame t t'
}.

Lemma node_ops_noded rep k v t : vert_ok k v -> len_ok t ->
  exists t', apply_all false (node_ops rep v) t = Ok t' /\ len_ok t' /\ noded rep k v t t'.
Proof.
  intros (H1 & H2 & H3 & H4 & H5 & _) Hl. destruct v as [vi lvl conns]. cbn in *. subst vi.
  unfold node_ops. cbn [lv_level lv_id lv_conns].
  assert (Hne : conns <> []) by (destruct conns; [cbn in H4; lia|discriminate]).
  assert (Hmid : exists t1, apply_all false (if (0 <? lvl)%N then [LNode k (u16 lvl)] else []) t = Ok t1
     /\ len_ok t1 /\ same_others k t t1 /\ vid t1 k = vid t k
     /\ lev t1 k = (if (0 <? lvl)%N then lvl else lev t k)
     /\ Nat.max (len t1 k) (length conns) = Nat.max (len t k) (length conns)
     /\ (forall j, links t1 k j = links t k j) /\ frame t t1).
  { destruct (N.ltb_spec 0 lvl) as [Hlv|Hlv].
    - assert (Hu : u16 lvl = lvl) by (unfold u16; apply N.mod_small; lia). rewrite Hu.
      destruct (apply_op_ok false (LNode k lvl) t) as (t1 & E & L1); [cbn; auto|exact Hl|].
      cbn [apply_all]. rewrite E. cbn [bind]. exists t1. split; [reflexivity|]. split; [exact L1|].
      cbn [apply_op] in E. assert (F : frame t t1).
      { unfold do_node in E. apply bind_ok in E as (n & _ & E). injection E as <-. repeat split. }
      apply do_node_touched in E; [|exact H3]. destruct E as [T1 T2 T3 T4 T5 T6 _].
      split; [exact T1|]. split; [exact T3|]. split; [exact T4|]. split; [rewrite T5; lia|].
      split; [|exact F]. intros j. rewrite T6. now destruct (N.eqb j lvl).
    - exists t. cbn. repeat split; auto. }
  destruct Hmid as (t1 & E1 & L1 & M1 & M2 & M3 & M4 & M5 & M6).
  destruct (links_ops_laid rep k H2 conns 0 t1 L1) as (t2 & E2 & L2 & [P1 P2 P3 P4 P5 P6 P7]); [lia|].
  rewrite apply_all_app, E1. cbn [bind]. exists t2. split; [exact E2|]. split; [exact L2|].
  constructor; cbn [lv_level lv_conns].
  - intros x Hx. rewrite P1, M1 by exact Hx. reflexivity.
  - now apply P5.
  - congruence.
  - now rewrite P3.
  - rewrite P4. destruct conns; [congruence|]. cbn [Nat.add]. exact M4.
  - intros j Hj. rewrite P6. cbn [Nat.add]. rewrite Nat.sub_0_r, M5.
    destruct (N.leb_spec (N.of_nat 0) j); [|lia]. cbn [andb].
    destruct (N.ltb_spec j (N.of_nat (length conns))) as [Hjl|Hjl]; [reflexivity|].
    destruct Hj as [Hj|Hj]; [lia|]. rewrite Hj, nth_overflow by lia. now rewrite app_nil_r.
  - now apply (frame_trans _ t1).
Qed.

Lemma nodes_noded rep : forall L t, NoDup (map fst L) ->
  Forall (fun kv => vert_ok (fst kv) (snd kv)) L -> len_ok t ->
  exists t', apply_all false (flat_map (fun kv => node_ops rep (snd kv)) L) t = Ok t' /\ len_ok t'
    /\ (forall k v, In (k, v) L -> exists u u', mget k (ls_nodes u) = mget k (ls_nodes t)
           /\ mget k (ls_nodes t') = mget k (ls_nodes u') /\ noded rep k v u u')
    /\ (forall k, ~ In k (map fst L) -> mget k (ls_nodes t') = mget k (ls_nodes t))
    /\ frame t t'.
Proof.
  induction L as [|[k v] L IH]; intros t Hnd Hv Hl.
  - exists t. cbn. split; [reflexivity|]. split; [exact Hl|]. split; [intros k v []|].
    split; [reflexivity|apply frame_refl].
  - cbn [flat_map snd]. inversion Hnd; subst. inversion Hv; subst. cbn [fst snd map] in *.
    destruct (node_ops_noded rep k v t H3 Hl) as (t1 & E1 & L1 & N1).
    destruct (IH t1 H2 H4 L1) as (t2 & E2 & L2 & N2 & O2 & F2).
    exists t2. rewrite apply_all_app, E1. cbn [bind]. split; [exact E2|]. split; [exact L2|].
    split; [|split].
    + intros k' v' [[= <- <-]|Hin].
      * exists t, t1. auto.
      * destruct (N2 k' v' Hin) as (u & u' & U1 & U2 & U3). exists u, u'. split; [|auto].
        rewrite U1. apply (no_others _ _ _ _ _ N1). intros ->. apply H1.
        change k with (fst (k, v')). now apply in_map.
    + intros k' Hk'. cbn in Hk'. rewrite O2 by tauto. apply (no_others _ _ _ _ _ N1). intros ->. tauto.
    + apply (frame_trans _ t1); [apply (no_rest _ _ _ _ _ N1)|exact F2].
Qed.

Lemma obs_mget s s' id : mget id (ls_nodes s') = mget id (ls_nodes s) ->
  (present s' id <-> present s id) /\ vid s' id = vid s id /\ lev s' id = lev s id /\ len s' id = len s id
  /\ forall j, links s' id j = links s id j.
Proof. intros H. unfold present, vid, lev, len, links. rewrite H. repeat split; auto. Qed.

(** The condensed records lay the log's state over the index too. *)
Lemma condensed_over a s ts : own s -> len_ok a -> (forall t, In t ts <-> In t (ls_tomb s)) ->
  exists t, apply_all false (condensed_ops s ts) a = Ok t /\ over a s t.
Proof.
  intros [Hw _ _ Hmk] La Hts. unfold condensed_ops.
  assert (Hperm := in_order_perm (ls_nodes s)).
  assert (Hnd : NoDup (map fst (in_order (ls_nodes s)))).
  { apply (Permutation_NoDup (l := map fst (ls_nodes s))); [|exact (wf_keys _ Hw)].
    apply Permutation_map, Permutation_sym, Hperm. }
  destruct (nodes_noded (ls_replaced s) (in_order (ls_nodes s)) a) as (t1 & E1 & _ & G1 & O1 & F1).
  { exact Hnd. }
  { apply Forall_forall. intros [k v] Hin. cbn. apply (wf_nodes _ Hw). apply in_mget; [exact (wf_keys _ Hw)|].
    now apply (Permutation_in _ Hperm). }
  { exact La. }
  rewrite apply_all_app, E1. cbn [bind].
  set (epops := if ls_epch s then _ else _).
  destruct F1 as (Fa & Fb & Fc & Fd & Fe & Ff).
  assert (Hep : exists t2, apply_all false epops t1 = Ok t2 /\ ls_nodes t2 = ls_nodes t1
            /\ (ls_ep t2, ls_level t2) = (if ls_epch s then (ls_ep s, ls_level s) else (ls_ep a, ls_level a))
            /\ ls_tomb t2 = ls_tomb a /\ ls_pq t2 = ls_pq a /\ ls_comp t2 = ls_comp a).
  { unfold epops. destruct (ls_epch s) eqn:Ech.
    - cbn [apply_all apply_op bind]. eexists. split; [reflexivity|]. cbn. repeat split; auto.
      f_equal. unfold u16. apply N.mod_small. apply (proj2 (wf_ep _ Hw)).
    - cbn [apply_all]. exists t1. repeat split; auto. congruence. }
  destruct Hep as (t2 & E2 & N2 & P2 & T2 & Q2 & C2).
  rewrite apply_all_app, E2. cbn [bind].
  destruct (tombs_apply ts t2) as (t3 & E3 & N3 & P3 & L3 & Q3 & C3 & T3).
  exists t3. split; [exact E3|].
  assert (Hobs := fun i => nodes_obs t1 t3 i (eq_trans N3 N2)).
  assert (Hcase : forall id,
    (mget id (ls_nodes s) = None /\ mget id (ls_nodes t1) = mget id (ls_nodes a))
    \/ exists v u u', mget id (ls_nodes s) = Some v /\ mget id (ls_nodes u) = mget id (ls_nodes a)
         /\ mget id (ls_nodes t1) = mget id (ls_nodes u') /\ noded (ls_replaced s) id v u u').
  { intros id. destruct (mget id (ls_nodes s)) as [v|] eqn:E.
    - right. destruct (G1 id v) as (u & u' & U1 & U2 & U3); [|exists v, u, u'; auto].
      apply (Permutation_in _ (Permutation_sym Hperm)). now apply mget_in.
    - left. split; [reflexivity|]. apply O1. intros Hin. apply in_map_iff in Hin as ([k v] & Hk & Hin).
      cbn in Hk. subst k. apply (Permutation_in _ Hperm) in Hin.
      apply in_mget in Hin; [congruence|exact (wf_keys _ Hw)]. }
  assert (Hall : forall id,
    (present t1 id <-> present a id \/ present s id) /\ vid t1 id = vid a id
    /\ lev t1 id = (if (0 <? lev s id)%N then lev s id else lev a id)
    /\ len t1 id = Nat.max (len a id) (len s id)
    /\ forall j, links t1 id j = if pair_mem (id, j) (ls_replaced s) then links s id j
                                 else links a id j ++ links s id j).
  { intros id. destruct (Hcase id) as [[Hn Ha]|(v & u & u' & Hv & Hu & Hu' & [B1 B2 B3 B4 B5 B6 _])].
    - destruct (obs_mget a t1 id Ha) as (-> & -> & -> & -> & Hlk).
      assert (Hz : lev s id = 0%N /\ len s id = 0 /\ (forall j, links s id j = []) /\ ~ present s id).
      { unfold lev, len, links, present. rewrite Hn. repeat split; auto. }
      destruct Hz as (-> & Hlen & Hli & Hpr). split; [tauto|]. split; [reflexivity|]. split; [reflexivity|].
      split; [rewrite Hlen; lia|]. intros j. rewrite Hlk, Hli, app_nil_r.
      destruct (pair_mem (id, j) (ls_replaced s)) eqn:Em; [|reflexivity].
      apply Hmk in Em. rewrite Hlen in Em. lia.
    - destruct (obs_mget u' t1 id Hu') as (-> & -> & -> & -> & Hlk).
      destruct (obs_mget a u id Hu) as (_ & Hvu & Hlu & Hnu & Hku).
      assert (Hz : lev s id = lv_level v /\ len s id = length (lv_conns v)
                   /\ (forall j, links s id j = nth (N.to_nat j) (lv_conns v) []) /\ present s id).
      { unfold lev, len, links, present. rewrite Hv. repeat split; auto. discriminate. }
      destruct Hz as (-> & Hlen & Hli & Hpr). split; [tauto|]. split; [congruence|].
      split; [now rewrite B4, Hlu|]. split; [now rewrite B5, Hlen, Hnu|].
      intros j. rewrite Hlk, B6, Hli, Hku; [reflexivity|].
      destruct (pair_mem (id, j) (ls_replaced s)) eqn:Em; [|now right].
      apply Hmk in Em. rewrite Hlen in Em. now left. }
  constructor.
  - intros id. destruct (Hobs id) as (-> & _). apply Hall.
  - intros id. destruct (Hobs id) as (_ & -> & _). apply Hall.
  - intros id. destruct (Hobs id) as (_ & _ & -> & _). apply Hall.
  - intros id. destruct (Hobs id) as (_ & _ & _ & -> & _). apply Hall.
  - intros id j. destruct (Hobs id) as (_ & _ & _ & _ & ->). apply Hall.
  - now rewrite P3, L3.
  - intros x. rewrite T3, T2, Hts. tauto.
  - rewrite Q3, C3. auto.
Qed.

(** The log's own lists fit the records. *)
Definition own_short (os : list lop) : Prop :=
  forall s, apply_all true os ls_init = Ok s -> short_lists s.

Lemma links_ops_mem rep k : (k < 2 ^ 40)%N -> forall conns i, (N.of_nat (i + length conns) <= 65535)%N ->
  forall o, In o (links_ops rep k i conns) -> op_mem o.
Proof.
  intros Hk. induction conns as [|c conns IH]; intros i Hb o Hio; cbn [links_ops length] in *; [destruct Hio|].
  cbv zeta in Hio. destruct Hio as [<-|Hio]; [|apply (IH (S i)); [lia|exact Hio]].
  assert (Hu : u16 (N.of_nat i) = N.of_nat i) by (unfold u16; apply N.mod_small; lia). rewrite Hu.
  destruct (pair_mem _ _); cbn [op_mem]; split; auto; lia.
Qed.

(** Condensing a log that is replayed on [a]. *)
Lemma condense_over os ord a : Forall op_ok os -> Forall op_mem os -> additive os a -> own_short os ->
  (forall l t, In t (ord l) <-> In t l) -> len_ok a -> in_slice a ->
  exists cs t t', condense ord (encode_all os) = Some (encode_all cs)
    /\ Forall op_ok cs /\ Forall op_mem cs
    /\ apply_all false os a = Ok t /\ apply_all false cs a = Ok t' /\ same_index t t'.
Proof.
  intros Ho Hm Ha Hsh Hord La Sa.
  destruct (over_run a os ls_init a Ho Hm Ha own_init La Sa (over_init a)) as (s & t & Es & Et & Hw & Hov).
  destruct (condensed_over a s (ord (ls_tomb s)) Hw La (Hord (ls_tomb s))) as (t' & Et' & Hov').
  exists (condensed_ops s (ord (ls_tomb s))), t, t'.
  assert (Ht64 : Forall u64_ok (ord (ls_tomb s))).
  { apply Forall_forall. intros x Hx. apply (proj1 (Hord _ _)) in Hx.
    exact (proj1 (Forall_forall _ _) (wf_tomb _ (ow_wf _ Hw)) x Hx). }
  split; [|split; [|split; [|split; [exact Et|split; [exact Et'|now apply (over_same a s)]]]]].
  - unfold condense. rewrite <- (app_nil_r (encode_all os)), deserialize_ops, Es, deserialize_nil by auto.
    reflexivity.
  - apply condensed_ops_ok; [exact (ow_wf _ Hw)|now apply Hsh|exact Ht64].
  - unfold condensed_ops. apply Forall_app. split; [|apply Forall_app; split].
    + apply Forall_forall. intros o Hin. apply in_flat_map in Hin as ([k v] & Hin & Hio). cbn in Hio.
      apply (Permutation_in _ (in_order_perm _)) in Hin.
      apply in_mget in Hin; [|exact (wf_keys _ (ow_wf _ Hw))].
      destruct (wf_nodes _ (ow_wf _ Hw) _ _ Hin) as (H1 & H2 & H3 & H4 & H5 & H6).
      rewrite <- H1 in H2. unfold node_ops in Hio. apply in_app_or in Hio as [Hio|Hio].
      * destruct (0 <? lv_level v)%N; [|destruct Hio]. destruct Hio as [<-|[]]. cbn [op_mem].
        split; [exact H2|]. unfold u16. now rewrite N.mod_small by lia.
      * apply (links_ops_mem (ls_replaced s) (lv_id v) H2 (lv_conns v) 0 H5 o Hio).
    + destruct (ls_epch s); repeat constructor.
    + apply Forall_forall. intros o Hin. apply in_map_iff in Hin as (x & <- & _). exact I.
Qed.
