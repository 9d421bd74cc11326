(** Insertions interleaved with write-backs, queries and restarts. *)
From Verif Require Import Base F32 PQ PQProofs Graph Search SearchProofs SearchLayer SearchKnn
  SearchCong Insert HeuristicProofs InsertProofs InsertHist InsertTotal InsertDim InsertSmall InsertFacts InsertFind
  Distancer DistancerProofs PropDistancer Persist PersistProofs PersistHist.

(** One add request and what follows it until the next one: insertions, a
    write-back, then restarts ([true]) and queries ([false]). *)
Record round := mkRound {
  rd_adds : list aop; rd_keys : list N; rd_cnt : N; rd_puts : nat; rd_after : list bool }.

Definition after_step (h : hnsw) (b : bool) : hnsw := if b then restart h else load_ep h.
Definition round_flush (h : hnsw) (r : round) : hnsw * res unit :=
  flush (fst (run_adds h (rd_adds r))) (rd_keys r) (rd_cnt r) (rd_puts r).
Definition round_step (h : hnsw) (r : round) : hnsw :=
  fold_left after_step (rd_after r) (fst (round_flush h r)).
(** All states and all answers. *)
Fixpoint run_rounds (h : hnsw) (rs : list round) : hnsw * list (res unit) :=
  match rs with
  | [] => (h, [])
  | r :: rs' => let p := run_rounds (round_step h r) rs' in (fst p, snd (run_adds h (rd_adds r)) ++ snd p)
  end.
(** Every write-back succeeds and covers the node cache. *)
Fixpoint rounds_ok (h : hnsw) (rs : list round) : Prop :=
  match rs with
  | [] => True
  | r :: rs' => all_keys (fst (run_adds h (rd_adds r))) (rd_keys r) /\ snd (round_flush h r) = Ok tt /\
                rounds_ok (round_step h r) rs'
  end.

Record gstate (n : nat) (cap : N) (D : list N) (succ : list aop) (h : hnsw) : Prop := {
  g_p : pinv h;
  g_w : winv h;
  g_small : ids_below cap h;
  g_nd : NoDup D;
  g_lin : lin D h;
  g_dim : ldim n D h;
  g_epD : In (h_ep h) D;
  g_ep : ep_top h;
  g_built : h_once h = true \/ is_empty h = false;
  g_zero : In 0%N D /\ exists v, node_by_id h 0 = Some v;
  g_succ : forall o, In o succ -> In (a_id o) D /\ exists v, node_by_id h (a_id o) = Some v /\
     v_vec v = p_normalize (e_prov (i_env (a_env o))) (a_vec o)
}.

(** One insertion into a collection with vectors of dimension [n]. *)
Definition good_op (n : nat) (cap : N) (ids : list N) (o : aop) : Prop :=
  dop_ok cap o /\ length (a_vec o) = n /\ (a_id o < i_vcsize (a_env o))%N /\ src_ok n ids (a_env o).

Lemma src_ok_incl n D D2 I : NoDup D -> incl D D2 -> src_ok n D2 I -> src_ok n D I.
Proof.
  intros Hn Hi [H|H]; [left; intros l ow id Hin; apply H, Hi, Hin|right].
  apply Nat.le_trans with (length D2); [now apply NoDup_incl_length|exact H].
Qed.

Lemma gstate_add n cap D ids succ h o :
  0 < n -> gstate n cap D succ h -> good_op n cap ids o -> incl D ids -> In (a_id o) ids -> ~ In (a_id o) D ->
  let r := add (a_env o) h (a_id o) (a_vec o) (a_lvl o) in
  snd r = Ok tt /\ gstate n cap (a_id o :: D) (succ ++ [o]) (fst r).
Proof.
  intros Hn [P W S Nd L Dm EpD (vep & Hep & Hml) B (Z1 & v0 & Hz) Su] (((Hsc & Hsym & Hcap & Hid) & Hdim & Hlen) & Hv & Hvc & Hsrc)
    Hincl Hinids Hni.
  assert (Hp' : pinv (fst (add (a_env o) h (a_id o) (a_vec o) (a_lvl o)))) by exact (ev_step_pinv h (EvAdd o) P).
  cbv zeta. unfold add in *. destruct (a_vec o) as [|x q0] eqn:Eq; [cbn in Hv; lia|].
  unfold insert in *. assert (Hb : negb (h_once h) && is_empty h = false) by (destruct B as [-> | ->]; [reflexivity|apply andb_false_r]).
  rewrite Hb in *. set (q := p_normalize _ _) in *. set (id := a_id o) in *.
  assert (Hq : length q = n) by (unfold q; now rewrite Hlen).
  assert (S' : ids_small (i_env (a_env o)) (with_once h)).
  { unfold ids_small. rewrite Hcap. exact S. }
  assert (W' : winv (with_once h)) by (apply (winv_ext h); [reflexivity|exact W]).
  assert (Ep' : ep_top (with_once h)) by (exists vep; cbn; split; [exact Hep|lia]).
  assert (Hu : unlinked id (with_once h)).
  { intros j v l cs Hj Hl Hin. apply Hni. eapply L; eauto. }
  assert (Hne : h_ep (with_once h) <> id) by (intros E; apply Hni; rewrite <- E; exact EpD).
  assert (L' : lin (id :: D) (with_once h)).
  { intros j v l cs c Hj Hl Hin. right. eapply L; eauto. }
  assert (Dm' : forall j v, In j (id :: D) -> j <> id -> node_by_id (with_once h) j = Some v -> length (v_vec v) = n).
  { intros j v [<-|Hj] Hjn Hjv; [congruence|]. eapply Dm; eauto. }
  assert (Hidc : (id < e_vcap (i_env (a_env o)))%N) by now rewrite Hcap.
  assert (Hnd' : NoDup (id :: D)) by now constructor.
  assert (Hsrc' : src_ok n (id :: D) (a_env o)).
  { apply (src_ok_incl n _ ids); auto. intros j [<-|Hj]; auto. }
  pose proof (insert_linked_inv (a_env o) Hsc Hsym (with_once h) id q (a_lvl o)
                W' S' Ep' Hu Hne Hidc) as (W2 & S2 & Ep2 & A2 & O2 & M2 & Ok2 & Er2).
  destruct (insert_linked_total (a_env o) Hsc Hsym Hdim n Hn (id :: D) Hsrc' (with_once h) id q (a_lvl o)
             W' S' Ep' Hu Hne Hidc Hvc L' Dm' Hq (or_introl eq_refl) (or_intror EpD)) as (T1 & T2 & T3).
  set (r := insert_linked _ _ _ _ _) in *. split; [exact T1|].
  constructor; auto.
  - unfold ids_below. rewrite <- Hcap. exact S2.
  - cbn [h_ep with_once] in Er2. destruct Er2 as [[-> _]|(_ & -> & _)]; [right; exact EpD|now left].
  - split; [now right|]. assert (H0 : 0%N <> id) by (intros E; apply Hni; rewrite <- E; exact Z1).
    destruct (ar_fw _ _ _ A2 0%N v0 H0 Hz) as (v' & Hv' & _). eauto.
  - intros o' Ho'. apply in_app_or in Ho'. destruct Ho' as [Ho'|[<-|[]]].
    + destruct (Su o' Ho') as (HiD & v & Hv' & Vv). split; [now right|].
      assert (Hno : a_id o' <> id) by (intros E; apply Hni; rewrite <- E; exact HiD).
      destruct (ar_fw _ _ _ A2 (a_id o') v Hno Hv') as (v' & Hv2 & L3 & V' & M').
      exists v'. split; [exact Hv2|congruence].
    + split; [now left|]. destruct (Ok2 T1) as (v & Hv2 & Lv & Vv & _). exists v. split; [exact Hv2|].
      rewrite Vv, Eq. reflexivity.
Qed.

Lemma gstate_adds n cap ids ops : 0 < n -> forall h D succ,
  gstate n cap D succ h -> Forall (good_op n cap ids) ops -> incl D ids -> incl (map a_id ops) ids ->
  NoDup (map a_id ops) -> (forall o, In o ops -> ~ In (a_id o) D) ->
  let r := run_adds h ops in
  Forall (fun x => x = Ok tt) (snd r) /\ gstate n cap (rev (map a_id ops) ++ D) (succ ++ ops) (fst r).
Proof.
  intros Hn. induction ops as [|o ops IH]; intros h D succ Hg Hok Hi Hi2 Hnd Hni; cbn [run_adds].
  { rewrite app_nil_r. split; [constructor|exact Hg]. }
  inversion Hok as [|? ? Ho Hok']; subst. cbn [map] in Hnd, Hi2. apply NoDup_cons_iff in Hnd. destruct Hnd as [Hnd1 Hnd2].
  destruct (gstate_add n cap D ids succ h o Hn Hg Ho Hi) as [E1 G1].
  { apply Hi2. now left. }
  { apply Hni. now left. }
  set (r := add (a_env o) h (a_id o) (a_vec o) (a_lvl o)) in *. cbn [fst snd map rev].
  destruct (IH (fst r) (a_id o :: D) (succ ++ [o]) G1 Hok') as [E2 G2].
  { intros j [<-|Hj]; [apply Hi2; now left|now apply Hi]. }
  { intros j Hj. apply Hi2. now right. }
  { exact Hnd2. }
  { intros o' Ho' [E|Hin]; [apply Hnd1; rewrite E; now apply in_map|]. apply (Hni o'); [now right|exact Hin]. }
  rewrite <- !app_assoc in *. cbn [app] in *. split; [constructor; auto|exact G2].
Qed.

(** The same vertices, another entry point. *)
Lemma gstate_content n cap D succ h h' : gstate n cap D succ h -> pinv h' ->
  (forall id, content h' id = content h id) -> In (h_ep h') D -> ep_top h' ->
  (h_once h' = true \/ is_empty h' = false) -> gstate n cap D succ h'.
Proof.
  intros [P W S Nd L Dm EpD Ep B (Z1 & v0 & Hz) Su] Hp Hc Hin Het Hb.
  assert (Hbw : forall id v', node_by_id h' id = Some v' -> exists v, node_by_id h id = Some v /\
    v_level v = v_level v' /\ v_conns v = v_conns v' /\ v_vec v = v_vec v').
  { intros id v' Hv'. specialize (Hc id). unfold content in Hc. rewrite Hv' in Hc.
    destruct (node_by_id h id) as [v|]; [|discriminate]. cbn in Hc. injection Hc as C1 C2 C3 C4. exists v. auto. }
  assert (Hfw : forall id v, node_by_id h id = Some v -> exists v', node_by_id h' id = Some v' /\
    v_level v' = v_level v /\ v_conns v' = v_conns v /\ v_vec v' = v_vec v).
  { intros id v Hv. specialize (Hc id). unfold content in Hc. rewrite Hv in Hc.
    destruct (node_by_id h' id) as [v'|]; [|discriminate]. cbn in Hc. injection Hc as C1 C2 C3 C4. exists v'. auto. }
  constructor; auto.
  - destruct W as [Wi Wl Wk Wn]. constructor.
    + intros id v Hv. now apply pinv_id with h'.
    + intros id v Hv. destruct (Hbw _ _ Hv) as (w & Hw & E1 & E2 & _). rewrite <- E1, <- E2. now apply Wl with id.
    + intros id v l cs c Hv Hl Hcin. destruct (Hbw _ _ Hv) as (w & Hw & E1 & E2 & _). rewrite <- E2 in Hl.
      destruct (Wk _ _ _ _ _ Hw Hl Hcin) as (X1 & u & X2 & X3). split; [exact X1|].
      destruct (Hfw _ _ X2) as (u' & U1 & U2 & _). exists u'. split; [exact U1|lia].
    + intros id v l cs Hv Hl. destruct (Hbw _ _ Hv) as (w & Hw & E1 & E2 & _). rewrite <- E2 in Hl. eapply Wn; eauto.
  - intros id v Hv. destruct (Hbw _ _ Hv) as (w & Hw & _). eapply S; eauto.
  - intros j v l cs c Hv Hl Hcin. destruct (Hbw _ _ Hv) as (w & Hw & E1 & E2 & _). rewrite <- E2 in Hl. eapply L; eauto.
  - intros j v Hj Hv. destruct (Hbw _ _ Hv) as (w & Hw & _ & _ & E3). rewrite <- E3. eapply Dm; eauto.
  - split; [exact Z1|]. destruct (Hfw _ _ Hz) as (v' & Hv' & _). eauto.
  - intros o Ho. destruct (Su o Ho) as (H1 & v & H2 & H3). split; [exact H1|].
    destruct (Hfw _ _ H2) as (v' & Hv' & _ & _ & E3). exists v'. split; [exact Hv'|congruence].
Qed.

(** After a write-back: what is needed for restarts and queries. *)
Record cstate (n : nat) (cap : N) (D : list N) (succ : list aop) (h : hnsw) : Prop := {
  c_g : gstate n cap D succ h;
  c_kv : forall id, mget id (h_kv h) = pview h id;
  c_ep : exists e v, h_kv_ep h = Some e /\ In e D /\ node_by_id h e = Some v /\ h_maxl h <= v_level v
}.

Lemma gstate_flush n cap D succ h keys cnt k : gstate n cap D succ h -> all_keys h keys ->
  snd (flush h keys cnt k) = Ok tt -> cstate n cap D succ (fst (flush h keys cnt k)).
Proof.
  intros Hg Hk Hok. pose proof (g_p _ _ _ _ _ Hg) as Hp.
  destruct (flush_restart h keys cnt k tt Hp Hk Hok) as (V & Cn & Ke & He & Hm & Ht). cbv zeta in *.
  destruct (flush_any h keys cnt k Hp) as (Hp' & _ & _ & _ & (_ & _ & _ & Ho) & _). cbv zeta in *.
  destruct (flush_ok h keys cnt k tt Hp Hk Hok) as (K & _).
  set (h' := fst (flush h keys cnt k)) in *.
  assert (Hc : forall id, content h' id = content h id) by (intros id; apply content_pview, V).
  destruct (g_ep _ _ _ _ _ Hg) as (v & Hv & Hl).
  assert (Hv' : exists v', node_by_id h' (h_ep h) = Some v' /\ v_level v' = v_level v).
  { specialize (Hc (h_ep h)). unfold content in Hc. rewrite Hv in Hc.
    destruct (node_by_id h' (h_ep h)) as [v'|]; [|discriminate]. cbn in Hc. injection Hc as C1 _ _ _. exists v'. auto. }
  destruct Hv' as (v' & Hv' & Hl').
  assert (Hg' : gstate n cap D succ h').
  { apply (gstate_content n cap D succ h h'); auto.
    - rewrite He. apply (g_epD _ _ _ _ _ Hg).
    - exists v'. rewrite He, Hm. split; [exact Hv'|lia].
    - right. unfold is_empty. cbn [restart h_kv_ep] in Ke. rewrite Ke. destruct (h_kv h'); reflexivity. }
  constructor; [exact Hg'| |].
  - intros id. rewrite K. symmetry. apply V.
  - exists (h_ep h), v'. cbn [restart h_kv_ep] in Ke. rewrite Ke, Hm. split; [reflexivity|].
    split; [apply (g_epD _ _ _ _ _ Hg)|]. split; [exact Hv'|lia].
Qed.

Lemma cstate_after n cap D succ h b : cstate n cap D succ h -> cstate n cap D succ (after_step h b).
Proof.
  intros [Hg Kv (e & v & Ke & HeD & Hv & Hl)]. pose proof (g_p _ _ _ _ _ Hg) as Hp.
  assert (Hemp : forall h2, h_kv_ep h2 = h_kv_ep h -> is_empty h2 = false).
  { intros h2 E. unfold is_empty. rewrite E, Ke. destruct (h_kv h2); reflexivity. }
  destruct b; cbn [after_step].
  - assert (Hpv : forall id, pview (restart h) id = pview h id).
    { intros id. unfold pview at 1, node_by_id. cbn [restart h_cache h_kv mget]. rewrite Kv.
      unfold pview. destruct (node_by_id h id); reflexivity. }
    assert (Hc : forall id, content (restart h) id = content h id) by (intros id; apply content_pview, Hpv).
    assert (Hfw : forall id w, node_by_id h id = Some w -> exists w', node_by_id (restart h) id = Some w').
    { intros id w Hw. specialize (Hc id). unfold content in Hc. rewrite Hw in Hc.
      destruct (node_by_id (restart h) id) as [w'|]; [eauto|discriminate]. }
    destruct (g_zero _ _ _ _ _ Hg) as (Z1 & v0 & Hz).
    constructor.
    + apply (gstate_content n cap D succ h); auto.
      * exact (ev_step_pinv h EvRestart Hp).
      * destruct (Hfw _ _ Hz) as (w & Hw). exists w. cbn [restart h_ep h_maxl]. split; [exact Hw|lia].
    + intros id. rewrite Hpv. apply Kv.
    + destruct (Hfw _ _ Hv) as (w & Hw). exists e, w. cbn [restart h_kv_ep h_maxl]. repeat split; auto. lia.
  - assert (Hep : h_ep (load_ep h) = e) by (unfold load_ep; cbn; now rewrite Ke).
    constructor.
    + apply (gstate_content n cap D succ h); auto.
      * exact (ev_step_pinv h EvQuery Hp).
      * now rewrite Hep.
      * exists v. rewrite Hep. split; [exact Hv|exact Hl].
    + exact Kv.
    + exists e, v. auto.
Qed.
Lemma cstate_afters n cap D succ bs : forall h, cstate n cap D succ h -> cstate n cap D succ (fold_left after_step bs h).
Proof. induction bs as [|b bs IH]; intros h H; [exact H|]. apply IH. now apply cstate_after. Qed.

Lemma NoDup_app_r {A} (l1 l2 : list A) : NoDup (l1 ++ l2) -> NoDup l2.
Proof. induction l1 as [|x l1 IH]; [auto|]. cbn. rewrite NoDup_cons_iff. tauto. Qed.
Lemma NoDup_app_l {A} (l1 l2 : list A) : NoDup (l1 ++ l2) -> NoDup l1.
Proof. induction l1 as [|x l1 IH]; [constructor|]. cbn. rewrite !NoDup_cons_iff, in_app_iff. tauto. Qed.
Lemma NoDup_app_disj {A} (l1 l2 : list A) x : NoDup (l1 ++ l2) -> In x l1 -> ~ In x l2.
Proof.
  induction l1 as [|y l1 IH]; [contradiction|]. cbn. rewrite NoDup_cons_iff, in_app_iff. intros [H1 H2] [->|H]; tauto.
Qed.

Lemma gstate_rounds n cap ids rs : 0 < n -> forall h D succ,
  gstate n cap D succ h -> rounds_ok h rs ->
  let ops := flat_map rd_adds rs in
  Forall (good_op n cap ids) ops -> incl D ids -> incl (map a_id ops) ids ->
  NoDup (map a_id ops) -> (forall o, In o ops -> ~ In (a_id o) D) ->
  Forall (fun x => x = Ok tt) (snd (run_rounds h rs)) /\
  gstate n cap (rev (map a_id ops) ++ D) (succ ++ ops) (fst (run_rounds h rs)).
Proof.
  intros Hn. induction rs as [|r rs IH]; intros h D succ Hg Hr ops Hok Hi Hi2 Hnd Hni.
  { cbn. rewrite app_nil_r. split; [constructor|exact Hg]. }
  cbn [rounds_ok] in Hr. destruct Hr as (Hk & Hf & Hr). subst ops. cbn [flat_map run_rounds fst snd] in *.
  apply Forall_app in Hok. destruct Hok as [Hok1 Hok2]. rewrite map_app in *.
  destruct (gstate_adds n cap ids (rd_adds r) Hn h D succ Hg Hok1 Hi) as [A1 A2].
  { intros j Hj. apply Hi2, in_or_app. now left. }
  { now apply NoDup_app_l in Hnd. }
  { intros o Ho. apply Hni, in_or_app. now left. }
  cbv zeta in *.
  pose proof (gstate_flush n cap _ _ _ _ (rd_cnt r) (rd_puts r) A2 Hk Hf) as Hc.
  apply (cstate_afters n cap _ _ (rd_after r)) in Hc.
  destruct (IH _ _ _ (c_g _ _ _ _ _ Hc) Hr Hok2) as [B1 B2].
  { intros j Hj. apply in_app_or in Hj. destruct Hj as [Hj|Hj]; [|now apply Hi]. apply in_rev in Hj. apply Hi2, in_or_app. now left. }
  { intros j Hj. apply Hi2, in_or_app. now right. }
  { now apply NoDup_app_r in Hnd. }
  { intros o Ho Hin. apply in_app_or in Hin. destruct Hin as [Hin|Hin].
    - apply in_rev in Hin. apply (NoDup_app_disj _ _ _ Hnd Hin). now apply in_map.
    - apply (Hni o); [apply in_or_app; now right|exact Hin]. }
  split; [apply Forall_app; now split|]. rewrite rev_app_distr, <- !app_assoc. rewrite <- app_assoc in B2. exact B2.
Qed.

(** The first insertion into an empty collection. *)
Lemma gstate_first n cap o : 0 < n -> dop_ok cap o -> length (a_vec o) = n -> (a_id o < i_vcsize (a_env o))%N -> a_id o = 0%N ->
  let r := add (a_env o) empty_index (a_id o) (a_vec o) (a_lvl o) in
  snd r = Ok tt /\ gstate n cap [a_id o] [o] (fst r).
Proof.
  intros Hn Hd Hl Hv Hz.
  assert (Hne : a_vec o <> []) by (destruct (a_vec o); [cbn in Hl; lia|discriminate]).
  destruct (add_first cap empty_index o pristine_empty_index eq_refl Hd Hne) as (Hds & Hr & Honly).
  specialize (Hr Hv). cbv zeta in *. split; [exact Hr|]. rewrite Hr in Hds. rewrite Hl in Hds.
  destruct Hds as [W S Nd L Dm EpD (vep & Hep & Hml) Su O T K].
  constructor; auto.
  - exact (ev_step_pinv empty_index (EvAdd o) pinv_empty).
  - exists vep. split; [exact Hep|lia].
  - split; [left; exact Hz|]. destruct EpD as [E|[]]. exists vep. rewrite <- Hep. f_equal. congruence.
  - intros o' Ho'. destruct (Su o' Ho') as (_ & H1 & v & H2 & _ & H3 & _). split; [exact H1|]. eauto.
Qed.

Lemma rounds_accepted n cap o adds keys cnt k after rs : 0 < n ->
  let rs' := mkRound (o :: adds) keys cnt k after :: rs in
  let ops := flat_map rd_adds rs' in
  a_id o = 0%N -> Forall (good_op n cap (map a_id ops)) ops -> NoDup (map a_id ops) -> rounds_ok empty_index rs' ->
  Forall (fun x => x = Ok tt) (snd (run_rounds empty_index rs')) /\
  gstate n cap (rev (map a_id ops)) ops (fst (run_rounds empty_index rs')).
Proof.
  intros Hn rs' ops Hz Hok Hnd Hr. subst ops rs'. cbn [flat_map rd_adds app map] in *.
  inversion Hok as [|? ? Ho Hok']; subst.
  destruct Ho as (Hd & Hl & Hv & _). destruct (gstate_first n cap o Hn Hd Hl Hv Hz) as [F1 F2]. cbv zeta in *.
  apply NoDup_cons_iff in Hnd. destruct Hnd as [Hnd1 Hnd2].
  set (h1 := fst (add (a_env o) empty_index (a_id o) (a_vec o) (a_lvl o))) in *.
  assert (Hr' : rounds_ok h1 (mkRound adds keys cnt k after :: rs)) by exact Hr.
  destruct (gstate_rounds n cap (a_id o :: map a_id (adds ++ flat_map rd_adds rs)) (mkRound adds keys cnt k after :: rs) Hn h1 [a_id o] [o] F2 Hr')
    as [A B]; cbn [flat_map rd_adds] in *.
  - exact Hok'.
  - intros j [<-|[]]. now left.
  - intros j Hj. now right.
  - exact Hnd2.
  - intros o' Ho' [E|[]]. apply Hnd1. rewrite E. now apply in_map.
  - split; [|exact B]. cbn [run_rounds snd rd_adds run_adds] in A |- *. rewrite F1. constructor; [reflexivity|exact A].
Qed.
