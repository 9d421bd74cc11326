(** A vertex that cannot be marshalled: what it does to later write-backs. *)
From Coq Require Import String.
From Verif Require Import Base F32 PQ Graph Search Insert InsertProofs InsertHist Persist PersistProofs
  Client ClientProofs ClientFacts ClientReq.

(* ------------------------------------------------------------------ *)
(** A write-back that meets such a vertex fails and leaves it as it is. *)

Definition bad_at (j : N) (h : hnsw) : Prop :=
  exists v, mget j (h_cache h) = Some v /\ v_committed v = false /\ json_ok v = false.

Lemma bad_node j h : bad_at j h -> exists v, node_by_id h j = Some v /\ v_committed v = false /\ json_ok v = false.
Proof. intros (v & H & Hv). exists v. unfold node_by_id. rewrite H. auto. Qed.

Lemma node_puts_bad h j keys : bad_at j h -> In j keys -> snd (node_puts h keys) = false.
Proof.
  intros Hb. destruct (bad_node j h Hb) as (v & Hv & Hc & Hj).
  induction keys as [|k keys IH]; intros Hin; [destruct Hin|]. cbn [node_puts].
  destruct (N.eq_dec k j) as [->|Hk]; [rewrite Hv, Hc, Hj; reflexivity|].
  destruct Hin as [E|Hin]; [contradiction|]. specialize (IH Hin).
  destruct (node_by_id h k) as [w|]; [|exact IH]. destruct (v_committed w); [exact IH|].
  destruct (json_ok w); [|reflexivity]. destruct (node_puts h keys). exact IH.
Qed.

Lemma node_puts_json h keys : pinv h -> forall w, In w (fst (node_puts h keys)) ->
  exists v, w = PutNode v /\ json_ok v = true /\ node_by_id h (v_id v) = Some v.
Proof.
  intros Hp. induction keys as [|k keys IH]; cbn [node_puts]; [intros w []|].
  destruct (node_by_id h k) as [v|] eqn:Ev; [|exact IH]. destruct (v_committed v); [exact IH|].
  destruct (json_ok v) eqn:Ej; [|intros w []]. destruct (node_puts h keys) as [ws ok]. cbn [fst] in *.
  intros w [<-|H]; [|now apply IH]. exists v. split; [reflexivity|]. split; [exact Ej|].
  now rewrite (pinv_id h k v Hp Ev).
Qed.

Lemma puts_keep j ws : (forall w, In w ws -> exists v, w = PutNode v /\ v_id v <> j) -> forall h,
  let h' := fold_left (fun h w => mark_put (do_put h w) w) ws h in
  mget j (h_cache h') = mget j (h_cache h) /\ h_kv_count h' = h_kv_count h.
Proof.
  induction ws as [|w ws IH]; intros H h; cbn [fold_left]; [auto|].
  destruct (H w (or_introl eq_refl)) as (v & -> & Hv).
  destruct (IH (fun w' Hw => H w' (or_intror Hw)) (mark_put (do_put h (PutNode v)) (PutNode v))) as [A B].
  cbv zeta in *. rewrite A, B. cbn [mark_put do_put with_kv h_cache].
  destruct (mget (v_id v) (h_cache h)); cbn [h_kv_count put_node with_kv]; [|auto].
  split; [|reflexivity]. rewrite mget_put. cbn [v_id set_committed]. destruct (N.eqb_spec j (v_id v)); [congruence|reflexivity].
Qed.

Lemma flush_bad h j keys cnt n : pinv h -> bad_at j h -> In j keys ->
  snd (flush h keys cnt n) <> Ok tt /\ bad_at j (fst (flush h keys cnt n)) /\
  h_kv_count (fst (flush h keys cnt n)) = h_kv_count h.
Proof.
  intros Hp Hb Hin. pose proof (node_puts_bad h j keys Hb Hin) as Hok. pose proof (node_puts_json h keys Hp) as Hj.
  destruct (bad_node j h Hb) as (v & Hv & Hc & Hjs).
  unfold flush, flush_plan. destruct (node_puts h keys) as [ws ok]. cbn [fst snd] in *. subst ok. cbn [fst snd].
  split; [destruct (Nat.ltb n (length ws)); discriminate|].
  destruct (puts_keep j (firstn n ws)) with (h := h) as [A B].
  { intros w Hw. apply In_firstn in Hw. destruct (Hj w Hw) as (x & -> & Hx & Hn). exists x. split; [reflexivity|].
    intros E. rewrite E, Hv in Hn. injection Hn as <-. congruence. }
  cbv zeta in *. split; [|exact B]. destruct Hb as (u & Hu & Hr). exists u. rewrite A. auto.
Qed.

Lemma add_bad I h id q0 t j : pinv h -> j <> id -> bad_at j h -> bad_at j (fst (add I h id q0 t)).
Proof.
  intros Hp Hj (v & Hv & Hc & Hjs). destruct (add_prel I h id q0 t (pinv_wfh h Hp)) as [[_ _ Hn Hk] _].
  destruct (Hk j v Hv) as (v' & Hv'). exists v'. split; [exact Hv'|].
  destruct (Hn j v' Hv') as [E|(C & _ & _ & [[X _]|(w & Hw & E)])]; [|contradiction|].
  - rewrite Hv in E. injection E as <-. auto.
  - split; [exact C|]. unfold node_by_id in Hw. rewrite Hv in Hw. injection Hw as <-.
    unfold json_ok in *. now rewrite E.
Qed.

(* ------------------------------------------------------------------ *)
(** Over requests. *)

Ltac five := split; [assumption|split; [assumption|split; [first [assumption|reflexivity|congruence]|split; [first [reflexivity|congruence]|lia]]]].

Definition stuck (j : N) (st : coll) : Prop := pinv (c_h st) /\ c_open st = true /\ bad_at j (c_h st).

Lemma add_indexed_stuck o st b d p v j : (b < j)%N -> pinv (c_h st) -> bad_at j (c_h st) ->
  match add_indexed o st b d p v with (st', b', _) =>
    pinv (c_h st') /\ bad_at j (c_h st') /\ h_kv_count (c_h st') = h_kv_count (c_h st) /\
    c_open st' = c_open st /\ (b <= b' <= N.succ b)%N end.
Proof.
  intros Hb Hp Hbad. unfold add_indexed. pose proof (add_bad (do_env o) (c_h st) b v (do_lvl o) j Hp ltac:(lia) Hbad) as H1.
  pose proof (add_pinv (do_env o) (c_h st) b v (do_lvl o) Hp) as H2.
  pose proof (proj2 (add_kv (do_env o) (c_h st) b v (do_lvl o) Hp)) as H3.
  destruct (add _ _ _ _ _) as [h' [u|e| |]]; cbn [fst] in *; try (cbn [with_h logged c_h c_open]; five).
  unfold store_doc. destruct (negb (do_marshal o)); [|destruct (do_docput o)];
    cbn [with_h logged c_h c_open]; five.
Qed.

Lemma add_doc_stuck lookup keys st b d o j : (b < j)%N -> pinv (c_h st) -> bad_at j (c_h st) ->
  match add_doc lookup keys st b d o with (st', b', _) =>
    pinv (c_h st') /\ bad_at j (c_h st') /\ h_kv_count (c_h st') = h_kv_count (c_h st) /\
    c_open st' = c_open st /\ (b <= b' <= N.succ b)%N end.
Proof.
  intros Hb Hp Hbad.
  assert (Hs : pinv (c_h st) /\ bad_at j (c_h st) /\ h_kv_count (c_h st) = h_kv_count (c_h st) /\
    c_open st = c_open st /\ (b <= b <= N.succ b)%N) by five.
  unfold add_doc. destruct d as [d|]; [|exact Hs]. cbv zeta. set (p := pset _ _ _).
  destruct (pget "vector" p) as [[| | | |l| |v]|]; try exact Hs;
    try (destruct (vector_of l); [now apply add_indexed_stuck|exact Hs]); try now apply add_indexed_stuck.
  all: destruct (vector_text p keys) as [text|e| |]; try exact Hs; destruct (String.eqb text "");
    [unfold store_doc; destruct (negb (do_marshal o)); [|destruct (do_docput o)]; exact Hs|];
    destruct (negb lookup); [exact Hs|]; destruct (do_corpi o text) as [[v|]|e| |]; try exact Hs; now apply add_indexed_stuck.
Qed.

Lemma add_loop_stuck lookup keys j docs : forall st b, (b + N.of_nat (length docs) <= j)%N ->
  pinv (c_h st) -> bad_at j (c_h st) ->
  match add_loop lookup keys st b docs with (st', _, _) =>
    pinv (c_h st') /\ bad_at j (c_h st') /\ h_kv_count (c_h st') = h_kv_count (c_h st) /\ c_open st' = c_open st end.
Proof.
  induction docs as [|[d o] docs IH]; intros st b Hb Hp Hbad; cbn [add_loop]; [auto|]. cbn [length] in Hb.
  pose proof (add_doc_stuck lookup keys st b d o j ltac:(lia) Hp Hbad) as H.
  destruct (add_doc lookup keys st b d o) as [[s1 b1] [u|e| |]]; destruct H as (A & B & C & D & E); auto.
  pose proof (IH s1 b1 ltac:(lia) A B) as H. destruct (add_loop lookup keys s1 b1 docs) as [[s2 b2] r].
  destruct H as (A2 & B2 & C2 & D2). split; [exact A2|]. split; [exact B2|]. split; congruence.
Qed.

Lemma add_documents_stuck R lookup keys docs st j : rorc_ok R -> stuck j st ->
  (first_id (c_h st) + N.of_nat (length docs) <= j)%N ->
  snd (add_documents R lookup keys docs st) <> Ok tt /\
  stuck j (fst (add_documents R lookup keys docs st)) /\
  first_id (c_h (fst (add_documents R lookup keys docs st))) = first_id (c_h st).
Proof.
  intros HR (Hp & Ho & Hbad) Hl. unfold add_documents, open_coll.
  assert (Hst : stuck j st) by (split; auto).
  destruct (negb (r_kvopen R)); [split; [discriminate|auto]|]. destruct (negb (r_isopen R)); [split; [discriminate|auto]|].
  rewrite Ho. destruct (negb (c_reg st)); [split; [discriminate|auto]|].
  pose proof (add_loop_stuck lookup keys j docs st (first_id (c_h st)) Hl Hp Hbad) as H.
  destruct (add_loop lookup keys st (first_id (c_h st)) docs) as [[s2 b] r]. destruct H as (A & B & C & D).
  assert (Hs2 : stuck j s2) by (split; [exact A|split; [congruence|exact B]]).
  destruct r as [u|e| |]; try (split; [discriminate|split; [exact Hs2|now apply first_id_count]]).
  unfold finish_add. destruct B as (v & Hv & Hr).
  assert (Hin : In j (r_keys R (c_h s2))).
  { apply (HR (c_h s2) j v Hv). }
  assert (Hbad2 : bad_at j (c_h s2)) by (exists v; auto).
  destruct (flush_bad (c_h s2) j (r_keys R (c_h s2)) b (r_puts R) A Hbad2 Hin) as (F1 & F2 & F3).
  pose proof (proj1 (flush_any (c_h s2) (r_keys R (c_h s2)) b (r_puts R) A)) as Fp. cbv zeta in Fp.
  destruct (flush _ _ _ _) as [h' [[]|e| |]]; cbn [fst snd] in *; [congruence|..].
  all: split; [discriminate|]; split; [split; [exact Fp|split; [cbn; congruence|exact F2]]|];
    cbn [with_h c_h fst]; apply first_id_count; congruence.
Qed.

(** Requests that keep the process and the index. *)
Definition keeping (st : coll) (j : N) (q : creq) : Prop :=
  match q with
  | QAdd R _ _ docs => rorc_ok R /\ (first_id (c_h st) + N.of_nat (length docs) <= j)%N
  | QCreate | QRestart => False
  | _ => True
  end.

Lemma load_stuck j st : stuck j st -> stuck j (with_h st (load_ep (c_h st))).
Proof. intros (A & B & C). split; [now apply load_ep_pinv|split; [exact B|exact C]]. Qed.

Lemma step_stuck j st q : stuck j st -> keeping st j q ->
  stuck j (req_step st q) /\ first_id (c_h (req_step st q)) = first_id (c_h st).
Proof.
  intros Hs Hk. pose proof Hs as (Hp & Ho & Hb). destruct q as [R lk ks docs|Q v d l|Q lk c d l|R ok id| |]; cbn [req_step keeping] in *.
  - destruct Hk as [HR Hl]. destruct (add_documents_stuck R lk ks docs st j HR Hs Hl) as (_ & A & B). auto.
  - unfold near_by_vector, open_coll. destruct (negb (r_kvopen (q_open Q))); [auto|].
    destruct (negb (r_isopen (q_open Q))); [auto|]. rewrite Ho. unfold near_docs.
    destruct (negb (c_reg st)); [auto|]. split; [now apply load_stuck|reflexivity].
  - unfold near_by_text, open_coll. destruct (negb (r_kvopen (q_open Q))); [auto|].
    destruct (negb (r_isopen (q_open Q))); [auto|]. rewrite Ho. destruct (negb lk); [auto|].
    destruct c as [[v|]|e| |]; auto.
    + unfold near_docs. destruct (negb (c_reg st)); [auto|]. split; [now apply load_stuck|reflexivity].
    + cbn [fst]. destruct (c_reg st); [|auto]. split; [now apply load_stuck|reflexivity].
  - rewrite (get_open R ok id st Ho). auto.
  - destruct Hk.
  - destruct Hk.
Qed.

Lemma run_stuck j qs : forall st, stuck j st -> Forall (keeping st j) qs ->
  stuck j (run_reqs st qs) /\ first_id (c_h (run_reqs st qs)) = first_id (c_h st).
Proof.
  induction qs as [|q qs IH]; intros st Hs Hk; cbn [run_reqs]; [auto|]. inversion Hk as [|? ? K1 K2]; subst.
  destruct (step_stuck j st q Hs K1) as [A B]. destruct (IH (req_step st q) A) as [C D].
  - eapply Forall_impl; [|exact K2]. intros x Hx. unfold keeping in *. destruct x; auto. rewrite B. exact Hx.
  - split; [exact C|congruence].
Qed.

(* ------------------------------------------------------------------ *)
(** Without such a vertex the write-back never fails to marshal. *)

Definition all_json (h : hnsw) : Prop :=
  (forall j v, node_by_id h j = Some v -> json_ok v = true) /\
  (forall j v, mget j (h_kv h) = Some v -> json_ok v = true).

Lemma flush_json h keys cnt n : pinv h -> all_json h ->
  snd (flush h keys cnt n) <> Err EMarshal /\ all_json (fst (flush h keys cnt n)).
Proof.
  intros Hp [Ha Hk]. destruct (node_puts_spec h keys Hp) as (_ & _ & _ & _ & _ & _ & H6).
  destruct (flush_any h keys cnt n Hp) as (_ & Hv & Hkv & _). cbv zeta in *. split.
  - unfold flush, flush_plan. destruct (node_puts h keys) as [ws ok]. cbn [snd] in *.
    destruct ok; cbn [snd fst].
    + destruct (Nat.ltb n _); discriminate.
    + exfalso. destruct (H6 eq_refl) as (k & v & _ & Hn & Hj). rewrite (Ha k v Hn) in Hj. discriminate.
  - assert (Hpv : forall j v, pview h j = Some v -> json_ok v = true).
    { intros j v. unfold pview. destruct (node_by_id h j) as [w|] eqn:Ew; [|discriminate]. cbn [option_map].
      intros [= <-]. exact (Ha j w Ew). }
    split.
    + intros j v Hj. specialize (Hv j). unfold pview in Hv at 1. rewrite Hj in Hv. cbn [option_map] in Hv.
      exact (Hpv j (stored v) (eq_sym Hv)).
    + intros j v Hj. destruct (Hkv j) as [E|E]; rewrite E in Hj; [exact (Hk j v Hj)|exact (Hpv j v Hj)].
Qed.

Section Fine.
  Variable fine : vec -> Prop.          (* of a vector as it is given *)
  Variable P : provider.
  Hypothesis Hfine : forall v, fine v -> forallb is_finite_b (p_normalize P v) = true.

  (** All vectors of one document that could be indexed. *)
  Definition doc_vecs_ok (p : option docin * dorc) : Prop :=
    e_prov (i_env (do_env (snd p))) = P /\
    (forall t v, do_corpi (snd p) t = Ok (Some v) -> fine v) /\
    (forall d, fst p = Some d ->
       (forall l v, pget "vector" (di_props d) = Some (JArr l) -> vector_of l = Some v -> fine v) /\
       (forall v, pget "vector" (di_props d) = Some (JVec v) -> fine v)).
  Definition req_vecs_ok (q : creq) : Prop :=
    match q with QAdd _ _ _ docs => Forall doc_vecs_ok docs | _ => True end.

  Definition good (st : coll) : Prop := pinv (c_h st) /\ all_json (c_h st).

  Lemma add_json I h id q0 t : e_prov (i_env I) = P -> pinv h -> fine q0 -> all_json h -> all_json (fst (add I h id q0 t)).
  Proof.
    intros HP Hp Hq [Ha Hk]. pose proof (proj1 (add_prel I h id q0 t (pinv_wfh h Hp))) as Hr.
    rewrite HP in Hr. split; [|intros j v; rewrite (proj1 (pr_kv _ _ _ _ Hr)); apply Hk]. intros j v Hj.
    destruct (prel_back _ _ _ _ _ _ Hr Hj) as [[_ E]|(w & Hw & E)]; unfold json_ok; rewrite E.
    - now apply Hfine.
    - exact (Ha j w Hw).
  Qed.

  Lemma add_indexed_good o st b d p v : e_prov (i_env (do_env o)) = P -> fine v -> good st ->
    match add_indexed o st b d p v with (st', _, _) => good st' end.
  Proof.
    intros HP Hv [Hp Ha]. unfold add_indexed. pose proof (add_json (do_env o) (c_h st) b v (do_lvl o) HP Hp Hv Ha) as H1.
    pose proof (add_pinv (do_env o) (c_h st) b v (do_lvl o) Hp) as H2.
    destruct (add _ _ _ _ _) as [h' [u|e| |]]; cbn [fst] in *; try (split; assumption).
    unfold store_doc. destruct (negb (do_marshal o)); [|destruct (do_docput o)]; split; assumption.
  Qed.
  Lemma add_doc_good lookup keys st b d o : doc_vecs_ok (d, o) -> good st ->
    match add_doc lookup keys st b d o with (st', _, r) => good st' /\ r <> Err EMarshal end.
  Proof.
    intros (HP & Hc & Hd) Hs. cbn [fst snd] in *. unfold add_doc. destruct d as [d|]; [|split; [exact Hs|discriminate]].
    destruct (Hd d eq_refl) as [Hd1 Hd2].
    cbv zeta. set (p := pset _ _ _).
    assert (Ev : pget "vector" p = pget "vector" (di_props d)) by (unfold p; rewrite pget_pset; reflexivity).
    assert (Hix : forall p0 v, fine v -> match add_indexed o st b d p0 v with (st', _, r) => good st' /\ r <> Err EMarshal end).
    { intros p0 v Hv. pose proof (add_indexed_good o st b d p0 v HP Hv Hs) as H.
      assert (Hr : snd (add_indexed o st b d p0 v) <> Err EMarshal).
      { unfold add_indexed. destruct (add _ _ _ _ _) as [h' [u|e| |]]; try discriminate.
        unfold store_doc. destruct (negb (do_marshal o)); [|destruct (do_docput o)]; discriminate. }
      destruct (add_indexed o st b d p0 v) as [[s1 b1] r]. auto. }
    assert (Hvt : vector_text p keys <> Err EMarshal).
    { induction keys as [|k ks IH]; cbn [vector_text]; [discriminate|].
      destruct (pget k p) as [[| | | s | | |]|]; try discriminate; [|exact IH].
      destruct (vector_text p ks); cbn [bind]; try discriminate. congruence. }
    rewrite Ev in *. destruct (pget "vector" (di_props d)) as [[| | | |l| |v]|] eqn:E; try (split; [exact Hs|discriminate]).
    2: destruct (vector_of l) as [v|] eqn:El; [|split; [exact Hs|discriminate]].
    2: now apply Hix, (Hd1 l).
    2: now apply Hix, Hd2.
    all: destruct (vector_text p keys) as [text|e| |]; try (split; [exact Hs|congruence]);
      destruct (String.eqb text "");
      [unfold store_doc; destruct (negb (do_marshal o)); [|destruct (do_docput o)]; (split; [exact Hs|discriminate])|];
      destruct (negb lookup); [split; [exact Hs|discriminate]|];
      destruct (do_corpi o text) as [[v|]|e| |] eqn:Ec; try (split; [exact Hs|discriminate]);
      apply Hix; eapply Hc; eauto.
  Qed.
  Lemma add_loop_good lookup keys docs : Forall doc_vecs_ok docs -> forall st b, good st ->
    match add_loop lookup keys st b docs with (st', _, r) => good st' /\ r <> Err EMarshal end.
  Proof.
    induction 1 as [|[d o] docs Ho _ IH]; intros st b Hs; cbn [add_loop]; [split; [exact Hs|discriminate]|].
    pose proof (add_doc_good lookup keys st b d o Ho Hs) as H.
    destruct (add_doc lookup keys st b d o) as [[s1 b1] [u|e| |]]; try exact H. apply IH, H.
  Qed.
  Lemma restart_json h : all_json h -> all_json (restart h).
  Proof. intros [Ha Hk]. split; exact Hk. Qed.
  Lemma open_good R st : good st -> good (fst (open_coll R st)) /\ snd (open_coll R st) <> Err EMarshal.
  Proof.
    intros [Hp Ha]. unfold open_coll. destruct (negb (r_kvopen R)); [split; [split; assumption|discriminate]|].
    destruct (negb (r_isopen R)); [split; [split; assumption|discriminate]|].
    destruct (c_open st); [split; [split; assumption|discriminate]|].
    destruct (r_docopen R); (split; [split; [now apply restart_pinv|now apply restart_json]|discriminate]).
  Qed.
  Lemma load_good st : good st -> good (with_h st (load_ep (c_h st))).
  Proof. intros [Hp Ha]. split; [now apply load_ep_pinv|exact Ha]. Qed.
  Lemma add_documents_good R lookup keys docs st : Forall doc_vecs_ok docs -> good st ->
    good (fst (add_documents R lookup keys docs st)) /\ snd (add_documents R lookup keys docs st) <> Err EMarshal.
  Proof.
    intros Hd Hs. unfold add_documents. destruct (open_good R st Hs) as [Ho Hn].
    destruct (open_coll R st) as [st1 [[]|e| |]]; cbn [fst snd] in *; try (split; [exact Ho|congruence]).
    destruct (negb (c_reg st1)); [split; [exact Ho|discriminate]|].
    pose proof (add_loop_good lookup keys docs Hd st1 (first_id (c_h st1)) Ho) as Hl.
    destruct (add_loop lookup keys st1 (first_id (c_h st1)) docs) as [[st2 b] [[]|e| |]]; cbn [fst snd] in *; try exact Hl.
    destruct Hl as [[Hp2 Ha2] _]. unfold finish_add.
    destruct (flush_json (c_h st2) (r_keys R (c_h st2)) b (r_puts R) Hp2 Ha2) as [F1 F2].
    pose proof (proj1 (flush_any (c_h st2) (r_keys R (c_h st2)) b (r_puts R) Hp2)) as Fp. cbv zeta in Fp.
    destruct (flush _ _ _ _) as [h' [[]|e| |]]; cbn [fst snd] in *.
    - split; [split; assumption|]. destruct (r_commit R); discriminate.
    - split; [split; assumption|congruence].
    - split; [split; assumption|discriminate].
    - split; [split; assumption|discriminate].
  Qed.
  Lemma step_good st q : req_vecs_ok q -> good st -> good (req_step st q).
  Proof.
    intros Hq Hs. destruct q as [R lk ks docs|Q v d l|Q lk c d l|R ok id| |]; cbn [req_step req_vecs_ok] in *.
    - now apply add_documents_good.
    - unfold near_by_vector. destruct (open_good (q_open Q) st Hs) as [Ho _].
      destruct (open_coll (q_open Q) st) as [st1 [[]|e| |]]; cbn [fst] in *; auto.
      unfold near_docs. destruct (negb (c_reg st1)); [exact Ho|now apply load_good].
    - unfold near_by_text. destruct (open_good (q_open Q) st Hs) as [Ho _].
      destruct (open_coll (q_open Q) st) as [st1 [[]|e| |]]; cbn [fst] in *; auto.
      destruct (negb lk); [exact Ho|]. destruct c as [[w|]|e| |]; auto.
      + unfold near_docs. destruct (negb (c_reg st1)); [exact Ho|now apply load_good].
      + cbn [fst]. destruct (c_reg st1); [now apply load_good|exact Ho].
    - unfold get_document. destruct (negb (r_isopen R)); [exact Hs|].
      destruct (negb (c_open st) && negb (r_docopen R)); [exact Hs|].
      destruct (negb ok); [exact Hs|]. destruct (find _ _); exact Hs.
    - destruct Hs as [Hp Ha]. split; [now apply restart_pinv|now apply restart_json].
    - destruct Hs as [Hp Ha]. split; [now apply restart_pinv|now apply restart_json].
  Qed.
  Lemma run_good qs : Forall req_vecs_ok qs -> forall st, good st -> good (run_reqs st qs).
  Proof. induction 1 as [|q qs Hq _ IH]; intros st Hs; cbn [run_reqs]; [exact Hs|]. apply IH. now apply step_good. Qed.
  Lemma new_good : good new_coll.
  Proof. split; [apply pinv_empty|]. split; intros j v [=]. Qed.

  Lemma never_unmarshallable qs R lookup keys docs : Forall req_vecs_ok qs -> Forall doc_vecs_ok docs ->
    snd (add_documents R lookup keys docs (run_reqs new_coll qs)) <> Err EMarshal.
  Proof. intros Hq Hd. apply add_documents_good; [exact Hd|]. apply run_good; [exact Hq|apply new_good]. Qed.
End Fine.
