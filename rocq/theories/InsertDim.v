(** Histories of insertions in which rejected vectors may be followed by other
    vectors under the same id, as the client does (document.go:400-411). *)
From Verif Require Import Base F32 PQ PQProofs Graph Search SearchProofs SearchLayer SearchKnn
  SearchCong Insert HeuristicProofs InsertProofs InsertHist InsertTotal.

(** What all providers of the code base satisfy. normalize.go:16-32. *)
Definition prov_len (P : provider) : Prop := forall v, length (p_normalize P v) = length v.

Section Lin.
  Variable I : ienv.
  Local Notation E := (i_env I).
  Local Notation P := (e_prov (i_env I)).
  Hypothesis Hsc : sched_ok E.
  Hypothesis Hsym : prov_sym P.
  Variable n : nat.
  Variable D : list N.

  Lemma do_at_level_lin h nid q l ep vep :
    linking I nid l h -> unlinked_upto l nid h -> ep <> nid ->
    node_by_id h ep = Some vep -> l <= v_level vep ->
    lin D h -> ldim n D h -> In nid D -> In ep D ->
    let r := do_at_level I h nid q l ep in
    lin D (fst r) /\ ldim n D (fst r) /\ (forall ep', snd r = Ok ep' -> In ep' D).
  Proof.
    intros Hlk Hu Hne Hep Hl HL HD Hnid HepD.
    pose proof (do_at_level_inv I Hsc Hsym h nid q l ep vep Hlk Hu Hne Hep Hl) as (_ & R & NW & _).
    split; [|split].
    - eapply lin_newl; eauto. intros c [->|Hr]; [exact Hnid|eapply reach_D; eauto].
    - eapply ldim_lrel; eauto.
    - destruct Hlk as [W S _]. unfold do_at_level.
      destruct (choose_neighbours I h nid q l ep) as [[ep1 nbs]|e| |] eqn:Ec; try discriminate.
      destruct (choose_sound I Hsc Hsym _ _ _ _ _ _ _ _ W S Hu Hne Hep Hl Ec) as (-> & _ & _ & Hre).
      destruct (node_by_id h nid) as [v|]; [|discriminate].
      destruct (set_conns_at v l nbs) as [v'|e| |]; try discriminate.
      destruct (connect_all I _ nid l nbs) as [h' [[]|e| |]]; cbn [snd]; try discriminate.
      intros ep' [= <-]. apply next_ep_D; auto. intros c Hc. exact (reach_D D h l ep c HL HepD (Hre c Hc)).
  Qed.

  Lemma connect_levels_lin nid q l : forall h ep vep,
    linking I nid l h -> unlinked_upto l nid h -> ep <> nid ->
    node_by_id h ep = Some vep -> l <= v_level vep ->
    lin D h -> ldim n D h -> In nid D -> In ep D ->
    let r := connect_levels I h nid q l ep in
    lin D (fst r) /\ ldim n D (fst r).
  Proof.
    induction l as [|l IH]; intros h ep vep Hlk Hu Hne Hep Hl HL HD Hnid HepD; cbn [connect_levels].
    - pose proof (do_at_level_lin h nid q 0 ep vep Hlk Hu Hne Hep Hl HL HD Hnid HepD) as (HL' & HD' & _).
      destruct (do_at_level I h nid q 0 ep) as [h' [x|e| |]]; cbn [fst snd] in *; auto.
    - pose proof (do_at_level_lin h nid q (S l) ep vep Hlk Hu Hne Hep Hl HL HD Hnid HepD) as (HL' & HD' & Hd).
      pose proof (do_at_level_inv I Hsc Hsym h nid q (S l) ep vep Hlk Hu Hne Hep Hl) as ([W1 S1 N1] & R1 & _ & Hok).
      destruct (do_at_level I h nid q (S l) ep) as [h' [x|e| |]]; cbn [fst snd] in *; auto.
      destruct (Hok x eq_refl) as (Hne' & v' & Hv' & Hl').
      apply (IH h' x v'); auto; try lia.
      + constructor; auto. destruct N1 as (v & Hv & Hlv). exists v. split; [auto|lia].
      + eapply unlinked_lrel; eauto. intros id v l2 cs Hv Hl2. eapply Hu; eauto.
  Qed.

  Lemma insert_linked_lin h id q t :
    winv h -> ids_small E h -> ep_top h -> unlinked id h -> h_ep h <> id -> (id < e_vcap E)%N ->
    (id < i_vcsize I)%N -> lin D h ->
    (forall j v, In j D -> j <> id -> node_by_id h j = Some v -> length (v_vec v) = n) ->
    length q = n -> In id D -> In (h_ep h) D ->
    let r := insert_linked I h id q t in
    lin D (fst r) /\ ldim n D (fst r).
  Proof.
    intros W S (vep & Hep & Hmax) Hu Hne Hsm Hvc HL HD Hq Hid HepD. unfold insert_linked.
    apply N.ltb_lt in Hvc. rewrite Hvc. cbn [negb].
    set (h1 := put_node h (new_vertex id q t)).
    assert (W1 : winv h1) by now apply winv_put_new.
    assert (S1 : ids_small E h1) by now apply ids_small_put.
    assert (U1 : unlinked id h1) by now apply unlinked_put_new.
    assert (Hep1 : node_by_id h1 (h_ep h) = Some vep).
    { unfold h1. rewrite node_put_ne; auto. }
    assert (Hn1 : node_by_id h1 id = Some (new_vertex id q t)) by (apply (node_put_eq h (new_vertex id q t))).
    assert (HL1 : lin D h1).
    { intros j v l cs c. unfold h1. rewrite node_put. cbn [v_id new_vertex].
      destruct (N.eqb_spec j id) as [->|Hj]; [|apply HL].
      intros [= <-]. unfold new_vertex; cbn [v_conns]; intros Hx Hc. apply nth_error_In, repeat_spec in Hx.
      subst cs. destruct Hc. }
    assert (HD1 : ldim n D h1).
    { intros j v Hj. unfold h1. rewrite node_put. cbn [v_id new_vertex].
      destruct (N.eqb_spec j id) as [->|Hj2]; [|now apply HD]. intros [= <-]. exact Hq. }
    destruct (best_entrypoint I h1 q t (h_maxl h - t) (h_ep h)) as [ep|e| |] eqn:Eb; auto.
    assert (Hbest : exists v', node_by_id h1 ep = Some v' /\ Nat.min t (h_maxl h) <= v_level v' /\ ep <> id /\ In ep D).
    { destruct (Nat.leb_spec (h_maxl h) t) as [Hle|Hgt].
      - replace (h_maxl h - t) with 0 in Eb by lia. cbn in Eb. inversion Eb; subst.
        exists vep. repeat split; auto. lia.
      - destruct (best_entrypoint_sound I Hsc Hsym h1 q t (h_maxl h - t) (h_ep h) vep ep W1 S1 Hep1 ltac:(lia) Eb)
          as (v' & H1 & H2 & H3 & H4). exists v'. split; [exact H1|]. split; [lia|].
        destruct H4 as [->|(l & j & v & cs & _ & Hj & Hx & Hin)]; [auto|].
        split; [intros ->; eapply U1; eauto|eapply HL1; eauto]. }
    destruct Hbest as (vb & Hvb & Hlb & Hneb & HepD').
    assert (Hlk : linking I id (Nat.min t (h_maxl h)) h1).
    { constructor; auto. exists (new_vertex id q t). split; [exact Hn1|]. cbn. lia. }
    assert (Huu : unlinked_upto (Nat.min t (h_maxl h)) id h1) by (intros j v l cs Hv _; now apply (U1 j)).
    pose proof (connect_levels_lin id q (Nat.min t (h_maxl h)) h1 ep vb Hlk Huu Hneb Hvb Hlb HL1 HD1 Hid HepD')
      as (L2 & D2).
    pose proof (connect_levels_inv I Hsc Hsym id q (Nat.min t (h_maxl h)) h1 ep vb Hlk Huu Hneb Hvb Hlb) as (W2 & S2 & G2).
    destruct (connect_levels I h1 id q (Nat.min t (h_maxl h)) ep) as [h2 [[]|e| |]]; cbn [fst snd] in *; auto.
    destruct (gr_fw _ _ G2 _ _ Hn1) as (vn & Hvn & Ln & Vn & Mn).
    pose proof (w_id _ W2 _ _ Hvn) as Hidn.
    unfold finish_insert. rewrite Hvn. set (h3 := put_node h2 (set_maint vn false)).
    assert (H3 : lin D h3 /\ ldim n D h3).
    { split.
      - intros j v l cs c. unfold h3. rewrite node_put. cbn [v_id set_maint]. rewrite Hidn.
        destruct (N.eqb_spec j id) as [->|Hj]; [|apply L2].
        intros [= <-]. cbn. eapply L2; eauto.
      - intros j v Hj. unfold h3. rewrite node_put. cbn [v_id set_maint]. rewrite Hidn.
        destruct (N.eqb_spec j id) as [->|Hj2]; [|now apply D2].
        intros [= <-]. cbn. eapply D2; eauto. }
    destruct (Nat.ltb (h_maxl h3) t); exact H3.
  Qed.
End Lin.

(* ------------------------------------------------------------------ *)
(** The collection's dimension: that of the first non-empty vector.
    Not in the code: used in statements about sequences of Add (insert.go:57-79). *)
Fixpoint dimension (ops : list aop) : nat :=
  match ops with
  | [] => 0
  | o :: ops' => match a_vec o with [] => dimension ops' | v => length v end
  end.

(** No later insertion uses the id of an earlier vector of the collection's
    dimension [n].  (Rejected vectors do not use up their id.).
    Not in the code: used in statements about sequences of Add (insert.go:57-79). *)
Definition reuse_ok (n : nat) (ops : list aop) : Prop :=
  ForallOrdPairs (fun o o' => length (a_vec o) = n -> a_id o <> a_id o') ops.

(** Requirements on one call: [op_ok] and the provider's errors are exactly the
    length mismatches.
    Not in the code: used in statements about sequences of Add (insert.go:57-79). *)
Definition dop_ok (cap : N) (o : aop) : Prop :=
  op_ok cap o /\ prov_dim (e_prov (i_env (a_env o))) /\ prov_len (e_prov (i_env (a_env o))).

(** State after some insertions; [D] are the ids of vectors of dimension [n]
    that reached the index.
    Not in the code: used in statements about sequences of Add (insert.go:57-79). *)
Record dstate (n : nat) (cap : N) (D : list N) (succ : list aop) (h : hnsw) : Prop := {
  d_w : winv h;
  d_small : ids_below cap h;
  d_nd : NoDup D;
  d_lin : lin D h;
  d_dim : ldim n D h;
  d_epD : In (h_ep h) D;
  d_ep : exists v, node_by_id h (h_ep h) = Some v /\ v_level v = h_maxl h;
  d_succ : forall o, In o succ -> length (a_vec o) = n /\ In (a_id o) D /\
    exists v, node_by_id h (a_id o) = Some v /\ v_level v <= h_maxl h /\
      v_vec v = p_normalize (e_prov (i_env (a_env o))) (a_vec o) /\ v_maint v = false;
  d_once : h_once h = true;
  d_tomb : h_tomb h = [];
  d_kv : h_kv h = [] /\ h_kv_ep h = None /\ h_kv_count h = None
}.

Lemma unlinked_lin D h id : lin D h -> ~ In id D -> unlinked id h.
Proof. intros HL Hn j v l cs Hj Hl Hin. apply Hn. eapply HL; eauto. Qed.

(** The vector source answers for all ids of [D] with vectors of dimension [n],
    or [D] is small.
    Not in the code: used in statements about sequences of Add (insert.go:57-79). *)
Definition src_ok (n : nat) (D : list N) (I : ienv) : Prop :=
  (forall l ow id, In id D -> exists w, i_vs I l ow id = Ok w /\ length w = n) \/
  length D <= i_M I.

(** A right-sized vector under a new id. *)
Lemma add_right n cap D succ h o :
  dstate n cap D succ h -> dop_ok cap o -> 0 < n -> length (a_vec o) = n -> ~ In (a_id o) D ->
  let r := add (a_env o) h (a_id o) (a_vec o) (a_lvl o) in
  exists D', incl D D' /\ incl D' (a_id o :: D) /\
  dstate n cap D' (match snd r with Ok _ => succ ++ [o] | _ => succ end) (fst r) /\
  ((a_id o < i_vcsize (a_env o))%N -> src_ok n (a_id o :: D) (a_env o) -> snd r = Ok tt).
Proof.
  intros Hst ((Hsc & Hsym & Hcap & Hid) & Hdim & Hlen) Hn Hv Hni.
  pose proof Hst as [W S Nd L Dm EpD (vep & Hep & Hml) Su O T K].
  unfold add. destruct (a_vec o) as [|x q0] eqn:Eq; [cbn in Hv; lia|].
  unfold insert. rewrite O. cbn [negb andb].
  set (q := p_normalize _ _). set (id := a_id o) in *.
  assert (Hq : length q = n) by (unfold q; now rewrite Hlen).
  assert (Hst' : dstate n cap D succ (with_once h)).
  { constructor; auto. apply (winv_ext h); [reflexivity|exact W]. exists vep. auto. }
  destruct (N.ltb_spec id (i_vcsize (a_env o))) as [Hvc|Hvc].
  2:{ exists D. split; [apply incl_refl|]. split; [apply incl_tl, incl_refl|].
      unfold insert_linked. apply N.ltb_ge in Hvc. rewrite Hvc. cbn [negb fst snd].
      split; [exact Hst'|]. intros Hc. apply N.ltb_ge in Hvc. lia. }
  exists (id :: D). split; [apply incl_tl, incl_refl|]. split; [apply incl_refl|].
  assert (S' : ids_small (i_env (a_env o)) (with_once h)).
  { unfold ids_small. rewrite Hcap. exact S. }
  assert (W' : winv (with_once h)) by (apply (winv_ext h); [reflexivity|exact W]).
  assert (Ep' : ep_top (with_once h)) by (exists vep; cbn; split; [exact Hep|lia]).
  assert (Hu : unlinked id (with_once h)).
  { intros j v l cs Hj Hl Hin. apply Hni. eapply L; eauto. }
  assert (Hne : h_ep (with_once h) <> id) by (intros E; apply Hni; rewrite <- E; exact EpD).
  assert (L' : lin (id :: D) (with_once h)).
  { intros j v l cs c Hj Hl Hin. right. eapply L; eauto. }
  assert (Dm' : forall j v, In j (id :: D) -> j <> id -> node_by_id (with_once h) j = Some v -> length (v_vec v) = n).
  { intros j v [<-|Hj] Hjn Hjv; [congruence|]. eapply Dm; eauto. }
  assert (Hidc : (id < e_vcap (i_env (a_env o)))%N) by now rewrite Hcap.
  pose proof (insert_linked_inv (a_env o) Hsc Hsym (with_once h) id q (a_lvl o)
                W' S' Ep' Hu Hne Hidc) as (W2 & S2 & Ep2 & A2 & O2 & M2 & Ok2 & Er2).
  pose proof (insert_linked_lin (a_env o) Hsc Hsym n (id :: D) (with_once h) id q (a_lvl o)
                W' S' Ep' Hu Hne Hidc Hvc L' Dm' Hq (or_introl eq_refl) (or_intror EpD)) as (L2 & D2).
  split.
  - set (r := insert_linked _ _ _ _ _) in *. cbn [h_ep with_once h_maxl] in Er2, M2, Hne.
    assert (HS0 : dstate n cap (id :: D) succ (fst r)).
    { constructor; auto.
      - unfold ids_below. rewrite <- Hcap. exact S2.
      - constructor; auto.
      - destruct Er2 as [[-> _]|(_ & -> & _)]; [right; exact EpD|now left].
      - destruct Er2 as [[E1 E2]|(E0 & E1 & E2)].
        + destruct (ar_fw _ _ _ A2 _ _ Hne Hep) as (v' & Hv' & L3 & _). exists v'.
          rewrite E1, E2. split; [exact Hv'|congruence].
        + destruct (Ok2 E0) as (v & Hv2 & Lv & _). exists v. rewrite E1, E2. auto.
      - intros o' Ho'. destruct (Su o' Ho') as (Hl' & HiD & v & Hv' & Lv & Vv & Mv).
        assert (Hno : a_id o' <> id) by (intros E; apply Hni; rewrite <- E; exact HiD).
        destruct (ar_fw _ _ _ A2 (a_id o') v Hno Hv') as (v' & Hv2 & L3 & V' & M').
        split; [exact Hl'|]. split; [now right|].
        exists v'. repeat split; try congruence. lia.
      - rewrite (ar_tomb _ _ _ A2). exact T.
      - destruct (ar_kv _ _ _ A2) as (K1 & K2 & K3). rewrite K1, K2, K3. exact K. }
    destruct (snd r) as [[]|e| |] eqn:Er; try exact HS0.
    destruct HS0. constructor; auto.
    intros o' Ho'. apply in_app_or in Ho'. destruct Ho' as [Ho'|[<-|[]]]; [auto|].
    destruct (Ok2 eq_refl) as (v & Hv2 & Lv & Vv & Mv & Lm).
    split; [rewrite Eq; exact Hv|]. split; [now left|]. exists v.
    rewrite Eq. repeat split; auto. lia.
  - intros _ Hsrc.
    apply (insert_linked_total (a_env o) Hsc Hsym Hdim n Hn (id :: D) Hsrc (with_once h) id q (a_lvl o)
             W' S' Ep' Hu Hne Hidc Hvc L' Dm' Hq (or_introl eq_refl) (or_intror EpD)).
Qed.

(** A vector of another dimension under an id that no vector of the right
    dimension has. *)
Lemma add_wrong n cap D succ h o :
  dstate n cap D succ h -> dop_ok cap o -> length (a_vec o) <> n -> ~ In (a_id o) D ->
  let r := add (a_env o) h (a_id o) (a_vec o) (a_lvl o) in
  dstate n cap D succ (fst r) /\ (forall u, snd r <> Ok u) /\
  ((a_id o < i_vcsize (a_env o))%N -> exists e, snd r = Err e) /\
  (forall j, j <> a_id o -> node_by_id (fst r) j = node_by_id h j) /\
  h_ep (fst r) = h_ep h /\ h_maxl (fst r) = h_maxl h.
Proof.
  intros Hst ((Hsc & Hsym & Hcap & Hid) & Hdim & Hlen) Hv Hni.
  pose proof Hst as [W S Nd L Dm EpD (vep & Hep & Hml) Su O T K].
  unfold add. destruct (a_vec o) as [|x q0] eqn:Eq.
  { cbn [fst snd]. split; [exact Hst|]. split; [discriminate|]. split; [eauto|]. auto. }
  unfold insert. rewrite O. cbn [negb andb].
  set (q := p_normalize _ _). set (id := a_id o) in *.
  assert (Hq : length q <> length (v_vec vep)).
  { unfold q. rewrite Hlen. rewrite (Dm _ _ EpD Hep). exact Hv. }
  assert (W' : winv (with_once h)) by (apply (winv_ext h); [reflexivity|exact W]).
  assert (Hst' : dstate n cap D succ (with_once h)).
  { constructor; auto. exists vep. auto. }
  destruct (N.ltb_spec id (i_vcsize (a_env o))) as [Hvc|Hvc].
  2:{ unfold insert_linked. apply N.ltb_ge in Hvc. rewrite Hvc. cbn [negb fst snd].
      split; [exact Hst'|]. split; [discriminate|]. split; [|auto].
      intros Hc. apply N.ltb_ge in Hvc. lia. }
  assert (Hne : h_ep (with_once h) <> id) by (intros E; apply Hni; rewrite <- E; exact EpD).
  destruct (insert_linked_mismatch (a_env o) (with_once h) id q (a_lvl o) vep Hdim Hep Hne Hq Hvc) as (e & ->).
  cbn [fst snd]. split; [|split; [discriminate|split; [eauto|split; [|auto]]]].
  - constructor; auto.
    + apply winv_put_new; auto. intros j v l cs Hj Hl Hin. apply Hni. eapply L; eauto.
    + intros j v. rewrite node_put. cbn [v_id new_vertex]. destruct (N.eqb_spec j id) as [->|]; [auto|apply S].
    + intros j v l cs c. rewrite node_put. cbn [v_id new_vertex].
      destruct (N.eqb_spec j id) as [->|Hj]; [|apply L].
      intros [= <-]. unfold new_vertex; cbn [v_conns]; intros Hx Hc. apply nth_error_In, repeat_spec in Hx.
      subst cs. destruct Hc.
    + intros j v Hj. rewrite node_put. cbn [v_id new_vertex].
      destruct (N.eqb_spec j id) as [->|Hj2]; [contradiction|now apply Dm].
    + cbn [h_ep put_node with_cache with_once h_maxl]. exists vep. rewrite node_put_ne; auto.
    + intros o' Ho'. destruct (Su o' Ho') as (Hl' & HiD & v & Hv' & R).
      assert (Hno : a_id o' <> id) by (intros E; apply Hni; rewrite <- E; exact HiD).
      split; [exact Hl'|]. split; [exact HiD|]. exists v. split; [|exact R].
      rewrite node_put_ne; auto.
  - intros j Hj. rewrite node_put_ne; auto.
Qed.

(** The first vector of an empty index. *)
Lemma add_first cap h o :
  pristine h -> h_tomb h = [] -> dop_ok cap o -> a_vec o <> [] ->
  let r := add (a_env o) h (a_id o) (a_vec o) (a_lvl o) in
  dstate (length (a_vec o)) cap [a_id o] (match snd r with Ok _ => [o] | _ => [] end) (fst r) /\
  ((a_id o < i_vcsize (a_env o))%N -> snd r = Ok tt) /\
  (forall j, node_by_id (fst r) j <> None -> j = a_id o).
Proof.
  intros Hp HT ((Hsc & Hsym & Hcap & Hid) & Hdim & Hlen) Hv. unfold add.
  destruct (a_vec o) as [|x q0] eqn:Eq; [congruence|]. rewrite <- Eq in *. clear Hv. unfold insert.
  destruct (pristine_empty _ Hp) as [He Hno]. pose proof Hp as (P1 & P2 & P3 & P4 & P5).
  rewrite P5, He. cbn [negb andb]. unfold insert_initial.
  set (q := p_normalize _ _). set (v0 := mkV (a_id o) 0 [[]] false q false).
  set (h' := put_node (with_ep (with_once h) (a_id o) 0) v0).
  assert (Hnode : forall j, node_by_id h' j = if N.eqb j (a_id o) then Some v0 else None).
  { intros j. unfold h'. rewrite node_put. cbn [v_id v0].
    destruct (N.eqb j (a_id o)); [reflexivity|]. rewrite node_with_ep, node_with_once. apply Hno. }
  assert (Hcase : forall j v, node_by_id h' j = Some v -> j = a_id o /\ v = v0).
  { intros j v. rewrite Hnode. destruct (N.eqb_spec j (a_id o)) as [->|]; [|discriminate].
    intros [= <-]. auto. }
  assert (Hnil : forall l cs, nth_error (v_conns v0) l = Some cs -> cs = []).
  { intros l cs. cbn. destruct l as [|[|l]]; cbn; intros [= <-]; auto. }
  assert (Hbase : forall su, (forall o', In o' su -> o' = o) -> dstate (length (a_vec o)) cap [a_id o] su h').
  { intros su Hsu. constructor.
    - constructor.
      + intros j v Hj. destruct (Hcase _ _ Hj) as [-> ->]. reflexivity.
      + intros j v Hj. destruct (Hcase _ _ Hj) as [-> ->]. reflexivity.
      + intros j v l cs c Hj Hl. destruct (Hcase _ _ Hj) as [-> ->]. rewrite (Hnil _ _ Hl). intros [].
      + intros j v l cs Hj Hl. destruct (Hcase _ _ Hj) as [-> ->]. rewrite (Hnil _ _ Hl). constructor.
    - intros j v Hj. destruct (Hcase _ _ Hj) as [-> ->]. exact Hid.
    - repeat constructor. intros [].
    - intros j v l cs c Hj Hl. destruct (Hcase _ _ Hj) as [-> ->]. rewrite (Hnil _ _ Hl). intros [].
    - intros j v _ Hj. destruct (Hcase _ _ Hj) as [-> ->]. cbn. unfold q. apply Hlen.
    - now left.
    - exists v0. cbn [h' h_ep put_node with_cache with_ep h_maxl]. rewrite Hnode, N.eqb_refl. auto.
    - intros o' Ho'. rewrite (Hsu o' Ho'). split; [reflexivity|]. split; [now left|]. exists v0.
      rewrite Hnode, N.eqb_refl. repeat split. cbn. lia.
    - reflexivity.
    - exact HT.
    - cbn. auto. }
  assert (Honly : forall j, node_by_id h' j <> None -> j = a_id o).
  { intros j. rewrite Hnode. destruct (N.eqb_spec j (a_id o)); [auto|congruence]. }
  destruct (N.ltb (a_id o) (i_vcsize (a_env o))) eqn:Ev; cbn [fst snd].
  - split; [|split; [auto|exact Honly]]. apply Hbase. intros o' [<-|[]]. reflexivity.
  - split; [|split; [|exact Honly]]; [apply Hbase; intros o' []|].
    intros Hc. apply N.ltb_ge in Ev. lia.
Qed.

(** Phases of a history.
    Not in the code: used in statements about sequences of Add (insert.go:57-79). *)
Definition dphase (n : nat) (cap : N) (done : list N) (succ : list aop) (h : hnsw) : Prop :=
  (pristine h /\ h_tomb h = [] /\ succ = []) \/
  exists D, incl D done /\ dstate n cap D succ h.

(** Ids of the operations with a vector of dimension [n].
    Not in the code: used in statements about sequences of Add (insert.go:57-79). *)
Definition right_ids (n : nat) (ops : list aop) : list N :=
  map a_id (filter (fun o => Nat.eqb (length (a_vec o)) n) ops).

Lemma add_empty_vec I h id t : add I h id [] t = (h, Err EEmptyVector).
Proof. reflexivity. Qed.

Lemma run_adds_dstate n cap ops : 0 < n -> forall h done D succ,
  incl D done -> dstate n cap D succ h -> Forall (dop_ok cap) ops -> reuse_ok n ops ->
  (forall o, In o ops -> ~ In (a_id o) done) ->
  let r := run_adds h ops in
  exists D', incl D' (right_ids n ops ++ done) /\ dstate n cap D' (succ ++ succeeded ops (snd r)) (fst r).
Proof.
  intros Hn. induction ops as [|o ops IH]; intros h done D succ Hi Hst Hok Hre Hfr; cbn [run_adds].
  { cbn. exists D. rewrite app_nil_r. auto. }
  inversion Hok as [|? ? Ho Hok']; subst. inversion Hre as [|? ? Hre1 Hre']; subst.
  assert (Hno : ~ In (a_id o) D) by (intros H; apply (Hfr o (or_introl eq_refl)); auto).
  rewrite Forall_forall in Hre1.
  set (r := add (a_env o) h (a_id o) (a_vec o) (a_lvl o)). cbn [fst snd].
  assert (Hsc : forall s1, succ ++ succeeded (o :: ops) (snd r :: s1) =
      match snd r with Ok _ => succ ++ [o] | _ => succ end ++ succeeded ops s1).
  { intros s1. cbn [succeeded]. destruct (snd r); try reflexivity. now rewrite <- app_assoc. }
  rewrite Hsc.
  destruct (Nat.eq_dec (length (a_vec o)) n) as [Hv|Hv].
  - destruct (add_right n cap D succ h o Hst Ho Hn Hv Hno) as (D1 & H1 & H2 & Hst1 & _). fold r in Hst1.
    destruct (IH (fst r) (a_id o :: done) D1 (match snd r with Ok _ => succ ++ [o] | _ => succ end)) as (D2 & H3 & H4); eauto.
    + intros x Hx. apply H2 in Hx. destruct Hx as [<-|Hx]; [now left|right; auto].
    + intros o' Ho' [E|Hin]; [exact (Hre1 o' Ho' Hv E)|]. apply (Hfr o' (or_intror Ho') Hin).
    + exists D2. split; [|exact H4]. unfold right_ids. cbn [filter map].
      apply Nat.eqb_eq in Hv. rewrite Hv. cbn [map]. intros x Hx. apply H3 in Hx.
      apply in_app_or in Hx. cbn. rewrite in_app_iff. destruct Hx as [Hx|[<-|Hx]]; auto.
  - destruct (add_wrong n cap D succ h o Hst Ho Hv Hno) as (Hst1 & Hnok & _). fold r in Hst1, Hnok.
    destruct (IH (fst r) done D succ Hi Hst1 Hok' Hre') as (D2 & H3 & H4).
    + intros o' Ho'. apply Hfr. now right.
    + exists D2. split.
      * unfold right_ids. cbn [filter map]. apply Nat.eqb_neq in Hv. rewrite Hv. exact H3.
      * destruct (snd r); try exact H4. edestruct Hnok; reflexivity.
Qed.

(** A whole history from an empty index. *)
Lemma run_adds_history cap ops :
  Forall (dop_ok cap) ops -> reuse_ok (dimension ops) ops ->
  let r := run_adds empty_index ops in
  dphase (dimension ops) cap (right_ids (dimension ops) ops) (succeeded ops (snd r)) (fst r).
Proof.
  enough (H : forall h, pristine h -> h_tomb h = [] -> Forall (dop_ok cap) ops -> reuse_ok (dimension ops) ops ->
    let r := run_adds h ops in
    dphase (dimension ops) cap (right_ids (dimension ops) ops) (succeeded ops (snd r)) (fst r)).
  { intros Hok Hre. apply H; auto. apply pristine_empty_index. }
  induction ops as [|o ops IH]; intros h Hp HT Hok Hre; [left; auto|].
  inversion Hok as [|? ? Ho Hok']; subst. inversion Hre as [|? ? Hre1 Hre']; subst.
  cbn [run_adds]. destruct (a_vec o) as [|x q0] eqn:Eq.
  - rewrite add_empty_vec. cbn [fst snd succeeded dimension]. rewrite Eq.
    cbn [dimension] in Hre, Hre', Hre1. rewrite Eq in Hre'.
    specialize (IH h Hp HT Hok' Hre'). cbv zeta in IH.
    destruct IH as [IH|(D & Hi & Hs)]; [left; exact IH|right]. exists D. split; [|exact Hs].
    unfold right_ids in *. cbn [filter]. rewrite Eq. cbn [length].
    destruct (Nat.eqb 0 (dimension ops)); [|exact Hi]. cbn [map]. now apply incl_tl.
  - assert (Hvn : a_vec o <> []) by (rewrite Eq; discriminate).
    assert (Hd : dimension (o :: ops) = length (a_vec o)) by (cbn [dimension]; rewrite Eq; reflexivity).
    rewrite Hd in *. rewrite <- Eq.
    destruct (add_first cap h o Hp HT Ho Hvn) as (Hst & _).
    set (r := add (a_env o) h (a_id o) (a_vec o) (a_lvl o)) in *. cbn [fst snd]. right.
    rewrite Forall_forall in Hre1.
    destruct (run_adds_dstate (length (a_vec o)) cap ops ltac:(rewrite Eq; cbn; lia)
                (fst r) [a_id o] [a_id o] _ (incl_refl _) Hst Hok' Hre') as (D' & H1 & H2).
    { intros o' Ho' [E|[]]. refine (Hre1 o' Ho' _ E); now rewrite Eq. }
    exists D'. split.
    + unfold right_ids. cbn [filter]. rewrite Nat.eqb_refl. cbn [map].
      intros y Hy. apply H1 in Hy. apply in_app_or in Hy. cbn in Hy. cbn. intuition.
    + cbn [succeeded]. destruct (snd r); exact H2.
Qed.
