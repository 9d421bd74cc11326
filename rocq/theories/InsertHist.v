(** Histories of insertions into one index within one process. *)
From Verif Require Import Base F32 PQ PQProofs Graph Search SearchProofs SearchLayer SearchKnn
  Insert HeuristicProofs InsertProofs.

(** A new index over an empty key-value table (index.go:213-290). *)
Definition empty_index : hnsw := mkH [] [] None None 0 0 [] false.

(** One call of Add with everything it depends on. A call of insert.go:57. *)
Record aop := mkA { a_env : ienv; a_id : N; a_vec : vec; a_lvl : nat }.

(** Not in the code: calls of insert.go:57 one after the other. *)
Fixpoint run_adds (h : hnsw) (ops : list aop) : hnsw * list (res unit) :=
  match ops with
  | [] => (h, [])
  | o :: ops' =>
      let r := add (a_env o) h (a_id o) (a_vec o) (a_lvl o) in
      let rs := run_adds (fst r) ops' in
      (fst rs, snd r :: snd rs)
  end.

(** Oracles an insertion may meet: goroutine results are not lost, SingleDist
    and the query distancer agree, and the id fits the visited list.
    Not in the code: used in statements about sequences of Add (insert.go:57-79). *)
Definition op_ok (cap : N) (o : aop) : Prop :=
  sched_ok (i_env (a_env o)) /\ prov_sym (e_prov (i_env (a_env o))) /\
  e_vcap (i_env (a_env o)) = cap /\ (a_id o < cap)%N.

(** Not in the code: used in statements about sequences of Add (insert.go:57-79). *)
Definition ids_below (cap : N) (h : hnsw) : Prop :=
  forall id v, node_by_id h id = Some v -> (id < cap)%N.

(** Ids of the calls that returned success.
    Not in the code: used in statements about sequences of Add (insert.go:57-79). *)
Fixpoint succeeded (ops : list aop) (rs : list (res unit)) : list aop :=
  match ops, rs with
  | o :: ops', Ok _ :: rs' => o :: succeeded ops' rs'
  | _ :: ops', _ :: rs' => succeeded ops' rs'
  | _, _ => []
  end.

(** State after the insertions of [done], of which [succ] succeeded.
    Not in the code: used in statements about sequences of Add (insert.go:57-79). *)
Record hstate (cap : N) (done : list N) (succ : list aop) (h : hnsw) : Prop := {
  hs_w : winv h;
  hs_small : ids_below cap h;
  hs_dom : forall id v, node_by_id h id = Some v -> In id done;
  hs_ep : exists v, node_by_id h (h_ep h) = Some v /\ v_level v = h_maxl h;
  hs_succ : forall o, In o succ -> exists v, node_by_id h (a_id o) = Some v /\
    v_level v <= h_maxl h /\ v_vec v = p_normalize (e_prov (i_env (a_env o))) (a_vec o) /\
    v_maint v = false;
  hs_once : h_once h = true
}.

(** Not in the code: used in statements about sequences of Add (insert.go:57-79). *)
Definition hphase cap done succ h : Prop :=
  (pristine h /\ succ = []) \/ hstate cap done succ h.

Lemma winv_none h : (forall id, node_by_id h id = None) -> winv h.
Proof. intros H. constructor; intros id v; rewrite H; discriminate. Qed.

Lemma unlinked_absent h id : winv h -> node_by_id h id = None -> unlinked id h.
Proof.
  intros W Hn j v l cs Hj Hl Hin. destruct (w_link _ W _ _ _ _ _ Hj Hl Hin) as (_ & w & Hw & _).
  congruence.
Qed.

(** One insertion. The new id must not be linked to and must not be the entry
    point. *)
Lemma add_step cap done succ h o :
  hphase cap done succ h -> op_ok cap o ->
  (hstate cap done succ h -> unlinked (a_id o) h /\ h_ep h <> a_id o /\
     (forall o', In o' succ -> a_id o' <> a_id o)) ->
  let r := add (a_env o) h (a_id o) (a_vec o) (a_lvl o) in
  hphase cap (a_id o :: done) (match snd r with Ok _ => succ ++ [o] | _ => succ end) (fst r).
Proof.
  intros Hph (Hsc & Hsym & Hcap & Hid) Hfresh. unfold add.
  destruct (a_vec o) as [|x q0] eqn:Eq.
  { cbn [fst snd]. destruct Hph as [Hp|[W S D Ep Su O]]; [left; exact Hp|right].
    constructor; auto. intros id v Hv. right. eauto. }
  unfold insert.
  destruct Hph as [[Hp ->]|Hst].
  - destruct (pristine_empty _ Hp) as [He Hno]. pose proof Hp as (P1 & P2 & P3 & P4 & P5).
    rewrite P5, He. cbn [negb andb]. right. unfold insert_initial.
    set (q := p_normalize _ _). set (v0 := mkV (a_id o) 0 [[]] false q false).
    set (h' := put_node (with_ep (with_once h) (a_id o) 0) v0).
    assert (Hn : forall j, node_by_id h' j = if N.eqb j (a_id o) then Some v0 else None).
    { intros j. unfold h'. rewrite node_put. cbn [v_id v0].
      destruct (N.eqb j (a_id o)); [reflexivity|]. rewrite node_with_ep, node_with_once. apply Hno. }
    assert (Hbase : hstate cap (a_id o :: done) [] h' /\
      exists v, node_by_id h' (a_id o) = Some v /\ v_level v <= h_maxl h' /\
        v_vec v = q /\ v_maint v = false).
    { split; [constructor|].
      - constructor.
        + intros j v. rewrite Hn. destruct (N.eqb_spec j (a_id o)) as [->|]; [|discriminate].
          intros [= <-]. reflexivity.
        + intros j v. rewrite Hn. destruct (N.eqb_spec j (a_id o)) as [->|]; [|discriminate].
          intros [= <-]. reflexivity.
        + intros j v l cs c. rewrite Hn. destruct (N.eqb_spec j (a_id o)) as [->|]; [|discriminate].
          intros [= <-]. cbn. destruct l as [|[|l]]; cbn; intros [= <-] [].
        + intros j v l cs. rewrite Hn. destruct (N.eqb_spec j (a_id o)) as [->|]; [|discriminate].
          intros [= <-]. cbn. destruct l as [|[|l]]; cbn; intros [= <-]. constructor.
      - intros j v. rewrite Hn. destruct (N.eqb_spec j (a_id o)) as [->|]; [auto|discriminate].
      - intros j v. rewrite Hn. destruct (N.eqb_spec j (a_id o)) as [->|]; [now left|discriminate].
      - exists v0. cbn [h' h_ep put_node with_cache with_ep h_maxl]. rewrite Hn, N.eqb_refl. auto.
      - intros o' [].
      - reflexivity.
      - exists v0. rewrite Hn, N.eqb_refl. repeat split. cbn. lia. }
    destruct Hbase as [Hb Hv].
    destruct (N.ltb (a_id o) (i_vcsize (a_env o))); cbn [fst snd]; [|exact Hb].
    destruct Hb as [W S D Ep Su O]. constructor; auto.
    cbn [app]. intros o' [<-|[]]. rewrite Eq. exact Hv.
  - pose proof Hst as [W S D (vep & Hep & Hml) Su O].
    destruct (Hfresh Hst) as (Hu & Hne & Hfr).
    rewrite O. cbn [negb andb]. right.
    set (q := p_normalize _ _).
    assert (S' : ids_small (i_env (a_env o)) (with_once h)).
    { unfold ids_small. rewrite Hcap. exact S. }
    assert (W' : winv (with_once h)) by (apply (winv_ext h); [reflexivity|exact W]).
    assert (Ep' : ep_top (with_once h)) by (exists vep; cbn; split; [exact Hep|lia]).
    rewrite <- Hcap in Hid.
    pose proof (insert_linked_inv (a_env o) Hsc Hsym (with_once h) (a_id o) q (a_lvl o)
                  W' S' Ep' Hu Hne Hid) as (W2 & S2 & Ep2 & A2 & O2 & M2 & Ok2 & Er2).
    set (r := insert_linked _ _ _ _ _) in *. cbn [h_ep with_once h_maxl] in Er2, M2.
    assert (HS0 : hstate cap (a_id o :: done) succ (fst r)).
    { constructor; auto.
      - unfold ids_below. rewrite <- Hcap. exact S2.
      - intros j v Hv. destruct (N.eq_dec j (a_id o)) as [->|Hj]; [now left|right].
        destruct (ar_bw _ _ _ A2 j v Hj Hv) as (v0 & Hv0). eapply D. exact Hv0.
      - destruct Er2 as [[E1 E2]|(E0 & E1 & E2)].
        + destruct (ar_fw _ _ _ A2 _ _ Hne Hep) as (v' & Hv' & L' & _). exists v'.
          rewrite E1, E2. split; [exact Hv'|congruence].
        + destruct (Ok2 E0) as (v & Hv & Lv & _). exists v. rewrite E1, E2. auto.
      - intros o' Ho'. destruct (Su o' Ho') as (v & Hv & Lv & Vv & Mv).
        destruct (ar_fw _ _ _ A2 (a_id o') v (Hfr o' Ho') Hv) as (v' & Hv' & L' & V' & M').
        exists v'. repeat split; try congruence. lia. }
    destruct (snd r) as [[]|e| |] eqn:Er; try exact HS0.
    destruct HS0 as [W3 S3 D3 Ep3 Su3 O3]. constructor; auto.
    intros o' Ho'. apply in_app_or in Ho'. destruct Ho' as [Ho'|[<-|[]]]; [auto|].
    destruct (Ok2 eq_refl) as (v & Hv & Lv & Vv & Mv & Lm). exists v.
    rewrite Eq. repeat split; auto. lia.
Qed.

Lemma run_adds_phase cap ops : forall h done succ,
  hphase cap done succ h -> Forall (op_ok cap) ops -> NoDup (map a_id ops) ->
  (forall o, In o ops -> ~ In (a_id o) done) ->
  (forall o, In o succ -> In (a_id o) done) ->
  let r := run_adds h ops in
  hphase cap (rev (map a_id ops) ++ done) (succ ++ succeeded ops (snd r)) (fst r).
Proof.
  induction ops as [|o ops IH]; intros h done succ Hph Hok Hnd Hfr Hsu; cbn [run_adds].
  - cbn. rewrite app_nil_r. exact Hph.
  - inversion Hok as [|? ? Ho Hok']; subst. cbn [map] in Hnd. inversion Hnd as [|? ? Hni Hnd']; subst.
    assert (Hno : ~ In (a_id o) done) by (apply Hfr; now left).
    pose proof (add_step cap done succ h o Hph Ho) as Hstep. cbv zeta in Hstep.
    set (r := add _ _ _ _ _) in *. cbn [fst snd].
    assert (H1 : hphase cap (a_id o :: done) match snd r with Ok _ => succ ++ [o] | _ => succ end (fst r)).
    { apply Hstep. intros [W S D (vep & Hep & _) Su O]. split; [|split].
      - apply unlinked_absent; auto. destruct (node_by_id h (a_id o)) eqn:E; [|reflexivity].
        exfalso. apply Hno. eapply D; eauto.
      - intros E. apply Hno. rewrite <- E. eapply D; eauto.
      - intros o' Ho' E. apply Hno. rewrite <- E. auto. }
    assert (Hdone : rev (map a_id (o :: ops)) ++ done = rev (map a_id ops) ++ a_id o :: done).
    { cbn [map rev]. rewrite <- app_assoc. reflexivity. }
    rewrite Hdone.
    pose proof (IH (fst r) (a_id o :: done) (match snd r with Ok _ => succ ++ [o] | _ => succ end) H1 Hok' Hnd') as H2.
    cbv zeta in H2.
    assert (Hsc : succ ++ succeeded (o :: ops) (snd r :: snd (run_adds (fst r) ops)) =
      match snd r with Ok _ => succ ++ [o] | _ => succ end ++ succeeded ops (snd (run_adds (fst r) ops))).
    { cbn [succeeded]. destruct (snd r); try reflexivity. now rewrite <- app_assoc. }
    rewrite Hsc. apply H2.
    + intros o' Ho' [E|Hi]; [|eapply Hfr; [right; eauto|exact Hi]].
      apply Hni. rewrite E. now apply in_map.
    + intros o' Ho'. destruct (snd r); try (right; auto; fail).
      apply in_app_or in Ho'. destruct Ho' as [Ho'|[<-|[]]]; [right; auto|now left].
Qed.

Lemma pristine_empty_index : pristine empty_index.
Proof. repeat split. Qed.

(** Histories with distinct ids, from an empty index. *)
Lemma run_adds_from_empty cap ops :
  Forall (op_ok cap) ops -> NoDup (map a_id ops) ->
  let r := run_adds empty_index ops in
  hphase cap (rev (map a_id ops)) (succeeded ops (snd r)) (fst r).
Proof.
  intros Hok Hnd. pose proof (run_adds_phase cap ops empty_index [] [] (or_introl (conj pristine_empty_index eq_refl)) Hok Hnd) as H.
  rewrite app_nil_r in H. apply H; [intros o _ []|intros o []].
Qed.

Lemma hphase_winv cap done succ h : hphase cap done succ h -> winv h /\ ids_below cap h.
Proof.
  intros [[Hp _]|[W S _ _ _ _]]; [|auto]. destruct (pristine_empty _ Hp) as [_ Hn].
  split; [now apply winv_none|]. intros id v. rewrite Hn. discriminate.
Qed.

Lemma run_adds_deg M ops : forall h, Forall (fun o => i_M (a_env o) = M) ops ->
  deg_ok M h -> deg_ok M (fst (run_adds h ops)).
Proof.
  induction ops as [|o ops IH]; intros h Hf Hd; cbn [run_adds fst]; [exact Hd|].
  inversion Hf; subst. apply IH; auto. apply add_deg; auto.
Qed.
