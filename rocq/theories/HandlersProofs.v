(** Facts about the responses of the document handlers. *)
From Coq Require Import String.
From Verif Require Import Base F32 JsonNum PQ Graph Search Insert InsertHist Persist PersistProofs Client
  ClientProofs ClientFacts ClientReq ClientIds JsonNumProofs Handlers.
Local Open Scope string_scope.

(* ------------------------------------------------------------------ *)
(** Values as a response shows them. *)

(** The value of a property and what a response shows for it: the same, a number
    as the nearest float64. *)
Inductive shown : jval -> rval -> Prop :=
| shown_null : shown JNull RNull
| shown_bool b : shown (JBool b) (RBool b)
| shown_num s x : f64_of_num s = Some x -> shown (JNum s) (RNum x)
| shown_str s : shown (JStr s) (RStr s)
| shown_arr l r : Forall2 shown l r -> shown (JArr l) (RArr r)
| shown_obj l r : Forall2 (fun a b => fst a = fst b /\ shown (snd a) (snd b)) l r -> shown (JObj l) (RObj r).

Fixpoint jsize (j : jval) : nat :=
  match j with
  | JArr l => S ((fix go (l : list jval) := match l with [] => 0 | x :: l' => S (jsize x + go l') end) l)
  | JObj l => S ((fix go (l : list (string * jval)) := match l with [] => 0 | (_, x) :: l' => S (jsize x + go l') end) l)
  | _ => 1
  end.

Lemma reread_shown_n n : forall j r, jsize j < n -> reread j = Some r -> shown j r.
Proof.
  induction n as [|n IH]; intros j r Hn H; [lia|]. destruct j as [|b|s|s|l|l|v]; cbn [reread] in H.
  - injection H as <-. constructor.
  - injection H as <-. constructor.
  - destruct (f64_of_num s) as [x|] eqn:E; [|discriminate]. injection H as <-. now constructor.
  - injection H as <-. constructor.
  - cbn [jsize] in Hn. apply Nat.succ_lt_mono in Hn. 
    assert (Hl : forall l rs, (fix go (l : list jval) := match l with [] => 0 | x :: l' => S (jsize x + go l') end) l < n ->
      (fix go (l : list jval) : option (list rval) :=
         match l with
         | [] => Some []
         | x :: l' => match reread x, go l' with Some y, Some r => Some (y :: r) | _, _ => None end
         end) l = Some rs -> Forall2 shown l rs).
    { clear -IH. induction l as [|x l IHl]; intros rs Hn H; [injection H as <-; constructor|].
      destruct (reread x) as [y|] eqn:Ex; [|discriminate].
      match type of H with match ?g with _ => _ end = _ => destruct g as [r'|] eqn:Eg; [|discriminate] end.
      injection H as <-. constructor; [apply IH; [lia|exact Ex]|]. apply IHl; [lia|reflexivity]. }
    match type of H with match ?g with _ => _ end = _ => destruct g as [r'|] eqn:Eg; [|discriminate] end.
    injection H as <-. constructor. now apply Hl.
  - cbn [jsize] in Hn. apply Nat.succ_lt_mono in Hn.
    assert (Hl : forall l rs, (fix go (l : list (string * jval)) := match l with [] => 0 | (_, x) :: l' => S (jsize x + go l') end) l < n ->
      (fix go (l : list (string * jval)) : option rprops :=
         match l with
         | [] => Some []
         | (k, x) :: l' => match reread x, go l' with Some y, Some r => Some ((k, y) :: r) | _, _ => None end
         end) l = Some rs -> Forall2 (fun a b => fst a = fst b /\ shown (snd a) (snd b)) l rs).
    { clear -IH. induction l as [|[k x] l IHl]; intros rs Hn H; [injection H as <-; constructor|].
      destruct (reread x) as [y|] eqn:Ex; [|discriminate].
      match type of H with match ?g with _ => _ end = _ => destruct g as [r'|] eqn:Eg; [|discriminate] end.
      injection H as <-. constructor; [split; [reflexivity|apply IH; [cbn; lia|exact Ex]]|]. apply IHl; [lia|reflexivity]. }
    match type of H with match ?g with _ => _ end = _ => destruct g as [r'|] eqn:Eg; [|discriminate] end.
    injection H as <-. constructor. now apply Hl.
  - discriminate.
Qed.
Lemma reread_shown j r : reread j = Some r -> shown j r.
Proof. apply (reread_shown_n (S (jsize j))). lia. Qed.

(** A property is shown if it is there, with its value. *)
Definition shows (p : props) (r : rprops) (k : string) : Prop :=
  match pget k p with
  | Some j => exists v, rget k r = Some v /\ shown j v
  | None => rget k r = None
  end.

Lemma reread_props_shows p : forall r, reread_props p = Some r -> forall k, shows p r k.
Proof.
  unfold shows. induction p as [|[k0 x] p IH]; intros r H k; cbn [reread_props] in H.
  - injection H as <-. reflexivity.
  - destruct (reread x) as [y|] eqn:Ex; [|discriminate]. destruct (reread_props p) as [r'|]; [|discriminate].
    injection H as <-. cbn [pget rget]. destruct (String.eqb k k0); [|now apply IH].
    exists y. split; [reflexivity|]. now apply reread_shown.
Qed.

Lemma rget_rdel k k' r : rget k (rdel k' r) = if String.eqb k k' then None else rget k r.
Proof.
  unfold rdel. induction r as [|[k0 x] r IH]; cbn [filter rget fst]; [now destruct (String.eqb k k')|].
  destruct (String.eqb_spec k' k0) as [->|H]; cbn [negb].
  - rewrite IH. destruct (String.eqb_spec k k0); reflexivity.
  - cbn [rget]. destruct (String.eqb_spec k k0) as [->|]; [|exact IH].
    destruct (String.eqb_spec k0 k'); [congruence|reflexivity].
Qed.

Definition reserved (k : string) : Prop := k = "id" \/ k = "vector" \/ k = "hnswId" \/ k = "distance".

Lemma eqb_ne k k' : k <> k' -> String.eqb k k' = false.
Proof. apply String.eqb_neq. Qed.

(** One document of a response. *)
Lemma show_near_spec d di x r : faithful di d -> show_near d x = Some r ->
  ro_id r = di_id di /\ rget "distance" (ro_props r) = Some (RDist x) /\
  (forall k, ~ reserved k -> shows (di_props di) (ro_props r) k).
Proof.
  intros (F1 & F2 & _). unfold show_near. destruct (reread_props (stored_props d)) as [p|] eqn:E; [|discriminate].
  intros [= <-]. cbn [ro_id ro_props]. pose proof (reread_props_shows _ _ E) as Hs.
  split; [|split].
  - specialize (Hs "id"). unfold shows, stored_props in Hs. rewrite pget_pset in Hs. cbn [String.eqb] in Hs.
    rewrite (F2 "id") in Hs by discriminate. cbn in Hs. destruct Hs as (v & Hv & Hsh). unfold id_of. rewrite Hv.
    inversion Hsh. reflexivity.
  - reflexivity.
  - intros k Hk. unfold reserved in Hk. specialize (Hs k). unfold shows, stored_props in *.
    rewrite pget_pset, (eqb_ne k "hnswId") in Hs by tauto.
    rewrite (F2 k), (eqb_ne k "id") in Hs by tauto. cbn [rget].
    rewrite (eqb_ne k "distance") by tauto. rewrite !rget_rdel, (eqb_ne k "distance"), (eqb_ne k "vector"), (eqb_ne k "id") by tauto.
    exact Hs.
Qed.

Lemma show_all_spec docs : forall dists rs, show_all docs dists = Ok rs ->
  Forall2 (fun d r => exists s x, d = Some s /\ show_near s x = Some r) docs rs /\
  forall i r, nth_error rs i = Some r -> exists x, nth_error dists i = Some x /\
    rget "distance" (ro_props r) = Some (RDist x).
Proof.
  induction docs as [|[d|] docs IH]; intros dists rs H; cbn [show_all] in H.
  - injection H as <-. split; [constructor|]. intros [|i] r; discriminate.
  - destruct (reread_props (stored_props d)) as [p|] eqn:E; [|discriminate]. destruct dists as [|x dists]; [discriminate|].
    destruct (show_all docs dists) as [r'|e| |] eqn:Es; cbn [bind] in H; try discriminate.
    destruct (show_near d x) as [y|] eqn:Ey; [|discriminate]. injection H as <-.
    destruct (IH _ _ Es) as [I1 I2]. split; [constructor; eauto|].
    intros [|i] r Hr; cbn [nth_error] in *; [|now apply I2]. injection Hr as <-. exists x. split; [reflexivity|].
    unfold show_near in Ey. rewrite E in Ey. injection Ey as <-. reflexivity.
  - discriminate.
Qed.

(* ------------------------------------------------------------------ *)
(** Where stored documents come from. *)

Lemma put_doc_in d x ds : In x (put_doc d ds) -> x = d \/ In x ds.
Proof. unfold put_doc. cbn [In]. intros [->|H]; [now left|]. apply filter_In in H. right. apply H. Qed.

Lemma store_doc_from o st s x : In x (c_docs (fst (store_doc o st s))) -> x = s \/ In x (c_docs st).
Proof.
  unfold store_doc. destruct (negb (do_marshal o)); [now right|]. destruct (do_docput o); [|now right].
  cbn [fst c_docs]. apply put_doc_in.
Qed.

Lemma add_indexed_from o st b d p v x : faithful d (mkSD (di_id d) (Z.of_N b) p (Some v)) ->
  In x (c_docs (fst (fst (add_indexed o st b d p v)))) -> faithful d x \/ In x (c_docs st).
Proof.
  intros Hf. unfold add_indexed. destruct (add _ _ _ _ _) as [h' [w|e| |]]; cbn [fst logged with_h c_docs]; try tauto.
  pose proof (store_doc_from o (with_h st h') (mkSD (di_id d) (Z.of_N b) p (Some v)) x) as H.
  destruct (store_doc o (with_h st h') _) as [s2 r]. cbn [fst] in *. intros Hx.
  destruct (H Hx) as [->|Hi]; [now left|now right].
Qed.

Lemma add_doc_from lookup keys st b d o x : In x (c_docs (fst (fst (add_doc lookup keys st b d o)))) ->
  (exists di, d = Some di /\ faithful di x) \/ In x (c_docs st).
Proof.
  destruct d as [d|]; [|now right]. unfold add_doc. cbv zeta. set (p := pset _ _ _).
  assert (Ht : In x (c_docs (fst (fst (match vector_text p keys with
          | Ok text =>
              if String.eqb text "" then
                let (st', r) := store_doc o st (mkSD (di_id d) (-1) p None) in (st', b, r)
              else if negb lookup then (st, b, Err ENoVectorizer)
              else match do_corpi o text with
                   | Ok (Some v) => add_indexed o st b d p v
                   | Ok None => (st, b, Panic)
                   | Err _ => (logged st EVectorizer, b, Ok tt)
                   | Panic => (st, b, Panic)
                   | OutOfFuel => (st, b, OutOfFuel)
                   end
          | Err e => (st, b, Err e)
          | Panic => (st, b, Panic)
          | OutOfFuel => (st, b, OutOfFuel)
          end)))) -> (exists di, Some d = Some di /\ faithful di x) \/ In x (c_docs st)).
  { destruct (vector_text p keys) as [text|e| |]; try now right. destruct (String.eqb text "").
    - pose proof (store_doc_from o st (mkSD (di_id d) (-1) p None) x) as H.
      destruct (store_doc o st _) as [s2 r]. cbn [fst] in *. intros Hx. destruct (H Hx) as [->|Hi]; [|now right].
      left. exists d. split; [reflexivity|]. apply faithful_pset.
    - destruct (negb lookup); [now right|]. destruct (do_corpi o text) as [[v|]|e| |]; try now right.
      intros Hx. apply add_indexed_from in Hx; [|apply faithful_pset]. destruct Hx; [left; eauto|now right]. }
  destruct (pget "vector" p) as [[| | | |l| |v]|]; try exact Ht; try now right.
  - destruct (vector_of l) as [v|]; [|now right]. intros Hx. apply add_indexed_from in Hx; [|apply faithful_pdel].
    destruct Hx; [left; eauto|now right].
  - intros Hx. apply add_indexed_from in Hx; [|apply faithful_pdel]. destruct Hx; [left; eauto|now right].
Qed.

Lemma add_loop_from lookup keys docs x : forall st b,
  In x (c_docs (fst (fst (add_loop lookup keys st b docs)))) ->
  (exists di o, In (Some di, o) docs /\ faithful di x) \/ In x (c_docs st).
Proof.
  induction docs as [|[d o] docs IH]; intros st b; cbn [add_loop]; [now right|].
  pose proof (add_doc_from lookup keys st b d o x) as Hd.
  destruct (add_doc lookup keys st b d o) as [[s1 b1] [u|e| |]]; cbn [fst] in *.
  - intros Hx. destruct (IH _ _ Hx) as [(di & o' & Hin & Hf)|Hi].
    + left. exists di, o'. split; [now right|exact Hf].
    + destruct (Hd Hi) as [(di & -> & Hf)|H0]; [|now right]. left. exists di, o. split; [now left|exact Hf].
  - intros Hx. destruct (Hd Hx) as [(di & -> & Hf)|H0]; [|now right]. left. exists di, o. split; [now left|exact Hf].
  - intros Hx. destruct (Hd Hx) as [(di & -> & Hf)|H0]; [|now right]. left. exists di, o. split; [now left|exact Hf].
  - intros Hx. destruct (Hd Hx) as [(di & -> & Hf)|H0]; [|now right]. left. exists di, o. split; [now left|exact Hf].
Qed.

Lemma add_documents_from R lookup keys docs st x :
  In x (c_docs (fst (add_documents R lookup keys docs st))) ->
  (exists di o, In (Some di, o) docs /\ faithful di x) \/ In x (c_docs st).
Proof.
  unfold add_documents. destruct (open_coll_docs R st) as [O1 _].
  destruct (open_coll R st) as [st1 [[]|e| |]]; cbn [fst] in *; try (rewrite O1; now right).
  destruct (negb (c_reg st1)); [cbn [fst]; rewrite O1; now right|].
  pose proof (add_loop_from lookup keys docs x st1 (first_id (c_h st1))) as Hl.
  destruct (add_loop lookup keys st1 (first_id (c_h st1)) docs) as [[st2 b] [[]|e| |]]; cbn [fst] in *;
    try (rewrite <- O1; exact Hl).
  destruct (finish_add_docs R st2 b) as [F1 _]. rewrite F1, <- O1. exact Hl.
Qed.

(** The documents of the add requests in a history. *)
Definition added (qs : list creq) (di : docin) : Prop :=
  exists R lookup keys docs o, In (QAdd R lookup keys docs) qs /\ In (Some di, o) docs.

Lemma near_vec_docs Q st q maxd limit : c_docs (fst (near_by_vector Q st q maxd limit)) = c_docs st.
Proof.
  unfold near_by_vector. destruct (open_coll_docs (q_open Q) st) as [O _].
  destruct (open_coll (q_open Q) st) as [st1 [u|e| |]]; cbn [fst] in *; try exact O.
  unfold near_docs. destruct (negb (c_reg st1)); exact O.
Qed.
Lemma near_text_docs Q lk corpi st maxd limit : c_docs (fst (near_by_text Q lk corpi st maxd limit)) = c_docs st.
Proof.
  unfold near_by_text. destruct (open_coll_docs (q_open Q) st) as [O _].
  destruct (open_coll (q_open Q) st) as [st1 [u|e| |]]; cbn [fst] in *; try exact O.
  destruct (negb lk); [exact O|]. destruct corpi as [[v|]|e| |]; try exact O.
  - unfold near_docs. destruct (negb (c_reg st1)); exact O.
  - destruct (c_reg st1); exact O.
Qed.
Lemma get_docs R ok id st : c_docs (fst (get_document R ok id st)) = c_docs st.
Proof.
  unfold get_document. destruct (negb (r_isopen R)); [reflexivity|]. destruct (negb (c_open st) && negb (r_docopen R)); [reflexivity|].
  destruct (negb ok); [reflexivity|]. destruct (find _ _); reflexivity.
Qed.

Lemma run_from qs x : forall st, In x (c_docs (run_reqs st qs)) ->
  (exists di, added qs di /\ faithful di x) \/ In x (c_docs st).
Proof.
  induction qs as [|q qs IH]; intros st; cbn [run_reqs]; [now right|]. intros Hx.
  destruct (IH _ Hx) as [(di & (R & lk & ks & docs & o & H1 & H2) & Hf)|Hi].
  - left. exists di. split; [|exact Hf]. exists R, lk, ks, docs, o. split; [now right|exact H2].
  - destruct q as [R lk ks docs|Q v d l|Q lk c d l|R ok id| |]; cbn [req_step] in Hi.
    + destruct (add_documents_from _ _ _ _ _ _ Hi) as [(di & o & Hin & Hf)|H0]; [|now right].
      left. exists di. split; [|exact Hf]. exists R, lk, ks, docs, o. split; [now left|exact Hin].
    + rewrite near_vec_docs in Hi. now right.
    + rewrite near_text_docs in Hi. now right.
    + rewrite get_docs in Hi. now right.
    + now right.
    + now right.
Qed.

(* ------------------------------------------------------------------ *)
(** A document stays as it is until its id is added again. *)

Lemma store_doc_other o st s id : sd_id s <> id ->
  by_id id (c_docs (fst (store_doc o st s))) = by_id id (c_docs st).
Proof.
  intros H. unfold store_doc. destruct (negb (do_marshal o)); [reflexivity|]. destruct (do_docput o); [|reflexivity].
  cbn [fst c_docs]. rewrite by_id_put. destruct (String.eqb_spec id (sd_id s)); [congruence|reflexivity].
Qed.
Lemma add_indexed_other o st b d p v id : di_id d <> id ->
  by_id id (c_docs (fst (fst (add_indexed o st b d p v)))) = by_id id (c_docs st).
Proof.
  intros H. unfold add_indexed. destruct (add _ _ _ _ _) as [h' [w|e| |]]; try reflexivity.
  pose proof (store_doc_other o (with_h st h') (mkSD (di_id d) (Z.of_N b) p (Some v)) id H) as H1.
  destruct (store_doc o (with_h st h') _) as [s2 r]. exact H1.
Qed.
Lemma add_doc_other lookup keys st b d o id : (forall di, d = Some di -> di_id di <> id) ->
  by_id id (c_docs (fst (fst (add_doc lookup keys st b d o)))) = by_id id (c_docs st).
Proof.
  destruct d as [d|]; [|reflexivity]. intros H. specialize (H d eq_refl). unfold add_doc. cbv zeta. set (p := pset _ _ _).
  destruct (pget "vector" p) as [[| | | |l| |v]|]; try reflexivity.
  2: destruct (vector_of l) as [v|]; [|reflexivity].
  2, 3: now apply add_indexed_other.
  all: destruct (vector_text p keys) as [text|e| |]; try reflexivity; destruct (String.eqb text "").
  1, 3: pose proof (store_doc_other o st (mkSD (di_id d) (-1) p None) id H) as H1;
      destruct (store_doc o st _) as [s2 r]; exact H1.
  all: destruct (negb lookup); [reflexivity|]; destruct (do_corpi o text) as [[v|]|e| |]; try reflexivity;
      now apply add_indexed_other.
Qed.
Lemma add_loop_other lookup keys docs id : (forall di o, In (Some di, o) docs -> di_id di <> id) -> forall st b,
  by_id id (c_docs (fst (fst (add_loop lookup keys st b docs)))) = by_id id (c_docs st).
Proof.
  induction docs as [|[d o] docs IH]; intros H st b; cbn [add_loop]; [reflexivity|].
  pose proof (add_doc_other lookup keys st b d o id) as Hd.
  destruct (add_doc lookup keys st b d o) as [[s1 b1] [u|e| |]]; cbn [fst] in *.
  1: rewrite IH by (intros di o' Hin; apply (H di o'); now right).
  all: apply Hd; intros di ->; apply (H di o); now left.
Qed.
Lemma add_documents_other R lookup keys docs st id : (forall di o, In (Some di, o) docs -> di_id di <> id) ->
  by_id id (c_docs (fst (add_documents R lookup keys docs st))) = by_id id (c_docs st).
Proof.
  intros H. unfold add_documents. destruct (open_coll_docs R st) as [O1 _].
  destruct (open_coll R st) as [st1 [[]|e| |]]; cbn [fst] in *; try now rewrite O1.
  destruct (negb (c_reg st1)); [cbn [fst]; now rewrite O1|].
  pose proof (add_loop_other lookup keys docs id H st1 (first_id (c_h st1))) as Hl.
  destruct (add_loop lookup keys st1 (first_id (c_h st1)) docs) as [[st2 b] [[]|e| |]]; cbn [fst] in *;
    try (rewrite <- O1; exact Hl).
  destruct (finish_add_docs R st2 b) as [F1 _]. rewrite F1, <- O1. exact Hl.
Qed.
Lemma run_other qs id : (forall di, added qs di -> di_id di <> id) -> forall st,
  by_id id (c_docs (run_reqs st qs)) = by_id id (c_docs st).
Proof.
  induction qs as [|q qs IH]; intros H st; cbn [run_reqs]; [reflexivity|].
  rewrite IH by (intros di (R & lk & ks & docs & o & H1 & H2); apply H; exists R, lk, ks, docs, o; split; [now right|exact H2]).
  destruct q as [R lk ks docs|Q v d l|Q lk c d l|R ok id'| |]; cbn [req_step].
  - apply add_documents_other. intros di o Hin. apply H. exists R, lk, ks, docs, o. split; [now left|exact Hin].
  - now rewrite near_vec_docs.
  - now rewrite near_text_docs.
  - now rewrite get_docs.
  - reflexivity.
  - reflexivity.
Qed.

(* ------------------------------------------------------------------ *)
(** Responses of the nearest handlers. *)

Lemma upd_in {A} (l : list A) : forall i x y, In y (upd l i x) -> y = x \/ In y l.
Proof.
  induction l as [|a l IH]; intros [|i] x y; cbn [upd In]; intros H; auto.
  - destruct H; auto.
  - destruct H as [->|H]; [auto|]. destruct (IH _ _ _ H); auto.
Qed.

Lemma run_fetch_in find ids order : forall slots errs d, In (Some d) (fst (run_fetch find ids order slots errs)) ->
  In (Some d) slots \/ exists i id, find i id = Ok d.
Proof.
  induction order as [|i order IH]; intros slots errs d; cbn [run_fetch]; [auto|].
  destruct (nth_error ids i) as [id|]; [|apply IH]. destruct (find i id) as [x|e| |] eqn:E; try apply IH.
  intros H. destruct (IH _ _ _ H) as [H0|H0]; [|auto]. apply upd_in in H0. destruct H0 as [H0|H0]; [|auto].
  injection H0 as ->. eauto.
Qed.

Lemma near_docs_in Q st q maxd ef limit docs dists d : snd (near_docs Q st q maxd ef limit) = Ok (docs, dists) ->
  In (Some d) docs -> In d (c_docs st).
Proof.
  unfold near_docs. destruct (negb (c_reg st)); [discriminate|]. cbn [snd].
  change (c_docs (with_h st (load_ep (c_h st)))) with (c_docs st).
  destruct (knn_max_dist _ _ _ _ _ _) as [out|e| |]; cbn [bind]; try discriminate.
  destruct (cut_limit limit out) as [[ids ds]|e| |]; cbn [bind fst snd]; try discriminate.
  destruct (fetch_docs _ ids (q_order Q)) as [docs'|e| |] eqn:Ef; cbn [bind]; try discriminate.
  intros [= <- <-] Hin. unfold fetch_docs in Ef.
  pose proof (run_fetch_in (doc_find (q_ok Q) (q_pick Q) (c_docs st)) ids (q_order Q) (repeat None (length ids)) [] d) as H.
  destruct (run_fetch _ ids (q_order Q) _ _) as [s [|e l]]; [|discriminate]. injection Ef as <-.
  destruct (H Hin) as [H0|(i & id & H0)]; [apply repeat_spec in H0; discriminate|]. now apply doc_find_ok in H0.
Qed.

(** Every shown document is one of the history. *)
Definition shown_from (qs : list creq) (r : rdoc) : Prop :=
  exists di, added qs di /\ ro_id r = di_id di /\
    forall k, ~ reserved k -> shows (di_props di) (ro_props r) k.

Lemma near_response_inv r st' rs : near_response r = (st', Ok200 rs) ->
  exists docs dists, snd r = Ok (docs, dists) /\ show_all docs dists = Ok rs /\ forallb writable rs = true.
Proof.
  destruct r as [s [[docs dists]|e| |]]; cbn [near_response snd]; try (intros [=]; fail).
  intros H. exists docs, dists. split; [reflexivity|]. injection H as _ H.
  destruct (show_all docs dists) as [rs'|e| |]; try discriminate. unfold respond in H.
  destruct (forallb writable rs') eqn:E; [|discriminate]. injection H as ->. auto.
Qed.

Lemma shown_history qs docs dists rs :
  (forall d, In (Some d) docs -> In d (c_docs (run_reqs new_coll qs))) ->
  show_all docs dists = Ok rs ->
  length rs = length docs /\
  forall i r, nth_error rs i = Some r -> shown_from qs r /\
    exists x, nth_error dists i = Some x /\ rget "distance" (ro_props r) = Some (RDist x).
Proof.
  intros Hin H. destruct (show_all_spec docs dists rs H) as [H1 H2].
  split; [clear -H1; induction H1; cbn; congruence|]. intros i r Hr. split; [|now apply H2].
  apply nth_error_In in Hr. clear H2 H. induction H1 as [|d r0 docs rs (s & x & -> & Hs) _ IH]; [destruct Hr|].
  destruct Hr as [->|Hr]; [|apply IH; [intros d Hd; apply Hin; now right|exact Hr]].
  destruct (run_from qs s new_coll (Hin s (or_introl eq_refl))) as [(di & Ha & Hf)|[]].
  destruct (show_near_spec s di x r Hf Hs) as (A & _ & C). exists di. auto.
Qed.

Lemma near_vector_shown qs Q name q maxd limit st' rs :
  handle_near_vector Q name q maxd limit (run_reqs new_coll qs) = (st', Ok200 rs) ->
  exists q0 docs dists, q = Some q0 /\ snd (near_by_vector Q (run_reqs new_coll qs) q0 maxd limit) = Ok (docs, dists) /\
  length rs = length docs /\
  forall i r, nth_error rs i = Some r -> shown_from qs r /\
    exists x, nth_error dists i = Some x /\ rget "distance" (ro_props r) = Some (RDist x).
Proof.
  unfold handle_near_vector. destruct (String.eqb name ""); [discriminate|]. destruct q as [q|]; [|discriminate].
  intros H. destruct (near_response_inv _ _ _ H) as (docs & dists & H1 & H2 & _).
  exists q, docs, dists. split; [reflexivity|]. split; [exact H1|]. eapply shown_history; [|exact H2].
  intros d Hd. destruct (near_by_vector_open _ _ _ _ _ _ H1) as (st1 & Ho & Hn).
  pose proof (near_docs_in _ _ _ _ _ _ _ _ _ Hn Hd) as Hi. destruct (open_coll_h _ _ _ Ho) as [E _]. now rewrite <- E.
Qed.

Lemma near_text_shown qs Q lookup corpi name text maxd limit st' rs :
  handle_near_text Q lookup corpi name text maxd limit (run_reqs new_coll qs) = (st', Ok200 rs) ->
  exists docs dists, snd (near_by_text Q lookup corpi (run_reqs new_coll qs) maxd limit) = Ok (docs, dists) /\
  length rs = length docs /\
  forall i r, nth_error rs i = Some r -> shown_from qs r /\
    exists x, nth_error dists i = Some x /\ rget "distance" (ro_props r) = Some (RDist x).
Proof.
  unfold handle_near_text. destruct (String.eqb name ""); [discriminate|]. destruct (String.eqb text ""); [discriminate|].
  intros H. destruct (near_response_inv _ _ _ H) as (docs & dists & H1 & H2 & _).
  exists docs, dists. split; [exact H1|]. eapply shown_history; [|exact H2].
  intros d Hd. destruct (near_by_text_open _ _ _ _ _ _ _ H1) as (st1 & q & Ho & _ & Hn).
  pose proof (near_docs_in _ _ _ _ _ _ _ _ _ Hn Hd) as Hi. destruct (open_coll_h _ _ _ Ho) as [E _]. now rewrite <- E.
Qed.

(* ------------------------------------------------------------------ *)
(** Reading a document by its id. *)

(** All numbers of a value are within the float64 range. *)
Fixpoint num_fine (j : jval) : bool :=
  match j with
  | JNum s => match f64_of_num s with Some _ => true | None => false end
  | JArr l => (fix go (l : list jval) := match l with [] => true | x :: l' => num_fine x && go l' end) l
  | JObj l => (fix go (l : list (string * jval)) := match l with [] => true | (_, x) :: l' => num_fine x && go l' end) l
  | JVec _ => false
  | _ => true
  end.

Lemma reread_fine_n n : forall j, jsize j < n -> num_fine j = true -> exists r, reread j = Some r.
Proof.
  induction n as [|n IH]; intros j Hn H; [lia|]. destruct j as [|b|s|s|l|l|v]; cbn [reread]; eauto; try discriminate.
  - cbn [num_fine] in H. destruct (f64_of_num s); [eauto|discriminate].
  - cbn [jsize num_fine] in *. apply Nat.succ_lt_mono in Hn.
    assert (Hl : exists rs, (fix go (l : list jval) : option (list rval) :=
         match l with
         | [] => Some []
         | x :: l' => match reread x, go l' with Some y, Some r => Some (y :: r) | _, _ => None end
         end) l = Some rs).
    { induction l as [|x l IHl]; [eauto|]. apply andb_true_iff in H. destruct H as [H1 H2].
      destruct (IH x ltac:(lia) H1) as (y & ->). destruct IHl as (rs & ->); [lia|exact H2|]. eauto. }
    destruct Hl as (rs & ->). eauto.
  - cbn [jsize num_fine] in *. apply Nat.succ_lt_mono in Hn.
    assert (Hl : exists rs, (fix go (l : list (string * jval)) : option rprops :=
         match l with
         | [] => Some []
         | (k, x) :: l' => match reread x, go l' with Some y, Some r => Some ((k, y) :: r) | _, _ => None end
         end) l = Some rs).
    { induction l as [|[k x] l IHl]; [eauto|]. apply andb_true_iff in H. destruct H as [H1 H2].
      destruct (IH x ltac:(lia) H1) as (y & ->). destruct IHl as (rs & ->); [lia|exact H2|]. eauto. }
    destruct Hl as (rs & ->). eauto.
Qed.
Lemma reread_fine j : num_fine j = true -> exists r, reread j = Some r.
Proof. apply (reread_fine_n (S (jsize j))). lia. Qed.

Definition doc_nums (p : props) : Prop := forall k j, In (k, j) p -> num_fine j = true.

Lemma reread_props_fine p : doc_nums p -> exists r, reread_props p = Some r.
Proof.
  unfold doc_nums. induction p as [|[k x] p IH]; intros H; cbn [reread_props]; [eauto|].
  destruct (reread_fine x) as (y & ->); [eapply H; now left|].
  destruct IH as (r & ->); [intros k' j Hj; apply (H k' j); now right|]. eauto.
Qed.


(** Every stored index id is below the size of the vector cache. *)
Definition hnsw_below (size : N) (d : sdoc) : Prop := (-1 <= sd_hnsw d < Z.of_N size)%Z.

Lemma add_ok_below I h id q0 t u : snd (add I h id q0 t) = Ok u -> (id < i_vcsize I)%N.
Proof.
  unfold add. destruct q0 as [|x q]; [discriminate|]. unfold insert. destruct (negb (h_once h) && is_empty h).
  - unfold insert_initial. destruct (N.ltb_spec id (i_vcsize I)); [auto|discriminate].
  - unfold insert_linked. destruct (N.ltb_spec id (i_vcsize I)); [auto|discriminate].
Qed.

Section Below.
  Variable size : N.
  Hypothesis Hsize : (0 < size)%N.
  Notation below_docs' := (fun ds => forall d, In d ds -> hnsw_below size d).

  Lemma store_doc_below o st s : below_docs' (c_docs st) -> hnsw_below size s -> below_docs' (c_docs (fst (store_doc o st s))).
  Proof. intros H Hs d Hd. apply store_doc_from in Hd. destruct Hd as [->|Hd]; auto. Qed.
  Lemma add_indexed_hbelow o st b d p v : i_vcsize (do_env o) = size -> below_docs' (c_docs st) ->
    below_docs' (c_docs (fst (fst (add_indexed o st b d p v)))).
  Proof.
    intros Ho H. unfold add_indexed. pose proof (add_ok_below (do_env o) (c_h st) b v (do_lvl o)) as Hb.
    destruct (add _ _ _ _ _) as [h' [w|e| |]]; try exact H. specialize (Hb w eq_refl). rewrite Ho in Hb.
    pose proof (store_doc_below o (with_h st h') (mkSD (di_id d) (Z.of_N b) p (Some v)) H) as H1.
    destruct (store_doc o (with_h st h') _) as [s2 r]. apply H1. unfold hnsw_below. cbn [sd_hnsw]. lia.
  Qed.
  Lemma add_doc_hbelow lookup keys st b d o : i_vcsize (do_env o) = size -> below_docs' (c_docs st) ->
    below_docs' (c_docs (fst (fst (add_doc lookup keys st b d o)))).
  Proof.
    intros Ho H. destruct d as [d|]; [|exact H]. unfold add_doc. cbv zeta. set (p := pset _ _ _).
    destruct (pget "vector" p) as [[| | | |l| |v]|]; try exact H.
    2: destruct (vector_of l) as [v|]; [|exact H].
    2, 3: now apply add_indexed_hbelow.
    all: destruct (vector_text p keys) as [text|e| |]; try exact H; destruct (String.eqb text "").
    1, 3: pose proof (store_doc_below o st (mkSD (di_id d) (-1) p None) H) as H1;
        destruct (store_doc o st _) as [s2 r]; apply H1; unfold hnsw_below; cbn [sd_hnsw]; lia.
    all: destruct (negb lookup); [exact H|]; destruct (do_corpi o text) as [[v|]|e| |]; try exact H;
        now apply add_indexed_hbelow.
  Qed.
  Lemma add_loop_hbelow lookup keys docs : orcs_size size docs -> forall st b, below_docs' (c_docs st) ->
    below_docs' (c_docs (fst (fst (add_loop lookup keys st b docs)))).
  Proof.
    induction 1 as [|[d o] docs Ho _ IH]; intros st b H; cbn [add_loop]; [exact H|].
    pose proof (add_doc_hbelow lookup keys st b d o Ho H) as H1.
    destruct (add_doc lookup keys st b d o) as [[s1 b1] [u|e| |]]; cbn [fst] in *; [exact (IH _ _ H1)|exact H1..].
  Qed.
  Lemma run_hbelow qs : Forall (req_size size) qs -> forall st, below_docs' (c_docs st) -> below_docs' (c_docs (run_reqs st qs)).
  Proof.
    induction 1 as [|q qs Hq _ IH]; intros st H; cbn [run_reqs]; [exact H|]. apply IH.
    destruct q as [R lk ks docs|Q v d l|Q lk c d l|R ok id'| |]; cbn [req_step]; try exact H.
    - cbn [req_size] in Hq. unfold add_documents. destruct (open_coll_docs R st) as [O1 _].
      destruct (open_coll R st) as [st1 [[]|e| |]]; cbn [fst] in *; try (rewrite O1; exact H).
      destruct (negb (c_reg st1)); [cbn [fst]; rewrite O1; exact H|].
      pose proof (add_loop_hbelow lk ks docs Hq st1 (first_id (c_h st1))) as Hl. rewrite O1 in Hl. specialize (Hl H).
      destruct (add_loop lk ks st1 (first_id (c_h st1)) docs) as [[st2 b] [[]|e| |]]; cbn [fst] in *; try exact Hl.
      destruct (finish_add_docs R st2 b) as [F1 _]. rewrite F1. exact Hl.
    - rewrite near_vec_docs. exact H.
    - rewrite near_text_docs. exact H.
    - rewrite get_docs. exact H.
  Qed.
End Below.

Lemma by_id_in id ds d : by_id id ds = Some d -> In d ds /\ sd_id d = id.
Proof.
  unfold by_id. intros H. apply find_some in H. destruct H as [H1 H2]. apply String.eqb_eq in H2. auto.
Qed.

(** The response for a stored document. *)
Lemma get_shown R st name id s di : r_isopen R = true -> r_docopen R = true -> name <> "" ->
  by_id id (c_docs st) = Some s -> faithful di s -> hnsw_below (2 ^ 53) s -> doc_nums (di_props di) ->
  exists rd, snd (handle_get R true name id st) = Ok200 rd /\ ro_id rd = di_id di /\
    forall k, k <> "id" -> k <> "vector" -> k <> "hnswId" -> shows (di_props di) (ro_props rd) k.
Proof.
  intros H1 H2 Hn Hs (F1 & F2 & F3) Hb Hd. unfold handle_get. rewrite (eqb_ne name "") by exact Hn.
  unfold get_document. rewrite H1, H2. cbn [negb]. rewrite andb_false_r. unfold by_id in Hs. rewrite Hs. cbn [snd].
  destruct (reread_props_fine (stored_props s)) as (r & Er).
  { intros k j Hj. unfold stored_props, pset in Hj. destruct Hj as [Hj|Hj].
    - injection Hj as <- <-. cbn [num_fine]. unfold hnsw_below in Hb. change (Z.of_N (2 ^ 53)) with (2 ^ 53)%Z in Hb.
      destruct (f64_int (sd_hnsw s)) as (x & -> & _); [lia|reflexivity].
    - apply pdel_in in Hj. destruct (F3 _ Hj) as [E|Hi]; [injection E as -> ->; reflexivity|]. eapply Hd; eauto. }
  rewrite Er. eexists. split; [reflexivity|]. cbn [ro_id ro_props]. pose proof (reread_props_shows _ _ Er) as Hsh.
  split.
  - specialize (Hsh "id"). unfold shows, stored_props in Hsh. rewrite pget_pset in Hsh. cbn [String.eqb] in Hsh.
    rewrite (F2 "id") in Hsh by discriminate. cbn in Hsh. destruct Hsh as (v & Hv & Hs'). unfold id_of. rewrite Hv.
    inversion Hs'. reflexivity.
  - intros k K1 K2 K3. specialize (Hsh k). unfold shows, stored_props in *.
    rewrite pget_pset, (eqb_ne k "hnswId") in Hsh by tauto.
    rewrite (F2 k), (eqb_ne k "id") in Hsh by tauto.
    rewrite !rget_rdel, (eqb_ne k "vector"), (eqb_ne k "id") by tauto. exact Hsh.
Qed.

(** An acknowledged document, later. *)
Lemma readable qs qs' R lookup orcs name rs keys st' n r p R' name' :
  handle_add R lookup orcs name (Some rs) (Some keys) (run_reqs new_coll qs) = (st', Ok200 n) ->
  length orcs = length rs -> NoDup (map (option_map rd_id) rs) -> c_log st' = c_log (run_reqs new_coll qs) ->
  Forall (req_size 25000) qs -> Forall (fun o => i_vcsize (do_env o) = 25000%N) orcs ->
  Forall (req_size 25000) qs' ->
  In (Some r) rs -> rd_props r = JObj p -> doc_nums p ->
  (forall di, added qs' di -> di_id di <> rd_id r) ->
  r_isopen R' = true -> r_docopen R' = true -> name' <> "" ->
  exists rd, snd (handle_get R' true name' (rd_id r) (run_reqs st' qs')) = Ok200 rd /\ ro_id rd = rd_id r /\
    forall k, k <> "id" -> k <> "vector" -> k <> "hnswId" -> shows p (ro_props rd) k.
Proof.
  intros Ha Ho Hnd Hlog Hq Horc Hq' Hr Hp Hnum Hno H1 H2 Hn. set (st := run_reqs new_coll qs) in *.
  unfold handle_add in Ha. destruct (String.eqb name ""); [discriminate|].
  destruct (raw_docs rs) as [ds|] eqn:Er; [|discriminate]. pose proof (raw_docs_length rs ds Er) as Hlen.
  destruct (add_documents R lookup keys (combine ds orcs) st) as [s1 [[]|e| |]] eqn:Ea; try discriminate.
  injection Ha as -> _.
  assert (Hres : snd (add_documents R lookup keys (combine ds orcs) st) = Ok tt) by (rewrite Ea; reflexivity).
  assert (Hst : fst (add_documents R lookup keys (combine ds orcs) st) = st') by (rewrite Ea; reflexivity).
  assert (Hnil : forall d, In d ds -> d <> None).
  { intros d Hd ->. destruct (combine_fst_in None ds orcs ltac:(lia) Hd) as (o & Hin).
    exact (add_documents_no_nil _ _ _ _ _ Hres o Hin). }
  pose proof (raw_docs_in rs ds r Er Hr) as Hin. rewrite Hp in Hin.
  destruct (combine_fst_in _ ds orcs ltac:(lia) Hin) as (o & Hino).
  destruct (add_documents_stored R lookup keys (combine ds orcs) st Hres) with (d := mkDoc (rd_id r) p) (o := o)
    as (s & Hs & Hf); auto.
  { rewrite Hst. exact Hlog. }
  { rewrite map_combine_fst by lia. rewrite (raw_ids_nodup rs ds Er Hnil). exact Hnd. }
  rewrite Hst in Hs. cbn [di_id] in Hs.
  assert (Hb : hnsw_below 25000 s).
  { assert (Hall : forall d, In d (c_docs st') -> hnsw_below 25000 d).
    { assert (E : st' = run_reqs new_coll (qs ++ [QAdd R lookup keys (combine ds orcs)])).
      { assert (Happ : forall a b s0, run_reqs s0 (a ++ b) = run_reqs (run_reqs s0 a) b)
          by (induction a as [|q a IH]; intros; [reflexivity|apply IH]).
        rewrite Happ. cbn [run_reqs req_step]. now rewrite <- Hst. }
      rewrite E. apply run_hbelow; [reflexivity| |intros d []]. apply Forall_app. split; [exact Hq|].
      constructor; [|constructor]. cbn [req_size]. unfold orcs_size. apply Forall_forall. intros [d0 o0] Hx.
      cbn [snd]. rewrite Forall_forall in Horc. apply Horc. eapply in_combine_r; eauto. }
    apply Hall. apply (by_id_in _ _ _ Hs). }
  rewrite <- (run_other qs' (rd_id r) Hno st') in Hs.
  apply (get_shown R' _ name' (rd_id r) s (mkDoc (rd_id r) p)); auto.
  unfold hnsw_below in *. change (Z.of_N (2 ^ 53)) with (2 ^ 53)%Z. change (Z.of_N 25000) with 25000%Z in Hb. lia.
Qed.
