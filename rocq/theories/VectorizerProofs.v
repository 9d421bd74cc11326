(** Proofs about the vectoriser: failing answers. *)
From Coq Require Import String.
From Verif Require Import Base F32 JsonNum PQ Graph Search Insert InsertHist Persist Client ClientProofs ClientSafe ClientFacts Handlers Vectorizer.
Local Open Scope string_scope.

(** Two collections that differ in the log at most. *)
Definition same (a b : coll) : Prop :=
  c_h a = c_h b /\ c_reg a = c_reg b /\ c_open a = c_open b /\ c_docs a = c_docs b.
Lemma same_refl a : same a a. Proof. repeat split. Qed.
Lemma same_trans a b c : same a b -> same b c -> same a c.
Proof. intros (A & B & C & D) (A' & B' & C' & D'). repeat split; congruence. Qed.
Lemma same_log a e : same (logged a e) a. Proof. repeat split. Qed.
Lemma same_with a b h : same a b -> same (with_h a h) (with_h b h).
Proof. intros (A & B & C & D). repeat split; assumption. Qed.

Lemma store_doc_same o a b d : same a b ->
  same (fst (store_doc o a d)) (fst (store_doc o b d)) /\ snd (store_doc o a d) = snd (store_doc o b d).
Proof.
  intros (A & B & C & D). unfold store_doc. destruct (do_marshal o); cbn [negb]; [destruct (do_docput o)|]; cbn [fst snd];
    repeat split; cbn [c_h c_reg c_open c_docs logged]; congruence.
Qed.
Definition sim (x y : coll * N * res unit) : Prop := same (fst (fst x)) (fst (fst y)) /\ snd (fst x) = snd (fst y) /\ snd x = snd y.
Lemma add_indexed_same o a b i d p v : same a b -> sim (add_indexed o a i d p v) (add_indexed o b i d p v).
Proof.
  intros Hs. unfold add_indexed. rewrite (proj1 Hs). destruct (add (do_env o) (c_h b) i v (do_lvl o)) as [h' [u|e| |]].
  - destruct (store_doc_same o _ _ (mkSD (di_id d) (Z.of_N i) p (Some v)) (same_with a b h' Hs)) as [S1 S2].
    destruct (store_doc o (with_h a h') _) as [a1 r1]. destruct (store_doc o (with_h b h') _) as [b1 r2].
    split; [exact S1|split; [reflexivity|exact S2]].
  - split; [|split; reflexivity]. eapply same_trans; [apply same_log|]. apply (same_with a b h') in Hs.
    eapply same_trans; [exact Hs|]. repeat split.
  - split; [now apply same_with|split; reflexivity].
  - split; [now apply same_with|split; reflexivity].
Qed.
Lemma add_doc_same lookup keys a b i d o : same a b -> sim (add_doc lookup keys a i d o) (add_doc lookup keys b i d o).
Proof.
  intros Hs. unfold add_doc. destruct d as [d|]; [|split; [exact Hs|split; reflexivity]].
  set (p := pset "id" _ _).
  assert (T : sim match vector_text p keys with
          | Ok text =>
              if String.eqb text "" then
                let (st', r) := store_doc o a (mkSD (di_id d) (-1) p None) in (st', i, r)
              else if negb lookup then (a, i, Err ENoVectorizer)
              else match do_corpi o text with
                   | Ok (Some v) => add_indexed o a i d p v
                   | Ok None => (a, i, Panic)
                   | Err _ => (logged a EVectorizer, i, Ok tt)
                   | Panic => (a, i, Panic)
                   | OutOfFuel => (a, i, OutOfFuel)
                   end
          | Err e => (a, i, Err e)
          | Panic => (a, i, Panic)
          | OutOfFuel => (a, i, OutOfFuel)
          end match vector_text p keys with
          | Ok text =>
              if String.eqb text "" then
                let (st', r) := store_doc o b (mkSD (di_id d) (-1) p None) in (st', i, r)
              else if negb lookup then (b, i, Err ENoVectorizer)
              else match do_corpi o text with
                   | Ok (Some v) => add_indexed o b i d p v
                   | Ok None => (b, i, Panic)
                   | Err _ => (logged b EVectorizer, i, Ok tt)
                   | Panic => (b, i, Panic)
                   | OutOfFuel => (b, i, OutOfFuel)
                   end
          | Err e => (b, i, Err e)
          | Panic => (b, i, Panic)
          | OutOfFuel => (b, i, OutOfFuel)
          end).
  { destruct (vector_text p keys) as [t|e| |]; try (split; [exact Hs|split; reflexivity]).
    destruct (String.eqb t "").
    - destruct (store_doc_same o a b (mkSD (di_id d) (-1) p None) Hs) as [S1 S2].
      destruct (store_doc o a _) as [a1 r1]. destruct (store_doc o b _) as [b1 r2]. split; [exact S1|split; [reflexivity|exact S2]].
    - destruct (negb lookup); [split; [exact Hs|split; reflexivity]|].
      destruct (do_corpi o t) as [[v|]|e| |]; try (split; [exact Hs|split; reflexivity]). now apply add_indexed_same. }
  destruct (pget "vector" p) as [[]|]; try exact T; try (split; [exact Hs|split; reflexivity]).
  - destruct (vector_of l); [now apply add_indexed_same|split; [exact Hs|split; reflexivity]].
  - now apply add_indexed_same.
Qed.
Lemma add_loop_same lookup keys docs : forall a b i, same a b -> sim (add_loop lookup keys a i docs) (add_loop lookup keys b i docs).
Proof.
  induction docs as [|[d o] docs IH]; intros a b i Hs; cbn [add_loop]; [split; [exact Hs|split; reflexivity]|].
  pose proof (add_doc_same lookup keys a b i d o Hs) as (S1 & S2 & S3).
  destruct (add_doc lookup keys a i d o) as [[a1 i1] r1]. destruct (add_doc lookup keys b i d o) as [[b1 i2] r2].
  cbn [fst snd] in *. subst i2 r2. destruct r1; [now apply IH| | |]; (split; [exact S1|split; reflexivity]).
Qed.

(** A document that is indexed by its text, and that text. *)
Definition by_text (keys : list string) (d : docin) (t : string) : Prop :=
  (pget "vector" (di_props d) = None \/ pget "vector" (di_props d) = Some JNull) /\
  vector_text (pset "id" (JStr (di_id d)) (di_props d)) keys = Ok t /\ t <> "".
Lemma add_doc_text lookup keys st i d o t : by_text keys d t ->
  add_doc lookup keys st i (Some d) o =
  if negb lookup then (st, i, Err ENoVectorizer)
  else match do_corpi o t with
       | Ok (Some v) => add_indexed o st i d (pset "id" (JStr (di_id d)) (di_props d)) v
       | Ok None => (st, i, Panic)
       | Err _ => (logged st EVectorizer, i, Ok tt)
       | Panic => (st, i, Panic)
       | OutOfFuel => (st, i, OutOfFuel)
       end.
Proof.
  intros (H1 & H2 & H3). unfold add_doc. rewrite pget_pset. change (String.eqb "vector" "id") with false. cbv iota.
  destruct H1 as [-> | ->]; rewrite H2; destruct (String.eqb_spec t ""); try contradiction; reflexivity.
Qed.
