(** C91: reading by a property answers with a document that has this value. *)
From Coq Require Import String Ascii.
From Verif Require Import Base F32 JsonNum PQ Graph Search Insert InsertHist Persist Client Collections Handlers HandlersProofs Bind GetProp TestInsert PropClient.
Local Open Scope string_scope.

(** The stored document has the string [v] under [p]. *)
Definition has (p v : string) (d : sdoc) : Prop := pget p (stored_props d) = Some (JStr v).
(** No character of [s] is an operator of the store's expressions. *)
Fixpoint without (bad : list ascii) (s : string) : Prop :=
  match s with
  | EmptyString => True
  | String c s' => ~ In c bad /\ without bad s'
  end.
Definition plain (s : string) : Prop := s <> "" /\ without ["="; "<"; ">"]%char s.
(** The store finds by equality: what it returns for "p=v" is stored and has the
    value, and it returns something if there is something. *)
Definition equality (F : string -> list sdoc -> option (list sdoc)) : Prop :=
  forall p v docs, plain p -> plain v -> exists l,
    F (p ++ "=" ++ v) docs = Some l
    /\ (forall d, In d l -> In d docs /\ has p v d)
    /\ (l = [] -> forall d, In d docs -> ~ has p v d).

Lemma eqb_empty s : s <> "" -> String.eqb s "" = false.
Proof. intros H. apply String.eqb_neq. exact H. Qed.
Lemma expr_of p v : p <> "" -> v <> "" -> find_expr p v = p ++ "=" ++ v.
Proof. intros P V. unfold find_expr. rewrite (eqb_empty _ P), (eqb_empty _ V). reflexivity. Qed.

(** Two reads the properties of which contain no "=" are the same expression only if
    they are the same read. *)
Theorem C91_expressions_differ_partial : forall p v p' v',
  p <> "" -> v <> "" -> p' <> "" -> v' <> "" -> without ["="%char] p -> without ["="%char] p' ->
  find_expr p v = find_expr p' v' -> p = p' /\ v = v'.
Proof.
  intros p v p' v' P V P' V' W W' E. rewrite !expr_of in E by assumption. clear P V P' V'.
  revert p' W' E. induction p as [|c p IH]; intros [|c' p'] W' E; cbn in E.
  - injection E as ->. auto.
  - injection E as Ec E. exfalso. destruct W' as (N & _). apply N. left. exact Ec.
  - injection E as Ec E. exfalso. destruct W as (N & _). apply N. left. symmetry. exact Ec.
  - injection E as -> E. destruct W as (_ & W), W' as (_ & W'). destruct (IH W p' W' E) as (-> & ->). auto.
Qed.

Lemma bound_name qs c p v : bind_get qs = Some (c, p, v) -> c <> "".
Proof.
  intros Hb ->. unfold bind_get, bind_param in Hb. destruct (find (fun kv => String.eqb "collection" (fst kv)) (rev qs)) as [[k x]|]; [|discriminate].
  destruct (String.eqb x "") eqn:Ex; [discriminate|]. repeat match type of Hb with match ?m with _ => _ end = _ => destruct m; try discriminate end.
  injection Hb as -> -> ->. discriminate.
Qed.

(** For every collection, whatever happened to it, and every store that finds by
    equality: the read succeeds exactly if some document has the value (or the store
    or the stored text fails), and then shows every property of a document that has it. *)
Theorem C91_reads_by_property_partial : forall R F qs c p v st,
  equality F -> plain p -> plain v -> bind_get qs = Some (c, p, v) ->
  r_isopen R = true -> r_docopen R = true ->
  (exists d, In d (c_docs st) /\ has p v d) ->
  (forall d, In d (c_docs st) -> has p v d -> reread_props (stored_props d) <> None) ->
  exists d rd, In d (c_docs st) /\ has p v d
    /\ snd (serve_get_by R F qs st) = Ok200 rd
    /\ (forall k, k <> "id" -> k <> "vector" -> shows (stored_props d) (ro_props rd) k)
    /\ (pget "id" (stored_props d) = Some (JStr (sd_id d)) -> ro_id rd = sd_id d)
    /\ (p <> "id" -> p <> "vector" -> rget p (ro_props rd) = Some (RStr v)).
Proof.
  intros R F qs c p v st HF Hp Hv Hb H1 H2 (d0 & Hd0 & Hh0) Hr.
  pose proof (bound_name _ _ _ _ Hb) as Hc.
  destruct (HF p v (c_docs st) Hp Hv) as (l & El & Hl & Hn).
  destruct l as [|d l]; [exfalso; exact (Hn eq_refl d0 Hd0 Hh0)|].
  destruct (Hl d (or_introl eq_refl)) as (Hd & Hh).
  destruct (reread_props (stored_props d)) as [r|] eqn:Er; [|exfalso; exact (Hr d Hd Hh Er)].
  exists d, (mkRD (id_of r) (rdel "vector" (rdel "id" r))).
  split; [exact Hd|]. split; [exact Hh|].
  pose proof (reread_props_shows _ _ Er) as Hs.
  assert (Hk : forall k, k <> "id" -> k <> "vector" -> rget k (rdel "vector" (rdel "id" r)) = rget k r).
  { intros k K1 K2. rewrite !rget_rdel. apply String.eqb_neq in K1, K2. rewrite K1, K2. reflexivity. }
  split.
  { unfold serve_get_by, handle_get_by, get_by. rewrite Hb, (eqb_empty _ Hc), H1, H2. cbn [negb].
    rewrite Bool.andb_false_r, (expr_of p v (proj1 Hp) (proj1 Hv)), El. cbn [snd]. rewrite Er. reflexivity. }
  cbn [ro_id ro_props]. split; [|split].
  - intros k K1 K2. specialize (Hs k). unfold shows in *. rewrite Hk by assumption. exact Hs.
  - intros Hi. specialize (Hs "id"). unfold shows in Hs. rewrite Hi in Hs. destruct Hs as (x & Ex & Sx).
    unfold id_of. rewrite Ex. inversion Sx. reflexivity.
  - intros K1 K2. rewrite Hk by assumption. specialize (Hs p). unfold shows in Hs. unfold has in Hh. rewrite Hh in Hs.
    destruct Hs as (x & Ex & Sx). rewrite Ex. inversion Sx. reflexivity.
Qed.

(** If no document has the value, the answer is "document not found". *)
Theorem C91_nothing_invented_partial : forall R F qs c p v st,
  equality F -> plain p -> plain v -> bind_get qs = Some (c, p, v) ->
  r_isopen R = true -> r_docopen R = true ->
  (forall d, In d (c_docs st) -> ~ has p v d) ->
  snd (serve_get_by R F qs st) = Bad400 EDocNotFound.
Proof.
  intros R F qs c p v st HF Hp Hv Hb H1 H2 Hno.
  unfold serve_get_by, handle_get_by, get_by. rewrite Hb, (eqb_empty _ (bound_name _ _ _ _ Hb)).
  rewrite H1, H2. cbn [negb]. rewrite Bool.andb_false_r, (expr_of p v (proj1 Hp) (proj1 Hv)).
  destruct (HF p v (c_docs st) Hp Hv) as (l & El & Hl & _). rewrite El.
  destruct l as [|d l]; [reflexivity|]. destruct (Hl d (or_introl eq_refl)) as (Hd & Hh). exfalso. exact (Hno d Hd Hh).
Qed.

(** The property "id" is the read of the other files, for a store that finds the first. *)
Theorem C91_by_id : forall R F id st,
  id <> "" -> F ("id=" ++ id) (c_docs st) = Some (match find (fun d => String.eqb id (sd_id d)) (c_docs st) with Some d => [d] | None => [] end) ->
  get_by R F "id" id st = get_document R true id st.
Proof.
  intros R F id st Hid HF. unfold get_by, get_document. rewrite expr_of by (assumption || discriminate).
  change ("id" ++ "=" ++ id) with ("id=" ++ id). rewrite HF.
  destruct (negb (r_isopen R)); [reflexivity|]. destruct (negb (c_open st) && negb (r_docopen R)); [reflexivity|].
  cbn [negb]. destruct (find _ _); reflexivity.
Qed.

(** Whatever the store does with its expressions: of the two documents
    {"a=b": "c"} and {"a": "b=c"}, added in one acknowledged request, one cannot be
    read by its property, because both reads are the expression a=b=c. *)
Definition docs91 : list (option docin * dorc) :=
  [(Some (mkDoc "x" [("a=b", JStr "c"); ("vector", JArr [num 1; num 0])]), ook);
   (Some (mkDoc "y" [("a", JStr "b=c"); ("vector", JArr [num 0; num 1])]), ook)]%Z.
Definition st91 : coll := run_reqs new_coll [QAdd rok true ["text"] docs91].
Theorem C91_same_expression_refuted : forall F,
  (forall e docs l, F e docs = Some l -> incl l docs) ->
  exists qs p v d, bind_get qs = Some ("c", p, v) /\ In d (c_docs st91) /\ has p v d
    /\ forall R rd, snd (serve_get_by R F qs st91) = Ok200 rd -> rget p (ro_props rd) <> Some (RStr v).
Proof.
  intros F HF.
  set (q1 := [("collection", "c"); ("property", "a=b"); ("value", "c")]).
  set (q2 := [("collection", "c"); ("property", "a"); ("value", "b=c")]).
  assert (HE : exists dx dy, c_docs st91 = [dy; dx] /\ has "a=b" "c" dx /\ has "a" "b=c" dy
     /\ (forall r, reread_props (stored_props dx) = Some r -> rget "a" (rdel "vector" (rdel "id" r)) = None)
     /\ (forall r, reread_props (stored_props dy) = Some r -> rget "a=b" (rdel "vector" (rdel "id" r)) = None)).
  { let l := eval vm_compute in (c_docs st91) in match l with [?a; ?b] => exists b, a end.
    split; [vm_compute; reflexivity|]. split; [vm_compute; reflexivity|]. split; [vm_compute; reflexivity|].
    split; intros r E; vm_compute in E; injection E as <-; reflexivity. }
  destruct HE as (dx & dy & HE & Hx & Hy & Nx & Ny).
  destruct (F "a=b=c" (c_docs st91)) as [[|d l]|] eqn:EF.
  - exists q1, "a=b", "c", dx. split; [reflexivity|]. split; [rewrite HE; right; left; reflexivity|]. split; [exact Hx|].
    intros R rd. unfold serve_get_by, handle_get_by, get_by. cbn [bind_get q1].
    change (bind_get q1) with (Some ("c", "a=b", "c")). cbn [String.eqb].
    change (find_expr "a=b" "c") with "a=b=c". rewrite EF.
    destruct (negb (r_isopen R)); [discriminate|]. destruct (negb (c_open st91) && negb (r_docopen R)); discriminate.
  - assert (Hd : d = dx \/ d = dy).
    { pose proof (HF _ _ _ EF d (or_introl eq_refl)) as A. rewrite HE in A. destruct A as [<-|[<-|[]]]; auto. }
    destruct Hd as [->| ->].
    + exists q2, "a", "b=c", dy. split; [reflexivity|]. split; [rewrite HE; left; reflexivity|]. split; [exact Hy|].
      intros R rd. unfold serve_get_by, handle_get_by, get_by.
      change (bind_get q2) with (Some ("c", "a", "b=c")). cbn [String.eqb].
      change (find_expr "a" "b=c") with "a=b=c". rewrite EF.
      destruct (negb (r_isopen R)); [discriminate|]. destruct (negb (c_open st91) && negb (r_docopen R)); [discriminate|].
      destruct (reread_props (stored_props dx)) as [r|]; [|discriminate]. intros [= <-]. cbn [ro_props]. rewrite (Nx r eq_refl). discriminate.
    + exists q1, "a=b", "c", dx. split; [reflexivity|]. split; [rewrite HE; right; left; reflexivity|]. split; [exact Hx|].
      intros R rd. unfold serve_get_by, handle_get_by, get_by.
      change (bind_get q1) with (Some ("c", "a=b", "c")). cbn [String.eqb].
      change (find_expr "a=b" "c") with "a=b=c". rewrite EF.
      destruct (negb (r_isopen R)); [discriminate|]. destruct (negb (c_open st91) && negb (r_docopen R)); [discriminate|].
      destruct (reread_props (stored_props dy)) as [r|]; [|discriminate]. intros [= <-]. cbn [ro_props]. rewrite (Ny r eq_refl). discriminate.
  - exists q1, "a=b", "c", dx. split; [reflexivity|]. split; [rewrite HE; right; left; reflexivity|]. split; [exact Hx|].
    intros R rd. unfold serve_get_by, handle_get_by, get_by.
    change (bind_get q1) with (Some ("c", "a=b", "c")). cbn [String.eqb].
    change (find_expr "a=b" "c") with "a=b=c". rewrite EF.
    destruct (negb (r_isopen R)); [discriminate|]. destruct (negb (c_open st91) && negb (r_docopen R)); discriminate.
Qed.

(** Called without a value, the client asks for any document: every property gets the
    same answer (the HTTP layer refuses such requests, C76). *)
Theorem C91_without_value : forall R F p p' st, get_by R F p "" st = get_by R F p' "" st.
Proof. intros. unfold get_by, find_expr. rewrite !Bool.andb_false_r. reflexivity. Qed.

(** A store that finds by equality. *)
Fixpoint split_at (s : string) : string * string :=
  match s with
  | EmptyString => ("", "")
  | String c s' => if Ascii.eqb c "=" then ("", s') else let (a, b) := split_at s' in (String c a, b)
  end.
Definition store91 (e : string) (docs : list sdoc) : option (list sdoc) :=
  let (p, v) := split_at e in
  Some (firstn 1 (filter (fun d => match pget p (stored_props d) with Some (JStr w) => String.eqb w v | _ => false end) docs)).
Lemma split_expr p v : without ["="; "<"; ">"]%char p -> split_at (p ++ "=" ++ v) = (p, v).
Proof.
  induction p as [|c p IH]; intros W; cbn; [reflexivity|]. destruct W as (N & W).
  destruct (Ascii.eqb_spec c "=") as [->|_]; [exfalso; apply N; left; reflexivity|].
  specialize (IH W). cbn in IH. rewrite IH. reflexivity.
Qed.
Lemma store91_equality : equality store91.
Proof.
  intros p v docs (_ & Wp) _. unfold store91. rewrite (split_expr p v Wp).
  eexists. split; [reflexivity|]. set (f := fun d => _).
  assert (Hf : forall d, f d = true <-> has p v d).
  { intros d. unfold f, has. destruct (pget p (stored_props d)) as [[]|]; try (split; [discriminate|congruence]).
    rewrite String.eqb_eq. split; [intros ->; reflexivity|congruence]. }
  split.
  - intros d Hd. assert (Hd' : In d (filter f docs)).
    { revert Hd. destruct (filter f docs); cbn; [tauto|]. tauto. }
    apply filter_In in Hd'. destruct Hd' as (A & B). split; [exact A|]. apply Hf, B.
  - intros E d Hd Hh. assert (A : In d (filter f docs)) by (apply filter_In; split; [exact Hd|apply Hf, Hh]).
    destruct (filter f docs); [destruct A|discriminate].
Qed.
(** The hypotheses hold for a request history and a property other than "id". *)
Example C91_nonvacuous :
  let qs := [("collection", "c"); ("property", "name"); ("value", "b")] in
  let st := run_reqs new_coll [req1] in
  equality store91 /\ plain "name" /\ plain "b" /\ bind_get qs = Some ("c", "name", "b")
  /\ (exists d, In d (c_docs st) /\ has "name" "b" d)
  /\ (exists rd, snd (serve_get_by rok store91 qs st) = Ok200 rd /\ ro_id rd = "b")
  /\ snd (serve_get_by rok store91 [("collection", "c"); ("property", "name"); ("value", "q")] st) = Bad400 EDocNotFound.
Proof.
  split; [exact store91_equality|].
  assert (N : forall s, s <> "" -> forallb (fun c => negb (existsb (Ascii.eqb c) ["="; "<"; ">"]%char)) (list_ascii_of_string s) = true -> plain s).
  { intros s Hs H. split; [exact Hs|]. clear Hs. induction s as [|c s IH]; cbn in *; [exact I|].
    apply andb_true_iff in H. destruct H as (A & B). split; [|apply IH, B].
    intros [<-|[<-|[<-|[]]]]; discriminate. }
  split; [apply N; [discriminate|reflexivity]|]. split; [apply N; [discriminate|reflexivity]|]. split; [reflexivity|].
  split; [let l := eval vm_compute in (c_docs (run_reqs new_coll [req1])) in match l with [_; ?b; _] => exists b end;
    split; vm_compute; [tauto|reflexivity]|].
  split; [eexists; split; vm_compute; reflexivity|vm_compute; reflexivity].
Qed.

Print Assumptions C91_expressions_differ_partial.
Print Assumptions C91_reads_by_property_partial.
Print Assumptions C91_nothing_invented_partial.
Print Assumptions C91_by_id.
Print Assumptions C91_same_expression_refuted.
Print Assumptions C91_without_value.
