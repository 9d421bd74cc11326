(** Facts about the binding of requests. *)
From Coq Require Import String Ascii DecimalString DecimalN Reals Lra.
From Verif Require Import Base F32 JsonNum JsonNumProofs NumProofs Graph Search Insert InsertHist Persist Client ClientProofs ClientFacts Collections
  Handlers HandlersProofs Vectorizer Bind.
Local Open Scope string_scope.

Lemma dec_fields_app {A : Type} (step : string -> jval -> A -> option A) l1 : forall l2 a,
  dec_fields step (l1 ++ l2)%list a = match dec_fields step l1 a with Some a' => dec_fields step l2 a' | None => None end.
Proof.
  induction l1 as [|[k x] l1 IH]; intros l2 a; cbn [dec_fields app]; [reflexivity|]. destruct (step k x a); [apply IH|reflexivity].
Qed.
Lemma dec_fields_bad {A : Type} (step : string -> jval -> A -> option A) l k x : In (k, x) l -> (forall a, step k x a = None) ->
  forall a, dec_fields step l a = None.
Proof.
  intros H Hs. induction l as [|[k' x'] l IH]; [destruct H|]. intros a. cbn [dec_fields]. destruct H as [[= -> ->]|H].
  - now rewrite Hs.
  - destruct (step k' x' a); [now apply IH|reflexivity].
Qed.
Lemma dec_all_map {A B : Type} (dec : jval -> option A) (f : B -> jval) (g : B -> A) l :
  (forall x, In x l -> dec (f x) = Some (g x)) -> dec_all dec (map f l) = Some (map g l).
Proof.
  induction l as [|x l IH]; intros H; cbn [dec_all map]; [reflexivity|].
  rewrite H by now left. rewrite IH by (intros y Hy; apply H; now right). reflexivity.
Qed.
Lemma dec_slice_map {A : Type} (dec : jval -> option A) (f : A -> jval) l :
  (forall xs x, l = Some xs -> In x xs -> dec (f x) = Some x) -> dec_slice dec (slice_json (option_map (map f) l)) = Some l.
Proof.
  intros H. destruct l as [l|]; [|reflexivity]. cbn [option_map slice_json dec_slice].
  rewrite (dec_all_map dec f (fun x => x)) by (intros x Hx; now apply (H l x)). now rewrite map_id.
Qed.

(** Values without equal names in one object. *)
Fixpoint distinct (j : jval) : Prop :=
  match j with
  | JArr l => (fix go (l : list jval) := match l with [] => True | x :: l' => distinct x /\ go l' end) l
  | JObj l => NoDup (map fst l) /\
      (fix go (l : list (string * jval)) := match l with [] => True | (_, x) :: l' => distinct x /\ go l' end) l
  | _ => True
  end.
Lemma uniq_id l : NoDup (map fst l) -> uniq l = l.
Proof.
  induction l as [|[k x] l IH]; [reflexivity|]. cbn [map fst uniq]. intros H. inversion H as [|? ? Hn Hd]; subst.
  destruct (existsb (fun kx => String.eqb k (fst kx)) l) eqn:E.
  - exfalso. apply existsb_exists in E. destruct E as ([k' x'] & Hin & E). cbn in E. apply String.eqb_eq in E. subst k'.
    apply Hn. change k with (fst (k, x')). now apply in_map.
  - now rewrite IH.
Qed.
Section Ind.
Variable P : jval -> Prop.
Hypothesis Hnull : P JNull.
Hypothesis Hbool : forall b, P (JBool b).
Hypothesis Hnum : forall s, P (JNum s).
Hypothesis Hstr : forall s, P (JStr s).
Hypothesis Harr : forall l, Forall P l -> P (JArr l).
Hypothesis Hobj : forall l, Forall (fun kx => P (snd kx)) l -> P (JObj l).
Hypothesis Hvec : forall v, P (JVec v).
Fixpoint jval_all (j : jval) : P j :=
  match j with
  | JNull => Hnull
  | JBool b => Hbool b
  | JNum s => Hnum s
  | JStr s => Hstr s
  | JArr l => Harr l ((fix go (l : list jval) : Forall P l :=
                         match l with [] => Forall_nil P | x :: l' => Forall_cons x (jval_all x) (go l') end) l)
  | JObj l => Hobj l ((fix go (l : list (string * jval)) : Forall (fun kx => P (snd kx)) l :=
                         match l with
                         | [] => Forall_nil _
                         | kx :: l' => Forall_cons kx (jval_all (snd kx)) (go l')
                         end) l)
  | JVec v => Hvec v
  end.
End Ind.
Lemma iface_id j : distinct j -> iface j = j.
Proof.
  induction j using jval_all; try reflexivity.
  - cbn [distinct iface]. intros D. f_equal. induction H as [|x l Hx Hl IH]; [reflexivity|]. destruct D as [D1 D2].
    rewrite (Hx D1). f_equal. now apply IH.
  - cbn [distinct iface]. intros [D0 D]. f_equal.
    match goal with |- uniq ?x = _ => assert (E : x = l) end.
    { clear D0. induction H as [|[k x] l Hx Hl IH]; [reflexivity|]. cbn [snd] in Hx. destruct D as [D1 D2].
      rewrite (Hx D1). f_equal. now apply IH. }
    rewrite E. now apply uniq_id.
Qed.

Lemma opt_str_dec {A : Type} (step : string -> jval -> A -> option A) k s a a' :
  (s = "" -> a = a') -> (s <> "" -> step k (JStr s) a = Some a') -> dec_fields step (opt_str k s) a = Some a'.
Proof.
  intros H1 H2. unfold opt_str. destruct (String.eqb_spec s "") as [E|E]; cbn [dec_fields]; [now rewrite H1|now rewrite H2].
Qed.

Lemma dec_doc_json d : (forall r, d = Some r -> distinct (rd_props r)) -> dec_ptr dec_doc (doc_json d) = Some d.
Proof.
  destruct d as [[id p]|]; [|reflexivity]. intros H. specialize (H _ eq_refl). cbn [rd_props] in H. cbn [doc_json dec_ptr rd_id rd_props].
  unfold dec_doc. cbn [dec_struct]. rewrite dec_fields_app.
  rewrite (opt_str_dec step_doc "id" id (mkRaw "" JNull) (mkRaw id JNull)); [|now intros ->|reflexivity].
  pose proof (iface_id p H) as E.
  destruct p; cbn [dec_fields]; try (unfold step_doc; change (is_field "id" "properties") with false;
    change (is_field "properties" "properties") with true; cbv iota; rewrite E; reflexivity); reflexivity.
Qed.

Lemma add_as_sent uuid r :
  (forall ds d, aq_docs r = Some ds -> In (Some d) ds -> distinct (rd_props d) /\ (rd_id d = "" \/ uuid (rd_id d) = true)) ->
  bind_add uuid (Body (add_json r)) = Some r.
Proof.
  destruct r as [ds name keys]. intros H. unfold bind_add, bind_body, add_json. cbn [dec_struct aq_docs aq_name aq_keys].
  rewrite dec_fields_app. cbn [dec_fields]. unfold step_add at 1. change (is_field "documents" "documents") with true. cbv iota.
  rewrite (dec_slice_map (dec_ptr dec_doc) doc_json ds).
  2:{ intros xs x E Hx. apply dec_doc_json. intros d ->. now apply (H xs d). }
  rewrite dec_fields_app. cbn [aq_docs aq_name aq_keys].
  rewrite (opt_str_dec step_add "name" name _ (mkAddReq ds name None)); [|now intros ->|reflexivity].
  cbn [dec_fields]. unfold step_add. change (is_field "documents" "propertiesToVectorize") with false.
  change (is_field "name" "propertiesToVectorize") with false. change (is_field "propertiesToVectorize" "propertiesToVectorize") with true.
  cbv iota. rewrite (dec_slice_map (dec_string "") JStr keys) by reflexivity. cbn [aq_docs aq_name aq_keys].
  assert (V : valid_add uuid (mkAddReq ds name keys) = true).
  { unfold valid_add. cbn [aq_docs]. destruct ds as [ds|]; [|reflexivity]. apply forallb_forall. intros [d|] Hd; [|reflexivity].
    cbn [valid_doc]. destruct (H ds d eq_refl Hd) as [_ [-> | ->]]; [reflexivity|]. apply Bool.orb_true_r. }
  now rewrite V.
Qed.

Lemma parse_int_text z : (-9223372036854775808 <= z < 9223372036854775808)%Z -> parse_int (int_text z) = Some z.
Proof.
  intros H. unfold parse_int.
  assert (Hb : (Z.leb (-9223372036854775808) z && Z.ltb z 9223372036854775808)%bool = true).
  { apply andb_true_intro. split; [apply Z.leb_le|apply Z.ltb_lt]; lia. }
  assert (Hpos : forall n, (0 <= z)%Z -> z = Z.of_N n ->
    (let (neg, s1) := match NilZero.string_of_uint (N.to_uint n) with String "-" t => (true, t) | _ => (false, NilZero.string_of_uint (N.to_uint n)) end in
     match read_digits s1 0 0 with
     | (n, k, EmptyString) =>
      let z := (if neg then - n else n)%Z in
      if Z.eqb k 0 then None
      else if Z.leb (-9223372036854775808) z && Z.ltb z 9223372036854775808 then Some z else None
     | _ => None
     end) = Some z).
  { intros n _ ->. destruct (uint_head n) as (c & s & E & Hc). destruct (uint_text n) as (k & Hr & Hk). rewrite E in *.
    assert (G : match String c s with String "-" t => (true, t) | _ => (false, String c s) end = (false, String c s)).
    { apply Ascii.eqb_neq in Hc. destruct c as [[|] [|] [|] [|] [|] [|] [|] [|]]; try reflexivity. congruence. }
    rewrite G, Hr. destruct (Z.eqb_spec k 0); [lia|]. cbv zeta. now rewrite Hb. }
  destruct z as [|p|p]; cbn [int_text].
  - apply (Hpos 0%N); [lia|reflexivity].
  - apply (Hpos (Npos p)); [lia|reflexivity].
  - destruct (uint_text (Npos p)) as (k & Hr & Hk). cbn [append]. rewrite Hr. destruct (Z.eqb_spec k 0); [lia|]. cbv zeta.
    change (- Z.of_N (Npos p))%Z with (Zneg p). now rewrite Hb.
Qed.
Lemma parse_int_value s z : parse_int s = Some z -> num_value s = Some (IZR z) /\ (-9223372036854775808 <= z < 9223372036854775808)%Z.
Proof.
  unfold parse_int, num_value, decimal_of.
  destruct (match s with String "-" t => (true, t) | _ => (false, s) end) as [neg s1].
  destruct (read_digits s1 0 0) as [[n k] s2]. destruct s2; [|discriminate]. destruct (Z.eqb k 0); [discriminate|].
  destruct (Z.leb _ _ && Z.ltb _ _)%bool eqn:E; [|discriminate]. intros [= <-]. apply andb_prop in E. destruct E as [E1 E2].
  apply Z.leb_le in E1. apply Z.ltb_lt in E2. split; [|lia]. cbn [read_exp]. f_equal. unfold dec_value. cbn [powerRZ].
  destruct neg; [rewrite opp_IZR|]; ring.
Qed.

Lemma dist_dec {A : Type} (step : string -> jval -> A -> option A) ftext x a a' :
  (x = f32_zero -> a = a') -> (x <> f32_zero -> step "distance" (JNum (ftext x)) a = Some a') ->
  x <> S754_zero true -> dec_fields step (dist_json ftext x) a = Some a'.
Proof.
  intros H1 H2 H3. unfold dist_json, num_json. destruct x as [[|]|b| |b m e]; try congruence; cbn [dec_fields].
  - now rewrite H1.
  - now rewrite H2.
  - now rewrite H2.
  - now rewrite H2.
Qed.
Lemma limit_dec {A : Type} (step : string -> jval -> A -> option A) n a a' :
  (n = 0%Z -> a = a') -> step "limit" (JNum (int_text n)) a = Some a' -> dec_fields step (limit_json n) a = Some a'.
Proof.
  intros H1 H2. unfold limit_json. destruct (Z.eqb_spec n 0) as [E|E]; cbn [dec_fields]; [now rewrite H1|now rewrite H2].
Qed.

Lemma text_as_sent ftext r :
  tq_dist r <> S754_zero true -> f32_of_text (ftext (tq_dist r)) = Some (tq_dist r) ->
  (-9223372036854775808 <= tq_limit r < 9223372036854775808)%Z -> bind_text (Body (text_json ftext r)) = Some r.
Proof.
  destruct r as [d n name text]. cbn [tq_dist tq_limit]. intros Hz Hd Hn. unfold bind_text, bind_body, text_json. cbn [dec_struct tq_dist tq_limit tq_name tq_text].
  rewrite dec_fields_app.
  rewrite (dist_dec step_text ftext d _ (mkTextReq d 0 "" "")); [|now intros ->| |exact Hz].
  2:{ intros _. unfold step_text. change (is_field "distance" "distance") with true. cbv iota. cbn [dec_f32]. now rewrite Hd. }
  rewrite dec_fields_app. rewrite (limit_dec step_text n _ (mkTextReq d n "" "")); [|now intros ->|].
  2:{ unfold step_text. change (is_field "distance" "limit") with false. change (is_field "limit" "limit") with true. cbv iota.
      cbn [dec_int]. now rewrite parse_int_text. }
  rewrite dec_fields_app. rewrite (opt_str_dec step_text "name" name _ (mkTextReq d n name "")); [|now intros ->|reflexivity].
  rewrite (opt_str_dec step_text "text" text _ (mkTextReq d n name text)); [|now intros ->|reflexivity]. reflexivity.
Qed.
Lemma vec_as_sent ftext r :
  vq_dist r <> S754_zero true -> f32_of_text (ftext (vq_dist r)) = Some (vq_dist r) ->
  (forall q x, vq_vec r = Some q -> In x q -> f32_of_text (ftext x) = Some x) ->
  (-9223372036854775808 <= vq_limit r < 9223372036854775808)%Z -> bind_vec (Body (vec_json ftext r)) = Some r.
Proof.
  destruct r as [d n name q]. cbn [vq_dist vq_limit vq_vec]. intros Hz Hd Hq Hn. unfold bind_vec, bind_body, vec_json. cbn [dec_struct vq_dist vq_limit vq_name vq_vec].
  rewrite dec_fields_app.
  rewrite (dist_dec step_vec ftext d _ (mkVecReq d 0 "" None)); [|now intros ->| |exact Hz].
  2:{ intros _. unfold step_vec. change (is_field "distance" "distance") with true. cbv iota. cbn [dec_f32]. now rewrite Hd. }
  rewrite dec_fields_app. rewrite (limit_dec step_vec n _ (mkVecReq d n "" None)); [|now intros ->|].
  2:{ unfold step_vec. change (is_field "distance" "limit") with false. change (is_field "limit" "limit") with true. cbv iota.
      cbn [dec_int]. now rewrite parse_int_text. }
  rewrite dec_fields_app. rewrite (opt_str_dec step_vec "name" name _ (mkVecReq d n name None)); [|now intros ->|reflexivity].
  cbn [dec_fields]. unfold step_vec. change (is_field "distance" "vector") with false. change (is_field "limit" "vector") with false.
  change (is_field "name" "vector") with false. change (is_field "vector" "vector") with true. cbv iota.
  rewrite (dec_slice_map (dec_f32 f32_zero) (num_json ftext) q); [reflexivity|].
  intros xs x E Hx. cbn [num_json dec_f32]. now apply (Hq xs x).
Qed.
Lemma index_as_sent x : dec_ptr (dec_struct step_index ("", "")) (index_json x) = Some x.
Proof.
  destruct x as [[f t]|]; [|reflexivity]. cbn [index_json dec_ptr dec_struct]. rewrite dec_fields_app.
  rewrite (opt_str_dec step_index "fieldName" f _ (f, "")); [|now intros ->|reflexivity].
  rewrite (opt_str_dec step_index "fieldType" t _ (f, t)); [|now intros ->|reflexivity]. reflexivity.
Qed.
Lemma coll_as_sent r : bind_coll (Body (coll_json r)) = Some r.
Proof.
  destruct r as [name idx]. unfold bind_coll, bind_body, coll_json. cbn [dec_struct b_name b_indexes]. rewrite dec_fields_app.
  cbn [dec_fields]. unfold step_coll at 1. change (is_field "indexes" "indexes") with true. cbv iota.
  rewrite (dec_slice_map _ index_json idx) by (intros xs x _ _; apply index_as_sent). cbn [b_name b_indexes].
  rewrite (opt_str_dec step_coll "name" name _ (mkB name idx)); [|now intros ->|reflexivity]. reflexivity.
Qed.

(** The ids of stored documents. *)
Lemma raw_docs_from rs : forall ds d, raw_docs rs = Some ds -> In (Some d) ds -> exists r, In (Some r) rs /\ rd_id r = di_id d.
Proof.
  induction rs as [|[r|] rs IH]; intros ds d; cbn [raw_docs]; [intros [= <-] []| |discriminate].
  destruct (raw_docs rs) as [ds'|]; [|discriminate]. intros [= <-] [H|H].
  - exists r. split; [now left|]. destruct (rd_props r); try discriminate. now injection H as <-.
  - destruct (IH ds' d eq_refl H) as (r' & H1 & H2). exists r'. split; [now right|exact H2].
Qed.
Lemma handle_add_from R lookup orcs name docs keys st x :
  In x (c_docs (fst (handle_add R lookup orcs name docs keys st))) ->
  (exists rs r, docs = Some rs /\ In (Some r) rs /\ rd_id r = sd_id x) \/ In x (c_docs st).
Proof.
  unfold handle_add. destruct (String.eqb name ""); [now right|]. destruct docs as [rs|]; [|now right].
  destruct keys as [ks|]; [|now right]. destruct (raw_docs rs) as [ds|] eqn:E; [|now right].
  pose proof (add_documents_from R lookup ks (combine ds orcs) st x) as H.
  destruct (add_documents R lookup ks (combine ds orcs) st) as [st' [u|e| |]]; cbn [fst] in *; intros Hx;
    (destruct (H Hx) as [(di & o & Hin & Hf)|Hi]; [left|now right]);
    (apply in_combine_l in Hin; destruct (raw_docs_from rs ds di E Hin) as (r & Hr & Er); exists rs, r; split; [reflexivity|]; split; [exact Hr|];
     rewrite Er; symmetry; apply Hf).
Qed.
Lemma near_response_docs r : c_docs (fst (near_response r)) = c_docs (fst r).
Proof. destruct r as [st [[docs dists]|e| |]]; reflexivity. Qed.
Lemma serve_ids uuid (q : wreq) st x : In x (c_docs (serve uuid st q)) ->
  (sd_id x = "" \/ uuid (sd_id x) = true) \/ In x (c_docs st).
Proof.
  destruct q as [R lk orcs b|Q lk V b|Q b|R ok qs| |]; cbn [serve].
  - unfold serve_add. destruct (bind_add uuid b) as [r|] eqn:E; [|now right]. intros Hx. apply handle_add_from in Hx.
    destruct Hx as [(rs & d & Hd & Hin & <-)|Hx]; [|now right]. left. unfold bind_add, bind_body in E.
    destruct b as [| |j]; try discriminate. destruct (dec_struct step_add _ j) as [r'|]; [|discriminate].
    destruct (valid_add uuid r') eqn:V; [|discriminate]. injection E as ->. unfold valid_add in V. rewrite Hd in V.
    rewrite forallb_forall in V. specialize (V _ Hin). cbn [valid_doc] in V. apply Bool.orb_prop in V.
    destruct V as [V|V]; [left; now apply String.eqb_eq|now right].
  - unfold serve_text. destruct (bind_text b) as [r|]; [|now right]. unfold handle_near_text.
    destruct (String.eqb (tq_name r) ""); [now right|]. destruct (String.eqb (tq_text r) ""); [now right|].
    rewrite near_response_docs, near_text_docs. now right.
  - unfold serve_vec. destruct (bind_vec b) as [r|]; [|now right]. unfold handle_near_vector.
    destruct (String.eqb (vq_name r) ""); [now right|]. destruct (vq_vec r) as [v|]; [|now right].
    rewrite near_response_docs, near_vec_docs. now right.
  - unfold serve_get. destruct (bind_get qs) as [[[c p] v]|]; [|now right]. destruct (String.eqb p "id"); [|now right].
    unfold handle_get. destruct (String.eqb c ""); [now right|]. pose proof (get_docs R ok v st) as H.
    destruct (get_document R ok v st) as [st' [d|e| |]]; cbn [fst] in *; rewrite H; now right.
  - now right.
  - now right.
Qed.
Lemma run_ids uuid qs : forall st x, In x (c_docs (run_http uuid st qs)) ->
  (sd_id x = "" \/ uuid (sd_id x) = true) \/ In x (c_docs st).
Proof.
  induction qs as [|q qs IH]; intros st x Hx; cbn [run_http] in *; [now right|].
  destruct (IH _ _ Hx) as [H|H]; [now left|]. now apply serve_ids in H.
Qed.
