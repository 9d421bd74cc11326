(** Properties C37, C38, C39: index configuration. *)
From Coq Require Import String.
From Verif Require Import Base JsonNum Collections Config ConfigProofs.
Local Open Scope string_scope.

(* ------------------------------------------------------------------ *)
(** C37.  Whatever is given, an accepted configuration is within its bounds;
    without input it is the default. *)
Theorem C37_bounds : forall input u, parse_config input = Some u ->
  (4 <= u_maxconn u)%Z /\ (4 <= u_efc u)%Z /\
  (input = None /\ u = defaults \/ exists m, input = Some (CMap m)).
Proof.
  intros [[s|z|b|s|m|]|] u H; try discriminate.
  - destruct (parse_config_fields m u H) as (H1 & H2 & _). repeat split; auto. right. now exists m.
  - injection H as <-. repeat split; try (cbn; lia). now left.
Qed.
Print Assumptions C37_bounds.

(** The value of each integer field [(name, getter, default)]: the default if
    absent, the number if it is an integer literal that fits, the int64 of a
    float64.  [decimal n] are the JSON literals of non-negative integers.
    Missing from the full statement: numbers that do not fit become the largest
    int64, even negative ones, and values of other types become 0 without an
    error (refuted below). *)
Theorem C37_integer_fields_partial : forall m u name get dflt,
  In (name, get, dflt) int_fields -> parse_config (Some (CMap m)) = Some u ->
  match aget name m with
  | None => get u = dflt
  | Some (CNum s) =>
      (forall n, s = decimal n -> get u = Z.min (Z.of_N n) max_int64) /\
      (forall n, s = "-" ++ decimal n ->
         get u = if (Z.of_N n <=? 9223372036854775808)%Z then (- Z.of_N n)%Z else max_int64) /\
      (forall n c t, digit c = None -> s = decimal n ++ String c t ->
         (18446744073709551616 <= Z.of_N n)%Z /\ get u = max_int64)
  | Some (CFloat x) => get u = x
  | Some _ => get u = 0%Z
  end.
Proof.
  intros m u name get dflt Hf H. apply parse_config_fields in H. destruct H as (_ & _ & H & _).
  exact (int_or_values m name dflt (get u) (H _ Hf)).
Qed.
Print Assumptions C37_integer_fields_partial.

(** The other fields: the given value if it has the right type, else the default. *)
Theorem C37_other_fields : forall m u, parse_config (Some (CMap m)) = Some u ->
  u_skip u = match aget "skip" m with Some (CBool b) => b | _ => false end /\
  u_distance u = match aget "distance" m with Some (CStr s) => s | _ => "cosine" end /\
  (aget "pq" m = None -> u_pq u = default_pq) /\
  (forall pm, aget "pq" m = Some (CMap pm) ->
     pq_enabled (u_pq u) = match aget "enabled" pm with Some (CBool b) => b | _ => false end /\
     pq_bits (u_pq u) = match aget "bitCompression" pm with Some (CBool b) => b | _ => false end /\
     In (pq_encoder (u_pq u)) ["tile"; "kmeans"] /\ In (pq_distribution (u_pq u)) ["log-normal"; "normal"]).
Proof.
  intros m u H. apply parse_config_fields in H. destruct H as (_ & _ & _ & H1 & H2 & H3).
  split; [exact H1|]. split; [exact H2|]. unfold parse_pq in H3. split.
  - intros Hn. rewrite Hn in H3. now injection H3 as <-.
  - intros pm Hp. rewrite Hp in H3. step_or H3. step_or H3.
    destruct (aget "encoder" pm) as [[s|x|b|s|em|]|].
    5: { step_or H3. step_or H3. injection H3 as <-. cbn [pq_enabled pq_bits pq_encoder pq_distribution].
         split; [reflexivity|]. split; [reflexivity|]. revert E1 E2. unfold checked_from_map. split.
         - destruct (aget "type" em) as [[y|y|y|y|y|]|]; try (injection E1 as <-; cbn; tauto).
           destruct (valid_encoder y) eqn:Ev; [|discriminate]. injection E1 as <-. unfold valid_encoder in Ev.
           apply Bool.orb_prop in Ev. destruct Ev as [Ev|Ev]; apply String.eqb_eq in Ev; subst y; cbn; tauto.
         - destruct (aget "distribution" em) as [[y|y|y|y|y|]|]; try (injection E2 as <-; cbn; tauto).
           destruct (valid_distribution y) eqn:Ev; [|discriminate]. injection E2 as <-. unfold valid_distribution in Ev.
           apply Bool.orb_prop in Ev. destruct Ev as [Ev|Ev]; apply String.eqb_eq in Ev; subst y; cbn; tauto. }
    all: injection H3 as <-; cbn; tauto.
Qed.
Print Assumptions C37_other_fields.

(** Exactly when a map is rejected: a number that is no integer, an invalid
    encoder, or a value below its bound. *)
Theorem C37_rejected_iff : forall m, parse_config (Some (CMap m)) = None <->
  (exists f, In f int_fields /\ bad_int m (fst (fst f))) \/ bad_pq m \/
  too_small m "maxConnections" 64 \/ too_small m "efConstruction" 128.
Proof. exact parse_config_none. Qed.
Print Assumptions C37_rejected_iff.

Definition map37 : list (string * cval) :=
  [("maxConnections", CNum "32"); ("ef", CNum "-1"); ("efConstruction", CFloat 256); ("distance", CStr "dot");
   ("pq", CMap [("enabled", CBool true); ("encoder", CMap [("type", CStr "tile")])])].
Example C37_nonvacuous :
  parse_config (Some (CMap map37)) =
    Some (mkU false 300 32 256 (-1) 100 500 8 1000000000000 40000 "dot" (mkPQ true false 0 256 "tile" "log-normal")) /\
  parse_config (Some (CMap [("maxConnections", CNum "3")])) = None /\
  parse_config (Some (CMap [("ef", CNum "1e3")])) = None /\ "32" = decimal 32 /\ "-1" = "-" ++ decimal 1.
Proof. repeat split. Qed.

(** A number written as a string silently becomes 0, neither the value nor the
    default. *)
Theorem C37_ill_typed_refuted : exists m u, aget "ef" m = Some (CStr "100") /\
  parse_config (Some (CMap m)) = Some u /\ u_ef u = 0%Z /\ u_ef defaults = (-1)%Z.
Proof. exists [("ef", CStr "100")]. eexists. repeat split. Qed.
Print Assumptions C37_ill_typed_refuted.

(** A negative number of connections is accepted if it is small enough. *)
Theorem C37_negative_refuted : exists m u, aget "maxConnections" m = Some (CNum "-99999999999999999999") /\
  parse_config (Some (CMap m)) = Some u /\ u_maxconn u = max_int64.
Proof. exists [("maxConnections", CNum "-99999999999999999999")]. eexists. split; [reflexivity|]. split; [vm_compute; reflexivity|]. reflexivity. Qed.
Print Assumptions C37_negative_refuted.

(* ------------------------------------------------------------------ *)
(** C38.  Decision on the dependency's configuration type.  Missing: the distance
    is not among the compared settings, and the package's own configuration
    type is never accepted. *)
Theorem C38_update_decision_partial : forall a b, validate_update (VEnt a) (VEnt b) = true <->
  u_efc a = u_efc b /\ u_maxconn a = u_maxconn b /\ u_cleanup a = u_cleanup b.
Proof. intros a b. cbn [validate_update]. rewrite !andb_true_iff, !Z.eqb_eq. tauto. Qed.
Print Assumptions C38_update_decision_partial.

(** No update changes an immutable setting of a running index, and an update of a
    foreign type changes nothing. *)
Theorem C38_immutable_kept : forall s v,
  let s' := fst (fst (update_config s v)) in
  s_maxconn s' = s_maxconn s /\ s_maxconn0 s' = s_maxconn0 s /\ s_efc s' = s_efc s /\
  s_cleanup s' = s_cleanup s /\ s_distance s' = s_distance s /\
  ((forall u, v <> VEnt u) -> s' = s /\ snd (update_config s v) = false).
Proof.
  intros s [u|u|]; cbv zeta; cbn [update_config fst snd]; try (repeat split; congruence).
  destruct (negb (s_compressed s) && pq_enabled (u_pq u)); [destruct (valid_encoder _ && valid_distribution _)|];
    cbn [fst s_maxconn s_maxconn0 s_efc s_cleanup s_distance]; repeat (split; [reflexivity|]); intros Hu; exfalso; now apply (Hu u).
Qed.
Print Assumptions C38_immutable_kept.

(** An update of the right type sets every mutable setting to the given value;
    the cache limit goes to the vector cache in use. *)
Theorem C38_mutable_updated : forall s u,
  let s' := fst (fst (update_config s (VEnt u))) in
  s_ef s' = u_ef u /\ s_efmin s' = u_efmin u /\ s_efmax s' = u_efmax u /\ s_effactor s' = u_effactor u /\
  s_flat s' = u_flat u /\ (if s_compressed s then s_ccachemax s' else s_cachemax s') = u_cachemax u /\
  (if s_compressed s then s_cachemax s' = s_cachemax s else s_ccachemax s' = s_ccachemax s) /\
  s_compressed s' = s_compressed s.
Proof.
  intros s u. cbv zeta. cbn [update_config].
  destruct (negb (s_compressed s) && pq_enabled (u_pq u)); [destruct (valid_encoder _ && valid_distribution _)|];
    cbn [fst s_ef s_efmin s_efmax s_effactor s_flat s_ccachemax s_cachemax s_compressed];
    destruct (s_compressed s); repeat split.
Qed.
Print Assumptions C38_mutable_updated.

(** The index refuses to start unless every part it relies on is given. *)
Theorem C38_incomplete_config_rejected : forall c, valid_iconf c = true <->
  i_id c = true /\ i_root c = true /\ i_logger c = true /\ i_vector c = true /\ i_distance c = true.
Proof. intros c. unfold valid_iconf. rewrite !andb_true_iff. tauto. Qed.
Print Assumptions C38_incomplete_config_rejected.

Definition conf_ef (ef : Z) : uconf := mkU false 300 64 128 ef 100 500 8 1000000000000 40000 "cosine" default_pq.
Definition conf_dist (d : string) : uconf := mkU false 300 64 128 (-1) 100 500 8 1000000000000 40000 d default_pq.
Definition conf_efc (efc : Z) : uconf := mkU false 300 64 efc (-1) 100 500 8 1000000000000 40000 "cosine" default_pq.
Definition conf_enc (ef : Z) (e : string) : uconf :=
  mkU false 300 64 128 ef 100 500 8 1000000000000 40000 "cosine" (mkPQ true false 0 256 e "log-normal").
Example C38_nonvacuous :
  validate_update (VEnt defaults) (VEnt (conf_ef 20)) = true /\ validate_update (VEnt defaults) (VEnt (conf_efc 20)) = false /\
  s_ef (fst (fst (update_config (new_settings defaults "cosine-dot") (VEnt (conf_ef 20))))) = 20%Z /\
  valid_iconf (mkI true true true true true) = true /\ valid_iconf (mkI true true true false true) = false.
Proof. repeat split. Qed.

Theorem C38_distance_refuted : exists a b, u_distance a <> u_distance b /\ validate_update (VEnt a) (VEnt b) = true.
Proof. exists (conf_dist "cosine"), (conf_dist "l2-squared"). split; [discriminate|reflexivity]. Qed.
Print Assumptions C38_distance_refuted.

(** The configuration that the package itself parses can never be updated. *)
Theorem C38_own_type_refuted :
  (exists a, validate_update (VOwn a) (VOwn a) = false) /\ forall a b, validate_update (VOwn a) (VOwn b) = false.
Proof. split; [now exists defaults|reflexivity]. Qed.
Print Assumptions C38_own_type_refuted.

(** Applying an update does not check it: a changed efConstruction is silently
    ignored; and an update that fails for its encoder has already taken effect. *)
Theorem C38_unchecked_refuted : exists s u,
  validate_update (VEnt defaults) (VEnt u) = false /\ s = new_settings defaults "cosine-dot" /\
  snd (update_config s (VEnt u)) = true.
Proof. exists (new_settings defaults "cosine-dot"), (conf_efc 20). repeat split. Qed.
Print Assumptions C38_unchecked_refuted.
Theorem C38_failed_changes_refuted : exists s u,
  snd (update_config s (VEnt u)) = false /\ s_ef s <> s_ef (fst (fst (update_config s (VEnt u)))).
Proof. exists (new_settings defaults "cosine-dot"), (conf_enc 20 "none"). split; [reflexivity|discriminate]. Qed.
Print Assumptions C38_failed_changes_refuted.

(** Compression is started exactly when it is asked for with a known encoder and
    distribution and is not on already; an error is reported exactly when it is asked
    for with unknown ones. *)
Theorem C38_compression_started : forall s u,
  let pq := u_pq u in
  let known := In (pq_encoder pq) ["tile"; "kmeans"] /\ In (pq_distribution pq) ["log-normal"; "normal"] in
  (snd (fst (update_config s (VEnt u))) = true <-> s_compressed s = false /\ pq_enabled pq = true /\ known) /\
  (snd (update_config s (VEnt u)) = false <-> s_compressed s = false /\ pq_enabled pq = true /\ ~ known).
Proof.
  intros s u pq known.
  assert (K : valid_encoder (pq_encoder pq) && valid_distribution (pq_distribution pq) = true <-> known).
  { unfold known, valid_encoder, valid_distribution. rewrite andb_true_iff, !orb_true_iff, !String.eqb_eq. cbn [In]. intuition congruence. }
  cbn [update_config]. fold pq. destruct (s_compressed s); cbn [negb andb fst snd].
  { split; split; try discriminate; intros (H & _); discriminate H. }
  destruct (pq_enabled pq); cbn [negb andb fst snd].
  2: { split; split; try discriminate; intros (_ & H & _); discriminate H. }
  destruct (valid_encoder (pq_encoder pq) && valid_distribution (pq_distribution pq)); cbn [fst snd].
  - assert (Hk : known) by now apply K. split; split; try discriminate; [now intros _|reflexivity|intros (_ & _ & H); now destruct (H Hk)].
  - assert (Hk : ~ known) by (intros H; apply K in H; discriminate). split; split; try discriminate; [intros (_ & _ & H); now destruct (Hk H)|now intros _|reflexivity].
Qed.
Print Assumptions C38_compression_started.
Example C38_compression_nonvacuous :
  snd (fst (update_config (new_settings defaults "cosine-dot") (VEnt (conf_enc 20 "none")))) = false /\
  snd (fst (update_config (new_settings defaults "cosine-dot") (VEnt (conf_enc 20 "kmeans")))) = true.
Proof. split; reflexivity. Qed.

(* ------------------------------------------------------------------ *)
(** C39. *)
Theorem C39_never_below_k : forall s k, (k <= search_ef s k)%Z.
Proof. exact search_ef_ge. Qed.
Print Assumptions C39_never_below_k.
Theorem C39_explicit : forall s k, (1 <= s_ef s)%Z -> search_ef s k = Z.max (s_ef s) k.
Proof. exact search_ef_set. Qed.
Print Assumptions C39_explicit.
(** Missing: a product outside int64 (false, below, unless max <= k). *)
Theorem C39_automatic_partial : forall s k,
  (s_ef s < 1)%Z -> (s_efmin s <= s_efmax s)%Z ->
  (-9223372036854775808 <= k * s_effactor s < 9223372036854775808)%Z ->
  search_ef s k = Z.max k (Z.max (s_efmin s) (Z.min (s_efmax s) (k * s_effactor s))).
Proof. exact search_ef_auto. Qed.
Print Assumptions C39_automatic_partial.
Theorem C39_automatic_large_k : forall s k,
  (s_ef s < 1)%Z -> (s_efmin s <= s_efmax s <= k)%Z -> search_ef s k = k.
Proof. exact search_ef_large. Qed.
Print Assumptions C39_automatic_large_k.
Example C39_nonvacuous :
  let s := new_settings defaults "cosine-dot" in
  (s_ef s < 1)%Z /\ search_ef s 1 = 100%Z /\ search_ef s 20 = 160%Z /\ search_ef s 100 = 500%Z /\ search_ef s 1000 = 1000%Z.
Proof. cbv zeta. split; [reflexivity|]. repeat split. Qed.
Theorem C39_overflow_refuted : exists s k, (s_ef s < 1)%Z /\ (s_efmin s <= s_efmax s <= max_int64)%Z /\ (0 < k <= max_int64)%Z /\
  search_ef s k <> Z.max k (Z.max (s_efmin s) (Z.min (s_efmax s) (k * s_effactor s))).
Proof.
  exists (mkSet 30 60 60 0 "cosine-dot" 0 100 9223372036854775807 8 0 0 0 false), 2305843009213693952%Z.
  repeat split; vm_compute; congruence.
Qed.
Print Assumptions C39_overflow_refuted.
