(** C82: listeners and shutdown of the HTTP server. *)
From Coq Require Import String Lia.
From Verif Require Import Base Server.
Local Open Scope string_scope.

(** Serve that gets to the point of waiting serves exactly the enabled schemes (http if
    none is named), each on a listener of its own that net.Listen returned in this call;
    calling Listen again does nothing. *)
Theorem C82_listeners : forall listen_os split join c s b s' b' l,
  s_has s = false -> serve listen_os split join c s b = (s', b', SWait l) ->
  s_has s' = true /\ listen listen_os split join s' b' = (s', b', true) /\
  map fst l = filter (has_scheme (s_schemes s)) ["unix"; "http"; "https"] /\
  (exists addrs, map snd l = map Some addrs /\ b' = (rev addrs ++ b)%list) /\
  (In "https" (map fst l) -> s_cert s <> "" /\ s_key s <> "" /\ c_pair c = true) /\
  (s_schemes s = [] -> map fst l = ["http"]).
Proof.
  intros lo split join c s b s' b' l Hh H. unfold serve, listen in H. rewrite Hh in H.
  set (s0 := if has_scheme (s_schemes s) "https" then inherit s else s) in H.
  assert (E0 : s_schemes s0 = s_schemes s /\ s_cert s0 = s_cert s /\ s_key s0 = s_key s) by (unfold s0; destruct (has_scheme _ _); auto).
  destruct E0 as (E0 & Ec & Ek).
  destruct (listen_unix lo s0 b) as [[s1 b1] ok1] eqn:U.
  destruct ok1; cbn [negb] in H; [|discriminate].
  assert (E1 : s_schemes s1 = s_schemes s /\ s_cert s1 = s_cert s /\ s_key s1 = s_key s /\
    if has_scheme (s_schemes s) "unix" then exists a, s_unixL s1 = Some a /\ b1 = a :: b else b1 = b).
  { unfold listen_unix in U. rewrite E0 in U. destruct (has_scheme (s_schemes s) "unix").
    - destruct (lo b "unix" (s_socket s0)) as [a|]; [|discriminate]. injection U as <- <-. repeat split; auto. now exists a.
    - injection U as <- <-. repeat split; auto. }
  destruct E1 as (E1 & Ec1 & Ek1 & X1). clear U.
  destruct (listen_http lo split join s1 b1) as [[s2 b2] ok2] eqn:U.
  destruct ok2; cbn [negb] in H; [|discriminate].
  assert (E2 : s_schemes s2 = s_schemes s /\ s_cert s2 = s_cert s /\ s_key s2 = s_key s /\ s_unixL s2 = s_unixL s1 /\
    if has_scheme (s_schemes s) "http" then exists a, s_httpL s2 = Some a /\ b2 = a :: b1 else b2 = b1).
  { unfold listen_http in U. rewrite E1 in U. destruct (has_scheme (s_schemes s) "http").
    - destruct (lo b1 "tcp" _) as [a|]; [|discriminate]. destruct (split a) as [[h p]|]; [|discriminate].
      injection U as <- <-. repeat split; auto. now exists a.
    - injection U as <- <-. repeat split; auto. }
  destruct E2 as (E2 & Ec2 & Ek2 & L2 & X2). clear U.
  destruct (listen_https lo split join s2 b2) as [[s3 b3] ok3] eqn:U.
  destruct ok3; cbn [negb] in H; [|discriminate].
  assert (E3 : s_schemes s3 = s_schemes s /\ s_cert s3 = s_cert s /\ s_key s3 = s_key s /\ s_unixL s3 = s_unixL s1 /\ s_httpL s3 = s_httpL s2 /\
    if has_scheme (s_schemes s) "https" then exists a, s_httpsL s3 = Some a /\ b3 = a :: b2 else b3 = b2).
  { unfold listen_https in U. rewrite E2 in U. destruct (has_scheme (s_schemes s) "https").
    - destruct (lo b2 "tcp" _) as [a|]; [|discriminate]. destruct (split a) as [[h p]|]; [|discriminate].
      injection U as <- <-. repeat split; auto. now exists a.
    - injection U as <- <-. repeat split; auto. }
  destruct E3 as (E3 & Ec3 & Ek3 & L3 & M3 & X3). clear U.
  cbn [s_handler s_api s_schemes s_unixL s_httpL s_httpsL set_has] in H. rewrite E3, L3, M3 in H.
  destruct (negb (s_handler s3) && negb (s_api s3))%bool; [discriminate|].
  assert (D : s_schemes s = [] -> has_scheme (s_schemes s) "unix" = false /\ has_scheme (s_schemes s) "http" = true /\ has_scheme (s_schemes s) "https" = false)
    by (intros ->; now repeat split).
  cbn [filter].
  destruct (has_scheme (s_schemes s) "https") eqn:HS.
  - unfold tls_config in H. cbn [s_cert s_key s_ca set_has] in H. rewrite Ec3, Ek3 in H.
    destruct (String.eqb_spec (s_cert s) ""), (String.eqb_spec (s_key s) ""); cbn [negb andb] in H;
      try (destruct (negb (String.eqb (s_ca s3) "") && negb (c_read c))%bool; [discriminate|];
           destruct (negb (String.eqb (s_ca s3) "") && negb (c_parse c))%bool; discriminate).
    destruct (c_pair c); cbn [negb] in H; [|discriminate].
    destruct (negb (String.eqb (s_ca s3) "") && negb (c_read c))%bool; [discriminate|].
    destruct (negb (String.eqb (s_ca s3) "") && negb (c_parse c))%bool; [discriminate|].
    injection H as <- <- <-. split; [reflexivity|]. split; [reflexivity|].
    destruct X3 as (a3 & -> & ->).
    destruct (has_scheme (s_schemes s) "unix"), (has_scheme (s_schemes s) "http");
      (split; [reflexivity|]); (split; [|split; [auto|intros Z; destruct (D Z) as (? & ? & ?); discriminate]]);
      repeat match goal with X : exists a, _ |- _ => destruct X as (? & -> & ->) end; subst;
      eexists; (split; [reflexivity + (cbn; match goal with |- [Some ?x; Some ?y; Some ?z] = _ => instantiate (1 := [x; y; z]) | |- [Some ?x; Some ?y] = _ => instantiate (1 := [x; y]) | |- [Some ?x] = _ => instantiate (1 := [x]) end; reflexivity)|reflexivity]).
  - injection H as <- <- <-. split; [reflexivity|]. split; [reflexivity|]. subst b3.
    destruct (has_scheme (s_schemes s) "unix"), (has_scheme (s_schemes s) "http");
      (split; [reflexivity|]); (split; [|split; [cbn; intuition discriminate|intros Z; destruct (D Z) as (? & ? & ?); try discriminate; reflexivity]]);
      repeat match goal with X : exists a, _ |- _ => destruct X as (? & -> & ->) end; subst;
      eexists; (split; [cbn; match goal with |- [Some ?x; Some ?y] = _ => instantiate (1 := [x; y]) | |- [Some ?x] = _ => instantiate (1 := [x]) | |- [] = _ => instantiate (1 := []) end; reflexivity|reflexivity]).
Qed.
Print Assumptions C82_listeners.

(** The TLS listener uses the settings of plain HTTP where its own are not set. *)
Theorem C82_tls_settings : forall listen_os split join s b s' b', s_has s = false ->
  has_scheme (s_schemes s) "https" = true -> listen listen_os split join s b = (s', b', true) ->
  let pick (x y : Z) := if Z.eqb x 0 then y else x in
  s_tls_limit s' = pick (s_tls_limit s) (s_limit s) /\ s_tls_keep s' = pick (s_tls_keep s) (s_keep s) /\
  s_tls_read s' = pick (s_tls_read s) (s_read s) /\ s_tls_write s' = pick (s_tls_write s) (s_write s) /\
  exists b0 a host, listen_os b0 "tcp" (join host (s_tls_port s)) = Some a /\ s_httpsL s' = Some a /\
    host = (if String.eqb (s_tls_host s) "" then s_host s else s_tls_host s).
Proof.
  intros lo split join s b s' b' Hh HS H. cbv zeta. unfold listen in H. rewrite Hh, HS in H.
  unfold listen_unix in H. cbn [s_schemes inherit] in H.
  assert (K : forall s1 b1, s_schemes s1 = s_schemes s -> s_tls_limit s1 = s_tls_limit (inherit s) -> s_tls_keep s1 = s_tls_keep (inherit s) ->
    s_tls_read s1 = s_tls_read (inherit s) -> s_tls_write s1 = s_tls_write (inherit s) -> s_tls_host s1 = s_tls_host (inherit s) -> s_tls_port s1 = s_tls_port s ->
    (let '(s, b, ok) := listen_http lo split join s1 b1 in
      if negb ok then (s, b, false) else let '(s, b, ok) := listen_https lo split join s b in if negb ok then (s, b, false) else (set_has s, b, true)) = (s', b', true) ->
    s_tls_limit s' = s_tls_limit (inherit s) /\ s_tls_keep s' = s_tls_keep (inherit s) /\ s_tls_read s' = s_tls_read (inherit s) /\
    s_tls_write s' = s_tls_write (inherit s) /\ exists b0 a host, lo b0 "tcp" (join host (s_tls_port s)) = Some a /\ s_httpsL s' = Some a /\ host = s_tls_host (inherit s)).
  { clear H. intros s1 b1 K1 K2 K3 K4 K5 K6 K7 H.
    assert (Q : forall s2 b2, s_schemes s2 = s_schemes s -> s_tls_limit s2 = s_tls_limit (inherit s) -> s_tls_keep s2 = s_tls_keep (inherit s) ->
      s_tls_read s2 = s_tls_read (inherit s) -> s_tls_write s2 = s_tls_write (inherit s) -> s_tls_host s2 = s_tls_host (inherit s) -> s_tls_port s2 = s_tls_port s ->
      (let '(s, b, ok) := listen_https lo split join s2 b2 in if negb ok then (s, b, false) else (set_has s, b, true)) = (s', b', true) ->
      s_tls_limit s' = s_tls_limit (inherit s) /\ s_tls_keep s' = s_tls_keep (inherit s) /\ s_tls_read s' = s_tls_read (inherit s) /\
      s_tls_write s' = s_tls_write (inherit s) /\ exists b0 a host, lo b0 "tcp" (join host (s_tls_port s)) = Some a /\ s_httpsL s' = Some a /\ host = s_tls_host (inherit s)).
    { clear H. intros s2 b2 Q1 Q2 Q3 Q4 Q5 Q6 Q7 H. unfold listen_https in H. rewrite Q1, HS in H.
      destruct (lo b2 "tcp" (join (s_tls_host s2) (s_tls_port s2))) as [a|] eqn:E; [|discriminate].
      destruct (split a) as [[h p]|]; [|discriminate]. cbn [negb] in H. injection H as <- <-.
      cbn [s_tls_limit s_tls_keep s_tls_read s_tls_write s_httpsL set_has set_https]. repeat (split; [assumption|]).
      exists b2, a, (s_tls_host s2). rewrite <- Q7. auto. }
    unfold listen_http in H. rewrite K1 in H. destruct (has_scheme (s_schemes s) "http").
    - destruct (lo b1 "tcp" _) as [a|]; [|discriminate]. destruct (split a) as [[h p]|]; [|discriminate]. cbn [negb] in H.
      eapply Q; [..|exact H]; assumption.
    - cbn [negb] in H. eapply Q; [..|exact H]; assumption. }
  destruct (has_scheme (s_schemes s) "unix").
  - destruct (lo b "unix" _) as [a|]; [|discriminate]. cbn [negb] in H. eapply K; [..|exact H]; reflexivity.
  - cbn [negb] in H. eapply K; [..|exact H]; reflexivity.
Qed.
Print Assumptions C82_tls_settings.

(** A system that refuses bound addresses, and addresses of the form host:port. *)
Definition os82 (b : list string) (net a : string) : option string := if existsb (String.eqb a) b then None else Some a.
Definition split82 (a : string) : option (string * Z) := Some (a, 80%Z).
Definition join82 (h : string) (p : Z) : string := h.
Definition srv82 (schemes : list string) : server :=
  mkSrv schemes "/var/run/fave.sock" "localhost:80" 80 0 180 30 60 "localhost:443" 443 "cert" "key" "" 0 0 0 0 true true false None None None.

(** A failing Listen leaves listeners open: with the port of https taken, the address of
    http stays bound, and another attempt fails although that port has become free. *)
Theorem C82_failed_listen_refuted : exists listen_os split join s b s' b',
  (forall b net a a', listen_os b net a = Some a' -> ~ In a' b) /\
  s_has s = false /\ listen listen_os split join s b = (s', b', false) /\ b' <> b /\
  snd (listen listen_os split join s' (removelast b')) = false /\
  snd (listen listen_os split join s []) = true /\ b = ["localhost:443"].
Proof.
  exists os82, split82, join82, (srv82 ["http"; "https"]), ["localhost:443"]. eexists _, _.
  split. { intros b net a a' H. unfold os82 in H. destruct (existsb (String.eqb a) b) eqn:E; [discriminate|]. injection H as <-.
    intros Hin. assert (existsb (String.eqb a) b = true) by (apply existsb_exists; exists a; now rewrite String.eqb_refl). congruence. }
  split; [reflexivity|]. split; [vm_compute; reflexivity|]. split; [discriminate|]. split; [vm_compute; reflexivity|]. split; vm_compute; reflexivity.
Qed.
Print Assumptions C82_failed_listen_refuted.

(** A scheme that is not one of the three (here in capitals) is accepted and nothing is
    served. *)
Theorem C82_unknown_scheme_refuted : exists s b s', s_schemes s <> [] /\
  forall listen_os split join c, serve listen_os split join c s b = (s', b, SWait []).
Proof. exists (srv82 ["HTTP"]), []. eexists. split; [discriminate|]. intros. vm_compute. reflexivity. Qed.
Print Assumptions C82_unknown_scheme_refuted.

Lemma await_false n l : await n false l = Some (false, l).
Proof. induction n; [reflexivity|exact IHn]. Qed.
Lemma await_good g rest n : Forall (fun ok => ok = true) g -> await (length g + n) true (g ++ rest) = await n true rest.
Proof. induction 1 as [|b g -> _ IH]; [reflexivity|exact IH]. Qed.

(** If all servers shut down without an error, all are waited for and ServerShutdown is
    called. Otherwise the wait ends at the first error, and ServerShutdown is not called:
    the servers after it are not waited for. *)
Theorem C82_shutdown_partial : forall arrivals,
  (Forall (fun ok => ok = true) arrivals -> handle_shutdown (length arrivals) arrivals = Some (true, 0%nat)) /\
  forall good rest, Forall (fun ok => ok = true) good -> arrivals = (good ++ false :: rest)%list ->
    handle_shutdown (length arrivals) arrivals = Some (false, length rest).
Proof.
  intros arrivals. split.
  - intros H. unfold handle_shutdown. pose proof (await_good arrivals [] 0 H) as E. rewrite app_nil_r, Nat.add_0_r in E. now rewrite E.
  - intros g rest H ->. unfold handle_shutdown. rewrite app_length. cbn [length]. rewrite (await_good g _ _ H). cbn [await]. now rewrite await_false.
Qed.
Print Assumptions C82_shutdown_partial.

(** With three servers of which the first to answer fails, two are not waited for: Serve
    may return while they still answer requests. *)
Theorem C82_shutdown_wait_refuted : exists arrivals, handle_shutdown (length arrivals) arrivals = Some (false, 2%nat).
Proof. exists [false; true; true]. vm_compute. reflexivity. Qed.
Print Assumptions C82_shutdown_wait_refuted.

(** However many signals arrive and however often Shutdown is called, in any order, the
    channel is closed once (closing it again would panic), at the first of them. *)
Theorem C82_closed_once : forall (events : list bool),
  let ev st (e : bool) := if e then interrupt st else (fst st, shutdown (snd st)) in
  snd (snd (fold_left ev events (false, (0%Z, 0%nat)))) = match events with [] => 0%nat | _ => 1%nat end.
Proof.
  intros events. cbv zeta.
  assert (K : forall evs i, snd (snd (fold_left (fun st (e : bool) => if e then interrupt st else (fst st, shutdown (snd st))) evs (i, (1%Z, 1%nat)))) = 1%nat).
  { induction evs as [|e evs IH]; intros i; [reflexivity|]. cbn [fold_left]. destruct e, i; cbn; apply IH. }
  destruct events as [|e evs]; [reflexivity|]. cbn [fold_left]. destruct e; cbn; apply K.
Qed.
Print Assumptions C82_closed_once.

(** Three schemes with certificates. *)
Example C82_nonvacuous : exists s' b',
  serve os82 split82 join82 (mkCerts true true true) (srv82 ["http"; "unix"; "https"]) [] =
    (s', b', SWait [("unix", Some "/var/run/fave.sock"); ("http", Some "localhost:80"); ("https", Some "localhost:443")]) /\
  s_tls_write s' = 60%Z /\ has_scheme (s_schemes s') "https" = true.
Proof. eexists _, _. split; [vm_compute; reflexivity|]. split; vm_compute; reflexivity. Qed.
Print Assumptions C82_nonvacuous.
