(** C75: the service starts with the settings it was given, or not at all. *)
From Coq Require Import String.
From Verif Require Import Base F32 JsonNum Graph Client Vectorizer Startup.
Local Open Scope string_scope.

(** Full statement: each setting is that of its environment variable or, if that is
    empty, the documented default; the service answers requests only after it has
    logged in, found the vectoriser if there is one, and opened the pod, which it
    creates if it does not exist; if any of that fails the process ends with an error
    and has changed nothing.

    Proved but for the last half-sentence: what a service that serves has done, in
    order and with which settings. *)
Theorem C75_serves_partial env y pods s tr pods' : boot_up env y pods = (Serves s, tr, pods') ->
  exists sid lk,
    s = mkSt sid (env "POD") lk /\ sid <> ""
    /\ y_dfs y = Ok tt /\ y_login y = Ok sid /\ y_open y = Ok tt
    /\ (env "VECTORIZER_URL" = "" /\ lk = false
        \/ env "VECTORIZER_URL" <> "" /\ lk = true /\ exists b, y_health y = HResp 200 b)
    /\ (In (env "POD") pods /\ pods' = pods
        \/ ~ In (env "POD") pods /\ y_create y = Ok tt /\ pods' = env "POD" :: pods)
    /\ tr = ([KDfs (if String.eqb (env "BEE_API") "" then "http://localhost:1633" else env "BEE_API")
                   (if String.eqb (env "STAMP_ID") ""
                    then "0000000000000000000000000000000000000000000000000000000000000000" else env "STAMP_ID")
                   (env "RPC_API")]
             ++ (if String.eqb (env "VECTORIZER_URL") "" then [] else [KHealth (env "VECTORIZER_URL")])
             ++ [KLogin (env "USER") (env "PASSWORD"); KExist (env "POD") sid]
             ++ (if in_dec string_dec (env "POD") pods then [] else [KCreate (env "POD") sid])
             ++ [KOpen (env "POD") sid])%list.
Proof.
  unfold boot_up, new_handler.
  assert (Hg : forall v, given v "" = v).
  { intros v. unfold given. destruct (String.eqb_spec v ""); auto. }
  set (c := set_defaults (from_env env (mkH false "" "" "" "" "" "" ""))).
  assert (Hc : c = mkH (if enabled (env "VERBOSE") then true else false)
            (if String.eqb (env "BEE_API") "" then default_bee else env "BEE_API") (env "RPC_API")
            (if String.eqb (env "STAMP_ID") "" then default_stamp else env "STAMP_ID")
            (env "VECTORIZER_URL") (env "USER") (env "PASSWORD") (env "POD")).
  { unfold c, from_env, set_defaults. cbn [h_verbose h_bee h_rpc h_stamp h_url h_user h_pass h_pod]. now rewrite !Hg. }
  rewrite Hc. clear Hc c. cbn [h_verbose h_bee h_rpc h_stamp h_url h_user h_pass h_pod].
  destruct (y_dfs y) as [[]| | |]; try discriminate.
  destruct (new_client (env "VECTORIZER_URL") (y_health y)) as [lk| | |] eqn:El; try discriminate.
  destruct (y_login y) as [sid| | |]; try discriminate.
  unfold open_pod. destruct (String.eqb_spec sid "") as [->|Hsid]; [discriminate|].
  assert (Hl : env "VECTORIZER_URL" = "" /\ lk = false
        \/ env "VECTORIZER_URL" <> "" /\ lk = true /\ exists b, y_health y = HResp 200 b).
  { unfold new_client in El. destruct (String.eqb_spec (env "VECTORIZER_URL") "") as [|Hne]; [left; split; congruence|].
    right. split; [exact Hne|]. unfold new_vectorizer in El. destruct (y_health y) as [|code b]; [discriminate|].
    destruct (N.eqb_spec code 200) as [->|]; [|discriminate]. cbn in El. split; [congruence|eauto]. }
  destruct (existsb (String.eqb (env "POD")) pods) eqn:Ex.
  - assert (Hin : In (env "POD") pods).
    { apply existsb_exists in Ex as (x & Hx & E). apply String.eqb_eq in E. now subst. }
    destruct (y_open y) as [[]| | |]; try discriminate. intros [= <- <- <-]. exists sid, lk.
    destruct (in_dec string_dec (env "POD") pods); [|contradiction].
    split; [reflexivity|]. split; [exact Hsid|]. split; [reflexivity|]. split; [reflexivity|]. split; [reflexivity|].
    split; [exact Hl|]. split; [auto|]. destruct (String.eqb (env "VECTORIZER_URL") ""); reflexivity.
  - assert (Hin : ~ In (env "POD") pods).
    { intros Hin. assert (existsb (String.eqb (env "POD")) pods = true); [|congruence].
      apply existsb_exists. exists (env "POD"). split; [exact Hin|apply String.eqb_refl]. }
    destruct (y_create y) as [[]| | |]; try discriminate.
    destruct (y_open y) as [[]| | |]; try discriminate. intros [= <- <- <-]. exists sid, lk.
    destruct (in_dec string_dec (env "POD") pods); [contradiction|].
    split; [reflexivity|]. split; [exact Hsid|]. split; [reflexivity|]. split; [reflexivity|]. split; [reflexivity|].
    split; [exact Hl|]. split; [auto|]. destruct (String.eqb (env "VECTORIZER_URL") ""); reflexivity.
Qed.

(** If every answer is good the service serves. *)
Theorem C75_starts_partial env y pods :
  y_dfs y = Ok tt -> (env "VECTORIZER_URL" = "" \/ exists b, y_health y = HResp 200 b) ->
  (exists sid, y_login y = Ok sid /\ sid <> "") ->
  (In (env "POD") pods \/ y_create y = Ok tt) -> y_open y = Ok tt ->
  exists s tr pods', boot_up env y pods = (Serves s, tr, pods').
Proof.
  intros H1 H2 (sid & H3 & Hsid) H4 H5. unfold boot_up, new_handler. rewrite H1, H3.
  cbn [set_defaults from_env h_verbose h_bee h_rpc h_stamp h_url h_user h_pass h_pod].
  assert (Hg : forall v, given v "" = v).
  { intros v. unfold given. destruct (String.eqb_spec v ""); auto. }
  rewrite !Hg.
  assert (E : exists lk, new_client (env "VECTORIZER_URL") (y_health y) = Ok lk).
  { unfold new_client. destruct (String.eqb_spec (env "VECTORIZER_URL") ""); [eauto|].
    destruct H2 as [|[b ->]]; [contradiction|]. cbn. eauto. }
  destruct E as [lk ->]. unfold open_pod. destruct (String.eqb_spec sid ""); [contradiction|].
  destruct (existsb (String.eqb (env "POD")) pods) eqn:Ex.
  - rewrite H5. cbn [bind]. eauto.
  - destruct H4 as [Hin|H4].
    + exfalso. assert (existsb (String.eqb (env "POD")) pods = true); [|congruence].
      apply existsb_exists. exists (env "POD"). split; [exact Hin|apply String.eqb_refl].
    + rewrite H4, H5. cbn [bind]. eauto.
Qed.

(** Otherwise it ends with code 1, whatever the failing call; no call answers with a
    crash. *)
Theorem C75_exits_partial env y pods b tr pods' :
  y_dfs y <> Panic -> y_dfs y <> OutOfFuel -> y_login y <> Panic -> y_login y <> OutOfFuel ->
  y_create y <> Panic -> y_create y <> OutOfFuel -> y_open y <> Panic -> y_open y <> OutOfFuel ->
  boot_up env y pods = (b, tr, pods') ->
  (exists s, b = Serves s) \/ b = Exits 1 /\ (pods' = pods \/ pods' = env "POD" :: pods /\ y_create y = Ok tt).
Proof.
  unfold boot_up, new_handler. intros D1 D2 L1 L2 C1 C2 O1 O2.
  cbn [set_defaults from_env h_verbose h_bee h_rpc h_stamp h_url h_user h_pass h_pod].
  assert (Hg : forall v, given v "" = v).
  { intros v. unfold given. destruct (String.eqb_spec v ""); auto. }
  rewrite !Hg.
  destruct (y_dfs y); try congruence; [|intros [= <- <- <-]; right; auto].
  destruct (new_client (env "VECTORIZER_URL") (y_health y)) as [lk| | |] eqn:El.
  2:{ intros [= <- <- <-]. right. auto. }
  2,3: exfalso; unfold new_client, new_vectorizer in El; destruct (String.eqb _ ""), (y_health y); try discriminate;
       cbn in El; destruct (N.eqb _ 200); discriminate.
  destruct (y_login y) as [sid| | |]; try congruence; [|intros [= <- <- <-]; right; auto].
  unfold open_pod. destruct (String.eqb sid ""); [intros [= <- <- <-]; right; auto|].
  destruct (existsb (String.eqb (env "POD")) pods).
  - destruct (y_open y); try congruence; cbn [bind]; intros [= <- <- <-]; eauto.
  - destruct (y_create y) as [[]| | |]; try congruence; [|cbn [bind]; intros [= <- <- <-]; right; auto].
    destruct (y_open y); try congruence; cbn [bind]; intros [= <- <- <-]; [eauto|]. right. auto.
Qed.

Definition env75 (k : string) : string :=
  if String.eqb k "USER" then "ann" else if String.eqb k "PASSWORD" then "pw" else if String.eqb k "POD" then "docs"
  else if String.eqb k "VECTORIZER_URL" then "http://v" else if String.eqb k "VERBOSE" then "yes" else "".

Example C75_nonvacuous :
  boot_up env75 (mkSys (Ok tt) (HResp 200 None) (Ok "s1") (Ok tt) (Ok tt)) ["other"]
  = (Serves (mkSt "s1" "docs" true),
     [KDfs "http://localhost:1633" "0000000000000000000000000000000000000000000000000000000000000000" "";
      KHealth "http://v"; KLogin "ann" "pw"; KExist "docs" "s1"; KCreate "docs" "s1"; KOpen "docs" "s1"], ["docs"; "other"])
  /\ boot_up env75 (mkSys (Ok tt) (HResp 503 None) (Ok "s1") (Ok tt) (Ok tt)) ["other"]
     = (Exits 1, [KDfs "http://localhost:1633" "0000000000000000000000000000000000000000000000000000000000000000" "";
                  KHealth "http://v"], ["other"]).
Proof. split; reflexivity. Qed.

(** Refuted: a start that fails may leave a new pod behind. *)
Theorem C75_pod_left_refuted : exists env y pods tr,
  boot_up env y pods = (Exits 1, tr, env "POD" :: pods) /\ ~ In (env "POD") pods.
Proof.
  exists env75, (mkSys (Ok tt) (HResp 200 None) (Ok "s1") (Ok tt) (Err EOther)), []. eexists.
  split; [reflexivity|]. intros [].
Qed.

Print Assumptions C75_serves_partial.
Print Assumptions C75_starts_partial.
Print Assumptions C75_exits_partial.
Print Assumptions C75_pod_left_refuted.

(** The settings themselves, whatever they were before: a variable that is set wins;
    debug output is on if it was or if VERBOSE is one of four words. *)
Theorem C75_settings env c : let c' := set_defaults (from_env env c) in
  (h_verbose c' = true <-> h_verbose c = true \/ In (env "VERBOSE") ["on"; "enabled"; "1"; "true"]) /\
  (env "BEE_API" <> "" -> h_bee c' = env "BEE_API") /\
  (env "BEE_API" = "" -> h_bee c <> "" -> h_bee c' = h_bee c) /\
  (env "BEE_API" = "" -> h_bee c = "" -> h_bee c' = "http://localhost:1633") /\
  (env "STAMP_ID" <> "" -> h_stamp c' = env "STAMP_ID") /\
  (env "STAMP_ID" = "" -> h_stamp c <> "" -> h_stamp c' = h_stamp c) /\
  (env "STAMP_ID" = "" -> h_stamp c = "" -> h_stamp c' = "0000000000000000000000000000000000000000000000000000000000000000") /\
  (forall v f, In (v, f) [("RPC_API", h_rpc); ("VECTORIZER_URL", h_url); ("USER", h_user); ("PASSWORD", h_pass); ("POD", h_pod)] ->
     (env v <> "" -> f c' = env v) /\ (env v = "" -> f c' = f c)).
Proof.
  cbv zeta. unfold set_defaults, from_env. cbn [h_verbose h_bee h_rpc h_stamp h_url h_user h_pass h_pod].
  assert (G1 : forall v old, v <> "" -> given v old = v) by (intros v old H; unfold given; now destruct (String.eqb_spec v "")).
  assert (G0 : forall v old, v = "" -> given v old = old) by (intros v old ->; reflexivity).
  assert (Hne : forall x d, x <> "" -> (if String.eqb x "" then d else x) = x) by (intros x d H; now destruct (String.eqb_spec x "")).
  repeat split.
  - destruct (enabled (env "VERBOSE")) eqn:E; [|auto]. intros _. right. unfold enabled in E.
    destruct (String.eqb (env "VERBOSE") ""); [discriminate|]. cbn [In].
    destruct (String.eqb_spec (env "VERBOSE") "on"); [auto|]. destruct (String.eqb_spec (env "VERBOSE") "enabled"); [auto|].
    destruct (String.eqb_spec (env "VERBOSE") "1"); [auto|]. destruct (String.eqb_spec (env "VERBOSE") "true"); [auto 6|discriminate].
  - intros [->|H]; [now destruct (enabled _)|]. cbn [In] in H. destruct H as [H|[H|[H|[H|[]]]]]; now rewrite <- H.
  - intros H. rewrite (G1 _ _ H). now apply Hne.
  - intros H H'. rewrite (G0 _ _ H). now apply Hne.
  - intros H H'. rewrite (G0 _ _ H), H'. reflexivity.
  - intros H. rewrite (G1 _ _ H). now apply Hne.
  - intros H H'. rewrite (G0 _ _ H). now apply Hne.
  - intros H H'. rewrite (G0 _ _ H), H'. reflexivity.
  - intros Hv. cbn [In] in H. repeat (destruct H as [H|H]; [injection H as <- <-; cbn; now apply G1|]). destruct H.
  - intros Hv. cbn [In] in H. repeat (destruct H as [H|H]; [injection H as <- <-; cbn; now apply G0|]). destruct H.
Qed.
Example C75_settings_nonvacuous :
  set_defaults (from_env env75 (mkH true "bee" "rpc" "" "" "bob" "" ""))
  = mkH true "bee" "rpc" "0000000000000000000000000000000000000000000000000000000000000000" "http://v" "ann" "pw" "docs".
Proof. reflexivity. Qed.
Print Assumptions C75_settings.
