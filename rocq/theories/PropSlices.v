(** Property C87: link lists under additions that run at the same time. *)
From Verif Require Import Base F32 PQ PQProofs Graph Search Insert HeuristicProofs Slices SliceProofs.
From Coq Require Import Lia.

(** The neighbours of the [g]-th addition by layer, as its event gives them. *)
Definition scripts (evs : list event) : list (list (nat * list N)) :=
  flat_map (fun e => match e with ENew _ _ s => [s] | _ => [] end) evs.
(** All of them in order, with their layers, and the last one of each layer. *)
Definition pairs (s : list (nat * list N)) : list (nat * N) :=
  flat_map (fun x => map (pair (fst x)) (snd x)) s.
Definition lasts (s : list (nat * list N)) : list N :=
  flat_map (fun x => match rev (snd x) with y :: _ => [y] | [] => [] end) s.

(** The memory shows at all times what it would show if every list were a value
    of its own: a write to a list changes no other list, and not the list that an
    addition is going through. *)
Theorem C87_lists_are_values : forall M evs,
  Forall (ev_ok M) evs -> view (mem_run M evs) = val_run M evs.
Proof. exact mem_is_val. Qed.
Print Assumptions C87_lists_are_values.

(** Two lists never lie in the same array. *)
Theorem C87_storage_apart : forall M evs o l o' l' c c' s s',
  Forall (ev_ok M) evs ->
  nth_error (m_objs (mem_run M evs)) o = Some c -> nth_error c l = Some s ->
  nth_error (m_objs (mem_run M evs)) o' = Some c' -> nth_error c' l' = Some s' ->
  s_arr s = s_arr s' -> o = o' /\ l = l'.
Proof.
  intros M evs o l o' l' c c' s s' H H1 H2 H3 H4. pose proof (mem_inv M evs H) as J.
  apply (i_inj _ _ J); unfold obj_at; [now rewrite H1|now rewrite H3].
Qed.
Print Assumptions C87_storage_apart.

(* ------------------------------------------------------------------ *)
Definition va_inv (s : list (nat * list N)) (G : vadder) : Prop :=
  match va_cur G with
  | None => va_log G ++ pairs (va_todo G) = pairs s /\ va_eps G ++ lasts (va_todo G) = lasts s
  | Some (l, nbs, i) =>
      va_log G ++ map (pair l) (skipn i nbs) ++ pairs (va_todo G) = pairs s /\
      va_eps G ++ lasts ((l, nbs) :: va_todo G) = lasts s
  end.

Lemma nth_error_skipn_cons {A} (l : list A) : forall i x, nth_error l i = Some x -> skipn i l = x :: skipn (S i) l.
Proof. induction l as [|y l IH]; destruct i; cbn; intros x H; try discriminate; [congruence|]. now apply IH. Qed.

Lemma val_adders M : forall evs st ss,
  (forall g G, nth_error (vs_add st) g = Some G -> exists s, nth_error ss g = Some s /\ va_inv s G) ->
  length ss = length (vs_add st) ->
  forall g G, nth_error (vs_add (fold_left (val_step M) evs st)) g = Some G ->
  exists s, nth_error (ss ++ scripts evs) g = Some s /\ va_inv s G.
Proof.
  induction evs as [|e evs IH]; intros st ss Hst Hlen g G Hg; cbn [fold_left scripts flat_map] in *.
  - rewrite app_nil_r. eauto.
  - rewrite app_assoc. revert Hg. apply IH; clear IH g G.
    + intros g G Hg. destruct e as [id t s|ls|g0 o sel]; cbn [val_step vs_add] in Hg.
      * destruct (Nat.lt_ge_cases g (length (vs_add st))) as [L|L].
        -- rewrite nth_error_app1 in Hg by auto. destruct (Hst _ _ Hg) as (s0 & H1 & H2).
           exists s0. split; auto. rewrite nth_error_app1; auto. lia.
        -- rewrite nth_error_app2 in Hg by auto. destruct (g - length (vs_add st)) as [|k] eqn:E; [|destruct k; discriminate].
           cbn in Hg. injection Hg as <-. exists s. split.
           ++ rewrite nth_error_app2, Hlen, E by lia. reflexivity.
           ++ cbn. auto.
      * rewrite app_nil_r. auto.
      * rewrite app_nil_r.
        assert (Hk : vs_add (val_go M st g0 o sel) = vs_add st \/
                     exists G0 G', nth_error (vs_add st) g0 = Some G0 /\ vs_add (val_go M st g0 o sel) = upd (vs_add st) g0 G' /\
                       forall s, va_inv s G0 -> va_inv s G').
        { unfold val_go. destruct (nth_error (vs_add st) g0) as [G0|]; [|now left].
          destruct (va_cur G0) as [[[l nbs] i]|] eqn:Ec.
          - destruct (nth_error nbs i) as [nb|] eqn:En.
            + assert (Hi : forall s, va_inv s G0 -> va_inv s (mkVA (va_own G0) (va_id G0) (va_todo G0) (Some (l, nbs, S i)) (va_log G0 ++ [(l, nb)]) (va_eps G0))).
              { intros s. unfold va_inv. rewrite Ec. cbn [va_cur va_log va_todo va_eps].
                rewrite (nth_error_skipn_cons _ _ _ En). intros [A B]. split; auto. rewrite <- A, <- app_assoc. reflexivity. }
              right. destruct o as [ob|]; [|do 2 eexists; split; [reflexivity|]; cbn; eauto].
              destruct (Nat.eqb ob (va_own G0)); [do 2 eexists; split; [reflexivity|]; cbn; eauto|].
              destruct (nth_error (vs_objs st) ob); do 2 eexists; (split; [reflexivity|]; cbn; eauto).
            + right. do 2 eexists. split; [reflexivity|]. cbn. split; [reflexivity|].
              intros s. unfold va_inv. rewrite Ec. cbn [va_cur va_log va_todo va_eps].
              apply nth_error_None in En. rewrite (skipn_all2 _ En). cbn. intros [A B]. split; auto. rewrite <- app_assoc. exact B.
          - destruct (va_todo G0) as [|[l nbs] todo] eqn:Et; [now left|].
            destruct (nth_error (vs_objs st) (va_own G0)) as [cs|]; [|now left].
            destruct (nth_error cs l); [|now left]. right. do 2 eexists. split; [reflexivity|]. cbn. split; [reflexivity|].
            intros s. unfold va_inv. rewrite Ec, Et. cbn [va_cur va_log va_todo va_eps skipn]. auto. }
        destruct Hk as [Hk|(G0 & G' & K1 & K2 & K3)].
        -- rewrite Hk in Hg. auto.
        -- rewrite K2 in Hg. destruct (Nat.eq_dec g0 g) as [->|Ne].
           ++ rewrite nth_error_upd_eq in Hg by (apply nth_error_Some; congruence). injection Hg as <-.
              destruct (Hst _ _ K1) as (s & S1 & S2). eauto.
           ++ rewrite nth_error_upd_ne in Hg by auto. eauto.
    + destruct e as [id t s|ls|g0 o sel]; cbn [val_step vs_add]; rewrite ?app_length; cbn [length]; try lia.
      rewrite Hlen, Nat.add_0_r. unfold val_go. destruct (nth_error (vs_add st) g0) as [G0|]; auto.
      destruct (va_cur G0) as [[[l nbs] i]|].
      * destruct (nth_error nbs i); [destruct o as [ob|]; [destruct (Nat.eqb ob (va_own G0)); [|destruct (nth_error (vs_objs st) ob)]|]|];
          cbn; now rewrite upd_length.
      * destruct (va_todo G0) as [|[l nbs] todo]; auto. destruct (nth_error (vs_objs st) (va_own G0)) as [cs|]; auto.
        destruct (nth_error cs l); cbn; now rewrite ?upd_length.
Qed.

(** An addition links back the neighbours that it chose, in their order, none
    twice and none left out, and goes on from the last one of each layer,
    whatever the others do in the meantime. *)
Theorem C87_links_back_the_chosen : forall M evs g G,
  Forall (ev_ok M) evs -> nth_error (m_add (mem_run M evs)) g = Some G ->
  exists s, nth_error (scripts evs) g = Some s /\
    (exists rest, pairs s = g_log G ++ rest) /\
    (g_cur G = None -> g_todo G = [] -> g_log G = pairs s /\ g_eps G = lasts s).
Proof.
  intros M evs g G H Hg. pose proof (mem_is_val M evs H) as V.
  destruct (val_adders M evs (mkVS [] []) []) with (g := g) (G := view_add (m_arr (mem_run M evs)) G) as (s & S1 & S2).
  - intros g0 G0 X. destruct g0; discriminate.
  - reflexivity.
  - change (fold_left (val_step M) evs (mkVS [] [])) with (val_run M evs). rewrite <- V. cbn [view vs_add].
    now rewrite nth_error_map, Hg.
  - cbn [app] in S1. exists s. split; [exact S1|]. revert S2. unfold va_inv. cbn [view_add va_cur va_log va_todo va_eps].
    destruct (g_cur G) as [[[l n] i]|]; cbn [view_cur].
    + intros [A _]. split; [eauto|discriminate].
    + intros [A B]. split; [eauto|]. intros _ E. rewrite E in A, B. cbn in A, B. rewrite app_nil_r in A, B. auto.
Qed.
Print Assumptions C87_links_back_the_chosen.

(** The hypothesis on the numbers of neighbours holds for what additions choose
    and for what the heuristic selects. *)
Theorem C87_choices_fit :
  (forall J h nid q level ep ep' nbs,
     choose_neighbours J h nid q level ep = Ok (ep', nbs) -> length nbs <= max_links (i_M J) level) /\
  (forall J nid nb level cs cs',
     reselect J nid nb level cs = Ok cs' -> length cs' <= max_links (i_M J) level).
Proof.
  split.
  - intros J h nid q level ep ep' nbs H. unfold choose_neighbours in H.
    apply bind_Ok in H. destruct H as (e & _ & H). apply bind_Ok in H. destruct H as (r & _ & H).
    apply bind_Ok in H. destruct H as (r' & Hh & H). injection H as _ <-.
    apply heuristic_spec in Hh. destruct Hh as (_ & Hl & _).
    rewrite map_length, (Permutation_length (Permutation_sym (drain_perm less_max r'))).
    destruct level; cbn; lia.
  - intros J nid nb level cs cs' H. unfold reselect in H.
    apply bind_Ok in H. destruct H as (d & _ & H). apply bind_Ok in H. destruct H as (q & _ & H).
    apply bind_Ok in H. destruct H as (r' & Hh & H). injection H as <-.
    apply heuristic_spec in Hh. destruct Hh as (_ & Hl & _).
    rewrite map_length, (Permutation_length (Permutation_sym (drain_perm less_max r'))).
    unfold max_conns in Hl. destruct level; cbn in *; lia.
Qed.
Print Assumptions C87_choices_fit.

(* ------------------------------------------------------------------ *)
(** Two additions at the same time, three links per vertex above the ground:
    vertex 7 (object 1) takes over its list of two neighbours as it is, vertex 8
    (object 2) appends to that list while 7 still goes through it, twice, so that
    the list is copied. *)
Definition sel87 (l : nat) : list N := [20; 21]%N.
Definition evs87 : list event :=
  [ ELoad [([1; 2; 3; 4; 5; 6], []); ([1; 2], [0])];
    ENew 7 1 [(1%nat, [30; 31]); (0%nat, [40])];
    ENew 8 1 [(1%nat, [7; 32]); (0%nat, [7])];
    EGo 0 None sel87;          (* 7 sets its links in layer 1 *)
    EGo 1 None sel87;          (* 8 sets its own *)
    EGo 0 (Some 0%nat) sel87;      (* 7 links 30 back *)
    EGo 1 (Some 1%nat) sel87;      (* 8 links 7 back *)
    EGo 1 (Some 0%nat) sel87;      (* 8 links 32 back: that list is full *)
    EGo 0 None sel87;          (* 7 goes on with 31 *)
    EGo 0 None sel87; EGo 1 None sel87; EGo 0 None sel87; EGo 1 None sel87;
    EGo 0 (Some 0%nat) sel87; EGo 1 (Some 1%nat) sel87; EGo 0 None sel87; EGo 1 None sel87 ]%N.

Example C87_nonvacuous :
  Forall (ev_ok 3) evs87 /\
  map g_log (m_add (mem_run 3 evs87)) =
    [[(1%nat, 30); (1%nat, 31); (0%nat, 40)]; [(1%nat, 7); (1%nat, 32); (0%nat, 7)]]%N /\
  map g_eps (m_add (mem_run 3 evs87)) = [[31; 40]; [32; 7]]%N /\
  vs_objs (view (mem_run 3 evs87)) =
    [[[20; 21]; [20; 21]]; [[40; 8]; [30; 31; 8]]; [[7]; [7; 32]]]%N.
Proof.
  split; [|vm_compute; auto].
  repeat constructor; cbn; intros; try lia; try (destruct l; cbn; lia); intuition discriminate.
Qed.

(** If a list were taken over whatever its length, an addition would go through
    a list that others write to. *)
Example C87_full_list_mixes_up :
  let nbs := [30; 31; 32]%N in
  let n := mkSl 0 3 in
  contents (fst (append_links 3 [nbs] (reset_links n) [7; 30]%N)) n <> nbs.
Proof. vm_compute. discriminate. Qed.

(** Links back to a vertex that has not set its own links yet are lost when it
    does. *)
Example C87_early_links_are_lost :
  let evs := [ENew 7 0 [(0%nat, [1])]; ENew 8 0 [(0%nat, [7])];
              EGo 1 None sel87; EGo 1 (Some 0%nat) sel87; EGo 0 None sel87]%N in
  vs_objs (val_run 3 (firstn 4 evs)) = [[[8]]; [[7]]]%N /\
  vs_objs (view (mem_run 3 evs)) = [[[1]]; [[7]]]%N.
Proof. vm_compute. auto. Qed.
