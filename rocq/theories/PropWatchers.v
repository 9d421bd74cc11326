(** C90: closing an index or deleting its collection ends its background goroutines,
    and no call waits for ever for them. *)
From Coq Require Import String.
From Verif Require Import Base Client Collections Watchers WatchersProofs.

(** Calls that may end a background goroutine. *)
Definition sender (c : icall) : bool :=
  match c with IRead | IUpdate false => false | _ => true end.
Definition closes (c : icall) : bool := match c with IDrop | IShutdown => true | _ => false end.
Definition count (f : icall -> bool) (cs : list icall) : nat := length (filter f cs).
(** Further calls made on an index. *)
Definition and_calls (w : ist) (cs : list icall) : ist :=
  mkI (i_comp w) (i_vec w) (i_codes w) (i_rd w) (i_wr w) (i_thr w ++ map call_p cs).

Lemma count_cons f c cs : count f (c :: cs) = (if f c then 1 else 0) + count f cs.
Proof. unfold count. cbn. destruct (f c); reflexivity. Qed.

Lemma new_inv cs : count sender cs <= 1 -> inv false (new_index cs).
Proof.
  intros H. constructor; cbn [new_index i_thr i_comp i_vec i_codes i_rd i_wr]; try discriminate.
  - apply Forall_forall. intros p Hp. apply in_map_iff in Hp. destruct Hp as (c & <- & _). apply wf_call.
  - rewrite total_calls. cbn [b2n].
    enough (list_sum (map (fun c => av false (call_p c)) cs) = count sender cs) by lia.
    clear H. induction cs as [|c cs IH]; [reflexivity|]. rewrite count_cons. cbn [map list_sum fold_right].
    unfold list_sum in IH. rewrite IH. destruct c as [|[]| | |]; reflexivity.
  - rewrite total_calls. cbn [b2n].
    enough (list_sum (map (fun c => ac false (call_p c)) cs) <= count sender cs) by lia.
    clear H. induction cs as [|c cs IH]; [cbn; lia|]. rewrite count_cons. cbn [map list_sum fold_right].
    unfold list_sum in IH. destruct c as [|[]| | |]; cbn; lia.
  - symmetry. apply total_zero. intros p Hp. apply in_map_iff in Hp. destruct Hp as (c & <- & _). apply wf_call.
  - symmetry. apply total_zero. intros p Hp. apply in_map_iff in Hp. destruct Hp as (c & <- & _).
    destruct (wf_call c) as (_ & _ & ->). reflexivity.
Qed.

(** As long as at most one call on an uncompressed index is one that ends a goroutine
    (compress, an update of the configuration with compression on, drop, shutdown),
    every call returns, however they are interleaved. *)
Theorem C90_one_sender_returns_partial : forall cs sched,
  count sender cs <= 1 ->
  let w := irun (new_index cs) sched in
  (blocked w -> returned w) /\ exists sched', returned (irun w sched').
Proof.
  intros cs sched H w.
  pose proof (run_inv false _ sched (new_inv cs H)) as J.
  split; [apply (blocked_returned false), J|apply (all_return false), J].
Qed.

(** A compressed index: any updates of the configuration, any reads and one call that
    closes it all return, and if it is closed nothing is left running. *)
Lemma returned_idle m w : inv m w -> returned w ->
  i_rd w = 0 /\ i_wr w = false /\ (i_comp w = true -> i_vec w = false).
Proof.
  intros H R. split; [|split].
  - rewrite (v_rd _ _ H). apply total_zero. intros p Hp. rewrite (R p Hp). reflexivity.
  - pose proof (v_wr _ _ H) as W. rewrite total_zero in W; [destruct (i_wr w); [discriminate|reflexivity]|].
    intros p Hp. rewrite (R p Hp). reflexivity.
  - intros C. destruct (v_set _ _ H C) as [A|(g & k & A)]; [exact A|].
    apply nth_error_In in A. discriminate (R _ A).
Qed.

Lemma total_nil_app f l l' : (forall p, In p l -> f p = 0) -> total f (l ++ l') = total f l'.
Proof. intros H. rewrite total_app, (total_zero f l H). reflexivity. Qed.

Lemma more_inv w cs : inv false w -> returned w -> i_comp w = true -> i_codes w = true ->
  ~ In ICompress cs -> count closes cs <= 1 -> inv true (and_calls w cs).
Proof.
  intros J R C D N K. destruct (returned_idle _ _ J R) as (R0 & W0 & V0).
  assert (Z : forall f : prog -> nat, f PDone = 0 -> forall p, In p (i_thr w) -> f p = 0) by (intros f E p Hp; rewrite (R p Hp); exact E).
  constructor; cbn [and_calls i_thr i_comp i_vec i_codes i_rd i_wr]; auto.
  - apply Forall_app. split; [exact (v_wf _ _ J)|].
    apply Forall_forall. intros p Hp. apply in_map_iff in Hp. destruct Hp as (c & <- & _). apply wf_call.
  - rewrite total_nil_app by (apply Z; reflexivity).
    rewrite total_zero; [lia|]. intros p Hp. apply in_map_iff in Hp. destruct Hp as (c & <- & Hc).
    destruct c as [|[]| | |]; cbn; try reflexivity. contradiction.
  - rewrite total_nil_app by (apply Z; reflexivity). rewrite total_calls, D. cbn [b2n].
    enough (list_sum (map (fun c => ac true (call_p c)) cs) = count closes cs) by lia.
    clear K. induction cs as [|c cs IH]; [reflexivity|]. rewrite count_cons. cbn [map list_sum fold_right].
    unfold list_sum in IH. rewrite IH by (intros A; apply N; right; exact A).
    destruct c as [|[]| | |]; cbn; try reflexivity.
  - rewrite total_nil_app by (apply Z; reflexivity). rewrite R0. symmetry.
    apply total_zero. intros p Hp. apply in_map_iff in Hp. destruct Hp as (c & <- & _). apply wf_call.
  - rewrite total_nil_app by (exact (Z (fun p => b2n (hw p)) eq_refl)). rewrite W0. symmetry.
    apply total_zero. intros p Hp. apply in_map_iff in Hp. destruct Hp as (c & <- & _).
    destruct (wf_call c) as (_ & _ & ->). reflexivity.
Qed.

Lemma codes_inv_step w g b w' : istep w g b = Some w' ->
  (i_codes w' = true -> i_codes w = true) /\ (i_vec w' = true -> i_vec w = true) /\ (i_comp w = true -> i_comp w' = true).
Proof.
  unfold istep. destruct (nth_error (i_thr w) g) as [p|]; [|discriminate].
  destruct p; intros E; try discriminate;
    repeat match type of E with (if ?c then _ else _) = _ => destruct c eqn:?; try discriminate end;
    injection E as <-; cbn; auto.
Qed.

Theorem C90_compressed_closes_partial : forall cs1 sched1 cs2 sched2,
  count sender cs1 <= 1 ->
  let w := irun (new_index cs1) sched1 in
  returned w -> i_comp w = true -> i_codes w = true ->
  ~ In ICompress cs2 -> count closes cs2 <= 1 ->
  let w' := irun (and_calls w cs2) sched2 in
  (blocked w' -> returned w')
  /\ (exists sched', returned (irun w' sched'))
  /\ (i_codes w' = false -> left_running w' = 0).
Proof.
  intros cs1 sched1 cs2 sched2 H w R C D N K w'.
  pose proof (run_inv false _ sched1 (new_inv cs1 H)) as J. fold w in J.
  pose proof (run_inv true _ sched2 (more_inv w cs2 J R C D N K)) as J'. fold w' in J'.
  split; [apply (blocked_returned true), J'|split; [apply (all_return true), J'|]].
  intros E.
  assert (V : i_vec w' = false).
  { destruct (returned_idle _ _ J R) as (_ & _ & V0). specialize (V0 C).
    assert (G : forall s v, i_vec v = false -> i_vec (irun v s) = false).
    { induction s as [|[g b] s IH]; intros v Hv; cbn; [exact Hv|]. apply IH.
      destruct (istep v g b) eqn:Es; [|exact Hv]. apply codes_inv_step in Es. destruct Es as (_ & Es & _).
      destruct (i_vec i); [rewrite Es in Hv by reflexivity; exact Hv|reflexivity]. }
    apply G. exact V0. }
  unfold left_running. rewrite V, E. reflexivity.
Qed.

(** But with one such call on an index that is not compressed, at least one of its two
    goroutines is left whatever happens. *)
Fixpoint sends (p : prog) : nat :=
  match p with
  | PDone => 0
  | PRLock k | PRUnlock k | PLock k | PLockW k | PUnlock k | PSetComp k => sends k
  | PStopVec k | PStopCodes k => S (sends k)
  | PIfComp a b | PChoice a b => Nat.max (sends a) (sends b)
  | PGo q k => sends q + sends k
  end.
Lemma sends_step w g b w' : istep w g b = Some w' ->
  total sends (i_thr w') + left_running w <= total sends (i_thr w) + left_running w'.
Proof.
  unfold istep. destruct (nth_error (i_thr w) g) as [p|] eqn:Eg; [|discriminate].
  assert (U : forall k, total sends (upd (i_thr w) g k) + sends p = total sends (i_thr w) + sends k) by (intros; apply total_upd, Eg).
  destruct p; intros E; try discriminate;
    repeat match type of E with (if ?c then _ else _) = _ => destruct c eqn:?; try discriminate end;
    injection E as <-; cbn [i_thr]; unfold left_running; cbn [i_vec i_codes].
  all: try (rewrite total_app; cbn [total]).
  all: try match goal with |- context [upd _ _ ?k] => specialize (U k) end; cbn [sends] in *;
    try rewrite Heqb0; try lia.
  - destruct (i_comp w); lia.
  - destruct b; lia.
Qed.
Theorem C90_one_left_running : forall cs sched,
  count sender cs <= 1 -> 1 <= left_running (irun (new_index cs) sched).
Proof.
  intros cs sched H.
  assert (S0 : total sends (i_thr (new_index cs)) = count sender cs).
  { cbn. rewrite total_calls. clear H. induction cs as [|c cs IH]; [reflexivity|]. rewrite count_cons.
    cbn [map list_sum fold_right]. unfold list_sum in IH. rewrite IH. destruct c as [|[]| | |]; reflexivity. }
  assert (G : forall s w, 1 + total sends (i_thr w) <= left_running w -> 1 + total sends (i_thr (irun w s)) <= left_running (irun w s)).
  { induction s as [|[g b] s IH]; intros w Hw; cbn [irun]; [exact Hw|]. apply IH.
    destruct (istep w g b) eqn:Es; [|exact Hw]. apply sends_step in Es. lia. }
  specialize (G sched (new_index cs)). rewrite S0 in G. cbn in G. specialize (G ltac:(lia)). lia.
Qed.

(** Two updates of the configuration of an index at the same time, both with
    compression on: the second compression waits for ever for a goroutine that has
    ended, holds compressActionLock while it waits, and no addition, search or deletion
    returns any more. *)
Definition alone (g : nat) (n : nat) : list (nat * bool) := repeat (g, true) n.
Theorem C90_two_updates_refuted : exists sched,
  let w := irun (new_index [IUpdate true; IUpdate true; IRead; IDrop]) sched in
  blocked w
  /\ nth_error (i_thr w) 0 = Some PDone /\ nth_error (i_thr w) 1 = Some PDone
  /\ nth_error (i_thr w) 2 = Some (PRLock (PRUnlock PDone)).
Proof.
  exists (alone 0 4 ++ alone 1 4 ++ alone 4 9 ++ alone 5 9 ++ alone 3 9 ++ alone 2 3).
  vm_compute. split; [|auto].
  intros [|[|[|[|[|[|[|g]]]]]]] b; reflexivity.
Qed.
(** Drop and then Shutdown: the second waits for ever. *)
Theorem C90_drop_shutdown_refuted : forall comp_first : bool,
  exists sched,
  let w := irun (new_index (if comp_first then [ICompress; IDrop; IShutdown] else [IRead; IDrop; IShutdown])) sched in
  blocked w /\ nth_error (i_thr w) 1 = Some PDone /\ nth_error (i_thr w) 2 <> Some PDone.
Proof.
  intros [|]; exists (alone 0 9 ++ alone 1 9 ++ alone 2 9); vm_compute; (split; [|split; [reflexivity|discriminate]]);
    intros [|[|[|[|g]]]] b; reflexivity.
Qed.
(** Drop of a new index returns and leaves the goroutine of the code cache. *)
Theorem C90_drop_leaves_one_refuted : exists sched,
  let w := irun (new_index [IDrop]) sched in
  returned w /\ i_vec w = false /\ left_running w = 1.
Proof.
  exists (alone 0 3). split; [|split; reflexivity]. vm_compute. intros p [<-|[]]. reflexivity.
Qed.

(** One update on, then a search, then a drop: the hypotheses of the two positive
    theorems hold, and both goroutines end. *)
Example C90_compressed_nonvacuous :
  let w := irun (new_index [IRead; IUpdate true; IRead]) (alone 0 1 ++ alone 1 4 ++ alone 3 3 ++ alone 2 1 ++ alone 0 1 ++ alone 3 9 ++ alone 2 2) in
  count sender [IRead; IUpdate true; IRead] = 1
  /\ returned w /\ i_comp w = true /\ i_codes w = true /\ left_running w = 1
  /\ left_running (irun (and_calls w [IUpdate true; IRead; IDrop]) (alone 4 9 ++ alone 5 9 ++ alone 6 9)) = 0.
Proof.
  split; [reflexivity|]. split; [vm_compute; intros p [<-|[<-|[<-|[<-|[]]]]]; reflexivity|].
  vm_compute. auto.
Qed.

(* ------------------------------------------------------------------ *)
(** Requests to the process. *)
Definition ok_c : corc := mkCO true true true true true true true.
Definition ok_x : xorc := mkXO true true true true.
Definition start : proc := mkPr new_pod 0.
Definition rest : cbody := mkB "a" (Some []).

Lemma pod_step_idx p q : length (p_idx (fst (pod_step p q))) <=
  length (p_idx p) + (match q, snd (pod_step p q) with PCreate _ _, Ok200 _ => 1 | _, _ => 0 end).
Proof.
  assert (RM : forall x l, length (remove string_dec x l) <= length l).
  { intros x l. induction l as [|y l IH]; cbn; [lia|]. destruct (string_dec x y); cbn; lia. }
  destruct q as [w b|w name|name idx|name ds t|]; cbn [pod_step].
  - unfold handle_create. destruct (String.eqb (b_name b) ""); [cbn; lia|].
    destruct (b_indexes b) as [l|]; [|cbn; lia].
    destruct (index_map l []); cbn; try lia.
    unfold create_collection. destruct (negb (co_session w && co_pod w)); [cbn; lia|].
    destruct (negb (co_doccreate w)); [cbn; lia|].
    assert (D : forall i, p_idx (doc_create (namespaced (b_name b)) i p) = p_idx p)
      by (intros i; unfold doc_create; destruct aget; reflexivity).
    destruct (negb (co_kvcreate w)); [cbn; rewrite D; lia|].
    assert (K : forall p', p_idx (kv_create (namespaced (b_name b)) p') = p_idx p')
      by (intros p'; unfold kv_create; destruct aget; reflexivity).
    destruct (negb (co_docopen w && co_kvopen w && co_new w)); cbn; rewrite K, D; [lia|].
    specialize (RM (namespaced (b_name b)) (p_idx p)). cbn in RM |- *. lia.
  - unfold handle_delete, delete_collection. destruct (negb (xo_session w && xo_pod w)); cbn; [lia|].
    specialize (RM (namespaced name) (p_idx p)). cbn in RM |- *. lia.
  - unfold doc_create. destruct aget; cbn; lia.
  - destruct (aget (namespaced name) (p_docs p)) as [[i d]|]; [|cbn; lia].
    destruct (aget (namespaced name) (p_kv p)); cbn; lia.
  - cbn. lia.
Qed.

(** Every registered index has its two goroutines, whatever the requests were. *)
Theorem C90_two_per_index_partial : forall qs,
  2 * length (p_idx (pr_pod (run_proc start qs))) <= pr_bg (run_proc start qs).
Proof.
  intros qs. unfold run_proc.
  assert (G : forall s, 2 * length (p_idx (pr_pod s)) <= pr_bg s ->
    2 * length (p_idx (pr_pod (fold_left proc_step qs s))) <= pr_bg (fold_left proc_step qs s)).
  { induction qs as [|q qs IH]; intros s Hs; cbn [fold_left]; [exact Hs|]. apply IH.
    destruct q as [q|name]; cbn [proc_step].
    - pose proof (pod_step_idx (pr_pod s) q) as L.
      destruct (pod_step (pr_pod s) q) as [p r] eqn:E. cbn [fst snd pr_pod pr_bg] in *.
      destruct q; cbv beta iota in L; try lia.
      + rewrite E in L. destruct r; cbn [snd] in L; lia.
      + cbn in E. injection E as <- <-. cbn. lia.
    - cbn [pr_pod pr_bg register p_idx].
      assert (RM : forall x l, length (remove string_dec x l) <= length l).
      { intros x l. induction l as [|y l IH']; cbn; [lia|]. destruct (string_dec x y); cbn; lia. }
      specialize (RM (namespaced name) (p_idx (pr_pod s))). cbn in RM |- *. lia. }
  apply G. cbn. lia.
Qed.

(** The collections a history of requests registers. *)
Definition made (s : proc) (q : wreq) : list string :=
  match q with
  | WPod (PCreate w b) => match snd (pod_step (pr_pod s) (PCreate w b)) with Ok200 _ => [b_name b] | _ => [] end
  | WOpen name => [name]
  | _ => []
  end.
Fixpoint all_made (s : proc) (qs : list wreq) : list string :=
  match qs with [] => [] | q :: qs' => made s q ++ all_made (proc_step s q) qs' end.
Definition no_restart (q : wreq) : bool := match q with WPod PRestart => false | _ => true end.

(** Goroutines are only ever added: two for each index made since the process
    started. *)
Lemma bg_since qs : forallb no_restart qs = true -> forall s,
  pr_bg (run_proc s qs) = 2 * length (all_made s qs) + pr_bg s.
Proof.
  unfold run_proc.
  induction qs as [|q qs IH]; intros H s; cbn [fold_left all_made]; [reflexivity|].
  cbn in H. apply andb_true_iff in H. destruct H as (H1 & H2). rewrite (IH H2), app_length.
  destruct q as [q|name]; cbn [proc_step made].
  - destruct (pod_step (pr_pod s) q) as [p r] eqn:E. cbn [pr_bg].
    destruct q; try discriminate; cbn [length]; try lia.
    rewrite E. cbn [snd]. destruct r; cbn [length]; lia.
  - cbn [pr_bg length]. lia.
Qed.
Theorem C90_two_per_creation : forall qs qs',
  forallb no_restart qs = true -> forallb no_restart qs' = true ->
  pr_bg (run_proc start qs) = 2 * length (all_made start qs)
  /\ (let s := run_proc start (qs ++ [WPod PRestart]) in
      pr_bg s = 0 /\ pr_bg (run_proc s qs') = 2 * length (all_made s qs')).
Proof.
  intros qs qs' H H'. split; [rewrite (bg_since qs H); cbn; lia|].
  assert (E : pr_bg (run_proc start (qs ++ [WPod PRestart])) = 0) by (unfold run_proc; rewrite fold_left_app; reflexivity).
  split; [exact E|]. rewrite (bg_since qs' H'), E. lia.
Qed.

(** A collection that is created and deleted [n] times leaves an empty pod, no index
    and 2n goroutines, each holding a cache. *)
Fixpoint churn (n : nat) : list wreq :=
  match n with 0 => [] | S m => WPod (PCreate ok_c rest) :: WPod (PDelete ok_x "a") :: churn m end.
Theorem C90_deleted_collections_refuted : forall n, exists qs,
  pr_pod (run_proc start qs) = new_pod /\ pr_bg (run_proc start qs) = 2 * n.
Proof.
  intros n. exists (churn n). unfold run_proc.
  assert (G : forall k, fold_left proc_step (churn n) (mkPr new_pod k) = mkPr new_pod (2 * n + k)).
  { induction n as [|m IH]; intros k; [reflexivity|]. cbn [churn fold_left].
    replace (proc_step (proc_step (mkPr new_pod k) (WPod (PCreate ok_c rest))) (WPod (PDelete ok_x "a")))
      with (mkPr new_pod (2 + k)) by reflexivity.
    rewrite IH. f_equal. lia. }
  unfold start. rewrite G. cbn. split; [reflexivity|lia].
Qed.

(** Three collections, one of them created twice, one opened by a search. *)
Example C90_process_nonvacuous :
  let qs := [WPod (PCreate ok_c rest); WPod (PCreate ok_c rest); WOpen "b"; WPod (PCreate ok_c (mkB "c" (Some []))); WPod (PDelete ok_x "c")] in
  forallb no_restart qs = true /\ all_made start qs = ["a"; "a"; "b"; "c"]%string
  /\ length (p_idx (pr_pod (run_proc start qs))) = 2 /\ pr_bg (run_proc start qs) = 8
  /\ pr_bg (run_proc start (qs ++ [WPod PRestart; WOpen "a"])) = 2.
Proof. vm_compute. auto. Qed.

Print Assumptions C90_one_sender_returns_partial.
Print Assumptions C90_compressed_closes_partial.
Print Assumptions C90_one_left_running.
Print Assumptions C90_two_updates_refuted.
Print Assumptions C90_drop_shutdown_refuted.
Print Assumptions C90_drop_leaves_one_refuted.
Print Assumptions C90_two_per_index_partial.
Print Assumptions C90_two_per_creation.
Print Assumptions C90_deleted_collections_refuted.
