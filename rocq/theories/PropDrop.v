(** C96: dropping an index deletes its commit log and no other. *)
From Coq Require Import String Ascii.
From Verif Require Import Base CommitLog LogFiles Switch DropLog PropLogFiles.
Local Open Scope string_scope.

Lemma prefix_spec : forall a b, prefix a b = true <-> exists s, b = a ++ s.
Proof.
  induction a as [|c a IH]; intros b.
  - split; [intros _; now exists b|intros _; destruct b; reflexivity].
  - destruct b as [|d b]; [split; [discriminate|intros [s H]; discriminate H]|]. cbn [prefix String.append].
    destruct (ascii_dec c d) as [->|N].
    + rewrite IH. split; intros [s H]; exists s; [now rewrite H|now injection H].
    + split; [discriminate|]. intros [s H]. injection H as H _. now destruct N.
Qed.
Lemma below_spec q p : below q p = true <-> p = q \/ exists s, p = q ++ "/" ++ s.
Proof.
  unfold below. rewrite orb_true_iff, String.eqb_eq, prefix_spec.
  assert (A : forall a b c : string, (a ++ b) ++ c = a ++ b ++ c) by (induction a; intros; cbn; [|rewrite IHa]; reflexivity).
  split; (intros [H|[s H]]; [left; congruence|right; exists s; rewrite H; now rewrite A]).
Qed.

Lemma change_other q f d p g : q <> p -> In (p, g) (change q f d) <-> In (p, g) d.
Proof.
  intros N. unfold change. rewrite in_map_iff. split.
  - intros ([p' g'] & H & I). cbn [fst snd] in H. destruct (String.eqb_spec q p') as [->|_]; injection H as <- <-; [now destruct N|exact I].
  - intros I. exists (p, g). split; [|exact I]. cbn [fst snd]. now rewrite (proj2 (String.eqb_neq q p) N).
Qed.
Lemma change_paths q f d : map fst (change q f d) = map fst d.
Proof. unfold change. rewrite map_map. apply map_ext. intros [p g]. cbn. now destruct (String.eqb q p). Qed.
Lemma read_change q f d : In q (map fst d) -> read_dir q (change q f d) = f (read_dir q d).
Proof.
  unfold read_dir, change. induction d as [|[p g] d IH]; [intros []|]. intros H. cbn [map find fst snd].
  destruct (String.eqb_spec q p) as [->|N]; cbn [fst snd find].
  - now rewrite String.eqb_refl.
  - rewrite (proj2 (String.eqb_neq q p) N). apply IH. destruct H as [H|H]; [now destruct N|exact H].
Qed.

(** Every path outside the directory of the log keeps its files, whatever happens. *)
Lemma log_outside o root id w w' r p f : drop_log o root id w = (w', r) -> below (log_dir root id) p = false ->
  In (p, f) (w_disk w') <-> In (p, f) (w_disk w).
Proof.
  intros H B. assert (N : log_dir root id <> p).
  { intros E. assert (T : below (log_dir root id) p = true) by (apply below_spec; left; now symmetry). congruence. }
  unfold drop_log in H. destruct (w_isopen w); cbn [negb] in H; [|injection H as <- _; reflexivity].
  destruct (d_close o) as [n|].
  { injection H as <- _. cbn [w_disk]. now apply change_other. }
  destruct (shutdown_log (d_rs o) (d_rc o) (w_cyc w)) as [[e|] y]; [injection H as <- _; cbn [w_disk]; now apply change_other|].
  set (d := change _ _ (w_disk w)) in H. assert (D : In (p, f) d <-> In (p, f) (w_disk w)) by now apply change_other.
  destruct (is_there (log_dir root id) d); [destruct (d_remove o) as [keep|]|]; injection H as <- _; cbn [w_disk].
  - rewrite <- D. unfold remove_some. rewrite in_map_iff. split.
    + intros ([p' g] & H & I). cbn [fst snd] in H. destruct (below (log_dir root id) p') eqn:Bp; injection H as <- <-; [congruence|exact I].
    + intros I. exists (p, f). split; [|exact I]. cbn [fst]. now rewrite B.
  - rewrite <- D. unfold remove_all. rewrite filter_In. cbn [fst]. rewrite B. cbn. tauto.
  - exact D.
Qed.
Lemma index_outside o i root id w w' r p f : drop_index o i root id w = (w', r) -> below (log_dir root id) p = false ->
  In (p, f) (w_disk w') <-> In (p, f) (w_disk w).
Proof.
  unfold drop_index. destruct (Z.eqb i 0); [apply log_outside|]. destruct (d_rt o); [intros [= <- _] _; reflexivity|].
  intros H B. apply (log_outside _ _ _ _ _ _ p f H B).
Qed.

(** A successful Drop: nothing is left at or below the directory of the log, all
    other directories are as they were, the cycles have ended, and an index that is
    made again under this name starts empty. *)
Theorem C96_dropped : forall o i root id w w', drop_index o i root id w = (w', Ok tt) ->
  let q := log_dir root id in
  (forall p f, In (p, f) (w_disk w') -> p <> q /\ forall s, p <> q ++ "/" ++ s) /\
  (forall p f, p <> q -> (forall s, p <> q ++ "/" ++ s) -> In (p, f) (w_disk w') <-> In (p, f) (w_disk w)) /\
  y_switch (w_cyc w') = false /\ y_condense (w_cyc w') = false /\ (i <> 0%Z -> y_clean (w_cyc w') = false) /\
  (forall srt, srt [] = [] -> restore srt (read_dir q (w_disk w')) = Ok ls_init).
Proof.
  intros o i root id w w' H q.
  assert (A : forall v v', drop_log o root id v = (v', Ok tt) ->
    (forall p f, In (p, f) (w_disk v') -> below q p = false) /\ y_switch (w_cyc v') = false /\ y_condense (w_cyc v') = false /\
    y_clean (w_cyc v') = y_clean (w_cyc v)).
  { intros v v' E. unfold drop_log in E. fold q in E. destruct (w_isopen v); [|discriminate E]. cbn [negb] in E.
    destruct (d_close o); [discriminate E|]. set (d := change _ _ _) in E. unfold shutdown_log in E.
    destruct (d_rs o) as [e1|], (d_rc o) as [e2|]; try discriminate E. cbn [after_stop] in E.
    destruct (is_there q d) eqn:T; [destruct (d_remove o); [discriminate E|]|]; injection E as <-; cbn [w_disk w_cyc y_switch y_condense y_clean]; repeat split.
    - intros p f I. unfold remove_all in I. apply filter_In in I as [_ I]. now apply negb_true_iff in I.
    - intros p f I. destruct (below q p) eqn:B; [|reflexivity]. unfold is_there in T.
      assert (X : existsb (fun e => below q (fst e)) d = true) by (apply existsb_exists; exists (p, f); auto). congruence. }
  assert (B : (forall p f, In (p, f) (w_disk w') -> below q p = false) /\ y_switch (w_cyc w') = false /\ y_condense (w_cyc w') = false /\
    (i <> 0%Z -> y_clean (w_cyc w') = false)).
  { unfold drop_index in H. destruct (Z.eqb_spec i 0) as [->|N].
    - destruct (A _ _ H) as (H1 & H2 & H3 & _). repeat split; try assumption. now intros [].
    - destruct (d_rt o); [discriminate H|]. destruct (A _ _ H) as (H1 & H2 & H3 & H4). repeat split; try assumption. intros _. exact H4. }
  destruct B as (B1 & B2 & B3 & B4).
  split.
  { intros p f I. specialize (B1 p f I). assert (X : ~ (p = q \/ exists s, p = q ++ "/" ++ s)) by (intros X; apply below_spec in X; congruence).
    split; [intros E; apply X; now left|intros s E; apply X; right; now exists s]. }
  split.
  { intros p f N1 N2. apply (index_outside _ _ _ _ _ _ _ p f H). destruct (below (log_dir root id) p) eqn:E; [|reflexivity].
    apply below_spec in E as [E|[s E]]; [now destruct N1|now destruct (N2 s)]. }
  split; [exact B2|]. split; [exact B3|]. split; [exact B4|].
  intros srt Hs. unfold read_dir. destruct (find _ (w_disk w')) as [[p f]|] eqn:F.
  { apply find_some in F as [I E]. cbn [fst] in E. apply String.eqb_eq in E. subst p. specialize (B1 q f I).
    assert (T : below q q = true) by (apply below_spec; now left). congruence. }
  unfold restore, get_names. cbv zeta. change (map fst (remove_tmp_combining [])) with (@nil fname). change (remove_tmp_scratch []) with (@nil fname). rewrite Hs. reflexivity.
Qed.
Print Assumptions C96_dropped.

Definition slash_free (s : string) : Prop := ~ In "/"%char (list_ascii_of_string s).
Lemma list_app a b : list_ascii_of_string (a ++ b) = (list_ascii_of_string a ++ list_ascii_of_string b)%list.
Proof. induction a; cbn; [reflexivity|now rewrite IHa]. Qed.
Lemma list_inj a b : list_ascii_of_string a = list_ascii_of_string b -> a = b.
Proof. intros H. rewrite <- (string_of_list_ascii_of_string a), <- (string_of_list_ascii_of_string b). now rewrite H. Qed.

(** Whether it succeeds or not, the logs of the other indexes under the same root keep
    their files, if their names have no slash. *)
Theorem C96_others_kept_partial : forall o i root id w w' r id' f,
  drop_index o i root id w = (w', r) -> id' <> id -> slash_free id' ->
  In (log_dir root id', f) (w_disk w') <-> In (log_dir root id', f) (w_disk w).
Proof.
  intros o i root id w w' r id' f H N S. apply (index_outside _ _ _ _ _ _ _ _ f H).
  destruct (below (log_dir root id) (log_dir root id')) eqn:B; [|reflexivity]. exfalso. apply below_spec in B.
  assert (C : forall x y, root ++ "/" ++ x = root ++ "/" ++ y -> x = y).
  { intros x y E. apply (f_equal list_ascii_of_string) in E. rewrite !list_app in E. apply app_inv_head in E. apply app_inv_head in E. now apply list_inj. }
  assert (As : forall a b c : string, (a ++ b) ++ c = a ++ b ++ c) by (induction a; intros; cbn; [|rewrite IHa]; reflexivity).
  unfold log_dir in B. destruct B as [B|[s B]].
  - apply C in B. apply N. apply list_inj. apply (f_equal list_ascii_of_string) in B. rewrite !list_app in B. now apply app_inv_tail in B.
  - rewrite !As in B. apply C in B. apply (f_equal list_ascii_of_string) in B. rewrite !list_app in B.
    assert (I : In "/"%char (list_ascii_of_string id' ++ list_ascii_of_string ".hnsw.commitlog.d")).
    { rewrite B. apply in_or_app. right. apply in_or_app. right. apply in_or_app. left. now left. }
    apply in_app_or in I as [I|I]; [now apply S|]. cbn in I. intuition discriminate.
Qed.
Print Assumptions C96_others_kept_partial.

(** A Drop that fails before the files are removed: the log is there with what was
    buffered added to it, up to what the cycles did before they were stopped. *)
Theorem C96_failed_stays_partial : forall o i root id w w' e, drop_index o i root id w = (w', Err e) ->
  let q := log_dir root id in In q (map fst (w_disk w)) -> d_remove o = None ->
  In q (map fst (w_disk w')) /\
  ((forall f, d_cycles o f = f) -> exists n, read_dir q (w_disk w') = append (w_act w) (firstn n (w_buffered w)) (read_dir q (w_disk w)) \/
     read_dir q (w_disk w') = read_dir q (w_disk w)).
Proof.
  intros o i root id w w' e H q I R.
  assert (A : forall v v', drop_log o root id v = (v', Err e) -> w_disk v = w_disk w -> w_act v = w_act w -> w_buffered v = w_buffered w ->
    In q (map fst (w_disk v')) /\
    ((forall f, d_cycles o f = f) -> exists n, read_dir q (w_disk v') = append (w_act w) (firstn n (w_buffered w)) (read_dir q (w_disk w)) \/
       read_dir q (w_disk v') = read_dir q (w_disk w))).
  { intros v v' E E1 E2 E3. unfold drop_log in E. fold q in E. rewrite E1, E2, E3 in E. destruct (w_isopen v); cbn [negb] in E.
    2: { injection E as <- _. rewrite E1. split; [exact I|]. intros _. exists 0. now right. }
    destruct (d_close o) as [n|].
    { injection E as <- _. cbn [w_disk]. rewrite change_paths. split; [exact I|]. intros _. exists n. left. now rewrite read_change. }
    destruct (shutdown_log (d_rs o) (d_rc o) (w_cyc v)) as [[s|] y].
    { injection E as <- _. cbn [w_disk]. rewrite change_paths. split; [exact I|]. intros C. exists (length (w_buffered w)). left.
      rewrite read_change by exact I. now rewrite C, firstn_all. }
    rewrite R in E. destruct (is_there q _); discriminate E. }
  unfold drop_index in H. destruct (Z.eqb i 0); [now apply (A w)|]. destruct (d_rt o).
  - injection H as <- _. cbn [w_disk]. split; [exact I|]. intros _. exists 0. now right.
  - exact (A _ _ H eq_refl eq_refl eq_refl).
Qed.
Print Assumptions C96_failed_stays_partial.

(** Two indexes under one root; the log of the first has two files, and one record is
    buffered. *)
Definition dir96 : dir := [((100, Plain), encode (LNode 0 0) ++ encode (LNode 1 0)); ((200, Plain), encode (LSetEp 1 0))]%N%list.
Definition own96 : owner :=
  mkOwn (200%N, Plain) (encode (LNode 2 0)) true (mkCyc true true true)
    [(log_dir "/data" "a", dir96); (log_dir "/data" "ab", dir96)].
Definition do96 (rs : stop_result) (rm : option (string -> fname -> bool)) : dropo :=
  mkDO None (fun f => f) rs None None rm.
Example C96_nonvacuous :
  slash_free "ab" /\
  exists w', drop_index (do96 None None) 300 "/data" "a" own96 = (w', Ok tt) /\
    w_disk w' = [("/data/ab.hnsw.commitlog.d", dir96)] /\ w_cyc w' = mkCyc false false false /\
    map fst (w_disk (fst (drop_index (do96 (Some true) None) 300 "/data" "a" own96))) = map fst (w_disk own96).
Proof.
  split; [intros H; cbn in H; intuition discriminate|]. eexists. split; [vm_compute; reflexivity|]. split; [reflexivity|]. split; reflexivity.
Qed.

(** Refuted: a Drop that failed because a cycle did not stop in time cannot be
    repeated.  The file is closed by then, and closing it again fails before anything
    else is done: the log stays, and an index made again under the name has the
    dropped nodes. *)
Theorem C96_repeat_refuted : exists o w w1, drop_index o 300 "/data" "a" w = (w1, Err EOther) /\ w_isopen w = true /\
  forall o', d_rt o' = None -> snd (drop_index o' 300 "/data" "a" w1) = Err EOther /\
    match restore by_time (read_dir (log_dir "/data" "a") (w_disk (fst (drop_index o' 300 "/data" "a" w1)))) with
    | Ok st => ls_ep st = 1%N /\ map fst (ls_nodes st) <> []
    | _ => False
    end.
Proof.
  exists (do96 (Some true) None), own96. eexists. split; [vm_compute; reflexivity|]. split; [reflexivity|].
  intros o' H. unfold drop_index. change (Z.eqb 300 0) with false. cbv iota. rewrite H. unfold drop_log. cbn [w_isopen negb fst snd w_disk].
  split; [reflexivity|]. vm_compute. split; [reflexivity|discriminate].
Qed.
Print Assumptions C96_repeat_refuted.

(** Refuted: if the removal fails half-way, an index made again under the name starts
    with a part of the old one, here without its first two nodes. *)
Theorem C96_half_removed_refuted : exists o w w', drop_index o 300 "/data" "a" w = (w', Err EOther) /\
  match restore by_time dir96, restore by_time (read_dir (log_dir "/data" "a") (w_disk w')) with
  | Ok old, Ok new => mget 0 (ls_nodes old) <> None /\ mget 0 (ls_nodes new) = None /\ ls_ep new = 1%N /\ mget 2 (ls_nodes new) <> None
  | _, _ => False
  end.
Proof.
  exists (do96 None (Some (fun _ f => N.eqb (fst f) 200))), own96. eexists. split; [vm_compute; reflexivity|].
  vm_compute. repeat split; discriminate.
Qed.
Print Assumptions C96_half_removed_refuted.

(** Refuted for names with a slash: the log of such an index can lie in the directory
    of another one and is deleted with it. *)
Theorem C96_nested_refuted : exists o w w' id', id' <> "a" /\ drop_index o 300 "/data" "a" w = (w', Ok tt) /\
  In (log_dir "/data" id', dir96) (w_disk w) /\ w_disk w' = [].
Proof.
  exists (do96 None None), (mkOwn (200%N, Plain) [] true (mkCyc true true true)
    [(log_dir "/data" "a", dir96); (log_dir "/data" "a.hnsw.commitlog.d/b", dir96)]). eexists. exists "a.hnsw.commitlog.d/b".
  split; [discriminate|]. split; [vm_compute; reflexivity|]. split; [right; left; reflexivity|reflexivity].
Qed.
Print Assumptions C96_nested_refuted.
