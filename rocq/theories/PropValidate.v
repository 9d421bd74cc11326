(** Property C97: the check of a vector's length before it is added. *)
From Verif Require Import Base F32 PQ PQProofs Graph Search SearchProofs SearchLayer SearchKnn
  SearchCong Insert HeuristicProofs InsertProofs InsertHist InsertTotal InsertDim InsertSmall InsertFacts InsertFind
  Distancer DistancerProofs PropDistancer TestGraph TestInsert PropSearch PropInsert
  Persist PersistProofs PersistHist InsertRestart ClientProofs VCache VCacheProofs VCacheFacts PropVCache Validate.

(** A new vertex of another length is refused, but its vertex stays behind. *)
Lemma gstate_wrong n cap D succ h o :
  gstate n cap D succ h -> dop_ok cap o -> a_vec o <> [] -> length (a_vec o) <> n -> (a_id o < i_vcsize (a_env o))%N ->
  ~ In (a_id o) D ->
  exists e w, add (a_env o) h (a_id o) (a_vec o) (a_lvl o) = (put_node (with_once h) w, Err e) /\ v_id w = a_id o /\ length (v_vec w) <> n.
Proof.
  intros [P W S Nd L Dm EpD (vep & Hep & Hml) B (Z1 & v0 & Hz) Su] ((Hsc & Hsym & Hcap & Hid) & Hdim & Hlen) Hne Hv Hvc Hni.
  unfold add. destruct (a_vec o) as [|x q0] eqn:Eq; [congruence|]. rewrite <- Eq in *.
  unfold insert. assert (Hb : negb (h_once h) && is_empty h = false) by (destruct B as [-> | ->]; [reflexivity|apply andb_false_r]).
  rewrite Hb. set (q := p_normalize _ _).
  assert (Hq : length q <> length (v_vec vep)).
  { unfold q. rewrite Hlen, (Dm _ _ EpD Hep). exact Hv. }
  assert (Hne' : h_ep (with_once h) <> a_id o) by (intros E; apply Hni; rewrite <- E; exact EpD).
  destruct (insert_linked_mismatch (a_env o) (with_once h) (a_id o) q (a_lvl o) vep Hdim Hep Hne' Hq Hvc) as (e & ->).
  exists e, (new_vertex (a_id o) q (a_lvl o)). repeat split. cbn [v_vec new_vertex]. unfold q. now rewrite Hlen.
Qed.

(** After a round everything is written. *)
Lemma cstate_rounds n cap ids rs : 0 < n -> forall h D succ,
  rs <> [] -> gstate n cap D succ h -> rounds_ok h rs ->
  let ops := flat_map rd_adds rs in
  Forall (good_op n cap ids) ops -> incl D ids -> incl (map a_id ops) ids ->
  NoDup (map a_id ops) -> (forall o, In o ops -> ~ In (a_id o) D) ->
  cstate n cap (rev (map a_id ops) ++ D) (succ ++ ops) (fst (run_rounds h rs)).
Proof.
  intros Hn. induction rs as [|r rs IH]; intros h D succ Hne Hg Hr ops Hok Hi Hi2 Hnd Hni; [congruence|].
  cbn [rounds_ok] in Hr. destruct Hr as (Hk & Hf & Hr). subst ops. cbn [flat_map run_rounds fst snd] in *.
  apply Forall_app in Hok. destruct Hok as [Hok1 Hok2]. rewrite map_app in *.
  destruct (gstate_adds n cap ids (rd_adds r) Hn h D succ Hg Hok1 Hi) as [A1 A2].
  { intros j Hj. apply Hi2, in_or_app. now left. }
  { now apply NoDup_app_l in Hnd. }
  { intros o Ho. apply Hni, in_or_app. now left. }
  cbv zeta in *.
  pose proof (gstate_flush n cap _ _ _ _ (rd_cnt r) (rd_puts r) A2 Hk Hf) as Hc.
  apply (cstate_afters n cap _ _ (rd_after r)) in Hc.
  destruct rs as [|r2 rs].
  { cbn [flat_map map run_rounds fst]. rewrite !app_nil_r. exact Hc. }
  pose proof (IH _ (rev (map a_id (rd_adds r)) ++ D) (succ ++ rd_adds r) ltac:(discriminate) (c_g _ _ _ _ _ Hc) Hr Hok2) as B2.
  rewrite rev_app_distr, <- !app_assoc. rewrite <- app_assoc in B2. apply B2.
  { intros j Hj. apply in_app_or in Hj. destruct Hj as [Hj|Hj]; [|now apply Hi]. apply in_rev in Hj. apply Hi2, in_or_app. now left. }
  { intros j Hj. apply Hi2, in_or_app. now right. }
  { now apply NoDup_app_r in Hnd. }
  { intros o Ho Hin. apply in_app_or in Hin. destruct Hin as [Hin|Hin].
    - apply in_rev in Hin. apply (NoDup_app_disj _ _ _ Hnd Hin). now apply in_map.
    - apply (Hni o); [apply in_or_app; now right|exact Hin]. }
Qed.

(** Additions alone write nothing to the table. *)
Lemma run_adds_table ops : forall h, pinv h -> is_empty (fst (run_adds h ops)) = is_empty h.
Proof.
  induction ops as [|o ops IH]; intros h Hp; cbn [run_adds fst]; [reflexivity|].
  rewrite IH by exact (ev_step_pinv h (EvAdd o) Hp).
  destruct (add_prel (a_env o) h (a_id o) (a_vec o) (a_lvl o) (pinv_wfh h Hp)) as [[(K1 & K2 & K3) _ _ _] _].
  unfold is_empty. now rewrite K1, K2, K3.
Qed.

(* ------------------------------------------------------------------ *)
(** After any rounds of additions with a write-back each, with restarts and
    queries in between, and with the vector of the entry point at hand (in the
    vector cache, or given by the source): exactly the vectors of the
    collection's length pass, exactly they are then accepted by Add, and a
    refused one leaves nothing behind, while Add alone leaves its vertex.
    Missing: the time before the first write-back, an entry point without vector
    and a failing table; false for them (below). *)
Theorem C97_agrees_partial : forall n cap o adds keys cnt k after rs (norm : vec -> vec) (c : vcache vec) (src : res vec) (v0 : vec) o',
  0 < n ->
  let rs' := mkRound (o :: adds) keys cnt k after :: rs in
  let ops := flat_map rd_adds rs' in
  let ids := a_id o' :: map a_id ops in
  a_id o = 0%N -> NoDup ids -> rounds_ok empty_index rs' ->
  Forall (fun o => call_ok cap o /\ length (a_vec o) = n /\ (a_id o < i_vcsize (a_env o))%N /\ src_ok n ids (a_env o)) ops ->
  let h := fst (run_rounds empty_index rs') in
  snd (vget norm c (h_ep h) src) = Ok v0 -> length v0 = n ->
  call_ok cap o' -> a_vec o' <> [] -> (a_id o' < i_vcsize (a_env o'))%N -> src_ok n ids (a_env o') ->
  let answer := snd (validate norm c src false h (a_vec o')) in
  let added := add (a_env o') h (a_id o') (a_vec o') (a_lvl o') in
  let checked := checked_add norm c src false (a_env o') h (a_id o') (a_vec o') (a_lvl o') in
  (answer = Ok tt <-> length (a_vec o') = n) /\
  (answer = Ok tt <-> snd added = Ok tt) /\
  (length (a_vec o') = n -> checked = added) /\
  (length (a_vec o') <> n ->
     answer = Err EDimMismatch /\ checked = (h, Err EDimMismatch) /\
     (exists e, snd added = Err e) /\
     exists w, node_by_id (fst added) (a_id o') = Some w /\ length (v_vec w) <> n).
Proof.
  intros n cap o adds keys cnt k after rs norm c src v0 o' Hn rs' ops ids Hz Hnd Hr Hok h Hget Hv0 Hc' Hne Hvc' Hsrc' answer added checked.
  assert (Hgood : Forall (good_op n cap ids) ops).
  { eapply Forall_impl; [|exact Hok]. intros a (A1 & A2 & A3 & A4). split; [now apply call_dop|]. auto. }
  apply NoDup_cons_iff in Hnd. destruct Hnd as [Hnew Hnd].
  assert (Hcs : cstate n cap (rev (map a_id ops)) ops h).
  { subst ops rs' h. cbn [flat_map rd_adds app map] in *. pose proof (Forall_inv Hgood) as Ho. apply Forall_inv_tail in Hgood.
    destruct Ho as (Hd & Hl & Hv & _). destruct (gstate_first n cap o Hn Hd Hl Hv Hz) as [F1 F2]. cbv zeta in *.
    apply NoDup_cons_iff in Hnd. destruct Hnd as [Hnd1 Hnd2].
    apply (cstate_rounds n cap ids (mkRound adds keys cnt k after :: rs) Hn _ [a_id o] [o] ltac:(discriminate) F2 Hr Hgood).
    - intros j [<-|[]]. right. now left.
    - intros j Hj. right. now right.
    - exact Hnd2.
    - intros a Ha [E|[]]. apply Hnd1. rewrite E. now apply in_map. }
  pose proof (c_g _ _ _ _ _ Hcs) as Hg.
  assert (He : is_empty h = false).
  { destruct (c_ep _ _ _ _ _ Hcs) as (e & w & Ke & _). unfold is_empty. rewrite Ke. now destruct (h_kv h). }
  assert (Ha : answer = if Nat.eqb n (length (a_vec o')) then Ok tt else Err EDimMismatch).
  { unfold answer, validate. rewrite He. cbn [orb snd]. rewrite Hget, Hv0. reflexivity. }
  assert (HniD : ~ In (a_id o') (rev (map a_id ops))) by (intros H; apply Hnew; now apply in_rev).
  assert (Hyes : length (a_vec o') = n -> snd added = Ok tt).
  { intros Hl. apply (gstate_add n cap (rev (map a_id ops)) ids ops h o' Hn Hg).
    - split; [now apply call_dop|]. auto.
    - intros j Hj. right. now apply in_rev.
    - now left.
    - exact HniD. }
  assert (Hno : length (a_vec o') <> n -> exists e w, added = (put_node (with_once h) w, Err e) /\ v_id w = a_id o' /\ length (v_vec w) <> n).
  { intros Hl. apply (gstate_wrong n cap (rev (map a_id ops)) ops h o' Hg); auto. now apply call_dop. }
  unfold checked, checked_add. fold answer added. rewrite Ha. clearbody added.
  destruct (Nat.eqb_spec n (length (a_vec o'))) as [Hl|Hl].
  - repeat split; auto; try congruence; intros H; congruence.
  - destruct (Hno (fun E => Hl (eq_sym E))) as (e & w & -> & Hw1 & Hw2). cbn [fst snd].
    split; [split; [discriminate|congruence]|]. split; [split; discriminate|]. split; [congruence|]. intros _.
    repeat split; eauto. exists w. split; [|exact Hw2]. rewrite <- Hw1. apply node_put_eq.
Qed.
Print Assumptions C97_agrees_partial.

(** Before the first write-back, and whenever the table cannot be asked, every
    vector passes. *)
Theorem C97_unwritten : forall norm c src kverr ops v,
  snd (validate norm c src kverr (fst (run_adds empty_index ops)) v) = Ok tt.
Proof.
  intros norm c src kverr ops v. unfold validate. rewrite run_adds_table by exact pinv_empty. cbn. now rewrite orb_true_r.
Qed.
Print Assumptions C97_unwritten.

(** Thirty vectors of length 2 were added; one of length 3 passes the check and
    is refused by Add. *)
Theorem C97_unwritten_refuted : exists ops o, Forall (fun x => x = Ok tt) (snd (run_adds empty_index ops)) /\
  length ops = 30 /\
  (forall norm c src, snd (validate norm c src false (fst (run_adds empty_index ops)) (a_vec o)) = Ok tt) /\
  snd (add (a_env o) (fst (run_adds empty_index ops)) (a_id o) (a_vec o) (a_lvl o)) = Err EDimMismatch.
Proof.
  exists hist30, bad_op.
  split; [replace (snd (run_adds empty_index hist30)) with (repeat (@Ok unit tt) 30) by (vm_compute; reflexivity); repeat constructor|].
  split; [reflexivity|]. split; [intros; apply C97_unwritten|]. exact (proj2 (proj2 (proj2 (proj2 C17_nonvacuous)))).
Qed.
Print Assumptions C97_unwritten_refuted.

(** Five vectors of length 2, written back, then a restart: the check refuses a
    vector of length 2 because the vector cache and the document cache of the
    new process are empty, and Add accepts it. *)
Definition rounds97 : list round := rounds51 ++ [mkRound [] [] 5 10 [true]].
Definition op97 : aop := mkA failing_src 5 (q_of [4; 7]%Z) 0.
Theorem C97_restart_refuted : exists rs o,
  Forall (fun x => x = Ok tt) (snd (run_rounds empty_index rs)) /\
  (forall a, In a (flat_map rd_adds rs) -> length (a_vec a) = length (a_vec o)) /\
  let h := fst (run_rounds empty_index rs) in
  (forall norm max, snd (validate norm (new_vcache max) (snd (dc_get (V := vec) (h_ep h) [])) false h (a_vec o)) = Err EVectorSource) /\
  snd (add (a_env o) h (a_id o) (a_vec o) (a_lvl o)) = Ok tt.
Proof.
  exists rounds97, op97.
  split; [replace (snd (run_rounds empty_index rounds97)) with (repeat (@Ok unit tt) 5) by (vm_compute; reflexivity); repeat constructor|].
  split; [intros a Ha; cbn in Ha; repeat (destruct Ha as [<-|Ha]; [reflexivity|]); destruct Ha|].
  cbv zeta.
  assert (He : is_empty (fst (run_rounds empty_index rounds97)) = false) by (vm_compute; reflexivity).
  assert (Hep : h_ep (fst (run_rounds empty_index rounds97)) = 0%N) by (vm_compute; reflexivity).
  split; [|vm_compute; reflexivity].
  intros norm max. unfold validate. rewrite He, Hep. cbn [orb snd]. rewrite fresh_no_vectors; reflexivity.
Qed.
Print Assumptions C97_restart_refuted.

(** The failing table after a write-back. *)
Theorem C97_table_error_refuted : exists rs v,
  (forall a, In a (flat_map rd_adds rs) -> length (a_vec a) <> length v) /\
  forall norm c src, snd (validate norm c src true (fst (run_rounds empty_index rs)) v) = Ok tt.
Proof.
  exists rounds51, (q_of [1; 2; 3]%Z).
  split; [intros a Ha; cbn in Ha; repeat (destruct Ha as [<-|Ha]; [vm_compute; discriminate|]); destruct Ha|].
  intros. reflexivity.
Qed.
Print Assumptions C97_table_error_refuted.

(** The hypotheses of C97_agrees_partial: the history of C51, a vector of the
    right and one of another length, and the entry point in the vector cache. *)
Example C97_nonvacuous :
  exists o adds keys cnt k after rs, rounds51 = mkRound (o :: adds) keys cnt k after :: rs /\ a_id o = 0%N /\
  NoDup (a_id op97 :: map a_id (flat_map rd_adds rounds51)) /\ rounds_ok empty_index rounds51 /\
  Forall (fun o => call_ok 25500 o /\ length (a_vec o) = 2 /\ (a_id o < i_vcsize (a_env o))%N /\
    src_ok 2 (a_id op97 :: map a_id (flat_map rd_adds rounds51)) (a_env o)) (op97 :: flat_map rd_adds rounds51) /\
  let h := fst (run_rounds empty_index rounds51) in
  let c := mkVC (V := vec) [(0%N, q_of [1; 2]%Z)] 25000 1 100 [] in
  snd (vget (fun v => v) c (h_ep h) (Err EVectorSource)) = Ok (q_of [1; 2]%Z) /\
  snd (validate (fun v => v) c (Err EVectorSource) false h (a_vec op97)) = Ok tt /\
  snd (validate (fun v => v) c (Err EVectorSource) false h (q_of [1; 2; 3]%Z)) = Err EDimMismatch.
Proof.
  do 7 eexists. split; [reflexivity|]. split; [reflexivity|].
  split; [apply nodupN_spec; vm_compute; reflexivity|]. split; [exact (proj1 C51_nonvacuous)|]. split.
  { repeat constructor; cbn; auto using env_rev_sched; try lia; try apply env_rev_sched; right; vm_compute; lia. }
  cbv zeta. repeat split; vm_compute; reflexivity.
Qed.
