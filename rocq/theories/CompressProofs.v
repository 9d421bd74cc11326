(** Codes of compressed vectors: every task writes its own slot; later changes
    touch only their own slot. *)
From Verif Require Import Base VCache Compress.

Lemma ids_below_seq n : ids_below n = map N.of_nat (seq 0 (N.to_nat n)).
Proof.
  unfold ids_below.
  assert (H : forall k, (k <= n)%N ->
    N.iter k (fun x : N * list N => (N.pred (fst x), N.pred (fst x) :: snd x)) (n, []) =
      ((n - k)%N, map N.of_nat (seq (N.to_nat (n - k)) (N.to_nat k)))).
  { induction k as [|k IH] using N.peano_ind; intros Hk.
    - cbn. now rewrite N.sub_0_r.
    - rewrite N.iter_succ, IH by lia. cbn [fst snd]. rewrite <- N.sub_succ_r. f_equal.
      rewrite N2Nat.inj_succ. cbn [seq map]. rewrite N2Nat.id. f_equal. f_equal. f_equal. lia. }
  rewrite H by lia. cbn [snd]. now rewrite N.sub_diag.
Qed.

Section Any.
  Variables V C : Type.
  Variable norm : V -> V.
  Variable encode : list V -> V -> C.

  Lemma clean_full (c : vcache V) (n : N) (vec : N -> V) :
    (forall id, mget id (vc_slots c) = if N.ltb id n then Some (vec id) else None) -> (n <= vc_size c)%N ->
    clean c = map vec (map N.of_nat (seq 0 (N.to_nat n))).
  Proof.
    intros H Hn. unfold clean. rewrite ids_below_seq.
    replace (N.to_nat (vc_size c)) with (N.to_nat n + (N.to_nat (vc_size c) - N.to_nat n))%nat by lia.
    rewrite seq_app, map_app, flat_map_app.
    assert (E : forall l, (forall k, In k l -> (k < N.to_nat n)%nat) ->
      flat_map (fun id => match mget id (vc_slots c) with Some v => [v] | None => [] end) (map N.of_nat l) = map vec (map N.of_nat l)).
    { induction l as [|k l IH]; intros Hl; [reflexivity|]. cbn [map flat_map]. rewrite H.
      assert (K := Hl k (or_introl eq_refl)). assert (Hk : N.ltb (N.of_nat k) n = true) by (apply N.ltb_lt; lia). rewrite Hk.
      cbn [app]. f_equal. apply IH. intros j Hj. apply Hl. now right. }
    rewrite E by (intros k Hk; apply in_seq in Hk; lia).
    assert (E2 : forall l, (forall k, In k l -> (N.to_nat n <= k)%nat) ->
      flat_map (fun id => match mget id (vc_slots c) with Some v => [v] | None => [] end) (map N.of_nat l) = []).
    { induction l as [|k l IH]; intros Hl; [reflexivity|]. cbn [map flat_map]. rewrite H.
      assert (K := Hl k (or_introl eq_refl)). assert (Hk : N.ltb (N.of_nat k) n = false) by (apply N.ltb_ge; lia). rewrite Hk.
      cbn [app]. apply IH. intros j Hj. apply Hl. now right. }
    rewrite E2 by (intros k Hk; apply in_seq in Hk; lia). apply app_nil_r.
  Qed.

  Lemma vget_cached (c : vcache V) id v src : (id < vc_size c)%N -> mget id (vc_slots c) = Some v -> vget norm c id src = (c, Ok v).
  Proof.
    intros H E. unfold vget, vstep. assert (Hl : N.ltb id (vc_size c) = true) by (apply N.ltb_lt; exact H). rewrite Hl. cbn [negb]. now rewrite E.
  Qed.

  (** All tasks: each index its own code, nothing else touched. *)
  Lemma ctasks_spec data put_ok is : forall st c,
    NoDup is -> (forall i, In i is -> (i < cc_size c)%N /\ (N.to_nat i < length data)%nat) ->
    exists st' c', ctasks encode data put_ok (st, c) is = (st', c', Ok tt) /\
      cc_size c' = cc_size c /\ cc_max c' = cc_max c /\ cc_count c' = (cc_count c + Z.of_nat (length is))%Z /\
      (forall i v, In i is -> nth_error data (N.to_nat i) = Some v -> mget i (cc_slots c') = Some (encode data v)) /\
      (forall i, ~ In i is -> mget i (cc_slots c') = mget i (cc_slots c)) /\
      (forall i v, In i is -> put_ok i = true -> nth_error data (N.to_nat i) = Some v -> mget i st' = Some (encode data v)) /\
      (forall i, ~ In i is -> mget i st' = mget i st).
  Proof.
    induction is as [|i is IH]; intros st c Hd Hi.
    - exists st, c. cbn [ctasks length]. split; [reflexivity|]. split; [reflexivity|]. split; [reflexivity|]. split; [lia|].
      split; [now intros ? ? []|]. split; [reflexivity|]. split; [now intros ? ? []|reflexivity].
    - destruct (Hi i (or_introl eq_refl)) as [Hs Hl]. apply nth_error_Some in Hl.
      destruct (nth_error data (N.to_nat i)) as [v|] eqn:Ev; [|congruence]. inversion Hd as [|? ? Hn Hd']; subst.
      cbn [ctasks]. unfold ctask at 1. rewrite Ev. cbn [fst snd]. unfold cpreload at 1.
      assert (Hb : N.ltb i (cc_size c) = true) by (apply N.ltb_lt; exact Hs). rewrite Hb. cbn [negb].
      set (c1 := mkCC (mset i (encode data v) (cc_slots c)) (cc_size c) (cc_count c + 1) (cc_max c)).
      set (st1 := if put_ok i then mset i (encode data v) st else st).
      destruct (IH st1 c1 Hd' ltac:(intros j Hj; apply Hi; now right)) as (st' & c' & E & A1 & A2 & A3 & A4 & A5 & A6 & A7).
      exists st', c'. split; [exact E|]. split; [exact A1|]. split; [exact A2|].
      split; [rewrite A3; unfold c1; cbn [cc_count length]; lia|]. split; [|split; [|split]].
      + intros j w [<-|Hj] Ew; [|now apply A4]. rewrite A5 by exact Hn. unfold c1. cbn [cc_slots]. rewrite mget_mset_eq. congruence.
      + intros j Hj. rewrite A5 by (intros K; apply Hj; now right). unfold c1. cbn [cc_slots]. apply mget_mset_ne. intros <-. apply Hj. now left.
      + intros j w [<-|Hj] Hp Ew; [|now apply A6]. rewrite A7 by exact Hn. unfold st1. rewrite Hp, mget_mset_eq. congruence.
      + intros j Hj. rewrite A7 by (intros K; apply Hj; now right). unfold st1. destruct (put_ok i); [|reflexivity].
        apply mget_mset_ne. intros <-. apply Hj. now left.
  Qed.

  Lemma cgrow_size (c : ccache C) n : (n < cc_size (cgrow n c))%N.
  Proof. unfold cgrow. destruct (N.ltb_spec n (cc_size c)); cbn [cc_size]; lia. Qed.

  (** [n] vectors with the ids below [n], all in the cache. *)
  Lemma compress_full (o : corc V) (s : cstate V C) (n id0 : N) (vec : N -> V) :
    (forall id, mget id (vc_slots (cs_vecs s)) = if N.ltb id n then Some (vec id) else None) -> (n <= vc_size (cs_vecs s))%N ->
    co_empty o = false -> co_init o = true -> co_node0 o = Some id0 -> (id0 < n)%N -> co_pq o = true -> co_addpq o = true ->
    Permutation (co_tasks o) (map N.of_nat (seq 0 (N.to_nat n))) ->
    let data := map vec (map N.of_nat (seq 0 (N.to_nat n))) in
    exists s', compress norm encode o s = (s', Ok tt) /\ cs_on s' = true /\ cs_data s' = data /\
      (vc_size (cs_vecs s) < cc_size (cs_cache s'))%N /\ cc_max (cs_cache s') = cc_max (cs_cache s) /\
      cc_count (cs_cache s') = (cc_count (cgrow (vc_size (cs_vecs s)) (cs_cache s)) + Z.of_N n)%Z /\
      (forall id, (id < n)%N -> code_of s' id = Ok (encode data (vec id))) /\
      (forall id, (id < n)%N -> co_put o id = true -> mget id (cs_store s') = Some (encode data (vec id))) /\
      (forall id, (n <= id)%N -> mget id (cs_store s') = mget id (cs_store s)) /\
      (forall id, (n <= id)%N -> mget id (cc_slots (cs_cache s')) = mget id (cc_slots (cs_cache s))).
  Proof.
    intros Hs Hn He Hi H0 Hid Hp Ha Ht. cbv zeta. unfold compress. rewrite He, Hi, H0. cbn [negb].
    rewrite (vget_cached (cs_vecs s) id0 (vec id0)); [|lia|rewrite Hs; assert (K : N.ltb id0 n = true) by (apply N.ltb_lt; exact Hid); now rewrite K].
    rewrite Hp. cbn [negb]. rewrite (clean_full _ n vec Hs Hn). set (data := map vec (map N.of_nat (seq 0 (N.to_nat n)))).
    assert (Hin : forall i, In i (co_tasks o) <-> (i < n)%N).
    { intros i. split; intros H.
      - apply (Permutation_in _ Ht) in H. apply in_map_iff in H. destruct H as (k & <- & K). apply in_seq in K. lia.
      - apply (Permutation_in _ (Permutation_sym Ht)). apply in_map_iff. exists (N.to_nat i). split; [apply N2Nat.id|]. apply in_seq. lia. }
    assert (Hdat : forall i, (i < n)%N -> nth_error data (N.to_nat i) = Some (vec i)).
    { intros i H. unfold data. rewrite map_map. rewrite nth_error_map, nth_error_nth' with (d := 0%nat) by (rewrite seq_length; lia).
      cbn [option_map]. rewrite seq_nth by lia. now rewrite Nat.add_0_l, N2Nat.id. }
    destruct (ctasks_spec data (co_put o) (co_tasks o) (cs_store s) (cgrow (vc_size (cs_vecs s)) (cs_cache s)))
      as (st' & c' & E & A1 & A2 & A3 & A4 & A5 & A6 & A7).
    { apply (Permutation_NoDup (Permutation_sym Ht)). apply FinFun.Injective_map_NoDup; [|apply seq_NoDup]. intros a b. apply Nat2N.inj. }
    { intros i H. apply Hin in H. pose proof (cgrow_size (cs_cache s) (vc_size (cs_vecs s))). split; [lia|].
      apply nth_error_Some. rewrite Hdat by exact H. discriminate. }
    rewrite E, Ha. eexists. split; [reflexivity|]. cbn [cs_on cs_data cs_cache cs_store]. split; [reflexivity|]. split; [reflexivity|].
    pose proof (cgrow_size (cs_cache s) (vc_size (cs_vecs s))) as G. split; [now rewrite A1|]. split; [|split; [|split; [|split; [|split]]]].
    - rewrite A2. unfold cgrow. now destruct (N.ltb _ _).
    - rewrite A3. f_equal. rewrite (Permutation_length Ht), map_length, seq_length. lia.
    - intros id H. unfold code_of, cget. cbn [cs_cache]. rewrite A1.
      assert (K : N.ltb id (cc_size (cgrow (vc_size (cs_vecs s)) (cs_cache s))) = true) by (apply N.ltb_lt; lia). rewrite K. cbn [negb].
      rewrite (A4 id (vec id)); [reflexivity|now apply Hin|now apply Hdat].
    - intros id H K. apply A6; [now apply Hin|exact K|now apply Hdat].
    - intros id H. apply A7. rewrite Hin. lia.
    - intros id H. rewrite A5 by (rewrite Hin; lia). unfold cgrow. now destruct (N.ltb _ _).
  Qed.

  (** The last change an operation list makes to an id. *)
  Fixpoint last_change (id : N) (ops : list (cop V)) (r : option (option V)) : option (option V) :=
    match ops with
    | [] => r
    | CInsert id' v _ :: ops' => last_change id ops' (if N.eqb id id' then Some (Some v) else r)
    | CRemove id' :: ops' => last_change id ops' (if N.eqb id id' then Some None else r)
    | _ :: ops' => last_change id ops' r
    end.
  Definition inserts (ops : list (cop V)) : nat := length (filter (fun o => match o with CInsert _ _ _ => true | _ => false end) ops).
  (** The limit of the cache stays above [k]. *)
  Definition limit_above (k : Z) (ops : list (cop V)) : Prop := forall m, In (CMax m) ops -> (k < m)%Z.

  Definition shows (s0 s : cstate V C) (id : N) (r : option (option V)) : Prop :=
    match r with
    | None => code_of s id = code_of s0 id
    | Some (Some v) => code_of s id = Ok (encode (cs_data s0) v)
    | Some None => code_of s id = Err EOther
    end.
  Lemma crun_codes s0 ops : forall s r K,
    cs_data s = cs_data s0 -> cc_size (cs_cache s) = cc_size (cs_cache s0) ->
    (forall id v b, In (CInsert id v b) ops -> (id < cc_size (cs_cache s))%N) ->
    (forall id, In (CRemove id) ops -> (id < cc_size (cs_cache s))%N) ->
    (cc_count (cs_cache s) + Z.of_nat (inserts ops) <= K)%Z -> (K < cc_max (cs_cache s))%Z -> limit_above K ops ->
    (forall id, shows s0 s id (r id)) ->
    forall id, shows s0 (crun encode s ops) id (last_change id ops (r id)).
  Proof.
    induction ops as [|o ops IH]; intros s r K Hd Hz Hi Hr Hc Hm Hl Hs id; [apply Hs|].
    assert (Hi' : forall id v b, In (CInsert id v b) ops -> (id < cc_size (cs_cache s))%N) by (intros; eapply Hi; right; eassumption).
    assert (Hr' : forall id, In (CRemove id) ops -> (id < cc_size (cs_cache s))%N) by (intros; apply Hr; now right).
    assert (Hl' : limit_above K ops) by (intros m H; apply Hl; now right).
    destruct o as [i v b|i| |m]; cbn [crun cstep last_change].
    - assert (Hlt := Hi i v b (or_introl eq_refl)). unfold cpreload.
      assert (Hb : N.ltb i (cc_size (cs_cache s)) = true) by (apply N.ltb_lt; exact Hlt). rewrite Hb. cbn [negb fst].
      match goal with |- shows s0 (crun _ ?t _) _ _ => set (s1 := t) end.
      apply (IH s1 (fun j => if N.eqb j i then Some (Some v) else r j) K); try assumption.
      + unfold s1. cbn [cs_cache cc_count]. unfold inserts in Hc. cbn [filter length] in Hc. unfold inserts. lia.
      + intros j. destruct (N.eqb_spec j i) as [->|Hj].
        * cbn [shows]. unfold code_of, cget, s1. cbn [cs_cache cc_size cc_slots]. rewrite Hb. cbn [negb]. rewrite mget_mset_eq. now rewrite Hd.
        * specialize (Hs j). unfold shows, code_of, cget, s1 in *. cbn [cs_cache cc_size cc_slots]. rewrite mget_mset_ne by exact Hj. exact Hs.
    - assert (Hlt := Hr i (or_introl eq_refl)). assert (Hb : N.ltb i (cc_size (cs_cache s)) = true) by (apply N.ltb_lt; exact Hlt).
      match goal with |- shows s0 (crun _ (fst (?t, _)) _) _ _ => set (s1 := t) end. cbn [fst].
      assert (Hz1 : cc_size (cs_cache s1) = cc_size (cs_cache s)) by (unfold s1; cbn [cs_cache]; unfold cdelete; destruct (mget _ _); [destruct (N.ltb _ _)|]; reflexivity).
      assert (Hm1 : cc_max (cs_cache s1) = cc_max (cs_cache s)) by (unfold s1; cbn [cs_cache]; unfold cdelete; destruct (mget _ _); [destruct (N.ltb _ _)|]; reflexivity).
      assert (Hc1 : (cc_count (cs_cache s1) <= cc_count (cs_cache s))%Z).
      { unfold s1. cbn [cs_cache]. unfold cdelete. destruct (mget _ _); [destruct (N.ltb _ _)|]; cbn [cc_count]; lia. }
      apply (IH s1 (fun j => if N.eqb j i then Some None else r j) K); try assumption.
      + now rewrite Hz1.
      + intros j v b Hj. rewrite Hz1. eapply Hi'; eassumption.
      + intros j Hj. rewrite Hz1. now apply Hr'.
      + unfold inserts in Hc |- *. cbn [filter] in Hc. lia.
      + now rewrite Hm1.
      + intros j. assert (Hg : mget j (cc_slots (cs_cache s1)) = if N.eqb j i then None else mget j (cc_slots (cs_cache s))).
        { unfold s1. cbn [cs_cache]. unfold cdelete. destruct (N.eqb_spec j i) as [->|Hj].
          - destruct (mget i (cc_slots (cs_cache s))) eqn:E; [|exact E]. rewrite Hb. cbn [cc_slots]. apply mget_mdel_eq.
          - destruct (mget i (cc_slots (cs_cache s))); [|reflexivity]. rewrite Hb. cbn [cc_slots]. now apply mget_mdel_ne. }
        specialize (Hs j). unfold shows, code_of, cget in *. rewrite Hz1, Hg. destruct (N.eqb_spec j i) as [->|Hj]; [|exact Hs].
        rewrite Hb. reflexivity.
    - unfold ctick. destruct (Z.leb_spec (cc_max (cs_cache s)) (cc_count (cs_cache s))) as [L|L].
      + exfalso. clear - L Hc Hm. lia.
      + cbn [fst]. replace {| cs_on := cs_on s; cs_data := cs_data s; cs_cache := cs_cache s; cs_store := cs_store s; cs_vecs := cs_vecs s |} with s by (now destruct s).
        apply (IH s r K); assumption.
    - cbn [fst]. match goal with |- shows s0 (crun _ ?t _) _ _ => set (s1 := t) end.
      apply (IH s1 r K); try assumption. apply Hl. now left.
  Qed.

  (** The bucket read back at start-up. *)
  Lemma cprefill_keeps l : forall (c : ccache C) id b, ~ In id (map fst l) -> (id < cc_size c)%N -> mget id (cc_slots c) = Some b ->
    (id < cc_size (cprefill l c))%N /\ mget id (cc_slots (cprefill l c)) = Some b.
  Proof.
    induction l as [|[i x] l IH]; intros c id b Hn Hs Hg; [split; assumption|]. cbn [cprefill]. cbn [map fst In] in Hn.
    assert (Hz : (cc_size c <= cc_size (cgrow i c))%N) by (unfold cgrow; destruct (N.ltb_spec i (cc_size c)); cbn [cc_size]; lia).
    assert (Hk : cc_slots (cgrow i c) = cc_slots c) by (unfold cgrow; now destruct (N.ltb _ _)).
    unfold cpreload. assert (Hb : N.ltb i (cc_size (cgrow i c)) = true) by (apply N.ltb_lt, cgrow_size). rewrite Hb. cbn [negb fst].
    apply IH; [tauto|cbn [cc_size]; lia|]. cbn [cc_slots]. rewrite Hk. rewrite mget_mset_ne by (intros ->; tauto). exact Hg.
  Qed.
  Lemma cprefill_all l : forall (c : ccache C) id b, NoDup (map fst l) -> In (id, b) l -> cget (cprefill l c) id = Ok b.
  Proof.
    induction l as [|[i x] l IH]; intros c id b Hd Hin; [destruct Hin|]. inversion Hd as [|? ? Hn Hd']; subst. cbn [cprefill].
    destruct Hin as [[= -> ->]|Hin]; [|now apply IH].
    unfold cpreload. assert (Hb : N.ltb id (cc_size (cgrow id c)) = true) by (apply N.ltb_lt, cgrow_size). rewrite Hb. cbn [negb fst].
    edestruct (cprefill_keeps l (mkCC (mset id b (cc_slots (cgrow id c))) (cc_size (cgrow id c)) (cc_count (cgrow id c) + 1) (cc_max (cgrow id c))) id b) as [A B].
    - exact Hn.
    - cbn [cc_size]. apply cgrow_size.
    - cbn [cc_slots]. apply mget_mset_eq.
    - unfold cget. assert (K := A). apply N.ltb_lt in K. rewrite K, B. reflexivity.
  Qed.
End Any.
