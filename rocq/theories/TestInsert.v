(** Concrete insertion histories used by the examples. *)
From Verif Require Import Base F32 PQ PQProofs Graph Search SearchProofs SearchLayer SearchKnn
  Insert InsertProofs InsertHist Distancer DistancerProofs TestGraph.

(** The client's parameters (document.go:318-321, maintainance.go:21) with a
    vector source that knows the vectors of [tab]. *)
Definition src_of (tab : list (N * vec)) (id : N) : res vec :=
  match mget id tab with Some v => Ok v | None => Err EVectorSource end.
Definition ienv_of (P : provider) (tab : list (N * vec)) : ienv :=
  mkI (env_rev P) (fun _ _ id => src_of tab id) 25000 30 60.
(** The same with [M] links per layer and its own efConstruction. *)
Definition ienv_M (M : nat) (efc : Z) (P : provider) (tab : list (N * vec)) : ienv :=
  mkI (env_rev P) (fun _ _ id => src_of tab id) 25000 M efc.

Fixpoint enum {A} (i : N) (l : list A) : list (N * A) :=
  match l with [] => [] | x :: l' => (i, x) :: enum (i + 1) l' end.

(** Insert [vs] under ids 0, 1, ... with the given layers. *)
Fixpoint ops_of (I : ienv) (l : list (N * (vec * nat))) : list aop :=
  match l with
  | [] => []
  | (i, (v, t)) :: l' => mkA I i v t :: ops_of I l'
  end.
Definition history (mk : list (N * vec) -> ienv) (l : list (list Z * nat)) : list aop :=
  let vs := map (fun p => (q_of (fst p), snd p)) l in
  ops_of (mk (map (fun p => (fst p, fst (snd p))) (enum 0 vs))) (enum 0 vs).

(** Seventy points of the plane, six of them on upper layers. *)
Definition pt (i : nat) : list Z :=
  [Z.of_nat (i * 37 mod 101); Z.of_nat (i * 53 mod 97)]%Z.
Definition pts70 : list (list Z * nat) :=
  map (fun i => (pt i, if Nat.eqb (i mod 11) 3 then (if Nat.eqb (i mod 2) 0 then 1 else 2) else 0)%nat)
      (seq 0 70).
Definition hist70 : list aop := history (ienv_of l2p) pts70.

Lemma ops_of_forall (p : aop -> Prop) I l :
  (forall i v t, In (i, (v, t)) l -> p (mkA I i v t)) -> Forall p (ops_of I l).
Proof.
  induction l as [|[i [v t]] l IH]; intros H; constructor; [apply H; now left|].
  apply IH. intros. apply H. now right.
Qed.

Fixpoint nodupN (l : list N) : bool :=
  match l with [] => true | x :: l' => negb (memN x l') && nodupN l' end.
Lemma nodupN_spec l : nodupN l = true -> NoDup l.
Proof.
  induction l as [|x l IH]; cbn; intros H; constructor; apply andb_true_iff in H; destruct H as [H1 H2]; auto.
  intros Hin. apply memN_In in Hin. rewrite Hin in H1. discriminate.
Qed.

Lemma enum_bound {A} (l : list A) : forall k i x, In (i, x) (enum k l) -> (k <= i < k + N.of_nat (length l))%N.
Proof.
  induction l as [|y l IH]; intros k i x; cbn [enum In length]; [tauto|].
  intros [E|H]; [inversion E; lia|]. apply IH in H. lia.
Qed.

Lemma ops_of_ids I l : map a_id (ops_of I l) = map fst l.
Proof. induction l as [|[i [v t]] l IH]; cbn; [reflexivity|]. now rewrite IH. Qed.

Lemma enum_fst_bound {A} (l : list A) k i : In i (map fst (enum k l)) -> (k <= i)%N.
Proof. intros H. apply in_map_iff in H. destruct H as ([j x] & <- & H). apply enum_bound in H. cbn. lia. Qed.

Lemma enum_nodup {A} (l : list A) : forall k, NoDup (map fst (enum k l)).
Proof.
  induction l as [|y l IH]; intros k; cbn; constructor; auto.
  intros H. apply enum_fst_bound in H. lia.
Qed.

Lemma history_nodup mk l : NoDup (map a_id (history mk l)).
Proof. unfold history. rewrite ops_of_ids. apply enum_nodup. Qed.

Lemma history_forall (p : aop -> Prop) mk l :
  (forall I i x t, (i < N.of_nat (length l))%N -> In (x, t) l -> p (mkA (mk I) i (q_of x) t)) ->
  Forall p (history mk l).
Proof.
  intros H. unfold history. apply ops_of_forall. intros i v t Hi.
  assert (Hx : exists x, v = q_of x /\ In (x, t) l).
  { assert (Hs : In (v, t) (map (fun p => (q_of (fst p), snd p)) l)).
    { clear - Hi. revert Hi. generalize (map (fun p : list Z * nat => (q_of (fst p), snd p)) l). intros l0.
      generalize 0%N. induction l0 as [|y l0 IH]; intros k; cbn; [tauto|].
      intros [E|Hi]; [inversion E; now left|right; eauto]. }
    apply in_map_iff in Hs. destruct Hs as ([x t'] & E & Hin). inversion E; subst. eauto. }
  destruct Hx as (x & -> & Hin). apply enum_bound in Hi. rewrite map_length in Hi.
  apply H; [lia|exact Hin].
Qed.
