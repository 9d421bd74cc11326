(** Common vocabulary of the models: results, maps keyed by node id, small
    list helpers.  Nothing here models application logic. *)
From Coq Require Export List Arith NArith ZArith Bool Lia Permutation.
Export ListNotations.

(** Reasons for an [Err] result.  Go errors are opaque to callers in this code
    base (they are logged, wrapped or returned), so a tag is enough.
    Not a type in the code: Go errors as made with errors.Wrap and fmt.Errorf, e.g.
    insert.go:57-116, pkg/document/document.go:287-302. *)
Inductive err : Type :=
| ENodeMissing        (* "could not get node at docID" *)
| EEmptyVector        (* "got a nil or zero-length vector" *)
| EDimMismatch        (* "vector lengths don't match" *)
| EVectorSource       (* vectorForID / multiVectorForID returned an error *)
| EVecFormat          (* vector property has an unsupported format *)
| ENoVectorizer       (* "vectorizer is not initialized" *)
| EVectorizer         (* Corpi failed *)
| ETimeout            (* context deadline exceeded *)
| EStore              (* KV / document store call failed *)
| EMarshal            (* json.Marshal failed *)
| EDocNotFound        (* "document not found" *)
| EOther.

(** Result of a modelled Go call: normal return, error return, run-time panic,
    or (models with fuel only) the fuel ran out.
    Not a type in the code: the (value, error) results, e.g. insert.go:57, and panics. *)
Inductive res (A : Type) : Type :=
| Ok (a : A)
| Err (e : err)
| Panic
| OutOfFuel.
Arguments Ok {A} a.
Arguments Err {A} e.
Arguments Panic {A}.
Arguments OutOfFuel {A}.

(** Not in the code: [if err != nil { return err }], e.g. insert.go:277-279. *)
Definition bind {A B} (r : res A) (f : A -> res B) : res B :=
  match r with
  | Ok a => f a
  | Err e => Err e
  | Panic => Panic
  | OutOfFuel => OutOfFuel
  end.

Notation "'do!' x '<-' r ';' k" := (bind r (fun x => k))
  (at level 200, x name, r at level 100, k at level 200).

(** Finite maps keyed by [N]: association lists with at most one binding per
    key when built by [mset].
    Go maps and the store keyed by uint64, e.g. index.go:217, delete.go:586-597. *)
Definition nmap (V : Type) := list (N * V).

(** Reading a Go map, e.g. delete.go:579-584. *)
Fixpoint mget {V} (k : N) (m : nmap V) : option V :=
  match m with
  | [] => None
  | (k', v) :: m' => if N.eqb k k' then Some v else mget k m'
  end.

(** delete(m, k), e.g. delete.go:600-631. *)
Fixpoint mdel {V} (k : N) (m : nmap V) : nmap V :=
  match m with
  | [] => []
  | (k', v) :: m' => if N.eqb k k' then mdel k m' else (k', v) :: mdel k m'
  end.

(** m[k] = v, e.g. delete.go:586-597. *)
Definition mset {V} (k : N) (v : V) (m : nmap V) : nmap V := (k, v) :: mdel k m.

(** The keys a range over a map visits, e.g. insert.go:119-120. *)
Definition mkeys {V} (m : nmap V) : list N := map fst m.

(** Membership in a list of ids as a boolean.
    Not in the code: a set of ids, e.g. the allow lists of delete.go:126-137. *)
Definition memN (x : N) (l : list N) : bool := existsb (N.eqb x) l.

(** Replace position [i] of a list ([l] unchanged if out of range).
    l[i] = x, e.g. vertex.go:75-79. *)
Fixpoint upd {A} (l : list A) (i : nat) (x : A) : list A :=
  match l, i with
  | [], _ => []
  | _ :: t, O => x :: t
  | h :: t, S i' => h :: upd t i' x
  end.

(* ------------------------------------------------------------------ *)
(** Lemmas *)

Lemma mget_mset_eq {V} k (v : V) m : mget k (mset k v m) = Some v.
Proof. unfold mset; cbn. now rewrite N.eqb_refl. Qed.

Lemma mget_mdel_eq {V} k (m : nmap V) : mget k (mdel k m) = None.
Proof.
  induction m as [|[k' v] m IH]; cbn; [reflexivity|].
  destruct (N.eqb k k') eqn:E; [exact IH|]. cbn. now rewrite E.
Qed.

Lemma mget_mdel_ne {V} k k' (m : nmap V) : k <> k' -> mget k (mdel k' m) = mget k m.
Proof.
  intros Hne. induction m as [|[k2 v] m IH]; cbn; [reflexivity|].
  destruct (N.eqb_spec k' k2) as [->|H2].
  - rewrite IH. destruct (N.eqb_spec k k2); [congruence|reflexivity].
  - cbn. destruct (N.eqb k k2); [reflexivity|exact IH].
Qed.

Lemma mget_mset_ne {V} k k' (v : V) m : k <> k' -> mget k (mset k' v m) = mget k m.
Proof.
  intros Hne. unfold mset; cbn. destruct (N.eqb_spec k k'); [congruence|].
  now apply mget_mdel_ne.
Qed.

Lemma mget_mset {V} k k' (v : V) m :
  mget k (mset k' v m) = if N.eqb k k' then Some v else mget k m.
Proof.
  destruct (N.eqb_spec k k') as [->|H]; [apply mget_mset_eq|now apply mget_mset_ne].
Qed.

Lemma mget_Some_in {V} k (v : V) m : mget k m = Some v -> In k (mkeys m).
Proof.
  induction m as [|[k' v'] m IH]; cbn; [discriminate|].
  destruct (N.eqb_spec k k') as [->|H]; [now left|]. intros Hg; right; now apply IH.
Qed.

Lemma mget_in_keys {V} k (m : nmap V) : In k (mkeys m) -> exists v, mget k m = Some v.
Proof.
  induction m as [|[k' v'] m IH]; cbn; [intros []|].
  intros [<-|H].
  - rewrite N.eqb_refl. eauto.
  - destruct (N.eqb k k'); eauto.
Qed.

Lemma mget_None_notin {V} k (m : nmap V) : mget k m = None <-> ~ In k (mkeys m).
Proof.
  split.
  - intros Hg Hin. destruct (mget_in_keys _ _ Hin) as [v Hv]. congruence.
  - intros Hn. destruct (mget k m) eqn:E; [|reflexivity].
    exfalso. apply Hn. eapply mget_Some_in; eauto.
Qed.

Lemma memN_In x l : memN x l = true <-> In x l.
Proof.
  unfold memN. rewrite existsb_exists. split.
  - intros (y & Hy & E). apply N.eqb_eq in E. now subst.
  - intros H. exists x. split; [exact H|apply N.eqb_refl].
Qed.

Lemma memN_notIn x l : memN x l = false <-> ~ In x l.
Proof.
  rewrite <- memN_In. destruct (memN x l); intuition congruence.
Qed.

Lemma upd_length {A} (l : list A) i x : length (upd l i x) = length l.
Proof. revert i; induction l as [|h t IH]; intros [|i]; cbn; auto. Qed.

Lemma nth_error_upd_eq {A} (l : list A) i x :
  i < length l -> nth_error (upd l i x) i = Some x.
Proof.
  revert i; induction l as [|h t IH]; intros [|i] H; cbn in *; try lia; auto.
  apply IH; lia.
Qed.

Lemma nth_error_upd_ne {A} (l : list A) i j x :
  i <> j -> nth_error (upd l i x) j = nth_error l j.
Proof.
  revert i j; induction l as [|h t IH]; intros [|i] [|j] H; cbn; auto; try congruence.
Qed.

Lemma nth_error_upd {A} (l : list A) i j x :
  nth_error (upd l i x) j =
  if Nat.eqb i j then (if Nat.ltb i (length l) then Some x else None)
  else nth_error l j.
Proof.
  destruct (Nat.eqb_spec i j) as [->|H].
  - destruct (Nat.ltb_spec j (length l)).
    + now apply nth_error_upd_eq.
    + apply nth_error_None. now rewrite upd_length.
  - now apply nth_error_upd_ne.
Qed.

Lemma bind_Ok {A B} (r : res A) (f : A -> res B) b :
  bind r f = Ok b -> exists a, r = Ok a /\ f a = Ok b.
Proof. destruct r; cbn; intros H; try discriminate. eauto. Qed.

Lemma NoDup_app_intro {A} (l1 l2 : list A) :
  NoDup l1 -> NoDup l2 -> (forall x, In x l1 -> In x l2 -> False) -> NoDup (l1 ++ l2).
Proof.
  induction l1 as [|a l1 IH]; intros H1 H2 Hd; [exact H2|].
  inversion H1; subst. cbn. constructor.
  - intros Hin. apply in_app_or in Hin. destruct Hin as [Hin|Hin]; [auto|].
    apply (Hd a); [now left|exact Hin].
  - apply IH; auto. intros x Hx Hy. apply (Hd x); [now right|exact Hy].
Qed.

Lemma filter_length_le {A} (f : A -> bool) l : length (filter f l) <= length l.
Proof. induction l as [|a l IH]; cbn; [lia|]. destruct (f a); cbn; lia. Qed.

Lemma nth_error_firstn_lt {A} (l : list A) : forall n k, k < n -> nth_error (firstn n l) k = nth_error l k.
Proof.
  induction l as [|a l IH]; intros [|n] k H; cbn; try lia; [now destruct k|].
  destruct k as [|k]; [reflexivity|]. cbn. apply IH. lia.
Qed.
