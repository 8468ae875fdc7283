(** Python-level values shared by every model: exceptions as values and
    insertion ordered dictionaries.  No /repo code is modelled here; these are
    the python primitives the modelled code uses. *)
From Coq Require Export List Arith Lia Bool.
From Coq Require Export NArith String.
Export ListNotations.
#[global] Open Scope list_scope.

(** errno values that occur in the modelled system calls. *)
Inductive errno := EBADF | EMFILE | ENOENT | EPERM | EPIPE | EAGAIN.

(** Exceptions raised by the modelled code paths. *)
Inductive exn :=
| KeyError | AttributeError | ValueError | TypeError | NameError
| IndexError | AssertionError | PlainException | InvalidStateError
| FileNotFoundError | UnicodeDecodeError | UnicodeEncodeError | RecursionError | PicklingError
| OSError (e : errno).

(** Result of a python call: a value or a raised exception. *)
Inductive res (A : Type) := Ok (a : A) | Err (e : exn).
Arguments Ok {A} a.
Arguments Err {A} e.

Definition bind_res {A B} (m : res A) (f : A -> res B) : res B :=
  match m with Ok a => f a | Err e => Err e end.
Notation "'let*' x ':=' m 'in' f" := (bind_res m (fun x => f))
  (at level 200, x pattern, m at level 100, f at level 200).

Definition is_ok {A} (m : res A) : bool :=
  match m with Ok _ => true | Err _ => false end.

(** Hashable keys. *)
Class Key (K : Type) := {
  keqb : K -> K -> bool;
  keqb_spec : forall x y, reflect (x = y) (keqb x y) }.
#[global] Instance Key_nat : Key nat := {| keqb := Nat.eqb; keqb_spec := Nat.eqb_spec |}.
#[global] Instance Key_string : Key string := {| keqb := String.eqb; keqb_spec := String.eqb_spec |}.
#[global] Instance Key_N : Key N := {| keqb := N.eqb; keqb_spec := N.eqb_spec |}.

(** A python dict: association list in insertion order.  [dset] on an existing
    key keeps its position, as python does. *)
Definition dict (K V : Type) := list (K * V).

Section Dict.
  Context {K V : Type} {KK : Key K}.
  Fixpoint dget (d : dict K V) (k : K) : option V :=
    match d with
    | [] => None
    | (k', v) :: d' => if keqb k k' then Some v else dget d' k
    end.
  Fixpoint dset (d : dict K V) (k : K) (v : V) : dict K V :=
    match d with
    | [] => [(k, v)]
    | (k', v') :: d' => if keqb k k' then (k, v) :: d' else (k', v') :: dset d' k v
    end.
  Definition ddel (d : dict K V) (k : K) : dict K V :=
    filter (fun kv => negb (keqb k (fst kv))) d.
  Definition dmem (d : dict K V) (k : K) : bool :=
    match dget d k with Some _ => true | None => false end.
  Definition dkeys (d : dict K V) : list K := map fst d.
  Definition dvals (d : dict K V) : list V := map snd d.

  Lemma keqb_refl k : keqb k k = true.
  Proof. destruct (keqb_spec k k); congruence. Qed.
  Lemma keqb_neq k k' : k <> k' -> keqb k k' = false.
  Proof. destruct (keqb_spec k k'); congruence. Qed.

  Lemma dget_dset d k v k' :
    dget (dset d k v) k' = if keqb k' k then Some v else dget d k'.
  Proof.
    induction d as [|[k0 v0] d IH]; cbn.
    - reflexivity.
    - destruct (keqb_spec k k0) as [->|Hk]; cbn.
      + destruct (keqb_spec k' k0); reflexivity.
      + rewrite IH. destruct (keqb_spec k' k0) as [->|]; [|reflexivity].
        rewrite keqb_neq by congruence. reflexivity.
  Qed.
  Lemma dget_ddel d k k' :
    dget (ddel d k) k' = if keqb k' k then None else dget d k'.
  Proof.
    unfold ddel. induction d as [|[k0 v0] d IH]; cbn.
    - destruct (keqb k' k); reflexivity.
    - destruct (keqb_spec k k0) as [->|Hk]; cbn.
      + rewrite IH. destruct (keqb_spec k' k0); reflexivity.
      + rewrite IH. destruct (keqb_spec k' k0) as [->|]; [|reflexivity].
        rewrite keqb_neq by congruence. reflexivity.
  Qed.
  Lemma dget_In d k v : dget d k = Some v -> In (k, v) d.
  Proof.
    induction d as [|[k0 v0] d IH]; cbn; [discriminate|].
    destruct (keqb_spec k k0) as [->|]; intros H; [left; congruence|right; auto].
  Qed.
  Lemma dget_None d k : dget d k = None <-> ~ In k (dkeys d).
  Proof.
    induction d as [|[k0 v0] d IH]; cbn; [tauto|].
    destruct (keqb_spec k k0) as [->|H]; [split; [discriminate|tauto]|].
    rewrite IH. split; intros H1; [intros [?|?]; [congruence|tauto]|tauto].
  Qed.
  Lemma dget_mem d k : In k (dkeys d) <-> exists v, dget d k = Some v.
  Proof.
    destruct (dget d k) eqn:E.
    - split; [eauto|]. intros _. apply dget_In in E. unfold dkeys.
      apply in_map_iff. now exists (k, v).
    - apply dget_None in E. split; [tauto|]. intros [v H]. discriminate.
  Qed.
  Lemma In_dget d k v : NoDup (dkeys d) -> In (k, v) d -> dget d k = Some v.
  Proof.
    induction d as [|[k0 v0] d IH]; cbn; [tauto|].
    intros Hnd [H|H].
    - injection H as -> ->. now rewrite keqb_refl.
    - inversion Hnd as [|? ? Hn Hd]; subst.
      destruct (keqb_spec k k0) as [->|]; [|auto].
      exfalso. apply Hn. apply in_map_iff. now exists (k0, v).
  Qed.
  Lemma dkeys_dset d k v x : In x (dkeys (dset d k v)) <-> x = k \/ In x (dkeys d).
  Proof.
    induction d as [|[k0 v0] d IH]; cbn; [intuition|].
    destruct (keqb_spec k k0) as [->|]; cbn; [intuition|].
    fold (dkeys d) in *. fold (dkeys (dset d k v)). rewrite IH. intuition.
  Qed.
  Lemma dset_NoDup d k v : NoDup (dkeys d) -> NoDup (dkeys (dset d k v)).
  Proof.
    induction d as [|[k0 v0] d IH]; cbn; [repeat constructor; intuition|].
    intros H. inversion H as [|? ? Hn Hd]; subst.
    destruct (keqb_spec k k0) as [->|Hk]; cbn; [now constructor|].
    constructor; [|auto].
    fold (dkeys (dset d k v)). rewrite dkeys_dset. intros [->|?]; [congruence|auto].
  Qed.
  Lemma ddel_NoDup d k : NoDup (dkeys d) -> NoDup (dkeys (ddel d k)).
  Proof.
    unfold ddel, dkeys. induction d as [|[k0 v0] d IH]; cbn; [constructor|].
    intros H. inversion H as [|? ? Hn Hd]; subst.
    destruct (keqb k k0); cbn; auto.
    constructor; auto. intros Hin. apply Hn. apply in_map_iff in Hin as [x [<- Hx]].
    apply filter_In in Hx as [Hx _]. now apply in_map.
  Qed.
  Lemma dset_fresh d k v : dget d k = None -> dset d k v = d ++ [(k, v)].
  Proof.
    induction d as [|[k0 v0] d IH]; cbn; [reflexivity|].
    destruct (keqb_spec k k0); [discriminate|]. intros H. now rewrite IH.
  Qed.
  Lemma dset_values d k v x : In x (dvals (dset d k v)) -> x = v \/ In x (dvals d).
  Proof.
    induction d as [|[k0 v0] d IH]; cbn; [intuition|].
    destruct (keqb k k0); cbn; intuition.
  Qed.
  Lemma dset_length d k v :
    List.length (dset d k v) = List.length d + (if dmem d k then 0 else 1).
  Proof.
    unfold dmem. induction d as [|[k0 v0] d IH]; cbn; [reflexivity|].
    destruct (keqb k k0); cbn; [lia|]. rewrite IH. lia.
  Qed.
  Lemma dset_keys_same d k v : dmem d k = true -> dkeys (dset d k v) = dkeys d.
  Proof.
    unfold dmem. induction d as [|[k0 v0] d IH]; cbn; [discriminate|].
    destruct (keqb_spec k k0) as [->|]; cbn; [reflexivity|].
    intros H. f_equal. now apply IH.
  Qed.
End Dict.

(** Scope discipline: lists by default. *)
Arguments dict K V : assert.
