(** Proofs about starting pipelines, part 1: tables, redirect sets, making
    pipes, closing sources. *)
From Verif Require Import Py RedirModel RedirProofs Os PerformModel PerformSpec PerformProofs RunModel RunSpec.
From Coq Require Import Permutation.

Lemma NoDup_app_intro {A} (l m : list A) :
  NoDup l -> NoDup m -> (forall x, In x l -> ~ In x m) -> NoDup (l ++ m).
Proof.
  induction l as [|a l IH]; cbn; intros H1 H2 H3; [exact H2|].
  inversion H1 as [|? ? Hn Hd]; subst. constructor.
  - rewrite in_app_iff. intros [H|H]; [tauto|]. apply (H3 a); auto.
  - apply IH; auto.
Qed.
Lemma NoDup_app_inv {A} (l m : list A) :
  NoDup (l ++ m) -> NoDup l /\ NoDup m /\ (forall x, In x l -> ~ In x m).
Proof.
  induction l as [|a l IH]; cbn; intros H.
  - repeat split; auto; constructor.
  - inversion H as [|? ? Hn Hd]; subst. destruct (IH Hd) as [A1 [A2 A3]]. rewrite in_app_iff in Hn.
    repeat split; auto; [constructor; tauto|]. intros x [<-|Hx]; [tauto|auto].
Qed.

Lemma Forall2_impl {A B} (P Q : A -> B -> Prop) l m :
  (forall x y, P x y -> Q x y) -> Forall2 P l m -> Forall2 Q l m.
Proof. intros H F. induction F; constructor; auto. Qed.

(** ** Tables *)
Definition ext (t t1 : tab) (F : list nat) : Prop :=
  NoDup F /\ (forall n, In n F -> tget t n = None /\ tget t1 n <> None) /\
  (forall n, ~ In n F -> tget t1 n = tget t n).
Definition postt (t t1 : tab) (own gone : list nat) : Prop :=
  NoDup own /\ (forall n, In n own -> tget t n = None /\ tget t1 n <> None) /\
  (forall n, ~ In n own -> tget t1 n = if in_dec Nat.eq_dec n gone then None else tget t n).

Lemma ext_refl t : ext t t [].
Proof. split; [constructor|]. split; [intros n []|reflexivity]. Qed.
Lemma ext_keep t t1 F n : ext t t1 F -> tget t n <> None -> tget t1 n = tget t n.
Proof.
  intros [_ [H1 H2]] H. apply H2. intros Hin. apply H1 in Hin. tauto.
Qed.
Lemma ext_trans t t1 t2 F G : ext t t1 F -> ext t1 t2 G -> ext t t2 (F ++ G).
Proof.
  intros [N1 [A1 B1]] [N2 [A2 B2]].
  assert (D : forall n, In n F -> ~ In n G).
  { intros n HF HG. apply A1 in HF. apply A2 in HG. tauto. }
  split; [|split].
  - apply NoDup_app_intro; auto.
  - intros n Hn. apply in_app_iff in Hn as [Hn|Hn].
    + split; [now apply A1|]. rewrite B2; [now apply A1|now apply D].
    + specialize (A2 n Hn) as [X Y]. split; [|exact Y].
      destruct (in_dec Nat.eq_dec n F) as [HF|HF]; [now apply A1|]. now rewrite <- B1.
  - intros n Hn. rewrite in_app_iff in Hn. rewrite B2, B1; tauto.
Qed.
Lemma ext_perm t t1 F G : Permutation F G -> ext t t1 F -> ext t t1 G.
Proof.
  intros HP [A [B C]]. split; [eapply Permutation_NoDup; eauto|]. split.
  - intros n Hn. apply B. eapply Permutation_in; [|exact Hn]. now symmetry.
  - intros n Hn. apply C. intros H. apply Hn. eapply Permutation_in; eauto.
Qed.
Lemma ext_alloc t n e : tget t n = None -> ext t (tset t n (Some e)) [n].
Proof.
  intros H. split; [repeat constructor; intros []|]. split.
  - intros m [<-|[]]. split; [exact H|]. rewrite tget_tset, Nat.eqb_refl. discriminate.
  - intros m Hm. rewrite tget_tset. destruct (Nat.eqb_spec m n); [|reflexivity].
    exfalso. apply Hm. left. congruence.
Qed.

(** Closing: after [gone] is closed. *)
Definition removed (t t1 : tab) (C : list nat) : Prop :=
  forall n, tget t1 n = if in_dec Nat.eq_dec n C then None else tget t n.
Lemma ext_removed_post t t1 t2 srcs own gone C :
  ext t t1 (srcs ++ own) -> removed t1 t2 C ->
  (forall n, In n C <-> In n gone \/ In n srcs) ->
  (forall n, In n gone -> tget t n <> None) ->
  postt t t2 own gone.
Proof.
  intros [N [A B]] R HC Hg. apply NoDup_app_inv in N as [N1 [N2 N3]].
  assert (HnC : forall n, In n own -> ~ In n C).
  { intros n Hn Hc. apply HC in Hc as [Hc|Hc].
    - apply Hg in Hc. destruct (A n) as [X _]; [apply in_app_iff; auto|]. congruence.
    - now apply (N3 n). }
  split; [exact N2|]. split.
  - intros n Hn. destruct (A n) as [X Y]; [apply in_app_iff; auto|]. split; [exact X|].
    rewrite R. destruct (in_dec Nat.eq_dec n C) as [Hc|]; [exfalso; now apply (HnC n)|exact Y].
  - intros n Hn. rewrite R. destruct (in_dec Nat.eq_dec n C) as [Hc|Hc].
    + destruct (in_dec Nat.eq_dec n gone) as [|Hng]; [reflexivity|].
      apply HC in Hc as [Hc|Hc]; [tauto|]. symmetry. apply A. apply in_app_iff. auto.
    + rewrite B.
      * destruct (in_dec Nat.eq_dec n gone) as [Hgn|]; [|reflexivity]. exfalso. apply Hc, HC. auto.
      * rewrite in_app_iff. intros [X|X]; [apply Hc, HC; auto|tauto].
Qed.

(** ** Outcomes *)
Definition okerr (e : exn) : Prop := e = OSError EMFILE \/ e = OSError EPERM.
Definition hp {A} (m : RM A) (s : st) (Q : st -> A -> Prop) : Prop :=
  match m s with (s', Ok a) => Q s' a | (_, Err e) => okerr e end.
Lemma hp_ret {A} (a : A) s (Q : st -> A -> Prop) : Q s a -> hp (rret a) s Q.
Proof. exact (fun H => H). Qed.
Lemma hp_bind {A B} (m : RM A) (f : A -> RM B) s (Q : st -> B -> Prop) :
  hp m s (fun s' a => hp (f a) s' Q) -> hp (rbind m f) s Q.
Proof.
  unfold hp, rbind. destruct (m s) as [s' [a|e]]; auto.
Qed.
Lemma hp_mono {A} (m : RM A) s (P Q : st -> A -> Prop) :
  hp m s P -> (forall s' a, P s' a -> Q s' a) -> hp m s Q.
Proof. unfold hp. destruct (m s) as [s' [a|e]]; auto. Qed.
Lemma hp_rlift {A} (r : res A) a s (Q : st -> A -> Prop) : r = Ok a -> Q s a -> hp (rlift r) s Q.
Proof. intros ->. exact (fun H => H). Qed.
Lemma hp_lift {A} (m : TM A) s (Q : st -> A -> Prop) :
  (match m (s_tab s) with
   | (t', Ok a) => Q (mkSt t' (s_np s) (s_nt s)) a
   | (_, Err e) => okerr e end) -> hp (lift m) s Q.
Proof. unfold hp, lift. destruct (m (s_tab s)) as [t' [a|e]]; auto. Qed.

(** ** Redirect sets *)
Definition nbs (l : list redirect) : list nat :=
  flat_map (fun r => match r_source r with SInt n => if r_borrowed r then [] else [n] | _ => [] end) l.
Lemma in_nbs l n : In n (nbs l) <-> exists r, In r l /\ r_source r = SInt n /\ r_borrowed r = false.
Proof.
  unfold nbs. rewrite in_flat_map. split.
  - intros [r [Hr H]]. exists r. destruct (r_source r) as [|m|p| | | |]; cbn in H; try tauto.
    destruct (r_borrowed r); cbn in H; [tauto|]. destruct H as [->|[]]. auto.
  - intros [r [Hr [Hs Hb]]]. exists r. split; [exact Hr|]. rewrite Hs, Hb. now left.
Qed.
Lemma nbs_ints l n : In n (nbs l) -> In n (ints l).
Proof. intros H. apply in_nbs in H as [r [Hr [Hs _]]]. apply in_ints. eauto. Qed.
Lemma nbs_NoDup l : NoDup (ints l) -> NoDup (nbs l).
Proof.
  induction l as [|r l IH]; [cbn; auto|].
  assert (Hi : ints (r :: l) = ints [r] ++ ints l) by (unfold ints; cbn; now rewrite app_nil_r).
  assert (Hn : nbs (r :: l) = nbs [r] ++ nbs l) by (unfold nbs; cbn; now rewrite app_nil_r).
  rewrite Hi, Hn. intros H. apply NoDup_app_inv in H as [A [B C]].
  apply NoDup_app_intro; [|auto|].
  - unfold nbs. cbn. rewrite app_nil_r. destruct (r_source r); try constructor.
    destruct (r_borrowed r); constructor; [intros []|constructor].
  - intros x Hx Hy. apply (C x); [now apply nbs_ints|now apply nbs_ints].
Qed.

Lemma close_source_list_ok l : forall t,
  NoDup (nbs l) -> (forall n, In n (nbs l) -> tget t n <> None) ->
  exists t', close_source_list l t = (t', Ok tt) /\ removed t t' (nbs l).
Proof.
  induction l as [|r l IH]; intros t Hnd Hop.
  { exists t. split; [reflexivity|]. intros n. reflexivity. }
  assert (Hn : nbs (r :: l) = nbs [r] ++ nbs l) by (unfold nbs; cbn; now rewrite app_nil_r).
  rewrite Hn in *. apply NoDup_app_inv in Hnd as [A [B C]].
  assert (S1 : exists t1, close_source_fd r t = (t1, Ok tt) /\ removed t t1 (nbs [r])).
  { unfold close_source_fd, nbs. cbn. rewrite app_nil_r.
    destruct (r_source r) as [|m|p| | | |] eqn:Es; try (exists t; split; [reflexivity|intros n; reflexivity]).
    destruct (r_borrowed r) eqn:Eb; [exists t; split; [reflexivity|intros n; reflexivity]|].
    unfold os_close. destruct (tget t m) as [e|] eqn:E.
    - eexists. split; [reflexivity|]. intros n. rewrite tget_tset.
      destruct (in_dec Nat.eq_dec n [m]) as [[->|[]]|Hx]; [now rewrite Nat.eqb_refl|].
      destruct (Nat.eqb_spec n m) as [->|]; [exfalso; apply Hx; now left|reflexivity].
    - exfalso. apply (Hop m); [|exact E]. apply in_app_iff. left. unfold nbs. cbn. rewrite Es, Eb. now left. }
  destruct S1 as [t1 [E1 R1]].
  destruct (IH t1 B) as [t2 [E2 R2]].
  { intros n Hx. rewrite R1. destruct (in_dec Nat.eq_dec n (nbs [r])) as [Hy|Hy].
    - exfalso. now apply (C n).
    - apply Hop. apply in_app_iff. auto. }
  exists t2. split.
  - cbn [close_source_list]. unfold tbind. now rewrite E1.
  - intros n. rewrite R2, R1.
    destruct (in_dec Nat.eq_dec n (nbs l)) as [X|X], (in_dec Nat.eq_dec n (nbs [r])) as [Y|Y],
      (in_dec Nat.eq_dec n (nbs [r] ++ nbs l)) as [Z|Z]; try reflexivity;
      rewrite in_app_iff in Z; tauto.
Qed.
