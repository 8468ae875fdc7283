From Verif Require Import Py InsertModel InsertSpec.

(** Induction over pipelines and the pipelines in their arguments. *)
Section Ind.
  Variable P : ipl -> Prop.
  Hypothesis Hcmd : forall id args, (forall l q, In (IStr l) args -> In q l -> P q) -> (forall q, In (ISub q) args -> P q) -> P (ICmd id args).
  Hypothesis Hfun : P IFun.
  Hypothesis Hpipe : forall a b, P a -> P b -> P (IPipe a b).
  Hypothesis Hgroup : forall a b, P a -> P b -> P (IGroup a b).
  Hypothesis Hredir : forall a, P a -> P (IRedir a).
  Definition good_arg (a : iarg) : Prop := match a with IStr l => Forall P l | ISub q => P q | IOther => True end.
  Fixpoint ipl_ind2 (p : ipl) : P p :=
    let fix all (l : list ipl) : Forall P l := match l with [] => Forall_nil P | x :: r => Forall_cons x (ipl_ind2 x) (all r) end in
    let fix args_good (l : list iarg) : Forall good_arg l :=
      match l with
      | [] => Forall_nil good_arg
      | x :: r => Forall_cons x (match x return good_arg x with IStr l => all l | ISub q => ipl_ind2 q | IOther => I end) (args_good r)
      end in
    match p with
    | ICmd id args => Hcmd id args
        (fun l q Hl Hq => proj1 (Forall_forall P l) (proj1 (Forall_forall good_arg args) (args_good args) (IStr l) Hl) q Hq)
        (fun q Hq => proj1 (Forall_forall good_arg args) (args_good args) (ISub q) Hq)
    | IFun => Hfun
    | IPipe a b => Hpipe a b (ipl_ind2 a) (ipl_ind2 b)
    | IGroup a b => Hgroup a b (ipl_ind2 a) (ipl_ind2 b)
    | IRedir a => Hredir a (ipl_ind2 a)
    end.
End Ind.
Definition word_began (a : iarg) : list nat := match a with IStr l => flat_map began l | _ => [] end.
Definition arg_began (a : iarg) : list nat := match a with IStr l => flat_map began l | ISub q => began q | IOther => [] end.
Lemma began_cmd id args : began (ICmd id args) = flat_map word_began args ++ flat_map arg_began args ++ flat_map word_began args ++ [id].
Proof. reflexivity. Qed.
Lemma shown_cmd id args : shown (ICmd id args) = flat_map word_began args. Proof. reflexivity. Qed.
Lemma times_app x a b : times x (a ++ b) = times x a + times x b.
Proof. unfold times. now rewrite count_occ_app. Qed.
Lemma times_flat_ge {A} x (f : A -> list nat) l a : In a l -> times x (f a) <= times x (flat_map f l).
Proof. induction l as [|b l IH]; [intros []|]. cbn [flat_map]. rewrite times_app. intros [->|H]; [lia|]. specialize (IH H). lia. Qed.
Lemma times_flat_zero {A} x (f : A -> list nat) l : (forall a, In a l -> times x (f a) = 0) -> times x (flat_map f l) = 0.
Proof. induction l as [|b l IH]; intros H; [reflexivity|]. cbn [flat_map]. rewrite times_app, (H b (or_introl eq_refl)). apply IH. intros a Ha. apply H. now right. Qed.

Lemma shown_nothing p : (forall q, ~ inserts p q) -> shown p = [].
Proof.
  induction p as [id args _ _| |a b IHa IHb|a b IHa IHb|a IHa] using ipl_ind2; intros H.
  - rewrite shown_cmd. assert (F : forall l, incl l args -> flat_map word_began l = []).
    { induction l as [|x l IH]; intros I; [reflexivity|]. cbn [flat_map]. rewrite (IH (fun y Hy => I y (or_intror Hy))).
      destruct x as [[|q ins]|q|]; try reflexivity. exfalso. apply (H q). eapply ins_word; [apply I; left; reflexivity|now left]. }
    apply F. apply incl_refl.
  - reflexivity.
  - cbn [shown]. rewrite IHa, IHb; [reflexivity| |]; intros q Hq; apply (H q); now constructor.
  - cbn [shown]. rewrite IHa, IHb; [reflexivity| |]; intros q Hq; apply (H q); now constructor.
  - cbn [shown]. apply IHa. intros q Hq; apply (H q); now constructor.
Qed.
Lemma plain_once p : (forall q, ~ inserts p q) -> began p = commands p.
Proof.
  induction p as [id args IHw IHs| |a b IHa IHb|a b IHa IHb|a IHa] using ipl_ind2; intros H.
  - pose proof (shown_nothing _ H) as S. rewrite shown_cmd in S. rewrite began_cmd, S. cbn [List.app commands]. f_equal.
    clear S. induction args as [|x args IH]; [reflexivity|]. cbn [flat_map]. f_equal.
    + destruct x as [[|q ins]|q|]; try reflexivity.
      * exfalso. apply (H q). eapply ins_word; [left; reflexivity|now left].
      * apply IHs; [now left|]. intros r Hr. apply (H r). eapply ins_arg; [left; reflexivity|exact Hr].
    + apply IH.
      * intros l q Hl. apply IHw. now right.
      * intros q Hq. apply IHs. now right.
      * intros q Hq. apply (H q). inversion Hq; subst; [eapply ins_word|eapply ins_arg]; try (right; eassumption); eassumption.
  - reflexivity.
  - cbn [began commands]. rewrite IHa, IHb, !shown_nothing; [reflexivity| | | |]; intros q Hq; apply (H q); now constructor.
  - cbn [began commands]. rewrite IHa, IHb, !shown_nothing; [reflexivity| | | |]; intros q Hq; apply (H q); now constructor.
  - cbn [began commands]. rewrite IHa, shown_nothing; [reflexivity| |]; intros q Hq; apply (H q); now constructor.
Qed.
Lemma commands_began p x : In x (commands p) -> 1 <= times x (began p).
Proof.
  induction p as [id args IHw IHs| |a b IHa IHb|a b IHa IHb|a IHa] using ipl_ind2; cbn [commands]; intros H.
  - rewrite began_cmd, !times_app. apply in_app_or in H. destruct H as [H|[<-|[]]].
    + apply in_flat_map in H. destruct H as (y & Hy & H). destruct y as [l|q|]; try destruct H.
      pose proof (IHs q Hy H). pose proof (times_flat_ge x arg_began args (ISub q) Hy) as G. cbn [arg_began] in G. lia.
    + unfold times at 4. cbn. destruct (Nat.eq_dec id id); [lia|congruence].
  - destruct H.
  - cbn [began]. rewrite !times_app. apply in_app_or in H. destruct H as [H|H]; [specialize (IHa H)|specialize (IHb H)]; lia.
  - cbn [began]. rewrite !times_app. apply in_app_or in H. destruct H as [H|H]; [specialize (IHa H)|specialize (IHb H)]; lia.
  - cbn [began]. rewrite !times_app. specialize (IHa H). lia.
Qed.
Lemma thrice p q x : inserts p q -> In x (commands q) -> 3 <= times x (began p).
Proof.
  intros I X. induction I as [id args l q Hl Hq|id args r q Hr I IH|a b q I IH|a b q I IH|a b q I IH|a b q I IH|a q I IH].
  - pose proof (commands_began _ _ X) as G. rewrite began_cmd, !times_app.
    assert (A : times x (began q) <= times x (flat_map began l)) by now apply times_flat_ge.
    pose proof (times_flat_ge x word_began args (IStr l) Hl) as B. pose proof (times_flat_ge x arg_began args (IStr l) Hl) as C. cbn [word_began arg_began] in B, C. lia.
  - specialize (IH X). rewrite began_cmd, !times_app. pose proof (times_flat_ge x arg_began args (ISub r) Hr) as C. cbn [arg_began] in C. lia.
  - cbn [began]. rewrite !times_app. specialize (IH X). lia.
  - cbn [began]. rewrite !times_app. specialize (IH X). lia.
  - cbn [began]. rewrite !times_app. specialize (IH X). lia.
  - cbn [began]. rewrite !times_app. specialize (IH X). lia.
  - cbn [began]. rewrite !times_app. specialize (IH X). lia.
Qed.
Lemma unmentioned x p : ~ mentions x p -> times x (began p) = 0 /\ times x (shown p) = 0.
Proof.
  induction p as [id args IHw IHs| |a b IHa IHb|a b IHa IHb|a IHa] using ipl_ind2; intros H.
  - assert (W : times x (flat_map word_began args) = 0).
    { apply times_flat_zero. intros [l|q|] Ha; try reflexivity. cbn [word_began]. apply times_flat_zero. intros q Hq. apply (IHw l q Ha Hq).
      intros M. apply H. eapply men_word; eassumption. }
    assert (A : times x (flat_map arg_began args) = 0).
    { apply times_flat_zero. intros [l|q|] Ha; try reflexivity; cbn [arg_began].
      - apply times_flat_zero. intros q Hq. apply (IHw l q Ha Hq). intros M. apply H. eapply men_word; eassumption.
      - apply (IHs q Ha). intros M. apply H. eapply men_arg; eassumption. }
    rewrite began_cmd, shown_cmd, !times_app, W, A. split; [|reflexivity]. unfold times. cbn. destruct (Nat.eq_dec id x); [|reflexivity]. subst. exfalso. apply H. constructor.
  - now split.
  - destruct IHa as [A1 A2]; [intros M; apply H; now constructor|]. destruct IHb as [B1 B2]; [intros M; apply H; now constructor|].
    cbn [began shown]. rewrite !times_app. lia.
  - destruct IHa as [A1 A2]; [intros M; apply H; now constructor|]. destruct IHb as [B1 B2]; [intros M; apply H; now constructor|].
    cbn [began shown]. rewrite !times_app. lia.
  - destruct IHa as [A1 A2]; [intros M; apply H; now constructor|]. cbn [began shown]. rewrite !times_app. lia.
Qed.
Lemma below_times x k p : inserted_below x k p -> times x (began p) = 3 + k /\ times x (shown p) = 1.
Proof.
  induction 1 as [id before after H|k a b _ [I1 I2] N|k a b N _ [I1 I2]|k a b _ [I1 I2] N|k a b N _ [I1 I2]|k a _ [I1 I2]].
  - destruct (unmentioned _ _ H) as [U1 U2]. rewrite began_cmd in U1. rewrite shown_cmd in U2. rewrite began_cmd, shown_cmd.
    rewrite !flat_map_app in *. cbn [flat_map word_began arg_began].
    change (began (ICmd x [])) with [x]. cbn [List.app]; rewrite ?app_nil_r in *; rewrite !times_app in *. assert (X : forall l, times x (x :: l) = S (times x l)) by (intros l; unfold times; cbn; destruct (Nat.eq_dec x x); [reflexivity|congruence]).
    rewrite !X. lia.
  - destruct (unmentioned _ _ N). cbn [began shown]. rewrite !times_app. lia.
  - destruct (unmentioned _ _ N). cbn [began shown]. rewrite !times_app. lia.
  - destruct (unmentioned _ _ N). cbn [began shown]. rewrite !times_app. lia.
  - destruct (unmentioned _ _ N). cbn [began shown]. rewrite !times_app. lia.
  - cbn [began shown]. rewrite !times_app. lia.
Qed.
Lemma nested_times k x : times x (began (nested k x)) = 3 ^ k.
Proof.
  induction k as [|k IH]; [unfold times; cbn; destruct (Nat.eq_dec x x); [reflexivity|congruence]|].
  cbn [nested]. rewrite began_cmd. cbn [flat_map word_began arg_began]. rewrite !app_nil_r, !times_app, IH.
  assert (Z : times x [S k + x] = 0) by (unfold times; cbn [count_occ]; destruct (Nat.eq_dec (S k + x) x); [lia|reflexivity]). rewrite Z. cbn [Nat.pow]. lia.
Qed.
