From Coq Require Import Decimal DecimalString DecimalN Ascii Permutation Lia.
From Verif Require Import Py RedirModel RedirProofs StatusModel StatusSpec StatusProofs RShowModel RShowSpec.
Local Open Scope string_scope.

(** Cutting a string at the first character of a kind. *)
Fixpoint cut (p : ascii -> bool) (s : string) : string * string :=
  match s with String a r => if p a then let (x, y) := cut p r in (String a x, y) else ("", s) | "" => ("", "") end.
Definition ends (p : ascii -> bool) (s : string) : Prop := match s with String a _ => p a = false | "" => True end.
Lemma cut_app p : forall s r, every p s = true -> ends p r -> cut p (s ++ r) = (s, r).
Proof.
  induction s as [|a s IH]; intros r E H; cbn in *.
  - destruct r as [|a r]; [reflexivity|]. cbn in *. now rewrite H.
  - apply andb_prop in E as [Ea E]. now rewrite Ea, (IH r E H).
Qed.
Lemma cut_eq p s t r u : every p s = true -> every p t = true -> ends p r -> ends p u -> s ++ r = t ++ u -> s = t /\ r = u.
Proof. intros A B C D E. pose proof (f_equal (cut p) E) as X. rewrite (cut_app p s r A C), (cut_app p t u B D) in X. now injection X. Qed.
Lemma every_imp (p q : ascii -> bool) : (forall a, p a = true -> q a = true) -> forall s, every p s = true -> every q s = true.
Proof. intros H. induction s as [|a s IH]; [reflexivity|]. cbn. rewrite !andb_true_iff. intros [A B]. split; [now apply H|now apply IH]. Qed.
Lemma every_app p s t : every p (s ++ t) = every p s && every p t.
Proof. induction s as [|a s IH]; [reflexivity|]. cbn. now rewrite IH, andb_assoc. Qed.
Lemma app_nil_s (s : string) : s ++ "" = s.
Proof. induction s as [|a s IH]; cbn; congruence. Qed.
Lemma app_assoc_s (s t u : string) : (s ++ t) ++ u = s ++ (t ++ u).
Proof. induction s as [|a s IH]; cbn; congruence. Qed.
Lemma app_cancel (s t u : string) : s ++ t = s ++ u -> t = u.
Proof. induction s as [|a s IH]; cbn; [easy|]. intros E. injection E as E. now apply IH. Qed.
Lemma digits d : every is_digit (NilEmpty.string_of_uint d) = true.
Proof. induction d; cbn; auto. Qed.
Lemma num_digits n : every is_digit (num n) = true. Proof. apply digits. Qed.
Lemma num_same n m : num n = num m -> n = m.
Proof. intros E. apply (num_inj n m "" ""); cbn; auto. change (num n ++ "" = num m ++ ""). now rewrite E. Qed.
Lemma num_nonempty n : num n <> "".
Proof.
  intros E. assert (n = 0%N); [|subst n; discriminate]. pose proof (f_equal NilEmpty.uint_of_string E) as X. unfold num in X. rewrite NilEmpty.usu in X. injection X as X.
  apply (f_equal N.of_uint) in X. rewrite Unsigned.of_to in X. exact X.
Qed.
(** What a digit is not *)
Lemma digit_not a x : is_digit a = true -> is_digit x = false -> Ascii.eqb x a = false.
Proof. intros A B. destruct (Ascii.eqb_spec x a); [congruence|reflexivity]. Qed.

(** The source *)
Definition tailc (a : ascii) : bool := negb (is " " a || is "," a || is "(" a || is ")" a).
Lemma digit_tail a : is_digit a = true -> tailc a = true.
Proof. intros H. unfold tailc, is. now rewrite !(digit_not a) by (exact H || reflexivity). Qed.
Lemma source_eq tmp a b r u : usual_redirect a -> usual_redirect b -> ends tailc r -> ends tailc u ->
  show_source tmp (r_source a) ++ r = show_source tmp (r_source b) ++ u -> r_source a = r_source b /\ r = u.
Proof.
  unfold usual_redirect. intros Ha Hb Er Eu E.
  assert (N1 : forall n, every tailc (num n) = true) by (intros n; exact (every_imp _ _ digit_tail _ (num_digits n))).
  assert (NL : forall n x s, num n ++ x <> String "<" s).
  { intros n x s X. pose proof (num_digits n) as D. destruct (num n) as [|c w] eqn:En.
    - exact (num_nonempty n En).
    - cbn in X. injection X as X _. subst c. discriminate. }
  assert (PL : forall q x s, ordinary q -> ends tailc x -> q ++ x <> String "<" s).
  { intros q x s (O1 & O2 & O3) Ex X. destruct q as [|c w]; [discriminate|]. cbn in X. injection X as X _. subst c. exact (O3 w eq_refl). }
  destruct (r_source a) as [|n|[s|k]| | | |]; try contradiction Ha; destruct (r_source b) as [|m|[t|j]| | | |]; try contradiction Hb;
    try (cbn in E; first [discriminate | exfalso; exact (NL _ _ _ E) | exfalso; exact (NL _ _ _ (eq_sym E)) |
      exfalso; exact (PL _ _ _ Ha Er E) | exfalso; exact (PL _ _ _ Hb Eu (eq_sym E)) | apply (app_cancel "<class 'pieshell.redir.") in E; discriminate]; fail).
  - destruct (cut_eq tailc _ _ _ _ (N1 _) (N1 _) Er Eu E) as [X Y]. apply num_same in X. apply Nnat.Nat2N.inj in X. now subst.
  - destruct Hb as (O1 & O2 & O3). destruct (cut_eq tailc _ _ _ _ (N1 _) O1 Er Eu E) as [X Y]. cbn in X. subst t. now rewrite num_digits in O2.
  - destruct Ha as (O1 & O2 & O3). destruct (cut_eq tailc _ _ _ _ O1 (N1 _) Er Eu E) as [X Y]. cbn in X. subst s. now rewrite num_digits in O2.
  - destruct Ha as (O1 & O2 & O3). destruct Hb as (P1 & P2 & P3). cbn in E. destruct (cut_eq tailc _ _ _ _ O1 P1 Er Eu E) as [-> ->]. easy.
  - split; [reflexivity|exact (app_cancel _ _ _ E)].
  - split; [reflexivity|exact (app_cancel _ _ _ E)].
  - split; [reflexivity|exact (app_cancel _ _ _ E)].
Qed.

(** The pipe; the names of temporary files are ordinary. *)
Definition itemc (a : ascii) : bool := negb (is "," a).
Lemma item_digit r : ends itemc r -> ends is_digit r.
Proof. destruct r as [|c r]; [easy|]. unfold ends, itemc, is. intros E. apply negb_false_iff, Ascii.eqb_eq in E. now subst c. Qed.
Lemma parenc_tail s : every tailc s = true -> every (fun a => negb (is ")" a)) s = true.
Proof. apply every_imp. intros a. unfold tailc. rewrite !negb_true_iff, !orb_false_iff. tauto. Qed.
Lemma pipe_eq tmp p q r u : (forall k, ordinary (tmp k)) -> (forall k j, tmp k = tmp j -> k = j) -> ends itemc r -> ends itemc u ->
  show_pipe tmp p ++ r = show_pipe tmp q ++ u -> p = q /\ r = u.
Proof.
  intros Ho Hi Er Eu E.
  assert (NL : forall n x s, num n ++ x <> String "<" s).
  { intros n x s X. pose proof (num_digits n) as D. destruct (num n) as [|c w] eqn:En.
    - exact (num_nonempty n En).
    - cbn in X. injection X as X _. subst c. discriminate. }
  assert (G : forall k j x y, tmp k ++ ")" ++ x = tmp j ++ ")" ++ y -> k = j /\ x = y).
  { intros k j x y X. destruct (cut_eq (fun a => negb (is ")" a)) (tmp k) (tmp j) (")" ++ x) (")" ++ y)) as [A B]; [apply parenc_tail, Ho|apply parenc_tail, Ho|reflexivity|reflexivity|exact X|].
    split; [now apply Hi|exact (app_cancel _ _ _ B)]. }
  destruct p as [n|k|k], q as [m|j|j]; unfold show_pipe in E; rewrite ?app_assoc_s in E;
    try (exfalso; exact (NL _ _ _ E)); try (exfalso; exact (NL _ _ _ (eq_sym E))); try (apply (app_cancel "<class 'pieshell.redir.") in E; discriminate).
  - destruct (cut_eq is_digit (num (N.of_nat n)) (num (N.of_nat m)) r u) as [X Y]; [apply num_digits|apply num_digits| | |exact E|].
    + now apply item_digit.
    + now apply item_digit.
    + apply num_same in X. apply Nnat.Nat2N.inj in X. now subst.
  - apply app_cancel in E. destruct (G _ _ _ _ E) as [-> ->]. easy.
  - apply app_cancel in E. destruct (G _ _ _ _ E) as [-> ->]. easy.
Qed.

(** Lists joined by a separator *)
Lemma joined_comma : forall l m, Forall (fun n => n <> "" /\ every (fun a => negb (is "," a)) n = true) l -> Forall (fun n => n <> "" /\ every (fun a => negb (is "," a)) n = true) m ->
  joined "," l = joined "," m -> l = m.
Proof.
  assert (K : forall l, exists t, forall n, joined "," (n :: l) = n ++ t /\ (l = [] -> t = "") /\ (l <> [] -> t = "," ++ joined "," l)).
  { intros [|x l]; [exists ""|exists ("," ++ joined "," (x :: l))]; intros n; (split; [|easy]); cbn; [now rewrite app_nil_s|reflexivity]. }
  induction l as [|n l IH]; intros [|n' m] Fl Fm E; [reflexivity| | |].
  - inversion Fm as [|? ? [H _] _]; subst. destruct (K m) as (t & Hk). destruct (Hk n') as (X & _). rewrite X in E. cbn in E. destruct n'; [easy|discriminate].
  - inversion Fl as [|? ? [H _] _]; subst. destruct (K l) as (t & Hk). destruct (Hk n) as (X & _). rewrite X in E. cbn in E. destruct n; [easy|discriminate].
  - inversion Fl as [|? ? [_ H1] Fl']; inversion Fm as [|? ? [_ H2] Fm']; subst. destruct (K l) as (t & Hk), (K m) as (t' & Hk').
    destruct (Hk n) as (X & X1 & X2), (Hk' n') as (Y & Y1 & Y2). rewrite X, Y in E.
    assert (Ht : ends (fun a => negb (is "," a)) t) by (destruct l; [rewrite X1 by easy; exact I|rewrite X2 by easy; reflexivity]).
    assert (Ht' : ends (fun a => negb (is "," a)) t') by (destruct m; [rewrite Y1 by easy; exact I|rewrite Y2 by easy; reflexivity]).
    destruct (cut_eq _ _ _ _ _ H1 H2 Ht Ht' E) as [-> Et]. f_equal.
    destruct l as [|x l], m as [|y m]; [reflexivity| | |].
    + rewrite X1, Y2 in Et by easy. discriminate.
    + rewrite X2, Y1 in Et by easy. discriminate.
    + apply IH; [exact Fl'|exact Fm'|]. rewrite X2, Y2 in Et by easy. exact (app_cancel "," _ _ Et).
Qed.
Lemma every_joined p : (p ","%char = true) -> forall l, Forall (fun n => every p n = true) l -> every p (joined "," l) = true.
Proof.
  intros Hp. induction l as [|n [|x l] IH]; intros F; [reflexivity| |]; inversion F; subst; [assumption|].
  change (every p (n ++ "," ++ joined "," (x :: l)) = true). rewrite !every_app, IH by assumption. cbn. rewrite Hp. now rewrite H1.
Qed.
Lemma listed_names tab h n b : flag_names tab -> In (n, b) tab -> (In n (map fst (filter (fun e : string * N => negb (N.eqb (N.land h (snd e)) 0)) tab)) <-> N.land h b <> 0%N).
Proof.
  intros (ND & _) Hin. split.
    - intros X. apply in_map_iff in X as ((n' & b') & Hn & X). cbn in Hn. subst n'. apply filter_In in X as (Hin' & X). cbn in X.
      assert (b = b'); [|subst b'; destruct (N.eqb_spec (N.land h b) 0); easy].
      clear - ND Hin Hin'. induction tab as [|(k, v) t IH]; [destruct Hin|]. inversion ND as [|? ? Hk ND']; subst.
      destruct Hin as [Hin|Hin], Hin' as [Hin'|Hin']; [congruence| | |now apply IH].
      + injection Hin as -> ->. destruct Hk. now apply (in_map fst) in Hin'.
      + injection Hin' as -> ->. destruct Hk. now apply (in_map fst) in Hin.
    - intros X. apply in_map_iff. exists (n, b). split; [reflexivity|]. apply filter_In. split; [exact Hin|]. cbn. destruct (N.eqb_spec (N.land h b) 0); easy.
Qed.
Lemma filter_names tab f g : flag_names tab -> map fst (filter (fun e : string * N => negb (N.eqb (N.land f (snd e)) 0)) tab) = map fst (filter (fun e => negb (N.eqb (N.land g (snd e)) 0)) tab) ->
  same_named tab f g.
Proof.
  intros HT E.
  intros n b Hin. pose proof (listed_names tab f n b HT Hin) as A. pose proof (listed_names tab g n b HT Hin) as B. rewrite E in A. destruct (N.eq_dec (N.land f b) 0), (N.eq_dec (N.land g b) 0); tauto.
Qed.
Lemma flags_string_eq tab f g : flag_names tab -> flags_to_string tab f = flags_to_string tab g -> same_named tab f g.
Proof.
  intros H E. apply filter_names; [exact H|]. apply joined_comma; [| |exact E].
  all: apply Forall_forall; intros n X; apply in_map_iff in X as ((n' & b) & <- & X); apply filter_In in X as (X & _); destruct H as (_ & H); destruct (H _ _ X) as (A & B); split; [exact A|];
    cbn; revert B; apply every_imp; intros a; rewrite !negb_true_iff, !orb_false_iff; tauto.
Qed.
Lemma flags_string_chars tab f : flag_names tab -> every (fun a => negb (is "=" a || is "]" a)) (flags_to_string tab f) = true.
Proof.
  intros (_ & H). apply every_joined; [reflexivity|]. apply Forall_forall. intros n X. apply in_map_iff in X as ((n' & b) & <- & X). apply filter_In in X as (X & _). destruct (H _ _ X) as (_ & B).
  cbn. revert B. apply every_imp. intros a. rewrite !negb_true_iff, !orb_false_iff. tauto.
Qed.

(** Flags and mode *)
Lemma app_cancel_r (u : string) : forall s t, s ++ u = t ++ u -> s = t.
Proof.
  assert (L : forall s t : string, String.length (s ++ t) = String.length s + String.length t) by (induction s; intros; cbn; auto).
  induction s as [|a s IH]; intros [|b t] E; [reflexivity| | |].
  - apply (f_equal String.length) in E. cbn in E. rewrite L in E. lia.
  - apply (f_equal String.length) in E. cbn in E. rewrite L in E. lia.
  - injection E as -> E. now rewrite (IH t E).
Qed.
Definition body (x : option string) (y : option N) : option string :=
  match x, y with
  | None, None => None | Some f, None => Some f | None, Some m => Some ("m=" ++ num m) | Some f, Some m => Some (f ++ "," ++ "m=" ++ num m)
  end.
Definition fl_of tab (r : redirect) : option string := if match dget fd_flags (r_fd r) with Some f => N.eqb (r_flag r) f | None => false end then None else Some (flags_to_string tab (r_flag r)).
Definition mo_of (r : redirect) : option N := if N.eqb (r_mode r) default_mode then None else Some (r_mode r).
Lemma flagmode_body tab r : show_flagmode tab r = match body (fl_of tab r) (mo_of r) with None => "" | Some s => "[" ++ s ++ "]" end.
Proof. unfold show_flagmode, fl_of, mo_of. destruct (match dget fd_flags (r_fd r) with Some f => N.eqb (r_flag r) f | None => false end), (N.eqb (r_mode r) default_mode); reflexivity. Qed.
Definition noeq (a : ascii) : bool := negb (is "=" a).
Lemma body_inj x y x' y' : (forall f, x = Some f -> every noeq f = true) -> (forall f, x' = Some f -> every noeq f = true) -> body x y = body x' y' -> x = x' /\ y = y'.
Proof.
  intros H H' E.
  assert (NE : forall f s t, every noeq f = true -> f = s ++ "=" ++ t -> False).
  { intros f s t A ->. rewrite !every_app in A. cbn in A. rewrite ?andb_true_iff in A. now destruct A. }
  assert (MM : forall f, every noeq f = true -> every noeq (f ++ ",m") = true) by (intros f A; rewrite every_app, A; reflexivity).
  assert (RW : forall f m, f ++ "," ++ "m=" ++ num m = (f ++ ",m") ++ "=" ++ num m) by (intros; now rewrite app_assoc_s).
  assert (SI : forall a b : string, Some a = Some b -> a = b) by congruence.
  destruct x as [f|], y as [m|], x' as [f'|], y' as [m'|]; cbn [body] in E; try discriminate; try (now split); apply SI in E; try (now subst).
  - rewrite !RW in E. destruct (cut_eq noeq (f ++ ",m") (f' ++ ",m") ("=" ++ num m) ("=" ++ num m')) as [A B]; auto; [reflexivity|reflexivity|].
    apply app_cancel_r in A. apply (app_cancel "=") in B. apply num_same in B. now subst.
  - rewrite RW in E. destruct (NE f' _ _ (H' _ eq_refl) (eq_sym E)).
  - rewrite RW in E. destruct (cut_eq noeq (f ++ ",m") "m" ("=" ++ num m) ("=" ++ num m')) as [A B]; auto; [reflexivity|reflexivity|].
    destruct f as [|c [|d f]]; discriminate.
  - rewrite RW in E. destruct (NE f _ _ (H _ eq_refl) E).
  - destruct (NE f "m" (num m') (H _ eq_refl) E).
  - rewrite RW in E. destruct (cut_eq noeq "m" (f' ++ ",m") ("=" ++ num m) ("=" ++ num m')) as [A B]; auto; [reflexivity|reflexivity|].
    destruct f' as [|c [|d f']]; discriminate.
  - destruct (NE f' "m" (num m) (H' _ eq_refl) (eq_sym E)).
  - apply (app_cancel "m=") in E. apply num_same in E. now subst.
Qed.
Lemma body_chars tab r s : flag_names tab -> body (fl_of tab r) (mo_of r) = Some s -> every (fun a => negb (is "]" a)) s = true.
Proof.
  intros H E. assert (A : forall f, fl_of tab r = Some f -> every (fun a => negb (is "]" a)) f = true).
  { unfold fl_of. destruct (match dget fd_flags (r_fd r) with Some f => N.eqb (r_flag r) f | None => false end); intros f X; [discriminate|]. injection X as <-.
    generalize (flags_string_chars tab (r_flag r) H). apply every_imp. intros a. rewrite !negb_true_iff, !orb_false_iff. tauto. }
  assert (D : forall n, every (fun a => negb (is "]" a)) (num n) = true).
  { intros n. generalize (num_digits n). apply every_imp. intros a X. unfold is. now rewrite (digit_not a) by (exact X || reflexivity). }
  assert (SI : forall a b : string, Some a = Some b -> a = b) by congruence.
  destruct (fl_of tab r) as [f|], (mo_of r) as [m|]; cbn [body] in E; try discriminate; apply SI in E; subst s; rewrite ?every_app, ?D; try rewrite (A f eq_refl); reflexivity.
Qed.
Lemma fl_noeq tab r f : flag_names tab -> fl_of tab r = Some f -> every noeq f = true.
Proof.
  intros H. unfold fl_of. destruct (match dget fd_flags (r_fd r) with Some f => N.eqb (r_flag r) f | None => false end); intros X; [discriminate|]. injection X as <-.
  generalize (flags_string_chars tab (r_flag r) H). apply every_imp. unfold noeq. intros a. rewrite !negb_true_iff, !orb_false_iff. tauto.
Qed.
Lemma flagmode_eq tab a b t u : flag_names tab -> r_fd a = r_fd b -> show_flagmode tab a ++ "-" ++ t = show_flagmode tab b ++ "-" ++ u ->
  r_mode a = r_mode b /\ same_named tab (r_flag a) (r_flag b) /\ t = u.
Proof.
  intros H Ef E. rewrite !flagmode_body in E.
  assert (G : body (fl_of tab a) (mo_of a) = body (fl_of tab b) (mo_of b) /\ t = u).
  { destruct (body (fl_of tab a) (mo_of a)) as [s|] eqn:Ba, (body (fl_of tab b) (mo_of b)) as [s'|] eqn:Bb; rewrite ?app_assoc_s in E; try discriminate.
    - apply (app_cancel "[") in E. destruct (cut_eq (fun a => negb (is "]" a)) s s' ("]" ++ "-" ++ t) ("]" ++ "-" ++ u)) as [A B]; auto; [now apply (body_chars tab a)|now apply (body_chars tab b)|reflexivity|reflexivity|].
      subst s'. split; [reflexivity|]. exact (app_cancel "]-" _ _ B).
    - split; [reflexivity|]. exact (app_cancel "-" _ _ E). }
  destruct G as [G ->]. apply body_inj in G as [G1 G2]; [|intros f; now apply fl_noeq|intros f; now apply fl_noeq].
  split; [|split; [|reflexivity] ].
  - unfold mo_of in G2. destruct (N.eqb_spec (r_mode a) default_mode), (N.eqb_spec (r_mode b) default_mode); congruence.
  - unfold fl_of in G1. rewrite Ef in G1. destruct (dget fd_flags (r_fd b)) as [f|].
    + destruct (N.eqb_spec (r_flag a) f), (N.eqb_spec (r_flag b) f); try discriminate.
      * intros n m _. now replace (r_flag b) with (r_flag a) by congruence.
      * injection G1 as G1. now apply flags_string_eq.
    + injection G1 as G1. now apply flags_string_eq.
Qed.

(** One redirect *)
Lemma show_form tmp tab r x : show tmp tab r ++ x =
  (if r_borrowed r then "(" else "") ++ num (N.of_nat (r_fd r)) ++ " " ++
  (if negb (N.eqb (N.land (r_flag r) O_WRONLY) 0) then "-" else "<-") ++ show_flagmode tab r ++ "-" ++ (if negb (N.eqb (N.land (r_flag r) O_WRONLY) 0) then ">" else "") ++ " " ++
  show_source tmp (r_source r) ++ (if r_borrowed r then ")" else "") ++ (match r_pipe r with Some p => " pipe=" ++ show_pipe tmp p | None => "" end) ++ x.
Proof.
  unfold show. destruct (negb (N.eqb (N.land (r_flag r) O_WRONLY) 0)), (r_borrowed r), (r_pipe r); cbn [joined]; repeat (rewrite ?app_assoc_s, ?app_nil_s; cbn [append]); reflexivity.
Qed.
Lemma show_eq tmp tab a b x y : flag_names tab -> (forall k, ordinary (tmp k)) -> (forall k j, tmp k = tmp j -> k = j) -> usual_redirect a -> usual_redirect b -> ends itemc x -> ends itemc y ->
  show tmp tab a ++ x = show tmp tab b ++ y -> same_redirect tab a b /\ (N.land (r_flag a) O_WRONLY = 0%N <-> N.land (r_flag b) O_WRONLY = 0%N) /\ x = y.
Proof.
  intros HT Ho Hi Ua Ub Ex Ey E. rewrite !show_form in E.
  assert (NP : forall n s t, num n ++ s = String "(" t -> False).
  { intros n s t X. pose proof (num_digits n) as D. destruct (num n) as [|c w] eqn:En; [exact (num_nonempty n En)|]. cbn in X. injection X as X _. subst c. discriminate. }
  assert (Eb : r_borrowed a = r_borrowed b).
  { destruct (r_borrowed a), (r_borrowed b); try reflexivity; exfalso; [apply (NP _ _ _ (eq_sym E))|apply (NP _ _ _ E)]. }
  unfold same_redirect. rewrite Eb in *. apply app_cancel in E.
  apply (cut_eq is_digit) in E as [E1 E]; [|apply num_digits|apply num_digits|reflexivity|reflexivity]. apply num_same, Nnat.Nat2N.inj in E1.
  apply (app_cancel " ") in E.
  assert (Ew : N.eqb (N.land (r_flag a) O_WRONLY) 0 = N.eqb (N.land (r_flag b) O_WRONLY) 0).
  { destruct (N.eqb (N.land (r_flag a) O_WRONLY) 0), (N.eqb (N.land (r_flag b) O_WRONLY) 0); try reflexivity; discriminate. }
  rewrite Ew in E. apply app_cancel in E. apply flagmode_eq in E as (Em & Ef & E); [|exact HT|exact E1]. apply app_cancel in E. apply (app_cancel " ") in E.
  assert (T : forall (c : bool) p z, ends itemc z -> ends tailc ((if c then ")" else "") ++ (match p with Some p => " pipe=" ++ show_pipe tmp p | None => "" end) ++ z)).
  { intros [|] [p|] z Hz; try reflexivity. destruct z as [|c z]; [exact I|]. unfold ends, itemc, is in *. apply negb_false_iff, Ascii.eqb_eq in Hz. now subst c. }
  apply source_eq in E as [Es E]; [|exact Ua|exact Ub|now apply T|now apply T]. apply app_cancel in E.
  assert (Q : forall z p w, ends itemc z -> z = " pipe=" ++ show_pipe tmp p ++ w -> False) by (intros z p w Hz ->; discriminate).
  assert (Ep : r_pipe a = r_pipe b /\ x = y).
  { destruct (r_pipe a) as [p|], (r_pipe b) as [q|]; rewrite ?app_assoc_s in E.
    - apply (app_cancel " pipe=") in E. apply pipe_eq in E as [-> ->]; auto.
    - destruct (Q y p x Ey). symmetry. exact E.
    - destruct (Q x q y Ex). exact E.
    - now split. }
  destruct Ep as [Ep ->]. split; [|split; [|reflexivity] ].
  - split; [exact E1|]. split; [exact Es|]. split; [exact Em|]. split; [exact Ep|]. split; [reflexivity|]. exact Ef.
  - rewrite <- !N.eqb_eq, Ew. reflexivity.
Qed.
Lemma show_nonempty tmp tab r x : show tmp tab r ++ x <> "".
Proof.
  rewrite show_form. destruct (r_borrowed r); [discriminate|]. cbn [append]. intros E. destruct (num (N.of_nat (r_fd r))) as [|c w] eqn:En; [exact (num_nonempty _ En)|discriminate].
Qed.

(** Many redirects *)
Lemma joined_show tmp tab : flag_names tab -> (forall k, ordinary (tmp k)) -> (forall k j, tmp k = tmp j -> k = j) ->
  forall l m, Forall usual_redirect l -> Forall usual_redirect m -> joined ", " (map (show tmp tab) l) = joined ", " (map (show tmp tab) m) ->
  Forall2 (fun a b => same_redirect tab a b /\ (N.land (r_flag a) O_WRONLY = 0%N <-> N.land (r_flag b) O_WRONLY = 0%N)) l m.
Proof.
  intros HT Ho Hi.
  assert (K : forall l, exists t, forall n, joined ", " (n :: map (show tmp tab) l) = n ++ t /\ (l = [] -> t = "") /\ (l <> [] -> t = ", " ++ joined ", " (map (show tmp tab) l))).
  { intros [|x l]; [exists ""|exists (", " ++ joined ", " (map (show tmp tab) (x :: l)))]; intros n; (split; [|easy]); cbn; [now rewrite app_nil_s|reflexivity]. }
  induction l as [|n l IH]; intros [|n' m] Fl Fm E; [constructor| | |].
  - destruct (K m) as (t & Hk). destruct (Hk (show tmp tab n')) as (X & _). cbn [map] in E. rewrite X in E. destruct (show_nonempty tmp tab n' t). now rewrite <- E.
  - destruct (K l) as (t & Hk). destruct (Hk (show tmp tab n)) as (X & _). cbn [map] in E. rewrite X in E. destruct (show_nonempty tmp tab n t). now rewrite E.
  - inversion Fl as [|? ? H1 Fl']; inversion Fm as [|? ? H2 Fm']; subst. destruct (K l) as (t & Hk), (K m) as (t' & Hk').
    destruct (Hk (show tmp tab n)) as (X & X1 & X2), (Hk' (show tmp tab n')) as (Y & Y1 & Y2). cbn [map] in E. rewrite X, Y in E.
    assert (Ht : ends itemc t) by (destruct l; [rewrite X1 by easy; exact I|rewrite X2 by easy; reflexivity]).
    assert (Ht' : ends itemc t') by (destruct m; [rewrite Y1 by easy; exact I|rewrite Y2 by easy; reflexivity]).
    destruct (show_eq tmp tab n n' t t' HT Ho Hi H1 H2 Ht Ht' E) as (S1 & S2 & Et). constructor; [now split|].
    destruct l as [|x l], m as [|y m]; [constructor| | |].
    + rewrite X1, Y2 in Et by easy. discriminate.
    + rewrite X2, Y1 in Et by easy. discriminate.
    + apply IH; [exact Fl'|exact Fm'|]. rewrite X2, Y2 in Et by easy. exact (app_cancel ", " _ _ Et).
Qed.
Lemma put_perm r l : Permutation (r :: l) (put_in r l).
Proof. induction l as [|x l IH]; [reflexivity|]. cbn. destruct (Nat.leb (r_fd r) (r_fd x)); [reflexivity|]. rewrite perm_swap. now constructor. Qed.
Lemma by_fd_perm l : Permutation l (by_fd l).
Proof. induction l as [|x l IH]; [reflexivity|]. cbn. rewrite <- put_perm. now constructor. Qed.
Lemma put_swap a b : r_fd a <> r_fd b -> forall l, put_in a (put_in b l) = put_in b (put_in a l).
Proof.
  intros H. induction l as [|x l IH].
  - cbn. destruct (Nat.leb_spec (r_fd a) (r_fd b)), (Nat.leb_spec (r_fd b) (r_fd a)); try reflexivity; lia.
  - cbn. destruct (Nat.leb_spec (r_fd a) (r_fd x)) as [A|A], (Nat.leb_spec (r_fd b) (r_fd x)) as [B|B]; cbn;
      destruct (Nat.leb_spec (r_fd a) (r_fd b)), (Nat.leb_spec (r_fd b) (r_fd a)), (Nat.leb_spec (r_fd a) (r_fd x)), (Nat.leb_spec (r_fd b) (r_fd x)); try lia; try reflexivity; now rewrite IH.
Qed.
Lemma by_fd_same l m : NoDup (map r_fd l) -> Permutation l m -> by_fd l = by_fd m.
Proof.
  intros ND P. revert ND. induction P as [|x l m P IH|x y l|l m n P1 IH1 P2 IH2]; intros ND.
  - reflexivity.
  - change (put_in x (by_fd l) = put_in x (by_fd m)). inversion ND; subst. now rewrite IH.
  - change (put_in y (put_in x (by_fd l)) = put_in x (put_in y (by_fd l))). apply put_swap. inversion ND as [|? ? H _]; subst. intros X. apply H. left. now rewrite X.
  - rewrite IH1 by exact ND. apply IH2. eapply Permutation_NoDup; [apply Permutation_map; exact P1|exact ND].
Qed.
