(** Lemmas for C97. *)
From Verif Require Import Py RegModel RegSpec.

Lemma put_eq {A} (f : nat -> A) k v : put f k v k = v.
Proof. unfold put. now rewrite Nat.eqb_refl. Qed.
Lemma put_ne {A} (f : nat -> A) k v j : j <> k -> put f k v j = f j.
Proof. unfold put. intros X. destruct (Nat.eqb_spec j k); congruence. Qed.
Lemma nth_replace {A} (l : list A) : forall i v j, nth_error (replace l i v) j = if Nat.eqb j i then (match nth_error l i with Some _ => Some v | None => None end) else nth_error l j.
Proof.
  induction l as [|y l IH]; intros [|i] v [|j]; cbn; try reflexivity.
  - now destruct (Nat.eqb j i).
  - apply IH.
Qed.
Lemma nth_snoc {A} (l : list A) v j : nth_error (l ++ [v]) j = if Nat.eqb j (List.length l) then Some v else nth_error l j.
Proof.
  destruct (Nat.eqb_spec j (List.length l)) as [->|Ne]; [rewrite nth_error_app2, Nat.sub_diag by lia; reflexivity|].
  destruct (Nat.lt_ge_cases j (List.length l)); [now rewrite nth_error_app1|]. rewrite nth_error_app2 by lia. rewrite (proj2 (nth_error_None l j)) by lia. destruct (j - List.length l) as [|m] eqn:E; [lia|]. now destruct m.
Qed.
Lemma combine_prefix (d : list N) : forall p, List.length d <= List.length p -> forallb (fun q => N.eqb (fst q) (snd q)) (combine d p) = true -> d = firstn (List.length d) p.
Proof.
  induction d as [|b d IH]; intros [|c p] L E; cbn in *; try reflexivity; [lia|]. apply andb_prop in E as [E1 E2]. apply N.eqb_eq in E1. cbn in E1. f_equal; [exact E1|]. apply IH; [lia|exact E2].
Qed.
Lemma may_read_some s r d : may_read s (OutputOf r) d = true -> d <> [] -> d ++ skipn (List.length d) (g_pipe s r) = g_pipe s r.
Proof.
  intros E Ne. destruct d as [|b d]; [congruence|]. unfold may_read in E. apply andb_prop in E as [E E3]. apply andb_prop in E as [E1 E2]. apply Nat.leb_le in E2.
  rewrite (combine_prefix _ _ E2 E3) at 1. apply firstn_skipn.
Qed.
Lemma may_read_end s r : may_read s (OutputOf r) [] = true -> g_pipe s r = [] /\ g_wopen s r = false.
Proof. cbn. destruct (g_pipe s r); [|discriminate]. destruct (g_wopen s r); [discriminate|auto]. Qed.

(** Everybody iterates once. *)
Record once (s : shell) (todo : list nat) : Prop := {
  o_tab : forall fd r, g_tab s fd = Some (OutputOf r) -> nth_error (g_fds s) r = Some fd;
  o_todo : forall r, In r todo -> (forall h hd, nth_error (g_hs s) h = Some hd -> hd_run hd <> r);
  o_idle : forall r fd, nth_error (g_fds s) r = Some fd -> (forall h hd, nth_error (g_hs s) h = Some hd -> hd_run hd <> r) ->
     g_tab s fd = Some (OutputOf r) /\ g_sel s fd = None /\ g_pipe s r = g_sent s r;
  o_sel : forall fd h, g_sel s fd = Some h -> exists hd, nth_error (g_hs s) h = Some hd /\ hd_fd hd = fd /\ hd_eof hd = false;
  o_hd : forall h hd, nth_error (g_hs s) h = Some hd -> nth_error (g_fds s) (hd_run hd) = Some (hd_fd hd) /\ hd_got hd ++ g_pipe s (hd_run hd) = g_sent s (hd_run hd) /\
     (hd_eof hd = true -> g_wopen s (hd_run hd) = false /\ g_pipe s (hd_run hd) = []) /\
     (hd_eof hd = false -> g_tab s (hd_fd hd) = Some (OutputOf (hd_run hd)) /\ g_sel s (hd_fd hd) = Some h);
  o_new : forall r, List.length (g_fds s) <= r -> g_sent s r = [] /\ g_pipe s r = [] /\ g_wopen s r = true;
  o_raised : g_raised s = [] }.
Lemma once_run h1 h2 s todo hd1 hd2 : once s todo -> nth_error (g_hs s) h1 = Some hd1 -> nth_error (g_hs s) h2 = Some hd2 -> hd_eof hd1 = false -> hd_run hd1 = hd_run hd2 -> hd_eof hd2 = false -> h1 = h2.
Proof.
  intros O E1 E2 F1 Er F2. destruct (o_hd _ _ O _ _ E1) as (A1 & _ & _ & A2). destruct (o_hd _ _ O _ _ E2) as (B1 & _ & _ & B2).
  destruct (A2 F1) as [_ A3]. destruct (B2 F2) as [_ B3]. rewrite Er in A1. assert (hd_fd hd1 = hd_fd hd2) by congruence. congruence.
Qed.
(** Two handlers of the same running pipeline do not occur at all. *)
Definition apart (s : shell) : Prop := forall h1 h2 a b, nth_error (g_hs s) h1 = Some a -> nth_error (g_hs s) h2 = Some b -> hd_run a = hd_run b -> h1 = h2.
Lemma once_step s a s' todo : once s (iterates a ++ todo) -> NoDup (iterates a ++ todo) -> apart s -> act_step s a = Some s' -> once s' todo /\ apart s'.
Proof.
  intros O Nd Ap E. assert (Od : forall r, In r todo -> forall h hd, nth_error (g_hs s) h = Some hd -> hd_run hd <> r) by (intros r Hr; apply (o_todo _ _ O); apply in_app_iff; now right).
  destruct a as [fd|r|r d|r|fd d|fd|fd]; cbn [act_step iterates] in *.
  - destruct (g_tab s fd) as [?|] eqn:Et; [discriminate|]. injection E as <-. split; [|exact Ap].
    constructor; cbn [g_tab g_sel g_hs g_fds g_pipe g_sent g_wopen g_raised].
    + intros fd' r. rewrite nth_snoc. destruct (Nat.eq_dec fd' fd) as [->|Ne].
      * rewrite put_eq. intros X. injection X as <-. now rewrite Nat.eqb_refl.
      * rewrite put_ne by exact Ne. intros X. pose proof (o_tab _ _ O _ _ X) as Y. assert (r < List.length (g_fds s)) by (apply nth_error_Some; congruence). destruct (Nat.eqb_spec r (List.length (g_fds s))); [lia|exact Y].
    + exact Od.
    + intros r fd'. rewrite nth_snoc. destruct (Nat.eqb_spec r (List.length (g_fds s))) as [->|Nr].
      * intros X _. injection X as <-. rewrite put_eq. destruct (o_new _ _ O _ (le_n _)) as (B1 & B2 & _). rewrite B1, B2. split; [reflexivity|]. split; [|reflexivity].
        destruct (g_sel s fd) as [h|] eqn:Es; [|reflexivity]. destruct (o_sel _ _ O _ _ Es) as (hd & B3 & B4 & B5). destruct (o_hd _ _ O _ _ B3) as (_ & _ & _ & B6). destruct (B6 B5) as [B7 _]. rewrite B4 in B7. congruence.
      * intros X Y. destruct (o_idle _ _ O r fd' X Y) as (B1 & B2). rewrite put_ne by congruence. auto.
    + exact (o_sel _ _ O).
    + intros h hd X. destruct (o_hd _ _ O _ _ X) as (B1 & B2 & B3 & B4). rewrite nth_snoc. assert (hd_run hd < List.length (g_fds s)) by (apply nth_error_Some; congruence).
      destruct (Nat.eqb_spec (hd_run hd) (List.length (g_fds s))); [lia|]. split; [exact B1|]. split; [exact B2|]. split; [exact B3|]. intros F. destruct (B4 F) as [B5 B6]. rewrite put_ne by congruence. auto.
    + intros r. rewrite app_length. cbn. intros X. apply (o_new _ _ O). lia.
    + exact (o_raised _ _ O).
  - assert (Nr : forall h hd, nth_error (g_hs s) h = Some hd -> hd_run hd <> r) by (apply (o_todo _ _ O); now left).
    destruct (nth_error (g_fds s) r) as [fd|] eqn:Ef; [|discriminate]. destruct (o_idle _ _ O r fd Ef Nr) as (B1 & B2 & B3). rewrite B1 in E. injection E as <-.
    assert (Nt : ~ In r todo) by (inversion Nd; assumption). split.
    + constructor; cbn [g_tab g_sel g_hs g_fds g_pipe g_sent g_wopen g_raised].
      * exact (o_tab _ _ O).
      * intros r' Hr' h hd. rewrite nth_snoc. destruct (Nat.eqb_spec h (List.length (g_hs s))); [|now apply Od]. intros X. injection X as <-. cbn. congruence.
      * intros r' fd' X Y. assert (r' <> r) by (intros ->; apply (Y (List.length (g_hs s)) (mkHandler r fd [] false)); [rewrite nth_snoc, Nat.eqb_refl|]; reflexivity).
        assert (Y' : forall h hd, nth_error (g_hs s) h = Some hd -> hd_run hd <> r') by (intros h hd Z; apply (Y h); rewrite nth_error_app1; [exact Z|apply nth_error_Some; congruence]).
        destruct (o_idle _ _ O r' fd' X Y') as (C1 & C2 & C3). assert (fd' <> fd) by congruence. rewrite put_ne by assumption. auto.
      * intros fd' h. destruct (Nat.eq_dec fd' fd) as [->|Ne]; [rewrite put_eq; intros X; injection X as <-; exists (mkHandler r fd [] false); rewrite nth_snoc, Nat.eqb_refl; auto|].
        rewrite put_ne by exact Ne. intros X. destruct (o_sel _ _ O _ _ X) as (hd & C1 & C2). exists hd. rewrite nth_error_app1 by (apply nth_error_Some; congruence). auto.
      * intros h hd. rewrite nth_snoc. destruct (Nat.eqb_spec h (List.length (g_hs s))) as [->|Nh].
        -- intros X. injection X as <-. cbn. rewrite put_eq. repeat split; auto; discriminate.
        -- intros X. destruct (o_hd _ _ O _ _ X) as (C1 & C2 & C3 & C4). split; [exact C1|]. split; [exact C2|]. split; [exact C3|]. intros F. destruct (C4 F) as [C5 C6]. split; [exact C5|].
           rewrite put_ne; [exact C6|]. intros Z. pose proof (Nr _ _ X). rewrite Z in C5. congruence.
      * exact (o_new _ _ O).
      * exact (o_raised _ _ O).
    + intros h1 h2 a b. cbn [g_hs]. rewrite !nth_snoc. destruct (Nat.eqb_spec h1 (List.length (g_hs s))) as [->|N1]; destruct (Nat.eqb_spec h2 (List.length (g_hs s))) as [->|N2]; auto.
      * intros X Y. injection X as <-. cbn. intros Z. exfalso. exact (Nr _ _ Y (eq_sym Z)).
      * intros X Y. injection Y as <-. cbn. intros Z. exfalso. exact (Nr _ _ X Z).
      * apply Ap.
  - destruct (_ && _) eqn:Ew; [|discriminate]. apply andb_prop in Ew as [Ew1 Ew2]. apply Nat.ltb_lt in Ew1. injection E as <-. split; [|exact Ap].
    constructor; cbn [g_tab g_sel g_hs g_fds g_pipe g_sent g_wopen g_raised].
    + exact (o_tab _ _ O).
    + exact Od.
    + intros r' fd' X Y. destruct (o_idle _ _ O r' fd' X Y) as (C1 & C2 & C3). split; [exact C1|]. split; [exact C2|]. unfold put. destruct (Nat.eqb_spec r' r); subst; congruence.
    + exact (o_sel _ _ O).
    + intros h hd X. destruct (o_hd _ _ O _ _ X) as (C1 & C2 & C3 & C4). split; [exact C1|]. split; [|split; [|exact C4] ].
      * unfold put. destruct (Nat.eqb_spec (hd_run hd) r) as [<-|]; [now rewrite app_assoc, C2|exact C2].
      * intros F. destruct (C3 F) as [D1 D2]. split; [exact D1|]. rewrite put_ne; [exact D2|]. intros <-. congruence.
    + intros r' Hr'. rewrite !put_ne by lia. now apply (o_new _ _ O).
    + exact (o_raised _ _ O).
  - destruct (Nat.ltb_spec r (List.length (g_fds s))) as [Lr|]; [|discriminate]. injection E as <-. split; [|exact Ap].
    constructor; cbn [g_tab g_sel g_hs g_fds g_pipe g_sent g_wopen g_raised]; try apply O; try exact Od.
    + intros h hd X. destruct (o_hd _ _ O _ _ X) as (C1 & C2 & C3 & C4). split; [exact C1|]. split; [exact C2|]. split; [|exact C4]. intros F. destruct (C3 F) as [D1 D2]. split; [|exact D2]. unfold put. destruct (Nat.eqb _ _); auto.
    + intros r' Hr'. rewrite put_ne by lia. now apply (o_new _ _ O).
  - destruct (g_sel s fd) as [h|] eqn:Es; [|discriminate]. destruct (o_sel _ _ O _ _ Es) as (hd & B1 & B2 & B3). destruct (o_hd _ _ O _ _ B1) as (B4 & B5 & _ & B6). destruct (B6 B3) as [B7 B8]. subst fd. set (fd := hd_fd hd) in *. rewrite B7, B1 in E.
    destruct (may_read s (OutputOf (hd_run hd)) d) eqn:Em; [|discriminate].
    assert (Others : forall h' hd', nth_error (g_hs s) h' = Some hd' -> h' <> h -> hd_run hd' <> hd_run hd) by (intros h' hd' X Ne Z; apply Ne; eapply Ap; eauto).
    assert (Apr : forall hd0 f p, hd_run hd0 = hd_run hd -> apart (mkShell f (g_sel s) (replace (g_hs s) h hd0) (g_fds s) p (g_sent s) (g_wopen s) (g_raised s))).
    { intros hd0 f p Er h1 h2 a b. cbn [g_hs]. rewrite !nth_replace, B1. destruct (Nat.eqb_spec h1 h) as [->|N1]; destruct (Nat.eqb_spec h2 h) as [->|N2]; auto.
      - intros X Y. injection X as <-. intros Z. exfalso. apply (Others _ _ Y N2). congruence.
      - intros X Y. injection Y as <-. intros Z. exfalso. apply (Others _ _ X N1). congruence.
      - apply Ap. }
    assert (Odr : forall hd0, hd_run hd0 = hd_run hd -> forall r, In r todo -> forall h' hd', nth_error (replace (g_hs s) h hd0) h' = Some hd' -> hd_run hd' <> r).
    { intros hd0 Er r Hr h' hd'. rewrite nth_replace, B1. destruct (Nat.eqb_spec h' h); [|now apply Od]. intros X. injection X as <-. rewrite Er. exact (Od r Hr h hd B1). }
    assert (Free : forall hd0 r, hd_run hd0 = hd_run hd -> (forall h' hd', nth_error (replace (g_hs s) h hd0) h' = Some hd' -> hd_run hd' <> r) ->
      r <> hd_run hd /\ forall h' hd', nth_error (g_hs s) h' = Some hd' -> hd_run hd' <> r).
    { intros hd0 r Er Y. assert (r <> hd_run hd) by (intros ->; apply (Y h hd0); [rewrite nth_replace, B1, Nat.eqb_refl; reflexivity|exact Er]). split; [assumption|].
      intros h' hd' X. destruct (Nat.eq_dec h' h) as [->|Ne]; [rewrite B1 in X; injection X as <-; congruence|]. apply (Y h'). rewrite nth_replace. destruct (Nat.eqb_spec h' h); [congruence|exact X]. }
    destruct d as [|b d].
    + destruct (may_read_end _ _ Em) as [M1 M2]. injection E as <-. split; [|apply (Apr (mkHandler (hd_run hd) fd (hd_got hd) true) (put (g_tab s) fd None) (g_pipe s)); reflexivity].
      constructor; cbn [g_tab g_sel g_hs g_fds g_pipe g_sent g_wopen g_raised].
      * intros fd' r. destruct (Nat.eq_dec fd' fd) as [->|Ne]; [rewrite put_eq; discriminate|rewrite put_ne by exact Ne; apply (o_tab _ _ O)].
      * now apply (Odr (mkHandler (hd_run hd) fd (hd_got hd) true)).
      * intros r fd' X Y. destruct (Free (mkHandler (hd_run hd) fd (hd_got hd) true) r eq_refl Y) as [F1 F2]. destruct (o_idle _ _ O r fd' X F2) as (C1 & C2 & C3). assert (fd' <> fd) by congruence. rewrite !put_ne by assumption. auto.
      * intros fd' h'. destruct (Nat.eq_dec fd' fd) as [->|Ne]; [rewrite put_eq; discriminate|rewrite put_ne by exact Ne]. intros X. destruct (o_sel _ _ O _ _ X) as (hd' & C1 & C2 & C3). exists hd'.
        rewrite nth_replace. destruct (Nat.eqb_spec h' h) as [->|]; [|auto]. rewrite B1 in C1. injection C1 as <-. unfold fd in Ne. congruence.
      * intros h' hd'. rewrite nth_replace, B1. destruct (Nat.eqb_spec h' h) as [->|Nh].
        -- intros X. injection X as <-. cbn. repeat split; auto; discriminate.
        -- intros X. destruct (o_hd _ _ O _ _ X) as (C1 & C2 & C3 & C4). repeat split; auto; try (now apply C3); destruct (C4 H) as [C5 C6]; rewrite put_ne; auto; intros Z; rewrite Z in *; congruence.
      * exact (o_new _ _ O).
      * exact (o_raised _ _ O).
    + pose proof (may_read_some _ _ _ Em ltac:(discriminate)) as M. injection E as <-. split; [|apply (Apr (mkHandler (hd_run hd) fd (hd_got hd ++ b :: d) false) (g_tab s) (put (g_pipe s) (hd_run hd) (skipn (S (List.length d)) (g_pipe s (hd_run hd))))); reflexivity].
      constructor; cbn [g_tab g_sel g_hs g_fds g_pipe g_sent g_wopen g_raised after_read].
      * exact (o_tab _ _ O).
      * now apply (Odr (mkHandler (hd_run hd) fd (hd_got hd ++ b :: d) false)).
      * intros r fd' X Y. destruct (Free (mkHandler (hd_run hd) fd (hd_got hd ++ b :: d) false) r eq_refl Y) as [F1 F2]. destruct (o_idle _ _ O r fd' X F2) as (C1 & C2 & C3). rewrite put_ne by assumption. auto.
      * intros fd' h' X. destruct (o_sel _ _ O _ _ X) as (hd' & C1 & C2 & C3). rewrite nth_replace, B1. destruct (Nat.eqb_spec h' h) as [->|]; [|eauto].
        rewrite B1 in C1. injection C1 as <-. eexists. split; [reflexivity|]. cbn. split; [congruence|reflexivity].
      * intros h' hd'. rewrite nth_replace, B1. destruct (Nat.eqb_spec h' h) as [->|Nh].
        -- intros X. injection X as <-. cbn. rewrite put_eq. repeat split; auto; try discriminate. rewrite <- app_assoc. etransitivity; [|exact B5]. f_equal. exact M.
        -- intros X. destruct (o_hd _ _ O _ _ X) as (C1 & C2 & C3 & C4). rewrite put_ne by now apply (Others h'). auto.
      * intros r Hr. rewrite put_ne; [now apply (o_new _ _ O)|]. intros ->. assert (hd_run hd < List.length (g_fds s)) by (apply nth_error_Some; congruence). lia.
      * exact (o_raised _ _ O).
  - destruct (g_tab s fd) as [?|] eqn:Et; [discriminate|]. injection E as <-. split; [|exact Ap].
    constructor; cbn [g_tab g_sel g_hs g_fds g_pipe g_sent g_wopen g_raised]; try apply O; try exact Od.
    + intros fd' r. destruct (Nat.eq_dec fd' fd) as [->|Ne]; [rewrite put_eq; discriminate|rewrite put_ne by exact Ne; apply (o_tab _ _ O)].
    + intros r fd' X Y. destruct (o_idle _ _ O r fd' X Y) as (C1 & C2). rewrite put_ne by congruence. auto.
    + intros h hd X. destruct (o_hd _ _ O _ _ X) as (C1 & C2 & C3 & C4). repeat split; auto; try (now apply C3); destruct (C4 H) as [C5 C6]; [rewrite put_ne by congruence|]; auto.
  - destruct (g_tab s fd) as [[?|]|] eqn:Et; try discriminate. destruct (g_sel s fd) eqn:Es; [discriminate|]. injection E as <-. split; [|exact Ap].
    constructor; cbn [g_tab g_sel g_hs g_fds g_pipe g_sent g_wopen g_raised]; try apply O; try exact Od.
    + intros fd' r. destruct (Nat.eq_dec fd' fd) as [->|Ne]; [rewrite put_eq; discriminate|rewrite put_ne by exact Ne; apply (o_tab _ _ O)].
    + intros r fd' X Y. destruct (o_idle _ _ O r fd' X Y) as (C1 & C2). rewrite put_ne by congruence. auto.
    + intros h hd X. destruct (o_hd _ _ O _ _ X) as (C1 & C2 & C3 & C4). repeat split; auto; try (now apply C3); destruct (C4 H) as [C5 C6]; [rewrite put_ne by congruence|]; auto.
Qed.
Lemma once_steps l : forall s s', once s (flat_map iterates l) -> NoDup (flat_map iterates l) -> apart s -> act_steps s l = Some s' -> once s' [].
Proof.
  induction l as [|a l IH]; intros s s' O Nd Ap; cbn [act_steps flat_map] in *; [intros E; now injection E as <-|].
  destruct (act_step s a) as [s1|] eqn:E; [|discriminate]. destruct (once_step s a s1 _ O Nd Ap E) as [O1 Ap1]. apply IH; [exact O1| |exact Ap1]. clear -Nd. induction (iterates a) as [|y l0 IHl]; [exact Nd|]. cbn in Nd. inversion Nd. auto.
Qed.
Lemma once_fresh t todo : once (fresh t) todo.
Proof.
  constructor; cbn; try discriminate; auto.
  - intros fd r. destruct (t fd); discriminate.
  - intros r _ [|h] hd; discriminate.
  - intros [|r] fd; discriminate.
  - intros [|h] hd; discriminate.
Qed.
Lemma apart_fresh t : apart (fresh t).
Proof. intros [|h1] h2 a b; discriminate. Qed.

(** A handler whose descriptor the event loop calls for another handler gets nothing any more. *)
Definition lost (h : nat) (s : shell) (got : list N) : Prop :=
  (exists hd, nth_error (g_hs s) h = Some hd /\ hd_got hd = got /\ hd_eof hd = false) /\ forall fd, g_sel s fd <> Some h.
Lemma lost_step s a s' h got : lost h s got -> act_step s a = Some s' -> lost h s' got.
Proof.
  intros ((hd & A1 & A2) & A3) E. assert (Lh : h < List.length (g_hs s)) by (apply nth_error_Some; congruence).
  destruct a as [fd|r|r d|r|fd d|fd|fd]; cbn [act_step] in E.
  - destruct (g_tab s fd); [discriminate|]. injection E as <-. split; eauto.
  - destruct (nth_error (g_fds s) r) as [fd|]; [|discriminate]. destruct (g_tab s fd); injection E as <-; (split; [|]); cbn [g_hs g_sel]; eauto.
    + exists hd. rewrite nth_error_app1 by exact Lh. auto.
    + intros fd'. unfold put. destruct (Nat.eqb fd' fd); [|apply A3]. intros X. injection X as X. lia.
  - destruct (_ && _); [|discriminate]. injection E as <-. split; eauto.
  - destruct (r <? _); [|discriminate]. injection E as <-. split; eauto.
  - destruct (g_sel s fd) as [h'|] eqn:Es; [|discriminate]. destruct (g_tab s fd) as [f|]; [|discriminate]. destruct (nth_error (g_hs s) h') as [hd'|] eqn:Eh; [|discriminate]. destruct (may_read s f d); [|discriminate].
    assert (h <> h') by (intros ->; now apply (A3 fd)).
    destruct d; injection E as <-; split; cbn [g_hs g_sel]; try (exists hd; rewrite nth_replace; destruct (Nat.eqb_spec h h'); [congruence|auto]); try exact A3.
    intros fd'. unfold put. destruct (Nat.eqb fd' fd); [discriminate|apply A3].
  - destruct (g_tab s fd); [discriminate|]. injection E as <-. split; eauto.
  - destruct (g_tab s fd) as [[?|]|]; try discriminate. destruct (g_sel s fd); [discriminate|]. injection E as <-. split; eauto.
Qed.
Lemma lost_steps l : forall s s' h got, lost h s got -> act_steps s l = Some s' -> lost h s' got.
Proof.
  induction l as [|a l IH]; intros s s' h got L; cbn [act_steps]; [intros E; now injection E as <-|]. destruct (act_step s a) as [s1|] eqn:E; [|discriminate]. apply IH. eapply lost_step; eauto.
Qed.

(** Bookkeeping: [g_sent] and [g_wopen] are the history's. *)
Lemma sent_step s a s' r : act_step s a = Some s' -> g_sent s' r = g_sent s r ++ written r [a] /\ g_wopen s' r = g_wopen s r && negb (closes r a).
Proof.
  unfold written. intros E. destruct a as [fd|r'|r' d|r'|fd d|fd|fd]; cbn [act_step flat_map closes negb] in *; rewrite ?app_nil_r, ?andb_true_r.
  - destruct (g_tab s fd); [discriminate|]. now injection E as <-.
  - destruct (nth_error (g_fds s) r') as [fd|]; [|discriminate]. destruct (g_tab s fd); now injection E as <-.
  - destruct (_ && _); [|discriminate]. injection E as <-. cbn. unfold put. rewrite (Nat.eqb_sym r' r). destruct (Nat.eqb_spec r r') as [->|]; rewrite ?app_nil_r; auto.
  - destruct (r' <? _); [|discriminate]. injection E as <-. cbn. unfold put. rewrite (Nat.eqb_sym r' r). destruct (Nat.eqb_spec r r') as [->|]; cbn; rewrite ?andb_false_r, ?andb_true_r; auto.
  - destruct (g_sel s fd) as [h'|]; [|discriminate]. destruct (g_tab s fd) as [f|]; [|discriminate]. destruct (nth_error (g_hs s) h'); [|discriminate]. destruct (may_read s f d); [|discriminate]. destruct d; now injection E as <-.
  - destruct (g_tab s fd); [discriminate|]. now injection E as <-.
  - destruct (g_tab s fd) as [[?|]|]; try discriminate. destruct (g_sel s fd); [discriminate|]. now injection E as <-.
Qed.
Lemma sent_steps l : forall s s' r, act_steps s l = Some s' -> g_sent s' r = g_sent s r ++ written r l /\ g_wopen s' r = g_wopen s r && negb (existsb (closes r) l).
Proof.
  induction l as [|a l IH]; intros s s' r; cbn [act_steps existsb]; [intros E; injection E as <-; cbn; now rewrite app_nil_r, andb_true_r|].
  destruct (act_step s a) as [s1|] eqn:E; [|discriminate]. intros E2. destruct (sent_step s a s1 r E) as [A B]. destruct (IH s1 s' r E2) as [C D]. rewrite C, D, A, B. rewrite <- app_assoc. split.
  - f_equal. unfold written. cbn. now rewrite app_nil_r.
  - rewrite <- andb_assoc. f_equal. now rewrite negb_orb.
Qed.

(** In every history a selected handler is selected at its own descriptor. *)
Definition placed (s : shell) : Prop := forall fd h, g_sel s fd = Some h -> exists hd, nth_error (g_hs s) h = Some hd /\ hd_fd hd = fd.
Lemma placed_step s a s' : placed s -> act_step s a = Some s' -> placed s'.
Proof.
  intros P E. destruct a as [fd|r|r d|r|fd d|fd|fd]; cbn [act_step] in E.
  - destruct (g_tab s fd); [discriminate|]. injection E as <-. exact P.
  - destruct (nth_error (g_fds s) r) as [fd|]; [|discriminate]. destruct (g_tab s fd); injection E as <-; [|exact P]. intros fd' h. cbn [g_sel g_hs]. unfold put. destruct (Nat.eqb_spec fd' fd) as [->|Ne].
    + intros X. injection X as <-. rewrite nth_snoc, Nat.eqb_refl. eexists. split; reflexivity.
    + intros X. destruct (P _ _ X) as (hd & A & B). exists hd. rewrite nth_error_app1 by (apply nth_error_Some; congruence). auto.
  - destruct (_ && _); [|discriminate]. injection E as <-. exact P.
  - destruct (r <? _); [|discriminate]. injection E as <-. exact P.
  - destruct (g_sel s fd) as [h'|] eqn:Es; [|discriminate]. destruct (g_tab s fd) as [f|]; [|discriminate]. destruct (nth_error (g_hs s) h') as [hd'|] eqn:Eh; [|discriminate]. destruct (may_read s f d); [|discriminate].
    assert (Q : forall fd0 h0 hd0, hd_fd hd0 = hd_fd hd' -> g_sel s fd0 = Some h0 -> exists hd, nth_error (replace (g_hs s) h' hd0) h0 = Some hd /\ hd_fd hd = fd0).
    { intros fd0 h0 hd0 F X. destruct (P _ _ X) as (hd & A & B). rewrite nth_replace, Eh. destruct (Nat.eqb_spec h0 h') as [->|]; [|eauto]. exists hd0. split; [reflexivity|]. congruence. }
    destruct d; injection E as <-; intros fd' h; cbn [g_sel g_hs]; [unfold put; destruct (Nat.eqb fd' fd); [discriminate|]|]; intros X; eapply Q; eauto.
  - destruct (g_tab s fd); [discriminate|]. injection E as <-. exact P.
  - destruct (g_tab s fd) as [[?|]|]; try discriminate. destruct (g_sel s fd); [discriminate|]. injection E as <-. exact P.
Qed.
Lemma placed_steps l : forall s s', placed s -> act_steps s l = Some s' -> placed s'.
Proof.
  induction l as [|a l IH]; intros s s' P; cbn [act_steps]; [intros E; now injection E as <-|]. destruct (act_step s a) as [s1|] eqn:E; [|discriminate]. apply IH. eapply placed_step; eauto.
Qed.
Lemma act_steps_app l1 : forall l2 s, act_steps s (l1 ++ l2) = match act_steps s l1 with Some s1 => act_steps s1 l2 | None => None end.
Proof. induction l1 as [|a l1 IH]; intros l2 s; cbn; [reflexivity|]. destruct (act_step s a); [apply IH|reflexivity]. Qed.

(** What is in the pipe can be read by the handler, up to the end. *)
Lemma drain n : forall s h hd, once s [] -> apart s -> nth_error (g_hs s) h = Some hd -> hd_eof hd = false -> g_wopen s (hd_run hd) = false -> List.length (g_pipe s (hd_run hd)) <= n ->
  exists l s', forallb is_event l = true /\ act_steps s l = Some s' /\ exists hd', nth_error (g_hs s') h = Some hd' /\ hd_run hd' = hd_run hd /\ hd_eof hd' = true.
Proof.
  induction n as [|n IH]; intros s h hd O Ap Eh Ee Ew L; destruct (o_hd _ _ O _ _ Eh) as (A1 & A2 & A3 & A4); destruct (A4 Ee) as [A5 A6].
  all: destruct (g_pipe s (hd_run hd)) as [|b p] eqn:Ep; cbn [List.length] in L; [|try lia].
  1,2: exists [AEvent (hd_fd hd) []]; eexists; split; [reflexivity|]; cbn [act_steps act_step]; rewrite A6, A5, Eh; cbn [may_read]; rewrite Ep, Ew; cbn [negb];
    (split; [reflexivity|]); cbn [g_hs]; eexists; rewrite nth_replace, Nat.eqb_refl, Eh; (split; [reflexivity|]); auto.
  assert (Em : may_read s (OutputOf (hd_run hd)) [b] = true) by (cbn; rewrite Ep; cbn; now rewrite N.eqb_refl).
  set (s1 := mkShell (g_tab s) (g_sel s) (replace (g_hs s) h (mkHandler (hd_run hd) (hd_fd hd) (hd_got hd ++ [b]) false)) (g_fds s) (after_read s (OutputOf (hd_run hd)) [b]) (g_sent s) (g_wopen s) (g_raised s)).
  assert (E1 : act_step s (AEvent (hd_fd hd) [b]) = Some s1) by (cbn [act_step]; rewrite A6, A5, Eh, Em; reflexivity).
  destruct (once_step s (AEvent (hd_fd hd) [b]) s1 [] O (NoDup_nil _) Ap E1) as [O1 Ap1].
  destruct (IH s1 h (mkHandler (hd_run hd) (hd_fd hd) (hd_got hd ++ [b]) false) O1 Ap1) as (l & s' & B1 & B2 & B3).
  - cbn. rewrite nth_replace, Nat.eqb_refl, Eh. reflexivity.
  - reflexivity.
  - exact Ew.
  - cbn. rewrite put_eq, Ep. cbn. lia.
  - exists (AEvent (hd_fd hd) [b] :: l), s'. split; [exact B1|]. split; [|exact B3]. cbn [act_steps]. rewrite E1. exact B2.
Qed.
Lemma once_apart_steps l : forall s s', once s (flat_map iterates l) -> NoDup (flat_map iterates l) -> apart s -> act_steps s l = Some s' -> once s' [] /\ apart s'.
Proof.
  induction l as [|a l IH]; intros s s' O Nd Ap; cbn [act_steps flat_map] in *; [intros E; now injection E as <-|].
  destruct (act_step s a) as [s1|] eqn:E; [|discriminate]. destruct (once_step s a s1 _ O Nd Ap E) as [O1 Ap1]. apply IH; [exact O1| |exact Ap1]. clear -Nd. induction (iterates a) as [|y l0 IHl]; [exact Nd|]. cbn in Nd. inversion Nd. auto.
Qed.
