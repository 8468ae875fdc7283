(** Proofs about the input handlers. *)
From Verif Require Import Py IterModel IterSpec.

(** ** Lines *)
Lemma has_nl_In b : has_nl b = true <-> In nl b.
Proof.
  unfold has_nl. rewrite existsb_exists. split.
  - intros [x [Hx E]]. apply N.eqb_eq in E. now subst.
  - intros H. exists nl. split; [exact H|]. apply N.eqb_refl.
Qed.
Lemma has_nl_not b : has_nl b = false <-> ~ In nl b.
Proof. rewrite <- has_nl_In. destruct (has_nl b); split; congruence. Qed.
Lemma has_nl_app a b : has_nl (a ++ b) = has_nl a || has_nl b.
Proof. unfold has_nl. apply existsb_app. Qed.

Lemma split1_spec b : In nl b -> let '(l, r) := split1 b in b = l ++ [nl] ++ r /\ ~ In nl l.
Proof.
  induction b as [|c b IH]; cbn [split1 In]; [tauto|]. destruct (N.eqb_spec nl c) as [<-|Hne].
  - intros _. split; [reflexivity|tauto].
  - intros [E|H]; [congruence|]. specialize (IH H). destruct (split1 b) as [l r]. destruct IH as [-> Hl].
    split; [reflexivity|]. intros [E|X]; [congruence|auto].
Qed.

Definition joined (ls : list bytes) : bytes := List.concat (map (fun l => l ++ [nl]) ls).
Lemma joined_app a b : joined (a ++ b) = joined a ++ joined b.
Proof. unfold joined. now rewrite map_app, concat_app. Qed.

Lemma first_line a b x y : ~ In nl a -> ~ In nl b ->
  a ++ nl :: x = b ++ nl :: y -> a = b /\ x = y.
Proof.
  revert b. induction a as [|c a IH]; intros [|d b] Ha Hb E; cbn in *.
  - injection E as ->. auto.
  - injection E as <- _. exfalso. apply Hb. now left.
  - injection E as -> _. exfalso. apply Ha. now left.
  - injection E as -> E. destruct (IH b) as [-> ->]; auto.
Qed.
Lemma joined_prefix a : forall b t, Forall (fun l => ~ In nl l) a -> Forall (fun l => ~ In nl l) b ->
  joined a ++ t = joined b -> prefix a b /\ (t = [] -> a = b).
Proof.
  induction a as [|l a IH]; intros b t Ha Hb E.
  - split; [exists b; reflexivity|]. intros ->. destruct b as [|m b]; [reflexivity|].
    cbn in E. destruct m; discriminate.
  - destruct b as [|m b]; [destruct l; discriminate|].
    inversion Ha; inversion Hb; subst. cbn in E. fold (joined a) (joined b) in E. rewrite <- !app_assoc in E. cbn in E.
    apply first_line in E as [-> E]; auto. destruct (IH b t H2 H6 E) as [[c ->] Hn]. split.
    + exists c. reflexivity.
    + intros Ht. now rewrite <- (Hn Ht).
Qed.
Lemma joined_last a : a <> [] -> last (joined a) 0%N = nl.
Proof.
  intros H. destruct (exists_last H) as [l [x ->]]. rewrite joined_app. unfold joined at 2. cbn. rewrite app_nil_r, app_assoc.
  apply last_last.
Qed.

Lemma is_lines_unique d a b : is_lines d a -> is_lines d b -> a = b.
Proof.
  intros [Ha A] [Hb B]. fold (joined a) in A. fold (joined b) in B.
  assert (K : forall a b, Forall (fun l => ~ In nl l) a -> Forall (fun l => ~ In nl l) b -> joined a = joined b -> a = b).
  { intros x y Hx Hy E. destruct (joined_prefix x y [] Hx Hy) as [_ K]; [now rewrite app_nil_r|auto]. }
  assert (X : forall x, joined x = d -> d <> [] -> last d 0%N <> nl -> False).
  { intros x E Hd Hl. apply Hl. rewrite <- E. apply joined_last. intros ->. cbn in E. congruence. }
  destruct A as [A|[A [A1 A2]]], B as [B|[B [B1 B2]]].
  - apply K; congruence.
  - exfalso. eauto.
  - exfalso. eauto.
  - apply K; congruence.
Qed.
(** The lines exist for every byte string. *)
Lemma is_lines_exists d : exists ls, is_lines d ls.
Proof.
  induction d as [d IH] using (induction_ltof1 _ (@List.length N)). unfold ltof in IH.
  destruct (has_nl d) eqn:E.
  - apply has_nl_In in E. pose proof (split1_spec d E) as S. destruct (split1 d) as [l r]. destruct S as [Ed Hl].
    destruct (IH r) as [ls [Hf Hls]]; [subst d; rewrite !app_length; cbn; lia|].
    exists (l :: ls). split; [constructor; auto|]. cbn. fold (joined ls) in *.
    rewrite <- app_assoc. destruct Hls as [<-|[E1 [E2 E3]]].
    + left. now rewrite Ed.
    + right. rewrite E1. split; [now rewrite Ed, <- !app_assoc|]. split.
      * subst d. destruct l; discriminate.
      * subst d. destruct (exists_last E2) as [r' [x ->]]. rewrite last_last in E3.
        rewrite !app_assoc, last_last. exact E3.
  - apply has_nl_not in E. destruct d as [|c d].
    + exists []. split; [constructor|]. left. reflexivity.
    + exists [c :: d]. split; [repeat constructor; exact E|]. right. cbn [map List.concat]. rewrite app_nil_r. split; [reflexivity|].
      split; [discriminate|]. intros X. apply E.
      destruct (exists_last (l := c :: d) ltac:(discriminate)) as [r' [x Ex]]. rewrite Ex in X |- *. rewrite last_last in X.
      subst x. apply in_app_iff. right. now left.
Qed.

Lemma items_of_app a b : items_of (a ++ b) = items_of a ++ items_of b.
Proof. unfold items_of. apply flat_map_app. Qed.

Lemma items_of_item a b : items_of (a ++ [GItem b]) = items_of a ++ [b].
Proof. apply items_of_app. Qed.
Lemma joined_snoc a l : joined (a ++ [l]) = joined a ++ l ++ [nl].
Proof. rewrite joined_app. unfold joined at 2. cbn. now rewrite app_nil_r. Qed.
#[local] Arguments items_of : simpl never.
#[local] Arguments joined : simpl never.
#[local] Arguments has_nl : simpl never.
#[local] Arguments ended : simpl never.

(** ** The line reader *)
Record LInv (s : line_state) : Prop := {
  l_wait : r_phase s = PWait -> li_fut (r_h s) = true /\ has_nl (li_buf (r_h s)) = false /\ li_eof (r_h s) = false;
  l_nowait : r_phase s <> PWait -> li_fut (r_h s) = false;
  l_open : li_open (r_h s) = negb (li_eof (r_h s));
  l_eof : li_eof (r_h s) = true -> r_pend s = [] /\ r_wopen s = false;
  l_ateof : r_phase s = PAtEof -> li_eof (r_h s) = true /\ li_buf (r_h s) = [];
  l_free : Forall (fun l => ~ In nl l) (items_of (r_out s));
  l_data : joined (items_of (r_out s)) ++ li_buf (r_h s) ++ r_pend s = r_sent s \/
           (li_eof (r_h s) = true /\ li_buf (r_h s) = [] /\
            joined (items_of (r_out s)) = r_sent s ++ [nl] /\ r_sent s <> [] /\ last (r_sent s) 0%N <> nl);
  l_end : ended (r_out s) -> li_eof (r_h s) = true /\ li_buf (r_h s) = [] }.

Lemma LInv_start : LInv line_start.
Proof.
  constructor; cbn; try discriminate; auto.
  - constructor.
  - intros [[]|[]].
Qed.

Lemma ended_app a g : ended (a ++ [g]) -> ended a \/ g = GStop \/ g = GFailed.
Proof.
  unfold ended. rewrite !in_app_iff. cbn. intros [[?|[->|[]]]|[?|[->|[]]]]; auto.
Qed.

Lemma LInv_after ae s : LInv s -> r_phase s = PIdle \/ r_phase s = PWoken ->
  LInv (after line_handler ae s (line_next (r_h s))).
Proof.
  intros I Hp.
  assert (Hnw : r_phase s <> PWait) by (destruct Hp; congruence).
  pose proof (l_nowait s I Hnw) as Hfut.
  unfold line_next. destruct (negb (li_eof (r_h s)) && negb (has_nl (li_buf (r_h s)))) eqn:Ew.
  - apply andb_prop in Ew as [E1 E2]. apply negb_true_iff in E1, E2.
    destruct I. constructor; cbn; auto; try discriminate; try congruence.
  - destruct (li_buf (r_h s)) as [|c b] eqn:Eb.
    + (* end of file *)
      assert (Eeof : li_eof (r_h s) = true).
      { cbn in Ew. rewrite andb_true_r in Ew. now apply negb_false_iff in Ew. }
      destruct I. unfold after. destruct ae; constructor; cbn; auto; try discriminate; try congruence.
      * rewrite items_of_app. unfold items_of at 2. cbn. now rewrite app_nil_r.
      * rewrite items_of_app. unfold items_of at 2 4. cbn. rewrite app_nil_r. exact l_data0.
    + cbv zeta. set (buf := c :: b) in *.
      match goal with |- context [split1 ?x] => set (b2 := x) end.
      assert (Hin : In nl b2).
      { unfold b2. destruct (has_nl buf) eqn:E; [now apply has_nl_In|]. apply in_app_iff. right. now left. }
      pose proof (split1_spec b2 Hin) as S. destruct (split1 b2) as [l r]. destruct S as [E2 Hl].
      cbn [after].
      destruct (has_nl buf) eqn:En.
      * (* complete line *)
        assert (Hd : joined (items_of (r_out s)) ++ buf ++ r_pend s = r_sent s).
        { destruct (l_data s I) as [D|[_ [D _]]]; [rewrite Eb in D; exact D|unfold buf in Eb; congruence]. }
        destruct I. constructor; cbn; auto; try discriminate; try congruence.
        -- rewrite items_of_item. apply Forall_app. split; [exact l_free0|]. constructor; auto.
        -- left. rewrite items_of_item, joined_snoc, <- Hd.
           unfold b2 in E2. rewrite E2, <- !app_assoc. reflexivity.
        -- intros X. apply ended_app in X as [X|[X|X]]; try discriminate. destruct (l_end0 X). unfold buf in Eb. congruence.
      * (* last line without newline *)
        assert (Eeof : li_eof (r_h s) = true).
        { rewrite andb_true_r in Ew. now apply negb_false_iff in Ew. }
        destruct (l_eof s I Eeof) as [Hp0 Hw0].
        assert (Hd : joined (items_of (r_out s)) ++ buf = r_sent s).
        { destruct (l_data s I) as [D|[_ [D _]]]; [rewrite Eb, Hp0, app_nil_r in D; exact D|unfold buf in Eb; congruence]. }
        assert (X : l = buf /\ r = []).
        { unfold b2 in E2. apply has_nl_not in En. change (buf ++ nl :: [] = l ++ nl :: r) in E2.
          apply first_line in E2 as [-> <-]; auto. }
        destruct X as [-> ->].
        destruct I. constructor; cbn; auto; try discriminate; try congruence.
        -- rewrite items_of_item. apply Forall_app. split; [exact l_free0|]. constructor; auto.
        -- right. split; [exact Eeof|]. split; [reflexivity|]. rewrite items_of_item, joined_snoc, <- Hd. split; [now rewrite <- app_assoc|]. split.
           ++ unfold buf. destruct (joined (items_of (r_out s))); discriminate.
           ++ assert (Hb : buf <> []) by discriminate. destruct (exists_last Hb) as [b' [x Ex]].
              rewrite Ex, app_assoc, last_last. intros ->. apply has_nl_not in En. apply En. rewrite Ex. apply in_app_iff. right. now left.
Qed.

Lemma skipn_nonempty {A} n (l : list A) : List.length (skipn n l) < List.length l \/ skipn n l = l.
Proof. destruct n; [now right|]. destruct l; [now right|]. left. cbn. rewrite skipn_length. lia. Qed.

Lemma LInv_step ae s l s' : LInv s -> line_step ae s l = Some s' -> LInv s'.
Proof.
  intros I. destruct l as [d| |n| | |ok]; cbn.
  - destruct (r_wopen s) eqn:Ew; [|discriminate]. intros E. injection E as <-.
    assert (Ef : li_eof (r_h s) = false).
    { destruct (li_eof (r_h s)) eqn:E; [|reflexivity]. destruct (l_eof s I E). congruence. }
    destruct I. constructor; cbn; auto; try congruence.
    left. destruct l_data0 as [<-|[X _]]; [|congruence]. now rewrite !app_assoc.
  - destruct (r_wopen s) eqn:Ew; [|discriminate]. intros E. injection E as <-.
    destruct I. constructor; cbn; auto. intros E. destruct (l_eof0 E). congruence.
  - unfold readable. rewrite (l_open s I). destruct (li_eof (r_h s)) eqn:Ee; cbn; [discriminate|].
    destruct (negb (r_wopen s) || _) eqn:Er; [|discriminate].
    destruct (line_wants (r_h s)) eqn:Ewa.
    + destruct (read_ok line_handler s n) eqn:Erd; [|discriminate].
      unfold line_event. rewrite Ewa. intros E. injection E as <-.
      assert (Hnend : ~ ended (r_out s)) by (intros X; destruct (l_end s I X); congruence).
      assert (D : joined (items_of (r_out s)) ++ li_buf (r_h s) ++ r_pend s = r_sent s).
      { destruct (l_data s I) as [D|[X _]]; [exact D|congruence]. }
      assert (Hn : firstn n (r_pend s) = [] -> r_pend s = [] /\ r_wopen s = false).
      { intros X. unfold read_ok in Erd. destruct (r_pend s) as [|c p].
        - apply andb_prop in Erd as [Y _]. apply negb_true_iff in Y. auto.
        - destruct n; [discriminate Erd|discriminate X]. }
      constructor; cbn.
      * intros X. destruct (li_fut (r_h s)) eqn:Ef; [discriminate|].
        destruct (l_wait s I X) as [Y _]. congruence.
      * reflexivity.
      * rewrite (l_open s I), Ee. destruct (firstn n (r_pend s)); reflexivity.
      * intros X. rewrite Ee in X. cbn in X. destruct (firstn n (r_pend s)) eqn:Ef; [|discriminate].
        destruct (Hn eq_refl) as [-> Y]. split; [apply skipn_nil|exact Y].
      * intros X. destruct (li_fut (r_h s)) eqn:Ef; [discriminate|]. destruct (l_ateof s I X). congruence.
      * apply I.
      * left. rewrite <- D. f_equal. rewrite <- app_assoc. f_equal. apply firstn_skipn.
      * intros X. contradiction.
    + unfold line_event. rewrite Ewa. intros E. injection E as <-. destruct s; exact I.
  - destruct (r_phase s) eqn:Ep; try discriminate. intros E. injection E as <-. apply LInv_after; auto.
  - destruct (r_phase s) eqn:Ep; try discriminate. intros E. injection E as <-. apply LInv_after; auto.
  - destruct (r_phase s) eqn:Ep; try discriminate. intros E. injection E as <-.
    destruct (l_ateof s I Ep) as [X Y].
    assert (Z : items_of (r_out s ++ [if ok then GStop else GFailed]) = items_of (r_out s)).
    { rewrite items_of_app. destruct ok; cbn; now rewrite app_nil_r. }
    pose proof (l_nowait s I ltac:(congruence)).
    destruct I. constructor; cbn; auto; try discriminate; rewrite Z; auto.
Qed.
Lemma LInv_steps ae ls : forall s s', LInv s -> line_steps ae s ls = Some s' -> LInv s'.
Proof.
  induction ls as [|l ls IH]; intros s s' I; cbn.
  - intros E. injection E as <-. exact I.
  - fold (line_step ae). destruct (line_step ae s l) as [s1|] eqn:E; [|discriminate].
    apply IH. eapply LInv_step; eauto.
Qed.

(** C13 *)
Theorem lines_delivered ae ls s lines :
  line_steps ae line_start ls = Some s -> is_lines (r_sent s) lines ->
  prefix (items_of (r_out s)) lines /\ (ended (r_out s) -> items_of (r_out s) = lines).
Proof.
  intros E HL. pose proof (LInv_steps ae ls _ _ LInv_start E) as I.
  destruct (l_data s I) as [D|[D1 [D2 [D3 [D4 D5]]]]].
  - assert (P : prefix (items_of (r_out s)) lines).
    { destruct HL as [Hf [HL|[HL _]]]; fold (joined lines) in HL; rewrite <- D in HL.
      - eapply joined_prefix; [apply I|exact Hf|]. symmetry. exact HL.
      - eapply joined_prefix; [apply I|exact Hf|]. rewrite <- app_assoc in HL. symmetry. exact HL. }
    split; [exact P|]. intros X. destruct (l_end s I X) as [X1 X2]. destruct (l_eof s I X1) as [X3 X4].
    rewrite X2, X3 in D. cbn in D. rewrite app_nil_r in D.
    apply (is_lines_unique (r_sent s)); [|exact HL]. split; [apply I|left; exact D].
  - assert (X : items_of (r_out s) = lines).
    { apply (is_lines_unique (r_sent s)); [|exact HL]. split; [apply I|]. right. auto. }
    split; [|auto]. exists []. now rewrite app_nil_r.
Qed.

(** ** Liveness of the line reader *)

Lemma rstep_wake_ok ae s : r_phase s = PWoken -> line_step ae s LWake = Some (after line_handler ae s (line_next (r_h s))).
Proof. intros H. cbn. now rewrite H. Qed.

Lemma after_cases ae s : LInv s -> r_phase s = PWoken ->
  let s1 := after line_handler ae s (line_next (r_h s)) in
  r_pend s1 = r_pend s /\ r_wopen s1 = r_wopen s /\
  ((r_phase s1 = PWait /\ r_out s1 = r_out s /\ li_buf (r_h s1) = li_buf (r_h s) /\
    has_nl (li_buf (r_h s)) = false /\ li_eof (r_h s) = false) \/
   (r_phase s1 = PIdle /\ exists g, r_out s1 = r_out s ++ [g]) \/
   (r_phase s1 = PAtEof /\ r_out s1 = r_out s)).
Proof.
  intros I Hp. unfold line_next. destruct (negb (li_eof (r_h s)) && negb (has_nl (li_buf (r_h s)))) eqn:Ew.
  - apply andb_prop in Ew as [E1 E2]. apply negb_true_iff in E1, E2. cbn. split; [reflexivity|]. split; [reflexivity|]. left. auto.
  - destruct (li_buf (r_h s)).
    + destruct ae; cbn; split; try reflexivity; split; try reflexivity; [right; right; auto|right; left]. eauto.
    + destruct (split1 _). cbn. split; [reflexivity|]. split; [reflexivity|]. right. left. eauto.
Qed.

(** A waiting consumer and a readable descriptor: the callback wakes it. *)
Lemma wait_reads ae s n : LInv s -> r_phase s = PWait -> due s ->
  exists s2, line_step ae s (LReadable (clamp line_handler s n)) = Some s2 /\ r_phase s2 = PWoken /\
    r_out s2 = r_out s /\ r_wopen s2 = r_wopen s /\ due s2 /\
    (List.length (r_pend s2) < List.length (r_pend s) \/ (r_pend s = [] /\ r_pend s2 = [] /\ li_eof (r_h s2) = true)).
Proof.
  intros I Hp Hd. destruct (l_wait s I Hp) as [Hf [Hn He]].
  assert (Ho : li_open (r_h s) = true) by (rewrite (l_open s I), He; reflexivity).
  cbn. unfold readable. rewrite Ho. cbn.
  assert (Hr : negb (r_wopen s) || match r_pend s with [] => false | _ => true end = true).
  { destruct Hd as [->|X]; [reflexivity|]. apply in_app_iff in X as [X|X].
    - apply has_nl_In in X. congruence.
    - destruct (r_pend s); [destruct X|apply orb_true_r]. }
  rewrite Hr. unfold line_wants, line_event. rewrite Hn. cbn.
  unfold line_wants. rewrite Hn. cbn [negb].
  assert (Hrd : read_ok line_handler s (clamp line_handler s n) = true).
  { unfold read_ok, clamp. destruct (r_pend s) as [|c p].
    - rewrite orb_false_r in Hr. rewrite Hr. reflexivity.
    - cbn [List.length]. rewrite !andb_true_iff, !Nat.leb_le. lia. }
  rewrite Hrd. eexists. split; [reflexivity|]. cbn. rewrite Hf. split; [reflexivity|]. split; [reflexivity|].
  split; [reflexivity|]. split.
  - unfold due in *. cbn. rewrite <- app_assoc, firstn_skipn. exact Hd.
  - unfold clamp. destruct (r_pend s) as [|c p] eqn:E.
    + right. split; [reflexivity|]. split; [reflexivity|]. cbn. apply orb_true_r.
    + left. rewrite skipn_length. cbn [List.length]. lia.
Qed.

Definition work (s : line_state) : nat := List.length (r_pend s) + (if li_eof (r_h s) then 0 else 1).
Lemma line_round_eq ae s n : line_round ae s n =
  match match line_step ae s LWake with Some s1 => s1 | None => s end with s1 =>
  match line_step ae s1 (LReadable (clamp line_handler s1 n)) with Some s2 => s2 | None => s1 end end.
Proof. reflexivity. Qed.
Lemma round_progress ae s n : LInv s -> waiting s -> due s ->
  let s' := line_round ae s n in
  (r_phase s' = PWoken /\ r_out s' = r_out s /\ LInv s' /\ due s' /\ work s' < work s) \/
  (r_phase s' = PIdle /\ exists g, r_out s' = r_out s ++ [g]) \/
  (r_phase s' = PAtEof /\ r_out s' = r_out s).
Proof.
  intros I Hw Hd.
  assert (W : forall s1, LInv s1 -> r_phase s1 = PWait -> due s1 -> exists s2,
    line_step ae s1 (LReadable (clamp line_handler s1 n)) = Some s2 /\ r_phase s2 = PWoken /\
    r_out s2 = r_out s1 /\ LInv s2 /\ due s2 /\ work s2 < work s1).
  { intros s1 I1 H1 D1. destruct (wait_reads ae s1 n I1 H1 D1) as [s2 [E [A [B [C [D F]]]]]].
    exists s2. split; [exact E|]. split; [exact A|]. split; [exact B|].
    pose proof (LInv_step ae _ _ _ I1 E) as I2. split; [exact I2|]. split; [exact D|].
    destruct (l_wait s1 I1 H1) as [_ [_ He]]. unfold work. rewrite He.
    destruct F as [F|[F1 [F2 F3]]]; [destruct (li_eof (r_h s2)); lia|]. rewrite F1, F2, F3. cbn. lia. }
  rewrite line_round_eq. destruct Hw as [Hp|Hp].
  - assert (E0 : line_step ae s LWake = None) by (cbn; now rewrite Hp). rewrite E0.
    destruct (W s I Hp Hd) as [s2 [E [A [B [I2 [D2 M]]]]]]. rewrite E. left. auto.
  - rewrite (rstep_wake_ok ae s Hp). destruct (after_cases ae s I Hp) as [P1 [P2 P3]].
    pose proof (LInv_after ae s I (or_intror Hp)) as I1.
    set (s1 := after line_handler ae s (line_next (r_h s))) in *.
    destruct P3 as [[Q1 [Q2 [Q3 [Q4 Q5]]]]|[[Q1 Q2]|[Q1 Q2]]].
    + assert (D1 : due s1) by (unfold due in *; rewrite P1, P2, Q3; exact Hd).
      destruct (W s1 I1 Q1 D1) as [s2 [E [A [B [I2 [D2 M]]]]]]. rewrite E. left.
      split; [exact A|]. split; [congruence|]. split; [exact I2|]. split; [exact D2|].
      assert (work s1 = work s); [|lia]. unfold work. rewrite P1, Q5.
      destruct (l_wait s1 I1 Q1) as [_ [_ ->]]. reflexivity.
    + right. left.
      assert (K : forall m s2, line_step ae s1 (LReadable m) = Some s2 -> r_phase s2 = PIdle /\ r_out s2 = r_out s1).
      { intros m s2. cbn. destruct (readable line_handler li_open s1); [|discriminate].
        destruct (line_wants (r_h s1)) eqn:Ew.
        - destruct (read_ok line_handler s1 m); [|discriminate]. unfold line_event. rewrite Ew. intros E. injection E as <-. cbn.
          pose proof (l_nowait s1 I1 ltac:(congruence)) as ->. auto.
        - unfold line_event. rewrite Ew. intros E. injection E as <-. cbn. auto. }
      destruct (line_step ae s1 _) as [s2|] eqn:E; [destruct (K _ _ E) as [-> ->]|]; auto.
    + right. right.
      assert (X : line_step ae s1 (LReadable (clamp line_handler s1 n)) = None).
      { cbn. unfold readable. destruct (l_ateof s1 I1 Q1) as [Y _]. rewrite (l_open s1 I1), Y. reflexivity. }
      rewrite X. auto.
Qed.

(** C14: whatever the sizes of the reads, a consumer waiting for a line gets it
    (or reaches the end) within a bounded number of iterations of the event loop
    once a newline or the closing of the pipe is on its way. *)
Lemma rounds_serve ae : forall k s, LInv s -> waiting s -> due s -> work s < k ->
  forall ns, List.length ns = k -> exists i, i < k /\ served s (fold_left (line_round ae) (firstn (S i) ns) s).
Proof.
  induction k as [|k IH]; intros s I Hw Hd Hk ns Hl; [lia|].
  destruct ns as [|n ns]; [discriminate|]. cbn in Hl. injection Hl as Hl.
  destruct (round_progress ae s n I Hw Hd) as [[A [B [C [D M]]]]|X].
  - destruct (IH (line_round ae s n) C (or_intror A) D ltac:(lia) ns Hl) as [i [Hi Sv]].
    exists (S i). split; [lia|]. cbn [firstn fold_left]. unfold served in *. rewrite B in Sv. exact Sv.
  - exists 0. split; [lia|]. cbn [firstn fold_left]. unfold served. tauto.
Qed.
Theorem consumer_served ae ls s : line_steps ae line_start ls = Some s ->
  waiting s -> due s ->
  forall ns, List.length (r_pend s) + 2 <= List.length ns ->
  exists i, i < List.length ns /\ served s (fold_left (line_round ae) (firstn (S i) ns) s).
Proof.
  intros E Hw Hd ns Hl. apply (rounds_serve ae (List.length ns) s); auto.
  - eapply LInv_steps; [apply LInv_start|exact E].
  - unfold work. destruct (li_eof (r_h s)); lia.
Qed.

#[local] Arguments byte_event : simpl never.
#[local] Arguments byte_wants : simpl never.

(** ** The byte reader *)
Record BInv (s : byte_state) : Prop := {
  b_wait : r_phase s = PWait -> bi_fut (r_h s) = true /\ bi_buf (r_h s) = None /\ bi_eof (r_h s) = false;
  b_nowait : r_phase s <> PWait -> bi_fut (r_h s) = false;
  b_woken : r_phase s = PWoken -> bi_buf (r_h s) <> None;
  b_open : bi_open (r_h s) = negb (bi_eof (r_h s));
  b_eof : bi_eof (r_h s) = true -> r_pend s = [] /\ r_wopen s = false;
  b_ateof : r_phase s = PAtEof -> bi_eof (r_h s) = true /\ bi_buf (r_h s) = None;
  b_data : List.concat (items_of (r_out s)) ++ match bi_buf (r_h s) with Some b => b | None => [] end ++ r_pend s = r_sent s;
  b_end : ended (r_out s) -> bi_eof (r_h s) = true /\ bi_buf (r_h s) = None }.
Lemma BInv_start : BInv byte_start.
Proof. constructor; cbn; try discriminate; auto. intros [[]|[]]. Qed.

Lemma BInv_take ae s : BInv s -> r_phase s = PIdle \/ r_phase s = PWoken -> bi_buf (r_h s) <> None ->
  BInv (after byte_handler ae s (byte_take (r_h s))).
Proof.
  intros I Hp Hb. assert (Hnw : r_phase s <> PWait) by (destruct Hp; congruence).
  pose proof (b_nowait s I Hnw) as Hf.
  destruct (bi_buf (r_h s)) as [b|] eqn:Eb; [|congruence]. unfold byte_take. rewrite Eb. cbn [after].
  destruct I. constructor; cbn; auto; try discriminate.
  - rewrite items_of_item, concat_app. cbn. rewrite app_nil_r, <- b_data0, Eb. now rewrite <- app_assoc.
  - intros X. apply ended_app in X as [X|[X|X]]; try discriminate. destruct (b_end0 X). congruence.
Qed.
Lemma BInv_step ae s l s' : BInv s -> byte_step ae s l = Some s' -> BInv s'.
Proof.
  intros I. destruct l as [d| |n| | |ok]; cbn.
  - destruct (r_wopen s) eqn:Ew; [|discriminate]. intros E. injection E as <-.
    destruct I. constructor; cbn; auto.
    + intros E. destruct (b_eof0 E). congruence.
    + rewrite <- b_data0. now rewrite !app_assoc.
  - destruct (r_wopen s) eqn:Ew; [|discriminate]. intros E. injection E as <-.
    destruct I. constructor; cbn; auto. intros E. destruct (b_eof0 E). auto.
  - unfold readable. rewrite (b_open s I). destruct (bi_eof (r_h s)) eqn:Ee; cbn; [discriminate|].
    destruct (negb (r_wopen s) || _) eqn:Er; [|discriminate].
    assert (Hnend : ~ ended (r_out s)) by (intros X; destruct (b_end s I X); congruence).
    destruct (byte_wants (r_h s)) eqn:Ewa.
    + destruct (read_ok byte_handler s n) eqn:Erd; [|discriminate].
      unfold byte_event. rewrite Ewa. cbn. intros E. injection E as <-.
      assert (Hb : bi_buf (r_h s) = None) by (unfold byte_wants in Ewa; destruct (bi_buf (r_h s)); congruence).
      assert (Hn : firstn n (r_pend s) = [] -> r_pend s = [] /\ r_wopen s = false).
      { intros X. unfold read_ok in Erd. destruct (r_pend s) as [|c p].
        - apply andb_prop in Erd as [Y _]. apply negb_true_iff in Y. auto.
        - destruct n; [discriminate Erd|discriminate X]. }
      constructor; cbn.
      * intros X. destruct (bi_fut (r_h s)) eqn:Ef; [discriminate|]. destruct (b_wait s I X) as [Y _]. congruence.
      * reflexivity.
      * discriminate.
      * rewrite (b_open s I), Ee. destruct (firstn n (r_pend s)); reflexivity.
      * intros X. rewrite Ee in X. cbn in X. destruct (firstn n (r_pend s)) eqn:Ef; [|discriminate].
        destruct (Hn eq_refl) as [-> Y]. split; [apply skipn_nil|exact Y].
      * intros X. destruct (bi_fut (r_h s)) eqn:Ef; [discriminate|]. destruct (b_ateof s I X). congruence.
      * rewrite firstn_skipn. pose proof (b_data s I) as D. rewrite Hb in D. exact D.
      * intros X. contradiction.
    + unfold byte_event. rewrite Ewa. intros E. injection E as <-. cbn.
      assert (Hb : bi_buf (r_h s) <> None) by (unfold byte_wants in Ewa; destruct (bi_buf (r_h s)); congruence).
      constructor; cbn; try apply I.
      * intros X. destruct (bi_fut (r_h s)) eqn:Ef; [discriminate|]. destruct (b_wait s I X) as [Y _]. congruence.
      * reflexivity.
      * intros _. exact Hb.
      * intros X. destruct (bi_fut (r_h s)) eqn:Ef; [discriminate|]. destruct (b_ateof s I X). congruence.
  - destruct (r_phase s) eqn:Ep; try discriminate. intros E. injection E as <-.
    unfold byte_next. destruct (bi_buf (r_h s)) as [b|] eqn:Eb.
    + apply BInv_take; auto. congruence.
    + pose proof (b_nowait s I ltac:(congruence)) as Hf. destruct (bi_eof (r_h s)) eqn:Ee.
      * destruct I. unfold after. destruct ae; constructor; cbn; auto; try discriminate; try congruence.
        -- rewrite items_of_app. unfold items_of at 2. cbn. rewrite app_nil_r. exact b_data0.
      * destruct I. unfold after. constructor; cbn; auto; try discriminate; try congruence.
        -- rewrite b_open0, Ee. reflexivity.
        -- rewrite Eb in b_data0. exact b_data0.
        -- intros X. destruct (b_end0 X). congruence.
  - destruct (r_phase s) eqn:Ep; try discriminate. intros E. injection E as <-.
    change (BInv (after byte_handler ae s (byte_take (r_h s)))).
    apply BInv_take; auto. now apply (b_woken s I).
  - destruct (r_phase s) eqn:Ep; try discriminate. intros E. injection E as <-.
    destruct (b_ateof s I Ep) as [X Y].
    assert (Z : items_of (r_out s ++ [if ok then GStop else GFailed]) = items_of (r_out s)).
    { rewrite items_of_app. destruct ok; cbn; now rewrite app_nil_r. }
    pose proof (b_nowait s I ltac:(congruence)).
    destruct I. constructor; cbn; auto; try discriminate; rewrite Z; auto.
Qed.
Lemma BInv_steps ae ls : forall s s', BInv s -> byte_steps ae s ls = Some s' -> BInv s'.
Proof.
  induction ls as [|l ls IH]; intros s s' I; cbn.
  - intros E. injection E as <-. exact I.
  - fold (byte_step ae). destruct (byte_step ae s l) as [s1|] eqn:E; [|discriminate].
    apply IH. eapply BInv_step; eauto.
Qed.
(** C15 *)
Theorem bytes_delivered ae ls s : byte_steps ae byte_start ls = Some s ->
  prefix (List.concat (items_of (r_out s))) (r_sent s) /\
  (ended (r_out s) -> List.concat (items_of (r_out s)) = r_sent s).
Proof.
  intros E. pose proof (BInv_steps ae ls _ _ BInv_start E) as I. pose proof (b_data s I) as D. split.
  - eexists. symmetry. exact D.
  - intros X. destruct (b_end s I X) as [X1 X2]. destruct (b_eof s I X1) as [X3 _].
    rewrite X2, X3 in D. cbn in D. now rewrite app_nil_r in D.
Qed.
Lemma byte_round_eq ae s n : byte_round ae s n =
  match match byte_step ae s LWake with Some s1 => s1 | None => s end with s1 =>
  match byte_step ae s1 (LReadable (clamp byte_handler s1 n)) with Some s2 => s2 | None => s1 end end.
Proof. reflexivity. Qed.
(** C14 for bytes: two iterations of the loop suffice. *)
Theorem byte_consumer_served ae ls s : byte_steps ae byte_start ls = Some s ->
  r_phase s = PWait -> (r_wopen s = false \/ r_pend s <> []) ->
  forall n m, bserved s (byte_round ae (byte_round ae s n) m).
Proof.
  intros E Hp Hd n m. pose proof (BInv_steps ae ls _ _ BInv_start E) as I.
  destruct (b_wait s I Hp) as [Hf [Hb He]].
  assert (R : exists s1, byte_round ae s n = s1 /\ BInv s1 /\ r_phase s1 = PWoken /\ r_out s1 = r_out s).
  { rewrite byte_round_eq.
    assert (E0 : byte_step ae s LWake = None) by (cbn; now rewrite Hp). rewrite E0.
    assert (X : exists s1, byte_step ae s (LReadable (clamp byte_handler s n)) = Some s1 /\ r_phase s1 = PWoken /\ r_out s1 = r_out s).
    { cbn. unfold readable. rewrite (b_open s I), He. cbn.
      assert (Hr : negb (r_wopen s) || match r_pend s with [] => false | _ => true end = true).
      { destruct Hd as [->|X]; [reflexivity|]. destruct (r_pend s); [congruence|apply orb_true_r]. }
      rewrite Hr. unfold byte_wants, byte_event, byte_wants. rewrite Hb.
      assert (Hrd : read_ok byte_handler s (clamp byte_handler s n) = true).
      { unfold read_ok, clamp. destruct (r_pend s) as [|c p].
        - rewrite orb_false_r in Hr. rewrite Hr. reflexivity.
        - cbn [List.length]. rewrite !andb_true_iff, !Nat.leb_le. lia. }
      rewrite Hrd. eexists. split; [reflexivity|]. cbn. rewrite Hf. auto. }
    destruct X as [s1 [X1 [X2 X3]]]. rewrite X1. exists s1. split; [reflexivity|]. split; [|auto].
    eapply BInv_step; eauto. }
  destruct R as [s1 [-> [I1 [P1 O1]]]].
  rewrite byte_round_eq.
  assert (Hb1 := b_woken s1 I1 P1). destruct (bi_buf (r_h s1)) as [b|] eqn:Eb; [|congruence].
  assert (E1 : byte_step ae s1 LWake = Some (after byte_handler ae s1 (byte_take (r_h s1)))) by (cbn; now rewrite P1).
  rewrite E1.
  assert (I2 : BInv (after byte_handler ae s1 (byte_take (r_h s1)))) by (apply BInv_take; auto; congruence).
  set (s2 := after byte_handler ae s1 (byte_take (r_h s1))) in *.
  assert (P2 : r_phase s2 = PIdle /\ r_out s2 = r_out s1 ++ [GItem b]).
  { unfold s2, byte_take. rewrite Eb. cbn. auto. }
  destruct P2 as [P2 O2].
  assert (K : forall k s3, byte_step ae s2 (LReadable k) = Some s3 -> r_phase s3 = PIdle /\ r_out s3 = r_out s2).
  { intros k s3. unfold byte_step, rstep. destruct (readable byte_handler bi_open s2); [|discriminate].
    pose proof (b_nowait s2 I2 ltac:(congruence)) as Hf2.
    destruct (byte_wants (r_h s2)) eqn:Ew.
    - destruct (read_ok byte_handler s2 k); [|discriminate]. unfold byte_event. rewrite Ew. cbn -[s2]. rewrite Hf2. intros X. injection X as <-. auto.
    - unfold byte_event. rewrite Ew. cbn -[s2]. rewrite Hf2. intros X. injection X as <-. auto. }
  unfold bserved. destruct (byte_step ae s2 _) as [s3|] eqn:E3.
  - destruct (K _ _ E3) as [-> ->]. split; [reflexivity|]. exists b. congruence.
  - split; [exact P2|]. exists b. congruence.
Qed.

Lemma is_lines_one d : exists ls, is_lines d ls /\ forall ls', is_lines d ls' -> ls' = ls.
Proof. destruct (is_lines_exists d) as [ls H]. exists ls. split; [exact H|]. intros ls' H'. eapply is_lines_unique; eauto. Qed.

(** C20, reader side *)
Lemma line_step_got s l s' g : line_step true s l = Some s' -> In g (r_out s') -> In g (r_out s) \/
  (exists b, g = GItem b) \/ (g = GStop /\ l = LAtEof true) \/ (g = GFailed /\ l = LAtEof false).
Proof.
  assert (A : forall s1 ho, In g (r_out (after line_handler true s1 ho)) -> In g (r_out s1) \/ exists b, g = GItem b).
  { intros s1 [h [| |b]]; cbn; auto. intros H. apply in_app_or in H. destruct H as [H|[H|[]]]; eauto. }
  destruct l as [d| |n| | |ok]; cbn.
  - destruct (r_wopen s); [|discriminate]. intros X. injection X as <-. auto.
  - destruct (r_wopen s); [|discriminate]. intros X. injection X as <-. auto.
  - destruct (readable _ _ s); [|discriminate]. destruct (line_wants (r_h s)).
    + destruct (read_ok _ s n); [|discriminate]. destruct (line_event _ _). intros X. injection X as <-. auto.
    + destruct (line_event _ _). intros X. injection X as <-. auto.
  - destruct (r_phase s); try discriminate. intros X. injection X as <-. intros H. destruct (A _ _ H); auto.
  - destruct (r_phase s); try discriminate. intros X. injection X as <-. intros H. destruct (A _ _ H); auto.
  - destruct (r_phase s); try discriminate. intros X. injection X as <-. cbn. intros H. apply in_app_or in H.
    destruct H as [H|[H|[]]]; auto. destruct ok; subst; auto.
Qed.
Lemma line_steps_got g : forall ls s s', line_steps true s ls = Some s' -> In g (r_out s') -> In g (r_out s) \/
  (exists b, g = GItem b) \/ (g = GStop /\ In (LAtEof true) ls) \/ (g = GFailed /\ In (LAtEof false) ls).
Proof.
  induction ls as [|l ls IH]; intros s s' H Hg; cbn in H.
  - injection H as <-. auto.
  - fold (line_step true s l) in H. destruct (line_step true s l) as [s1|] eqn:E; [|discriminate].
    destruct (IH _ _ H Hg) as [X|[X|[[X Y]|[X Y]]]]; cbn; auto.
    destruct (line_step_got _ _ _ _ E X) as [Z|[Z|[[Z W]|[Z W]]]]; subst; auto 7.
    + right. right. left. auto.
    + right. right. right. auto.
Qed.
Theorem end_after_wait ls s lines : line_steps true line_start ls = Some s -> is_lines (r_sent s) lines ->
  (In GStop (r_out s) -> In (LAtEof true) ls /\ items_of (r_out s) = lines) /\
  (In GFailed (r_out s) -> In (LAtEof false) ls /\ items_of (r_out s) = lines).
Proof.
  intros H HL. destruct (lines_delivered true ls s lines H HL) as [_ He].
  split; intros X; (split; [|apply He; red; auto]).
  - destruct (line_steps_got _ _ _ _ H X) as [[]|[[b Y]|[[_ Y]|[Y _]]]]; [discriminate|exact Y|discriminate].
  - destruct (line_steps_got _ _ _ _ H X) as [[]|[[b Y]|[[Y _]|[_ Y]]]]; [discriminate|discriminate|exact Y].
Qed.
