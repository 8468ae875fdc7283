From Verif Require Import Py PathModel PathSpec PathProofs EnvModel EnvSpec EnvProofs ExpandModel ExpandSpec.
From Coq Require FinFun.

Lemma mem_In c s : mem c s = true <-> In c s.
Proof.
  unfold mem. rewrite existsb_exists. split; [intros (x & I & E); apply N.eqb_eq in E; now subst|].
  intros I. exists c. split; [exact I|apply N.eqb_refl].
Qed.
Lemma mem_false c s : mem c s = false <-> ~ In c s.
Proof. rewrite <- mem_In. destruct (mem c s); split; intros; congruence || tauto. Qed.

(** * percent formatting *)
Lemma pformat_plain sc cur have pre : no_percent pre -> forall f s,
  pformat (List.length pre + f) sc cur have (pre ++ s) = let* r := pformat f sc cur have s in Ok (pre ++ r).
Proof.
  induction pre as [|c pre IH]; intros N f s.
  - cbn [List.length plus app]. destruct (pformat f sc cur have s); reflexivity.
  - cbn [List.length plus app pformat]. destruct (N.eqb_spec c c_percent) as [->|Hc]; [exfalso; apply N; now left|].
    cbn [negb]. rewrite IH by (intros X; apply N; now right). destruct (pformat f sc cur have s); reflexivity.
Qed.
Lemma pformat_nil f sc cur have : pformat f sc cur have [] = Ok [].
Proof. destruct f; reflexivity. Qed.
Lemma percent_plain sc s : no_percent s -> percent sc s = Ok s.
Proof.
  intros N. unfold percent. pose proof (pformat_plain sc (sc_whole sc) true s N 0 []) as H.
  rewrite app_nil_r, Nat.add_0_r in H. rewrite H, pformat_nil. cbn. now rewrite app_nil_r.
Qed.
Lemma spec_percent rest : take_spec (c_percent :: rest) = ([], c_percent :: rest).
Proof. reflexivity. Qed.
Lemma pformat_escape sc cur have s : forall f, List.length (escape s) <= f -> pformat f sc cur have (escape s) = Ok s.
Proof.
  induction s as [|c s IH]; intros f L; [apply pformat_nil|].
  unfold escape in *. cbn [flat_map] in L |- *. fold (escape s) in *.
  destruct (N.eqb_spec c c_percent) as [->|Hc]; cbn [app List.length] in L |- *.
  - destruct f as [|f]; [lia|]. cbn [pformat]. change (N.eqb c_percent c_percent) with true. cbn [negb].
    change (N.eqb c_percent c_lpar) with false. cbn [bind_res]. rewrite spec_percent. cbn [mem existsb].
    change (N.eqb c_percent c_percent) with true. cbn match. rewrite IH by lia. reflexivity.
  - destruct f as [|f]; [lia|]. cbn [pformat]. rewrite (proj2 (N.eqb_neq _ _) Hc). cbn [negb]. rewrite IH by lia. reflexivity.
Qed.
Lemma percent_escape sc s : percent sc (escape s) = Ok s.
Proof. apply pformat_escape. reflexivity. Qed.

Lemma take_key_simple k rest : ~ In c_lpar k -> ~ In c_rpar k -> take_key 0 (k ++ c_rpar :: rest) = Some (k, rest).
Proof.
  induction k as [|c k IH]; intros A B; cbn [app take_key].
  - now rewrite N.eqb_refl.
  - rewrite (proj2 (N.eqb_neq c c_rpar)) by (intros ->; apply B; now left).
    rewrite (proj2 (N.eqb_neq c c_lpar)) by (intros ->; apply A; now left).
    rewrite IH; [reflexivity|intros X; apply A; now right|intros X; apply B; now right].
Qed.
Definition insertion (k : text) : text := [c_percent; c_lpar] ++ k ++ [c_rpar; c_s].
Lemma spec_s rest : take_spec (c_s :: rest) = ([], c_s :: rest).
Proof. reflexivity. Qed.
Lemma percent_key sc pre k post v : no_percent pre -> no_percent post -> ~ In c_lpar k -> ~ In c_rpar k -> sc_get sc k = Ok v ->
  percent sc (pre ++ insertion k ++ post) = Ok (pre ++ v ++ post).
Proof.
  intros A B K1 K2 G. unfold percent. set (L := List.length _).
  assert (E : exists f, L = List.length pre + S f /\ List.length post <= f).
  { exists (L - List.length pre - 1). unfold L, insertion. rewrite !app_length. cbn. lia. }
  destruct E as (f & -> & Lf). rewrite (pformat_plain _ _ _ _ A).
  unfold insertion. rewrite <- !app_assoc. cbn [app pformat]. change (N.eqb c_percent c_percent) with true. cbn [negb].
  change (N.eqb c_lpar c_lpar) with true. cbn match. rewrite (take_key_simple k _ K1 K2), G. cbn [bind_res].
  rewrite spec_s. cbn [mem existsb]. change (N.eqb c_s c_percent) with false. change (N.eqb c_s c_s) with true. cbn [negb andb].
  cbn [bind_res]. replace f with (List.length post + (f - List.length post)) by lia.
  pose proof (pformat_plain sc v false post B (f - List.length post) []) as H. rewrite app_nil_r in H. rewrite H, pformat_nil.
  cbn. now rewrite app_nil_r.
Qed.
Lemma percent_missing sc pre k rest x : no_percent pre -> ~ In c_lpar k -> ~ In c_rpar k -> sc_get sc k = Err x ->
  percent sc (pre ++ insertion k ++ rest) = Err x.
Proof.
  intros A K1 K2 G. unfold percent. set (L := List.length _).
  assert (E : exists f, L = List.length pre + S f).
  { exists (L - List.length pre - 1). unfold L, insertion. rewrite !app_length. cbn. lia. }
  destruct E as (f & ->). rewrite (pformat_plain _ _ _ _ A).
  unfold insertion. rewrite <- !app_assoc. cbn [app pformat]. change (N.eqb c_percent c_percent) with true. cbn [negb].
  change (N.eqb c_lpar c_lpar) with true. cbn match. rewrite (take_key_simple k _ K1 K2), G. reflexivity.
Qed.
Lemma percent_trailing sc pre : no_percent pre -> percent sc (pre ++ [c_percent]) = Err ValueError.
Proof.
  intros A. unfold percent. rewrite app_length. cbn [List.length plus]. rewrite Nat.add_comm. rewrite Nat.add_comm.
  rewrite (pformat_plain _ _ _ _ A). reflexivity.
Qed.
(** A conversion letter python does not know, as in date("+%Y"). *)
Lemma percent_unknown sc pre c rest : no_percent pre -> is_flag c = false -> is_digit c = false -> is_lenmod c = false ->
  conv_known c = false -> c <> c_percent -> c <> c_lpar -> c <> c_star -> c <> c_dot ->
  percent sc (pre ++ c_percent :: c :: rest) = Err ValueError.
Proof.
  intros A F D L K H1 H2 H3 H4. unfold percent. rewrite app_length. cbn [List.length].
  rewrite (pformat_plain _ _ _ _ A). cbn [pformat]. change (N.eqb c_percent c_percent) with true. cbn [negb].
  rewrite (proj2 (N.eqb_neq _ _) H2). cbn [bind_res].
  assert (E : take_spec (c :: rest) = ([], c :: rest)).
  { unfold take_spec. cbn [span]. rewrite F. unfold take_width. rewrite (proj2 (N.eqb_neq _ _) H3). cbn [span]. rewrite D.
    rewrite (proj2 (N.eqb_neq _ _) H4). rewrite L. reflexivity. }
  rewrite E. cbn [mem existsb]. rewrite (proj2 (N.eqb_neq _ _) H1). cbn [negb].
  assert (S : c <> c_s) by (intros ->; discriminate K). rewrite (proj2 (N.eqb_neq _ _) S). cbn [andb]. rewrite K. reflexivity.
Qed.

(** * expansion of ordinary strings *)
Lemma no_tilde_starts s : no_tilde s -> startswith s [c_tilde] = false.
Proof.
  destruct s as [|c s]; [reflexivity|]. intros H. rewrite startswith_cons.
  rewrite (proj2 (N.eqb_neq c_tilde c)) by (intros E; apply H; now rewrite E). reflexivity.
Qed.
Lemma glob_step_plain w cwd s : no_glob s -> glob_step w cwd s = [s].
Proof. intros (A & B & C). unfold glob_step. now rewrite (proj2 (mem_false _ _) A), (proj2 (mem_false _ _) B), (proj2 (mem_false _ _) C). Qed.
Lemma expand_value w cwd sc s v : percent sc s = Ok v -> no_tilde v -> no_glob v -> expand_str w cwd sc s = Ok [v].
Proof.
  intros P T G. unfold expand_str. rewrite P. cbn [bind_res]. rewrite expanduser_plain by now apply no_tilde_starts.
  now rewrite glob_step_plain.
Qed.
Lemma glob_step_nonempty w cwd s : glob_step w cwd s <> [].
Proof.
  unfold glob_step. destruct (negb _ && _ && _); [discriminate|].
  destruct (m_glob _ _) as [|a l]; [discriminate|]. destruct (text_eqb cwd [c_slash]); discriminate.
Qed.
Lemma expand_nonempty w cwd sc s ws : expand_str w cwd sc s = Ok ws -> ws <> [].
Proof.
  unfold expand_str. destruct (percent sc s) as [a|]; cbn; [|discriminate]. intros H.
  apply Ok_inj in H || injection H as H. subst. apply glob_step_nonempty.
Qed.

(** * classes *)
Lemma upto_spec s a b : upto_rbr s = Some (a, b) <-> s = a ++ c_rbr :: b /\ ~ In c_rbr a.
Proof.
  revert a b; induction s as [|c s IH]; intros a b; cbn.
  - split; [discriminate|]. intros [E _]. destruct a; discriminate.
  - destruct (N.eqb_spec c c_rbr) as [->|Hc].
    + split.
      * intros H. apply Some_inj in H || injection H as H. inversion H; subst. cbn. tauto.
      * intros [E N]. destruct a as [|x a]; cbn in E; [injection E as ->; reflexivity|].
        injection E as <- _. exfalso. apply N. now left.
    + destruct (upto_rbr s) as [[a' b']|] eqn:E; cbn.
      * destruct (proj1 (IH a' b') eq_refl) as [-> N]. split.
        -- intros H. inversion H; subst. split; [reflexivity|]. intros [X|X]; [now apply Hc|tauto].
        -- intros [X Y]. destruct a as [|x a]; cbn in X; [injection X as X _; congruence|]. injection X as <- X.
           assert (Z : Some (a', b') = Some (a, b)).
           { apply (proj2 (IH a b)). split; [exact X|]. intros Q. apply Y. now right. }
           inversion Z; subst. reflexivity.
      * split; [discriminate|]. intros [X Y]. destruct a as [|x a]; cbn in X; [injection X as X _; congruence|]. injection X as <- X.
        assert (Z : @None (text * text) = Some (a, b)).
        { apply (proj2 (IH a b)). split; [exact X|]. intros Q. apply Y. now right. }
        discriminate.
Qed.
Lemma take_class_spec p neg body rest : take_class p = Some (neg, body, rest) <-> Class p neg body rest.
Proof.
  assert (Core : forall neg s1 body rest,
     match s1 with
     | c :: s2 => if N.eqb c c_rbr then option_map (fun '(a, b) => (neg, c :: a, b)) (upto_rbr s2)
                  else option_map (fun '(a, b) => (neg, a, b)) (upto_rbr s1)
     | [] => @None (bool * text * text) end = Some (neg, body, rest) <->
     s1 = body ++ c_rbr :: rest /\ exists a b, body = a :: b /\ ~ In c_rbr b).
  { clear. intros neg s1 body rest. destruct s1 as [|c s2].
    - split; [discriminate|]. intros [E _]. destruct body; discriminate.
    - destruct (N.eqb_spec c c_rbr) as [->|Hc].
      + destruct (upto_rbr s2) as [[a b]|] eqn:U; cbn.
        * apply upto_spec in U as [-> N]. split.
          -- intros H. inversion H; subst. split; [reflexivity|eauto].
          -- intros [E (a' & b' & -> & N')]. cbn in E. injection E as <- E.
             assert (X : upto_rbr (a ++ c_rbr :: b) = Some (b', rest)) by (apply upto_spec; auto).
             assert (Y : upto_rbr (a ++ c_rbr :: b) = Some (a, b)) by (apply upto_spec; auto).
             rewrite X in Y. inversion Y; subst. reflexivity.
        * split; [discriminate|]. intros [E (a' & b' & -> & N')]. cbn in E. injection E as <- E.
          assert (X : upto_rbr s2 = Some (b', rest)) by (apply upto_spec; auto). congruence.
      + destruct (upto_rbr (c :: s2)) as [[a b]|] eqn:U; cbn [option_map].
        * apply upto_spec in U as [E0 N]. split.
          -- intros H. inversion H; subst. split; [exact E0|].
             destruct body as [|x l]; [cbn in E0; injection E0 as E0 _; congruence|]. exists x, l. split; [reflexivity|].
             intros X. apply N. now right.
          -- intros [E (a' & b' & -> & N')].
             assert (X : upto_rbr (c :: s2) = Some (a' :: b', rest)).
             { apply upto_spec. split; [exact E|]. intros [Y|Y]; [cbn in E; injection E as -> _; congruence|tauto]. }
             assert (Y : upto_rbr (c :: s2) = Some (a, b)) by (apply upto_spec; auto).
             rewrite X in Y. inversion Y; subst. reflexivity.
        * split; [discriminate|]. intros [E (a' & b' & -> & N')].
          assert (X : upto_rbr (c :: s2) = Some (a' :: b', rest)).
          { apply upto_spec. split; [exact E|]. intros [Y|Y]; [cbn in E; injection E as -> _; congruence|tauto]. }
          congruence. }
  unfold take_class, Class. destruct p as [|c p].
  - split; [discriminate|]. intros [E (a & b & -> & _)]. destruct neg; discriminate.
  - destruct (N.eqb_spec c c_bang) as [->|Hc].
    + split.
      * intros H. assert (neg = true) as ->.
        { destruct p as [|d p']; [discriminate|]. destruct (N.eqb d c_rbr);
          [destruct (upto_rbr p') as [[? ?]|]|destruct (upto_rbr (d :: p')) as [[? ?]|]]; cbn in H; inversion H; reflexivity. }
        apply Core in H as [-> (a & b & -> & N)]. split; [reflexivity|]. exists a, b. split; [reflexivity|]. split; [exact N|discriminate].
      * intros [E (a & b & -> & N & F)]. destruct neg; cbn in E.
        -- injection E as E. apply Core. split; [exact E|eauto].
        -- injection E as <- _. exfalso. now apply F.
    + split.
      * intros H. assert (neg = false) as ->.
        { destruct (N.eqb c c_rbr); [destruct (upto_rbr p) as [[? ?]|]|destruct (upto_rbr (c :: p)) as [[? ?]|]]; cbn in H; inversion H; reflexivity. }
        apply (Core false (c :: p)) in H as [E (a & b & -> & N)]. split; [exact E|]. exists a, b. split; [reflexivity|]. split; [exact N|].
        intros _ ->. cbn in E. injection E as E _. congruence.
      * intros [E (a & b & -> & N & F)]. destruct neg; cbn in E.
        -- injection E as E _. congruence.
        -- apply (Core false (c :: p)). split; [exact E|eauto].
Qed.
Lemma take_class_shorter p neg body rest : take_class p = Some (neg, body, rest) -> List.length rest < List.length p.
Proof. intros H. apply take_class_spec in H as [-> _]. rewrite !app_length. cbn. lia. Qed.
Lemma in_class_spec body x : in_class body x = true <-> member body x.
Proof.
  unfold member. remember (List.length body) as n eqn:E. assert (L : List.length body <= n) by lia. clear E. revert body L.
  induction n as [|n IH]; intros body L.
  - destruct body; [|cbn in L; lia]. cbn. split; [discriminate|]. intros (a & z & [] & _).
  - destruct body as [|a b1]; [cbn; split; [discriminate|]; intros (a & z & [] & _)|]. cbn in L.
    assert (One : forall r, List.length r <= n -> (N.eqb a x || in_class r x = true <-> exists a0 z, In (a0, z) ((a, a) :: ranges r) /\ (a0 <= x /\ x <= z)%N)).
    { intros r Lr. rewrite orb_true_iff, (IH r Lr), N.eqb_eq. split.
      - intros [->|(u & v & I & B)]; [exists x, x; split; [now left|lia]|exists u, v; split; [now right|exact B]].
      - intros (u & v & [I|I] & B); [inversion I; subst; left; lia|right; eauto]. }
    destruct b1 as [|d [|z r]]; [apply One; cbn; lia|apply One; cbn in L |- *; lia|].
    change (in_class (a :: d :: z :: r) x) with (if N.eqb d c_dash then ((a <=? x) && (x <=? z))%N || in_class r x else N.eqb a x || in_class (d :: z :: r) x).
    change (ranges (a :: d :: z :: r)) with (if N.eqb d c_dash then (a, z) :: ranges r else (a, a) :: ranges (d :: z :: r)).
    destruct (N.eqb d c_dash).
    + cbn in L. rewrite orb_true_iff, andb_true_iff, (IH r), N.leb_le, N.leb_le by lia. split.
      * intros [B|(u & v & I & B)]; [exists a, z; split; [now left|exact B]|exists u, v; split; [now right|exact B]].
      * intros (u & v & [I|I] & B); [inversion I; subst; left; exact B|right; eauto].
    + apply One. cbn in L |- *. lia.
Qed.

(** * fnmatch *)
Lemma fnmatch_spec f : forall p n, List.length p + List.length n < f -> (fnmatch f p n = true <-> Match p n).
Proof.
  induction f as [|f IH]; intros p n L; [lia|]. cbn [fnmatch]. destruct p as [|c p].
  - destruct n; split; intros H; try constructor; try discriminate. inversion H.
  - cbn [List.length] in L. destruct (N.eqb_spec c c_star) as [->|Hs].
    + rewrite orb_true_iff, (IH p n) by lia. split.
      * intros [H|H]; [apply (M_star p [] n H)|]. destruct n as [|x n]; [discriminate|]. cbn in L.
        apply (IH (c_star :: p) n) in H; [|cbn; lia]. inversion H as [|p0 a b M E1 E2| | | |c0 p0 n0 X _ _ M E1 E2]; subst; [|congruence].
        apply (M_star p (x :: a) b M).
      * intros H. inversion H as [|p0 a b M E1 E2| | | |c0 p0 n0 X _ _ M E1 E2]; subst; [|congruence].
        destruct a as [|x a]; [now left|]. right. cbn [app]. apply IH; [cbn in L |- *; lia|]. now apply M_star.
    + destruct n as [|x n].
      { split; [discriminate|]. intros H. inversion H as [|p0 a b M E1 E2| | | |]; subst. congruence. }
      cbn [List.length] in L. destruct (N.eqb_spec c c_quest) as [->|Hq].
      { rewrite (IH p n) by lia. split; [apply M_quest|]. intros H. inversion H; subst; [assumption|congruence]. }
      destruct (N.eqb_spec c c_lbr) as [->|Hb].
      { destruct (take_class p) as [[[neg body] rest]|] eqn:T.
        - pose proof (take_class_shorter _ _ _ _ T) as Sh. pose proof (proj1 (take_class_spec _ _ _ _) T) as TC.
          rewrite andb_true_iff, (IH rest n) by lia.
          assert (X : xorb neg (in_class body x) = true <-> (member body x <-> neg = false)).
          { rewrite <- in_class_spec. destruct neg, (in_class body x); cbn; split; intros Q; try tauto; try discriminate; try (split; intros; congruence); exfalso; (assert (true = false \/ false = true) by tauto || idtac); destruct Q as [Q1 Q2]; try (specialize (Q1 eq_refl); discriminate); try (specialize (Q2 eq_refl); discriminate). }
          rewrite X. split.
          + intros [A B]. now apply (M_class p neg body rest).
          + intros H. inversion H as [| | |p0 neg' body' rest' x0 n0 C A B E1 E2|p0 n0 C A E1 E2|]; subst; [| |congruence].
            * apply take_class_spec in C. rewrite T in C. inversion C; subst. auto.
            * exfalso. now apply (C neg body rest).
        - rewrite andb_true_iff, (IH p n), N.eqb_eq by lia. split.
          + intros [-> B]. apply M_bracket; [|exact B]. intros neg body rest C. apply take_class_spec in C. congruence.
          + intros H. inversion H as [| | |p0 neg' body' rest' x0 n0 C A B E1 E2|p0 n0 C A E1 E2|]; subst; [| |congruence].
            * apply take_class_spec in C. congruence.
            * auto. }
      rewrite andb_true_iff, (IH p n), N.eqb_eq by lia. split.
      * intros [-> B]. now apply M_char.
      * intros H. inversion H; subst; try congruence. auto.
Qed.
Lemma fnm_spec p n : fnm p n = true <-> Match p n.
Proof. apply fnmatch_spec. lia. Qed.
Lemma has_magic_false p : has_magic p = false <-> no_glob p.
Proof. unfold has_magic, no_glob. rewrite !orb_false_iff, !mem_false. tauto. Qed.
Lemma match_plain p : no_glob p -> forall n, Match p n <-> n = p.
Proof.
  induction p as [|c p IH]; intros (A & B & C) n.
  - split; [intros H; now inversion H|intros ->; constructor].
  - assert (c <> c_star) by (intros ->; apply A; now left).
    assert (c <> c_quest) by (intros ->; apply B; now left).
    assert (c <> c_lbr) by (intros ->; apply C; now left).
    assert (G : no_glob p) by (repeat split; intros X; [apply A|apply B|apply C]; now right).
    split.
    + intros H2. inversion H2; subst; try congruence. f_equal. now apply IH.
    + intros ->. apply M_char; auto. now apply IH.
Qed.
Lemma matches_plain p n : no_glob p -> (matches p n <-> n = p).
Proof. intros G. unfold matches. rewrite (match_plain p G). split; [tauto|]. intros ->. tauto. Qed.

(** * glob over a tree *)
Lemma node_at_app t a b : node_at t (a ++ b) = match node_at t a with Some x => node_at x b | None => None end.
Proof.
  revert t; induction a as [|n a IH]; intros t; cbn; [reflexivity|].
  destruct t as [|es]; [reflexivity|]. destruct (entry es n) as [x|]; [apply IH|reflexivity].
Qed.
Lemma entry_In es n x : entry es n = Some x -> In (n, x) es.
Proof.
  induction es as [|[m y] es IH]; cbn; [discriminate|]. destruct (text_eqb_spec n m) as [->|]; [intros H; left; congruence|auto].
Qed.
Lemma In_entry es n x : In (n, x) es -> entry es n <> None.
Proof.
  induction es as [|[m y] es IH]; cbn; [tauto|]. intros [H|H]; [inversion H; subst; rewrite text_eqb_refl; discriminate|].
  destruct (text_eqb n m); [discriminate|auto].
Qed.
Lemma Forall2_snoc {A B} (R : A -> B -> Prop) l m a b : Forall2 R (l ++ [a]) (m ++ [b]) <-> Forall2 R l m /\ R a b.
Proof.
  split.
  - intros H. apply Forall2_app_inv_l in H as (l1 & l2 & H1 & H2 & E). inversion H2 as [|? y ? l' Hy Hl]; subst. inversion Hl; subst.
    apply app_inj_tail in E as [-> ->]. auto.
  - intros [H1 H2]. apply Forall2_app; auto.
Qed.
Lemma matches_all_plain cs : existsb has_magic cs = false -> forall q, Forall2 matches cs q <-> q = cs.
Proof.
  induction cs as [|c cs IH]; intros E q; cbn in E.
  - split; [intros H; now inversion H|intros ->; constructor].
  - apply orb_false_iff in E as [Ec Es]. apply has_magic_false in Ec. split.
    + intros H. inversion H as [|? y ? l Hy Hl]; subst. apply (matches_plain c y Ec) in Hy. apply (IH Es) in Hl. congruence.
    + intros ->. constructor; [now apply matches_plain|now apply IH].
Qed.
Lemma existsb_rev {A} (f : A -> bool) l : existsb f (rev l) = existsb f l.
Proof.
  induction l as [|a l IH]; [reflexivity|]. cbn. rewrite existsb_app, IH. cbn. rewrite orb_false_r. apply orb_comm.
Qed.
Lemma iglob_sound t rc : forall dironly q, In q (iglob t rc dironly) -> Forall2 matches (rev rc) q /\ node_at t q <> None.
Proof.
  induction rc as [|base rdir IH]; intros dironly q H.
  - cbn in H. destruct H as [<-|[]]. cbn. split; [constructor|discriminate].
  - cbn [iglob] in H. destruct (existsb has_magic (base :: rdir)) eqn:M; cbn [negb] in H.
    + apply in_flat_map in H as (d & Hd & Hq). apply in_map_iff in Hq as (n & <- & Hn). cbn [rev].
      assert (D : Forall2 matches (rev rdir) d).
      { destruct (existsb has_magic rdir) eqn:Md; [now apply (IH true)|]. destruct Hd as [<-|[]].
        apply matches_all_plain; [now rewrite existsb_rev|reflexivity]. }
      rewrite Forall2_snoc. destruct (has_magic base) eqn:Mb.
      * unfold glob1 in Hn. apply in_map_iff in Hn as ([n' x] & E & Hf). cbn in E. subst n'. apply filter_In in Hf as [Hi Hc].
        apply andb_true_iff in Hc as [Hc Hm]. apply andb_true_iff in Hc as [Hh _]. apply fnm_spec in Hm.
        split; [split; [exact D|split; [exact Hm|]]|].
        -- intros Hid. rewrite Hid in Hh. cbn in Hh. now rewrite orb_false_r in Hh.
        -- rewrite node_at_app. unfold listdir in Hi. destruct (node_at t d) as [[|es]|]; try (destruct Hi; fail).
           cbn. apply In_entry in Hi. destruct (entry es n); [discriminate|congruence].
      * unfold glob0 in Hn. destruct (node_at t (d ++ [base])) eqn:Nb; [|destruct Hn]. destruct Hn as [<-|[]].
        split; [split; [exact D|]|congruence]. apply matches_plain; [now apply has_magic_false|reflexivity].
    + destruct (node_at t (rev (base :: rdir))) eqn:Nb; [|destruct H]. destruct H as [<-|[]].
      split; [|congruence]. apply matches_all_plain; [now rewrite existsb_rev|reflexivity].
Qed.
Lemma iglob_complete t rc : forall dironly q x, Forall2 matches (rev rc) q -> node_at t q = Some x ->
  (dironly = true -> is_ndir x = true) -> In q (iglob t rc dironly).
Proof.
  induction rc as [|base rdir IH]; intros dironly q x F N D.
  - cbn in F. inversion F. now left.
  - cbn [iglob]. destruct (existsb has_magic (base :: rdir)) eqn:M; cbn [negb].
    + cbn [rev] in F. assert (Q : exists d n, q = d ++ [n]).
      { destruct q as [|a q'] using rev_ind; [inversion F as [|]; destruct (rev rdir); discriminate|eauto]. }
      destruct Q as (d & n & ->). apply Forall2_snoc in F as [Fd [Fm Fh]].
      rewrite node_at_app in N. destruct (node_at t d) as [[|es]|] eqn:Nd; try discriminate. cbn in N.
      destruct (entry es n) as [y|] eqn:En; [|discriminate]. injection N as ->.
      apply in_flat_map. exists d. split.
      * destruct (existsb has_magic rdir) eqn:Md; [apply (IH true d (NDir es) Fd Nd); reflexivity|].
        left. symmetry. apply matches_all_plain in Fd; [exact Fd|now rewrite existsb_rev].
      * apply in_map_iff. exists n. split; [reflexivity|]. destruct (has_magic base) eqn:Mb.
        -- unfold glob1, listdir. rewrite Nd. apply in_map_iff. exists (n, x). split; [reflexivity|].
           apply filter_In. split; [now apply entry_In|].
           apply andb_true_iff. split; [apply andb_true_iff; split|now apply fnm_spec].
           ++ destruct (hidden n); [now rewrite Fh|now rewrite orb_true_r].
           ++ destruct dironly; [now rewrite D|reflexivity].
        -- apply has_magic_false in Mb. apply (match_plain base Mb) in Fm. subst n.
           unfold glob0. rewrite node_at_app, Nd. cbn. rewrite En. now left.
    + apply matches_all_plain in F; [|now rewrite existsb_rev]. subst q. rewrite N. now left.
Qed.
Lemma NoDup_flat {A B} (f : A -> list B) l : NoDup l -> (forall a, In a l -> NoDup (f a)) ->
  (forall a b x, In x (f a) -> In x (f b) -> a = b) -> NoDup (flat_map f l).
Proof.
  induction 1 as [|a l Ha Hl IH]; cbn; intros H1 H2; [constructor|].
  assert (R : NoDup (flat_map f l)) by (apply IH; auto).
  assert (Na : NoDup (f a)) by (apply H1; now left). revert Na.
  assert (X : forall x, In x (f a) -> ~ In x (flat_map f l)).
  { intros x Hx Hy. apply in_flat_map in Hy as (b & Hb & Hxb). apply Ha. now rewrite (H2 a b x). }
  clear -R X. induction (f a) as [|y m IH]; cbn; intros N; [exact R|]. inversion N; subst. constructor.
  - rewrite in_app_iff. intros [I|I]; [tauto|]. apply (X y); [now left|exact I].
  - apply IH; auto. intros x Hx. apply X. now right.
Qed.
Lemma filter_map_nodup {A B} (f : A -> B) g l : NoDup (map f l) -> NoDup (map f (filter g l)).
Proof.
  induction l as [|a l IH]; cbn; intros N; [constructor|]. inversion N; subst. destruct (g a); cbn; [|auto].
  constructor; [|auto]. intros I. apply H1. apply in_map_iff in I as (b & <- & Hb). apply filter_In in Hb as [Hb _]. now apply in_map.
Qed.
Lemma tree_entry es n x : tree_ok (NDir es) -> entry es n = Some x -> tree_ok x /\ name_ok n.
Proof.
  intros H E. inversion H as [|es' A B C]; subst. apply entry_In in E. split.
  - rewrite Forall_forall in C. apply C. apply in_map_iff. now exists (n, x).
  - rewrite Forall_forall in A. apply A. apply in_map_iff. now exists (n, x).
Qed.
Lemma node_at_ok t : forall q x, tree_ok t -> node_at t q = Some x -> tree_ok x /\ Forall name_ok q.
Proof.
  intros q; revert t; induction q as [|n q IH]; intros t x T H; cbn in H.
  - injection H as <-. auto.
  - destruct t as [|es]; [discriminate|]. destruct (entry es n) as [y|] eqn:E; [|discriminate].
    destruct (tree_entry es n y T E) as [Ty Nn]. destruct (IH y x Ty H) as [Tx Nq]. auto.
Qed.
Lemma iglob_nodup t rc dironly : tree_ok t -> NoDup (iglob t rc dironly).
Proof.
  intros T. revert dironly. induction rc as [|base rdir IH]; intros dironly; cbn [iglob]; [repeat constructor; tauto|].
  destruct (negb _).
  - destruct (node_at t _); repeat constructor; tauto.
  - apply NoDup_flat.
    + destruct (existsb has_magic rdir); [apply IH|repeat constructor; tauto].
    + intros d _. apply FinFun.Injective_map_NoDup; [intros a b E; apply app_inj_tail in E as [_ E]; exact E|].
      destruct (has_magic base).
      * unfold glob1. apply filter_map_nodup. unfold listdir. destruct (node_at t d) as [[|es]|] eqn:N; [constructor| |constructor].
        destruct (node_at_ok t d _ T N) as [Te _]. now inversion Te.
      * unfold glob0. destruct (node_at t _); repeat constructor; tauto.
    + intros a b x Ha Hb. apply in_map_iff in Ha as (n & <- & _). apply in_map_iff in Hb as (m & E & _).
      apply app_inj_tail in E as [E _]. auto.
Qed.
Lemma nonempty_render d : dir_ok d -> nonempty_pieces (render d) = d_names d.
Proof.
  intros H. destruct (split_render d H) as (pre & Hp & E). unfold nonempty_pieces. rewrite E, filter_app.
  assert (X : filter (fun s => negb (text_eqb s [])) pre = []) by (destruct Hp as [-> | [-> | [-> | ->]]]; reflexivity).
  rewrite X. cbn. clear -H. unfold dir_ok in H. induction H as [|n ns Hn _ IH]; [reflexivity|]. cbn.
  rewrite text_eqb_neq by apply Hn. cbn. now rewrite IH.
Qed.
Lemma glob_tree_spec t d0 : dir_ok d0 -> glob_tree t (render d0) = map (fun names => render (mkDir (d_two d0) names)) (iglob t (rev (d_names d0)) false).
Proof.
  intros H. unfold glob_tree. rewrite nonempty_render by exact H. apply map_ext. intros names.
  pose proof (initial_render d0 [] H) as I. rewrite app_nil_r in I. rewrite I by reflexivity.
  unfold render. cbn [d_two d_names]. destruct (d_two d0); reflexivity.
Qed.
Lemma glob_In t d0 q : dir_ok d0 -> tree_ok t ->
  In q (glob_tree t (render d0)) <-> exists d, q = render d /\ d_two d = d_two d0 /\ Forall2 matches (d_names d0) (d_names d) /\ exists_at t d.
Proof.
  intros H T. rewrite glob_tree_spec by exact H. rewrite in_map_iff. split.
  - intros (names & <- & I). apply iglob_sound in I as [F N]. rewrite rev_involutive in F.
    exists (mkDir (d_two d0) names). cbn. auto.
  - intros (d & -> & E & F & N). exists (d_names d). split; [now destruct d; cbn in *; subst|].
    unfold exists_at in N. destruct (node_at t (d_names d)) as [x|] eqn:X; [|congruence].
    apply (iglob_complete t _ false _ x); [now rewrite rev_involutive|exact X|discriminate].
Qed.
Lemma exists_dir_ok t d : tree_ok t -> exists_at t d -> dir_ok d.
Proof. intros T E. unfold exists_at in E. destruct (node_at t (d_names d)) as [x|] eqn:X; [|congruence]. now apply (node_at_ok t _ x). Qed.

(** * the words *)
Lemma startswith_app s p : startswith s p = true <-> exists r, s = p ++ r.
Proof.
  revert s; induction p as [|c p IH]; intros s.
  - rewrite startswith_nil. split; [intros _; exists s; reflexivity|reflexivity].
  - destruct s as [|x s]; [split; [discriminate|intros [r E]; discriminate]|]. rewrite startswith_cons, andb_true_iff, N.eqb_eq, IH. split.
    + intros [-> [r ->]]. exists r. reflexivity.
    + intros [r E]. cbn in E. injection E as -> E. split; [reflexivity|eauto].
Qed.
Lemma relativise_resolves d q : dir_ok d -> dir_ok q -> render d <> [c_slash] -> resolve d (relativise (render d) (render q)) = q.
Proof.
  intros Hd Hq Ns. unfold relativise. destruct (startswith (render q) (render d ++ [c_slash])) eqn:S; [|now apply resolve_render].
  apply startswith_app in S as [r E]. rewrite E, skipn_app, skipn_all, Nat.sub_diag. cbn [skipn app].
  assert (Nd : d_names d <> []).
  { intros Z. pose proof (initial_render q [] Hq) as I. rewrite app_nil_r in I.
    destruct (d_two d) eqn:T; [|apply Ns; unfold render; now rewrite T, Z].
    assert (X : initial_slashes (render q) = 1).
    { rewrite E. unfold render. rewrite T, Z. cbn [join_with app]. unfold initial_slashes.
      rewrite !startswith_cons, !startswith_nil, !N.eqb_refl. reflexivity. }
    destruct (d_names q) as [|n ns] eqn:Q.
    - unfold render in E. rewrite T, Z, Q in E. destruct (d_two q); cbn in E; discriminate.
    - assert (R : render q = [c_slash; c_slash; c_slash] ++ r) by (rewrite E; unfold render; now rewrite T, Z).
      unfold render in R. rewrite Q in R. unfold dir_ok in Hq. rewrite Q in Hq. inversion Hq as [|? ? Hn _]; subst.
      destruct (name_head n Hn) as (c & n' & -> & Hc).
      assert (J : exists w', join_with [c_slash] ((c :: n') :: ns) = c :: w') by (destruct ns; cbn; eauto).
      destruct J as [w' J]. rewrite J in R. destruct (d_two q); cbn in R; injection R; intros; congruence. }
  assert (Q : q = walk d r).
  { rewrite <- (resolve_render d q Hq). unfold resolve. rewrite render_abs. rewrite E.
    rewrite <- app_assoc. rewrite root_render by (auto; intros; congruence). cbn [app].
    rewrite walk_app_slash, walk_render by exact Hd. now destruct d. }
  unfold resolve. rewrite startswith_cons. change (N.eqb c_slash c_dot) with false. cbn [andb].
  change (c_dot :: c_slash :: r) with ([c_dot] ++ c_slash :: r). rewrite walk_app_slash.
  assert (W : walk d [c_dot] = d) by (destruct d; reflexivity). now rewrite W.
Qed.
Definition piece_text (p : piece) : text := match p with Lit n => n | Pat p => p end.
Lemma map_removelast {A B} (f : A -> B) l : map f (removelast l) = removelast (map f l).
Proof. induction l as [|a [|b l] IH]; [reflexivity..|]. cbn [removelast map] in *. now rewrite IH. Qed.
Lemma removelast_incl {A} (P : A -> Prop) l : Forall P l -> Forall P (removelast l).
Proof. induction l as [|a [|b l] IH]; intros H; [constructor..|]. inversion H; subst. cbn [removelast]. constructor; auto. Qed.
Lemma pieces_fold comps : forall ps, map piece_text (fold_left enter_piece comps ps) = fold_left enter comps (map piece_text ps).
Proof.
  induction comps as [|c comps IH]; intros ps; [reflexivity|]. cbn [fold_left]. rewrite IH. f_equal.
  unfold enter_piece, enter. destruct (text_eqb c []); [reflexivity|]. destruct (text_eqb c t_dot); [reflexivity|].
  destruct (text_eqb c t_dotdot); [apply map_removelast|now rewrite map_app].
Qed.
Lemma pieces_text d p : map piece_text (pieces d p) = d_names (resolve d p).
Proof.
  unfold pieces, resolve, walk, root_of. rewrite pieces_fold. destruct (startswith p [c_slash]); cbn [d_names map]; [reflexivity|].
  rewrite map_map. cbn. now rewrite map_id.
Qed.
Definition lit_ok (p : piece) : Prop := match p with Lit n => no_glob n | Pat _ => True end.
Lemma pieces_lit d p : Forall no_glob (d_names d) -> Forall lit_ok (pieces d p).
Proof.
  intros H. unfold pieces.
  assert (X : forall comps ps, Forall lit_ok ps -> Forall lit_ok (fold_left enter_piece comps ps)).
  { induction comps as [|c comps IH]; intros ps F; [exact F|]. cbn. apply IH. unfold enter_piece.
    destruct (text_eqb c []); [exact F|]. destruct (text_eqb c t_dot); [exact F|].
    destruct (text_eqb c t_dotdot); [now apply removelast_incl|]. apply Forall_app. split; [exact F|constructor; [exact I|constructor]]. }
  apply X. destruct (startswith p [c_slash]); [constructor|]. now apply Forall_map.
Qed.
Lemma pieces_match ps names : Forall lit_ok ps -> (Forall2 piece_matches ps names <-> Forall2 matches (map piece_text ps) names).
Proof.
  intros H. revert names. induction H as [|p ps Hp _ IH]; intros names.
  - split; intros F; inversion F; constructor.
  - split; intros F; inversion F as [|? n ? l Fn Fl]; subst; (constructor; [|now apply IH]).
    + destruct p as [m|m]; cbn in *; [now apply matches_plain|exact Fn].
    + destruct p as [m|m]; cbn in *; [now apply (matches_plain m n Hp)|exact Fn].
Qed.

Definition has_glob (s : text) : Prop := ~ no_glob s.
Lemma glob_step_cases w cwd arg : has_glob arg ->
  glob_step w cwd arg = match m_glob (w_m w) (expand_path w cwd arg) with
                        | [] => [arg]
                        | res => if text_eqb cwd [c_slash] then res else map (relativise cwd) res end.
Proof.
  intros H. unfold glob_step. destruct (negb (mem c_star arg) && negb (mem c_quest arg) && negb (mem c_lbr arg)) eqn:E; [|reflexivity].
  exfalso. apply H. apply andb_true_iff in E as [E E3]. apply andb_true_iff in E as [E1 E2]. apply negb_true_iff in E1, E2, E3.
  unfold no_glob. rewrite <- !mem_false. auto.
Qed.
(** The words of a successful match resolve to the matched paths, in order. *)
Lemma words_resolve w t d arg : dir_ok d -> tree_ok t -> (forall p, m_glob (w_m w) p = glob_tree t p) ->
  startswith arg [c_tilde] = false -> has_glob arg ->
  exists qs, NoDup qs /\
    (forall q, In q qs <-> d_two q = d_two (resolve d arg) /\ Forall2 matches (d_names (resolve d arg)) (d_names q) /\ exists_at t q) /\
    (qs = [] -> glob_step w (render d) arg = [arg]) /\
    (qs <> [] -> map (resolve d) (glob_step w (render d) arg) = qs /\ Forall starts_path (glob_step w (render d) arg)).
Proof.
  intros Hd T G A M. rewrite (glob_step_cases _ _ _ M), G, (expand_plain w d arg Hd A).
  set (d0 := resolve d arg). assert (H0 : dir_ok d0) by now apply resolve_ok.
  exists (map (fun names => mkDir (d_two d0) names) (iglob t (rev (d_names d0)) false)).
  rewrite (glob_tree_spec t d0 H0). set (L := iglob t (rev (d_names d0)) false).
  assert (Ok : forall names, In names L -> dir_ok (mkDir (d_two d0) names)).
  { intros names I. apply iglob_sound in I as [_ N]. destruct (node_at t names) as [x|] eqn:X; [|congruence].
    now apply (node_at_ok t _ x). }
  split; [|split; [|split]].
  - apply FinFun.Injective_map_NoDup; [intros a b E; now injection E|now apply iglob_nodup].
  - intros q. rewrite in_map_iff. split.
    + intros (names & <- & I). apply iglob_sound in I as [F N]. rewrite rev_involutive in F. cbn. auto.
    + intros (E & F & N). exists (d_names q). split; [destruct q; cbn in *; now subst|].
      unfold exists_at in N. destruct (node_at t (d_names q)) as [x|] eqn:X; [|congruence].
      apply (iglob_complete t _ false _ x); [now rewrite rev_involutive|exact X|discriminate].
  - intros E. apply map_eq_nil in E. rewrite E. reflexivity.
  - intros E. destruct (map (fun names => render (mkDir (d_two d0) names)) L) as [|a l] eqn:R.
    { exfalso. apply E. destruct L; [reflexivity|discriminate]. }
    rewrite <- R. destruct (text_eqb_spec (render d) [c_slash]) as [Z|Z]; rewrite ?map_map.
    + split.
      * apply map_ext_in. intros names I. apply resolve_render. auto.
      * apply Forall_map. apply Forall_forall. intros names I. left. apply render_head.
    + split.
      * apply map_ext_in. intros names I. apply relativise_resolves; auto.
      * apply Forall_map. apply Forall_forall. intros names I. unfold relativise.
        destruct (startswith _ (render d ++ _)); [right; cbn; eauto|left; apply render_head].
Qed.
Lemma glob_exact w t d arg : dir_ok d -> tree_ok t -> (forall p, m_glob (w_m w) p = glob_tree t p) ->
  startswith arg [c_tilde] = false -> has_glob arg -> Forall no_glob (d_names d) ->
  exists qs, NoDup qs /\ (forall q, In q qs <-> Matched t d arg q) /\
    (qs = [] -> glob_step w (render d) arg = [arg]) /\
    (qs <> [] -> map (resolve d) (glob_step w (render d) arg) = qs).
Proof.
  intros Hd T G A M C. destruct (words_resolve w t d arg Hd T G A M) as (qs & N & I & E0 & E1).
  exists qs. split; [exact N|]. split; [|split; [exact E0|intros X; now apply E1]].
  intros q. rewrite I. unfold Matched. rewrite (pieces_match _ _ (pieces_lit d arg C)), pieces_text. tauto.
Qed.
Lemma glob_words_exist w t d arg word : dir_ok d -> tree_ok t -> (forall p, m_glob (w_m w) p = glob_tree t p) ->
  startswith arg [c_tilde] = false -> In word (glob_step w (render d) arg) ->
  glob_step w (render d) arg = [arg] \/ exists_at t (resolve d word).
Proof.
  intros Hd T G A I. destruct (existsb (fun c => mem c arg) [c_star; c_quest; c_lbr]) eqn:M.
  - assert (M' : has_glob arg).
    { intros (X & Y & Z). apply mem_false in X, Y, Z. cbn in M. rewrite X, Y, Z in M. discriminate. }
    destruct (words_resolve w t d arg Hd T G A M') as (qs & _ & J & E0 & E1). destruct qs as [|q qs]; [left; auto|right].
    destruct E1 as [E1 _]; [discriminate|]. apply (in_map (resolve d)) in I. rewrite E1 in I. now apply J in I.
  - left. apply glob_step_plain. cbn in M. apply orb_false_iff in M as [X M]. apply orb_false_iff in M as [Y M]. apply orb_false_iff in M as [Z _].
    unfold no_glob. rewrite <- !mem_false. auto.
Qed.
(** A word is the argument itself or visibly a path. *)
Lemma glob_words_paths w cwd arg : (forall p q, In q (m_glob (w_m w) p) -> is_abs q) ->
  glob_step w cwd arg = [arg] \/ Forall starts_path (glob_step w cwd arg).
Proof.
  intros H. unfold glob_step. destruct (negb _ && _ && _); [now left|].
  pose proof (H (expand_path w cwd arg)) as Hq. destruct (m_glob (w_m w) (expand_path w cwd arg)) as [|a l]; [now left|right].
  destruct (text_eqb cwd [c_slash]).
  - apply Forall_forall. intros q I. left. now apply Hq.
  - apply Forall_map. apply Forall_forall. intros q I. unfold relativise. destruct (startswith _ (cwd ++ _)); [right; cbn; eauto|left; now apply Hq].
Qed.
(** A slash at the end of a pattern makes no difference: plain files match. *)
Lemma trailing_slash w d arg : dir_ok d -> startswith arg [c_tilde] = false -> startswith arg [c_slash] = false -> has_glob arg ->
  glob_step w (render d) arg <> [arg] ->
  glob_step w (render d) (arg ++ [c_slash]) = glob_step w (render d) arg.
Proof.
  intros Hd A B M Ne.
  assert (N : arg <> []) by (intros ->; apply M; repeat split; cbn; tauto).
  assert (M' : has_glob (arg ++ [c_slash])).
  { intros (X & Y & Z). apply M. rewrite in_app_iff in X, Y, Z. unfold no_glob. tauto. }
  assert (A' : startswith (arg ++ [c_slash]) [c_tilde] = false).
  { destruct arg as [|c r]; [congruence|]. cbn [app]. rewrite startswith_cons in A |- *. rewrite startswith_nil in A |- *. exact A. }
  assert (B' : startswith (arg ++ [c_slash]) [c_slash] = false).
  { destruct arg as [|c r]; [congruence|]. cbn [app]. rewrite startswith_cons in B |- *. rewrite startswith_nil in B |- *. exact B. }
  rewrite (glob_step_cases _ _ _ M) in Ne |- *. rewrite (glob_step_cases _ _ _ M').
  rewrite (expand_plain w d _ Hd A) in Ne |- *. rewrite (expand_plain w d _ Hd A').
  unfold resolve in Ne |- *. rewrite B in Ne |- *. rewrite B'.
  change (arg ++ [c_slash]) with (arg ++ c_slash :: []). rewrite walk_app_slash, walk_empty.
  destruct (m_glob _ _); [congruence|reflexivity].
Qed.
