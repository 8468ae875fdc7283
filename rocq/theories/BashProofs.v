From Verif Require Import Py PathModel EnvModel BashModel BashSpec.

Definition nl (s : text) : nat := List.length (filter (fun c => N.eqb c 10) s).
Lemma nl_app a b : nl (a ++ b) = nl a + nl b.
Proof. unfold nl. now rewrite filter_app, app_length. Qed.
Lemma nl_cons c a : nl (c :: a) = bump c (nl a).
Proof. unfold nl, bump. cbn [filter]. now destruct (N.eqb c 10). Qed.
Lemma nl_none s : (forall c, In c s -> c <> 10%N) -> nl s = 0.
Proof.
  induction s as [|c s IH]; intros H; [reflexivity|]. rewrite nl_cons, IH by (intros; apply H; now right).
  unfold bump. destruct (N.eqb_spec c 10) as [->|]; [|reflexivity]. exfalso. now apply (H 10%N); [left|].
Qed.

Lemma ws_blank c : is_ws c = blank c.
Proof. reflexivity. Qed.
Lemma special_false c : special c = false ->
  N.eqb c 39 = false /\ N.eqb c 34 = false /\ N.eqb c 92 = false /\ N.eqb c 35 = false.
Proof. unfold special. rewrite !orb_false_iff. tauto. Qed.

(** ** tokens *)
Lemma bind_ok {A B} (a : A) (f : A -> res B) : bind_res (Ok a) f = f a.
Proof. reflexivity. Qed.
Definition consT (t : text * nat) (m : res (list (text * nat))) : res (list (text * nat)) :=
  let* ts := m in Ok (t :: ts).
Definition appT (l : list (text * nat)) (m : res (list (text * nat))) : res (list (text * nat)) :=
  let* ts := m in Ok (l ++ ts).
Lemma consT_appT t l m : consT t (appT l m) = appT (t :: l) m.
Proof. now destruct m. Qed.
Lemma appT_appT a b m : appT a (appT b m) = appT (a ++ b) m.
Proof. destruct m; [|reflexivity]. unfold appT. cbn [bind_res]. now rewrite app_assoc. Qed.
Lemma appT_nil m : appT [] m = m.
Proof. now destruct m. Qed.
Lemma consT_is t m : consT t m = appT [t] m.
Proof. now destruct m. Qed.

Lemma lex_chars w : (forall c, In c w -> special c = false /\ blank c = false) -> forall tok q ln rest,
  lex (w ++ rest) LWord tok q ln = lex rest LWord (tok ++ w) q ln.
Proof.
  induction w as [|c w IH]; intros H tok q ln rest; [now rewrite app_nil_r|].
  destruct (H c (or_introl eq_refl)) as [S B]. apply special_false in S as (S1 & S2 & S3 & S4).
  cbn [List.app lex]. rewrite ws_blank, B, S1, S2, S3, S4. cbn [orb].
  rewrite IH by (intros; apply H; now right). now rewrite <- app_assoc.
Qed.
Lemma lex_start w rest ln : word w -> lex (w ++ rest) LSpace [] false ln = lex rest LWord w false ln.
Proof.
  intros [NE H]. destruct w as [|c w]; [congruence|].
  destruct (H c (or_introl eq_refl)) as [S B]. apply special_false in S as (S1 & S2 & S3 & S4).
  cbn [List.app lex]. rewrite ws_blank, B, S1, S2, S3, S4. cbn [orb].
  rewrite lex_chars by (intros; apply H; now right). reflexivity.
Qed.
Lemma lex_end tok q c rest ln : tok <> [] -> blank c = true ->
  lex (c :: rest) LWord tok q ln = consT (tok, bump c ln) (lex rest LSpace [] false (bump c ln)).
Proof. intros NE B. cbn [lex]. rewrite ws_blank, B. destruct tok; [congruence|reflexivity]. Qed.
Lemma lex_word w c rest ln : word w -> blank c = true ->
  lex (w ++ c :: rest) LSpace [] false ln = consT (w, bump c ln) (lex rest LSpace [] false (bump c ln)).
Proof. intros W B. rewrite lex_start by exact W. apply lex_end; [apply W|exact B]. Qed.

Definition dqv (v : text) : text := List.concat (map (fun c => if N.eqb c 36 || N.eqb c 96 then [92%N; c] else [c]) v).
Lemma lex_dq v : forall tok q ln rest,
  lex (dq_escape v ++ 34%N :: rest) (LQuote 34) tok q ln = lex rest LWord (tok ++ dqv v) true (ln + nl v).
Proof.
  induction v as [|c v IH]; intros tok q ln rest.
  - cbn. now rewrite app_nil_r, Nat.add_0_r.
  - unfold dq_escape, dqv in *. cbn [map List.concat]. rewrite nl_cons, <- app_assoc. unfold dq_special.
    destruct (N.eqb_spec c 34) as [->|N1].
    { cbn -[List.concat map]. rewrite IH. now rewrite <- app_assoc. }
    destruct (N.eqb_spec c 36) as [->|N2].
    { cbn -[List.concat map]. rewrite IH. now rewrite <- app_assoc. }
    destruct (N.eqb_spec c 96) as [->|N3].
    { cbn -[List.concat map]. rewrite IH. now rewrite <- app_assoc. }
    destruct (N.eqb_spec c 92) as [->|N4].
    { cbn -[List.concat map]. rewrite IH. now rewrite <- app_assoc. }
    cbn [orb List.app lex]. apply N.eqb_neq in N1, N4. rewrite N1, N4. cbn [andb].
    rewrite IH, <- app_assoc. unfold bump. destruct (N.eqb c 10); f_equal; lia.
Qed.
Lemma lex_sq v : (forall c, In c v -> c <> 39%N /\ c <> 10%N) -> forall tok q ln rest,
  lex (v ++ 39%N :: rest) (LQuote 39) tok q ln = lex rest LWord (tok ++ v) true ln.
Proof.
  induction v as [|c v IH]; intros H tok q ln rest; [cbn; now rewrite app_nil_r|].
  destruct (H c (or_introl eq_refl)) as [N1 N2]. apply N.eqb_neq in N1, N2.
  cbn [List.app lex]. rewrite N1. change (39 =? 34)%N with false. rewrite andb_false_r. unfold bump. rewrite N2.
  rewrite IH by (intros; apply H; now right). now rewrite <- app_assoc.
Qed.
Lemma ansi_char_ok c x : c <> 39%N -> In x (ansi_char c) -> x <> 39%N /\ x <> 10%N.
Proof.
  intros NQ. unfold ansi_char.
  repeat match goal with |- In _ (if ?b then _ else _) -> _ => destruct b eqn:? end; intros H;
    try (repeat match goal with H : In _ (txt _) |- _ => cbn in H end; intuition (subst; discriminate)).
  - apply N.eqb_eq in Heqb8. congruence.
  - unfold octal in H. pose proof (N.mod_upper_bound (c / 8) 8 ltac:(discriminate)) as M1. pose proof (N.mod_upper_bound c 8 ltac:(discriminate)) as M2.
    assert (c < 128)%N by (clear M1 M2; unfold control in Heqb9; apply orb_true_iff in Heqb9 as [L|L]; [apply N.ltb_lt in L; lia|apply N.eqb_eq in L; lia]).
    assert (c / 64 < 2)%N by (clear M1 M2; apply N.div_lt_upper_bound; [discriminate|]; change (64 * 2)%N with 128%N; assumption).
    generalize dependent (c / 64)%N. generalize dependent (c mod 8)%N. generalize dependent ((c / 8) mod 8)%N. clear. intros a A b B d H D.
    cbn [In] in H. intuition (subst; try discriminate; lia).
  - destruct H as [<-|[]]. split; [exact NQ|]. now apply N.eqb_neq.
Qed.
Lemma ansi_escape_ok v : ~ In 39%N v -> forall x, In x (ansi_escape v) -> x <> 39%N /\ x <> 10%N.
Proof.
  intros NQ x H. unfold ansi_escape in H. apply in_concat in H as (l & H1 & H2). apply in_map_iff in H1 as (c & <- & H1).
  eapply ansi_char_ok; [|exact H2]. intros ->. now apply NQ.
Qed.
Lemma nl_control v : existsb control v = false -> nl v = 0.
Proof.
  intros H. apply nl_none. intros c I ->.
  assert (existsb control v = true) by (apply existsb_exists; exists 10%N; auto). congruence.
Qed.
Lemma lex_printed v tok ln rest : (existsb control v = true -> ~ In 39%N v) -> tok <> [] ->
  lex (printed_value v ++ 10%N :: rest) LWord tok false ln = consT (tok ++ arrives v, S ln) (lex rest LSpace [] false (S ln)).
Proof.
  intros OK NE. unfold printed_value, arrives. destruct (existsb control v) eqn:C.
  - change (txt "$'") with [36%N; 39%N]. cbn [List.app].
    rewrite <- app_assoc. cbn [List.app]. cbn [lex is_ws N.eqb Pos.eqb orb].
    rewrite lex_sq by (apply ansi_escape_ok, OK; reflexivity).
    rewrite lex_end; [now rewrite <- app_assoc|now destruct tok|reflexivity].
  - rewrite <- app_assoc. cbn [List.app]. rewrite <- app_assoc. cbn [List.app]. cbn [lex is_ws N.eqb Pos.eqb orb].
    rewrite lex_dq, nl_control by exact C. rewrite Nat.add_0_r.
    rewrite lex_end; [reflexivity|now destruct tok|reflexivity].
Qed.
Definition var_token (b : bvar) : text :=
  v_name b ++ match v_value b with None => [] | Some v => 61%N :: arrives v end.
Definition t_declare := txt "declare".
Lemma word_declare : word t_declare.
Proof. split; [discriminate|]. intros c H. cbn in H. intuition (subst; reflexivity). Qed.
Lemma lex_var b rest ln : var_ok b -> value_ok b ->
  lex (print_var b ++ rest) LSpace [] false ln =
  appT [(t_declare, ln); (v_flags b, ln); (var_token b, S ln)] (lex rest LSpace [] false (S ln)).
Proof.
  intros (F & N & E) V. unfold print_var. change (txt "declare ") with (t_declare ++ [32%N]).
  rewrite <- !app_assoc. cbn [List.app]. rewrite lex_word; [|apply word_declare|reflexivity].
  rewrite lex_word; [|exact F|reflexivity]. change (bump 32 (bump 32 ln)) with ln. change (bump 32 ln) with ln.
  rewrite lex_start by exact N. destruct N as [NE _]. unfold var_token, value_ok in *. destruct (v_value b) as [v|].
  - cbn [List.app lex]. change (is_ws 61) with false. cbn [N.eqb Pos.eqb orb].
    rewrite lex_printed; [|exact V|now destruct (v_name b)]. rewrite <- app_assoc. cbn [List.app].
    rewrite !consT_is, !appT_appT. reflexivity.
  - cbn [List.app]. rewrite lex_end; [|exact NE|reflexivity]. rewrite app_nil_r. rewrite !consT_is, !appT_appT. reflexivity.
Qed.

(** ** lines *)
Lemma gloop_flush ts cur last line : cur <> last -> gloop ts cur last line = (last, line) :: gloop ts cur cur [].
Proof.
  intros H. apply Nat.eqb_neq in H. destruct ts as [|[t k] ts]; cbn [gloop]; rewrite H, Nat.eqb_refl; reflexivity.
Qed.
Lemma gloop_more t k ts cur line : gloop ((t, k) :: ts) cur cur line = gloop ts k cur (line ++ [t]).
Proof. cbn [gloop]. now rewrite Nat.eqb_refl. Qed.
Lemma split_eq_app n v : ~ In 61%N n -> split_eq (n ++ 61%N :: v) = (n, v).
Proof.
  induction n as [|c n IH]; intros H; [reflexivity|]. cbn [List.app split_eq].
  destruct (N.eqb_spec c 61) as [->|]; [exfalso; apply H; now left|]. rewrite IH; [reflexivity|]. intros X. apply H. now right.
Qed.
Lemma split_eq_none n : ~ In 61%N n -> split_eq n = (n, []).
Proof.
  induction n as [|c n IH]; intros H; [reflexivity|]. cbn [split_eq].
  destruct (N.eqb_spec c 61) as [->|]; [exfalso; apply H; now left|]. rewrite IH; [reflexivity|]. intros X. apply H. now right.
Qed.
Lemma split_var b : var_ok b -> split_eq (var_token b) = arriving b.
Proof.
  intros (_ & _ & E). unfold var_token, arriving. destruct (v_value b); [now apply split_eq_app|]. rewrite app_nil_r. now apply split_eq_none.
Qed.

Definition set_all (d : vars) (l : list (text * text)) : vars := fold_left (fun d kv => dset d (fst kv) (snd kv)) l d.

Definition proc (acc : vars * list (nat * text)) (ts : list (text * nat)) (ln : nat) : res (vars * list (nat * text)) :=
  decl_lines acc (gloop ts ln ln []).
Lemma proc_var vs starts b ts ln : var_ok b ->
  proc (vs, starts) ([(t_declare, ln); (v_flags b, ln); (var_token b, S ln)] ++ ts) ln =
  proc (set_all vs [arriving b], starts) ts (S ln).
Proof.
  intros V. unfold proc. cbn [List.app]. rewrite !gloop_more. rewrite gloop_flush by lia. cbn [List.app decl_lines].
  unfold decl_line. change (text_eqb t_declare (txt "declare")) with true. cbn [List.app]. rewrite split_var by exact V.
  reflexivity.
Qed.

(** ** functions *)
Lemma words_from_nonempty tok s : tok <> [] -> words_from tok s <> [].
Proof.
  revert tok. induction s as [|c s IH]; intros tok H; cbn [words_from]; [now destruct tok|].
  destruct (blank c); [now destruct tok|]. apply IH. now destruct tok.
Qed.
Lemma lex_plain s : (forall c, In c s -> special c = false) -> forall tok ln rest, exists ts,
  map fst ts = words_from tok s /\ (forall t k, In (t, k) ts -> ln <= k <= S (ln + nl s)) /\
  lex (s ++ 10%N :: rest) (match tok with [] => LSpace | _ => LWord end) tok false ln =
  appT ts (lex rest LSpace [] false (S (ln + nl s))).
Proof.
  induction s as [|c s IH]; intros P tok ln rest.
  - cbn [List.app words_from nl filter List.length]. rewrite Nat.add_0_r. destruct tok as [|t0 tok].
    + exists []. split; [reflexivity|]. split; [intros ? ? []|]. rewrite appT_nil. reflexivity.
    + exists [(t0 :: tok, S ln)]. split; [reflexivity|]. split.
      { intros t k [[= <- <-]|[]]. lia. }
      rewrite lex_end; [|discriminate|reflexivity]. apply consT_is.
  - destruct (special_false c (P c (or_introl eq_refl))) as (S1 & S2 & S3 & S4).
    assert (P' : forall x, In x s -> special x = false) by (intros; apply P; now right).
    cbn [List.app words_from]. rewrite nl_cons. destruct (blank c) eqn:B.
    + destruct tok as [|t0 tok].
      * destruct (IH P' [] (bump c ln) rest) as (ts & A1 & A2 & A3).
        assert (Q : bump c ln + nl s = ln + bump c (nl s)) by (unfold bump; destruct (N.eqb c c_nl); lia). rewrite Q in *.
        exists ts. split; [exact A1|]. split.
        { intros t k H. apply A2 in H. unfold bump in H at 1. destruct (N.eqb c c_nl); lia. }
        cbn [lex]. rewrite ws_blank, B. exact A3.
      * destruct (IH P' [] (bump c ln) rest) as (ts & A1 & A2 & A3).
        assert (Q : bump c ln + nl s = ln + bump c (nl s)) by (unfold bump; destruct (N.eqb c c_nl); lia). rewrite Q in *.
        exists ((t0 :: tok, bump c ln) :: ts). split; [cbn [map fst]; now rewrite A1|]. split.
        { intros t k [[= <- <-]|H]; [unfold bump; destruct (N.eqb c c_nl); lia|]. apply A2 in H. unfold bump in H at 1. destruct (N.eqb c c_nl); lia. }
        rewrite lex_end; [|discriminate|exact B]. rewrite A3. apply consT_appT.
    + destruct (IH P' (tok ++ [c]) ln rest) as (ts & A1 & A2 & A3).
      assert (Q : bump c (nl s) = nl s). { unfold bump. destruct (N.eqb_spec c c_nl) as [->|]; [discriminate B|reflexivity]. }
      rewrite Q. exists ts. split; [exact A1|]. split; [exact A2|]. rewrite <- A3.
      destruct tok as [|t0 tok]; cbn [lex List.app]; rewrite ws_blank, B, S1, S2, S3, S4; reflexivity.
Qed.

Lemma lex_dqt v u : dq_text v u -> forall tok q ln rest, lex (v ++ 34%N :: rest) (LQuote 34%N) tok q ln = lex rest LWord (tok ++ u) true (ln + nl v).
Proof.
  induction 1 as [|c v u A B _ IH|c v u A _ IH|c v u A B _ IH]; intros tok q ln rest.
  - cbn. now rewrite app_nil_r, Nat.add_0_r.
  - cbn [List.app lex]. destruct (N.eqb_spec c 34%N); [congruence|]. destruct (N.eqb_spec c c_bslash); [congruence|]. cbn [andb]. rewrite IH, <- app_assoc, nl_cons. cbn [List.app]. f_equal. unfold bump. destruct (N.eqb c c_nl); lia.
  - cbn [List.app lex]. change (N.eqb 92 34) with false. change (N.eqb 92 c_bslash && N.eqb 34 c_dq) with true. cbn iota. rewrite IH, <- app_assoc, !nl_cons. cbn [List.app]. f_equal; [f_equal; destruct A as [-> | ->]; reflexivity|].
    destruct A as [-> | ->]; cbn; lia.
  - cbn [List.app lex]. change (N.eqb 92 34) with false. change (N.eqb 92 c_bslash && N.eqb 34 c_dq) with true. cbn iota. rewrite IH, <- app_assoc, !nl_cons. destruct (N.eqb_spec c c_bslash); [congruence|]. destruct (N.eqb_spec c 34%N); [congruence|]. cbn [negb andb List.app]. f_equal. unfold bump. cbn [N.eqb Pos.eqb]. destruct (N.eqb c c_nl); lia.
Qed.
Lemma lex_sqt v : ~ In 39%N v -> forall tok q ln rest, lex (v ++ 39%N :: rest) (LQuote 39%N) tok q ln = lex rest LWord (tok ++ v) true (ln + nl v).
Proof.
  induction v as [|c v IH]; intros NI tok q ln rest.
  - cbn. now rewrite app_nil_r, Nat.add_0_r.
  - cbn [List.app lex]. destruct (N.eqb_spec c 39%N) as [->|]; [exfalso; apply NI; now left|]. change (N.eqb 39 c_dq) with false. rewrite andb_false_r. rewrite IH by (intros X; apply NI; now right).
    rewrite <- app_assoc, nl_cons. cbn [List.app]. f_equal. unfold bump. destruct (N.eqb c c_nl); lia.
Qed.
Lemma lex_comment v : ~ In 10%N v -> forall ln rest, lex (v ++ 10%N :: rest) LComment [] false ln = lex rest LSpace [] false ln.
Proof.
  induction v as [|c v IH]; intros NI ln rest; [reflexivity|]. cbn [List.app lex]. destruct (N.eqb_spec c c_nl) as [->|]; [exfalso; apply NI; now left|]. apply IH. intros X. apply NI. now right.
Qed.
Lemma nl_nl v : ~ In 10%N v -> nl v = 0.
Proof. intros H. apply nl_none. intros c I ->. contradiction. Qed.
Lemma lex_reads w b s ws : reads w b s ws -> forall q ln rest, (if b then nonempty w || q = true else w = [] /\ q = false) -> exists ts,
  map fst ts = ws /\ (forall t k, In (t, k) ts -> ln <= k <= S (ln + nl s)) /\
  lex (s ++ 10%N :: rest) (if b then LWord else LSpace) w q ln = appT ts (lex rest LSpace [] false (S (ln + nl s))).
Proof.
  assert (Hq : forall c, special c = false -> N.eqb c c_hash = false /\ N.eqb c c_bslash = false /\ (N.eqb c c_sq || N.eqb c c_dq) = false).
  { intros c H. unfold special in H. rewrite !orb_false_iff in H. destruct H as (((A & B) & C) & D). now rewrite A, B, C, D. }
  induction 1 as [|w|c s ws B _ IH|w c s ws B _ IH|w b c s ws P B _ IH|w b c s ws _ IH|w b v s ws NI _ IH|w b v u s ws D _ IH|w b v s ws NI _ IH|w b v NI]; intros q ln rest Hb.
  - destruct Hb as [_ ->]. exists []. split; [reflexivity|]. split; [intros ? ? []|]. cbn. rewrite Nat.add_0_r, appT_nil. reflexivity.
  - exists [(w, S ln)]. split; [reflexivity|]. split; [intros t k [[= <- <-]|[]]; lia|]. cbn [List.app lex]. change (is_ws 10) with true. cbn iota. rewrite Hb. change (nl []) with 0. rewrite Nat.add_0_r. apply consT_is.
  - destruct Hb as [_ ->]. destruct (IH false (bump c ln) rest (conj eq_refl eq_refl)) as (ts & A1 & A2 & A3). rewrite nl_cons.
    assert (Q : bump c ln + nl s = ln + bump c (nl s)) by (unfold bump; destruct (N.eqb c c_nl); lia). rewrite Q in *.
    exists ts. split; [exact A1|]. split; [intros t k H; apply A2 in H; unfold bump in H at 1; destruct (N.eqb c c_nl); lia|]. cbn [List.app lex]. rewrite ws_blank, B. exact A3.
  - destruct (IH false (bump c ln) rest (conj eq_refl eq_refl)) as (ts & A1 & A2 & A3). rewrite nl_cons.
    assert (Q : bump c ln + nl s = ln + bump c (nl s)) by (unfold bump; destruct (N.eqb c c_nl); lia). rewrite Q in *.
    exists ((w, bump c ln) :: ts). split; [cbn [map fst]; now rewrite A1|]. split.
    { intros t k [[= <- <-]|H]; [unfold bump; destruct (N.eqb c c_nl); lia|]. apply A2 in H. unfold bump in H at 1. destruct (N.eqb c c_nl); lia. }
    cbn [List.app lex]. rewrite ws_blank, B, Hb, A3. apply consT_appT.
  - destruct (IH q ln rest) as (ts & A1 & A2 & A3); [destruct w; reflexivity|]. rewrite nl_cons.
    assert (Q : bump c (nl s) = nl s) by (unfold bump; destruct (N.eqb_spec c c_nl) as [->|]; [discriminate B|reflexivity]).
    rewrite Q. exists ts. split; [exact A1|]. split; [exact A2|]. rewrite <- A3. destruct (Hq c P) as (Q1 & Q2 & Q3).
    destruct b; [cbn [List.app lex]; rewrite ws_blank, B, Q1, Q2, Q3; reflexivity|]. destruct Hb as [-> ->]. cbn [List.app lex]. rewrite ws_blank, B, Q1, Q2, Q3. reflexivity.
  - destruct (IH q (bump c ln) rest) as (ts & A1 & A2 & A3); [destruct w; reflexivity|]. rewrite !nl_cons. change (bump 92 ?x) with x.
    assert (Q : bump c ln + nl s = ln + bump c (nl s)) by (unfold bump; destruct (N.eqb c c_nl); lia). rewrite Q in *.
    exists ts. split; [exact A1|]. split; [intros t k H; apply A2 in H; unfold bump in H at 1; destruct (N.eqb c c_nl); lia|]. rewrite <- A3.
    destruct b; [reflexivity|]. destruct Hb as [-> ->]. reflexivity.
  - destruct (IH true (ln + nl v) rest) as (ts & A1 & A2 & A3); [destruct (w ++ v); reflexivity|]. rewrite nl_cons, nl_app, nl_cons. do 2 change (bump 39 ?x) with x.
    exists ts. split; [exact A1|]. rewrite Nat.add_assoc. split; [intros t k H; apply A2 in H; lia|]. rewrite <- A3, <- (lex_sqt v NI w q). cbn [List.app]. rewrite <- app_assoc. cbn [List.app].
    destruct b; [reflexivity|]. destruct Hb as [-> ->]. reflexivity.
  - destruct (IH true (ln + nl v) rest) as (ts & A1 & A2 & A3); [destruct (w ++ u); reflexivity|]. rewrite nl_cons, nl_app, nl_cons. do 2 change (bump 34 ?x) with x.
    exists ts. split; [exact A1|]. rewrite Nat.add_assoc. split; [intros t k H; apply A2 in H; lia|]. rewrite <- A3, <- (lex_dqt v u D w q). cbn [List.app]. rewrite <- app_assoc. cbn [List.app].
    destruct b; [reflexivity|]. destruct Hb as [-> ->]. reflexivity.
  - destruct (IH false (S ln) rest (conj eq_refl eq_refl)) as (ts & A1 & A2 & A3). rewrite nl_cons, nl_app, nl_cons, (nl_nl v NI). change (bump 35 ?x) with x. change (bump 10 ?x) with (S x). cbn [plus]. rewrite Nat.add_succ_r. cbn [plus] in A2, A3.
    cbn [List.app]. rewrite <- app_assoc. cbn [List.app]. destruct b.
    + exists ((w, S ln) :: ts). split; [cbn; now rewrite A1|]. split; [intros t k [[= <- <-]|H]; [lia|apply A2 in H; lia]|].
      cbn [lex]. change (is_ws 35) with false. cbn iota. change (N.eqb 35 c_hash) with true. cbn iota. rewrite Hb, lex_comment, A3 by exact NI. apply consT_appT.
    + destruct Hb as [-> ->]. exists ts. split; [exact A1|]. split; [intros t k H; apply A2 in H; lia|]. cbn [lex]. change (is_ws 35) with false. cbn iota. change (N.eqb 35 c_hash) with true. cbn iota. rewrite lex_comment by exact NI. exact A3.
  - rewrite nl_cons, (nl_nl v NI). change (bump 35 0) with 0. rewrite Nat.add_0_r. cbn [List.app]. destruct b.
    + exists [(w, S ln)]. split; [reflexivity|]. split; [intros t k [[= <- <-]|[]]; lia|]. cbn [lex]. change (is_ws 35) with false. cbn iota. change (N.eqb 35 c_hash) with true. cbn iota. rewrite Hb, lex_comment by exact NI. apply consT_is.
    + destruct Hb as [-> ->]. exists []. split; [reflexivity|]. split; [intros ? ? []|]. cbn [lex]. change (is_ws 35) with false. cbn iota. change (N.eqb 35 c_hash) with true. cbn iota. rewrite lex_comment by exact NI. now rewrite appT_nil.
Qed.
(** a text without quotes, backslashes and comments gives its blank separated words *)
Lemma reads_plain s : (forall c, In c s -> special c = false) -> forall w, reads w (nonempty w) s (words_from w s).
Proof.
  induction s as [|c s IH]; intros P w; cbn [words_from]; [destruct w; constructor|]. assert (P' : forall x, In x s -> special x = false) by (intros; apply P; now right).
  destruct (blank c) eqn:B; [destruct w; cbn; constructor; auto; now apply (IH P' [])|]. apply R_char; [apply P; now left|exact B|]. specialize (IH P' (w ++ [c])). destruct w; exact IH.
Qed.

Definition t_par := txt "()".
Definition t_open := txt "{".
Definition t_close := txt "}".
Lemma word_par : word t_par.
Proof. split; [discriminate|]. intros c H. cbn in H. intuition (subst; reflexivity). Qed.
Lemma word_open : word t_open.
Proof. split; [discriminate|]. intros c H. cbn in H. intuition (subst; reflexivity). Qed.
Lemma word_close : word t_close.
Proof. split; [discriminate|]. intros c H. cbn in H. intuition (subst; reflexivity). Qed.

Definition fun_lines (f : bfun) : nat := S (nl (fun_text f)).
Lemma fun_text_eq f : fun_text f = f_name f ++ 32%N :: t_par ++ 32%N :: 10%N :: t_open ++ 32%N :: 10%N :: f_body f ++ 10%N :: t_close.
Proof. reflexivity. Qed.
Lemma word_nl w : word w -> nl w = 0.
Proof. intros [_ H]. apply nl_none. intros c I ->. destruct (H _ I) as [_ X]. discriminate. Qed.
Lemma fun_lines_eq f : fun_ok f -> fun_lines f = 4 + nl (f_body f).
Proof.
  intros (W & _). unfold fun_lines. rewrite fun_text_eq. rewrite !nl_app, !nl_cons, !nl_app, !nl_cons, !nl_app, !nl_cons, !nl_app, nl_cons.
  rewrite (word_nl _ W), (word_nl _ word_par), (word_nl _ word_open), (word_nl _ word_close).
  unfold bump. cbn [N.eqb Pos.eqb]. lia.
Qed.
(** everything up to the closing brace *)
Lemma lex_fun_head f ln rest : fun_ok f -> exists ts,
  (forall t, In t (map fst ts) -> t <> txt "declare" /\ t <> t_par) /\ (forall t k, In (t, k) ts -> S ln < k < ln + fun_lines f) /\
  lex (fun_text f ++ rest) LSpace [] false ln =
  appT ((f_name f, ln) :: (t_par, ln) :: (t_open, S ln) :: ts) (lex (t_close ++ rest) LSpace [] false (ln + fun_lines f - 1)).
Proof.
  intros OK. pose proof (fun_lines_eq f OK) as FL. destruct OK as (W & _ & ws & P & N1 & N2).
  destruct (lex_reads _ _ _ _ P false (S (S ln)) (t_close ++ rest) (conj eq_refl eq_refl)) as (ts & A1 & A2 & A3). cbn iota in A3.
  exists ts. split; [intros t Ht; rewrite A1 in Ht; split; intros ->; contradiction|]. split. { intros t k H. apply A2 in H. lia. }
  rewrite fun_text_eq. rewrite <- app_assoc. cbn [List.app]. rewrite lex_word; [|exact W|reflexivity].
  rewrite <- app_assoc. cbn [List.app]. rewrite lex_word; [|apply word_par|reflexivity].
  change (bump 32 ln) with ln. cbn [lex]. change (is_ws 10) with true. cbn iota. change (bump c_nl ln) with (S ln).
  rewrite <- app_assoc. cbn [List.app]. rewrite lex_word; [|apply word_open|reflexivity].
  change (bump 32 (S ln)) with (S ln). cbn [lex]. change (is_ws 10) with true. cbn iota. change (bump c_nl (S ln)) with (S (S ln)).
  change (bump 10 (bump 32 (bump 10 (bump 32 ln)))) with (S (S ln)). change (bump 32 (bump 10 (bump 32 ln))) with (S ln). change (bump 32 ln) with ln.
  rewrite <- app_assoc. cbn [List.app]. rewrite A3. rewrite !consT_appT. repeat f_equal. lia.
Qed.
Lemma lex_fun f ln rest : fun_ok f -> exists ts,
  (forall t, In t (map fst ts) -> t <> txt "declare" /\ t <> t_par) /\ (forall t k, In (t, k) ts -> S ln < k < ln + fun_lines f) /\
  lex (print_fun f ++ rest) LSpace [] false ln =
  appT (((f_name f, ln) :: (t_par, ln) :: (t_open, S ln) :: ts) ++ [(t_close, ln + fun_lines f)])
       (lex rest LSpace [] false (ln + fun_lines f)).
Proof.
  intros OK. destruct (lex_fun_head f ln (10%N :: rest) OK) as (ts & A1 & A2 & A3).
  pose proof (fun_lines_eq f OK) as FL. exists ts. split; [exact A1|]. split; [exact A2|].
  unfold print_fun. rewrite <- app_assoc. cbn [List.app] in *. rewrite A3. change (t_close ++ 10%N :: rest) with (t_close ++ 10%N :: rest).
  rewrite lex_word; [|apply word_close|reflexivity]. change (bump 10 ?x) with (S x).
  replace (S (ln + fun_lines f - 1)) with (ln + fun_lines f) by lia.
  rewrite consT_is, appT_appT. reflexivity.
Qed.

Definition harmless (t : text) : Prop := t <> t_declare /\ t <> t_par.
Definition hgroup (g : nat * list text) : Prop := snd g <> [] /\ forall t, In t (snd g) -> harmless t.
Lemma decl_harmless acc gs : Forall hgroup gs -> decl_lines acc gs = Ok acc.
Proof.
  induction 1 as [|[n line] gs [NE H] _ IH]; [reflexivity|]. cbn [decl_lines snd] in *. destruct acc as [vs st].
  assert (E : decl_line (vs, st) (n, line) = Ok (vs, st)).
  { unfold decl_line. destruct line as [|w0 ws]; [congruence|].
    destruct (text_eqb_spec w0 (txt "declare")) as [->|]; [exfalso; destruct (H _ (or_introl eq_refl)) as [X _]; now apply X|].
    destruct ws as [|w1 [|w2 [|w3 ws] ] ]; try reflexivity.
    destruct (text_eqb_spec w1 (txt "()")) as [->|]; [exfalso; destruct (H t_par (or_intror (or_introl eq_refl))) as [_ X]; now apply X|reflexivity]. }
  rewrite E. exact IH.
Qed.
Lemma decl_app acc a b : decl_lines acc (a ++ b) = let* acc' := decl_lines acc a in decl_lines acc' b.
Proof.
  revert acc. induction a as [|l a IH]; intros acc; [reflexivity|]. cbn [List.app decl_lines].
  destruct (decl_line acc l) as [acc'|]; [cbn [bind_res]; apply IH|reflexivity].
Qed.
Lemma gloop_harmless ts : forall cur last line, (line = [] -> cur = last) -> (forall t, In t line -> harmless t) ->
  (forall t, In t (map fst ts) -> harmless t) -> Forall hgroup (gloop ts cur last line).
Proof.
  induction ts as [|[t k] ts IH]; intros cur last line NE HL HT; cbn [gloop].
  - destruct (Nat.eqb_spec cur last) as [|D]; [constructor|]. constructor; [|constructor].
    split; [cbn [snd]; intros ->; now apply D, NE|exact HL].
  - assert (X : forall l, (forall x, In x l -> harmless x) -> forall x, In x (l ++ [t]) -> harmless x).
    { intros l Hl x Hx. apply in_app_or in Hx as [Hx|[<-|[]]]; [now apply Hl|]. apply HT. now left. }
    destruct (Nat.eqb_spec cur last) as [|D]; cbn [List.app].
    + apply IH; [intros E; now destruct line|now apply X|]. intros x Hx. apply HT. now right.
    + constructor; [split; [cbn [snd]; intros ->; now apply D, NE|exact HL]|].
      apply IH; [discriminate| |intros x Hx; apply HT; now right]. apply (X []). intros x [].
Qed.
Lemma gloop_harmless_then ts t K rest : forall cur last line, (line = [] -> cur = last) -> (forall t, In t line -> harmless t) ->
  (forall t, In t (map fst ts) -> harmless t) -> harmless t -> cur < K -> (forall x k, In (x, k) ts -> k < K) ->
  exists gs, gloop (ts ++ (t, K) :: rest) cur last line = gs ++ gloop rest K K [] /\ Forall hgroup gs.
Proof.
  induction ts as [|[t0 k] ts IH]; intros cur last line NE HL HT HH LT HK.
  - cbn [List.app gloop]. destruct (Nat.eqb_spec cur last) as [->|D]; cbn [List.app].
    + rewrite gloop_flush by lia. exists [(last, line ++ [t])]. split; [reflexivity|]. constructor; [|constructor].
      split; [cbn; now destruct line|]. cbn [snd]. intros x Hx. apply in_app_or in Hx as [Hx|[<-|[]]]; auto.
    + rewrite gloop_flush by lia. exists [(last, line); (cur, [t])]. split; [reflexivity|].
      constructor; [split; [cbn [snd]; intros ->; now apply D, NE|exact HL]|]. constructor; [|constructor].
      split; [discriminate|]. cbn. intros x [<-|[]]. exact HH.
  - assert (HT' : forall x, In x (map fst ts) -> harmless x) by (intros; apply HT; now right).
    assert (HK' : forall x j, In (x, j) ts -> j < K) by (intros x j Hx; apply (HK x); now right).
    assert (KK : k < K) by (apply (HK t0); now left).
    assert (X : forall l, (forall x, In x l -> harmless x) -> forall x, In x (l ++ [t0]) -> harmless x).
    { intros l Hl x Hx. apply in_app_or in Hx as [Hx|[<-|[]]]; [now apply Hl|]. apply HT. now left. }
    cbn [List.app gloop]. destruct (Nat.eqb_spec cur last) as [->|D]; cbn [List.app].
    + apply IH; try assumption; [intros E; now destruct line|now apply X].
    + destruct (IH k cur [t0]) as (gs & G1 & G2); auto; [discriminate|apply (X []); intros x []|].
      exists ((last, line) :: gs). split; [cbn [List.app] in *; now rewrite G1|]. constructor; [|exact G2].
      split; [cbn [snd]; intros ->; now apply D, NE|exact HL].
Qed.
Lemma harmless_close : harmless t_close.
Proof. split; discriminate. Qed.
Lemma decl_fun_line vs starts n name gs : name <> t_declare ->
  decl_lines (vs, starts) ((n, [name; t_par; t_open]) :: gs) = decl_lines (vs, starts ++ [(n, name)]) gs.
Proof.
  intros H. cbn [decl_lines]. unfold decl_line. destruct (text_eqb_spec name (txt "declare")); [contradiction|]. reflexivity.
Qed.
Lemma gloop_head f ln ts : gloop ((f_name f, ln) :: (t_par, ln) :: (t_open, S ln) :: ts) ln ln [] =
  (ln, [f_name f; t_par; t_open]) :: gloop ts (S ln) (S ln) [].
Proof. rewrite !gloop_more. rewrite gloop_flush by lia. reflexivity. Qed.
Lemma proc_fun vs starts f ts ln rest : fun_ok f -> (forall t, In t (map fst ts) -> harmless t) ->
  (forall t k, In (t, k) ts -> S ln < k < ln + fun_lines f) ->
  proc (vs, starts) ((((f_name f, ln) :: (t_par, ln) :: (t_open, S ln) :: ts) ++ [(t_close, ln + fun_lines f)]) ++ rest) ln =
  proc (vs, starts ++ [(ln, f_name f)]) rest (ln + fun_lines f).
Proof.
  intros OK E LT. unfold proc. rewrite <- app_assoc. cbn [List.app]. rewrite gloop_head.
  rewrite decl_fun_line by apply OK. pose proof (fun_lines_eq f OK).
  destruct (gloop_harmless_then ts t_close (ln + fun_lines f) rest (S ln) (S ln) []) as (gs & G1 & G2); auto.
  - intros t [].
  - apply harmless_close.
  - lia.
  - intros x k Hx. apply LT in Hx. lia.
  - rewrite G1, decl_app, decl_harmless by exact G2. reflexivity.
Qed.

(** ** the whole output *)
Fixpoint starts_from (k : nat) (fs : list bfun) : list (nat * text) :=
  match fs with [] => [] | f :: r => (k, f_name f) :: starts_from (k + fun_lines f) r end.
Definition two (m : res (list (text * nat))) (acc : vars * list (nat * text)) (ln : nat) := let* ts := m in proc acc ts ln.

Lemma two_vars vs : forall d starts ln rest, (forall b, In b vs -> var_ok b /\ value_ok b) ->
  two (lex (print_vars vs ++ rest) LSpace [] false ln) (d, starts) ln =
  two (lex rest LSpace [] false (ln + List.length vs)) (set_all d (map arriving vs), starts) (ln + List.length vs).
Proof.
  induction vs as [|b vs IH]; intros d starts ln rest H.
  - cbn [map List.length]. rewrite Nat.add_0_r. reflexivity.
  - destruct (H b (or_introl eq_refl)) as [V1 V2].
    unfold print_vars. cbn [map List.concat]. rewrite <- app_assoc, lex_var by assumption.
    cbn [List.length]. rewrite <- Nat.add_succ_comm. cbn [set_all map fold_left]. unfold set_all in IH. rewrite <- IH by (intros; apply H; now right).
    change (List.concat (map print_var vs)) with (print_vars vs).
    destruct (lex (print_vars vs ++ rest) LSpace [] false (S ln)) as [ts|]; [|reflexivity].
    unfold appT, two. cbn [bind_res]. rewrite proc_var by exact V1. reflexivity.
Qed.
Lemma two_funs fs : forall d starts ln rest, (forall f, In f fs -> fun_ok f) ->
  two (lex (print_funs fs ++ rest) LSpace [] false ln) (d, starts) ln =
  two (lex rest LSpace [] false (ln + nl (print_funs fs))) (d, starts ++ starts_from ln fs) (ln + nl (print_funs fs)).
Proof.
  induction fs as [|f fs IH]; intros d starts ln rest H.
  - cbn. now rewrite app_nil_r, Nat.add_0_r.
  - assert (OK : fun_ok f) by (apply H; now left).
    assert (NL : nl (print_fun f) = fun_lines f). { unfold print_fun, fun_lines. rewrite nl_app. cbn. lia. }
    unfold print_funs. cbn [map List.concat]. rewrite <- app_assoc, nl_app, NL.
    destruct (lex_fun f ln (List.concat (map print_fun fs) ++ rest) OK) as (ts & A1 & A2 & A3). rewrite A3.
    cbn [starts_from]. change (starts ++ (ln, f_name f) :: starts_from (ln + fun_lines f) fs) with
      (starts ++ [(ln, f_name f)] ++ starts_from (ln + fun_lines f) fs). rewrite (app_assoc starts).
    rewrite Nat.add_assoc. change (List.concat (map print_fun fs)) with (print_funs fs).
    rewrite <- IH by (intros; apply H; now right).
    destruct (lex (print_funs fs ++ rest) LSpace [] false (ln + fun_lines f)) as [us|]; [|reflexivity].
    unfold appT, two. cbn [bind_res]. rewrite proc_fun by assumption. reflexivity.
Qed.
Lemma two_last_fun f d starts ln : fun_ok f ->
  two (lex (fun_text f) LSpace [] false ln) (d, starts) ln = Ok (d, starts ++ [(ln, f_name f)]).
Proof.
  intros OK. destruct (lex_fun_head f ln [] OK) as (ts & A1 & A2 & A3). rewrite app_nil_r in A3. rewrite A3.
  rewrite lex_start by apply word_close. cbn [lex nonempty orb t_close]. unfold appT, two. cbn [bind_res].
  unfold proc. cbn [List.app]. rewrite gloop_head. rewrite decl_fun_line by apply OK.
  apply decl_harmless. apply gloop_harmless; auto; [intros t []|]. intros t. rewrite map_app. intros H.
  apply in_app_or in H as [H|H]; [now apply A1|]. destruct H as [<-|[]]. apply harmless_close.
Qed.
Lemma two_last_var b d starts ln : var_ok b -> value_ok b ->
  two (lex (removelast (print_var b)) LSpace [] false ln) (d, starts) ln = Ok (d, starts).
Proof.
  intros V VV. assert (R : removelast (print_var b) = txt "declare " ++ v_flags b ++ [32%N] ++ v_name b ++ match v_value b with None => [] | Some v => 61%N :: printed_value v end).
  { unfold print_var. rewrite !app_assoc. apply removelast_last. }
  assert (T : lex (removelast (print_var b)) LSpace [] false ln = Ok [(t_declare, ln); (v_flags b, ln); (var_token b, ln)]).
  { rewrite R. destruct V as (F & N & E). change (txt "declare ") with (t_declare ++ [32%N]).
    rewrite <- !app_assoc. cbn [List.app]. rewrite lex_word; [|apply word_declare|reflexivity].
    rewrite lex_word; [|exact F|reflexivity]. change (bump 32 (bump 32 ln)) with ln. change (bump 32 ln) with ln.
    rewrite lex_start by exact N. destruct N as [NE _]. unfold var_token, value_ok in *. destruct (v_value b) as [v|].
    - cbn [lex]. change (is_ws 61) with false. cbn [N.eqb Pos.eqb orb]. unfold printed_value, arrives. destruct (existsb control v) eqn:C.
      + change (txt "$'") with [36%N; 39%N]. cbn [List.app].
        cbn [lex is_ws N.eqb Pos.eqb orb].
        rewrite lex_sq by (apply ansi_escape_ok, VV; reflexivity). cbn [lex]. rewrite orb_true_r, <- !app_assoc. reflexivity.
      + cbn [List.app]. cbn [lex is_ws N.eqb Pos.eqb orb].
        rewrite lex_dq, nl_control by exact C. rewrite Nat.add_0_r. cbn [lex]. rewrite orb_true_r, <- !app_assoc. reflexivity.
    - rewrite app_nil_r. cbn [lex]. destruct (v_name b); [congruence|reflexivity]. }
  rewrite T. unfold two. cbn [bind_res]. unfold proc. rewrite !gloop_more. cbn [gloop]. rewrite Nat.eqb_refl. reflexivity.
Qed.

(** ** the texts of the functions *)
Lemma split_nl_app a b : split_nl (a ++ 10%N :: b) = split_nl a ++ split_nl b.
Proof.
  induction a as [|c a IH]; [reflexivity|]. cbn [List.app split_nl]. rewrite IH. destruct (N.eqb c c_nl); [reflexivity|].
  destruct (split_nl a) as [|l ls] eqn:E; [|reflexivity]. exfalso. destruct a as [|x a]; cbn in E; [discriminate|].
  destruct (N.eqb x 10); [discriminate|]. now destruct (split_nl a).
Qed.
Lemma split_nl_ne a : split_nl a <> [].
Proof.
  destruct a as [|c a]; cbn; [discriminate|]. destruct (N.eqb c 10); [discriminate|]. now destruct (split_nl a).
Qed.
Lemma split_nl_length a : List.length (split_nl a) = S (nl a).
Proof.
  induction a as [|c a IH]; [reflexivity|]. rewrite nl_cons. cbn [split_nl]. unfold bump. destruct (N.eqb c c_nl); cbn [List.length]; [now rewrite IH|].
  pose proof (split_nl_ne a). now destruct (split_nl a).
Qed.
Lemma join_split a : join_nl (split_nl a) = a.
Proof.
  induction a as [|c a IH]; [reflexivity|]. cbn [split_nl]. pose proof (split_nl_ne a) as NE. destruct (N.eqb_spec c c_nl) as [->|].
  - destruct (split_nl a) eqn:E; [congruence|]. cbn [join_nl] in *. rewrite IH. reflexivity.
  - destruct (split_nl a) as [|l ls] eqn:E; [congruence|]. cbn [join_nl] in *. destruct ls; rewrite <- IH; reflexivity.
Qed.
Lemma fun_texts_all fs : forall pre acc,
  fun_texts (pre ++ List.concat (map (fun f => split_nl (fun_text f)) fs)) (starts_from (S (List.length pre)) fs) acc =
  set_all acc (map (fun f => (f_name f, fun_text f)) fs).
Proof.
  induction fs as [|f fs IH]; intros pre acc; [reflexivity|]. cbn [starts_from fun_texts map List.concat set_all fold_left fst snd].
  assert (L : List.length (split_nl (fun_text f)) = fun_lines f) by apply split_nl_length.
  rewrite app_assoc. replace (S (List.length pre) + fun_lines f) with (S (List.length (pre ++ split_nl (fun_text f)))) by (rewrite app_length; lia).
  rewrite IH. unfold set_all. f_equal. f_equal. rewrite <- app_assoc.
  replace (S (List.length pre) - 1) with (List.length pre) by lia. rewrite skipn_app, skipn_all, Nat.sub_diag. cbn [List.app skipn].
  transitivity (join_nl (split_nl (fun_text f))); [|apply join_split]. f_equal. destruct fs as [|g fs]; cbn [starts_from].
  - cbn. apply app_nil_r.
  - replace (S (List.length (pre ++ split_nl (fun_text f))) - 1 - List.length pre) with (List.length (split_nl (fun_text f)) + 0)
      by (rewrite app_length; lia).
    rewrite firstn_app_2. cbn [firstn]. apply app_nil_r.
Qed.
Lemma split_print_funs fs f : split_nl (print_funs fs ++ fun_text f) = List.concat (map (fun f => split_nl (fun_text f)) (fs ++ [f])).
Proof.
  induction fs as [|g fs IH]; cbn [List.app map List.concat]; [now rewrite app_nil_r|].
  unfold print_funs. cbn [map List.concat]. unfold print_fun at 1. rewrite <- !app_assoc. cbn [List.app]. rewrite split_nl_app.
  f_equal. exact IH.
Qed.
Lemma split_print_vars vs rest : (forall b, In b vs -> nl (print_var b) = 1) ->
  exists pre, List.length pre = List.length vs /\ split_nl (print_vars vs ++ rest) = pre ++ split_nl rest.
Proof.
  induction vs as [|b vs IH]; intros H; [now exists []|].
  destruct IH as (pre & P1 & P2); [intros; apply H; now right|].
  unfold print_vars. cbn [map List.concat]. rewrite <- app_assoc. change (List.concat (map print_var vs)) with (print_vars vs).
  assert (E : print_var b = removelast (print_var b) ++ [10%N]).
  { unfold print_var. rewrite !app_assoc. now rewrite removelast_last. }
  assert (NL : nl (removelast (print_var b)) = 0).
  { pose proof (H b (or_introl eq_refl)) as X. rewrite E, nl_app in X. change (nl [10%N]) with 1 in X. lia. }
  rewrite E, <- app_assoc. cbn [List.app]. rewrite split_nl_app, P2.
  exists (split_nl (removelast (print_var b)) ++ pre). rewrite app_length, split_nl_length, NL, P1, app_assoc. now split.
Qed.
Lemma nl_concat_map {A} (f : A -> text) l : (forall x, In x l -> nl (f x) = 0) -> nl (List.concat (map f l)) = 0.
Proof. induction l as [|x l IH]; intros H; [reflexivity|]. cbn [map List.concat]. rewrite nl_app, H, IH; [reflexivity| |now left]. intros; apply H; now right. Qed.
Lemma nl_print_var b : var_ok b -> value_ok b -> nl (print_var b) = 1.
Proof.
  intros (F & N & _) V. unfold print_var. rewrite !nl_app. rewrite (word_nl _ F), (word_nl _ N).
  change (nl (txt "declare ")) with 0. change (nl [32%N]) with 0. change (nl [10%N]) with 1.
  enough (nl match v_value b with Some v => 61%N :: printed_value v | None => [] end = 0) by lia.
  unfold value_ok in V. destruct (v_value b) as [v|]; [|reflexivity]. rewrite nl_cons. unfold printed_value.
  destruct (existsb control v) eqn:C.
  - change (bump 61 ?x) with x. rewrite !nl_app. change (nl (txt "$'")) with 0. change (nl [39%N]) with 0.
    rewrite nl_none; [reflexivity|]. intros c H. eapply ansi_escape_ok; [now apply V|exact H].
  - change (bump 61 ?x) with x. rewrite !nl_app. change (nl [34%N]) with 0. rewrite Nat.add_0_r. cbn [Nat.add].
    unfold dq_escape. apply nl_concat_map. intros c H. apply nl_none.
    assert (c <> 10%N) by (intros ->; assert (existsb control v = true) by (apply existsb_exists; exists 10%N; auto); congruence).
    intros x. destruct (dq_special c); cbn; intuition (subst; congruence).
Qed.
(** the lines read and joined again: the output without its last newline *)
Lemma lines_of_from_app l s : forall t, lines_of_from l (s ++ [10%N] ++ t) = lines_of_from l (s ++ [10%N]) ++ lines_of_from [] t.
Proof.
  revert l. induction s as [|c s IH]; intros l t; cbn [List.app lines_of_from]; [reflexivity|].
  destruct (N.eqb c 10); cbn [List.app]; [f_equal|]; apply IH.
Qed.
Lemma join_cons l ls : ls <> [] -> join_nl (l :: ls) = l ++ 10%N :: join_nl ls.
Proof. now destruct ls. Qed.
Lemma lines_of_from_ne s : forall l, lines_of_from l (s ++ [10%N]) <> [].
Proof. induction s as [|c s IH]; intros l; cbn; [discriminate|]. destruct (N.eqb c 10); [discriminate|apply IH]. Qed.
Lemma join_lines s : forall l, join_nl (lines_of_from l (s ++ [10%N])) = l ++ s.
Proof.
  induction s as [|c s IH]; intros l; cbn [List.app lines_of_from]; [cbn; now rewrite app_nil_r|].
  destruct (N.eqb_spec c 10) as [->|].
  - rewrite join_cons by apply lines_of_from_ne. now rewrite IH.
  - rewrite IH, <- app_assoc. reflexivity.
Qed.

(** the data parse_declares gets *)
Definition data_of (vs : list bvar) (fs : list bfun) : text := join_nl (lines_of (bash_output vs fs)).
Lemma data_snoc s : join_nl (lines_of (s ++ [10%N])) = s.
Proof. apply (join_lines s []). Qed.

Lemma parse_vars_funs vs fs f : (forall b, In b vs -> var_ok b /\ value_ok b) -> (forall g, In g (fs ++ [f]) -> fun_ok g) ->
  parse_declares (data_of vs (fs ++ [f])) = Ok (set_all [] (map arriving vs), set_all [] (map (fun g => (f_name g, fun_text g)) (fs ++ [f]))).
Proof.
  intros HV HF.
  assert (D : data_of vs (fs ++ [f]) = print_vars vs ++ print_funs fs ++ fun_text f).
  { unfold data_of, bash_output, print_funs. rewrite map_app, concat_app. cbn [map List.concat]. unfold print_fun at 2. rewrite app_nil_r.
    rewrite !app_assoc. apply data_snoc. }
  rewrite D. unfold parse_declares.
  pose proof (two_vars vs [] [] 1 (print_funs fs ++ fun_text f) HV) as E.
  rewrite two_funs in E by (intros; apply HF, in_or_app; now left).
  rewrite two_last_fun in E by (apply HF, in_or_app; right; now left). cbn [List.app] in E.
  assert (ST : starts_from (1 + List.length vs) (fs ++ [f]) = starts_from (1 + List.length vs) fs ++ [(1 + List.length vs + nl (print_funs fs), f_name f)]).
  { generalize (1 + List.length vs). clear. induction fs as [|g fs IH]; intros k; cbn [List.app starts_from]; [cbn; now rewrite Nat.add_0_r|].
    rewrite IH. unfold print_funs. cbn [map List.concat]. rewrite nl_app.
    assert (NL : nl (print_fun g) = fun_lines g) by (unfold print_fun, fun_lines; rewrite nl_app; cbn; lia).
    rewrite NL, Nat.add_assoc. reflexivity. }
  rewrite <- ST in E.
  destruct (split_print_vars vs (print_funs fs ++ fun_text f)) as (pre & P1 & P2).
  { intros b Hb. apply nl_print_var; now apply HV. }
  rewrite P2, split_print_funs. rewrite <- P1 in E.
  unfold two in E. destruct (lex (print_vars vs ++ print_funs fs ++ fun_text f) LSpace [] false 1) as [ts|]; [|discriminate].
  cbn [bind_res] in *. match type of E with ?p = _ => match goal with |- bind_res ?m _ = _ => change m with p end end. rewrite E. cbn [bind_res fst snd]. f_equal. f_equal. exact (fun_texts_all (fs ++ [f]) pre []).
Qed.
Lemma parse_vars_only vs b : (forall x, In x (vs ++ [b]) -> var_ok x /\ value_ok x) ->
  parse_declares (data_of (vs ++ [b]) []) = Ok (set_all [] (map arriving vs), []).
Proof.
  intros HV.
  assert (D : data_of (vs ++ [b]) [] = print_vars vs ++ removelast (print_var b)).
  { unfold data_of, bash_output, print_vars. rewrite map_app, concat_app. cbn [map List.concat print_funs]. rewrite !app_nil_r.
    assert (E : print_var b = removelast (print_var b) ++ [10%N]) by (unfold print_var; rewrite !app_assoc; now rewrite removelast_last).
    rewrite E at 1. rewrite app_assoc. apply data_snoc. }
  rewrite D. unfold parse_declares.
  destruct (HV b) as [V1 V2]; [apply in_or_app; right; now left|].
  pose proof (two_vars vs [] [] 1 (removelast (print_var b))) as E.
  rewrite two_last_var in E by assumption.
  specialize (E ltac:(intros; apply HV, in_or_app; now left)).
  unfold two in E. destruct (lex (print_vars vs ++ removelast (print_var b)) LSpace [] false 1) as [ts|]; [|discriminate].
  cbn [bind_res] in *. match type of E with ?p = _ => match goal with |- bind_res ?m _ = _ => change m with p end end. rewrite E. reflexivity.
Qed.
Lemma set_all_get l : forall d k, dget (set_all d l) k = match dget (rev l) k with Some v => Some v | None => dget d k end.
Proof.
  induction l as [|[a v] l IH]; intros d k; [reflexivity|]. cbn [set_all fold_left fst snd rev]. unfold set_all in IH. rewrite IH.
  assert (A : forall (x y : dict text text), dget (x ++ y) k = match dget x k with Some v => Some v | None => dget y k end).
  { induction x as [|[k0 v0] x IHx]; intros y; [reflexivity|]. cbn [List.app dget]. destruct (keqb k k0); [reflexivity|apply IHx]. }
  rewrite A. destruct (dget (rev l) k); [reflexivity|]. rewrite dget_dset. cbn [dget]. now destruct (keqb k a).
Qed.
Lemma set_all_dict l : as_dict l (set_all [] l).
Proof. intros k. rewrite set_all_get. now destruct (dget (rev l) k). Qed.
Lemma set_all_distinct l : forall d, NoDup (dkeys (d ++ l)) -> set_all d l = d ++ l.
Proof.
  induction l as [|[k v] l IH]; intros d ND; cbn [set_all fold_left fst snd]; [now rewrite app_nil_r|].
  assert (F : dget d k = None).
  { apply dget_None. intros I. unfold dkeys in *. rewrite map_app in ND. cbn in ND. apply NoDup_remove_2 in ND. apply ND, in_or_app. now left. }
  unfold set_all in IH. rewrite dset_fresh by exact F. rewrite IH; rewrite <- app_assoc; [reflexivity|exact ND].
Qed.

(** ** which values survive *)
Lemma dqv_length v : List.length v <= List.length (dqv v).
Proof.
  unfold dqv. induction v as [|c v IH]; cbn [map List.concat List.length]; [lia|]. rewrite app_length.
  destruct (N.eqb c 36 || N.eqb c 96); cbn [List.length]; lia.
Qed.
Lemma ansi_length v : List.length v <= List.length (ansi_escape v).
Proof.
  unfold ansi_escape. induction v as [|c v IH]; cbn [map List.concat List.length]; [lia|]. rewrite app_length.
  assert (1 <= List.length (ansi_char c)); [|lia]. unfold ansi_char.
  repeat match goal with |- context [if ?b then _ else _] => destruct b end; cbn; lia.
Qed.
Lemma arrives_iff v : arrives v = v <-> ~ In 36%N v /\ ~ In 96%N v /\ existsb control v = false.
Proof.
  unfold arrives. destruct (existsb control v).
  - split; [|now intros (_ & _ & ?)]. intros H. apply (f_equal (@List.length N)) in H. cbn in H. pose proof (ansi_length v). lia.
  - fold (dqv v). split.
    + intros H. enough (~ In 36%N v /\ ~ In 96%N v) by tauto. revert H. induction v as [|c v IH]; [cbn; tauto|].
      intros H. unfold dqv in H. cbn [map List.concat] in H. destruct (N.eqb c 36 || N.eqb c 96) eqn:E.
      * apply (f_equal (@List.length N)) in H. cbn [List.app List.length] in H. pose proof (dqv_length v) as L. unfold dqv in L. lia.
      * cbn [List.app] in H. injection H as H. apply orb_false_iff in E as [E1 E2]. apply N.eqb_neq in E1, E2.
        destruct (IH H). cbn [In]. intuition.
    + intros (N1 & N2 & _). unfold dqv. induction v as [|c v IH]; [reflexivity|]. cbn [map List.concat].
      destruct (N.eqb_spec c 36) as [->|]; [exfalso; apply N1; now left|]. destruct (N.eqb_spec c 96) as [->|]; [exfalso; apply N2; now left|].
      cbn [orb List.app]. f_equal. apply IH; intros X; [apply N1|apply N2]; now right.
Qed.

(** ** what goes wrong with other functions *)
Lemma proc_declare_fun d starts f ts ln r : fun_ok (mkFun (f_name f) []) ->
  (forall t k, In (t, k) ts -> S ln < k) -> hd_error (map fst ts) = Some t_declare ->
  proc (d, starts) ((f_name f, ln) :: (t_par, ln) :: (t_open, S ln) :: ts ++ r) ln = Err IndexError.
Proof.
  intros OK L H. unfold proc. rewrite gloop_head. rewrite decl_fun_line by apply OK.
  destruct ts as [|[t k] ts]; [discriminate|]. cbn [map fst hd_error] in H. injection H as ->.
  pose proof (L t_declare k (or_introl eq_refl)). cbn [List.app]. rewrite gloop_more. rewrite gloop_flush by lia. reflexivity.
Qed.
Lemma lex_head_gen f ln rest : word (f_name f) -> (forall c, In c (f_body f) -> special c = false) -> exists ts,
  map fst ts = words (f_body f) /\ (forall t k, In (t, k) ts -> S ln < k) /\
  lex (fun_text f ++ rest) LSpace [] false ln =
  appT ((f_name f, ln) :: (t_par, ln) :: (t_open, S ln) :: ts) (lex (t_close ++ rest) LSpace [] false (S (S (S ln) + nl (f_body f)))).
Proof.
  intros W P.
  destruct (lex_plain (f_body f) P [] (S (S ln)) (t_close ++ rest)) as (ts & A1 & A2 & A3).
  exists ts. split; [exact A1|]. split. { intros t k H. apply A2 in H. lia. }
  rewrite fun_text_eq. rewrite <- app_assoc. cbn [List.app]. rewrite lex_word; [|exact W|reflexivity].
  rewrite <- app_assoc. cbn [List.app]. rewrite lex_word; [|apply word_par|reflexivity].
  change (bump 32 ln) with ln. cbn [lex]. change (is_ws 10) with true. cbn iota. change (bump c_nl ln) with (S ln).
  rewrite <- app_assoc. cbn [List.app]. rewrite lex_word; [|apply word_open|reflexivity].
  change (bump 32 (S ln)) with (S ln). cbn [lex]. change (is_ws 10) with true. cbn iota. change (bump c_nl (S ln)) with (S (S ln)).
  change (bump 10 (bump 32 (bump 10 (bump 32 ln)))) with (S (S ln)). change (bump 32 (bump 10 (bump 32 ln))) with (S ln). change (bump 32 ln) with ln.
  rewrite <- app_assoc. cbn [List.app]. rewrite A3. rewrite !consT_appT. reflexivity.
Qed.
Lemma parse_two data : parse_declares data = let* vf := two (lex data LSpace [] false 1) ([], []) 1 in Ok (fst vf, fun_texts (split_nl data) (snd vf) []).
Proof. unfold parse_declares, two. destruct (lex data LSpace [] false 1); reflexivity. Qed.
Lemma data_fun vs f : data_of vs [f] = print_vars vs ++ fun_text f.
Proof.
  unfold data_of, bash_output, print_funs. cbn [map List.concat]. unfold print_fun. rewrite app_nil_r, app_assoc. apply data_snoc.
Qed.
Lemma parse_declare_fun vs f : (forall b, In b vs -> var_ok b /\ value_ok b) -> word (f_name f) -> f_name f <> t_declare ->
  (forall c, In c (f_body f) -> special c = false) -> hd_error (words (f_body f)) = Some t_declare ->
  parse_declares (data_of vs [f]) = Err IndexError.
Proof.
  intros HV W ND P H. rewrite data_fun, parse_two. rewrite two_vars by exact HV.
  destruct (lex_head_gen f (1 + List.length vs) [] W P) as (ts & A1 & A2 & A3). rewrite app_nil_r in A3. rewrite A3.
  rewrite lex_start by apply word_close. cbn [lex nonempty orb t_close]. unfold appT, two. cbn [bind_res List.app].
  rewrite proc_declare_fun; [reflexivity| |exact A2|now rewrite A1].
  split; [exact W|]. split; [exact ND|]. exists []. split; [constructor|]. split; intros [].
Qed.
Lemma lex_quote_open q s : ~ In q s -> (N.eqb q c_dq = false) -> forall tok qd ln, lex s (LQuote q) tok qd ln = Err ValueError.
Proof.
  intros NI Q. induction s as [|c s IH]; intros tok qd ln; [reflexivity|]. cbn [lex].
  destruct (N.eqb_spec c q) as [->|]; [exfalso; apply NI; now left|]. rewrite Q, andb_false_r. apply IH. intros X. apply NI. now right.
Qed.
Lemma lex_unbalanced a b : (forall c, In c a -> special c = false) -> ~ In 39%N b -> forall m tok ln, (m = LSpace \/ m = LWord) ->
  lex (a ++ 39%N :: b) m tok false ln = Err ValueError.
Proof.
  intros P NB. induction a as [|c a IH]; intros m tok ln M.
  - cbn [List.app]. destruct M as [-> | ->]; cbn [lex]; now apply lex_quote_open.
  - destruct (special_false c (P c (or_introl eq_refl))) as (S1 & S2 & S3 & S4).
    assert (IH' : forall m tok ln, m = LSpace \/ m = LWord -> lex (a ++ 39%N :: b) m tok false ln = Err ValueError) by (apply IH; intros; apply P; now right).
    cbn [List.app]. destruct M as [-> | ->]; cbn [lex]; rewrite S1, S2, S3, S4; cbn [orb].
    + destruct (is_ws c); apply IH'; auto.
    + destruct (is_ws c); [|apply IH'; auto]. destruct (nonempty tok || false); [rewrite IH' by auto; reflexivity|apply IH'; auto].
Qed.
Lemma parse_quote_fun vs f a b : (forall b, In b vs -> var_ok b /\ value_ok b) -> word (f_name f) ->
  f_body f = a ++ 39%N :: b -> (forall c, In c a -> special c = false) -> ~ In 39%N b ->
  parse_declares (data_of vs [f]) = Err ValueError.
Proof.
  intros HV W E P NB. rewrite data_fun, parse_two. rewrite two_vars by exact HV. rewrite fun_text_eq, E.
  set (head := f_name f ++ 32%N :: t_par ++ 32%N :: 10%N :: t_open ++ 32%N :: 10%N :: a).
  assert (X : f_name f ++ 32%N :: t_par ++ 32%N :: 10%N :: t_open ++ 32%N :: 10%N :: (a ++ 39%N :: b) ++ 10%N :: t_close =
    head ++ 39%N :: (b ++ 10%N :: t_close)).
  { unfold head. rewrite <- !app_assoc. cbn [List.app]. rewrite <- !app_assoc. cbn [List.app]. rewrite <- !app_assoc. reflexivity. }
  rewrite X. rewrite lex_unbalanced; [reflexivity| | |now left].
  - intros c. unfold head. rewrite !in_app_iff. cbn [In]. rewrite !in_app_iff. cbn [In]. rewrite !in_app_iff. cbn [In].
    intros [H|[<-|[H|[<-|[<-|[H|[<-|[<-|H] ] ] ] ] ] ] ]; try reflexivity; [now apply W|now apply word_par|now apply word_open|now apply P].
  - rewrite in_app_iff. cbn. intros [H|[H|[H|[]]]]; [contradiction|discriminate|discriminate].
Qed.

(** ** a line of a function that looks like the beginning of another one *)
Lemma lex_plain_last s : forall tok ln rest, (forall c, In c s -> special c = false) -> (s = [] -> tok <> []) -> (s <> [] -> blank (last s 0%N) = false) -> exists ts t,
  map fst (ts ++ [(t, S (ln + nl s))]) = words_from tok s /\ (forall t k, In (t, k) ts -> ln <= k <= ln + nl s) /\
  lex (s ++ 10%N :: rest) (match tok with [] => LSpace | _ => LWord end) tok false ln =
  appT (ts ++ [(t, S (ln + nl s))]) (lex rest LSpace [] false (S (ln + nl s))).
Proof.
  induction s as [|c s IH]; intros tok ln rest P Hn Hl.
  - cbn [List.app words_from nl filter List.length]. rewrite Nat.add_0_r. destruct tok as [|t0 tok]; [now destruct Hn|].
    exists [], (t0 :: tok). split; [reflexivity|]. split; [intros ? ? []|]. cbn [List.app]. rewrite lex_end; [|discriminate|reflexivity]. apply consT_is.
  - destruct (special_false c (P c (or_introl eq_refl))) as (S1 & S2 & S3 & S4).
    assert (P' : forall x, In x s -> special x = false) by (intros; apply P; now right).
    assert (Hl' : s <> [] -> blank (last s 0%N) = false) by (intros X; destruct s; [congruence|apply Hl; discriminate]).
    cbn [List.app words_from]. rewrite nl_cons. destruct (blank c) eqn:B.
    + assert (Ns : s <> []) by (intros ->; specialize (Hl ltac:(discriminate)); cbn in Hl; congruence).
      destruct (IH [] (bump c ln) rest P' ltac:(congruence) Hl') as (ts & t & A1 & A2 & A3).
      assert (Q : bump c ln + nl s = ln + bump c (nl s)) by (unfold bump; destruct (N.eqb c c_nl); lia). rewrite Q in *.
      destruct tok as [|t0 tok].
      * exists ts, t. split; [exact A1|]. split.
        { intros x k H. apply A2 in H. unfold bump in H at 1. destruct (N.eqb c c_nl); lia. }
        cbn [lex]. rewrite ws_blank, B. exact A3.
      * exists ((t0 :: tok, bump c ln) :: ts), t. split; [cbn [map fst List.app]; now rewrite A1|]. split.
        { intros x k [[= <- <-]|H]; [unfold bump; destruct (N.eqb c c_nl); lia|]. apply A2 in H. unfold bump in H at 1. destruct (N.eqb c c_nl); lia. }
        rewrite lex_end; [|discriminate|exact B]. rewrite A3. apply consT_appT.
    + destruct (IH (tok ++ [c]) ln rest P' ltac:(intros; destruct tok; discriminate) Hl') as (ts & t & A1 & A2 & A3).
      assert (Q : bump c (nl s) = nl s). { unfold bump. destruct (N.eqb_spec c c_nl) as [->|]; [discriminate B|reflexivity]. }
      rewrite Q. exists ts, t. split; [exact A1|]. split; [exact A2|]. rewrite <- A3.
      destruct tok as [|t0 tok]; cbn [lex List.app]; rewrite ws_blank, B, S1, S2, S3, S4; reflexivity.
Qed.
(** [a]: the lines of the body before that line, [b]: after it *)
Definition cut_body (a g b : text) : text := a ++ 10%N :: g ++ 32%N :: t_par ++ 32%N :: t_open ++ 10%N :: b.
Definition cut_head (f : bfun) (a : text) : text := f_name f ++ 32%N :: t_par ++ 32%N :: 10%N :: t_open ++ 32%N :: 10%N :: a.
Definition cut_tail (g b : text) : text := g ++ 32%N :: t_par ++ 32%N :: t_open ++ 10%N :: b ++ 10%N :: t_close.
Lemma cut_text f a g b : f_body f = cut_body a g b -> fun_text f = cut_head f a ++ 10%N :: cut_tail g b.
Proof.
  intros E. rewrite fun_text_eq, E. unfold cut_body, cut_head, cut_tail. repeat (rewrite <- !app_assoc; cbn [List.app]). reflexivity.
Qed.
Lemma two_cut f a g b d ln : f_body f = cut_body a g b -> word (f_name f) -> f_name f <> t_declare -> word g -> g <> t_declare ->
  (forall c, In c a -> special c = false) -> a <> [] -> blank (last a 0%N) = false -> (forall t, In t (words a) -> harmless t) ->
  (exists ws, reads [] false b ws /\ forall t, In t ws -> harmless t) ->
  two (lex (fun_text f) LSpace [] false ln) (d, []) ln = Ok (d, [(ln, f_name f); (ln + S (nl (cut_head f a)), g)]).
Proof.
  intros E W ND Wg Ng P Na La Ha (ws & Rb & Hb). rewrite (cut_text f a g b E).
  assert (HL : nl (cut_head f a) = 2 + nl a).
  { unfold cut_head. rewrite !nl_app, !nl_cons, !nl_app, !nl_cons, !nl_app, !nl_cons. rewrite (word_nl _ W), (word_nl _ word_par), (word_nl _ word_open). unfold bump. cbn [N.eqb Pos.eqb]. lia. }
  set (K := ln + S (nl (cut_head f a))).
  destruct (lex_plain_last a [] (S (S ln)) (cut_tail g b) P ltac:(congruence) (fun _ => La)) as (ts & t & A1 & A2 & A3). change (words_from [] a) with (words a) in A1. cbn iota in A3.
  replace (S (S (S ln) + nl a)) with K in * by (unfold K; lia).
  destruct (lex_reads _ _ _ _ Rb false (S K) t_close (conj eq_refl eq_refl)) as (us & B1 & B2 & B3). cbn iota in B3.
  assert (T : lex (cut_tail g b) LSpace [] false K = Ok ((g, K) :: (t_par, K) :: (t_open, S K) :: us ++ [(t_close, S (S K + nl b))])).
  { unfold cut_tail. rewrite lex_word; [|exact Wg|reflexivity]. rewrite lex_word; [|apply word_par|reflexivity]. change (bump 32 (bump 32 K)) with K. change (bump 32 K) with K. rewrite lex_word; [|apply word_open|reflexivity]. change (bump 10 K) with (S K). rewrite B3. reflexivity. }
  rewrite T in A3.
  assert (HH : lex (cut_head f a ++ 10%N :: cut_tail g b) LSpace [] false ln = Ok ((f_name f, ln) :: (t_par, ln) :: (t_open, S ln) :: (ts ++ [(t, K)]) ++ (g, K) :: (t_par, K) :: (t_open, S K) :: us ++ [(t_close, S (S K + nl b))])).
  { unfold cut_head. repeat (rewrite <- !app_assoc; cbn [List.app]). rewrite lex_word; [|exact W|reflexivity]. rewrite lex_word; [|apply word_par|reflexivity].
    change (bump 32 (bump 32 ln)) with ln. change (bump 32 ln) with ln. cbn [lex]. change (is_ws 10) with true. cbn iota. change (bump c_nl ln) with (S ln). rewrite lex_word; [|apply word_open|reflexivity].
    change (bump 32 (S ln)) with (S ln). cbn [lex]. change (is_ws 10) with true. cbn iota. change (bump c_nl (S ln)) with (S (S ln)). rewrite A3. unfold appT. cbn [bind_res consT]. rewrite <- app_assoc. reflexivity. }
  rewrite HH. unfold two. cbn [bind_res]. unfold proc. rewrite gloop_head, decl_fun_line by exact ND. rewrite <- app_assoc. cbn [List.app].
  destruct (gloop_harmless_then ts t K ((g, K) :: (t_par, K) :: (t_open, S K) :: us ++ [(t_close, S (S K + nl b))]) (S ln) (S ln) []) as (gs & G1 & G2).
  - auto.
  - intros x [].
  - intros x Hx. apply Ha. rewrite <- A1, map_app. apply in_app_iff. now left.
  - apply Ha. rewrite <- A1, map_app. apply in_app_iff. right. now left.
  - unfold K. lia.
  - intros x k Hx. apply A2 in Hx. unfold K. lia.
  - rewrite G1, decl_app, decl_harmless by exact G2. cbn [bind_res]. pose proof (gloop_head (mkFun g []) K) as GH. cbn [f_name] in GH. rewrite GH, decl_fun_line by exact Ng. cbn [List.app].
    apply decl_harmless. apply gloop_harmless; auto; [intros x []|]. intros x. rewrite map_app. intros H. apply in_app_or in H as [H|H]; [apply Hb; now rewrite <- B1|]. destruct H as [<-|[]]. apply harmless_close.
Qed.
Lemma parse_cut vs f a g b : (forall b, In b vs -> var_ok b /\ value_ok b) -> f_body f = cut_body a g b -> word (f_name f) -> f_name f <> t_declare -> word g -> g <> t_declare ->
  (forall c, In c a -> special c = false) -> a <> [] -> blank (last a 0%N) = false -> (forall t, In t (words a) -> harmless t) ->
  (exists ws, reads [] false b ws /\ forall t, In t ws -> harmless t) ->
  parse_declares (data_of vs [f]) = Ok (set_all [] (map arriving vs), set_all [] [(f_name f, cut_head f a); (g, cut_tail g b)]).
Proof.
  intros HV E W ND Wg Ng P Na La Ha Hb. rewrite data_fun, parse_two, two_vars by exact HV. rewrite (two_cut f a g b) by assumption. cbn [bind_res fst snd]. f_equal. f_equal.
  destruct (split_print_vars vs (fun_text f)) as (pre & P1 & P2); [intros x Hx; apply nl_print_var; now apply HV|]. rewrite P2, (cut_text f a g b E), split_nl_app.
  cbn [fun_texts]. rewrite <- P1. unfold set_all. cbn [fold_left fst snd].
  replace (1 + List.length pre - 1) with (List.length pre) by lia. replace (1 + List.length pre + S (nl (cut_head f a)) - 1) with (List.length pre + List.length (split_nl (cut_head f a))) by (rewrite split_nl_length; lia).
  rewrite skipn_app, skipn_all, Nat.sub_diag. cbn [List.app skipn]. rewrite Nat.add_comm, Nat.add_sub. rewrite firstn_app, firstn_all, Nat.sub_diag. cbn [firstn]. rewrite app_nil_r, join_split.
  rewrite skipn_app. rewrite (skipn_all2 pre) by lia. rewrite Nat.add_sub. rewrite skipn_app, skipn_all, Nat.sub_diag. cbn [List.app skipn]. rewrite join_split. reflexivity.
Qed.

(** ** bash reading the command *)
Lemma sh_sq e : ~ In 39%N e -> forall w rest, sh (e ++ 39%N :: rest) SmSq w = sh rest SmWord (w ++ map (fun c => (c, true)) e).
Proof.
  induction e as [|c e IH]; intros NI w rest; [cbn; now rewrite app_nil_r|]. cbn [List.app sh map].
  destruct (N.eqb_spec c 39) as [->|]; [exfalso; apply NI; now left|]. rewrite IH by (intros X; apply NI; now right). now rewrite <- app_assoc.
Qed.
Definition rest_toks (r : text) : option (list stok) := sh_read r.
Lemma sh_source e rest : sh (source_cmd e ++ rest) SmBlank [] = option_map (cons (bare (txt "source"))) (sh (e ++ 39%N :: rest) SmSq []).
Proof.
  unfold source_cmd. rewrite <- !app_assoc. change (txt "source '") with (txt "source" ++ [32%N; 39%N]). rewrite <- app_assoc.
  cbn [List.app]. cbn [txt list_ascii_of_string map List.app]. cbn -[bare]. reflexivity.
Qed.
Lemma sh_source_ok e rest : ~ In 39%N e ->
  sh (source_cmd e ++ txt "; " ++ rest) SmBlank [] = option_map (fun t => bare (txt "source") :: literal e :: SOp 59 :: t) (sh_read rest).
Proof.
  intros NI. rewrite sh_source, sh_sq by exact NI. cbn [List.app txt list_ascii_of_string map]. cbn -[bare literal]. unfold sh_read.
  destruct (sh rest SmBlank []); reflexivity.
Qed.
Lemma dump_toks : exists t, sh_read dump_cmd = Some t.
Proof. eexists. vm_compute. reflexivity. Qed.
Lemma script_cons e es : bash_script (e :: es) = source_cmd e ++ txt "; " ++ bash_script es.
Proof. unfold bash_script. cbn [map List.app join_semi]. now destruct (map source_cmd es ++ [dump_cmd]) eqn:E; [destruct (map source_cmd es)|]. Qed.
Lemma script_ok es t : sh_read dump_cmd = Some t -> (forall e, In e es -> ~ In 39%N e) -> sh_read (bash_script es) = Some (source_all es t).
Proof.
  intros D. induction es as [|e es IH]; intros H; [exact D|]. rewrite script_cons. unfold sh_read at 1.
  rewrite sh_source_ok by (apply H; now left). rewrite IH by (intros; apply H; now right). reflexivity.
Qed.

(** the first word bash reads from x, a single quote and a rest without quotes
    is at most that long *)
Definition slack (m : smode) : nat := match m with SmEsc | SmDqEsc => 1 | _ => 0 end.
Lemma sh_sq_none r : ~ In 39%N r -> forall w, sh r SmSq w = None.
Proof.
  induction r as [|c r IH]; intros H w; [reflexivity|]. cbn [sh]. destruct (N.eqb_spec c 39) as [->|]; [exfalso; apply H; now left|].
  apply IH. intros X. apply H. now right.
Qed.
Lemma sh_dq_none r : ~ In 34%N r -> ~ In 92%N r -> forall w, sh r SmDq w = None.
Proof.
  induction r as [|c r IH]; intros H1 H2 w; [reflexivity|]. cbn [sh].
  destruct (N.eqb_spec c 34) as [->|]; [exfalso; apply H1; now left|]. destruct (N.eqb_spec c 92) as [->|]; [exfalso; apply H2; now left|].
  apply IH; intros X; [apply H1|apply H2]; now right.
Qed.
Lemma sh_bound x r : ~ In 39%N r -> ~ In 34%N r -> ~ In 92%N r -> forall m w W t,
  m <> SmBlank -> m <> SmComment -> sh (x ++ 39%N :: c_semi :: r) m w = Some (SW W :: t) ->
  List.length W <= List.length w + List.length x + slack m.
Proof.
  intros N1 N2 N3.
  assert (NS : ~ In 39%N (c_semi :: r)) by (intros [H|H]; [discriminate|contradiction]).
  assert (ND : ~ In 34%N (c_semi :: r)) by (intros [H|H]; [discriminate|contradiction]).
  assert (NB : ~ In 92%N (c_semi :: r)) by (intros [H|H]; [discriminate|contradiction]).
  induction x as [|c x IH]; intros m w W t M1 M2 E.
  - cbn [List.app List.length] in *. rewrite Nat.add_0_r. destruct m; try congruence; cbn [sh] in E.
    + change (N.eqb 39 39) with true in E. cbn -[sh] in E. rewrite sh_sq_none in E by assumption. discriminate.
    + change (N.eqb 39 39) with true in E. cbn [sh] in E. cbn -[sh] in E. destruct (sh r SmBlank []); [|discriminate].
      cbn in E. injection E as <- _. cbn. lia.
    + cbn -[sh] in E. rewrite sh_dq_none in E by assumption. discriminate.
    + cbn -[sh] in E. cbn [sh] in E. cbn -[sh] in E. destruct (sh r SmBlank []); [|discriminate].
      cbn -[List.app] in E. injection E as <- _. rewrite app_length. cbn. lia.
    + cbn -[sh] in E. rewrite sh_dq_none in E by assumption. discriminate.
  - cbn [List.app] in E. cbn [List.length].
    assert (IHw : forall m w, m <> SmBlank -> m <> SmComment -> sh (x ++ 39%N :: c_semi :: r) m w = Some (SW W :: t) ->
      List.length W <= List.length w + List.length x + slack m) by (intros m0 w0; apply IH).
    destruct m; try congruence; cbn [sh slack] in *.
    + destruct (sh_blank c). { destruct (sh _ SmBlank []); [|discriminate]. cbn in E. injection E as <- _. lia. }
      destruct (sh_op c). { destruct (sh _ SmBlank []); [|discriminate]. cbn in E. injection E as <- _. lia. }
      destruct (N.eqb c 39). { apply IHw in E; [cbn [slack] in E; lia|discriminate|discriminate]. }
      destruct (N.eqb c 34). { apply IHw in E; [cbn [slack] in E; lia|discriminate|discriminate]. }
      destruct (N.eqb c 92). { apply IHw in E; [cbn [slack] in E; lia|discriminate|discriminate]. }
      apply IHw in E; [rewrite app_length in E; cbn [slack List.length] in E; lia|discriminate|discriminate].
    + destruct (N.eqb c 39); (apply IHw in E; [|discriminate|discriminate]); try rewrite app_length in E; cbn [slack List.length] in E; lia.
    + destruct (N.eqb c 34). { apply IHw in E; [cbn [slack] in E; lia|discriminate|discriminate]. }
      destruct (N.eqb c 92). { apply IHw in E; [cbn [slack] in E; lia|discriminate|discriminate]. }
      apply IHw in E; [rewrite app_length in E; cbn [slack List.length] in E; lia|discriminate|discriminate].
    + destruct (N.eqb c 10); (apply IHw in E; [|discriminate|discriminate]); try rewrite app_length in E; cbn [slack List.length] in E; lia.
    + destruct (N.eqb c 10). { apply IHw in E; [cbn [slack] in E; lia|discriminate|discriminate]. }
      destruct (dq_special c); (apply IHw in E; [|discriminate|discriminate]); rewrite app_length in E; cbn [slack List.length] in E; lia.
Qed.
Lemma first_quote e : In 39%N e -> exists a b, e = a ++ 39%N :: b /\ ~ In 39%N a.
Proof.
  induction e as [|c e IH]; [intros []|]. intros H. destruct (N.eqb_spec c 39) as [->|NE]; [now exists [], e|].
  destruct H as [H|H]; [congruence|]. destruct (IH H) as (a & b & -> & NA). exists (c :: a), b. split; [reflexivity|].
  intros [X|X]; [congruence|contradiction].
Qed.
Lemma script_quote e t : In 39%N e -> sh_read (bash_script [e]) <> Some (source_all [e] t).
Proof.
  intros H. rewrite script_cons. unfold sh_read. rewrite sh_source. destruct (first_quote e H) as (a & b & -> & NA).
  rewrite <- app_assoc. cbn [List.app]. rewrite sh_sq by exact NA. cbn [List.app].
  change (txt "; " ++ bash_script []) with (c_semi :: 32%N :: dump_cmd).
  set (w := map _ a). intros E. destruct (sh _ SmWord w) as [l|] eqn:S; [|discriminate]. cbn [option_map source_all] in E.
  injection E as E. subst l. unfold literal in S. apply sh_bound in S; try (vm_compute; intuition discriminate); try discriminate.
  unfold w in S. rewrite !map_length, !app_length in S. cbn [slack List.length] in S. lia.
Qed.
(** a file name that runs a command *)
Definition plain_cmd (c : text) : Prop := forall x, In x c -> x <> 39%N /\ x <> 34%N /\ x <> 92%N /\ x <> 35%N /\ sh_op x = false /\ sh_blank x = false.
Definition evil (a c : text) : text := a ++ txt "'; " ++ c ++ txt " '".
Lemma sh_cmd_chars c : plain_cmd c -> forall w rest, sh (c ++ rest) SmWord w = sh rest SmWord (w ++ map (fun x => (x, false)) c).
Proof.
  induction c as [|x c IH]; intros P w rest; [cbn; now rewrite app_nil_r|].
  destruct (P x (or_introl eq_refl)) as (A & B & D & F & G & I). apply N.eqb_neq in A, B, D, F.
  cbn [List.app sh]. rewrite A, B, D, G, I. rewrite IH by (intros y Hy; apply P; now right). now rewrite <- app_assoc.
Qed.
Lemma sh_cmd c rest : c <> [] -> plain_cmd c -> sh (c ++ rest) SmBlank [] = sh rest SmWord (map (fun x => (x, false)) c).
Proof.
  intros NE P. destruct c as [|x c]; [congruence|].
  destruct (P x (or_introl eq_refl)) as (A & B & D & F & G & I). apply N.eqb_neq in A, B, D, F.
  cbn [List.app sh]. rewrite A, B, D, F, G, I. rewrite sh_cmd_chars by (intros y Hy; apply P; now right). reflexivity.
Qed.
Lemma script_evil a c t : ~ In 39%N a -> c <> [] -> plain_cmd c -> sh_read dump_cmd = Some t ->
  sh_read (bash_script [evil a c]) = Some (bare (txt "source") :: literal a :: SOp 59 :: bare c :: literal [] :: SOp 59 :: t).
Proof.
  intros NA NE P D. rewrite script_cons. unfold sh_read. rewrite sh_source. unfold evil.
  change (txt "'; ") with [39%N; 59%N; 32%N]. change (txt " '") with [32%N; 39%N]. rewrite <- !app_assoc. cbn [List.app].
  rewrite sh_sq by exact NA. cbn [List.app]. cbn [sh]. change (sh_blank 59) with false. change (sh_op 59) with true. cbn iota.
  cbn [sh]. change (sh_blank 32) with true. cbn iota. rewrite sh_cmd by assumption.
  cbn [sh]. change (sh_blank 32) with true. cbn iota. cbn [sh]. change (sh_blank 39) with false. change (sh_op 39) with false. cbn [N.eqb Pos.eqb].
  change (txt "; " ++ bash_script []) with (59%N :: 32%N :: dump_cmd). cbn [sh]. cbn [N.eqb Pos.eqb].
  change (sh_blank 59) with false. change (sh_op 59) with true. cbn iota. change (sh_blank 32) with true. cbn iota.
  unfold sh_read in D. change (sh (32%N :: dump_cmd) SmBlank []) with (sh dump_cmd SmBlank []). rewrite D. reflexivity.
Qed.

(** ** into the environment *)
Lemma set_all_updated old l : updated old l (set_all old l).
Proof. intros k. apply set_all_get. Qed.
Lemma set_all_keys l : forall d, NoDup (dkeys d) -> NoDup (dkeys (set_all d l)).
Proof. induction l as [|[k v] l IH]; intros d H; [exact H|]. cbn [set_all fold_left]. apply IH. now apply dset_NoDup. Qed.
Lemma dget_app (x y : dict text text) k : dget (x ++ y) k = match dget x k with Some v => Some v | None => dget y k end.
Proof. induction x as [|[k0 v0] x IHx]; [reflexivity|]. cbn [List.app dget]. destruct (keqb k k0); [reflexivity|apply IHx]. Qed.
Lemma dget_rev (d : dict text text) k : NoDup (dkeys d) -> dget (rev d) k = dget d k.
Proof.
  intros ND. destruct (dget d k) as [v|] eqn:E.
  - apply In_dget; [|apply -> in_rev; now apply dget_In]. unfold dkeys. rewrite map_rev. now apply NoDup_rev.
  - apply dget_None. apply dget_None in E. intros I. apply E. unfold dkeys in *. rewrite map_rev in I. now apply in_rev.
Qed.
Lemma dupdate_updated old l : updated old l (dupdate old (set_all [] l)).
Proof.
  intros k. unfold dupdate. change (fold_left (fun d kv => dset d (fst kv) (snd kv)) (set_all [] l) old) with (set_all old (set_all [] l)).
  rewrite set_all_get. rewrite dget_rev by (apply set_all_keys; constructor). rewrite set_all_get. now destruct (dget (rev l) k).
Qed.
Lemma updated_ext old l l' new : (forall k, dget (rev l) k = dget (rev l') k) -> updated old l new -> updated old l' new.
Proof. intros H U k. rewrite <- H. apply U. Qed.
Lemma arriving_good vs : (forall b, In b vs -> exists v, v_value b = Some v /\ arrives v = v) -> map arriving vs = set_values vs.
Proof.
  induction vs as [|b vs IH]; intros H; [reflexivity|]. cbn [map set_values flat_map].
  destruct (H b (or_introl eq_refl)) as (v & V & A). unfold arriving at 1. rewrite V, A. cbn [List.app]. f_equal. apply IH. intros; apply H; now right.
Qed.
Lemma import_all vs fs f ex bf : (forall b, In b vs -> var_ok b /\ value_ok b) -> (forall g, In g (fs ++ [f]) -> fun_ok g) ->
  exists ex' bf', parse_decls (lines_of (bash_output vs (fs ++ [f]))) ex bf = Ok (ex', bf') /\
  updated ex (map arriving vs) ex' /\ updated bf (texts (fs ++ [f])) bf'.
Proof.
  intros HV HF. unfold parse_decls. fold (data_of vs (fs ++ [f])). rewrite parse_vars_funs by assumption. cbn [bind_res fst snd].
  eexists _, _. split; [reflexivity|]. split; apply dupdate_updated.
Qed.
Lemma import_vars vs b ex bf : (forall b', In b' (vs ++ [b]) -> var_ok b' /\ value_ok b') ->
  exists ex', parse_decls (lines_of (bash_output (vs ++ [b]) [])) ex bf = Ok (ex', bf) /\ updated ex (map arriving vs) ex'.
Proof.
  intros HV. unfold parse_decls. fold (data_of (vs ++ [b]) []). rewrite parse_vars_only by assumption. cbn [bind_res fst snd].
  eexists. split; [reflexivity|]. apply dupdate_updated.
Qed.
