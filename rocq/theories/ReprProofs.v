From Verif Require Import Py PathModel PathProofs EnvModel ExpandModel ExpandSpec ExpandProofs CommandModel CommandSpec CommandProofs ReprModel ReprSpec.

Definition scans (s : scan) (t : text) (l : list token) (s' : scan) : Prop :=
  forall r, tokens_from s (t ++ r) = match tokens_from s' r with Some l' => Some (l ++ l') | None => None end.
Lemma scans_nil s : scans s [] [] s.
Proof. intros r. cbn [app]. destruct (tokens_from s r); reflexivity. Qed.
Lemma scans_app s t l s' t' l' s'' : scans s t l s' -> scans s' t' l' s'' -> scans s (t ++ t') (l ++ l') s''.
Proof.
  intros A B r. rewrite <- app_assoc, A, B. destruct (tokens_from s'' r); [|reflexivity]. now rewrite app_assoc.
Qed.
Lemma scans_one s c l s' : next_char s c = Some (l, s') -> scans s [c] l s'.
Proof. intros E r. cbn [app tokens_from]. now rewrite E. Qed.
Lemma scans_cons s c s' t l s'' : next_char s c = Some ([], s') -> scans s' t l s'' -> scans s (c :: t) l s''.
Proof. intros E H. apply (scans_app s [c] [] s' t l s''); [now apply scans_one|exact H]. Qed.

(** * Hexadecimal escapes *)
Lemma hexval_digit d : (d < 16)%N -> hexval (hexdigit d) = Some d.
Proof.
  intros H. destruct d as [|p]; [reflexivity|].
  do 4 (destruct p as [p|p|]; [| |reflexivity]); lia || reflexivity.
Qed.
Lemma scans_hex q acc j k : forall n m, (n < 16 ^ N.of_nat k)%N ->
  scans (InHex q acc (k + S j) m) (hex k n) [] (InHex q acc (S j) (m * 16 ^ N.of_nat k + n)%N).
Proof.
  revert j. induction k as [|k IH]; intros j n m H.
  - assert (n = 0%N) by (cbn in H; lia). subst n. cbn [hex Nat.add]. change (16 ^ N.of_nat 0)%N with 1%N.
    replace (m * 1 + 0)%N with m by lia. apply scans_nil.
  - cbn [hex]. change (@nil token) with (@nil token ++ []).
    assert (P : (16 ^ N.of_nat (S k) = 16 * 16 ^ N.of_nat k)%N) by (rewrite Nat2N.inj_succ, N.pow_succ_r'; reflexivity).
    rewrite P in H.
    assert (D : (n = 16 * (n / 16) + n mod 16)%N) by (apply N.div_mod; lia).
    assert (M : (n mod 16 < 16)%N) by (apply N.mod_lt; lia).
    set (d := (n / 16)%N) in *. set (e := (n mod 16)%N) in *.
    assert (L : (d < 16 ^ N.of_nat k)%N) by lia.
    replace (S k + S j) with (k + S (S j)) by lia.
    apply (scans_app _ _ _ _ _ _ _ (IH (S j) d m L)).
    apply scans_one. cbn [next_char]. rewrite hexval_digit by exact M. cbv zeta. rewrite P.
    do 3 f_equal. lia.
Qed.
Lemma scans_hex_all q acc k n : (n < 16 ^ N.of_nat (S k))%N -> (n <= 1114111)%N ->
  scans (InHex q acc (S k) 0) (hex (S k) n) [] (InStr q (acc ++ [n])).
Proof.
  intros H C. cbn [hex]. change (@nil token) with (@nil token ++ []).
  assert (P : (16 ^ N.of_nat (S k) = 16 * 16 ^ N.of_nat k)%N) by (rewrite Nat2N.inj_succ, N.pow_succ_r'; reflexivity).
  rewrite P in H.
  assert (D : (n = 16 * (n / 16) + n mod 16)%N) by (apply N.div_mod; lia).
  assert (M : (n mod 16 < 16)%N) by (apply N.mod_lt; lia).
  set (d := (n / 16)%N) in *. set (e := (n mod 16)%N) in *.
  assert (L : (d < 16 ^ N.of_nat k)%N) by lia.
  pose proof (scans_hex q acc 0 k d 0%N L) as X. rewrite Nat.add_1_r in X.
  apply (scans_app _ _ _ _ _ _ _ X). apply scans_one. cbn [next_char]. rewrite hexval_digit by exact M. cbv zeta.
  replace (16 * (0 * 16 ^ N.of_nat k + d) + e)%N with n by lia.
  now rewrite (proj2 (N.leb_le n 1114111) C).
Qed.

Lemma quote_of_quote t : is_quote (quote_of t) = true.
Proof. unfold quote_of. destruct (_ && _); reflexivity. Qed.
Lemma is_quote_cases q : is_quote q = true -> q = 39%N \/ q = 34%N.
Proof. unfold is_quote. rewrite orb_true_iff, !N.eqb_eq. tauto. Qed.
Lemma scans_esc printable q acc c : is_quote q = true -> char c -> scans (InStr q acc) (esc printable q c) [] (InStr q (acc ++ [c])).
Proof.
  intros Q C. unfold char in C. assert (Q2 : q = 39%N \/ q = 34%N) by now apply is_quote_cases.
  assert (Nq : N.eqb c_bsl q = false) by (destruct Q2; subst; reflexivity).
  assert (B : next_char (InStr q acc) c_bsl = Some ([], InEsc q acc)) by (cbn [next_char]; rewrite Nq; reflexivity).
  unfold esc.
  destruct (N.eqb c q || N.eqb c c_bsl) eqn:E1.
  { apply (scans_cons _ _ _ _ _ _ B), scans_one. cbn [next_char].
    replace (N.eqb c 92 || is_quote c) with true; [reflexivity|]. apply orb_true_iff in E1. symmetry. apply orb_true_iff.
    destruct E1 as [E|E]; apply N.eqb_eq in E; subst; [now right|left; reflexivity]. }
  apply orb_false_iff in E1. destruct E1 as [E1 E2]. fold c_bsl in E2.
  destruct (N.eqb_spec c 9) as [->|E3]. { apply (scans_cons _ _ _ _ _ _ B), scans_one. reflexivity. }
  destruct (N.eqb_spec c 10) as [->|E4]. { apply (scans_cons _ _ _ _ _ _ B), scans_one. reflexivity. }
  destruct (N.eqb_spec c 13) as [->|E5]. { apply (scans_cons _ _ _ _ _ _ B), scans_one. reflexivity. }
  assert (RAW : c <> 0%N -> scans (InStr q acc) [c] [] (InStr q (acc ++ [c]))).
  { intros Z. apply scans_one. cbn [next_char]. rewrite E1. unfold c_bsl in E2. rewrite E2.
    rewrite (proj2 (N.eqb_neq _ _) E4), (proj2 (N.eqb_neq _ _) E5), (proj2 (N.eqb_neq _ _) Z). reflexivity. }
  destruct ((c <? 32)%N || N.eqb c 127) eqn:E6.
  { apply (scans_cons _ _ _ _ _ _ B). apply (scans_cons _ _ (InHex q acc 2 0%N)); [reflexivity|].
    apply scans_hex_all; [|exact C]. change (16 ^ N.of_nat 2)%N with 256%N. apply orb_true_iff in E6.
    rewrite N.ltb_lt, N.eqb_eq in E6. lia. }
  apply orb_false_iff in E6. destruct E6 as [E6 E7]. apply N.ltb_ge in E6.
  destruct (c <? 127)%N; [apply RAW; lia|].
  destruct (printable c); [apply RAW; lia|].
  destruct (N.ltb_spec c 256).
  { apply (scans_cons _ _ _ _ _ _ B). apply (scans_cons _ _ (InHex q acc 2 0%N)); [reflexivity|]. apply scans_hex_all; assumption. }
  destruct (N.ltb_spec c 65536).
  { apply (scans_cons _ _ _ _ _ _ B). apply (scans_cons _ _ (InHex q acc 4 0%N)); [reflexivity|]. apply scans_hex_all; assumption. }
  apply (scans_cons _ _ _ _ _ _ B). apply (scans_cons _ _ (InHex q acc 8 0%N)); [reflexivity|]. apply scans_hex_all; [|assumption].
  change (16 ^ N.of_nat 8)%N with 4294967296%N. lia.
Qed.
Lemma scans_escs printable q t : is_quote q = true -> Forall char t -> forall acc, scans (InStr q acc) (flat_map (esc printable q) t) [] (InStr q (acc ++ t)).
Proof.
  intros Q C. induction C as [|c t Hc Ht IH]; intros acc; cbn [flat_map].
  - rewrite app_nil_r. apply scans_nil.
  - change (@nil token) with (@nil token ++ []). apply (scans_app _ _ _ (InStr q (acc ++ [c]))); [now apply scans_esc|].
    replace (acc ++ c :: t) with ((acc ++ [c]) ++ t) by now rewrite <- app_assoc. apply IH.
Qed.
Lemma scans_str printable t : Forall char t -> scans Between (repr_str printable t) [KStr t] Between.
Proof.
  intros C. unfold repr_str. cbv zeta. pose proof (quote_of_quote t) as Q.
  assert (F : next_char Between (quote_of t) = Some ([], InStr (quote_of t) [])).
  { destruct (is_quote_cases _ Q) as [-> | ->]; reflexivity. }
  apply (scans_cons _ _ _ _ _ _ F). change [KStr t] with ([] ++ [KStr t]).
  apply (scans_app _ _ _ (InStr (quote_of t) t)); [apply (scans_escs printable _ t Q C [])|].
  apply scans_one. cbn [next_char]. now rewrite N.eqb_refl.
Qed.
Lemma literal_repr printable t : Forall char t -> literal (repr_str printable t) = Some t.
Proof.
  intros C. unfold literal, tokens. pose proof (scans_str printable t C []) as H. rewrite app_nil_r in H. rewrite H. reflexivity.
Qed.

(** * Names *)
Definition ends (r : text) : Prop := match r with [] => True | c :: _ => is_namechar c = false end.
Lemma tokens_name_rest n : forall acc, Forall (fun c => is_letter c = true) n -> forall r, ends r ->
  tokens_from (InName acc) (n ++ r) = match tokens_from Between r with Some l => Some (KName (acc ++ n) :: l) | None => None end.
Proof.
  induction n as [|c n IH]; intros acc H r E.
  - rewrite app_nil_r. cbn [app]. destruct r as [|d r]; [reflexivity|]. cbn [ends] in E. cbn [tokens_from next_char]. rewrite E.
    destruct (first_char d) as [[l s]|]; [|reflexivity]. destruct (tokens_from s r); reflexivity.
  - inversion H as [|x y Hc Hn]; subst. cbn [app tokens_from next_char]. unfold is_namechar. rewrite Hc. cbn [orb].
    rewrite IH by assumption. rewrite <- app_assoc. cbn [app]. destruct (tokens_from Between r); reflexivity.
Qed.
Lemma first_letter c : is_letter c = true -> first_char c = Some ([], InName [c]).
Proof.
  intros H. unfold first_char. rewrite H. destruct (N.eqb_spec c 32) as [->|]; [discriminate H|reflexivity].
Qed.
Definition scansE (t : text) (l : list token) : Prop :=
  forall r, ends r -> tokens_from Between (t ++ r) = match tokens_from Between r with Some l' => Some (l ++ l') | None => None end.
Lemma scansE_name n : n <> [] -> Forall (fun c => is_letter c = true) n -> scansE n [KName n].
Proof.
  intros Z H r E. destruct n as [|c n]; [congruence|]. inversion H; subst. cbn [app tokens_from next_char].
  rewrite first_letter by assumption. rewrite tokens_name_rest by assumption. cbn [app].
  destruct (tokens_from Between r); reflexivity.
Qed.
Lemma scans_scansE t l : scans Between t l Between -> scansE t l.
Proof. intros H r _. apply H. Qed.
(** a piece that can follow a name, then anything *)
Lemma scansE_app t l d t' l' : scansE t l -> is_namechar d = false -> scansE (d :: t') l' -> scansE (t ++ d :: t') (l ++ l').
Proof.
  intros A D B r E. rewrite <- app_assoc. rewrite A by exact D. rewrite B by exact E.
  destruct (tokens_from Between r); [|reflexivity]. now rewrite app_assoc.
Qed.
Lemma scansE_sep t l t' l' : scans Between t l Between -> scansE t' l' -> scansE (t ++ t') (l ++ l').
Proof. intros A B r E. rewrite <- app_assoc, A, B by exact E. destruct (tokens_from Between r); [|reflexivity]. now rewrite app_assoc. Qed.
Lemma scans_of_E t l d : scansE t l -> is_namechar d = false -> forall k, next_char Between d = Some ([k], Between) -> scans Between (t ++ [d]) (l ++ [k]) Between.
Proof.
  intros A D k N r. rewrite <- app_assoc. cbn [app]. rewrite A by exact D. cbn [tokens_from]. rewrite N.
  destruct (tokens_from Between r); [|reflexivity]. now rewrite <- app_assoc.
Qed.

Fixpoint name_toks (p : list text) : list token :=
  match p with [] => [] | [n] => [KName n] | n :: p' => KName n :: KDot :: name_toks p' end.
Lemma scansE_names p : p <> [] -> Forall (fun n => n <> [] /\ Forall (fun c => is_letter c = true) n) p -> scansE (join_with (txt ".") p) (name_toks p).
Proof.
  intros Z H. induction H as [|n p [Hz Hn] Hp IH]; [congruence|]. destruct p as [|m p].
  - now apply scansE_name.
  - change (join_with (txt ".") (n :: m :: p)) with (n ++ 46%N :: join_with (txt ".") (m :: p)).
    change (name_toks (n :: m :: p)) with ([KName n] ++ ([KDot] ++ name_toks (m :: p))).
    apply scansE_app; [now apply scansE_name|reflexivity|]. change (46%N :: ?x) with ([46%N] ++ x).
    apply scansE_sep; [now apply scans_one|]. apply IH. discriminate.
Qed.
Fixpoint arg_toks (s : list text) : list token :=
  match s with [] => [] | [t] => [KStr t] | t :: s' => KStr t :: KComma :: arg_toks s' end.
Section P.
Variable printable : N -> bool.
Lemma scans_args s : Forall (Forall char) s -> scans Between (join_with (txt ", ") (map (repr_word printable) (map WStr s))) (arg_toks s) Between.
Proof.
  intros H. induction H as [|t s Ht Hs IH]; [apply scans_nil|]. destruct s as [|u s].
  - cbn [map join_with repr_word arg_toks]. now apply scans_str.
  - change (join_with (txt ", ") (map (repr_word printable) (map WStr (t :: u :: s)))) with
      (repr_str printable t ++ txt ", " ++ join_with (txt ", ") (map (repr_word printable) (map WStr (u :: s)))).
    change (arg_toks (t :: u :: s)) with ([KStr t] ++ ([KComma] ++ arg_toks (u :: s))).
    apply scans_app with Between; [now apply scans_str|]. apply scans_app with Between; [|exact IH].
    change (txt ", ") with [44%N; 32%N]. change [KComma] with ([KComma] ++ []). change [44%N; 32%N] with ([44%N] ++ [32%N]).
    apply scans_app with Between; now apply scans_one.
Qed.

(** * The words of a command *)
Lemma letter_spec c : letter c = true <-> ascii_letter c.
Proof. unfold letter, ascii_letter. rewrite orb_true_iff, !andb_true_iff, !N.leb_le. tauto. Qed.
Lemma ascii_is_letter c : ascii_letter c -> is_letter c = true.
Proof. intros H. unfold is_letter, in_range. apply letter_spec in H. unfold letter in H. rewrite H. reflexivity. Qed.
Lemma forallb_letter t : forallb letter t = true <-> Forall ascii_letter t.
Proof. rewrite forallb_forall, Forall_forall. split; intros H x I; apply letter_spec, H, I. Qed.
Lemma re_name_spec t : re_name t = true <-> wordlike t.
Proof.
  unfold re_name, wordlike. rewrite orb_true_iff, forallb_letter. split; (intros [H|H]; [now left|right]).
  - destruct (rev t) as [|c r] eqn:E; [discriminate|]. apply andb_true_iff in H. destruct H as [A B]. apply N.eqb_eq in A. subst c.
    exists (rev r). split.
    + rewrite <- (rev_involutive t), E. reflexivity.
    + apply forallb_letter in B. apply Forall_rev. exact B.
  - destruct H as (u & -> & H). rewrite rev_app_distr. cbn [rev app]. rewrite N.eqb_refl. apply forallb_letter, Forall_rev, H.
Qed.
Lemma split_spec ts : exists p s, split_args (map WStr ts) = (p, map WStr s) /\ ts = p ++ s /\ Forall wordlike p /\
  match s with [] => True | t :: _ => ~ wordlike t end.
Proof.
  induction ts as [|t ts (p & s & E & A & B & C)]; [exists [], []; cbn; auto|]. cbn [map split_args].
  destruct (re_name t) eqn:R.
  - rewrite E. exists (t :: p), s. subst ts. repeat split; [constructor; [now apply re_name_spec|exact B]|exact C].
  - exists [], (t :: ts). repeat split; [constructor|]. rewrite <- re_name_spec. congruence.
Qed.
Definition head_names (p : list text) : list text := match p with [] => [txt "_"] | _ => p end.
Definition cmd_toks (p s : list text) : list token :=
  name_toks (head_names p) ++ match s with [] => [] | _ => KOpen :: arg_toks s ++ [KClose] end.
Lemma scansE_words ts p s : split_args (map WStr ts) = (p, map WStr s) -> Forall name_ok p -> Forall (Forall char) s ->
  scansE (repr_words printable (map WStr ts)) (cmd_toks p s).
Proof.
  intros E P C. unfold repr_words. rewrite E. unfold cmd_toks.
  assert (H : scansE match p with [] => txt "_" | _ => join_with (txt ".") p end (name_toks (head_names p))).
  { unfold head_names. destruct p as [|n p].
    - apply scansE_name; [discriminate|repeat constructor].
    - apply scansE_names; [discriminate|]. eapply Forall_impl; [|exact P]. intros m (Z & L & _). split; [exact Z|].
      eapply Forall_impl; [|exact L]. apply ascii_is_letter. }
  destruct s as [|t s].
  - cbn [map]. now rewrite app_nil_r.
  - set (prefix := match p with [] => _ | _ => _ end) in *. set (nt := name_toks _) in *.
    change (match map WStr (t :: s) with [] => prefix | _ :: _ => ?x end) with x.
    change (txt "(" ++ ?x) with (40%N :: x). apply scansE_app; [exact H|reflexivity|].
    change (40%N :: ?x) with ([40%N] ++ x). change (KOpen :: ?x) with ([KOpen] ++ x).
    apply scansE_sep; [now apply scans_one|]. apply scans_scansE. apply scans_app with Between; [now apply scans_args|now apply scans_one].
Qed.

(** * Reading a command back *)
Lemma keyword_spec t : is_keyword t = true <-> In t keywords.
Proof.
  unfold is_keyword. rewrite existsb_exists. split.
  - intros (k & I & E). destruct (list_eq_dec N.eq_dec t k); congruence.
  - intros I. exists t. split; [exact I|]. destruct (list_eq_dec N.eq_dec t t); congruence.
Qed.
Lemma keyword_false t : ~ In t keywords -> is_keyword t = false.
Proof. rewrite <- keyword_spec. destruct (is_keyword t); congruence. Qed.
Lemma feed_attrs p : Forall (fun n => ~ In n keywords) p -> p <> [] -> forall o a f ss rest,
  feed_all (mkR o a (Dotted f ss)) (name_toks p ++ rest) = feed_all (mkR o a (Have f (ss ++ map SAttr p))) rest.
Proof.
  intros H. induction H as [|n p Hn Hp IH]; intros Z o a f ss rest; [congruence|]. destruct p as [|m p].
  - cbn [name_toks app feed_all feed r_place r_or r_add]. now rewrite keyword_false.
  - change (name_toks (n :: m :: p) ++ rest) with (KName n :: KDot :: (name_toks (m :: p) ++ rest)).
    cbn [feed_all feed r_place r_or r_add]. rewrite keyword_false by exact Hn. cbn [feed r_place r_or r_add].
    rewrite IH by discriminate. rewrite <- app_assoc. reflexivity.
Qed.
Lemma feed_names n p : Forall (fun n => ~ In n keywords) (n :: p) -> forall o a rest,
  feed_all (mkR o a Want) (name_toks (n :: p) ++ rest) = feed_all (mkR o a (Have n (map SAttr p))) rest.
Proof.
  intros H o a rest. inversion H as [|x y Hn Hp]; subst. destruct p as [|m p].
  - cbn [name_toks app feed_all feed r_place r_or r_add]. now rewrite keyword_false.
  - change (name_toks (n :: m :: p) ++ rest) with (KName n :: KDot :: (name_toks (m :: p) ++ rest)).
    cbn [feed_all feed r_place r_or r_add]. rewrite keyword_false by exact Hn. cbn [feed r_place r_or r_add].
    rewrite feed_attrs by (assumption || discriminate). reflexivity.
Qed.
Lemma feed_args s : s <> [] -> forall o a f ss args rest,
  feed_all (mkR o a (Arg f ss args)) (arg_toks s ++ KClose :: rest) = feed_all (mkR o a (Have f (ss ++ [call_of (args ++ s)]))) rest.
Proof.
  induction s as [|t s IH]; intros Z o a f ss args rest; [congruence|]. destruct s as [|u s].
  - reflexivity.
  - change (arg_toks (t :: u :: s) ++ KClose :: rest) with (KStr t :: KComma :: (arg_toks (u :: s) ++ KClose :: rest)).
    cbn [feed_all feed r_place r_or r_add]. rewrite IH by discriminate. now rewrite <- app_assoc.
Qed.
Definition steps_of (p s : list text) : list CommandModel.step :=
  map SAttr (tl p) ++ match s with [] => [] | _ => [call_of s] end.
Definition first_of (p : list text) : text := match p with n :: _ => n | [] => txt "_" end.
Lemma feed_cmd p s : Forall name_ok p -> forall o a rest,
  feed_all (mkR o a Want) (cmd_toks p s ++ rest) = feed_all (mkR o a (Have (first_of p) (steps_of p s))) rest.
Proof.
  intros H o a rest. unfold cmd_toks. rewrite <- app_assoc.
  assert (E : forall rest, feed_all (mkR o a Want) (name_toks (head_names p) ++ rest) = feed_all (mkR o a (Have (first_of p) (map SAttr (tl p)))) rest).
  { intros r. destruct p as [|n p].
    - reflexivity.
    - unfold head_names. rewrite feed_names; [reflexivity|]. eapply Forall_impl; [|exact H]. intros m (_ & _ & K). exact K. }
  rewrite E. unfold steps_of. destruct s as [|t s]; [now rewrite app_nil_r|].
  change ((KOpen :: ?x) ++ rest) with (KOpen :: (x ++ rest)). rewrite <- app_assoc. cbn [app feed_all feed r_place r_or r_add].
  rewrite feed_args by discriminate. reflexivity.
Qed.

Section Env.
Context (w : world) (cwd : text) (sc : scope).
Notation plain_words := (plain_words w cwd sc reserved env_reserved).
Notation plain_cmd := (plain_cmd w cwd sc reserved env_reserved).
Notation plain_sum := (plain_sum w cwd sc reserved env_reserved).
Notation plain := (plain w cwd sc reserved env_reserved).
Notation same := (same w cwd sc).
Lemma arg_list_stays ts : Forall (stays w cwd sc) ts -> arg_list w cwd sc (map AStr ts) = Ok (map WStr ts).
Proof.
  intros H. induction H as [|t ts Ht Hts IH]; [reflexivity|]. cbn [map arg_list arg_words expand_one]. unfold stays in Ht. rewrite Ht.
  cbn [bind_res map]. rewrite IH. reflexivity.
Qed.
Lemma prefix_ok ts p s : names_ok reserved env_reserved ts -> ts = p ++ s -> Forall wordlike p ->
  Forall name_ok p /\ (forall n q, p = n :: q -> ~ In n env_reserved) /\ Forall (fun t => ~ In t reserved) (tl p).
Proof.
  intros H -> F.
  assert (X : forall pre t post, p = pre ++ t :: post -> name_ok t /\ (pre = [] -> ~ In t env_reserved) /\ (pre <> [] -> ~ In t reserved)).
  { intros pre t post ->. apply Forall_app in F. destruct F as [F1 F2]. inversion F2; subst.
    apply (H pre t (post ++ s)); [now rewrite <- app_assoc|assumption..]. }
  split; [|split].
  - rewrite Forall_forall. intros t I. apply in_split in I. destruct I as (l1 & l2 & E). now apply (X l1 t l2).
  - intros n q E. destruct (X [] n q E) as (_ & K & _). now apply K.
  - rewrite Forall_forall. intros t I. destruct p as [|n q]; [destruct I|]. cbn [tl] in I. apply in_split in I. destruct I as (l1 & l2 & ->).
    destruct (X (n :: l1) t l2 eq_refl) as (_ & _ & K). apply K. discriminate.
Qed.
Lemma spelled_back ts p s : names_ok reserved env_reserved ts -> ts = p ++ s -> Forall wordlike p ->
  spell_env (first_of p) (steps_of p s) = construct CBase (map AStr ts).
Proof.
  intros W E F. destruct (prefix_ok ts p s W E F) as (N & R & T). rewrite spell_env_words.
  - unfold spelled. f_equal. subst ts. destruct p as [|n p].
    + unfold steps_of. cbn [first_of tl map app]. destruct s as [|t s]; [reflexivity|]. cbn [flat_map call_of step_words dict_arg app].
      rewrite !app_nil_r. reflexivity.
    + cbn [first_of]. rewrite text_eqb_neq.
      * unfold steps_of. cbn [tl]. rewrite flat_map_app, map_app. cbn [map app]. f_equal.
        assert (A : flat_map step_words (map SAttr p) = map AStr p) by (clear; induction p as [|x p IH]; cbn; congruence).
        rewrite A. f_equal. destruct s as [|t s]; [reflexivity|]. cbn [flat_map call_of step_words dict_arg app]. now rewrite !app_nil_r.
      * intros ->. inversion N as [|x y (_ & L & _) _]. inversion L as [|x' y' A _]. unfold ascii_letter in A. lia.
  - destruct p as [|n p]; [|now apply (R n p)]. cbn [first_of]. unfold env_reserved. cbn. intros K.
    repeat (destruct K as [K|K]; [discriminate K|]); exact K.
  - unfold steps_of. apply Forall_app. split.
    + rewrite Forall_map. exact T.
    + destruct s; repeat constructor.
Qed.

Lemma hide_no_pipe a : no_pipe a -> hide a = a.
Proof.
  destruct a as [t|t|t p|h fd|kw]; cbn; try reflexivity; [tauto|]. intros H. f_equal. induction H as [|[k v] kw Hv Hkw IH]; [reflexivity|].
  cbn [map]. rewrite IH. f_equal. cbn [fst snd] in *. destruct v as [| |a]; try reflexivity. destruct a; cbn in *; tauto || reflexivity.
Qed.
Lemma shown_plain c : plain_cmd c -> exists ts, shown_words w cwd sc c = Ok (map WStr ts) /\ arg_list w cwd sc (c_arg c) = Ok (map WStr ts) /\ plain_words ts /\
  exists d, construct CBase (map AStr ts) = Ok d /\ c_cls d = c_cls c.
Proof.
  intros (f & rest & ts & A & K & S & NP & L & W). exists ts. split; [|split; [exact L|split; [exact W|]]].
  - unfold shown_words. rewrite A. cbn [map]. change (hide (AStr f)) with (AStr f).
    replace (map hide rest) with rest; [now rewrite <- A|]. symmetry. clear -NP. induction NP as [|a l Ha Hl IH]; [reflexivity|].
    cbn [map]. now rewrite IH, hide_no_pipe.
  - rewrite A in L. cbn [arg_list arg_words expand_one] in L. unfold stays in S. rewrite S in L. cbn [bind_res map] in L.
    destruct (arg_list w cwd sc rest) as [r|] eqn:E; cbn [bind_res app] in L; [|discriminate]. injection L as L.
    destruct ts as [|t ts]; [discriminate|]. cbn [map] in L. injection L as L1 L2. subst t.
    rewrite A in K. cbn [construct] in K. cbn [map construct]. destruct (dispatch (AStr f)) as [k|]; [|discriminate]. cbn [bind_res] in *.
    eexists. split; [reflexivity|]. injection K as <-. reflexivity.
Qed.

(** * Pipelines *)
Variable failed_text : tree -> text.
Notation show_raw := (show_raw printable w cwd sc failed_text).
Definition text_of (p : tree) : text := match show_raw p with Ok t => t | Err _ => failed_text p end.

(** After a sum read from state (o, a): the new left operand and the last primary. *)
Definition reads_sum (p : tree) : Prop := exists t l, show_raw p = Ok t /\ scansE t l /\
  forall o a, exists a' f ss, (forall rest, feed_all (mkR o a Want) (l ++ rest) = feed_all (mkR o a' (Have f ss)) rest) /\
    match a with
    | None => exists q, eval (joined XAdd a' (XPrim f ss)) = Ok q /\ same q p
    | Some x => forall u v, eval x = Ok u -> same u v -> exists q, eval (joined XAdd a' (XPrim f ss)) = Ok q /\ same q (TGroup v p)
    end.
Lemma reads_cmd c : plain_cmd c -> reads_sum (TCmd c).
Proof.
  intros H. destruct (shown_plain c H) as (ts & SW & AL & W & d & D & DC).
  destruct (split_spec ts) as (p & s & E & A & B & _). assert (W4 : names_ok reserved env_reserved ts) by apply W. destruct (prefix_ok ts p s W4 A B) as (N & _ & _).
  assert (C : Forall (Forall char) s) by (destruct W as (_ & _ & C & _); subst ts; apply Forall_app in C; tauto).
  exists (repr_words printable (map WStr ts)), (cmd_toks p s). split; [|split].
  - cbn [ReprModel.show_raw]. now rewrite SW.
  - now apply scansE_words.
  - intros o a. exists a, (first_of p), (steps_of p s). split; [intros rest; now apply feed_cmd|].
    assert (V : eval (XPrim (first_of p) (steps_of p s)) = Ok (TCmd d)) by (cbn [eval]; now rewrite (spelled_back ts p s W4 A B), D).
    assert (SM : same (TCmd d) (TCmd c)).
    { apply same_cmd with (map WStr ts); [exact DC| |exact AL]. destruct (construct_wf _ _ D) as [-> _].
      destruct W as (_ & S & _). now apply arg_list_stays. }
    destruct a as [x|].
    + intros u v U UV. exists (TGroup u (TCmd d)). cbn [joined eval]. cbn [eval] in V. rewrite U. cbn [bind_res]. rewrite V. split; [reflexivity|].
      now apply same_group.
    + exists (TCmd d). split; [exact V|exact SM].
Qed.
Lemma scansE_op t l t' l' d k : scansE t l -> scansE t' l' -> next_char Between d = Some ([k], Between) -> is_namechar d = false ->
  scansE (t ++ [32%N; d; 32%N] ++ t') (l ++ [k] ++ l').
Proof.
  intros A B N D. change ([32%N; d; 32%N] ++ t') with (32%N :: ([d; 32%N] ++ t')). apply scansE_app; [exact A|reflexivity|].
  change (32%N :: ([d; 32%N] ++ t')) with ([32%N; d; 32%N] ++ t'). apply scansE_sep; [|exact B].
  change [32%N; d; 32%N] with ([32%N] ++ ([d] ++ [32%N])). change [k] with ([] ++ ([k] ++ [])).
  apply scans_app with Between; [now apply scans_one|]. apply scans_app with Between; now apply scans_one.
Qed.
Lemma reads_group a b : reads_sum a -> reads_sum b -> reads_sum (TGroup a b).
Proof.
  intros (ta & la & Sa & Ea & Fa) (tb & lb & Sb & Eb & Fb).
  exists (ta ++ txt " + " ++ tb), (la ++ [KPlus] ++ lb). split; [|split].
  - cbn [ReprModel.show_raw]. now rewrite Sa, Sb.
  - change (txt " + ") with [32%N; 43%N; 32%N]. now apply scansE_op.
  - intros o x. destruct (Fa o x) as (a1 & f1 & s1 & G1 & V1).
    destruct (Fb o (Some (joined XAdd a1 (XPrim f1 s1)))) as (a2 & f2 & s2 & G2 & V2). cbv beta iota in V2.
    exists a2, f2, s2. split.
    + intros rest. rewrite <- !app_assoc, G1. cbn [app feed_all feed r_place r_or r_add]. apply G2.
    + destruct x as [x|].
      * intros u v U UV. destruct (V1 u v U UV) as (q1 & Q1 & S1). destruct (V2 q1 (TGroup v a) Q1 S1) as (q2 & Q2 & S2).
        exists q2. split; [exact Q2|]. apply same_trans with (1 := S2).
        apply same_group_assoc.
      * destruct V1 as (q1 & Q1 & S1). destruct (V2 q1 a Q1 S1) as (q2 & Q2 & S2). exists q2. split; [exact Q2|exact S2].
Qed.

Lemma plain_sum_reads p : plain_sum p -> reads_sum p.
Proof. intros H. induction H; [now apply reads_cmd|now apply reads_group]. Qed.
Definition reads (p : tree) : Prop := exists t l, show_raw p = Ok t /\ scansE t l /\
  forall o, exists o' a' f ss, (forall rest, feed_all (mkR o None Want) (l ++ rest) = feed_all (mkR o' a' (Have f ss)) rest) /\
    let x' := joined XOr o' (joined XAdd a' (XPrim f ss)) in
    match o with
    | None => exists q, eval x' = Ok q /\ same q p
    | Some x => forall u v, eval x = Ok u -> same u v -> exists q, eval x' = Ok q /\ same q (TPipe v p)
    end.
Lemma reads_sum_reads p : reads_sum p -> reads p.
Proof.
  intros (t & l & S & E & F). exists t, l. split; [exact S|split; [exact E|]]. intros o.
  destruct (F o None) as (a' & f & ss & G & q & Q & SQ). exists o, a', f, ss. split; [exact G|]. cbv zeta. destruct o as [x|].
  - intros u v U UV. exists (TPipe u q). cbn [joined]. cbn [eval]. rewrite U. cbn [bind_res]. rewrite Q. split; [reflexivity|].
    now apply same_pipe.
  - exists q. split; assumption.
Qed.
Lemma reads_pipe a b : reads a -> reads b -> reads (TPipe a b).
Proof.
  intros (ta & la & Sa & Ea & Fa) (tb & lb & Sb & Eb & Fb).
  exists (ta ++ txt " | " ++ tb), (la ++ [KBar] ++ lb). split; [|split].
  - cbn [ReprModel.show_raw]. now rewrite Sa, Sb.
  - change (txt " | ") with [32%N; 124%N; 32%N]. now apply scansE_op.
  - intros o. destruct (Fa o) as (o1 & a1 & f1 & s1 & G1 & V1).
    destruct (Fb (Some (joined XOr o1 (joined XAdd a1 (XPrim f1 s1))))) as (o2 & a2 & f2 & s2 & G2 & V2). cbv beta iota zeta in V1, V2.
    exists o2, a2, f2, s2. split.
    + intros rest. rewrite <- !app_assoc, G1. cbn [app feed_all feed r_place r_or r_add]. apply G2.
    + cbv zeta. destruct o as [x|].
      * intros u v U UV. destruct (V1 u v U UV) as (q1 & Q1 & S1). destruct (V2 q1 (TPipe v a) Q1 S1) as (q2 & Q2 & S2).
        exists q2. split; [exact Q2|]. apply same_trans with (1 := S2). apply same_pipe_assoc.
      * destruct V1 as (q1 & Q1 & S1). destruct (V2 q1 a Q1 S1) as (q2 & Q2 & S2). exists q2. split; [exact Q2|exact S2].
Qed.
Lemma plain_reads p : plain p -> reads p.
Proof. intros H. induction H; [now apply reads_sum_reads, plain_sum_reads|now apply reads_pipe]. Qed.
Lemma retyped p : plain p -> exists t q, show_raw p = Ok t /\ typed t q /\ same q p.
Proof.
  intros H. destruct (plain_reads p H) as (t & l & S & E & F). destruct (F None) as (o' & a' & f & ss & G & q & Q & SQ).
  exists t, q. split; [exact S|split; [|exact SQ]]. exists (joined XOr o' (joined XAdd a' (XPrim f ss))). split; [|exact Q].
  unfold parse, tokens. pose proof (E [] I) as X. rewrite !app_nil_r in X. rewrite X. cbn [tokens_from]. rewrite G. reflexivity.
Qed.

(** * Where it fails *)
Definition kind (p : tree) : nat := match p with TCmd _ => 0 | TPipe _ _ => 1 | TGroup _ _ => 2 | TRedir _ _ => 3 end.
Lemma same_kind p q : same p q -> kind p = kind q.
Proof. intros H. induction H; try reflexivity. congruence. Qed.
Lemma same_cmds p q : same p q -> forall c, p = TCmd c -> exists d, q = TCmd d /\ c_cls c = c_cls d /\ arg_list w cwd sc (c_arg c) = arg_list w cwd sc (c_arg d).
Proof.
  intros H. induction H; intros k E; try discriminate.
  - injection E as <-. exists d. repeat split; congruence.
  - subst p. exists k. auto.
  - destruct (IHsame1 k E) as (d & -> & A & B). destruct (IHsame2 d eq_refl) as (e & -> & A' & B'). exists e. repeat split; congruence.
Qed.
Lemma typed_fun t p q : typed t p -> typed t q -> p = q.
Proof. intros (x & A & B) (y & C & D). congruence. Qed.
(** A pipe within a group: the printed form reads as another pipeline. *)
Lemma misread_right a b c : plain_sum a -> plain_sum b -> plain c -> exists t q,
  show_raw (TGroup a (TPipe b c)) = Ok t /\ typed t q /\ same q (TPipe (TGroup a b) c) /\ ~ same q (TGroup a (TPipe b c)).
Proof.
  intros A B C. destruct (retyped (TPipe (TGroup a b) c)) as (t & q & S & T & Q).
  { apply p_pipe; [apply p_sum; now apply ps_group|exact C]. }
  exists t, q. split; [|split; [exact T|split; [exact Q|]]].
  - rewrite <- S. cbn [ReprModel.show_raw]. now rewrite <- !app_assoc.
  - intros X. apply same_kind in X, Q. cbn in X, Q. congruence.
Qed.
Lemma misread_left a b c : plain a -> plain_sum b -> plain_sum c -> exists t q,
  show_raw (TGroup (TPipe a b) c) = Ok t /\ typed t q /\ same q (TPipe a (TGroup b c)) /\ ~ same q (TGroup (TPipe a b) c).
Proof.
  intros A B C. destruct (retyped (TPipe a (TGroup b c))) as (t & q & S & T & Q).
  { apply p_pipe; [exact A|apply p_sum; now apply ps_group]. }
  exists t, q. split; [|split; [exact T|split; [exact Q|]]].
  - rewrite <- S. cbn [ReprModel.show_raw]. now rewrite <- !app_assoc.
  - intros X. apply same_kind in X, Q. cbn in X, Q. congruence.
Qed.
Lemma read_words ts : Forall (Forall char) ts -> names_ok reserved env_reserved ts -> forall d, construct CBase (map AStr ts) = Ok d ->
  typed (repr_words printable (map WStr ts)) (TCmd d).
Proof.
  intros C N d D. destruct (split_spec ts) as (p & s & E & A & B & _). destruct (prefix_ok ts p s N A B) as (P & _ & _).
  assert (Cs : Forall (Forall char) s) by (subst ts; apply Forall_app in C; tauto).
  exists (XPrim (first_of p) (steps_of p s)). split.
  - unfold parse, tokens. pose proof (scansE_words ts p s E P Cs [] I) as X. rewrite app_nil_r in X. rewrite X. cbn [tokens_from].
    rewrite feed_cmd by exact P. reflexivity.
  - cbn [eval]. now rewrite (spelled_back ts p s N A B), D.
Qed.
(** A word that is not what it expands to. *)
Lemma not_stable ts c ws : ts <> [] -> Forall (Forall char) ts -> names_ok reserved env_reserved ts ->
  shown_words w cwd sc c = Ok (map WStr ts) -> arg_list w cwd sc (c_arg c) = Ok ws -> arg_list w cwd sc (map AStr ts) <> Ok ws ->
  exists t q, show_raw (TCmd c) = Ok t /\ typed t q /\ ~ same q (TCmd c).
Proof.
  intros Z C N SW A X. destruct ts as [|t ts]; [congruence|].
  assert (D : exists d, construct CBase (map AStr (t :: ts)) = Ok d) by (eexists; reflexivity). destruct D as (d & D).
  exists (repr_words printable (map WStr (t :: ts))), (TCmd d). split; [|split].
  - cbn [ReprModel.show_raw]. now rewrite SW.
  - now apply read_words.
  - intros H. destruct (same_cmds _ _ H d eq_refl) as (e & E & _ & L). injection E as <-.
    destruct (construct_wf _ _ D) as [K _]. rewrite K, A in L. congruence.
Qed.
Lemma arg_list_app l1 l2 : arg_list w cwd sc (l1 ++ l2) = let* x := arg_list w cwd sc l1 in let* y := arg_list w cwd sc l2 in Ok (x ++ y).
Proof.
  induction l1 as [|a l1 IH]; cbn [app arg_list bind_res].
  - destruct (arg_list w cwd sc l2); reflexivity.
  - destruct (arg_words w cwd sc a); [|reflexivity]. cbn [bind_res]. rewrite IH. destruct (arg_list w cwd sc l1); [|reflexivity].
    cbn [bind_res]. destruct (arg_list w cwd sc l2); [|reflexivity]. cbn [bind_res]. now rewrite app_assoc.
Qed.
(** Two words, the first a name and the second not wordlike *)
Lemma two_names n t : name_ok n -> ~ In n env_reserved -> ~ wordlike t -> names_ok reserved env_reserved [n; t].
Proof.
  intros A B C pre u post E F W. destruct pre as [|x [|y pre]]; injection E.
  - intros _ <-. split; [exact A|]. split; [intros _; exact B|congruence].
  - intros _ <- _. contradiction.
  - intros E' _ _. destruct pre; discriminate E'.
Qed.
Lemma name_chars n : name_ok n -> Forall char n.
Proof. intros (_ & H & _). eapply Forall_impl; [|exact H]. intros c. unfold ascii_letter, char. lia. Qed.
Lemma quoted_lost n t c : name_ok n -> ~ In n env_reserved -> stays w cwd sc n -> ~ wordlike t -> Forall char t -> ~ stays w cwd sc t ->
  c_arg c = [AStr n; AR t] -> exists s q, show_raw (TCmd c) = Ok s /\ typed s q /\ ~ same q (TCmd c).
Proof.
  intros A B S C D X E. apply (not_stable [n; t] c (map WStr [n; t])).
  - discriminate.
  - constructor; [now apply name_chars|constructor; [exact D|constructor]].
  - now apply two_names.
  - unfold shown_words. rewrite E. cbn [map hide hide1 arg_list arg_words expand_one]. unfold stays in S. rewrite S. reflexivity.
  - rewrite E. cbn [arg_list arg_words expand_one]. unfold stays in S. rewrite S. reflexivity.
  - cbn [map arg_list arg_words expand_one]. unfold stays in S. rewrite S. cbn [bind_res map app]. unfold stays in X.
    destruct (expand_str w cwd sc t) as [ws|]; cbn [bind_res]; [|discriminate]. rewrite app_nil_r. intros Y. injection Y as Y. apply X. f_equal.
    destruct ws as [|x [|y ws]]; try discriminate Y. injection Y as ->. reflexivity.
Qed.
Lemma dev_fd_X : stays w cwd sc (txt "/dev/fd/X").
Proof.
  unfold stays. apply (expand_value w cwd sc _ (txt "/dev/fd/X")).
  - apply percent_plain. intros K. vm_compute in K. repeat (destruct K as [K|K]; [discriminate K|]); exact K.
  - discriminate.
  - repeat split; intros K; vm_compute in K; repeat (destruct K as [K|K]; [discriminate K|]); exact K.
Qed.
Lemma fd_not_X fd : fd_text fd <> txt "X".
Proof.
  unfold fd_text. generalize (Nat.to_uint fd). intros u H. destruct u; cbn in H; discriminate H.
Qed.
Lemma pipe_lost n h fd c : name_ok n -> ~ In n env_reserved -> stays w cwd sc n ->
  c_arg c = [AStr n; APipe h fd] -> exists s q, show_raw (TCmd c) = Ok s /\ typed s q /\ ~ same q (TCmd c).
Proof.
  intros A B S E. apply (not_stable [n; txt "/dev/fd/X"] c (map WStr [n; txt "/dev/fd/" ++ fd_text fd])).
  - discriminate.
  - constructor; [now apply name_chars|constructor; [|constructor]]. repeat (constructor; [vm_compute; discriminate|]). constructor.
  - apply two_names; [exact A|exact B|]. intros [K|(u & K & L)].
    + apply Forall_inv in K. unfold ascii_letter in K. cbn in K. lia.
    + destruct u as [|z u]; [discriminate K|]. apply Forall_inv in L. assert (z = 47%N) by (change (txt "/dev/fd/X") with (47%N :: txt "dev/fd/X") in K; now injection K). subst z. unfold ascii_letter in L. lia.
  - unfold shown_words. rewrite E. cbn [map hide hide1 arg_list arg_words expand_one]. unfold stays in S. rewrite S. reflexivity.
  - rewrite E. cbn [arg_list arg_words expand_one]. unfold stays in S. rewrite S, fd_word. reflexivity.
  - cbn [map arg_list arg_words expand_one]. unfold stays in S. rewrite S. rewrite dev_fd_X. cbn [bind_res map app].
    intros Y. injection Y as Y. apply (fd_not_X fd). now symmetry.
Qed.
(** Names that cannot be typed in. *)
Lemma untypable t x : parse t = x -> match x with None => True | Some e => exists er, eval e = Err er end -> ~ exists q, typed t q.
Proof. intros <- H (q & e & E & V). rewrite E in H. destruct H as (er & H). congruence. Qed.
Lemma reserved_lost n r c : name_ok n -> ~ In n env_reserved -> stays w cwd sc n -> stays w cwd sc r -> 
  In r (map txt ["run"; "mro"]%string) -> c_arg c = [AStr n; AStr r] -> exists s, show_raw (TCmd c) = Ok s /\ ~ exists q, typed s q.
Proof.
  intros A B S R I E. exists (n ++ txt "." ++ r).
  assert (O : name_ok r).
  { cbn [map] in I. destruct I as [<-|[<-|[]]]; (split; [discriminate|split; [repeat (constructor; [unfold ascii_letter; cbn; lia|]); constructor|]]);
      intros K; vm_compute in K; repeat (destruct K as [K|K]; [discriminate K|]); exact K. }
  assert (W : forall t, name_ok t -> re_name t = true) by (intros t (_ & L & _); apply re_name_spec; now left).
  split.
  - cbn [ReprModel.show_raw]. unfold shown_words. rewrite E. cbn [map hide hide1 arg_list arg_words expand_one]. unfold stays in S, R. rewrite S, R.
    cbn [bind_res map app]. unfold repr_words. cbn [split_args]. rewrite !W by assumption. reflexivity.
  - apply (untypable _ (Some (XPrim n [SAttr r]))).
    + unfold parse, tokens. assert (X : scansE (join_with (txt ".") [n; r]) (name_toks [n; r])).
      { apply scansE_names; [discriminate|]. constructor; [|constructor; [|constructor]].
        - destruct A as (Z & L & _). split; [exact Z|]. eapply Forall_impl; [|exact L]. apply ascii_is_letter.
        - destruct O as (Z & L & _). split; [exact Z|]. eapply Forall_impl; [|exact L]. apply ascii_is_letter. }
      specialize (X [] Logic.I). rewrite app_nil_r in X. cbn [join_with] in X. rewrite X. cbn [tokens_from].
      rewrite feed_names; [reflexivity|]. constructor; [apply A|constructor; [apply O|constructor]].
    + exists PlainException. cbn [eval]. unfold spell_env. rewrite env_attr_plain; [|exact B|].
      * cbn [construct bind_res]. destruct (dispatch (AStr n)) eqn:K; [|discriminate K]. cbn [bind_res as_cmd spell spell_step c_cls c_arg].
        rewrite reserved_no_word; [reflexivity|]. cbn [map] in I |- *. destruct I as [<-|[<-|[]]]; cbn; tauto.
      * intros ->. destruct A as (_ & L & _). inversion L as [|x y P _]. unfold ascii_letter in P. cbn in P. lia.
Qed.
Lemma keyword_lost k ts c : In k keywords -> stays w cwd sc k -> match ts with [] => True | t :: _ => ~ wordlike t end ->
  Forall (Forall char) ts -> Forall (stays w cwd sc) ts ->
  c_arg c = map AStr (k :: ts) -> exists s, show_raw (TCmd c) = Ok s /\ ~ exists q, typed s q.
Proof.
  intros I K T C SS E.
  assert (L : k <> [] /\ Forall ascii_letter k).
  { assert (X : forallb (fun k => negb (text_eqb k []) && forallb letter k) keywords = true) by (vm_compute; reflexivity).
    rewrite forallb_forall in X. specialize (X k I). apply andb_true_iff in X. destruct X as [X Y]. apply forallb_letter in Y. split; [|exact Y].
    intros ->. discriminate X. }
  destruct L as [Z L].
  assert (SP : split_args (map WStr (k :: ts)) = ([k], map WStr ts)).
  { cbn [map split_args]. assert (re_name k = true) as -> by (apply re_name_spec; now left). destruct ts as [|t ts]; [reflexivity|].
    cbn [map split_args]. destruct (re_name t) eqn:R; [|reflexivity]. apply re_name_spec in R. contradiction. }
  exists (repr_words printable (map WStr (k :: ts))). split.
  - cbn [ReprModel.show_raw]. unfold shown_words. rewrite E, map_map. change (map (fun x => hide (AStr x)) (k :: ts)) with (map AStr (k :: ts)).
    rewrite arg_list_stays by (constructor; assumption). reflexivity.
  - apply (untypable _ None); [|exact Logic.I]. unfold parse, tokens.
    assert (X : scansE (repr_words printable (map WStr (k :: ts))) (cmd_toks [k] ts)).
    { unfold repr_words. rewrite SP. unfold cmd_toks. cbn [head_names name_toks join_with].
      assert (H : scansE k [KName k]) by (apply scansE_name; [exact Z|]; eapply Forall_impl; [|exact L]; apply ascii_is_letter).
      destruct ts as [|t ts]; [exact H|].
      change (match map WStr (t :: ts) with [] => k | _ :: _ => ?x end) with x.
      change (txt "(" ++ ?x) with (40%N :: x). apply scansE_app; [exact H|reflexivity|].
      change (40%N :: ?x) with ([40%N] ++ x). change (KOpen :: ?x) with ([KOpen] ++ x).
      apply scansE_sep; [now apply scans_one|]. apply scans_scansE. apply scans_app with Between; [now apply scans_args|now apply scans_one]. }
    specialize (X [] Logic.I). rewrite app_nil_r in X. rewrite X. cbn [tokens_from]. unfold cmd_toks. cbn [head_names name_toks app feed_all feed r_place].
    apply keyword_spec in I. rewrite I. reflexivity.
Qed.
End Env.
End P.

(** * Printing *)
Lemma obj_rect' (P : obj -> Prop) : P ObPlain -> P ObRaises -> (forall l, Forall P l -> P (ObSeq l)) ->
  (forall env i st oc ins bad parts, Forall P parts -> P (ObPipeline env i st oc ins bad parts)) -> forall o, P o.
Proof.
  intros A B C D. fix F 1. intros [| |l|env i st oc ins bad parts]; [exact A|exact B|apply C|apply D].
  - induction l as [|x l IH]; constructor; [apply F|exact IH].
  - induction parts as [|x l IH]; constructor; [apply F|exact IH].
Qed.
Lemma std_inside o : forall s, 1 <= p_in s -> exists r e, std o s = (s, r, e) /\ (quiet o -> r = []).
Proof.
  induction o as [| |l IH|env i st oc ins bad parts IH] using obj_rect'; intros s I.
  - now exists [], false.
  - now exists [], true.
  - cbn [std]. assert (H : Forall (fun o => forall s, 1 <= p_in s -> exists r e, std o s = (s, r, e) /\ (quiet o -> r = [])) l) by exact IH. clear IH.
    match goal with |- context [ ?g l s ] => set (go := g) end.
    assert (G : exists r e, go l s = (s, r, e) /\ (Forall quiet l -> r = [])).
    { induction H as [|x l Hx Hl IHl]; [now exists [], false|]. cbn. fold go. destruct (Hx s I) as (r & e & E & Q). rewrite E.
      destruct e; [exists r, true; split; [reflexivity|intros K; inversion K; auto]|]. destruct IHl as (r2 & e2 & E2 & Q2). rewrite E2.
      exists (r ++ r2), e2. split; [reflexivity|]. intros K. inversion K; subst. rewrite Q, Q2 by assumption. reflexivity. }
    destruct G as (r & e & E & Q). exists r, e. split; [exact E|]. intros K. inversion K; auto.
  - cbn [std]. destruct s as [n ev]. cbn [p_in p_env] in *.
    destruct n as [|n]; [lia|]. change (S n <? 1) with false. rewrite andb_false_r.
    destruct bad; [exists ins, true; split; [reflexivity|intros K; now inversion K]|].
    match goal with |- context [ ?g parts (mkP _ _) ] => set (go := g) end.
    assert (G : forall l, Forall (fun o => forall s, 1 <= p_in s -> exists r e, std o s = (s, r, e) /\ (quiet o -> r = [])) l ->
      forall s, exists r e, go l s = (s, r, e) /\ (Forall quiet l -> r = [])).
    { clear. induction l as [|x l IHl]; intros H s; [now exists [], false|]. cbn. fold go.
      inversion H as [|x' l' Hx Hl]; subst.
      destruct (Hx (mkP (S (p_in s)) (p_env s))) as (r & e & E & Q); [cbn; lia|]. rewrite E. cbn [p_in p_env pred].
      destruct (IHl Hl (mkP (p_in s) (p_env s))) as (r2 & e2 & E2 & Q2). rewrite E2. exists (r ++ r2), e2. split; [now destruct s|].
      intros K. inversion K; subst. rewrite Q, Q2 by assumption. reflexivity. }
    destruct (G parts IH (mkP (S n) (Some env))) as (r & e & E & Q). rewrite E. exists (ins ++ r), e. split; [reflexivity|].
    intros K. inversion K; subst. rewrite Q by assumption. reflexivity.
Qed.
Lemma repr_restores o s : exists r, pipeline_repr o s = (s, r, false) /\ (quiet o -> r = []).
Proof.
  unfold pipeline_repr. destruct (std_inside o (mkP (S (p_in s)) (p_env s))) as (r & e & E & Q); [cbn; lia|]. rewrite E. exists r. now destruct s.
Qed.
Lemma std_top o : quiet o -> forall v, exists r e, std o (mkP 0 v) = (mkP 0 v, r, e) /\ displayed o r e.
Proof.
  induction o as [| |l IH|env i st oc ins bad parts IH] using obj_rect'; intros Q v.
  - exists [], false. split; [reflexivity|constructor].
  - exists [], true. split; [reflexivity|constructor].
  - inversion Q as [| |l' Ql|]; subst. cbn [std]. clear Q. induction l as [|x l IHl]; [exists [], false; split; [reflexivity|constructor]|].
    inversion IH as [|x' l' Hx Hl]; subst. inversion Ql as [|x' l' Qx Qr]; subst. destruct (Hx Qx v) as (r & e & E & D). rewrite E.
    destruct e; [exists r, true; split; [reflexivity|now constructor]|]. destruct (IHl Hl Qr) as (r2 & e2 & E2 & D2). rewrite E2.
    exists (r ++ r2), e2. split; [reflexivity|now constructor].
  - inversion Q as [| | |env' i' st' oc' bad' parts' Qp]; subst.
    assert (X : forall e, (negb st && i = false) -> std (ObPipeline env i st oc [] bad parts) (mkP 0 v) = (mkP 0 v, [], e) -> e = bad ->
      exists r e, std (ObPipeline env i st oc [] bad parts) (mkP 0 v) = (mkP 0 v, r, e) /\ displayed (ObPipeline env i st oc [] bad parts) r e).
    { intros e H E ->. exists [], bad. split; [exact E|]. destruct st; [constructor|]. destruct i; [discriminate H|constructor]. }
    destruct (negb st && i) eqn:B.
    + apply andb_true_iff in B. destruct B as [B ->]. destruct st; [discriminate B|]. exists [env], (match oc with RunFailed => true | _ => false end).
      split; [reflexivity|]. destruct oc; constructor; discriminate.
    + cbn [std] in *. rewrite B in *. cbn [andb p_in p_env] in *. destruct bad.
      { exists [], true. split; [reflexivity|]. destruct st; [constructor|]. destruct i; [discriminate B|constructor]. }
      match goal with |- context [ ?g parts (mkP _ _) ] => set (go := g) in * end.
      assert (G : forall l, Forall quiet l -> forall s, go l s = (s, [], false)).
      { clear. induction l as [|x l IHl]; intros Ql s; [reflexivity|]. cbn. fold go. inversion Ql as [|x' l' Qx Qr]; subst.
        destruct (std_inside x (mkP (S (p_in s)) (p_env s))) as (r & e & E & Q); [cbn; lia|]. rewrite E, (Q Qx). cbn [p_in p_env pred].
        destruct s as [n0 e0]. cbn. rewrite (IHl Qr). reflexivity. }
      rewrite (G parts Qp) in *. cbn [p_in p_env] in *. exists [], false. split; [reflexivity|]. destruct st; [constructor|]. destruct i; [discriminate B|constructor].
Qed.
Lemma displayed_fun o r e : displayed o r e -> forall r' e', displayed o r' e' -> r = r' /\ e = e'.
Proof.
  intros H. induction H; intros r2 e2 H2; inversion H2; subst; auto; try congruence;
  repeat match goal with
  | IH : forall r' e', displayed ?x r' e' -> _ , D : displayed ?x _ _ |- _ => specialize (IH _ _ D); destruct IH
  end; subst; auto; congruence.
Qed.
Lemma display_fresh ns v : std (ObSeq (map fresh ns)) (mkP 0 v) = (mkP 0 v, ns, false).
Proof.
  assert (D : displayed (ObSeq (map fresh ns)) ns false).
  { induction ns as [|n ns IH]; [constructor|]. apply (d_more (fresh n) (map fresh ns) [n] ns false); [constructor; discriminate|exact IH]. }
  assert (Q : quiet (ObSeq (map fresh ns))).
  { apply q_seq. clear. induction ns; constructor; [apply q_pipe; constructor|assumption]. }
  destruct (std_top _ Q v) as (r & e & E & X). rewrite E. destruct (displayed_fun _ _ _ D _ _ X) as [-> ->]. reflexivity.
Qed.
Lemma insert_runs env st oc ins bad parts i s : exists r, pipeline_repr (ObPipeline env i st oc ins bad parts) s = (s, ins ++ r, false).
Proof.
  unfold pipeline_repr. cbn [std]. destruct s as [n ev]. cbn [p_in p_env]. change (S n <? 1) with false. rewrite andb_false_r.
  destruct bad; [exists []; now rewrite app_nil_r|].
  match goal with |- context [ ?g parts (mkP _ _) ] => set (go := g) end.
  assert (G : forall l s, exists r e, go l s = (s, r, e)).
  { clear. induction l as [|x l IHl]; intros s; [now exists [], false|]. cbn. fold go.
    destruct (std_inside x (mkP (S (p_in s)) (p_env s))) as (r & e & E & _); [cbn; lia|]. rewrite E. cbn [p_in p_env pred].
    destruct (IHl (mkP (p_in s) (p_env s))) as (r2 & e2 & E2). rewrite E2. exists (r ++ r2), e2. now destruct s. }
  destruct (G parts (mkP (S n) (Some env))) as (r & e & E). rewrite E. exists r. reflexivity.
Qed.
