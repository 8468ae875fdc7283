(** C93: the printed form of a running process (before " as pid") is a pieshell
    expression that runs the same command line.  Proved for names, short options,
    plain words and [--key=number] options at the end; refuted for the rest. *)
From Verif Require Import Py PathModel PathProofs EnvModel ExpandModel ExpandSpec ExpandProofs CommandModel CommandSpec CommandProofs ReprModel ReprSpec PsModel PsSpec PsProofs PropsExpand.

(** The command line [names words options], printed and typed in, runs with
    exactly those words. *)
Theorem C93_retyped_partial : forall printable slug fd w cwd sc names words options,
  slugifies slug -> name_words names -> Forall arg_word words ->
  match words with [] => True | t :: _ => ~ is_slug t end ->
  Forall (fun kv => key_ok (fst kv) /\ integer (snd kv)) options -> NoDup (map fst options) ->
  (names = [] -> words = [] -> options = []) -> Forall (stays w cwd sc) (names ++ words) ->
  exists c, typed_in fd (cmdline2pieshell printable slug (names ++ words ++ map option_word options)) c /\
            runs_as w cwd sc c (names ++ words ++ map option_word options).
Proof.
  intros printable slug fd w cwd sc ns ts kvs SL W A B K D E ST.
  destruct (retyped printable slug SL fd w cwd sc ns ts kvs (ts ++ map option_word kvs)) as (c & T & R & _); try assumption.
  - clear. induction ts as [|t ts IH]; [|cbn [app]; now constructor]. cbn [app]. induction kvs; cbn [map]; constructor; assumption.
  - destruct ts as [|t ts]; [|exact B]. destruct kvs as [|[k v] kvs]; [exact I|]. exact (dash_not_slug (txt "-" ++ k ++ txt "=" ++ v)).
  - now exists c.
Qed.
Print Assumptions C93_retyped_partial.

(** False: long options are moved behind all other words. *)
Theorem C93_order_refuted : forall printable slug fd w cwd sc names words options cmdline,
  slugifies slug -> name_words names -> Forall arg_word words ->
  Forall (fun kv => key_ok (fst kv) /\ integer (snd kv)) options -> NoDup (map fst options) ->
  interleaved words (map option_word options) cmdline -> match cmdline with [] => True | t :: _ => ~ is_slug t end ->
  (names = [] -> words = [] -> options = []) -> Forall (stays w cwd sc) (names ++ words) ->
  exists c, typed_in fd (cmdline2pieshell printable slug (names ++ cmdline)) c /\
            runs_as w cwd sc c (names ++ words ++ map option_word options) /\
            (cmdline <> words ++ map option_word options -> ~ runs_as w cwd sc c (names ++ cmdline)).
Proof.
  intros printable slug fd w cwd sc ns ts kvs ws SL W A K D M B E ST.
  destruct (retyped printable slug SL fd w cwd sc ns ts kvs ws) as (c & T & R & _); try assumption.
  exists c. split; [exact T|]. split; [exact R|]. intros N R'. apply N. pose proof (runs_fun _ _ _ _ _ _ R R') as X. apply app_inv_head in X. now symmetry.
Qed.
Print Assumptions C93_order_refuted.

(** False: a command line with a number after the names ([sleep 100]) is printed as
    something python cannot read. *)
Theorem C93_number_refuted : forall printable slug fd names d more c,
  slugifies slug -> name_words names -> names <> [] -> digits d -> ~ typed_in fd (cmdline2pieshell printable slug (names ++ d :: more)) c.
Proof. intros printable slug fd ns d more c SL. now apply number_untypable. Qed.
Print Assumptions C93_number_refuted.

(** False: the value of a long option that is a name is typed in as a command to be
    run ([ls --color=auto] starts a program [auto]). *)
Theorem C93_value_refuted : forall printable slug fd w cwd sc names k v,
  slugifies slug -> name_words names -> names <> [] -> pyname k -> names_command v -> Forall (stays w cwd sc) names ->
  exists c, typed_in fd (cmdline2pieshell printable slug (names ++ [option_word (k, v)])) c /\
            c_arg c = map AStr names ++ [ADict [(k, KVal (APipe true (fd v)))]] /\
            ~ runs_as w cwd sc c (names ++ [option_word (k, v)]).
Proof.
  intros printable slug fd w cwd sc ns k v SL W Z K V ST.
  destruct (value_run printable slug SL fd w cwd sc ns k v W Z K V ST) as (c & T & CA & _ & N). now exists c.
Qed.
Print Assumptions C93_value_refuted.

(** False: [--key=False] disappears, [--key=True] loses its value. *)
Theorem C93_truth_refuted : forall printable slug fd w cwd sc names k (b : bool),
  slugifies slug -> name_words names -> names <> [] -> key_ok k -> Forall (stays w cwd sc) names ->
  exists c, typed_in fd (cmdline2pieshell printable slug (names ++ [option_word (k, txt (if b then "True" else "False")%string)])) c /\
            runs_as w cwd sc c (names ++ (if b then [txt "--" ++ k] else [])).
Proof.
  intros printable slug fd w cwd sc ns k b SL W Z [K U] ST.
  destruct (bool_run printable slug SL fd w cwd sc ns k b W Z K ST) as (c & T & R). exists c. split; [exact T|]. now rewrite (dashes_id k U) in R.
Qed.
Print Assumptions C93_truth_refuted.

(** False: of a repeated long option only the last is left. *)
Theorem C93_repeated_refuted : forall printable slug fd w cwd sc names k d1 d2,
  slugifies slug -> name_words names -> names <> [] -> key_ok k -> integer d2 -> Forall (stays w cwd sc) names ->
  exists c, typed_in fd (cmdline2pieshell printable slug (names ++ [option_word (k, d1); option_word (k, d2)])) c /\
            runs_as w cwd sc c (names ++ [option_word (k, d2)]).
Proof. intros printable slug fd w cwd sc ns k d1 d2 SL W Z K D ST. now apply repeated_run. Qed.
Print Assumptions C93_repeated_refuted.

(** False: a negative number ([kill -9]) is typed in as an int, and the command
    cannot be executed. *)
Theorem C93_negative_refuted : forall printable slug fd w cwd sc names d,
  slugifies slug -> name_words names -> names <> [] -> integer d ->
  exists c, typed_in fd (cmdline2pieshell printable slug (names ++ [txt "-" ++ d])) c /\ forall argv, ~ runs_as w cwd sc c argv.
Proof. intros printable slug fd w cwd sc ns d SL W Z D. now apply negative_run. Qed.
Print Assumptions C93_negative_refuted.

(** False: what follows a comma in a short option ([-Wl,x]) is typed in as a command
    to be run, as a further argument. *)
Theorem C93_comma_refuted : forall printable slug fd w cwd sc names a b,
  slugifies slug -> name_words names -> names <> [] -> names_command a -> names_command b -> Forall (stays w cwd sc) (names ++ [txt "-" ++ a]) ->
  exists c, typed_in fd (cmdline2pieshell printable slug (names ++ [txt "-" ++ a ++ txt "," ++ b])) c /\
            c_arg c = map AStr names ++ [AStr (txt "-" ++ a); APipe true (fd b)] /\
            runs_as w cwd sc c (names ++ [txt "-" ++ a; txt "/dev/fd/" ++ fd_text (fd b)]).
Proof. intros printable slug fd w cwd sc ns a b SL W Z A B ST. now apply comma_run. Qed.
Print Assumptions C93_comma_refuted.

(** Words are quoted, but expanded again when typed in: right exactly for words
    that expand to themselves. *)
Theorem C93_expanded_again : forall printable slug fd w cwd sc names t,
  slugifies slug -> name_words names -> arg_word t -> ~ is_slug t -> Forall (stays w cwd sc) names ->
  exists c, typed_in fd (cmdline2pieshell printable slug (names ++ [t])) c /\ (runs_as w cwd sc c (names ++ [t]) <-> stays w cwd sc t).
Proof. intros printable slug fd w cwd sc ns t SL W A B ST. now apply word_run. Qed.
Print Assumptions C93_expanded_again.

(** ** The hypotheses are met *)
(** A function that leaves exactly the required strings as they are. *)
Definition low (c : N) : bool := in_range 97 122 c || in_range 48 57 c.
Fixpoint slug_from (fresh : bool) (t : text) : bool :=
  match t with
  | [] => negb fresh
  | c :: r => if low c then slug_from false r else N.eqb c 95 && negb fresh && slug_from true r
  end.
Definition slugb (t : text) : bool := match t with [] => true | _ => slug_from true t end.
Definition some_slug (t : text) : text := if slugb t then t else [].
Lemma low_iff c : low c = true <-> lower_or_digit c.
Proof. unfold low, lower_or_digit, in_range. rewrite Bool.orb_true_iff, !Bool.andb_true_iff, !N.leb_le. reflexivity. Qed.
Lemma slug_from_sound t : (slug_from true t = true -> t <> [] /\ is_slug t) /\
  (slug_from false t = true -> exists x ws, t = match ws with [] => x | _ => x ++ 95%N :: underscored ws end /\ Forall lower_or_digit x /\ Forall (fun y => y <> [] /\ Forall lower_or_digit y) ws).
Proof.
  induction t as [|c t [IH1 IH2]]; cbn [slug_from negb].
  - split; [discriminate|]. intros _. exists [], []. repeat split; constructor.
  - destruct (low c) eqn:L.
    + apply low_iff in L. split.
      * intros H. split; [discriminate|]. destruct (IH2 H) as (x & ws & -> & X & W). exists ((c :: x) :: ws). split.
        -- destruct ws; reflexivity.
        -- constructor; [|exact W]. split; [discriminate|]. now constructor.
      * intros H. destruct (IH2 H) as (x & ws & -> & X & W). exists (c :: x), ws. split; [destruct ws; reflexivity|]. split; [now constructor|exact W].
    + split; intros H.
      * rewrite Bool.andb_false_r in H. discriminate H.
      * apply Bool.andb_true_iff in H. destruct H as [H1 H2]. rewrite Bool.andb_true_r in H1. apply N.eqb_eq in H1. subst c.
        destruct (IH1 H2) as (Z & ws & -> & W). exists [], ws. destruct ws; [now destruct Z|]. repeat split; [constructor|exact W].
Qed.
Lemma slug_from_complete ws : Forall (fun y => y <> [] /\ Forall lower_or_digit y) ws -> ws <> [] -> slug_from true (underscored ws) = true.
Proof.
  assert (A : forall x r b, Forall lower_or_digit x -> x <> [] -> slug_from b (x ++ r) = slug_from false r).
  { induction x as [|c x IH]; intros r b H Z; [congruence|]. inversion H as [|? ? Hc Hx]; subst. cbn [app slug_from]. apply low_iff in Hc. rewrite Hc.
    destruct x as [|d x]; [reflexivity|]. apply IH; [exact Hx|discriminate]. }
  intros H Z. induction H as [|x ws [X1 X2] H IH]; [congruence|]. destruct ws as [|y ws].
  - cbn [underscored]. rewrite <- (app_nil_r x). rewrite A by assumption. reflexivity.
  - change (underscored (x :: y :: ws)) with (x ++ 95%N :: underscored (y :: ws)). rewrite A by assumption. cbn [slug_from negb].
    change (low 95%N) with false. cbn [N.eqb Pos.eqb andb]. apply IH. discriminate.
Qed.
Lemma some_slugifies : slugifies some_slug.
Proof.
  intros t. unfold some_slug. split.
  - intros H. destruct (slugb t) eqn:E.
    + destruct t as [|c t]; [exists []; now split|]. now apply slug_from_sound in E.
    + subst t. discriminate E.
  - intros (ws & -> & H). destruct ws as [|x ws]; [reflexivity|].
    assert (Z : x :: ws <> []) by discriminate. pose proof (slug_from_complete (x :: ws) H Z) as S. unfold slugb.
    destruct (underscored (x :: ws)); [reflexivity|]. now rewrite S.
Qed.
Definition shows (l : list string) : text := cmdline2pieshell (fun c => in_range 32 126 c) some_slug (map txt l).
(** [git log -p --oneline 'a b.c' --width=80], and the refuted cases *)
Example C93_printed :
  shows ["git"; "log"; "-p"; "--oneline"; "a b.c"; "--width=80"]%string = txt "git.log(-p, '--oneline', 'a b.c', width=80)" /\
  shows ["/usr/bin/x"]%string = txt "_('/usr/bin/x')" /\
  shows ["sleep"; "100"]%string = txt "sleep.100" /\ shows ["ls"; "--color=auto"]%string = txt "ls(color=auto)" /\
  shows ["kill"; "-9"; "1"]%string = txt "kill(-9, '1')" /\ shows ["a"; "--k=1"; "b"; "--k=2"]%string = txt "a('b', k=2)" /\
  shows ["gcc"; "-Wl,x"]%string = txt "gcc(-Wl,x)".
Proof. repeat split; vm_compute; reflexivity. Qed.
Ltac no_in := intros K; vm_compute in K; repeat (destruct K as [K|K]; [discriminate K|]); exact K.
Ltac slug_by l := exists (map txt l); split; [reflexivity|repeat constructor; (discriminate || (unfold lower_or_digit; cbn; lia))].
Example C93_nonvacuous :
  name_words (map txt ["git"; "log"]%string) /\ Forall arg_word (map txt ["-p"; "--oneline"; "a b.c"]%string) /\ ~ is_slug (txt "-p") /\
  (key_ok (txt "width") /\ integer (txt "80")) /\ names_command (txt "auto") /\
  Forall (stays (world_of NFile) [c_slash] some_vars) (map txt ["git"; "log"; "-p"; "--oneline"; "a b.c"]%string) /\
  digits (txt "100") /\ integer (txt "9") /\ interleaved [txt "b"] [txt "--k=1"] (map txt ["--k=1"; "b"]%string).
Proof.
  assert (P : forall s, text_eqb s (txt "git") || text_eqb s (txt "log") || text_eqb s (txt "p") || text_eqb s (txt "width") || text_eqb s (txt "auto") = true -> pyname s).
  { intros s H. rewrite !Bool.orb_true_iff in H.
    assert (E : forall x, text_eqb s x = true -> s = x) by (intros x X; destruct (text_eqb_spec s x); [assumption|discriminate X]).
    destruct H as [[[[H|H]|H]|H]|H]; apply E in H; rewrite H; (split; [no_in|split; [reflexivity|repeat constructor]]). }
  repeat match goal with |- _ /\ _ => split end.
  - split.
    + constructor; [split; [slug_by ["git"%string]|now apply P]|]. constructor; [split; [slug_by ["log"%string]|now apply P]|constructor].
    + split; [no_in|]. constructor; [no_in|constructor].
  - assert (NC : names_command (txt "p")) by (split; [now apply P|split; [no_in|discriminate]]).
    pose proof (aw_option (txt "p") NC) as AW. change (txt "-" ++ txt "p") with (txt "-p") in AW.
    constructor; [exact AW|].
    constructor; [apply aw_dashes|constructor; [apply aw_word|constructor]].
    + repeat (constructor; [vm_compute; discriminate|]). constructor.
    + now exists (txt "oneline").
    + intros (k & v & E). assert (I : In 61%N (txt "--oneline")) by (rewrite E; apply in_or_app; right; apply in_or_app; right; now left). revert I. no_in.
    + repeat (constructor; [vm_compute; discriminate|]). constructor.
    + intros (r & E). discriminate E.
  - exact (dash_not_slug (txt "p")).
  - split; [now apply P|no_in].
  - split; [split; [discriminate|repeat constructor; unfold digit; cbn; lia]|cbn; discriminate].
  - split; [now apply P|]. split; [no_in|discriminate].
  - repeat (constructor; [vm_compute; reflexivity|]). constructor.
  - split; [discriminate|repeat constructor; unfold digit; cbn; lia].
  - split; [split; [discriminate|repeat constructor; unfold digit; cbn; lia]|cbn; discriminate].
  - apply il_right, il_left, il_nil.
Qed.
