(** C33, C34, C54 and C55: expansion of one argument string. *)
From Verif Require Import Py PathModel PathSpec EnvModel ExpandModel ExpandSpec ExpandProofs.

(** C33.  A string without "%", leading "~" and pattern characters is itself,
    exactly; a string can always be written literally by doubling "%"; and a
    successful expansion yields at least one word. *)
Theorem C33_ordinary_verbatim : forall w cwd sc s, no_percent s -> no_tilde s -> no_glob s -> expand_str w cwd sc s = Ok [s].
Proof. exact (fun w cwd sc s P => expand_value w cwd sc s s (percent_plain sc s P)). Qed.
Print Assumptions C33_ordinary_verbatim.
Theorem C33_escaped_verbatim : forall w cwd sc s, no_tilde s -> no_glob s -> expand_str w cwd sc (escape s) = Ok [s].
Proof. exact (fun w cwd sc s => expand_value w cwd sc (escape s) s (percent_escape sc s)). Qed.
Print Assumptions C33_escaped_verbatim.
Theorem C33_never_empty_partial : forall w cwd sc s ws, expand_str w cwd sc s = Ok ws -> ws <> [].
Proof. exact expand_nonempty. Qed.
Print Assumptions C33_never_empty_partial.
(** ... but not every string expands: a "%" at the end, or before a letter that
    is no conversion (date("+%Y")), raises, whatever the scope. *)
Theorem C33_percent_refuted : forall w cwd sc s c rest, no_percent s ->
  expand_str w cwd sc (s ++ [c_percent]) = Err ValueError /\
  (In c (txt "YHMSjyBbAaDTZ") -> conv_known c = false -> expand_str w cwd sc (s ++ c_percent :: c :: rest) = Err ValueError).
Proof.
  intros w cwd sc s c rest P. unfold expand_str. rewrite (percent_trailing sc s P). split; [reflexivity|].
  intros I K. rewrite percent_unknown; [reflexivity|exact P|..|exact K| | | |];
    (vm_compute in I; repeat (destruct I as [<-|I]; [reflexivity || discriminate|]); destruct I).
Qed.
Print Assumptions C33_percent_refuted.

(** Nor is an unknown variable kept: the lookup's exception is raised. *)
Theorem C33_missing_variable_raises : forall w cwd sc pre k rest x, no_percent pre -> ~ In c_lpar k -> ~ In c_rpar k -> sc_get sc k = Err x ->
  expand_str w cwd sc (pre ++ insertion k ++ rest) = Err x.
Proof.
  exact (fun w cwd sc pre k rest x P A B G =>
    f_equal (fun r => bind_res r (fun a => Ok (glob_step w cwd (expanduser (m_home (w_m w)) a)))) (percent_missing sc pre k rest x P A B G)).
Qed.
Print Assumptions C33_missing_variable_raises.

Definition no_machine (t : node) : machine := mkMachine (fun _ => None) (fun _ => None) (fun p => p) (glob_tree t).
Definition world_of (t : node) : world := mkW (no_machine t) [c_slash] [[]] [].
Definition some_vars : scope := vars_scope [] (fun _ _ _ => Err TypeError) [(txt "A", txt "value"); (txt "B", txt "*"); (txt "C", txt "~")].
Example C33_nonvacuous : expand_str (world_of NFile) [c_slash] some_vars (txt "hello world") = Ok [txt "hello world"] /\
  expand_str (world_of NFile) [c_slash] some_vars (escape (txt "+%Y")) = Ok [txt "+%Y"] /\
  expand_str (world_of NFile) [c_slash] some_vars (txt "+%Y") = Err ValueError /\
  expand_str (world_of NFile) [c_slash] some_vars (txt "%(X)s") = Err KeyError.
Proof. vm_compute. auto. Qed.

(** C34.  For an environment directory without pattern characters: the words,
    read relative to that directory, are exactly the files of the tree matched
    by the pattern, each once; and if there is none, the pattern itself. *)
Theorem C34_exact_partial : forall w t d arg, dir_ok d -> tree_ok t -> (forall p, m_glob (w_m w) p = glob_tree t p) ->
  startswith arg [c_tilde] = false -> ~ no_glob arg -> Forall no_glob (d_names d) ->
  exists qs, NoDup qs /\ (forall q, In q qs <-> Matched t d arg q) /\
    (qs = [] -> glob_step w (render d) arg = [arg]) /\
    (qs <> [] -> map (resolve d) (glob_step w (render d) arg) = qs).
Proof. exact glob_exact. Qed.
Print Assumptions C34_exact_partial.
(** Whatever the directory, every word but the unmatched pattern names an
    existing file. *)
Theorem C34_words_exist : forall w t d arg word, dir_ok d -> tree_ok t -> (forall p, m_glob (w_m w) p = glob_tree t p) ->
  startswith arg [c_tilde] = false -> In word (glob_step w (render d) arg) ->
  glob_step w (render d) arg = [arg] \/ exists_at t (resolve d word).
Proof. exact glob_words_exist. Qed.
Print Assumptions C34_words_exist.
(** The matching relation is decided by fnmatch. *)
Theorem C34_matching : forall p n, fnm p n = true <-> Match p n.
Proof. exact fnm_spec. Qed.
Print Assumptions C34_matching.

(** In a directory whose name contains pattern characters it fails: "*" in
    "/a[b]" does not see the file there and names one of "/ab" instead. *)
Definition odd_tree : node := NDir [(txt "a[b]", NDir [(txt "here", NFile)]); (txt "ab", NDir [(txt "other", NFile)])].
Definition odd_dir : dir := mkDir false [txt "a[b]"].
Theorem C34_odd_directory_refuted : exists w t d q word, dir_ok d /\ tree_ok t /\ (forall p, m_glob (w_m w) p = glob_tree t p) /\
  Matched t d (txt "*") q /\ ~ In q (map (resolve d) (glob_step w (render d) (txt "*"))) /\
  In word (glob_step w (render d) (txt "*")) /\ ~ Matched t d (txt "*") (resolve d word).
Proof.
  exists (world_of odd_tree), odd_tree, odd_dir, (mkDir false [txt "a[b]"; txt "here"]), (txt "/ab/other").
  assert (Ns : name_ok (txt "a[b]") /\ name_ok (txt "here") /\ name_ok (txt "ab") /\ name_ok (txt "other")).
  { repeat split; try discriminate; vm_compute; intuition discriminate. }
  destruct Ns as (N1 & N2 & N3 & N4).
  split; [constructor; [exact N1|constructor]|].
  split.
  { assert (L : forall n x, name_ok n -> tree_ok x -> tree_ok (NDir [(n, x)])).
    { intros n x Hn Hx. constructor; cbn; [constructor; [exact Hn|constructor]|constructor; [easy|constructor]|constructor; [exact Hx|constructor] ]. }
    constructor; cbn [map fst snd].
    - constructor; [exact N1|constructor; [exact N3|constructor] ].
    - constructor; [intros [X|[] ]; discriminate X|constructor; [easy|constructor] ].
    - constructor; [apply L; [exact N2|constructor]|constructor; [apply L; [exact N4|constructor]|constructor] ]. }
  split; [reflexivity|].
  split.
  { split; [reflexivity|]. split; [|discriminate]. vm_compute. repeat constructor; try discriminate.
    apply (M_star [] (txt "here") []). constructor. }
  split; [vm_compute; intuition discriminate|]. split; [vm_compute; auto|].
  intros (_ & F & _). vm_compute in F. inversion F as [|? ? ? ? H _]. discriminate H.
Qed.
Print Assumptions C34_odd_directory_refuted.
(** And a slash at the end of a pattern is lost: it matches plain files too. *)
Theorem C34_trailing_slash_refuted : forall w d arg, dir_ok d -> startswith arg [c_tilde] = false -> startswith arg [c_slash] = false -> ~ no_glob arg ->
  glob_step w (render d) arg <> [arg] -> glob_step w (render d) (arg ++ [c_slash]) = glob_step w (render d) arg.
Proof. exact trailing_slash. Qed.
Print Assumptions C34_trailing_slash_refuted.
Definition a_tree : node := NDir [(txt "home", NDir [(txt "x.c", NFile); (txt ".h.c", NFile); (txt "y.c", NFile); (txt "sub", NDir [(txt "z.c", NFile)])])].
Definition a_dir : dir := mkDir false [txt "home"].
Example C34_nonvacuous :
  glob_step (world_of a_tree) (render a_dir) (txt "*.c") = [txt "./x.c"; txt "./y.c"] /\
  glob_step (world_of a_tree) (render a_dir) (txt ".*") = [txt "./.h.c"] /\
  glob_step (world_of a_tree) (render a_dir) (txt "s[a-z]b/*") = [txt "./sub/z.c"] /\
  glob_step (world_of a_tree) (render a_dir) (txt "[!x].c") = [txt "./y.c"] /\
  glob_step (world_of a_tree) (txt "/home/sub") (txt "../?.c") = [txt "/home/x.c"; txt "/home/y.c"] /\
  glob_step (world_of a_tree) (render a_dir) (txt "*.d") = [txt "*.d"] /\
  glob_step (world_of a_tree) (render a_dir) (txt "*/") = [txt "./x.c"; txt "./y.c"; txt "./sub"].
Proof. vm_compute. repeat split. Qed.

(** C54.  A word made by a pattern begins with "/" or "./", so no file name is
    ever taken for an option; any other word is the argument itself. *)
Theorem C54_never_an_option : forall w cwd arg, (forall p q, In q (m_glob (w_m w) p) -> is_abs q) ->
  glob_step w cwd arg = [arg] \/ Forall starts_path (glob_step w cwd arg).
Proof. exact glob_words_paths. Qed.
Print Assumptions C54_never_an_option.
Theorem C54_glob_absolute : forall t p q, startswith p [c_slash] = true -> In q (glob_tree t p) -> is_abs q.
Proof.
  intros t p q A I. unfold glob_tree in I. apply in_map_iff in I as (names & <- & _). unfold initial_slashes. rewrite A.
  destruct (_ && _); cbn; eexists; reflexivity.
Qed.
Print Assumptions C54_glob_absolute.
Example C54_nonvacuous : glob_step (world_of (NDir [(txt "d", NDir [(txt "-rf", NFile)])])) (txt "/d") (txt "*") = [txt "./-rf"].
Proof. reflexivity. Qed.

(** C55.  A variable's value is inserted as it is if the resulting string has no
    leading "~" and no pattern characters ... *)
Theorem C55_inserted_verbatim_partial : forall w cwd sc pre k post v, no_percent pre -> no_percent post -> ~ In c_lpar k -> ~ In c_rpar k ->
  sc_get sc k = Ok v -> no_tilde (pre ++ v ++ post) -> no_glob (pre ++ v ++ post) ->
  expand_str w cwd sc (pre ++ insertion k ++ post) = Ok [pre ++ v ++ post].
Proof. exact (fun w cwd sc pre k post v A B K1 K2 G => expand_value w cwd sc _ _ (percent_key sc pre k post v A B K1 K2 G)). Qed.
Print Assumptions C55_inserted_verbatim_partial.
(** ... and otherwise it is expanded again: exactly like the same string written
    by the user. *)
Theorem C55_expanded_again_refuted : forall w cwd sc k v, ~ In c_lpar k -> ~ In c_rpar k -> sc_get sc k = Ok v ->
  expand_str w cwd sc (insertion k) = Ok (glob_step w cwd (expanduser (m_home (w_m w)) v)).
Proof.
  intros w cwd sc k v K1 K2 G. unfold expand_str.
  pose proof (percent_key sc [] k [] v (fun H => H) (fun H => H) K1 K2 G) as P. rewrite !app_nil_r in P. cbn [app] in P. now rewrite P.
Qed.
Print Assumptions C55_expanded_again_refuted.
Example C55_nonvacuous : insertion (txt "A") = txt "%(A)s" /\
  expand_str (world_of a_tree) (render a_dir) some_vars (txt "x=%(A)s!") = Ok [txt "x=value!"] /\
  expand_str (world_of a_tree) (render a_dir) some_vars (txt "%(B)s") = Ok [txt "./x.c"; txt "./y.c"; txt "./sub"].
Proof. vm_compute. repeat split. Qed.
