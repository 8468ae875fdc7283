(** C42, C43 and C59: bashsource. *)
From Verif Require Import Py PathModel EnvModel BashModel BashSpec BashProofs.

(** C42.  bash prints some variables and then at least one function (with
    balanced quotes and without declare): every printed variable arrives under
    its name, with [arrives value]; nothing else in the environment changes. *)
Theorem C42_import : forall vs fs f ex bf,
  (forall b, In b vs -> var_ok b /\ value_ok b) -> (forall g, In g (fs ++ [f]) -> fun_ok g) ->
  exists ex' bf', parse_decls (lines_of (bash_output vs (fs ++ [f]))) ex bf = Ok (ex', bf') /\ updated ex (map arriving vs) ex'.
Proof. intros vs fs f ex bf H1 H2. destruct (import_all vs fs f ex bf H1 H2) as (a & b & E & U & _). eauto. Qed.
Print Assumptions C42_import.
(** A value arrives unchanged if and only if it has no dollar, no backquote and
    no control character. *)
Theorem C42_which_values : forall v, arrives v = v <-> ~ In 36%N v /\ ~ In 96%N v /\ existsb control v = false.
Proof. exact arrives_iff. Qed.
Print Assumptions C42_which_values.
(** So for such values the claim holds. *)
Theorem C42_exact_partial : forall vs fs f ex bf,
  (forall b, In b vs -> var_ok b) -> (forall b, In b vs -> exists v, v_value b = Some v /\ ~ In 36%N v /\ ~ In 96%N v /\ existsb control v = false) ->
  (forall g, In g (fs ++ [f]) -> fun_ok g) ->
  exists ex' bf', parse_decls (lines_of (bash_output vs (fs ++ [f]))) ex bf = Ok (ex', bf') /\ updated ex (set_values vs) ex'.
Proof.
  intros vs fs f ex bf V G F. destruct (import_all vs fs f ex bf) as (a & b & E & U & _); [|exact F|].
  - intros b Hb. split; [now apply V|]. destruct (G b Hb) as (v & E & _ & _ & C). unfold value_ok. rewrite E, C. discriminate.
  - exists a, b. split; [exact E|]. rewrite <- arriving_good; [exact U|]. intros x Hx. destruct (G x Hx) as (v & E1 & E2). exists v. split; [exact E1|].
    now apply arrives_iff.
Qed.
Print Assumptions C42_exact_partial.
(** It is false for every other value ... *)
Theorem C42_changed_value_refuted : forall vs fs f ex bf b v,
  (forall x, In x (vs ++ [b]) -> var_ok x /\ value_ok x) -> (forall g, In g (fs ++ [f]) -> fun_ok g) ->
  v_value b = Some v -> In 36%N v \/ In 96%N v \/ existsb control v = true ->
  exists ex' bf', parse_decls (lines_of (bash_output (vs ++ [b]) (fs ++ [f]))) ex bf = Ok (ex', bf') /\ dget ex' (v_name b) <> Some v.
Proof.
  intros vs fs f ex bf b v V F E B. destruct (import_all (vs ++ [b]) fs f ex bf V F) as (e1 & b1 & P & U & _).
  exists e1, b1. split; [exact P|]. rewrite (U (v_name b)). rewrite map_app, rev_app_distr. cbn [map rev List.app dget]. unfold arriving. rewrite E.
  cbn [fst snd]. rewrite keqb_refl. intros X. injection X as X. apply arrives_iff in X as (N1 & N2 & N3).
  destruct B as [B|[B|B]]; [contradiction|contradiction|congruence].
Qed.
Print Assumptions C42_changed_value_refuted.
(** ... an exported variable that is not set arrives as an empty one ... *)
Theorem C42_unset_refuted : forall vs fs f ex bf b,
  (forall x, In x (vs ++ [b]) -> var_ok x /\ value_ok x) -> (forall g, In g (fs ++ [f]) -> fun_ok g) -> v_value b = None ->
  exists ex' bf', parse_decls (lines_of (bash_output (vs ++ [b]) (fs ++ [f]))) ex bf = Ok (ex', bf') /\ dget ex' (v_name b) = Some [].
Proof.
  intros vs fs f ex bf b V F E. destruct (import_all (vs ++ [b]) fs f ex bf V F) as (e1 & b1 & P & U & _).
  exists e1, b1. split; [exact P|]. rewrite (U (v_name b)). rewrite map_app, rev_app_distr. cbn [map rev List.app dget]. unfold arriving. rewrite E.
  cbn [fst snd]. now rewrite keqb_refl.
Qed.
Print Assumptions C42_unset_refuted.
(** ... if bash prints no function the last variable is lost, whatever its value ... *)
Theorem C42_last_variable_refuted : forall vs b ex bf,
  (forall b', In b' (vs ++ [b]) -> var_ok b' /\ value_ok b') -> ~ In (v_name b) (map v_name vs) ->
  exists ex', parse_decls (lines_of (bash_output (vs ++ [b]) [])) ex bf = Ok (ex', bf) /\
    updated ex (map arriving vs) ex' /\ dget ex' (v_name b) = dget ex (v_name b).
Proof.
  intros vs b ex bf V N. destruct (import_vars vs b ex bf V) as (e1 & P & U). exists e1. split; [exact P|]. split; [exact U|].
  rewrite (U (v_name b)). destruct (dget (rev (map arriving vs)) (v_name b)) as [x|] eqn:E; [|reflexivity]. exfalso. apply N.
  apply dget_In, in_rev, in_map_iff in E as (b' & E & I). unfold arriving in E. injection E as E _. rewrite <- E. now apply in_map.
Qed.
Print Assumptions C42_last_variable_refuted.
(** ... a function that starts with declare makes the whole import fail, as does
    an odd quote in one. *)
Theorem C42_declare_in_function_refuted : forall vs f ex bf,
  (forall b, In b vs -> var_ok b /\ value_ok b) -> word (f_name f) -> f_name f <> txt "declare" ->
  (forall c, In c (f_body f) -> special c = false) -> hd_error (words (f_body f)) = Some (txt "declare") ->
  parse_decls (lines_of (bash_output vs [f])) ex bf = Err IndexError.
Proof. intros vs f ex bf V W N P H. unfold parse_decls. fold (data_of vs [f]). rewrite parse_declare_fun by assumption. reflexivity. Qed.
Print Assumptions C42_declare_in_function_refuted.
Theorem C42_quote_in_function_refuted : forall vs f a b ex bf,
  (forall b, In b vs -> var_ok b /\ value_ok b) -> word (f_name f) ->
  f_body f = a ++ 39%N :: b -> (forall c, In c a -> special c = false) -> ~ In 39%N b ->
  parse_decls (lines_of (bash_output vs [f])) ex bf = Err ValueError.
Proof. intros vs f a b ex bf V W E P N. unfold parse_decls. fold (data_of vs [f]). rewrite (parse_quote_fun vs f a b) by assumption. reflexivity. Qed.
Print Assumptions C42_quote_in_function_refuted.

(** C59.  The functions are kept, each under its name with exactly the text bash
    printed, and the other functions known before stay. *)
Theorem C59_functions_partial : forall vs fs f ex bf,
  (forall b, In b vs -> var_ok b /\ value_ok b) -> (forall g, In g (fs ++ [f]) -> fun_ok g) ->
  exists ex' bf', parse_decls (lines_of (bash_output vs (fs ++ [f]))) ex bf = Ok (ex', bf') /\ updated bf (texts (fs ++ [f])) bf'.
Proof. intros vs fs f ex bf H1 H2. destruct (import_all vs fs f ex bf H1 H2) as (a & b & E & _ & U). eauto. Qed.
Print Assumptions C59_functions_partial.

(** It is false in general: if a line inside the function reads NAME () { - as in a here
    document holding a script - what is stored for the function is not its text, and NAME
    is stored as a function too. *)
Theorem C59_cut_refuted : forall vs f a g b ex bf,
  (forall b, In b vs -> var_ok b /\ value_ok b) -> word (f_name f) -> f_name f <> txt "declare" -> word g -> g <> txt "declare" ->
  f_body f = a ++ [10%N] ++ g ++ txt " () {" ++ [10%N] ++ b ->
  (forall c, In c a -> special c = false) -> a <> [] -> blank (last a 0%N) = false -> ~ In (txt "declare") (words a) -> ~ In (txt "()") (words a) ->
  (exists ws, reads [] false b ws /\ ~ In (txt "declare") ws /\ ~ In (txt "()") ws) ->
  exists ex' bf', parse_decls (lines_of (bash_output vs [f])) ex bf = Ok (ex', bf') /\ dget bf' (f_name f) <> Some (fun_text f) /\ dget bf' g <> None.
Proof.
  intros vs f a g b ex bf V W ND Wg Ng E P Na La H1 H2 (ws & R & H3 & H4).
  assert (Ec : f_body f = cut_body a g b) by (rewrite E; unfold cut_body; reflexivity).
  unfold parse_decls. fold (data_of vs [f]).
  rewrite (parse_cut vs f a g b); auto; [|intros t Ht; split; intros ->; contradiction|exists ws; split; [exact R|intros t Ht; split; intros ->; contradiction] ].
  cbn [bind_res fst snd]. eexists _, _. split; [reflexivity|].
  assert (U : forall k, dget (dupdate bf (set_all [] [(f_name f, cut_head f a); (g, cut_tail g b)])) k = match dget (rev [(f_name f, cut_head f a); (g, cut_tail g b)]) k with Some v => Some v | None => dget bf k end) by (intros k; apply dupdate_updated).
  rewrite !U. cbn [rev List.app dget fst snd]. rewrite (keqb_refl g). split; [|discriminate].
  pose proof (f_equal (@List.length N) (cut_text f a g b Ec)) as L. rewrite app_length in L. cbn [List.length] in L.
  assert (L1 : 0 < List.length (cut_head f a)) by (unfold cut_head; rewrite app_length; cbn; lia).
  rewrite (keqb_refl (f_name f)); destruct (keqb (f_name f) g); intros X; injection X as X; rewrite <- X in L; lia.
Qed.
Print Assumptions C59_cut_refuted.

(** C43.  The tokens of `{ declare -x; declare -f; } > $0` *)
Definition dump_tokens : list stok :=
  [bare (txt "{"); bare (txt "declare"); bare (txt "-x"); SOp 59; bare (txt "declare"); bare (txt "-f"); SOp 59; bare (txt "}");
   SOp 62; bare (txt "$0")].
(** For any number of file names without a single quote, bash reads `source`
    and exactly the file name, each character quoted, then the dump. *)
Theorem C43_files_partial : forall es, (forall e, In e es -> ~ In 39%N e) -> sh_read (bash_script es) = Some (source_all es dump_tokens).
Proof. intros es H. now apply script_ok. Qed.
Print Assumptions C43_files_partial.
(** It is false for every file name with a single quote ... *)
Theorem C43_quote_refuted : forall e rest, In 39%N e -> sh_read (bash_script [e]) <> Some (source_all [e] rest).
Proof. exact script_quote. Qed.
Print Assumptions C43_quote_refuted.
Theorem C43_iff : forall e, sh_read (bash_script [e]) = Some (source_all [e] dump_tokens) <-> ~ In 39%N e.
Proof.
  intros e. split.
  - intros H I. now apply (C43_quote_refuted e dump_tokens I).
  - intros H. apply C43_files_partial. now intros x [<-|[]].
Qed.
Print Assumptions C43_iff.
(** ... and a file name can run any command word. *)
Theorem C43_injection_refuted : forall a c, ~ In 39%N a -> c <> [] -> plain_cmd c ->
  exists e, sh_read (bash_script [e]) = Some (bare (txt "source") :: literal a :: SOp 59 :: bare c :: literal [] :: SOp 59 :: dump_tokens).
Proof. intros a c A C P. exists (evil a c). now apply script_evil. Qed.
Print Assumptions C43_injection_refuted.

(** ** The hypotheses hold for these cases *)
Definition ex_vars : list bvar := [mkVar (txt "-x") (txt "HOME") (Some (txt "/home/me")); mkVar (txt "-rx") (txt "Q") (Some (txt "say ""hi"" \ 'x' # y"))].
Definition ex_fun : bfun := mkFun (txt "greet") (txt "    echo hello;" ++ [10%N] ++ txt "    ls -l").
Lemma ex_word : forall s, forallb (fun c => negb (special c) && negb (blank c)) s = true -> s <> [] -> word s.
Proof.
  intros s H NE. split; [exact NE|]. intros c I. rewrite forallb_forall in H. apply H in I. apply andb_true_iff in I as [A B].
  now rewrite negb_true_iff in A, B.
Qed.
Example ex_vars_ok : forall b, In b ex_vars -> var_ok b /\ value_ok b.
Proof.
  intros b [<-|[<-|[]]]; (split; [split; [|split]; [now apply ex_word|now apply ex_word|cbn; intuition discriminate]|vm_compute; discriminate]).
Qed.
Lemma plain_ok f : word (f_name f) -> f_name f <> txt "declare" -> (forall c, In c (f_body f) -> special c = false) ->
  ~ In (txt "declare") (words (f_body f)) -> ~ In (txt "()") (words (f_body f)) -> fun_ok f.
Proof. intros A B C D E. split; [exact A|]. split; [exact B|]. exists (words (f_body f)). split; [exact (reads_plain _ C [])|auto]. Qed.
Example ex_fun_ok : fun_ok ex_fun.
Proof.
  apply plain_ok; [now apply ex_word|discriminate| |vm_compute; intuition discriminate|vm_compute; intuition discriminate].
  intros c H. assert (A : forallb (fun c => negb (special c)) (f_body ex_fun) = true) by reflexivity. rewrite forallb_forall in A.
  apply A in H. now apply negb_true_iff.
Qed.
(** a function with quotes, escapes and a comment *)
Definition ex_quoting : bfun := mkFun (txt "q") (txt "    echo ""$1 \"" "" 'it is' a\ b # it's").
Example ex_quoting_ok : fun_ok ex_quoting.
Proof.
  split; [now apply ex_word|]. split; [discriminate|]. exists [txt "echo"; txt "$1 "" "; txt "it is"; txt "a b"]. split; [|split; vm_compute; intuition discriminate].
  assert (Ch : forall w b c s ws, special c = false -> blank c = false -> reads (w ++ [c]) true s ws -> reads w b (c :: s) ws) by (intros; now constructor).
  change (f_body ex_quoting) with (txt "    echo " ++ 34%N :: txt "$1 \"" " ++ 34%N :: 32%N :: 39%N :: txt "it is" ++ 39%N :: 32%N :: 97%N :: 92%N :: 32%N :: 98%N :: 32%N :: 35%N :: txt " it's").
  do 4 (apply R_blank; [reflexivity|]). do 4 (apply R_char; [reflexivity|reflexivity|]). apply R_sep; [reflexivity|].
  apply R_dq with (u := txt "$1 "" "). { do 3 (apply Dq_char; [discriminate|discriminate|]). apply Dq_esc; [now left|]. apply Dq_char; [discriminate|discriminate|]. constructor. }
  apply R_sep; [reflexivity|]. apply R_sq; [vm_compute; intuition discriminate|]. apply R_sep; [reflexivity|].
  apply R_char; [reflexivity|reflexivity|]. apply R_esc. apply R_char; [reflexivity|reflexivity|]. apply R_sep; [reflexivity|].
  apply (R_comment_end [] false). vm_compute. intuition discriminate.
Qed.
Definition ex_cut : bfun := mkFun (txt "f") (txt "    cat <<E" ++ [10%N] ++ txt "helper () {" ++ [10%N] ++ txt "ls" ++ [10%N] ++ txt "}" ++ [10%N] ++ txt "E").
Example C59_cut_nonvacuous : exists a b,
  f_body ex_cut = a ++ [10%N] ++ txt "helper" ++ txt " () {" ++ [10%N] ++ b /\ a <> [] /\ blank (last a 0%N) = false /\
  forallb (fun c => negb (special c)) a = true /\ words a = [txt "cat"; txt "<<E"] /\ reads [] false b [txt "ls"; txt "}"; txt "E"] /\
  option_map (fun p => dkeys (snd p)) (match parse_decls (lines_of (bash_output [] [ex_cut])) [] [] with Ok p => Some p | Err _ => None end) = Some [txt "f"; txt "helper"].
Proof.
  exists (txt "    cat <<E"), (txt "ls" ++ [10%N] ++ txt "}" ++ [10%N] ++ txt "E"). split; [reflexivity|]. split; [discriminate|]. split; [reflexivity|]. split; [reflexivity|]. split; [reflexivity|].
  split; [|vm_compute; reflexivity]. change [txt "ls"; txt "}"; txt "E"] with (words (txt "ls" ++ [10%N] ++ txt "}" ++ [10%N] ++ txt "E")). apply (reads_plain _) with (w := []).
  intros c H. cbn in H. intuition (subst; reflexivity).
Qed.
Example C59_example : parse_decls (lines_of (bash_output ex_vars [ex_quoting; ex_fun])) [] [] =
  Ok ([(txt "HOME", txt "/home/me"); (txt "Q", txt "say ""hi"" \ 'x' # y")], [(txt "q", fun_text ex_quoting); (txt "greet", fun_text ex_fun)]).
Proof. vm_compute. reflexivity. Qed.
Example C42_example : parse_decls (lines_of (bash_output ex_vars [ex_fun])) [(txt "PATH", txt "/bin"); (txt "HOME", txt "/")] [] =
  Ok ([(txt "PATH", txt "/bin"); (txt "HOME", txt "/home/me"); (txt "Q", txt "say ""hi"" \ 'x' # y")], [(txt "greet", fun_text ex_fun)]).
Proof. vm_compute. reflexivity. Qed.
Example C42_lost_example : parse_decls (lines_of (bash_output ex_vars [])) [] [] = Ok ([(txt "HOME", txt "/home/me")], []).
Proof. vm_compute. reflexivity. Qed.
Example C42_dollar_example : parse_decls (lines_of (bash_output [mkVar (txt "-x") (txt "P") (Some (txt "a$b"))] [ex_fun])) [] [] =
  Ok ([(txt "P", txt "a\$b")], [(txt "greet", fun_text ex_fun)]).
Proof. vm_compute. reflexivity. Qed.
Example C42_newline_example : parse_decls (lines_of (bash_output [mkVar (txt "-x") (txt "P") (Some [97; 10; 98]%N)] [ex_fun])) [] [] =
  Ok ([(txt "P", txt "$a\nb")], [(txt "greet", fun_text ex_fun)]).
Proof. vm_compute. reflexivity. Qed.
Example C42_declare_example : parse_decls (lines_of (bash_output ex_vars [mkFun (txt "f") (txt "    declare y=1;" ++ [10%N] ++ txt "    echo hi")])) [] [] = Err IndexError.
Proof. vm_compute. reflexivity. Qed.
Example C42_quote_example : parse_decls (lines_of (bash_output ex_vars [mkFun (txt "f") (txt "    cat <<E" ++ [10%N] ++ txt "it's" ++ [10%N] ++ txt "E")])) [] [] = Err ValueError.
Proof. vm_compute. reflexivity. Qed.
Example C43_example : sh_read (bash_script [txt "my $file; rm -rf .sh"; txt "b"]) =
  Some (source_all [txt "my $file; rm -rf .sh"; txt "b"] dump_tokens).
Proof. vm_compute. reflexivity. Qed.
Example C43_injection_example : exists w, sh_read (bash_script [txt "x'; reboot '"]) = Some (bare (txt "source") :: literal (txt "x") :: SOp 59 :: bare (txt "reboot") :: w).
Proof. eexists. vm_compute. reflexivity. Qed.
