(** C94: the keyword parameters offered for a command (inspect.signature, help(),
    completion) are exactly the long options its help text lists, and using one
    puts that option on the command line.  Proved for options made of letters and
    dashes after a blank; refuted for the rest. *)
From Verif Require Import Py PathModel PathProofs EnvModel ExpandModel CommandModel HelpModel HelpSpec HelpProofs.

(** Names are offered once each; each can be written as a keyword and is an option of the help text, and each
    option of the help text is offered; the keyword argument [name=True] is the
    option, and [name=v] is [--option=v]. *)
Theorem C94_exact_partial : forall space annotates refused w cwd sc help names,
  blanks space -> signature space annotates refused help = Ok names ->
  NoDup names /\
  (forall p, In p names -> Forall (fun c => a_letter c \/ c = 95%N) p /\ exists o, plain_option o /\ after_blank space help o /\
     flag_word w cwd sc p = Ok [WStr (txt "--" ++ o)] /\ forall v, value_word w cwd sc p v = Ok [WStr (txt "--" ++ o ++ txt "=" ++ v)]) /\
  (forall o, plain_option o -> after_blank space help o -> exists p, In p names /\
     flag_word w cwd sc p = Ok [WStr (txt "--" ++ o)] /\ forall v, value_word w cwd sc p v = Ok [WStr (txt "--" ++ o ++ txt "=" ++ v)]).
Proof.
  intros space annotates refused w cwd sc help names SP H. destruct (names_exact space SP annotates refused help names H) as [ND EX].
  assert (W : forall o, plain_option o -> flag_word w cwd sc (underscores o) = Ok [WStr (txt "--" ++ o)] /\
                                          forall v, value_word w cwd sc (underscores o) v = Ok [WStr (txt "--" ++ o ++ txt "=" ++ v)]).
  { intros o P. pose proof (back_and_forth o (plain_no_underscore o P)) as B. unfold flag_word, value_word. cbn [arg_list arg_words kws_words kw_words expand_one bind_res app map word_str].
    rewrite B. split; reflexivity. }
  split; [exact ND|split].
  - intros p I. apply EX in I. destruct I as (o & P & K & ->). split; [|exists o; destruct (W o P); tauto].
    destruct P as (c & r & -> & _ & L & F). apply Forall_map. constructor; [destruct (N.eqb_spec c 45); [now right|now left]|].
    eapply Forall_impl; [|exact F]. intros d X. cbn beta. destruct (N.eqb_spec d 45); [now right|]. destruct X; [now left|contradiction].
  - intros o P K. exists (underscores o). destruct (W o P). split; [apply EX; now exists o|tauto].
Qed.
Print Assumptions C94_exact_partial.

(** False: an option that goes on with a digit or an underscore is cut off there;
    what is offered (if nothing else in the text is called that) is not an option of
    the program. *)
Theorem C94_cut_refuted : forall space annotates refused w cwd sc before s o d rest names,
  blanks space -> space s = true -> plain_option o -> a_digit d \/ d = 95%N ->
  let help := before ++ s :: txt "--" ++ o ++ d :: rest in
  signature space annotates refused help = Ok names ->
  exists p, In p names /\ flag_word w cwd sc p = Ok [WStr (txt "--" ++ o)].
Proof.
  intros space annotates refused w cwd sc before s o d rest names SP S P D help H.
  destruct (C94_exact_partial space annotates refused w cwd sc help names SP H) as (_ & _ & A). destruct (A o P) as (p & I & F & _).
  - exists before, s, (d :: rest). split; [reflexivity|]. split; [exact S|]. intros (c & r & E & Q). injection E as <- <-. unfold a_digit, a_letter in *. lia.
  - now exists p.
Qed.
Print Assumptions C94_cut_refuted.

(** False: an option that no option of the plain kind after a blank is equal to is
    never offered: options of one letter, options with digits or underscores,
    options that only stand behind a comma, a bracket or another character. *)
Theorem C94_missed_refuted : forall space annotates refused w cwd sc help names o p,
  blanks space -> signature space annotates refused help = Ok names -> listed help o ->
  ~ plain_option o \/ ~ after_blank space help o -> In p names -> flag_word w cwd sc p <> Ok [WStr (txt "--" ++ o)].
Proof.
  intros space annotates refused w cwd sc help names o p SP H _ N I E.
  destruct (C94_exact_partial space annotates refused w cwd sc help names SP H) as (_ & A & _). destruct (A p I) as (_ & o' & P & K & F & _).
  rewrite F in E. injection E as E. subst o'. tauto.
Qed.
Print Assumptions C94_missed_refuted.

(** False: one option with a name python refuses as a parameter (a keyword, from
    python 3.11 on: --import, --from, --with) and nothing is offered at all. *)
Theorem C94_keyword_refuted : forall space annotates refused help o p,
  blanks space -> plain_option o -> after_blank space help o ->
  Forall2 (fun c d => c = 45%N /\ d = 95%N \/ c <> 45%N /\ c = d) o p -> refused p = true ->
  exists e, signature space annotates refused help = Err e.
Proof.
  intros space annotates refused help o p SP P K F R. apply (refused_all space SP annotates refused help o P K).
  replace (underscores o) with p; [exact R|]. clear - F. induction F as [|c d o p H F IH]; [reflexivity|]. cbn [underscores map]. fold (underscores o). rewrite <- IH. f_equal.
  destruct H as [[-> ->]|[N ->]]; [reflexivity|]. destruct (N.eqb_spec d 45); [contradiction|reflexivity].
Qed.
Print Assumptions C94_keyword_refuted.

Definition the_blanks (c : N) : bool := existsb (N.eqb c) [32; 9; 10; 11; 12; 13; 28; 29; 30; 31; 133; 160]%N.
Lemma the_blanks_ok : blanks the_blanks.
Proof.
  intros c H. unfold the_blanks. destruct (existsb _ _) eqn:E; [|reflexivity]. exfalso. apply existsb_exists in E. destruct E as (d & I & K). apply N.eqb_eq in K. subst d.
  unfold option_char, a_letter, a_digit in H. cbn in I, H. lia.
Qed.
Definition a_help : text := txt "Usage: ls [OPTION]...  -a, --all   do not ignore  --block-size=SIZE  with -l, scale  --color[=WHEN] color the output; see --color=always, --format=<word>,--width=COLS --si --utf8 --all".
(** Of these options, --width stands behind a comma and --utf8 has a digit. *)
Example C94_nonvacuous :
  signature the_blanks (fun _ _ => true) (fun _ => false) a_help = Ok (map txt ["all"; "block_size"; "color"; "format"; "si"; "utf"]%string) /\
  plain_option (txt "block-size") /\ after_blank the_blanks a_help (txt "block-size") /\
  listed a_help (txt "utf8") /\ ~ plain_option (txt "utf8") /\ listed a_help (txt "width").
Proof.
  split; [vm_compute; reflexivity|]. split; [exists 98%N, (txt "lock-size"); split; [reflexivity|]; split; [discriminate|]; split; [right; lia|]; apply Forall_forall; intros c I; apply namec_iff; revert c I; apply forallb_forall; vm_compute; reflexivity|].
  split; [exists (firstn 49 a_help), 32%N, (skipn 62 a_help); split; [vm_compute; reflexivity|]; split; [reflexivity|]; intros (c & r & E & Q); vm_compute in E; injection E as <- _; unfold a_letter in Q; lia|].
  assert (OC : forall t, forallb (fun c => letterc c || ((48 <=? c) && (c <=? 57))%N) t = true -> Forall option_char t).
  { intros t H. rewrite forallb_forall in H. apply Forall_forall. intros c I. apply H, Bool.orb_true_iff in I. unfold option_char, a_digit. rewrite letterc_iff, Bool.andb_true_iff, !N.leb_le in I. tauto. }
  split; [|split].
  - split; [exists 117%N, (txt "tf8"); split; [reflexivity|left; right; lia]|]. split; [now apply OC|].
    exists (firstn 172 a_help), (skipn 178 a_help). split; [vm_compute; reflexivity|]. split.
    + intros (r & c & E & Q). assert (X : last (firstn 172 a_help) 0%N = c) by (rewrite E; apply last_last). vm_compute in X. subst c. unfold option_char, a_letter, a_digit in Q. lia.
    + intros (c & r & E & Q). vm_compute in E. injection E as <- _. unfold option_char, a_letter, a_digit in Q. lia.
  - intros (c & r & E & _ & _ & F). injection E as <- <-. inversion F as [|? ? _ F1]; subst. inversion F1 as [|? ? _ F2]; subst. inversion F2 as [|? ? X _]; subst. unfold a_letter in X. lia.
  - split; [exists 119%N, (txt "idth"); split; [reflexivity|left; right; lia]|]. split; [now apply OC|].
    exists (firstn 154 a_help), (skipn 161 a_help). split; [vm_compute; reflexivity|]. split.
    + intros (r & c & E & Q). assert (X : last (firstn 154 a_help) 0%N = c) by (rewrite E; apply last_last). vm_compute in X. subst c. unfold option_char, a_letter, a_digit in Q. lia.
    + intros (c & r & E & Q). vm_compute in E. injection E as <- _. unfold option_char, a_letter, a_digit in Q. lia.
Qed.
Example C94_keyword_nonvacuous :
  signature the_blanks (fun _ _ => true) (fun t => text_eqb t (txt "import")) (txt " --all --import=X") = Err ValueError.
Proof. vm_compute. reflexivity. Qed.
