(** C77: |, < and > mean what they mean in a shell. *)
From Verif Require Import Py RedirModel RunModel OperModel OperSpec OperProofs.

(** Pipes do, however many. *)
Theorem C77_pipes : forall p ps r, line (OPl p) (map (fun q => (Bar, OPl q)) ps) = Ok (OPl r) <-> shell_reads None p (map (fun q => (Bar, OPl q)) ps) r.
Proof.
  intros p ps r. rewrite shell_bars. cbn [piped_to]. unfold line. destruct (eval_bars ps None None (EObj (OPl p)) p eq_refl) as (e & -> & E).
  cbn [close_cmp]. rewrite E. split; [intros H; now injection H|now intros ->].
Qed.
Print Assumptions C77_pipes.
(** One redirect at the end of a pipe is a redirect of the whole pipe (which is
    one of its last command: C61), one redirect of a single command is its own. *)
Theorem C77_one_redirect_partial : forall p ps f,
  line (OPl p) (map (fun q => (Bar, OPl q)) ps ++ [(Cmp More, OStr f)]) = Ok (OPl (PRedir (fold_left PPipe ps p) (to_file 1 f))) /\
  line (OPl p) (map (fun q => (Bar, OPl q)) ps ++ [(Cmp Less, OStr f)]) = Ok (OPl (PRedir (fold_left PPipe ps p) (to_file 0 f))) /\
  shell_reads None p [(Cmp More, OStr f)] (PRedir p (to_file 1 f)) /\ shell_reads None p [(Cmp Less, OStr f)] (PRedir p (to_file 0 f)).
Proof.
  intros p ps f. unfold line. split; [|split; [|split; repeat constructor]].
  - destruct (bars_then_cmp ps None (EObj (OPl p)) p More (OStr f) eq_refl) as (e & -> & E). cbn [eval]. now rewrite E.
  - destruct (bars_then_cmp ps None (EObj (OPl p)) p Less (OStr f) eq_refl) as (e & -> & E). cbn [eval]. now rewrite E.
Qed.
Print Assumptions C77_one_redirect_partial.
(** The documented form with Redirect objects works for any number of them. *)
Theorem C77_redirect_objects : forall p rs, Forall (fun r => r_source r <> SNone) rs ->
  line (OPl p) (map (fun r => (Bar, ORedirect r)) rs) = Ok (OPl (fold_left (fun q r => PRedir q [(r_fd r, r)]) rs p)).
Proof.
  intros p rs F. unfold line. destruct (redirects_chain rs None None (EObj (OPl p)) p eq_refl F) as (e & -> & E). exact E.
Qed.
Print Assumptions C77_redirect_objects.
(** But redirecting both ends, as in cmd < 'in' > 'out', compares the two file
    names: the result is no pipeline at all. *)
Theorem C77_both_ends_refuted : forall p f g,
  line (OPl p) [(Cmp Less, OStr f); (Cmp More, OStr g)] = Ok (OBool (String.ltb g f)) /\
  line (OPl p) [(Cmp More, OStr f); (Cmp Less, OStr g)] = Ok (OBool (String.ltb f g)) /\
  shell_reads None p [(Cmp Less, OStr f); (Cmp More, OStr g)] (PRedir (PRedir p (to_file 0 f)) (to_file 1 g)).
Proof. intros p f g. split; [reflexivity|split; [reflexivity|repeat constructor]]. Qed.
Print Assumptions C77_both_ends_refuted.
(** And a redirect before a pipe: cmd < 'in' | other runs other first, reading
    'in', and pipes it into cmd; cmd > 'out' | other pipes cmd into other and
    makes other read 'out'. *)
Theorem C77_redirect_then_pipe_refuted : forall p f q,
  line (OPl p) [(Cmp Less, OStr f); (Bar, OPl q)] = Ok (OPl (PPipe (PRedir q (to_file 0 f)) p)) /\
  shell_reads None p [(Cmp Less, OStr f); (Bar, OPl q)] (PPipe (PRedir p (to_file 0 f)) q) /\
  line (OPl p) [(Cmp More, OStr f); (Bar, OPl q)] = Ok (OPl (PPipe p (PRedir q (to_file 0 f)))) /\
  shell_reads None p [(Cmp More, OStr f); (Bar, OPl q)] (PPipe (PRedir p (to_file 1 f)) q).
Proof. intros p f q. split; [reflexivity|split; [repeat constructor|split; [reflexivity|repeat constructor]]]. Qed.
Print Assumptions C77_redirect_then_pipe_refuted.
(** A redirect from a file after a pipe is one of the whole pipe, that is of its
    first command (C61), where a shell redirects the last one. *)
Theorem C77_pipe_then_in_refuted : forall p q f,
  line (OPl p) [(Bar, OPl q); (Cmp Less, OStr f)] = Ok (OPl (PRedir (PPipe p q) (to_file 0 f))) /\
  shell_reads None p [(Bar, OPl q); (Cmp Less, OStr f)] (PPipe p (PRedir q (to_file 0 f))).
Proof. intros p q f. split; [reflexivity|]. constructor. constructor. exact (sh_end (Some p) _). Qed.
Print Assumptions C77_pipe_then_in_refuted.
(** + makes groups, left to right, and binds stronger than |; python functions and
    iterables become parts of the pipe, None is /dev/null, and | True changes
    nothing. *)
Theorem C77_groups : forall p ps, line (OPl p) (map (fun q => (Plus, OPl q)) ps) = Ok (OPl (fold_left PGroup ps p)).
Proof. intros p ps. unfold line. destruct (eval_pluses ps None None (EObj (OPl p)) p eq_refl) as (e & -> & E). exact E. Qed.
Print Assumptions C77_groups.
Theorem C77_precedence : forall a b c, line (OPl a) [(Plus, OPl b); (Bar, OPl c)] = Ok (OPl (PPipe (PGroup a b) c)) /\
  line (OPl a) [(Bar, OPl b); (Plus, OPl c)] = Ok (OPl (PPipe a (PGroup b c))).
Proof. intros a b c. split; reflexivity. Qed.
Print Assumptions C77_precedence.
Theorem C77_operands : forall p, line (OPl p) [(Bar, OFunc)] = Ok (OPl (PPipe p (PFun true))) /\ line OIter [(Bar, OPl p)] = Ok (OPl (PPipe (PFun false) p)) /\
  line (OPl p) [(Cmp More, ONone)] = Ok (OPl (PRedir p (to_file 1 "/dev/null"))) /\ line (OPl p) [(Cmp Less, ONone)] = Ok (OPl (PRedir p (to_file 0 "/dev/null"))) /\
  line (OPl p) [(Bar, OBool true)] = Ok (OPl p) /\ line (OPl p) [(Bar, OBool false)] = Err ValueError.
Proof. intros p. repeat split. Qed.
Print Assumptions C77_operands.
(** Operands that cannot be run are refused by | but accepted by +. *)
Theorem C77_bad_operand : forall p, line (OPl p) [(Bar, OOther)] = Err ValueError /\ line OOther [(Bar, OPl p)] = Err ValueError /\
  line (OPl p) [(Plus, OOther)] = Ok OHalf /\ line (OPl p) [(Plus, OStr "x")] = Ok OHalf /\ line (OStr "x") [(Plus, OPl p)] = Err TypeError.
Proof. intros p. repeat split. Qed.
Print Assumptions C77_bad_operand.
Definition word (w : string) : pl := PCmd [AWord w].
Example C77_nonvacuous :
  line (OPl (word "a")) [(Bar, OPl (word "b")); (Bar, OPl (word "c"))] = Ok (OPl (PPipe (PPipe (word "a") (word "b")) (word "c"))) /\
  line (OPl (word "a")) [(Plus, OPl (word "b")); (Bar, OPl (word "c"))] = Ok (OPl (PPipe (PGroup (word "a") (word "b")) (word "c"))) /\
  line (OPl (word "a")) [(Bar, OPl (word "b")); (Plus, OPl (word "c"))] = Ok (OPl (PPipe (word "a") (PGroup (word "b") (word "c")))) /\
  line (OPl (word "a")) [(Cmp Less, OStr "in"); (Cmp More, OStr "out")] = Ok (OBool false) /\
  line (OIter) [(Bar, OPl (word "a")); (Cmp More, OStr "out")] = Ok (OPl (PRedir (PPipe (PFun false) (word "a")) (to_file 1 "out"))) /\
  PPipe (PRedir (word "b") (to_file 0 "in")) (word "a") <> PPipe (PRedir (word "a") (to_file 0 "in")) (word "b").
Proof. repeat (split; [vm_compute; reflexivity|]). discriminate. Qed.
