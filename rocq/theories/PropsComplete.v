(** C83: completing the arguments of a command executes nothing and completes the
    words of the command. *)
From Verif Require Import Py PathModel EnvModel ExpandModel ExpandSpec ExpandProofs CommandModel ReprModel BashSpec BashProofs CompleteModel CompleteSpec CompleteProofs.

Section C83.
  Context (printable : N -> bool) (w : world) (cwd : text) (sc : scope).
  (** It is so for words in which no character has a meaning for the shell or
      pieshell, and words with blanks whose quoting works out. *)
  Theorem C83_words_partial : forall ws, ws <> [] -> Forall (fun x => simple_word x \/ spaced_word printable x) ws -> Forall inert ws ->
    exists argv, completion_argv printable w cwd sc ws = Ok argv /\ only_sets (evaluated argv) ws.
  Proof. exact (words_arrive printable w cwd sc). Qed.
  (** But a word is not quoted unless it has a blank in it: a semicolon ends the
      set command, and what follows is executed by the shell ... *)
  Theorem C83_executed_refuted : forall a c, simple_word a -> simple_word c -> inert a -> inert c ->
    exists argv, completion_argv printable w cwd sc [a; txt ";" ++ c] = Ok argv /\
      sh_read (evaluated argv) = Some [bare (txt "set"); bare (txt "--"); bare a; SOp 59; bare c].
  Proof.
    intros a c A C IA IC. assert (MA : mem 32%N a = false). { apply mem_not. intros I. destruct A as (_ & _ & F). rewrite Forall_forall in F. destruct (F _ I) as [X _]. discriminate. }
    assert (MC : mem 32%N c = false). { apply mem_not. intros I. destruct C as (_ & _ & F). rewrite Forall_forall in F. destruct (F _ I) as [X _]. discriminate. }
    assert (E : complete_line printable [a; txt ";" ++ c] = a ++ 32%N :: 59%N :: c ++ [32%N]).
    { unfold complete_line. cbn [map join_with]. unfold quote_arg. rewrite MA. change (mem 32%N (txt ";" ++ c)) with (mem 32%N c). rewrite MC. cbn [txt List.app]. now rewrite <- app_assoc. }
    exists [complete_line printable [a; txt ";" ++ c]]. split.
    - unfold completion_argv. apply expand_inert. rewrite E. intros x. rewrite in_app_iff. cbn [In]. rewrite in_app_iff. cbn [In].
      intros [I|[<-|[<-|[I|[<-|[]]]]]]; try (repeat split; discriminate); [now apply IA|now apply IC].
    - unfold evaluated, sh_read. cbn [hd]. rewrite E, sh_set. rewrite sh_simple_start by exact A. cbn [sh]. change (sh_blank 32) with true. change (sh_blank 59) with false. change (sh_op 59) with true. cbn iota.
      rewrite sh_simple_start by exact C. reflexivity.
  Qed.
  (** ... and $(...) and such are expanded by the shell: the word is executed. *)
  Theorem C83_expanded_refuted : forall a c, simple_word a -> inert a -> active c = true -> c <> 42%N -> c <> 63%N -> c <> 91%N -> c <> 126%N ->
    exists argv cs, completion_argv printable w cwd sc [a ++ [c]] = Ok argv /\
      sh_read (evaluated argv) = Some [bare (txt "set"); bare (txt "--"); SW (cs ++ [(c, false)])].
  Proof.
    intros a c A IA AC N1 N2 N3 N4. assert (C : c = 36%N \/ c = 96%N \/ c = 123%N).
    { unfold active in AC. repeat rewrite orb_true_iff in AC. repeat rewrite N.eqb_eq in AC. tauto. }
    assert (M : mem 32%N (a ++ [c]) = false). { apply mem_not. rewrite in_app_iff. intros [I|[X|[]]]; [|rewrite X in C; intuition discriminate]. destruct A as (_ & _ & F). rewrite Forall_forall in F. destruct (F _ I) as [X _]. discriminate. }
    assert (E : complete_line printable [a ++ [c]] = a ++ [c; 32%N]). { unfold complete_line. cbn [map join_with]. unfold quote_arg. rewrite M. rewrite <- app_assoc. reflexivity. }
    exists [complete_line printable [a ++ [c]]], (map (fun x => (x, false)) a). split.
    - unfold completion_argv. apply expand_inert. rewrite E. intros x. rewrite in_app_iff. intros [I|[<-|[<-|[]]]]; [now apply IA| |repeat split; discriminate].
      repeat split; try assumption. intros ->. intuition discriminate.
    - unfold evaluated, sh_read. cbn [hd]. rewrite E, sh_set. rewrite sh_simple_start by exact A. destruct C as [->|[->| ->]]; reflexivity.
  Qed.
  (** An apostrophe breaks the line. *)
  Theorem C83_apostrophe_refuted : forall a b, simple_word a -> inert a -> inert b -> ~ In 39%N b -> ~ In 32%N b ->
    exists argv, completion_argv printable w cwd sc [a ++ 39%N :: b] = Ok argv /\ sh_read (evaluated argv) = None.
  Proof.
    intros a b A IA IB NB SB. assert (M : mem 32%N (a ++ 39%N :: b) = false).
    { apply mem_not. rewrite in_app_iff. cbn [In]. intros [I|[I|I]]; [|discriminate|contradiction]. destruct A as (_ & _ & F). rewrite Forall_forall in F. destruct (F _ I) as [X _]. discriminate. }
    assert (E : complete_line printable [a ++ 39%N :: b] = a ++ 39%N :: b ++ [32%N]). { unfold complete_line. cbn [map join_with]. unfold quote_arg. rewrite M. rewrite <- app_assoc. reflexivity. }
    exists [complete_line printable [a ++ 39%N :: b]]. split.
    - unfold completion_argv. apply expand_inert. rewrite E. intros x. rewrite in_app_iff. cbn [In]. rewrite in_app_iff. cbn [In].
      intros [I|[<-|[I|[<-|[]]]]]; try (repeat split; discriminate); [now apply IA|now apply IB].
    - unfold evaluated, sh_read. cbn [hd]. rewrite E, sh_set. rewrite sh_simple_start by exact A. cbn [sh]. change (sh_blank 39) with false. change (sh_op 39) with false. cbn [N.eqb Pos.eqb].
      rewrite sh_sq_none; [reflexivity|]. rewrite in_app_iff. cbn [In]. intuition discriminate.
  Qed.
  (** An empty word disappears. *)
  Theorem C83_empty_refuted : forall ws, Forall (fun x => simple_word x \/ spaced_word printable x) ws -> ws <> [] -> forall a, simple_word a ->
    sh_read (evaluated [complete_line printable (a :: [] :: ws)]) = sh_read (evaluated [complete_line printable (a :: ws)]).
  Proof.
    intros ws F N a A. unfold evaluated, sh_read. cbn [hd]. rewrite !sh_set. f_equal. rewrite (sh_words printable (a :: ws)) by (try discriminate; constructor; auto).
    destruct ws as [|x ws]; [congruence|]. unfold complete_line.
    change (join_with (txt " ") (map (quote_arg printable) (a :: [] :: x :: ws))) with (quote_arg printable a ++ txt " " ++ txt " " ++ join_with (txt " ") (map (quote_arg printable) (x :: ws))).
    rewrite <- !app_assoc. change (txt " " ++ txt " " ++ ?y) with (32%N :: 32%N :: y). rewrite (sh_word printable) by (now left).
    change (sh (32%N :: ?y) SmBlank []) with (sh y SmBlank []). fold (complete_line printable (x :: ws)). rewrite (sh_words printable (x :: ws)) by (assumption || discriminate). reflexivity.
  Qed.
  (** A per cent sign at the end of a word makes completion fail: the line is
      expanded again, like an argument. *)
  Theorem C83_percent_refuted : forall a, ~ In 37%N a -> mem 32%N a = false -> completion_argv printable w cwd sc [a ++ txt "%"] = Err ValueError.
  Proof.
    intros a N M. assert (E : complete_line printable [a ++ txt "%"] = a ++ txt "% ").
    { unfold complete_line. cbn [map join_with]. unfold quote_arg. replace (mem 32%N (a ++ txt "%")) with false; [now rewrite <- app_assoc|].
      symmetry. apply mem_not. rewrite in_app_iff. intros [I|[I|[]]]; [apply mem_in in I; congruence|discriminate]. }
    unfold completion_argv, expand_str. rewrite E. unfold percent. rewrite app_length. rewrite pformat_plain by exact N. reflexivity.
  Qed.
End C83.
Print Assumptions C83_words_partial.
Print Assumptions C83_executed_refuted.
Print Assumptions C83_expanded_refuted.
Print Assumptions C83_apostrophe_refuted.
Print Assumptions C83_empty_refuted.
Print Assumptions C83_percent_refuted.
Example C83_nonvacuous :
  let pr := fun _ : N => true in
  Forall (fun x => simple_word x \/ spaced_word pr x) [txt "git"; txt "log"; txt "it's so"; txt "a;$b c"] /\
  complete_line pr [txt "git"; txt "it's so"; txt "a;$b c"] = txt "git ""it's so"" 'a;$b c' " /\
  simple_word (txt "reboot") /\ inert (txt "reboot") /\
  complete_line pr [txt "echo"; txt ";reboot"] = txt "echo ;reboot ".
Proof.
  assert (S : forall t, t <> [] -> hd_error t <> Some 35%N -> forallb (fun c => negb (sh_blank c) && negb (sh_op c) && negb (N.eqb c 39) && negb (N.eqb c 34) && negb (N.eqb c 92) && negb (active c)) t = true -> simple_word t).
  { intros t A B C. split; [exact A|]. split; [exact B|]. apply Forall_forall. intros c I. rewrite forallb_forall in C. specialize (C c I). repeat rewrite andb_true_iff in C. repeat rewrite negb_true_iff in C. repeat rewrite N.eqb_neq in C. unfold simple_char. tauto. }
  assert (V : forall t, forallb (fun c => (32 <=? c)%N && (c <? 127)%N) t = true -> Forall (visible (fun _ => true)) t).
  { intros t H. apply Forall_forall. intros c I. rewrite forallb_forall in H. specialize (H c I). apply andb_true_iff in H. destruct H as [A B]. left. apply N.leb_le in A. apply N.ltb_lt in B. now split. }
  split.
  - constructor; [left; apply S; [discriminate|discriminate|reflexivity]|]. constructor; [left; apply S; [discriminate|discriminate|reflexivity]|].
    constructor.
    + right. split; [apply mem_in; reflexivity|]. split; [apply V; reflexivity|]. split; [apply mem_not; reflexivity|]. right. repeat split; apply mem_not; reflexivity.
    + constructor; [|constructor]. right. split; [apply mem_in; reflexivity|]. split; [apply V; reflexivity|]. split; [apply mem_not; reflexivity|]. left. apply mem_not; reflexivity.
  - split; [vm_compute; reflexivity|]. split; [apply S; [discriminate|discriminate|reflexivity]|]. split; [|vm_compute; reflexivity]. intros c I. cbn in I. repeat (destruct I as [<-|I]; [repeat split; discriminate|]). destruct I.
Qed.
