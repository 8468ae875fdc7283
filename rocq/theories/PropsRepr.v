(** C71 and C72: the printed form of pipelines. *)
From Verif Require Import Py PathModel PathSpec EnvModel ExpandModel ExpandSpec ExpandProofs CommandModel CommandSpec CommandProofs ReprModel ReprSpec ReprProofs PropsExpand.

(** C71.  The printed form of a string argument reads back as the same string,
    whatever the string and whichever characters python deems printable. *)
Theorem C71_strings_read_back : forall printable t, Forall char t -> literal (repr_str printable t) = Some t.
Proof. exact literal_repr. Qed.
Print Assumptions C71_strings_read_back.
(** A pipeline of commands, without a pipe inside a group, reads back as a
    pipeline that does the same. *)
Theorem C71_retyped_partial : forall printable w cwd sc failed p, plain w cwd sc reserved env_reserved p ->
  exists t q, show_raw printable w cwd sc failed p = Ok t /\ typed t q /\ same w cwd sc q p.
Proof. exact (fun pr w cwd sc f => retyped pr w cwd sc f). Qed.
Print Assumptions C71_retyped_partial.
(** ... but a pipe inside a group is printed without parentheses, and reads as
    another pipeline: a + (b | c) as (a + b) | c, (a | b) + c as a | (b + c). *)
Theorem C71_group_refuted : forall printable w cwd sc failed a b c,
  let plain := plain w cwd sc reserved env_reserved in let plain_sum := plain_sum w cwd sc reserved env_reserved in
  let show := show_raw printable w cwd sc failed in let same := same w cwd sc in
  (plain_sum a -> plain_sum b -> plain c ->
     exists t q, show (TGroup a (TPipe b c)) = Ok t /\ typed t q /\ same q (TPipe (TGroup a b) c) /\ ~ same q (TGroup a (TPipe b c))) /\
  (plain a -> plain_sum b -> plain_sum c ->
     exists t q, show (TGroup (TPipe a b) c) = Ok t /\ typed t q /\ same q (TPipe a (TGroup b c)) /\ ~ same q (TGroup (TPipe a b) c)).
Proof. exact (fun pr w cwd sc f a b c => conj (misread_right pr w cwd sc f a b c) (misread_left pr w cwd sc f a b c)). Qed.
Print Assumptions C71_group_refuted.
(** A protected argument R(t) is printed as the string t, which is expanded when
    typed in; a pipeline given as an argument is lost. *)
Theorem C71_arguments_refuted : forall printable w cwd sc failed n a c, name_ok n -> ~ In n env_reserved -> stays w cwd sc n -> c_arg c = [AStr n; a] ->
  (exists t, a = AR t /\ ~ wordlike t /\ Forall char t /\ ~ stays w cwd sc t) \/ (exists h fd, a = APipe h fd) ->
  exists s q, show_raw printable w cwd sc failed (TCmd c) = Ok s /\ typed s q /\ ~ same w cwd sc q (TCmd c).
Proof.
  intros pr w cwd sc f n a c N R S E [(t & -> & A & B & C)|(h & fd & ->)].
  - now apply (quoted_lost pr w cwd sc f n t c).
  - now apply (pipe_lost pr w cwd sc f n h fd c).
Qed.
Print Assumptions C71_arguments_refuted.
(** A word that is the name of a method, or a command called as a python keyword,
    cannot be typed in as printed at all. *)
Theorem C71_names_refuted : forall printable w cwd sc failed n r ts c,
  let show := show_raw printable w cwd sc failed in
  (name_ok n -> ~ In n env_reserved -> stays w cwd sc n -> stays w cwd sc r -> In r (map txt ["run"; "mro"]%string) -> c_arg c = [AStr n; AStr r] ->
     exists s, show (TCmd c) = Ok s /\ ~ exists q, typed s q) /\
  (In n keywords -> stays w cwd sc n -> match ts with [] => True | t :: _ => ~ wordlike t end -> Forall (Forall char) ts -> Forall (stays w cwd sc) ts ->
     c_arg c = map AStr (n :: ts) -> exists s, show (TCmd c) = Ok s /\ ~ exists q, typed s q).
Proof. exact (fun pr w cwd sc f n r ts c => conj (reserved_lost pr w cwd sc f n r c) (keyword_lost pr w cwd sc f n ts c)). Qed.
Print Assumptions C71_names_refuted.

Definition no_print (_ : N) : bool := false.
Definition cmd_of (ts : list string) : tree := TCmd (mkCmd CCmd (map AStr (map txt ts))).
Definition some_pipe : tree := TPipe (cmd_of ["git"; "log"; "-n"; "it's"]%string) (TPipe (TGroup (cmd_of ["cat"]%string) (cmd_of ["./a-b"; "x"]%string)) (cmd_of ["wc"; "-l"]%string)).
Lemma stays_easy w cwd sc t : no_percent t -> no_tilde t -> no_glob t -> stays w cwd sc t.
Proof. exact (C33_ordinary_verbatim w cwd sc t). Qed.
(** A decidable form of the hypotheses, for the examples. *)
Definition easy (t : text) : bool :=
  negb (existsb (N.eqb c_percent) t) && negb (startswith t [c_tilde]) && negb (has_magic t) && forallb (fun c => (c <=? 1114111)%N) t.
Definition name_easy (t : text) : bool := negb (re_name t) || (negb (text_eqb t []) && forallb letter t && negb (is_keyword t) && negb (tmem t reserved) && negb (tmem t env_reserved)).
Lemma easy_stays w cwd sc t : easy t = true -> stays w cwd sc t /\ Forall char t.
Proof.
  unfold easy. rewrite !andb_true_iff, !negb_true_iff. intros [[[A B] C] D]. split.
  - apply stays_easy.
    + intros K. assert (X : existsb (N.eqb c_percent) t = true) by (apply existsb_exists; exists c_percent; split; [exact K|apply N.eqb_refl]). congruence.
    + destruct t as [|c t]; [exact I|]. cbn. intros ->. destruct t; discriminate B.
    + now apply has_magic_false.
  - rewrite Forall_forall. intros c K. rewrite forallb_forall in D. apply N.leb_le, D, K.
Qed.
Lemma easy_cmd w cwd sc f ts : forallb easy (f :: ts) = true -> forallb name_easy (f :: ts) = true -> tmem f builtin_names = false ->
  plain_cmd w cwd sc reserved env_reserved (mkCmd CCmd (map AStr (f :: ts))).
Proof.
  intros A B C. rewrite forallb_forall in A, B. exists f, (map AStr ts), (f :: ts).
  assert (S : Forall (stays w cwd sc) (f :: ts)) by (rewrite Forall_forall; intros t K; apply easy_stays, A, K).
  split; [reflexivity|]. split; [cbn [map c_arg construct dispatch]; now rewrite C|]. split; [now inversion S|]. split; [rewrite Forall_map, Forall_forall; intros; exact I|].
  split; [now apply arg_list_stays|]. split; [discriminate|]. split; [exact S|]. split; [rewrite Forall_forall; intros t K; apply (easy_stays w cwd sc), A, K|].
  intros pre t post E F W. assert (K : In t (f :: ts)) by (rewrite E; apply in_elt). specialize (B t K). unfold name_easy in B.
  apply (re_name_spec no_print) in W. rewrite W in B. cbn [negb orb] in B. rewrite !andb_true_iff, !negb_true_iff in B. destruct B as [[[[B1 B2] B3] B4] B5].
  split; [split; [intros ->; discriminate B1|split; [now apply (forallb_letter no_print)|intros X; apply keyword_spec in X; congruence]]|].
  split; intros _ X; apply tmem_In in X; congruence.
Qed.
Example C71_nonvacuous : plain (world_of NFile) [c_slash] some_vars reserved env_reserved some_pipe /\
  show_raw no_print (world_of NFile) [c_slash] some_vars (fun _ => []) some_pipe =
    Ok (txt "git.log('-n', " ++ [34%N] ++ txt "it's" ++ [34%N] ++ txt ") | cat + _('./a-b', 'x') | wc('-l')") /\
  literal (repr_str no_print [39%N; 34%N; 10%N; 92%N; 233%N; 8364%N; 128512%N; 0%N]) = Some [39%N; 34%N; 10%N; 92%N; 233%N; 8364%N; 128512%N; 0%N] /\
  show_raw no_print (world_of NFile) [c_slash] some_vars (fun _ => []) (TGroup (cmd_of ["a"]%string) (TPipe (cmd_of ["b"]%string) (cmd_of ["c"]%string))) = Ok (txt "a + b | c") /\
  show_raw no_print (world_of NFile) [c_slash] some_vars (fun _ => []) (cmd_of ["git"; "run"]%string) = Ok (txt "git.run") /\
  ~ stays (world_of NFile) [c_slash] some_vars (txt "100%").
Proof.
  split; [|repeat split; try (vm_compute; reflexivity)].
  - unfold some_pipe, cmd_of. repeat (apply p_pipe || apply p_sum || apply ps_group || apply ps_cmd); apply easy_cmd; vm_compute; reflexivity.
  - vm_compute. discriminate.
Qed.

(** C72.  Printing with repr() leaves everything as it was, raises nothing, and
    runs nothing unless an argument inserts the output of a command. *)
Theorem C72_repr_restores : forall o s, exists r, pipeline_repr o s = (s, r, false) /\ (quiet o -> r = []).
Proof. exact repr_restores. Qed.
Print Assumptions C72_repr_restores.
(** ... which does run it, and again at every printing. *)
Theorem C72_insert_refuted : forall env i st oc ins bad parts s, exists r, pipeline_repr (ObPipeline env i st oc ins bad parts) s = (s, ins ++ r, false).
Proof. exact (fun env i st oc ins bad parts s => insert_runs env st oc ins bad parts i s). Qed.
Print Assumptions C72_insert_refuted.
(** At the prompt, where the value itself is asked for its representation,
    exactly the interactive pipelines that were not started run: in order, once
    each, until one fails. *)
Theorem C72_display_runs_partial : forall o v r e, quiet o -> (displayed o r e <-> std o (mkP 0 v) = (mkP 0 v, r, e)).
Proof.
  intros o v r e Q. destruct (std_top o Q v) as (r' & e' & E & D). split.
  - intros X. destruct (displayed_fun o r e X r' e' D) as [-> ->]. exact E.
  - rewrite E. intros X. injection X as <- <-. exact D.
Qed.
Print Assumptions C72_display_runs_partial.
Theorem C72_display_list : forall envs v, std (ObSeq (map fresh envs)) (mkP 0 v) = (mkP 0 v, envs, false).
Proof. exact display_fresh. Qed.
Print Assumptions C72_display_list.
Example C72_nonvacuous :
  let p := ObPipeline 1 true false RunOk [] false [ObPipeline 1 true false RunOk [] true []; ObRaises] in
  quiet p /\ pipeline_repr (ObSeq [p; p]) (mkP 0 None) = (mkP 0 None, [], false) /\ std (ObSeq [p; fresh 2; ObRaises; fresh 3]) (mkP 0 (Some 9)) = (mkP 0 (Some 9), [1; 2], true) /\
  std (ObPipeline 1 true true RunOk [] false []) (mkP 0 None) = (mkP 0 None, [], false) /\
  pipeline_repr (ObPipeline 1 false false RunOk [7] false []) (mkP 0 None) = (mkP 0 None, [7], false).
Proof. cbv zeta. split; [repeat constructor|]. repeat split. Qed.
