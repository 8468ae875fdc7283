(** C73, C74: the remote builtin and the command line of pieshell. *)
From Verif Require Import Py PathModel EnvModel ExpandModel ExpandSpec ExpandProofs CommandModel BashSpec ShellModel ShellSpec ShellProofs PropsExpand.

(** C73: ssh is started with the words before the pipeline and with one line;
    the shell on the other side reads that line as the program pieshell with one
    option, and pieshell decodes from that option exactly the bytes that were
    sent - whatever the bytes, the scope, the directory and the world here. *)
Theorem C73_sent_bytes_arrive : forall w cwd sc middle ws bytes, Forall byte bytes -> arg_list w cwd sc middle = Ok ws ->
  exists line option, arg_list w cwd sc (remote_args middle bytes) = Ok (WStr (txt "ssh") :: ws ++ [WStr line]) /\
    remote_argv line [txt "pieshell"; option] /\ main [option] = Ok (ARun true (Ok (WPickled bytes))).
Proof.
  exact (fun w cwd sc middle ws b B H => ex_intro _ (sshcmd b) (ex_intro _ (txt "--pcmd=" ++ b64encode b)
    (conj (remote_words_sent w cwd sc middle ws b H) (conj (sshcmd_read b) (main_pcmd b B))))).
Qed.
Print Assumptions C73_sent_bytes_arrive.
(** Different bytes are different lines. *)
Theorem C73_injective : forall b b', Forall byte b -> Forall byte b' -> sshcmd b = sshcmd b' -> b = b'.
Proof.
  intros b b' B B' H. unfold sshcmd in H. apply app_inv_head in H. apply app_inv_tail in H.
  apply (f_equal b64decode) in H. rewrite !b64_roundtrip in H by assumption. now injection H.
Qed.
Print Assumptions C73_injective.
Example C73_nonvacuous :
  Forall byte [128; 4; 255; 0; 39; 37; 42]%N /\ sshcmd [128; 4; 255; 0; 39; 37; 42]%N = txt "pieshell --pcmd='gAT/ACclKg=='" /\
  arg_list (world_of NFile) (txt "/") some_vars [AStr (txt "-p"); AStr (txt "22"); AStr (txt "host")] = Ok (map WStr (map txt ["-p"; "22"; "host"]%string)).
Proof. split; [repeat constructor|split; reflexivity]. Qed.

(** C74: what pieshell does for a command line.  Options are read as written
    (the last one of a name counts) and the other words are the files. *)
Theorem C74_help_version : forall argv,
  (switched_on argv (txt "help") -> main argv = Ok AHelp) /\
  (~ switched_on argv (txt "help") -> switched_on argv (txt "version") -> main argv = Ok AVersion).
Proof.
  intros argv. rewrite main_eq. unfold main'. split.
  - intros H. apply truthy_on in H. rewrite H. reflexivity.
  - intros H V. apply truthy_off in H. apply truthy_on in V. rewrite H, V. reflexivity.
Qed.
Print Assumptions C74_help_version.
Theorem C74_actions : forall argv files, ~ switched_on argv (txt "help") -> ~ switched_on argv (txt "version") -> absent argv (txt "log") ->
  picked positional argv files ->
  exists startup r, main argv = Ok (ARun startup r) /\ (startup = false <-> switched_on argv (txt "no-startup")) /\
    (forall expr, given argv (txt "cmd") (KvStr expr) -> r = Ok (WExpr expr)) /\
    (forall b, absent argv (txt "cmd") -> Forall byte b -> given argv (txt "pcmd") (KvStr (b64encode b)) -> r = Ok (WPickled b)) /\
    (absent argv (txt "cmd") -> absent argv (txt "pcmd") -> files <> [] -> r = Ok (WFiles files)) /\
    (absent argv (txt "cmd") -> absent argv (txt "pcmd") -> files = [] -> exists pt, r = Ok (WShell pt) /\ (pt = true <-> switched_on argv (txt "ptpython"))).
Proof. exact main_actions. Qed.
Print Assumptions C74_actions.
(** ... except --log, with any value or none: it raises before anything is done. *)
Theorem C74_log_refuted : forall argv v, ~ switched_on argv (txt "help") -> ~ switched_on argv (txt "version") -> given argv (txt "log") v ->
  main argv = Err AttributeError.
Proof.
  intros argv v H V L. apply truthy_off in H, V. apply kws_given in L. rewrite main_eq. unfold main'. rewrite H, V, L. reflexivity.
Qed.
Print Assumptions C74_log_refuted.
(** An option that needs a value and has none, and a damaged value, raise; no
    file is executed instead. *)
Theorem C74_no_value : forall argv n, In n [txt "cmd"; txt "pcmd"] -> given argv n KvTrue -> (n = txt "pcmd" -> absent argv (txt "cmd")) ->
  forall s r, main argv = Ok (ARun s r) -> r = Err AttributeError.
Proof.
  intros argv n I G A s r. rewrite main_eq. unfold main'. destruct (truthy _); [discriminate|]. destruct (truthy _); [discriminate|].
  destruct (main_log _) as [u|e]; [|discriminate]. cbn [bind_res]. intros E. injection E as _ <-. apply kws_given in G.
  destruct I as [<-|[<-|[]]]; [now rewrite G|]. specialize (A eq_refl). apply kws_absent in A. now rewrite A, G.
Qed.
Print Assumptions C74_no_value.
Definition words (l : list string) : list text := map txt l.
Example C74_nonvacuous :
  main (words ["--cmd=ls"; "x"; "--no-startup"; "--cmd=a=b"]%string) = Ok (ARun false (Ok (WExpr (txt "a=b")))) /\
  main (words ["a.pysh"; "--ptpython"; "b"]%string) = Ok (ARun true (Ok (WFiles (words ["a.pysh"; "b"]%string)))) /\
  main (words ["--pcmd=Zm9v"]%string) = Ok (ARun true (Ok (WPickled [102; 111; 111]%N))) /\
  main (words ["--log=cmd"; "a.pysh"]%string) = Err AttributeError /\
  main (words ["--help"; "--log=cmd"]%string) = Ok AHelp /\ main (words ["--help="; "--version"]%string) = Ok AVersion /\
  main [] = Ok (ARun true (Ok (WShell false))) /\
  picked positional (words ["a.pysh"; "--ptpython"; "b"]%string) (words ["a.pysh"; "b"]%string).
Proof. repeat (split; [reflexivity|]). rewrite (eq_refl : words ["a.pysh"; "b"]%string = args_of (words ["a.pysh"; "--ptpython"; "b"]%string)). apply args_picked. Qed.
