(** Proofs about the forked child. *)
From Verif Require Import Py RedirModel RedirSpec Os PerformModel PerformSpec PerformSound PathModel PathSpec PathProofs
  EnvModel EnvSpec ExpandModel CommandModel ChildModel ChildSpec.

Lemma text_eqb_iff a b : text_eqb a b = true <-> a = b.
Proof. destruct (text_eqb_spec a b); intuition congruence. Qed.
Lemma str_ok_iff s : str_ok s = true <-> passable s.
Proof.
  unfold str_ok, passable. rewrite forallb_forall. split; intros H c I; specialize (H c I).
  - unfold char_ok in H. apply andb_true_iff in H as [A B]. destruct (N.eqb_spec c 0); [discriminate|]. split; [assumption|].
    apply negb_true_iff in B. destruct (N.leb_spec 55296 c), (N.leb_spec c 57343), (N.leb_spec 56448 c), (N.leb_spec c 56575); cbn in B; try discriminate; lia.
  - destruct H as [A B]. unfold char_ok. destruct (N.eqb_spec c 0); [contradiction|].
    destruct (N.leb_spec 55296 c), (N.leb_spec c 57343), (N.leb_spec 56448 c), (N.leb_spec c 56575); cbn; try reflexivity; lia.
Qed.
Lemma name_ok_iff k : name_ok k = true <-> proper_name k.
Proof.
  unfold proper_name. destruct k as [|c r]; cbn [name_ok].
  - split; [discriminate|]. intros (c & r & E & _). discriminate.
  - rewrite negb_true_iff, <- Bool.not_true_iff_false, existsb_exists. split.
    + intros H. exists c, r. split; [reflexivity|]. intros I. apply H. exists 61%N. split; [exact I|reflexivity].
    + intros (c' & r' & E & H) (x & I & X). injection E as -> ->. apply N.eqb_eq in X. subst. contradiction.
Qed.
Lemma exec_argv_texts ws : forall argv, exec_argv ws = Ok argv <-> Forall2 word_text ws argv.
Proof.
  induction ws as [|w ws IH]; intros argv; cbn [exec_argv].
  - split; [injection 1 as <-; constructor|inversion 1; reflexivity].
  - destruct w as [t|t [|] ]; cbn [bind_res].
    + destruct (exec_argv ws) as [x|e] eqn:E.
      * split; [injection 1 as <-; constructor; [now left|now apply IH]|].
        inversion 1 as [|? ? ? ? W F]; subst. apply IH in F. injection F as <-. destruct W as [W|W]; [injection W as <-; reflexivity|discriminate].
      * split; [discriminate|]. inversion 1 as [|? ? ? ? W F]; subst. apply IH in F. discriminate.
    + destruct (exec_argv ws) as [x|e] eqn:E.
      * split; [injection 1 as <-; constructor; [now right|now apply IH]|].
        inversion 1 as [|? ? ? ? W F]; subst. apply IH in F. injection F as <-. destruct W as [W|W]; [discriminate|injection W as <-; reflexivity].
      * split; [discriminate|]. inversion 1 as [|? ? ? ? W F]; subst. apply IH in F. discriminate.
    + split; [discriminate|]. inversion 1 as [|? ? ? ? W F]; subst. destruct W; discriminate.
Qed.
Lemma argv_strings_iff ws argv : argv_strings ws = Some argv <-> good_argv ws argv.
Proof.
  unfold argv_strings, good_argv. split.
  - destruct (exec_argv ws) as [ [|a r]|e] eqn:E; try discriminate.
    destruct (forallb str_ok (a :: r) && negb (text_eqb a [])) eqn:B; [|discriminate]. injection 1 as <-.
    apply andb_true_iff in B as [B1 B2]. split; [now apply exec_argv_texts|]. split.
    + apply Forall_forall. intros x I. apply str_ok_iff. rewrite forallb_forall in B1. now apply B1.
    + exists a, r. split; [reflexivity|]. intros ->. discriminate.
  - intros (F & S & f & r & -> & N). apply exec_argv_texts in F. rewrite F.
    replace (forallb str_ok (f :: r)) with true by (symmetry; apply forallb_forall; intros x I; apply str_ok_iff; rewrite Forall_forall in S; now apply S).
    destruct (text_eqb_spec f []); [contradiction|reflexivity].
Qed.
Lemma env_strings_iff vs : forall e, env_strings vs = Some e <-> good_vars vs e.
Proof.
  unfold good_vars. induction vs as [|[k [v|] ] vs IH]; intros e; cbn [env_strings].
  - split; [injection 1 as <-; split; [reflexivity|constructor]|]. destruct e; [reflexivity|intros [? _]; discriminate].
  - destruct (name_ok k && str_ok k && str_ok v) eqn:B.
    + apply andb_true_iff in B as [B B3]. apply andb_true_iff in B as [B1 B2].
      destruct (env_strings vs) as [x|] eqn:E.
      * split.
        -- injection 1 as <-. destruct (proj1 (IH x) eq_refl) as [-> F]. split; [reflexivity|]. constructor; [|exact F]. cbn [fst snd]. rewrite <- name_ok_iff, <- !str_ok_iff. auto.
        -- intros [M F]. destruct e as [|[k' v'] e]; [discriminate|]. cbn in M. injection M as -> -> M. inversion F; subst.
           assert (Some x = Some e) as Q by (apply IH; auto). now injection Q as ->.
      * split; [discriminate|]. intros [M F]. destruct e as [|[k' v'] e]; [discriminate|]. cbn in M. injection M as -> -> M. inversion F; subst.
        assert (None = Some e) by (apply IH; auto). discriminate.
    + split; [discriminate|]. intros [M F]. destruct e as [|[k' v'] e]; [discriminate|]. cbn in M. injection M as -> -> M. inversion F as [|? ? (A & C & D) ?]; subst.
      cbn [fst snd] in A, C, D. apply name_ok_iff in A. apply str_ok_iff in C, D. rewrite A, C, D in B. discriminate.
  - split; [discriminate|]. intros [M _]. destruct e as [|[k' v'] e]; discriminate.
Qed.
Lemma assoc_find e : assoc e t_PATH = match find (fun kv => if list_eq_dec N.eq_dec (fst kv) (txt "PATH") then true else false) e with Some (_, p) => Some p | None => None end.
Proof.
  induction e as [|[k v] e IH]; cbn [assoc find fst]; [reflexivity|].
  destruct (text_eqb_spec t_PATH k) as [E|E], (list_eq_dec N.eq_dec k (txt "PATH")) as [F|F]; auto; exfalso; unfold t_PATH in E; congruence.
Qed.
Lemma split_join dirs : dirs <> [] -> Forall (fun d => ~ In 58%N d) dirs -> split_on 58%N (join_with [58%N] dirs) = dirs.
Proof.
  intros N F. induction F as [|d ds Hd F IH]; [contradiction|]. destruct ds as [|d2 ds].
  - cbn [join_with]. now apply split_none.
  - cbn [join_with]. cbn [join_with] in IH. change (d ++ [58%N] ++ ?x) with (d ++ 58%N :: x).
    rewrite split_app, split_none by auto. cbn [app]. f_equal. apply IH. discriminate.
Qed.
Lemma exec_path_dirs e dirs : path_dirs e dirs <-> exec_path e = dirs.
Proof.
  unfold path_dirs, exec_path. rewrite assoc_find.
  destruct (find _ e) as [[k p]|]; split.
  - intros (N & F & ->). now apply split_join.
  - intros <-. split; [apply split_ne|]. split; [apply split_pieces|]. symmetry. apply join_split.
  - intros (_ & _ & ->). reflexivity.
  - intros <-. split; [discriminate|]. split; [apply split_pieces|]. reflexivity.
Qed.
Lemma mem_slash name : existsb (N.eqb c_slash) name = true <-> In c_slash name.
Proof.
  rewrite existsb_exists. split; [intros (x & I & E); apply N.eqb_eq in E; now subst|intros I; exists c_slash; split; [auto|apply N.eqb_refl]].
Qed.
Section C.
  Variable K : kernel.
  Lemma search_spec cwd file : forall dirs saved last,
    match search K cwd dirs file saved last with
    | inl f => exists before d after, dirs = before ++ d :: after /\ f = path_join d file /\ runs K cwd f /\
               forall b, In b before -> ~ runs K cwd (path_join b file)
    | inr x => (forall d, In d dirs -> ~ runs K cwd (path_join d file)) /\
               (x = XPlain -> dirs = [] /\ saved = None /\ last = None) /\
               (forall n, x = XErrno n -> (exists d, In d dirs /\ k_exec K cwd (path_join d file) = Some n) \/ saved = Some n \/ last = Some n) /\
               (forall b, x <> XBase b)
    end.
  Proof.
    induction dirs as [|d dirs IH]; intros saved last; cbn [search].
    - destruct saved as [s|]; [|destruct last as [l|] ]; (split; [intros ? []|]); split; try discriminate; auto; split; try discriminate;
      intros n E; injection E as ->; auto.
    - destruct (k_exec K cwd (path_join d file)) as [e|] eqn:E.
      + set (saved' := if N.eqb e n_ENOENT || N.eqb e n_ENOTDIR then saved else match saved with None => Some e | _ => saved end).
        replace (if N.eqb e n_ENOENT || N.eqb e n_ENOTDIR then _ else _) with (search K cwd dirs file saved' (Some e))
          by (unfold saved'; destruct (N.eqb e n_ENOENT || N.eqb e n_ENOTDIR); reflexivity).
        specialize (IH saved' (Some e)). destruct (search K cwd dirs file saved' (Some e)) as [f|x].
        * destruct IH as (before & d' & after & -> & -> & R & B). exists (d :: before), d', after. repeat split; auto.
          intros b [->|I]; auto. unfold runs. congruence.
        * destruct IH as (A & B & C & D). split; [|split; [|split; [|exact D] ] ].
          -- intros d' [->|I]; auto. unfold runs. congruence.
          -- intros X. destruct (B X) as (_ & _ & Y). discriminate.
          -- intros n X. destruct (C n X) as [(d' & I & Q)|[S|S] ].
             ++ left. exists d'. split; [now right|auto].
             ++ unfold saved' in S. destruct (N.eqb e n_ENOENT || N.eqb e n_ENOTDIR); [now right; left|].
                destruct saved; [now right; left|]. injection S as ->. left. exists d. split; [now left|auto].
             ++ injection S as ->. left. exists d. split; [now left|auto].
      + exists [], d, dirs. repeat split; auto.
  Qed.
  Lemma execvpe_spec cwd ws vs :
    match execvpe K cwd ws vs with
    | inl (f, argv, e) => good_argv ws argv /\ good_vars vs e /\ denotes K cwd (exec_path e) (hd [] argv) f
    | inr x => (forall argv e f, good_argv ws argv -> good_vars vs e -> ~ denotes K cwd (exec_path e) (hd [] argv) f) /\
               (x = XPlain \/ exists n d f, x = XErrno n /\ k_exec K d f = Some n)
    end.
  Proof.
    unfold execvpe. destruct (argv_strings ws) as [argv|] eqn:A.
    2:{ split; [|now left]. intros argv e f G _. apply argv_strings_iff in G. congruence. }
    destruct (env_strings vs) as [e|] eqn:E.
    2:{ split; [|now left]. intros argv' e f _ G. apply env_strings_iff in G. congruence. }
    assert (GA := A). apply argv_strings_iff in GA. assert (GE := E). apply env_strings_iff in GE.
    assert (U : forall argv' e', good_argv ws argv' -> good_vars vs e' -> argv' = argv /\ e' = e).
    { intros argv' e' G1 G2. apply argv_strings_iff in G1. apply env_strings_iff in G2. split; congruence. }
    cbn zeta. destruct (existsb (N.eqb c_slash) (hd [] argv)) eqn:S.
    - apply mem_slash in S. destruct (k_exec K cwd (hd [] argv)) as [n|] eqn:X.
      + split; [|right; eauto 6]. intros argv' e' f G1 G2 D. destruct (U _ _ G1 G2) as [-> ->]. inversion D; subst; unfold runs in *; [congruence|contradiction].
      + repeat split; try apply GA; try apply GE. now constructor.
    - assert (NS : ~ In c_slash (hd [] argv)) by (rewrite <- mem_slash; congruence).
      pose proof (search_spec cwd (hd [] argv) (exec_path e) None None) as SS.
      destruct (search K cwd (exec_path e) (hd [] argv) None None) as [f|x].
      + destruct SS as (before & d & after & P & -> & R & B). repeat split; try apply GA; try apply GE. eapply den_search; eauto.
      + destruct SS as (A1 & A2 & A3 & A4). split.
        * intros argv' e' f G1 G2 D. destruct (U _ _ G1 G2) as [-> ->]. inversion D; subst; [contradiction|].
          eapply A1; [|eassumption]. match goal with H : exec_path e = _ |- _ => rewrite H end. apply in_or_app. right. now left.
        * destruct x as [n| |b]; [|now left|now destruct (A4 b)]. right. destruct (A3 n eq_refl) as [(d & I & Q)|[Q|Q] ]; try discriminate. eauto.
  Qed.

  Variable L : limits.
  Variable logfd maxfd : nat.
  Definition after_perform rs (c : cstate) := fst (perform L logfd maxfd rs (cs_tab c)).
  Lemma startable_iff dir ws vs : startable K dir ws vs <-> k_chdir K dir = None /\ exists r, execvpe K dir ws vs = inl r.
  Proof.
    pose proof (execvpe_spec dir ws vs) as X. unfold startable. split; intros [A B]; split; auto.
    - destruct B as (argv & e & dirs & name & rest & file & G1 & G2 & P & -> & D).
      destruct (execvpe K dir ws vs) as [r|x]; [eauto|]. destruct X as [X _]. apply exec_path_dirs in P. subst dirs.
      now destruct (X _ _ file G1 G2).
    - destruct B as ([ [f argv] e] & E). rewrite E in X. destruct X as (G1 & G2 & D).
      destruct (proj2 (proj2 G1)) as (nm & rest & -> & _).
      exists (nm :: rest), e, (exec_path e), nm, rest, f. split; [exact G1|]. split; [exact G2|]. split; [now apply exec_path_dirs|]. split; [reflexivity|exact D].
  Qed.
  Lemma child_program sig rs dir ws vs c f argv e cwd t :
    fst (child K L logfd maxfd sig rs dir ws vs c) = Program f argv e cwd t ->
    sig <> BeforeExec /\ k_chdir K dir = None /\ good_argv ws argv /\ good_vars vs e /\ cwd = dir /\
    (forall dirs, path_dirs e dirs -> denotes K dir dirs (hd [] argv) f) /\ t = exec_tab (after_perform rs c).
  Proof.
    unfold child, command_child, do_chdir, do_perform. cbn [cs_tab cs_cwd cs_opened].
    destruct sig; try discriminate; destruct (k_chdir K dir) as [n|] eqn:C.
    all: cbn [fst]; try discriminate; try (unfold handler; cbn; destruct (write_stderr _ _); discriminate).
    all: pose proof (execvpe_spec dir ws vs) as X; cbn [cs_cwd cs_tab]; destruct (execvpe K dir ws vs) as [ [ [f' argv'] e']|x]; cbn [fst].
    all: try (intros [= <- <- <- <- <-]; destruct X as (G1 & G2 & D); split; [discriminate|]; split; [reflexivity|]; split; [exact G1|]; split; [exact G2|];
      split; [reflexivity|]; split; [|reflexivity]; intros dirs P; apply exec_path_dirs in P; subst dirs; exact D).
    all: unfold handler; destruct x; try discriminate; destruct (write_stderr _ _); discriminate.
  Qed.
  Lemma write_works rs c : write_stderr K (after_perform rs c) = None <-> stderr_works K L logfd maxfd rs (cs_tab c).
  Proof.
    unfold write_stderr, stderr_works, after_perform. destruct (tget _ 2) as [e|].
    - split; [intros H; eauto|]. intros (e' & [= ->] & H). exact H.
    - split; [discriminate|]. intros (e & ? & _). discriminate.
  Qed.
  (** The three ways, exactly. *)
  Lemma child_cases sig rs dir ws vs c :
    let x := fst (child K L logfd maxfd sig rs dir ws vs c) in
    (sig <> BeforeExec -> startable K dir ws vs -> exists f argv e, x = Program f argv e dir (exec_tab (after_perform rs c))) /\
    (sig = Never -> ~ startable K dir ws vs -> stderr_works K L logfd maxfd rs (cs_tab c) ->
       exists n, x = Exits (status_of n) /\ (n = XPlain \/ exists e, n = XErrno e /\ (k_chdir K dir = Some e \/ exists d f, k_exec K d f = Some e))) /\
    (goes_on x <-> sig = BeforeExec \/ (~ startable K dir ws vs /\ (sig = InHandler \/ ~ stderr_works K L logfd maxfd rs (cs_tab c)))).
  Proof.
    cbn zeta. pose proof (startable_iff dir ws vs) as SI. pose proof (write_works rs c) as WW.
    unfold child, command_child, do_chdir, do_perform. cbn [cs_tab cs_cwd cs_opened]. fold (after_perform rs c).
    destruct (k_chdir K dir) as [n|] eqn:C.
    { assert (NS : ~ startable K dir ws vs) by (rewrite SI; intros [? _]; discriminate).
      split; [intros _ S; contradiction|]. split.
      - intros -> _ W. apply WW in W. cbn [fst]. unfold handler. cbn [cs_tab]. fold (after_perform rs c). rewrite W. exists (XErrno n). eauto 6.
      - destruct sig; cbn [fst].
        + unfold handler. cbn [cs_tab]. fold (after_perform rs c). destruct (write_stderr K (after_perform rs c)) as [w|] eqn:W.
          * split; [|intros _; now exists (XErrno w)]. intros _. right. split; [auto|]. right. intros S. apply WW in S. congruence.
          * split; [intros [? ?]; discriminate|]. intros [?|[_ [?|S] ] ]; try discriminate. exfalso. apply S, WW, eq_refl.
        + split; [now left|]. intros _. now eexists.
        + split; [intros _; right; auto|]. intros _. unfold handler. now eexists. }
    pose proof (execvpe_spec dir ws vs) as X.
    cbn [cs_cwd]. destruct (execvpe K dir ws vs) as [ [ [f argv] e]|x] eqn:EX.
    { assert (S : startable K dir ws vs) by (rewrite SI; split; eauto).
      split; [|split].
      - intros NB _. destruct sig; try contradiction; cbn [fst cs_tab]; eauto.
      - intros _ NS. contradiction.
      - destruct sig; cbn [fst].
        + split; [intros [? ?]; discriminate|]. intros [?|[? _] ]; [discriminate|contradiction].
        + split; [now left|]. intros _. now eexists.
        + split; [intros [? ?]; discriminate|]. intros [?|[? _] ]; [discriminate|contradiction]. }
    destruct X as [_ XC].
    assert (NB : forall b, x <> XBase b) by (intros b ->; destruct XC as [?|(? & ? & ? & ? & _)]; discriminate).
    assert (NS : ~ startable K dir ws vs) by (rewrite SI; intros [_ (r & ?)]; discriminate).
    split; [intros _ S; contradiction|]. split.
    - intros -> _ W. apply WW in W. cbn [fst cs_tab]. unfold handler. fold (after_perform rs c).
      destruct x as [m| |b]; [| |now destruct (NB b)]; rewrite W.
      + exists (XErrno m). split; [reflexivity|]. right. destruct XC as [?|(n' & d & f & E & Q)]; [discriminate|]. injection E as ->. eauto 6.
      + exists XPlain. auto.
    - assert (R : goes_on (handler K sig (after_perform rs c) x) <-> sig = InHandler \/ ~ stderr_works K L logfd maxfd rs (cs_tab c)).
      { unfold handler. destruct x as [m| |b]; [| |now destruct (NB b)]; destruct sig;
        try (split; [now left|intros _; now eexists]);
        destruct (write_stderr K (after_perform rs c)) as [w|] eqn:W.
        all: try (split; [intros _; right; intros S; apply WW in S; congruence|intros _; now eexists]).
        all: (split; [intros [? ?]; discriminate|intros [?|S]; [discriminate|]; exfalso; apply S, WW, eq_refl]). }
      destruct sig; cbn [fst cs_tab]; fold (after_perform rs c).
      + rewrite R. split; [intros H; right; auto|]. intros [?|[_ H] ]; [discriminate|exact H].
      + split; [now left|]. intros _. now eexists.
      + rewrite R. split; [intros H; right; auto|]. intros [?|[_ H] ]; [discriminate|exact H].
  Qed.
  Lemma status_nonzero n : (n = XPlain \/ exists e, n = XErrno e /\ (0 < e < 256)%N) -> status_of n <> 0%N.
  Proof.
    intros [->|(e & -> & B)]; cbn [status_of]; [discriminate|]. rewrite N.mod_small by lia. lia.
  Qed.
  Lemma not_started_fails rs dir ws vs c : sane K -> ~ startable K dir ws vs -> stderr_works K L logfd maxfd rs (cs_tab c) ->
    exists s, fst (child K L logfd maxfd Never rs dir ws vs c) = Exits s /\ (0 < s < 256)%N.
  Proof.
    intros [S1 S2] NS W. destruct (child_cases Never rs dir ws vs c) as (_ & H & _). destruct (H eq_refl NS W) as (n & E & Q).
    exists (status_of n). split; [exact E|]. destruct Q as [->|(e & -> & [Q|(d & f & Q)])]; cbn [status_of]; [lia| |].
    - apply S1 in Q. rewrite N.mod_small by lia. lia.
    - apply S2 in Q. rewrite N.mod_small by lia. lia.
  Qed.
  Lemma exit_only_if rs dir ws vs c sig s : fst (child K L logfd maxfd sig rs dir ws vs c) = Exits s -> ~ startable K dir ws vs.
  Proof.
    intros E S. destruct sig.
    - destruct (child_cases Never rs dir ws vs c) as (H & _). destruct (H ltac:(discriminate) S) as (? & ? & ? & Q). congruence.
    - cbn in E. discriminate.
    - destruct (child_cases InHandler rs dir ws vs c) as (H & _). destruct (H ltac:(discriminate) S) as (? & ? & ? & Q). congruence.
  Qed.

  (** A closed stderr. *)
  Lemma no_stderr rs c : wf_redirects rs -> snd (perform L logfd maxfd rs (cs_tab c)) = None -> dget rs 2 = None -> 2 <> logfd -> 2 < maxfd ->
    write_stderr K (after_perform rs c) = Some 9%N.
  Proof.
    intros W P D N M. unfold after_perform, write_stderr. destruct (perform L logfd maxfd rs (cs_tab c)) as [t' o] eqn:E. cbn in P. subst o. cbn [fst].
    destruct (perform_sound _ _ _ _ _ _ W E) as (_ & H & _). now rewrite H.
  Qed.
  Lemma closed_stderr_goes_on rs dir ws vs c : wf_redirects rs -> snd (perform L logfd maxfd rs (cs_tab c)) = None ->
    dget rs 2 = None -> 2 <> logfd -> 2 < maxfd -> ~ startable K dir ws vs ->
    fst (child K L logfd maxfd Never rs dir ws vs c) = GoesOn (XErrno 9).
  Proof.
    intros W P D N M S. pose proof (no_stderr rs c W P D N M) as WE.
    pose proof (startable_iff dir ws vs) as SI. pose proof (execvpe_spec dir ws vs) as X.
    unfold child, command_child, do_chdir, do_perform. cbn [cs_tab cs_cwd cs_opened].
    destruct (k_chdir K dir) as [n|]; cbn [fst cs_tab cs_cwd]; [unfold handler; fold (after_perform rs c); now rewrite WE|].
    destruct (execvpe K dir ws vs) as [ [ [f argv] e]|x]; [exfalso; apply S, SI; split; eauto|].
    cbn [fst cs_tab]. unfold handler. fold (after_perform rs c). destruct x as [m| |b]; rewrite ?WE; auto.
    destruct X as [_ [?|(? & ? & ? & ? & _)] ]; discriminate.
  Qed.
  (** The subshell. *)
  Lemma subshell_ends rs dir l c : k_chdir K dir = None ->
    subshell K L logfd maxfd Never rs dir (IEnded l) c =
      if existsb is_failed l
      then match write_stderr K (after_perform rs c) with
           | None => match exit_code l with Some n => GoesOn (XBase (BExit n)) | None => Exits 255 end
           | Some e => GoesOn (XErrno e)
           end
      else GoesOn (XBase (BExit 0)).
  Proof.
    intros C. unfold subshell, subshell_child, do_chdir, do_perform. cbn [cs_tab]. rewrite C. fold (after_perform rs c). cbn [cs_tab].
    destruct (existsb is_failed l); [|reflexivity].
    destruct (write_stderr K (after_perform rs c)) eqn:W; [unfold handler; now rewrite W|].
    destruct (exit_code l); [reflexivity|]. unfold handler. now rewrite W.
  Qed.
  Lemma failed_iff l : existsb is_failed l = true <-> failed l.
  Proof.
    rewrite existsb_exists. split; intros (i & I & H); exists i; split; auto.
    - destruct i as [s|f]; cbn in H; [right; exists s; split; auto|left; now subst]. intros ->. discriminate.
    - destruct H as [->|(s & -> & N)]; cbn; auto. destruct (N.eqb_spec s 0); [contradiction|reflexivity].
  Qed.
  Lemma exit_code_last l i : exit_code (l ++ [i]) = Some (match i with PEnd s => s | FEnd _ => 0%N end).
  Proof. unfold exit_code. rewrite rev_app_distr. cbn. now destruct i. Qed.
  Lemma subshell_always_goes_on rs dir l c : k_chdir K dir = None ->
    goes_on (subshell K L logfd maxfd Never rs dir (IEnded l) c).
  Proof.
    intros C. rewrite subshell_ends by auto. destruct (existsb is_failed l) eqn:F; [|now eexists].
    destruct (write_stderr K (after_perform rs c)); [now eexists|].
    destruct l as [|i l] using rev_ind; [discriminate|]. rewrite exit_code_last. now eexists.
  Qed.
  (** Opened files. *)
  Lemma child_opened rs dir ws vs c : cs_opened c = [] ->
    snd (child K L logfd maxfd Never rs dir ws vs c) = opened_names (cs_cwd c) rs.
  Proof.
    intros O. unfold child, command_child, do_chdir, do_perform. rewrite O. cbn [cs_tab cs_cwd cs_opened app].
    destruct (k_chdir K dir); [reflexivity|]. cbn [cs_cwd]. now destruct (execvpe K dir ws vs) as [ [ [f argv] e]|x].
  Qed.
End C.
Lemma opened_in cwd rs n r s : dget rs n = Some r -> r_source r = SPath (PName s) -> In (path_join cwd (txt s)) (opened_names cwd rs).
Proof.
  intros D S. unfold opened_names. apply in_flat_map. exists r. split; [|rewrite S; now left].
  apply dget_In in D. unfold dvals. apply in_map_iff. now exists (n, r).
Qed.
