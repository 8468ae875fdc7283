From Verif Require Import Py PathModel PathProofs EnvModel ExpandModel ExpandSpec ExpandProofs CommandModel CommandSpec.
From Coq Require Import DecimalString Decimal Ascii.

Lemma tmem_In t l : tmem t l = true <-> In t l.
Proof.
  unfold tmem. rewrite existsb_exists. split.
  - intros (x & I & E). destruct (text_eqb_spec t x); congruence.
  - intros I. exists t. split; [exact I|apply text_eqb_refl].
Qed.
Lemma tmem_false t l : ~ In t l -> tmem t l = false.
Proof. rewrite <- tmem_In. destruct (tmem t l); [tauto|reflexivity]. Qed.

(** * C31 *)
Definition wf (c : cmd) : Prop := construct CBase (c_arg c) = Ok c.
Lemma construct_wf l c : construct CBase l = Ok c -> c_arg c = l /\ wf c.
Proof.
  unfold wf. destruct l as [|a l]; cbn; intros H.
  - injection H as <-. auto.
  - destruct (dispatch a) as [k|] eqn:E; cbn in H; [|discriminate]. injection H as <-. cbn. rewrite E. auto.
Qed.
Lemma dispatch_not_base a c : dispatch a = Ok c -> c <> CBase.
Proof.
  destruct a as [t|t|t p|h fd|kw]; cbn [dispatch]; intros H.
  - destruct (tmem t builtin_names); injection H as <-; discriminate.
  - injection H as <-; discriminate.
  - injection H as <-; discriminate.
  - destruct h; [injection H as <-|]; discriminate.
  - discriminate.
Qed.
Lemma construct_more c ws : wf c -> construct (c_cls c) (c_arg c ++ ws) = construct CBase (c_arg c ++ ws).
Proof.
  unfold wf. destruct c as [k args]. cbn [c_cls c_arg]. destruct args as [|a args]; cbn; intros H.
  - injection H as <-. reflexivity.
  - destruct (dispatch a) as [k'|] eqn:E; cbn in H; [|discriminate]. injection H as ->. cbn.
    pose proof (dispatch_not_base a k E). destruct k; [congruence|reflexivity..].
Qed.
Lemma construct_err l rest e : construct CBase l = Err e -> construct CBase (l ++ rest) = Err e.
Proof. destruct l as [|a l]; cbn; [discriminate|]. destruct (dispatch a); cbn; congruence. Qed.
Lemma class_attrs_reserved k n : In n (class_attrs k) -> In n reserved.
Proof.
  unfold class_attrs, reserved. rewrite in_app_iff. intros [H|H].
  - cbn in H |- *. tauto.
  - destruct k; try (destruct H; fail). destruct (text_eqb _ _); cbn in H |- *; tauto.
Qed.
Lemma env_attr_plain n : ~ In n env_reserved -> n <> txt "_" -> env_attr n = let* c := construct CBase [AStr n] in Ok (RCmd c).
Proof.
  intros H N. unfold env_attr. rewrite tmem_false by (intros I; apply H; unfold env_attrs, env_reserved in *; cbn in I |- *; tauto).
  rewrite !text_eqb_neq; [reflexivity| | |].
  - exact N.
  - intros ->. apply H. cbn. tauto.
  - intros ->. apply H. cbn. tauto.
Qed.
Lemma spell_step_words c s : wf c -> writable s -> spell_step c s = construct CBase (c_arg c ++ step_words s).
Proof.
  intros W H. destruct s as [n|pos kw|n]; cbn [spell_step step_words].
  - unfold get_attr. rewrite tmem_false by (intros I; apply H; now apply (class_attrs_reserved (c_cls c))).
    rewrite construct_more by exact W. destruct (construct CBase _); reflexivity.
  - unfold call. change (match kw with [] => [] | _ :: _ => [ADict kw] end) with (dict_arg kw).
    now rewrite construct_more.
  - destruct H as [H1 H2]. rewrite env_attr_plain by assumption. cbn. unfold minus, neg. cbn. unfold call. rewrite app_nil_r. now rewrite construct_more.
Qed.
Lemma spell_words ss : forall c, wf c -> Forall writable ss -> spell c ss = construct CBase (c_arg c ++ flat_map step_words ss).
Proof.
  induction ss as [|s ss IH]; intros c W F; cbn [spell flat_map].
  - rewrite app_nil_r. symmetry. exact W.
  - inversion F as [|? ? Fs Fss]; subst. rewrite (spell_step_words c s W Fs). rewrite app_assoc.
    destruct (construct CBase (c_arg c ++ step_words s)) as [d|e] eqn:E; cbn.
    + apply construct_wf in E as [A Wd]. rewrite IH by assumption. now rewrite A.
    + symmetry. now apply construct_err.
Qed.
Lemma spell_env_words first ss : ~ In first env_reserved -> Forall writable ss ->
  spell_env first ss = construct CBase (spelled first ss).
Proof.
  intros H F. unfold spell_env, spelled. destruct (text_eqb_spec first (txt "_")) as [->|N].
  - change (as_cmd (env_attr (txt "_"))) with (Ok (mkCmd CBase [])). cbn [bind_res app].
    rewrite spell_words; [reflexivity|reflexivity|exact F].
  - rewrite env_attr_plain by assumption. destruct (construct CBase [AStr first]) as [c|] eqn:E; [|discriminate].
    cbn [bind_res as_cmd]. apply construct_wf in E as [A W]. rewrite spell_words by assumption. now rewrite A.
Qed.
Lemma same_words first1 ss1 first2 ss2 : ~ In first1 env_reserved -> ~ In first2 env_reserved ->
  Forall writable ss1 -> Forall writable ss2 -> spelled first1 ss1 = spelled first2 ss2 ->
  spell_env first1 ss1 = spell_env first2 ss2.
Proof. intros A B C D E. rewrite !spell_env_words by assumption. now rewrite E. Qed.
Lemma spelled_command first ss c : ~ In first env_reserved -> Forall writable ss -> spell_env first ss = Ok c ->
  c_arg c = spelled first ss /\
  (forall b, c_cls c = CBuiltin b <-> In b builtin_names /\ exists rest, spelled first ss = AStr b :: rest).
Proof.
  intros H F E. rewrite spell_env_words in E by assumption. destruct (construct_wf _ _ E) as [A W]. split; [exact A|].
  intros b. destruct (spelled first ss) as [|a l].
  - cbn in E. injection E as <-. cbn. split; [discriminate|]. intros [_ [r X]]. discriminate.
  - cbn [construct] in E. destruct (dispatch a) as [k|] eqn:D; [|discriminate]. cbn [bind_res] in E. injection E as <-. cbn [c_cls c_arg].
    destruct a as [t|t|t p|h fd|kw]; cbn [dispatch] in D.
    + destruct (tmem t builtin_names) eqn:T; injection D as <-.
      * apply tmem_In in T. split; [intros X; assert (E : t = b) by congruence; subst b; split; [exact T|eauto]|intros [_ [r X]]; assert (E : t = b) by congruence; subst b; reflexivity].
      * split; [discriminate|]. intros [I [r X]]. injection X as <- <-. apply tmem_In in I. congruence.
    + injection D as <-. split; [discriminate|intros [_ [r X]]; discriminate].
    + injection D as <-. split; [discriminate|intros [_ [r X]]; discriminate].
    + destruct h; [injection D as <-|discriminate]. split; [discriminate|intros [_ [r X]]; discriminate].
    + discriminate.
Qed.
Lemma reserved_no_word c n : In n (map txt ["run"; "run_interactive"; "async_run_interactive"; "to_dataframe"; "mro"]%string) -> get_attr c n = Ok RThing.
Proof. intros I. unfold get_attr. rewrite (proj2 (tmem_In _ _)); [reflexivity|]. unfold class_attrs. apply in_app_iff. now left. Qed.

(** * C32 *)
Lemma dashes_dashed n m : dashed n m <-> m = dashes n.
Proof.
  unfold dashed, dashes. split.
  - induction 1 as [|x y n m [A B] _ IH]; [reflexivity|]. cbn. rewrite IH. f_equal.
    destruct (N.eqb_spec x 95); [now rewrite A|now apply B].
  - intros ->. induction n as [|x n IH]; cbn; constructor; [|exact IH].
    destruct (N.eqb_spec x 95) as [->|]; split; intros; congruence || reflexivity.
Qed.
Lemma digits_plain u : no_percent (txt (NilEmpty.string_of_uint u)) /\ no_glob (txt (NilEmpty.string_of_uint u)).
Proof.
  unfold no_percent, no_glob.
  assert (X : forall c, In c (txt (NilEmpty.string_of_uint u)) -> (48 <= c)%N /\ (c <= 57)%N).
  { induction u; cbn; [tauto|..]; intros c [<-|H]; try (apply IHu in H; exact H); cbn; lia. }
  unfold c_percent, c_star, c_quest, c_lbr. repeat split; intros H; apply X in H; lia.
Qed.
Lemma fd_word w cwd sc fd : expand_str w cwd sc (txt "/dev/fd/" ++ fd_text fd) = Ok [txt "/dev/fd/" ++ fd_text fd].
Proof.
  destruct (digits_plain (Nat.to_uint fd)) as [P (A & B & C)]. fold (fd_text fd) in *.
  apply (expand_value _ _ _ _ (txt "/dev/fd/" ++ fd_text fd)).
  - apply percent_plain. unfold no_percent in *. rewrite in_app_iff. intros [H|H]; [|tauto]. cbn in H. unfold c_percent in H. intuition discriminate.
  - cbn. unfold c_tilde. discriminate.
  - unfold no_glob. rewrite !in_app_iff. repeat split; intros [H|H]; try tauto; cbn in H; unfold c_star, c_quest, c_lbr in H; intuition discriminate.
Qed.
Section W.
  Context (w : world) (cwd : text) (sc : scope).
  Lemma expand_one_spec a ws : expand_one w cwd sc a = Ok ws <-> value_words w cwd sc a ws.
  Proof.
    destruct a as [t|t|t p|h fd|kw]; cbn [expand_one].
    - destruct (expand_str w cwd sc t) as [l|e] eqn:E; cbn; split; intros H.
      + injection H as <-. now constructor.
      + inversion H; subst. congruence.
      + discriminate.
      + inversion H; subst. congruence.
    - split; intros H; [injection H as <-; constructor|inversion H; reflexivity].
    - split; intros H; [injection H as <-; constructor|inversion H; reflexivity].
    - rewrite fd_word. cbn. split; intros H; [injection H as <-; constructor|inversion H; reflexivity].
    - split; intros H; [discriminate|inversion H].
  Qed.
  Lemma kw_words_spec n v ws : kw_words w cwd sc n v = Ok ws <-> named_words w cwd sc (n, v) ws.
  Proof.
    destruct v as [| |a]; cbn [kw_words].
    - split; intros H; [injection H as <-; constructor; now apply dashes_dashed|]. inversion H as [|? m D|]; subst. apply dashes_dashed in D. now subst.
    - split; intros H; [injection H as <-; constructor|inversion H; reflexivity].
    - destruct (expand_one w cwd sc a) as [l|e] eqn:E; cbn; split; intros H.
      + injection H as <-. apply nw_val; [now apply dashes_dashed|now apply expand_one_spec].
      + inversion H as [| |? m ? ws' D V]; subst. apply dashes_dashed in D. apply expand_one_spec in V. subst m.
        assert (l = ws') by congruence. subst. reflexivity.
      + discriminate.
      + inversion H as [| |? m ? ws' D V]; subst. apply expand_one_spec in V. congruence.
  Qed.
  Lemma kws_words_spec kw : forall ws, kws_words w cwd sc kw = Ok ws <-> exists parts, Forall2 (named_words w cwd sc) kw parts /\ ws = List.concat parts.
  Proof.
    induction kw as [|[n v] kw IH]; intros ws; cbn [kws_words].
    - split; [intros H; injection H as <-; exists []; split; [constructor|reflexivity]|]. intros (p & F & ->). inversion F. reflexivity.
    - destruct (kw_words w cwd sc n v) as [a|e] eqn:E; cbn.
      + destruct (kws_words w cwd sc kw) as [b|e] eqn:Eb; cbn; split.
        * intros H. injection H as <-. destruct (proj1 (IH b) eq_refl) as (parts & F & ->). exists (a :: parts). split; [|reflexivity].
          constructor; [now apply kw_words_spec|exact F].
        * intros (parts & F & ->). inversion F as [|? x ? l Fx Fl]; subst. apply kw_words_spec in Fx. assert (a = x) by congruence. subst x.
          assert (Q : Ok b = Ok (List.concat l)) by (apply IH; eauto). injection Q as ->. reflexivity.
        * discriminate.
        * intros (parts & F & ->). inversion F as [|? x ? l Fx Fl]; subst.
          assert (Q : @Err (list word) e = Ok (List.concat l)) by (apply IH; eauto). discriminate.
      + split; [discriminate|]. intros (parts & F & ->). inversion F as [|? x ? l Fx Fl]; subst. apply kw_words_spec in Fx. congruence.
  Qed.
  Lemma arg_words_spec a ws : arg_words w cwd sc a = Ok ws <-> contributes w cwd sc a ws.
  Proof.
    destruct a as [t|t|t p|h fd|kw]; cbn [arg_words]; [rewrite expand_one_spec..|].
    1-4: split; [intros H; now constructor|intros H; inversion H; assumption].
    rewrite kws_words_spec. split.
    - intros (parts & F & ->). now apply c_dict.
    - intros H. inversion H as [a ws' V|kw' parts F]; subst; [inversion V|eauto].
  Qed.
  Lemma arg_list_spec l : forall ws, arg_list w cwd sc l = Ok ws <-> exists parts, Forall2 (contributes w cwd sc) l parts /\ ws = List.concat parts.
  Proof.
    induction l as [|a0 l IH]; intros ws; cbn [arg_list].
    - split; [intros H; injection H as <-; exists []; split; [constructor|reflexivity]|]. intros (p & F & ->). inversion F. reflexivity.
    - destruct (arg_words w cwd sc a0) as [a|e] eqn:E; cbn.
      + destruct (arg_list w cwd sc l) as [b|e] eqn:Eb; cbn; split.
        * intros H. injection H as <-. destruct (proj1 (IH b) eq_refl) as (parts & F & ->). exists (a :: parts). split; [|reflexivity].
          constructor; [now apply arg_words_spec|exact F].
        * intros (parts & F & ->). inversion F as [|? x ? l' Fx Fl]; subst. apply arg_words_spec in Fx. assert (a = x) by congruence. subst x.
          assert (Q : Ok b = Ok (List.concat l')) by (apply IH; eauto). injection Q as ->. reflexivity.
        * discriminate.
        * intros (parts & F & ->). inversion F as [|? x ? l' Fx Fl]; subst.
          assert (Q : @Err (list word) e = Ok (List.concat l')) by (apply IH; eauto). discriminate.
      + split; [discriminate|]. intros (parts & F & ->). inversion F as [|? x ? l' Fx Fl]; subst. apply arg_words_spec in Fx. congruence.
  Qed.
  (** An object among the positional arguments kills the command. *)
  Lemma exec_object ws : (exists t, In (WObj t false) ws) -> exec_argv ws = Err TypeError.
  Proof.
    induction ws as [|x ws IH]; intros [t H]; [destruct H|]. destruct H as [->|H]; [reflexivity|].
    cbn. destruct x as [u|u [|]]; try reflexivity; rewrite IH by eauto; reflexivity.
  Qed.
  Lemma arg_list_keeps_object l t ws : In (AObj t false) l -> arg_list w cwd sc l = Ok ws -> In (WObj t false) ws.
  Proof.
    intros I H. apply arg_list_spec in H as (parts & F & ->). induction F as [|a p l parts Fa F IH]; [destruct I|]. cbn. apply in_app_iff.
    destruct I as [->|I]; [|right; auto]. left. inversion Fa as [a' ws' V|]; subst. inversion V; subst. now left.
  Qed.
  Lemma object_fails run l t ws : In (AObj t false) l -> arg_list w cwd sc l = Ok ws -> child_status run ws = 255%N.
  Proof. intros I H. unfold child_status. rewrite exec_object; [reflexivity|]. exists t. eapply arg_list_keeps_object; eauto. Qed.
  Lemma strings_exec ws : (forall x, In x ws -> exists t, x = WStr t) -> exec_argv ws = Ok (map word_str ws).
  Proof.
    induction ws as [|x ws IH]; intros H; [reflexivity|]. destruct (H x) as [t ->]; [now left|]. cbn.
    rewrite IH by (intros; apply H; now right). reflexivity.
  Qed.
End W.
