From Verif Require Import Py RedirModel RunModel OperModel OperSpec.

Lemma eval_or a b x y : eval a = Ok x -> eval b = Ok y -> eval (EOr a b) = py_or x y.
Proof. intros A B. cbn [eval]. rewrite A. cbn [bind_res]. now rewrite B. Qed.
Lemma eval_bars ps : forall cs os e p, eval (close_or os e) = Ok (OPl p) ->
  exists e', parse cs os e (map (fun q => (Bar, OPl q)) ps) = close_cmp cs e' /\ eval e' = Ok (OPl (fold_left PPipe ps p)).
Proof.
  induction ps as [|q ps IH]; intros cs os e p H; cbn [map parse fold_left].
  - eauto.
  - apply IH. cbn [close_or eval]. rewrite H. reflexivity.
Qed.
Lemma shell_bars ps : forall before p r, shell_reads before p (map (fun q => (Bar, OPl q)) ps) r <-> r = fold_left PPipe ps (piped_to before p).
Proof.
  induction ps as [|q ps IH]; intros before p r; cbn [map fold_left].
  - split; [intros H; now inversion H|intros ->; constructor].
  - split.
    + intros H. inversion H; subst. match goal with K : shell_reads (Some _) _ _ _ |- _ => apply IH in K; exact K end.
    + intros ->. constructor. apply IH. reflexivity.
Qed.
(** Pipes, then one comparison with an operand. *)
Lemma bars_then_cmp ps : forall os e p c o, eval (close_or os e) = Ok (OPl p) ->
  exists e', parse None os e (map (fun q => (Bar, OPl q)) ps ++ [(Cmp c, o)]) = ECmp e' [(c, EObj o)] /\ eval e' = Ok (OPl (fold_left PPipe ps p)).
Proof.
  induction ps as [|q ps IH]; intros os e p c o H; cbn [map List.app parse fold_left].
  - exists (close_or os e). split; [reflexivity|exact H].
  - apply IH. cbn [close_or eval]. rewrite H. reflexivity.
Qed.
Lemma file_out p f : py_or (OPl p) (OStr f) = Ok (OPl (PRedir p (to_file 1 f))). Proof. reflexivity. Qed.
Lemma file_in p f : py_or (OStr f) (OPl p) = Ok (OPl (PRedir p (to_file 0 f))). Proof. reflexivity. Qed.
Lemma redirects_chain rs : forall cs os e p, eval (close_or os e) = Ok (OPl p) -> Forall (fun r => r_source r <> SNone) rs ->
  exists e', parse cs os e (map (fun r => (Bar, ORedirect r)) rs) = close_cmp cs e' /\
    eval e' = Ok (OPl (fold_left (fun q r => PRedir q [(r_fd r, r)]) rs p)).
Proof.
  induction rs as [|r rs IH]; intros cs os e p H F; cbn [map parse fold_left].
  - eauto.
  - inversion F as [|? ? N F']; subst. apply IH; [|exact F']. cbn [close_or eval]. rewrite H. cbn [bind_res py_or or_method coerce].
    unfold new_redirects. cbn [new_redirects_from]. unfold register. destruct (r_source r); try reflexivity. congruence.
Qed.
Lemma eval_pluses ps : forall cs os e p, eval e = Ok (OPl p) -> 
  exists e', parse cs os e (map (fun q => (Plus, OPl q)) ps) = close_cmp cs (close_or os e') /\ eval e' = Ok (OPl (fold_left PGroup ps p)).
Proof.
  induction ps as [|q ps IH]; intros cs os e p H; cbn [map parse fold_left].
  - eauto.
  - apply IH. cbn [eval]. rewrite H. reflexivity.
Qed.
