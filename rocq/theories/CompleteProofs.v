(** Proofs about completion. *)
From Verif Require Import Py PathModel EnvModel ExpandModel ExpandSpec ExpandProofs CommandModel ReprModel BashSpec CompleteModel CompleteSpec.

Lemma mem_in c s : mem c s = true <-> In c s.
Proof.
  unfold mem. rewrite existsb_exists. split.
  - intros (x & I & E). apply N.eqb_eq in E. now subst.
  - intros I. exists c. split; [exact I|apply N.eqb_refl].
Qed.
Lemma mem_not c s : mem c s = false <-> ~ In c s.
Proof. rewrite <- mem_in. destruct (mem c s); split; congruence. Qed.

Lemma sh_simple w : Forall simple_char w -> forall acc rest, sh (w ++ rest) SmWord acc = sh rest SmWord (acc ++ map (fun c => (c, false)) w).
Proof.
  induction 1 as [|c w (B & O & Q1 & Q2 & Q3 & _) _ IH]; intros acc rest; cbn [List.app map]; [now rewrite app_nil_r|].
  cbn [sh]. rewrite B, O. apply N.eqb_neq in Q1, Q2, Q3. rewrite Q1, Q2, Q3. rewrite IH. f_equal. rewrite <- app_assoc. reflexivity.
Qed.
Lemma sh_simple_start w rest : simple_word w -> sh (w ++ rest) SmBlank [] = sh rest SmWord (map (fun c => (c, false)) w).
Proof.
  intros (N & H & F). destruct w as [|c w]; [congruence|]. inversion F as [|? ? (B & O & Q1 & Q2 & Q3 & _) F']; subst.
  cbn [List.app sh]. rewrite B, O. cbn in H. destruct (N.eqb_spec c 35) as [->|_]; [congruence|]. apply N.eqb_neq in Q1, Q2, Q3. rewrite Q1, Q2, Q3.
  rewrite sh_simple by exact F'. reflexivity.
Qed.
Lemma sh_squoted e : ~ In 39%N e -> forall w rest, sh (e ++ 39%N :: rest) SmSq w = sh rest SmWord (w ++ map (fun c => (c, true)) e).
Proof.
  induction e as [|c e IH]; intros N w rest; cbn [List.app sh map]; [now rewrite app_nil_r|].
  destruct (N.eqb_spec c 39) as [->|_]; [exfalso; apply N; now left|]. rewrite IH by (intros I; apply N; now right). rewrite <- app_assoc. reflexivity.
Qed.
Lemma sh_dquoted e : ~ In 34%N e -> ~ In 36%N e -> ~ In 96%N e -> ~ In 92%N e -> forall w rest, sh (e ++ 34%N :: rest) SmDq w = sh rest SmWord (w ++ map (fun c => (c, true)) e).
Proof.
  induction e as [|c e IH]; intros A B C D w rest; cbn [List.app sh map]; [now rewrite app_nil_r|].
  destruct (N.eqb_spec c 34) as [->|_]; [exfalso; apply A; now left|]. destruct (N.eqb_spec c 92) as [->|_]; [exfalso; apply D; now left|].
  destruct (N.eqb_spec c 36) as [->|_]; [exfalso; apply B; now left|]. destruct (N.eqb_spec c 96) as [->|_]; [exfalso; apply C; now left|].
  cbn [orb negb]. rewrite IH by (intros I; first [apply A; now right|apply B; now right|apply C; now right|apply D; now right]). rewrite <- app_assoc. reflexivity.
Qed.
Section P.
  Variable printable : N -> bool.
  Lemma esc_visible q c : visible printable c -> c <> q -> c <> 92%N -> esc printable q c = [c].
  Proof.
    intros V Q B. unfold esc, c_bsl. apply N.eqb_neq in Q, B. rewrite Q, B. cbn [orb].
    destruct V as [[L U]|[G P]].
    - destruct (N.eqb_spec c 9); [lia|]. destruct (N.eqb_spec c 10); [lia|]. destruct (N.eqb_spec c 13); [lia|].
      assert (X : (c <? 32)%N = false) by (apply N.ltb_ge; lia). rewrite X. destruct (N.eqb_spec c 127); [lia|]. cbn [orb].
      assert (Y : (c <? 127)%N = true) by (apply N.ltb_lt; lia). now rewrite Y.
    - destruct (N.eqb_spec c 9); [lia|]. destruct (N.eqb_spec c 10); [lia|]. destruct (N.eqb_spec c 13); [lia|].
      assert (X : (c <? 32)%N = false) by (apply N.ltb_ge; lia). rewrite X. destruct (N.eqb_spec c 127); [lia|]. cbn [orb].
      assert (Y : (c <? 127)%N = false) by (apply N.ltb_ge; lia). now rewrite Y, P.
  Qed.
  Lemma esc_all q w : Forall (visible printable) w -> ~ In q w -> ~ In 92%N w -> flat_map (esc printable q) w = w.
  Proof.
    induction 1 as [|c w V _ IH]; intros Q B; [reflexivity|]. cbn [flat_map]. rewrite esc_visible; [|exact V|intros ->; apply Q; now left|intros ->; apply B; now left].
    rewrite IH; [reflexivity|intros I; apply Q; now right|intros I; apply B; now right].
  Qed.
  Lemma quoted_spaced w : spaced_word printable w ->
    (repr_str printable w = 39%N :: w ++ [39%N] /\ ~ In 39%N w) \/
    (repr_str printable w = 34%N :: w ++ [34%N] /\ ~ In 34%N w /\ ~ In 36%N w /\ ~ In 96%N w /\ ~ In 92%N w).
  Proof.
    intros (_ & V & B & Q). unfold repr_str, quote_of. destruct (existsb (N.eqb c_squote) w) eqn:S.
    - destruct Q as [Q|Q]; [exfalso; apply Q; now apply mem_in|]. destruct Q as (Q & D & K).
      assert (X : existsb (N.eqb c_dquote) w = false) by now apply mem_not. rewrite X. cbn [andb negb]. right. rewrite esc_all by assumption. now repeat split.
    - cbn [andb]. left. assert (N : ~ In 39%N w) by now apply mem_not. rewrite esc_all by assumption. now split.
  Qed.
  (** A word, a blank, and the rest *)
  Definition tok_of (w : text) : stok := SW (map (fun c => (c, mem 32%N w)) w).
  Lemma sh_word w rest : simple_word w \/ spaced_word printable w ->
    sh (quote_arg printable w ++ 32%N :: rest) SmBlank [] = option_map (cons (tok_of w)) (sh rest SmBlank []).
  Proof.
    intros [H|H].
    - unfold quote_arg, tok_of. assert (M : mem 32%N w = false). { apply mem_not. intros I. destruct H as (_ & _ & F). rewrite Forall_forall in F. destruct (F _ I) as [X _]. discriminate. }
      rewrite M. rewrite sh_simple_start by exact H. reflexivity.
    - unfold quote_arg, tok_of. assert (M : mem 32%N w = true) by (apply mem_in; apply H). rewrite M.
      destruct (quoted_spaced w H) as [(-> & A)|(-> & A & B & C & D)]; cbn [List.app]; rewrite <- app_assoc; cbn [List.app].
      + change (sh (39%N :: ?x) SmBlank []) with (sh x SmSq []). rewrite sh_squoted by exact A. reflexivity.
      + change (sh (34%N :: ?x) SmBlank []) with (sh x SmDq []). rewrite sh_dquoted by assumption. reflexivity.
  Qed.
  Lemma tok_stands w : simple_word w \/ spaced_word printable w -> stands_for (tok_of w) w.
  Proof.
    intros H. exists (map (fun c => (c, mem 32%N w)) w). split; [reflexivity|]. split; [rewrite map_map; cbn; apply map_id|].
    rewrite Forall_map. cbn. destruct H as [(_ & _ & F)|(I & _)].
    - eapply Forall_impl; [|exact F]. intros c (_ & _ & _ & _ & _ & A). now right.
    - apply Forall_forall. intros c _. left. now apply mem_in.
  Qed.
  Lemma sh_words ws : Forall (fun w => simple_word w \/ spaced_word printable w) ws -> ws <> [] ->
    sh (complete_line printable ws) SmBlank [] = Some (map tok_of ws).
  Proof.
    unfold complete_line. induction 1 as [|w ws H F IH]; intros N; [congruence|]. destruct ws as [|w2 ws].
    - cbn [map join_with]. change (txt " ") with [32%N]. rewrite sh_word by exact H. reflexivity.
    - change (join_with (txt " ") (map (quote_arg printable) (w :: w2 :: ws))) with (quote_arg printable w ++ txt " " ++ join_with (txt " ") (map (quote_arg printable) (w2 :: ws))).
      change (txt " ") with [32%N] at 1. rewrite <- app_assoc. cbn [List.app]. rewrite sh_word by exact H. rewrite IH by discriminate. reflexivity.
  Qed.
End P.
From Verif Require Import EnvProofs BashProofs.
Section Q.
  Variable printable : N -> bool.
  Notation good w := (simple_word w \/ spaced_word printable w).
  Lemma quote_in w c : good w -> In c (quote_arg printable w) -> In c w \/ c = 39%N \/ c = 34%N.
  Proof.
    intros G. unfold quote_arg. destruct (mem 32%N w) eqn:M; [|tauto]. destruct G as [H|H].
    - exfalso. apply mem_in in M. destruct H as (_ & _ & F). rewrite Forall_forall in F. destruct (F _ M) as [X _]. discriminate.
    - destruct (quoted_spaced printable w H) as [(-> & _)|(-> & _)]; cbn [In]; rewrite in_app_iff; cbn [In]; intuition auto.
  Qed.
  Lemma line_in ws c : Forall (fun w => good w) ws -> In c (complete_line printable ws) -> (exists w, In w ws /\ In c w) \/ c = 39%N \/ c = 34%N \/ c = 32%N.
  Proof.
    intros F. unfold complete_line. rewrite in_app_iff. intros [I|I]; [|cbn in I; intuition auto].
    induction F as [|w ws G F IH]; [contradiction|]. destruct ws as [|w2 ws].
    - cbn [map join_with] in I. apply (quote_in w c G) in I. destruct I as [I|[->| ->]]; auto. left. exists w. split; [now left|exact I].
    - change (join_with (txt " ") (map (quote_arg printable) (w :: w2 :: ws))) with (quote_arg printable w ++ txt " " ++ join_with (txt " ") (map (quote_arg printable) (w2 :: ws))) in I.
      rewrite !in_app_iff in I. destruct I as [I|[I|I]].
      + apply (quote_in w c G) in I. destruct I as [I|[->| ->]]; auto. left. exists w. split; [now left|exact I].
      + cbn in I. intuition auto.
      + destruct (IH I) as [(x & X & Y)|O]; [|auto]. left. exists x. split; [now right|exact Y].
  Qed.
  Lemma line_inert ws c : Forall (fun w => good w) ws -> Forall inert ws -> In c (complete_line printable ws) -> c <> 37%N /\ c <> 42%N /\ c <> 63%N /\ c <> 91%N /\ c <> 126%N.
  Proof.
    intros F N I. destruct (line_in ws c F I) as [(w & A & B)|[->|[->| ->]]]; try (repeat split; discriminate).
    rewrite Forall_forall in N. exact (N w A c B).
  Qed.
  Lemma expand_inert w cwd sc t : (forall c, In c t -> c <> 37%N /\ c <> 42%N /\ c <> 63%N /\ c <> 91%N /\ c <> 126%N) -> expand_str w cwd sc t = Ok [t].
  Proof.
    intros H. unfold expand_str. rewrite percent_plain by (intros I; destruct (H _ I) as (A & _); now apply A). cbn [bind_res].
    rewrite expanduser_plain.
    - rewrite glob_step_plain; [reflexivity|]. repeat split; intros I; destruct (H _ I) as (_ & A & B & C & _); [now apply A|now apply B|now apply C].
    - destruct t as [|c t]; [reflexivity|]. cbn [startswith]. destruct (N.eqb_spec c_tilde c) as [<-|_]; [|reflexivity]. exfalso. destruct (H c_tilde (or_introl eq_refl)) as (_ & _ & _ & _ & A). now apply A.
  Qed.
  Lemma sh_set rest : sh (txt "set -- " ++ rest) SmBlank [] = option_map (fun t => bare (txt "set") :: bare (txt "--") :: t) (sh rest SmBlank []).
  Proof. cbn. destruct (sh rest SmBlank []); reflexivity. Qed.
  Lemma words_arrive w cwd sc ws : ws <> [] -> Forall (fun x => good x) ws -> Forall inert ws ->
    exists argv, completion_argv printable w cwd sc ws = Ok argv /\ only_sets (evaluated argv) ws.
  Proof.
    intros N G I. exists [complete_line printable ws]. split; [unfold completion_argv; apply expand_inert; intros c; now apply line_inert|].
    exists (map tok_of ws). split.
    - unfold evaluated, sh_read. cbn [hd]. rewrite sh_set, sh_words by assumption. reflexivity.
    - clear - G. induction G as [|x ws H _ IH]; constructor; [now apply tok_stands with printable|exact IH].
  Qed.
End Q.
