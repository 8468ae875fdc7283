From Verif Require Import Py PathModel PathProofs EnvModel ExpandModel CommandModel HelpModel HelpSpec.

Lemma letterc_iff c : letterc c = true <-> a_letter c.
Proof. unfold letterc, a_letter. rewrite Bool.orb_true_iff, !Bool.andb_true_iff, !N.leb_le. reflexivity. Qed.
Lemma namec_iff c : namec c = true <-> a_letter c \/ c = 45%N.
Proof. unfold namec. rewrite Bool.orb_true_iff, N.eqb_eq, letterc_iff. tauto. Qed.
Lemma span_spec p t a b : span p t = (a, b) -> t = a ++ b /\ Forall (fun c => p c = true) a /\ ~ begins_with (fun c => p c = true) b.
Proof.
  revert a b. induction t as [|c t IH]; intros a b H; cbn [span] in H.
  - injection H as <- <-. repeat split; [constructor|]. intros (c & r & E & _). discriminate E.
  - destruct (p c) eqn:P.
    + destruct (span p t) as [a' b'] eqn:S. injection H as <- <-. destruct (IH a' b' eq_refl) as (-> & F & N). repeat split; [now constructor|exact N].
    + injection H as <- <-. repeat split; [constructor|]. intros (d & r & E & Q). injection E as <- <-. congruence.
Qed.
Lemma span_app p a b : Forall (fun c => p c = true) a -> ~ begins_with (fun c => p c = true) b -> span p (a ++ b) = (a, b).
Proof.
  intros F N. induction F as [|c a Hc F IH]; cbn [app span].
  - destruct b as [|c b]; [reflexivity|]. cbn [span]. destruct (p c) eqn:P; [|reflexivity]. exfalso. apply N. now exists c, b.
  - now rewrite Hc, IH.
Qed.
Ltac crunch := do 8 (try match goal with q : positive |- _ => destruct q end; try reflexivity; try discriminate; try congruence).
Section Help.
  Context (space : N -> bool) (SP : blanks space).
  Lemma space_not c : space c = true -> ~ option_char c.
  Proof. intros H O. rewrite SP in H by now left. discriminate H. Qed.
  Lemma no_space_name c : a_letter c \/ c = 45%N -> space c = false.
  Proof. intros H. apply SP. left. unfold option_char. tauto. Qed.
  Lemma value_spec z v z' : value_at space z = (v, z') -> z = v ++ z' /\ Forall (fun c => space c = false) v.
  Proof.
    assert (Q : forall r a b, span (fun c => negb (space c) && negb (N.eqb c 10)) r = (a, b) -> r = a ++ b /\ Forall (fun c => space c = false) a).
    { intros r a b H. apply span_spec in H. destruct H as (-> & F & _). split; [reflexivity|]. eapply Forall_impl; [|exact F]. cbn. intros c K.
      apply Bool.andb_true_iff in K. destruct K as [K _]. now apply Bool.negb_true_iff in K. }
    assert (S91 : space 91%N = false) by (apply SP; right; cbn; tauto). assert (S61 : space 61%N = false) by (apply SP; right; cbn; tauto).
    assert (G : value_at space z = ([], z) \/ (exists r, z = 61%N :: r /\ value_at space z = let (v, z) := span (fun c => negb (space c) && negb (N.eqb c 10)) r in (61%N :: v, z)) \/
                (exists r, z = 91%N :: 61%N :: r /\ value_at space z = let (v, z) := span (fun c => negb (space c) && negb (N.eqb c 10)) r in (91%N :: 61%N :: v, z))).
    { destruct z as [|c z]; [now left|]. destruct (N.eq_dec c 61) as [->|A]; [right; left; now exists z|].
      destruct (N.eq_dec c 91) as [->|B].
      - destruct z as [|d z]; [now left|]. destruct (N.eq_dec d 61) as [->|C]; [right; right; now exists z|]. left. cbn [value_at].
        destruct d as [|p]; [reflexivity|]. crunch.
      - left. cbn [value_at]. destruct c as [|p]; [reflexivity|]. crunch. }
    intros H. destruct G as [G|[(r & -> & G)|(r & -> & G)] ]; rewrite G in H.
    - injection H as <- <-. split; [reflexivity|constructor].
    - destruct (span _ r) as [a b] eqn:S. injection H as <- <-. apply Q in S. destruct S as [-> F]. split; [reflexivity|]. now constructor.
    - destruct (span _ r) as [a b] eqn:S. injection H as <- <-. apply Q in S. destruct S as [-> F]. split; [reflexivity|]. now repeat constructor.
  Qed.
  Lemma match_spec t nm v z : match_at space t = Some (nm, v, z) ->
    exists sp z0, t = sp ++ txt "--" ++ nm ++ z0 /\ z0 = v ++ z /\ sp <> [] /\ Forall (fun c => space c = true) sp /\ plain_option nm /\
      Forall (fun c => space c = false) v /\ ~ begins_with (fun c => a_letter c \/ c = 45%N) z0.
  Proof.
    unfold match_at. destruct (span space t) as [sp r] eqn:S. apply span_spec in S. destruct S as (-> & F & N). intros H.
    destruct sp as [|s0 sp]; [discriminate H|]. set (sp' := s0 :: sp) in *. assert (Z : sp' <> []) by discriminate. clearbody sp'. clear s0 sp.
    destruct r as [|d1 r]; [discriminate H|]. destruct (N.eq_dec d1 45) as [->|D1].
    2:{ exfalso. revert H. destruct d1 as [|p]; [discriminate|]. crunch. }
    destruct r as [|d2 r]; [discriminate H|]. destruct (N.eq_dec d2 45) as [->|D2].
    2:{ exfalso. revert H. destruct d2 as [|p]; [discriminate|]. crunch. }
    destruct r as [|c r]; [discriminate H|]. destruct (letterc c) eqn:L; [|discriminate H]. destruct (span namec r) as [n z0] eqn:S.
    apply span_spec in S. destruct S as (-> & Fn & Nn). destruct n as [|n0 n]; [discriminate H|]. destruct (value_at space z0) as [v' z'] eqn:V. injection H as <- <- <-.
    apply value_spec in V. destruct V as [-> Fv]. exists sp', (v' ++ z'). repeat split; try assumption.
    - exists c, (n0 :: n). repeat split; [discriminate|now apply letterc_iff|]. eapply Forall_impl; [|exact Fn]. intros d. apply namec_iff.
    - intros (d & q & E & Q). apply Nn. exists d, q. split; [exact E|now apply namec_iff].
  Qed.
  Lemma match_found s o after : space s = true -> plain_option o -> ~ begins_with (fun c => a_letter c \/ c = 45%N) after ->
    exists v z, match_at space (s :: txt "--" ++ o ++ after) = Some (o, v, z).
  Proof.
    intros H (c & r & -> & Z & L & F) N. unfold match_at. change (s :: txt "--" ++ (c :: r) ++ after) with ([s] ++ (45%N :: 45%N :: c :: r ++ after)).
    rewrite span_app; [| now constructor|intros (d & q & E & Q); injection E as <- <-; rewrite (no_space_name 45%N ltac:(now right)) in Q; discriminate Q].
    apply letterc_iff in L. rewrite L. rewrite (span_app namec r after).
    - destruct r as [|r0 r]; [congruence|]. destruct (value_at space after) as [v z]. eauto.
    - eapply Forall_impl; [|exact F]. intros d. apply namec_iff.
    - intros (d & q & E & Q). apply N. exists d, q. split; [exact E|now apply namec_iff].
  Qed.
  Lemma skip_nonspace a : Forall (fun c => space c = false) a -> forall b before s rest, space s = true -> a ++ b = before ++ s :: rest ->
    exists b', before = a ++ b' /\ b = b' ++ s :: rest.
  Proof.
    intros F. induction F as [|c a Hc F IH]; intros b before s rest S E; [now exists before|]. destruct before as [|d before]; cbn [app] in E; injection E as -> E.
    - congruence.
    - destruct (IH b before s rest S E) as (b' & -> & ->). now exists b'.
  Qed.
  Lemma in_spaces sp : Forall (fun c => space c = true) sp -> forall R before s rest, space s = true -> match rest with [] => False | d :: _ => space d = false end -> 
    sp ++ R = before ++ s :: rest -> (exists q, sp = q ++ [s] /\ R = rest) \/ exists b', before = sp ++ b' /\ R = b' ++ s :: rest.
  Proof.
    intros F. induction F as [|c sp Hc F IH]; intros R before s rest S D E; [right; now exists before|]. destruct before as [|d before]; cbn [app] in E; injection E as -> E.
    - left. destruct F as [|c' sp Hc' F]; [now exists []|]. cbn [app] in E. destruct rest as [|d rest]; [contradiction|]. injection E as -> _. congruence.
    - destruct (IH R before s rest S D E) as [(q & -> & ->)|(b' & -> & ->)]; [left; now exists (d :: q)|right; now exists b'].
  Qed.
  Lemma same_option o1 z1 o2 z2 : plain_option o1 -> plain_option o2 -> ~ begins_with (fun c => a_letter c \/ c = 45%N) z1 -> ~ begins_with (fun c => a_letter c \/ c = 45%N) z2 ->
    o1 ++ z1 = o2 ++ z2 -> o1 = o2.
  Proof.
    assert (P : forall o z, plain_option o -> ~ begins_with (fun c => a_letter c \/ c = 45%N) z -> span namec (o ++ z) = (o, z)).
    { intros o z (c & r & -> & _ & L & F) N. apply span_app.
      - constructor; [apply namec_iff; now left|]. eapply Forall_impl; [|exact F]. intros d. apply namec_iff.
      - intros (d & q & E & Q). apply N. exists d, q. split; [exact E|now apply namec_iff]. }
    intros A B C D E. pose proof (P o1 z1 A C) as X. rewrite E, (P o2 z2 B D) in X. congruence.
  Qed.
  Lemma found_all n : forall t o, List.length t <= n -> plain_option o -> after_blank space t o -> exists v, In (o, v) (findall space n t).
  Proof.
    induction n as [|n IH]; intros t o L P (before & s & after & E & S & A).
    - destruct t; [|cbn in L; lia]. destruct before; discriminate E.
    - destruct t as [|c t]; [destruct before; discriminate E|]. cbn [findall]. destruct (match_at space (c :: t)) as [[[nm v] z]|] eqn:M.
      + apply match_spec in M. destruct M as (sp & z0 & Et & -> & Z & F & PN & Fv & NN).
        assert (LZ : List.length z <= n).
        { assert (X : List.length (c :: t) = List.length (sp ++ txt "--" ++ nm ++ v ++ z)) by congruence. rewrite !app_length in X. cbn [List.length] in X, L. destruct sp; [congruence|]. cbn [List.length] in X. lia. }
        rewrite E in Et. symmetry in Et. destruct (in_spaces sp F _ before s (txt "--" ++ o ++ after) S (no_space_name 45%N (or_intror eq_refl)) Et) as [(q & -> & R)|(b' & -> & R)].
        * apply app_inv_head in R. exists v. left. f_equal. now apply (same_option nm (v ++ z) o after).
        * destruct (skip_nonspace (txt "--") ltac:(repeat constructor; apply no_space_name; now right) _ _ _ _ S R) as (b2 & -> & R2).
          assert (Fn : Forall (fun c => space c = false) nm).
          { destruct PN as (x & y & -> & _ & X & Y). constructor; [apply no_space_name; now left|]. eapply Forall_impl; [|exact Y]. intros d. apply no_space_name. }
          destruct (skip_nonspace nm Fn _ _ _ _ S R2) as (b3 & -> & R3). destruct (skip_nonspace v Fv _ _ _ _ S R3) as (b4 & -> & R4).
          destruct (IH z o LZ P) as (v' & I); [now exists b4, s, after|]. exists v'. now right.
      + destruct before as [|d before].
        * change ([] ++ s :: txt "--" ++ o ++ after) with (s :: txt "--" ++ o ++ after) in E. rewrite E in M. destruct (match_found s o after S P A) as (v & z & K). congruence.
        * injection E as -> E. destruct (IH t o) as (v & I); [cbn in L; lia|exact P|now exists before, s, after|]. now exists v.
  Qed.
  Lemma found_only n : forall t o v, In (o, v) (findall space n t) -> plain_option o /\ after_blank space t o.
  Proof.
    induction n as [|n IH]; intros t o v I; [destruct I|]. destruct t as [|c t]; [destruct I|]. cbn [findall] in I.
    destruct (match_at space (c :: t)) as [[[nm v'] z]|] eqn:M.
    - apply match_spec in M. destruct M as (sp & z0 & Et & -> & Z & F & PN & Fv & NN). destruct I as [I|I].
      + injection I as -> ->. split; [exact PN|]. destruct (exists_last Z) as (q & s & ->). exists q, s, (v ++ z). split; [rewrite Et; now rewrite <- app_assoc|].
        split; [|exact NN]. rewrite Forall_forall in F. apply F. apply in_or_app. right. now left.
      + apply IH in I. destruct I as (P & b & s & a & -> & S & A). split; [exact P|]. exists (sp ++ txt "--" ++ nm ++ v' ++ b), s, a. rewrite Et.
        split; [now rewrite <- !app_assoc|]. now split.
    - apply IH in I. destruct I as (P & b & s & a & -> & S & A). split; [exact P|]. exists (c :: b), s, a. now split.
  Qed.

  Lemma add_names p vs d : forall q, In q (map fst (add_param p vs d)) <-> q = p \/ In q (map fst d).
  Proof.
    induction d as [|[k w] d IH]; intros q; cbn [add_param map fst In]; [intuition congruence|]. destruct (text_eqb_spec p k) as [->|N]; cbn [map fst In].
    - intuition congruence.
    - rewrite IH. tauto.
  Qed.
  Lemma add_nodup p vs d : NoDup (map fst d) -> NoDup (map fst (add_param p vs d)).
  Proof.
    induction d as [|[k w] d IH]; intros H; cbn [add_param map fst]; [repeat constructor; intros []|]. inversion H as [|? ? N D]; subst.
    destruct (text_eqb_spec p k) as [->|K]; cbn [map fst]; constructor; try assumption.
    - intros I. apply add_names in I. destruct I as [->|I]; [congruence|contradiction].
    - now apply IH.
  Qed.
  Lemma params_names l : forall d, NoDup (map fst d) ->
    let d' := fold_left (fun d nv => add_param (underscores (fst nv)) (added (snd nv)) d) l d in
    NoDup (map fst d') /\ forall q, In q (map fst d') <-> In q (map fst d) \/ exists o v, In (o, v) l /\ q = underscores o.
  Proof.
    induction l as [|[o v] l IH]; intros d H; cbn [fold_left fst snd].
    - split; [exact H|]. intros q. split; [now left|]. intros [I|(o & v & [] & _)]. exact I.
    - destruct (IH (add_param (underscores o) (added v) d) (add_nodup _ _ _ H)) as [A B]. split; [exact A|]. intros q. rewrite B, add_names. split.
      + intros [[->|I]|(o' & v' & I & ->)]; [right; exists o, v; split; [now left|reflexivity]|now left|right; exists o', v'; split; [now right|reflexivity] ].
      + intros [I|(o' & v' & [I|I] & ->)]; [left; now right|injection I as -> ->; left; now left|right; now exists o', v'].
  Qed.
  Context (annotates : text -> list text -> bool) (refused : text -> bool).
  Lemma check_names d names : check_params annotates refused d = Ok names -> names = map fst d.
  Proof.
    revert names. induction d as [|[p vs] d IH]; intros names H; cbn [check_params map fst] in *; [now injection H|].
    destruct (annotates p vs); [|discriminate H]. cbn [negb] in H. destruct (refused p); [discriminate H|]. destruct (check_params annotates refused d) as [r|]; [|discriminate H].
    injection H as <-. now rewrite <- (IH r eq_refl).
  Qed.
  Lemma check_refused d p : In p (map fst d) -> refused p = true -> exists e, check_params annotates refused d = Err e.
  Proof.
    induction d as [|[q vs] d IH]; intros I R; [destruct I|]. cbn [check_params map fst] in *. destruct (annotates q vs); cbn [negb]; [|eauto]. destruct (refused q) eqn:Q; [eauto|].
    destruct I as [->|I]; [congruence|]. destruct (IH I R) as (e & ->). cbn [bind_res]. eauto.
  Qed.
  Lemma names_exact help names : signature space annotates refused help = Ok names ->
    NoDup names /\ forall p, In p names <-> exists o, plain_option o /\ after_blank space help o /\ p = underscores o.
  Proof.
    intros H. apply check_names in H. subst names. unfold params_of. destruct (params_names (findall space (List.length help) help) [] ltac:(constructor)) as [A B].
    split; [exact A|]. intros p. rewrite B. split.
    - intros [[]|(o & v & I & ->)]. apply found_only in I. exists o. tauto.
    - intros (o & P & K & ->). right. destruct (found_all (List.length help) help o ltac:(lia) P K) as (v & I). now exists o, v.
  Qed.
  Lemma refused_all help o : plain_option o -> after_blank space help o -> refused (underscores o) = true -> exists e, signature space annotates refused help = Err e.
  Proof.
    intros P K R. unfold signature. apply (check_refused _ (underscores o)); [|exact R]. unfold params_of.
    destruct (params_names (findall space (List.length help) help) [] ltac:(constructor)) as [_ B]. apply B. right.
    destruct (found_all (List.length help) help o ltac:(lia) P K) as (v & I). now exists o, v.
  Qed.
End Help.
Lemma back_and_forth o : ~ In 95%N o -> dashes (underscores o) = o.
Proof.
  induction o as [|c o IH]; intros N; [reflexivity|]. cbn [underscores dashes map]. change (map ?f (map ?g o)) with (dashes (underscores o)).
  rewrite IH by (intros I; apply N; now right). f_equal. destruct (N.eqb_spec c 45) as [->|A]; [reflexivity|]. destruct (N.eqb_spec c 95) as [->|_]; [|reflexivity].
  exfalso. apply N. now left.
Qed.
Lemma plain_no_underscore o : plain_option o -> ~ In 95%N o.
Proof.
  intros (c & r & -> & _ & L & F) [E|I]; [subst c; unfold a_letter in L; lia|]. rewrite Forall_forall in F. apply F in I. unfold a_letter in I. lia.
Qed.
