(** Proofs about copying. *)
From Coq Require FinFun.
From Verif Require Import Py CopyModel CopySpec.

(** ** Copying without memo dictionaries *)
Fixpoint pairs (l : list nat) : list (nat * nat) :=
  match l with k :: v :: l' => (k, v) :: pairs l' | _ => [] end.
Definition rebuild (o : obj) (cs : list nat) : obj :=
  match o with
  | OSeq k _ => OSeq k cs
  | ODict _ => ODict (pairs cs)
  | ONode c e _ _ => ONode c e cs false
  | OStr _ t => OStr true t
  | OOther n => OOther n
  end.
Section PEach.
  Variable one : heap -> nat -> option (heap * nat).
  Fixpoint peach (h : heap) (rs : list nat) : option (heap * list nat) :=
    match rs with
    | [] => Some (h, [])
    | r :: rs' => match one h r with
                  | None => None
                  | Some (h1, c) => match peach h1 rs' with
                                    | None => None
                                    | Some (h2, cs) => Some (h2, c :: cs)
                                    end
                  end
    end.
End PEach.
Definition shared (o : obj) : bool := match o with OOther _ => true | OStr e _ => e | _ => false end.
Fixpoint pcopy (d : nat) (h : heap) (r : nat) : option (heap * nat) :=
  match d with
  | O => None
  | S d' => match nth_error h r with
            | None => None
            | Some o => if shared o then Some (h, r)
                        else match peach (pcopy d') h (children h r) with
                             | None => None
                             | Some (h', cs) => Some (h' ++ [rebuild o cs], List.length h')
                             end
            end
  end.

Lemma set_at_app {A} (l : list A) x y m : set_at (l ++ x :: m) (List.length l) y = l ++ y :: m.
Proof. induction l as [|a l IH]; cbn; [reflexivity|]. now rewrite IH. Qed.
Lemma nth_app_len {A} (l : list A) x m d : nth (List.length l) (l ++ x :: m) d = x.
Proof. induction l; cbn; auto. Qed.
Lemma idle_more s h ms : idle s -> idle (mkC h (c_memos s ++ ms) (c_cur s)).
Proof.
  unfold idle. cbn. destruct (c_cur s) as [m|]; [|auto]. intros [A B]. rewrite app_length, app_nth1 by lia. split; [lia|exact B].
Qed.
Lemma enter_idle s : idle s -> enter_session s = (mkC (c_heap s) (c_memos s ++ [no_memo]) (Some (List.length (c_memos s))), List.length (c_memos s)).
Proof. unfold idle, enter_session. destruct (c_cur s) as [m|]; [|reflexivity]. intros [_ ->]. reflexivity. Qed.
Lemma idle_new h (ms : list (dict nat nat)) x : idle (mkC h (ms ++ [no_memo] ++ x) (Some (List.length ms))).
Proof. unfold idle. cbn. rewrite app_length. cbn. split; [lia|apply nth_app_len]. Qed.

Definition agrees (one : cst -> nat -> option (cst * nat)) (pone : heap -> nat -> option (heap * nat)) : Prop :=
  forall s r, idle s -> match pone (c_heap s) r with
                        | None => one s r = None
                        | Some (h', c) => exists ms, one s r = Some (mkC h' (c_memos s ++ ms) (c_cur s), c)
                        end.
Lemma each_agrees one pone : agrees one pone -> forall rs s, idle s ->
  match peach pone (c_heap s) rs with
  | None => each one s rs = None
  | Some (h', cs) => exists ms, each one s rs = Some (mkC h' (c_memos s ++ ms) (c_cur s), cs)
  end.
Proof.
  intros A. induction rs as [|r rs IH]; intros s I; cbn [peach each].
  - exists []. rewrite app_nil_r. now destruct s.
  - specialize (A s r I). destruct (pone (c_heap s) r) as [ [h1 c]|]; [|now rewrite A].
    destruct A as [ms A]. rewrite A. specialize (IH _ (idle_more s h1 ms I)). cbn [c_heap] in IH.
    destruct (peach pone h1 rs) as [ [h2 cs]|]; [|now rewrite IH].
    destruct IH as [ms2 IH]. rewrite IH. cbn [c_memos c_cur]. exists (ms ++ ms2). now rewrite app_assoc.
Qed.
Lemma each2_agrees one pone : agrees one pone -> forall rs s, idle s ->
  match peach pone (c_heap s) (flat_map (fun kv => [fst kv; snd kv]) rs) with
  | None => each2 one s rs = None
  | Some (h', cs) => exists ms, each2 one s rs = Some (mkC h' (c_memos s ++ ms) (c_cur s), pairs cs)
  end.
Proof.
  intros A. induction rs as [|[k v] rs IH]; intros s I; cbn [flat_map peach each2 app fst snd].
  - exists []. rewrite app_nil_r. now destruct s.
  - pose proof (A s k I) as K. destruct (pone (c_heap s) k) as [ [h1 c]|]; [|now rewrite K].
    destruct K as [ms K]. rewrite K. pose proof (idle_more s h1 ms I) as I1. pose proof (A _ v I1) as V. cbn [c_heap] in V.
    destruct (pone h1 v) as [ [h2 c2]|]; [|now rewrite V]. destruct V as [ms2 V]. rewrite V. cbn [c_memos c_cur].
    pose proof (idle_more _ h2 ms2 I1) as I2. cbn [c_memos c_cur] in I2. specialize (IH _ I2). cbn [c_heap] in IH.
    destruct (peach pone h2 (flat_map (fun kv => [fst kv; snd kv]) rs)) as [ [h3 cs]|]; [|now rewrite IH].
    destruct IH as [ms3 IH]. rewrite IH. cbn [c_memos c_cur pairs]. exists (ms ++ ms2 ++ ms3). now rewrite !app_assoc.
Qed.
Lemma flat_pairs (l : list (nat * nat)) : pairs (flat_map (fun kv => [fst kv; snd kv]) l) = l.
Proof. induction l as [|[a b] l IH]; cbn; [reflexivity|]. now rewrite IH. Qed.

Lemma deepcopy_agrees d : agrees (deepcopy d) (pcopy d).
Proof.
  induction d as [|d IH]; intros s r I; cbn [pcopy deepcopy]; [reflexivity|].
  rewrite (enter_idle s I). cbn [c_memos c_heap]. rewrite nth_app_len. cbn [dget].
  pose proof (idle_new (c_heap s) (c_memos s) []) as N. cbn [app] in N.
  assert (FIN : forall (h' : heap) (c : nat) ms,
    let s1 := mkC h' ((c_memos s ++ [no_memo]) ++ ms) (Some (List.length (c_memos s))) in
    exists ms', leave_session (memoize s1 (List.length (c_memos s)) r c) (c_cur s) = mkC h' (c_memos s ++ ms') (c_cur s)).
  { intros h' c ms s1. unfold leave_session, memoize. subst s1. cbn [c_heap c_memos c_cur]. rewrite <- app_assoc. cbn [app].
    rewrite set_at_app. eexists. reflexivity. }
  destruct (nth_error (c_heap s) r) as [o|] eqn:O; [|reflexivity].
  destruct o as [n|ex t|k items|items|c env fields st]; cbn [shared].
  - destruct (FIN (c_heap s) r []) as [ms' E]. rewrite app_nil_r in E. exists ms'. now rewrite E.
  - destruct ex.
    + destruct (FIN (c_heap s) r []) as [ms' E]. rewrite app_nil_r in E. exists ms'. now rewrite E.
    + unfold children. rewrite O. cbn [peach rebuild]. unfold alloc. cbn [c_heap c_memos c_cur].
      destruct (FIN (c_heap s ++ [OStr true t]) (List.length (c_heap s)) []) as [ms' E]. rewrite app_nil_r in E. exists ms'. now rewrite E.
  - unfold children. rewrite O. pose proof (each_agrees _ _ IH items _ N) as X. cbn [c_heap] in X.
    destruct (peach (pcopy d) (c_heap s) items) as [ [h' cs]|]; [|now rewrite X].
    destruct X as [ms X]. rewrite X. unfold alloc. cbn [c_heap c_memos c_cur rebuild].
    destruct (FIN (h' ++ [OSeq k cs]) (List.length h') ms) as [ms' E]. exists ms'. now rewrite E.
  - unfold children. rewrite O. pose proof (each2_agrees _ _ IH items _ N) as X. cbn [c_heap] in X.
    destruct (peach (pcopy d) (c_heap s) (flat_map (fun kv => [fst kv; snd kv]) items)) as [ [h' cs]|]; [|now rewrite X].
    destruct X as [ms X]. rewrite X. unfold alloc. cbn [c_heap c_memos c_cur rebuild].
    destruct (FIN (h' ++ [ODict (pairs cs)]) (List.length h') ms) as [ms' E]. exists ms'. now rewrite E.
  - unfold children. rewrite O. pose proof (each_agrees _ _ IH fields _ N) as X. cbn [c_heap] in X.
    destruct (peach (pcopy d) (c_heap s) fields) as [ [h' cs]|]; [|now rewrite X].
    destruct X as [ms X]. rewrite X. unfold alloc. cbn [c_heap c_memos c_cur rebuild].
    destruct (FIN (h' ++ [ONode c env cs false]) (List.length h') ms) as [ms' E]. exists ms'. now rewrite E.
Qed.

(** ** Paths in growing heaps *)
Lemma nth_error_len {A} (l : list A) n x : nth_error l n = Some x -> n < List.length l.
Proof. intros H. apply nth_error_Some. congruence. Qed.
Lemma children_app h x r : r < List.length h -> children (h ++ x) r = children h r.
Proof. intros H. unfold children. now rewrite nth_error_app1. Qed.
Lemma children_lt h r c : In c (children h r) -> r < List.length h.
Proof. unfold children. destruct (nth_error h r) eqn:E; [|contradiction]. intros _. now apply nth_error_len in E. Qed.
Lemma at_app h x p : forall r, closed h -> r < List.length h -> at_path (h ++ x) r p = at_path h r p.
Proof.
  induction p as [|i p IH]; intros r C L; cbn; [reflexivity|]. rewrite children_app by exact L.
  destruct (nth_error (children h r) i) as [c|] eqn:E; [|reflexivity]. apply IH; [exact C|]. apply nth_error_In in E. now apply C in E.
Qed.
Lemma at_lt h p : forall r x, closed h -> r < List.length h -> at_path h r p = Some x -> x < List.length h.
Proof.
  induction p as [|i p IH]; intros r x C L H; cbn in H; [congruence|].
  destruct (nth_error (children h r) i) as [c|] eqn:E; [|discriminate]. apply (IH c x); auto. apply nth_error_In in E. now apply C in E.
Qed.
Lemma pairs_flat l : Nat.even (List.length l) = true -> flat_map (fun kv => [fst kv; snd kv]) (pairs l) = l.
Proof.
  revert l. fix F 1. intros [|a [|b l] ]; cbn; [reflexivity|discriminate|]. intros H. now rewrite F.
Qed.
Lemma even_flat (l : list (nat * nat)) : Nat.even (List.length (flat_map (fun kv => [fst kv; snd kv]) l)) = true.
Proof. induction l as [|[a b] l IH]; cbn; auto. Qed.
Lemma children_rebuild h h' r o cs : nth_error h r = Some o -> shared o = false -> List.length cs = List.length (children h r) ->
  children (h' ++ [rebuild o cs]) (List.length h') = cs.
Proof.
  intros O S L. unfold children in L. rewrite O in L. unfold children. rewrite nth_error_app2 by lia. rewrite Nat.sub_diag. cbn [nth_error].
  destruct o as [n|ex t|k items|items|c env fields st]; cbn [rebuild]; try reflexivity.
  - discriminate S.
  - cbn in L. now destruct cs.
  - apply pairs_flat. rewrite L. apply even_flat.
Qed.

(** ** The invariant of copying one object *)
Record copied (h : heap) (r : nat) (h' : heap) (c : nat) : Prop := mkCopied {
  cp_ext : exists x, h' = h ++ x;
  cp_closed : closed h';
  cp_in : c < List.length h';
  cp_mirror : mirrors h r h' c;
  cp_fresh : forall p y o, at_path h' c p = Some y -> nth_error h' y = Some o -> container o -> List.length h <= y;
  cp_distinct : forall p q y o, at_path h' c p = Some y -> at_path h' c q = Some y -> nth_error h' y = Some o -> container o -> p = q }.
Record copied_all (h : heap) (rs : list nat) (h' : heap) (cs : list nat) : Prop := mkCopiedAll {
  ca_ext : exists x, h' = h ++ x;
  ca_closed : closed h';
  ca_len : List.length cs = List.length rs;
  ca_in : Forall (fun c => c < List.length h') cs;
  ca_mirror : Forall2 (fun r c => mirrors h r h' c) rs cs;
  ca_fresh : forall i c p y o, nth_error cs i = Some c -> at_path h' c p = Some y -> nth_error h' y = Some o -> container o -> List.length h <= y;
  ca_distinct : forall i j c e p q y o, nth_error cs i = Some c -> nth_error cs j = Some e -> at_path h' c p = Some y -> at_path h' e q = Some y ->
     nth_error h' y = Some o -> container o -> i = j /\ p = q }.

Lemma mirrors_ext h r h' c x : closed h' -> c < List.length h' -> mirrors h r h' c -> mirrors h r (h' ++ x) c.
Proof.
  intros C L M p. rewrite at_app by assumption. specialize (M p). destruct (at_path h r p) as [a|]; [|exact M].
  destruct (at_path h' c p) as [b|] eqn:B; [|exact M]. destruct M as (o & o' & A & A' & Q). exists o, o'. split; [exact A|]. split; [|exact Q].
  rewrite nth_error_app1; [exact A'|]. now apply nth_error_len in A'.
Qed.
Lemma mirrors_base h x r h' c : closed h -> r < List.length h -> mirrors (h ++ x) r h' c -> mirrors h r h' c.
Proof.
  intros C L M p. specialize (M p). rewrite at_app in M by assumption. destruct (at_path h r p) as [a|] eqn:A; [|exact M].
  destruct (at_path h' c p) as [b|] eqn:B; [|exact M]. destruct M as (o & o' & X & X' & Q). exists o, o'. split; [|auto].
  rewrite nth_error_app1 in X; [exact X|]. now apply at_lt in A.
Qed.

Lemma copied_all_of (one : heap -> nat -> option (heap * nat)) :
  (forall h r h' c, closed h -> r < List.length h -> one h r = Some (h', c) -> copied h r h' c) ->
  forall rs h h' cs, closed h -> Forall (fun r => r < List.length h) rs -> peach one h rs = Some (h', cs) -> copied_all h rs h' cs.
Proof.
  intros ONE. induction rs as [|r rs IH]; intros h h' cs C F P; cbn [peach] in P.
  - injection P as <- <-. constructor; auto.
    + exists []. now rewrite app_nil_r.
    + intros i c p y o I. now destruct i.
    + intros i j c e p q y o I. now destruct i.
  - destruct (one h r) as [ [h1 c]|] eqn:O; [|discriminate]. destruct (peach one h1 rs) as [ [h2 cs']|] eqn:R; [|discriminate].
    injection P as <- <-. inversion F as [|? ? F1 F2]; subst. pose proof (ONE _ _ _ _ C F1 O) as [ [x1 X1] C1 I1 M1 N1 D1].
    assert (F3 : Forall (fun q => q < List.length h1) rs). { eapply Forall_impl; [|exact F2]. intros a A. subst h1. rewrite app_length. cbn in A. lia. }
    pose proof (IH _ _ _ C1 F3 R) as [ [x2 X2] C2 L2 I2 M2 N2 D2].
    assert (LE : List.length h <= List.length h1) by (subst h1; rewrite app_length; lia).
    assert (LE2 : List.length h1 <= List.length h2) by (subst h2; rewrite app_length; lia).
    constructor.
    + exists (x1 ++ x2). subst h2 h1. now rewrite app_assoc.
    + exact C2.
    + cbn. now rewrite L2.
    + constructor; [lia|exact I2].
    + constructor; [subst h2; now apply mirrors_ext|].
      clear - M2 F2 C X1. induction M2 as [|a b l l' M M2 IH]; constructor.
      * inversion F2; subst. eapply mirrors_base; eauto.
      * apply IH. now inversion F2.
    + intros i c' p y o I A B K. destruct i as [|i]; cbn in I.
      * injection I as <-. subst h2. rewrite at_app in A by assumption. rewrite nth_error_app1 in B by (now apply at_lt in A).
        exact (N1 _ _ _ A B K).
      * pose proof (N2 _ _ _ _ _ I A B K). lia.
    + intros i j c' e p q y o I J A B K1 K2. destruct i as [|i], j as [|j]; cbn in I, J.
      * injection I as <-. injection J as <-. split; [reflexivity|]. subst h2. rewrite at_app in A, B by assumption.
        rewrite nth_error_app1 in K1 by (now apply at_lt in A). exact (D1 _ _ _ _ A B K1 K2).
      * exfalso. injection I as <-. pose proof (N2 _ _ _ _ _ J B K1 K2). subst h2. rewrite at_app in A by assumption. apply at_lt in A; auto. lia.
      * exfalso. injection J as <-. pose proof (N2 _ _ _ _ _ I A K1 K2). subst h2. rewrite at_app in B by assumption. apply at_lt in B; auto. lia.
      * destruct (D2 _ _ _ _ _ _ _ _ I J A B K1 K2) as [-> ->]. auto.
Qed.

Lemma in_pairs l c : In c (flat_map (fun kv => [fst kv; snd kv]) (pairs l)) -> In c l.
Proof.
  revert l. fix F 1. intros [|a [|b l] ]; cbn; [auto|auto|]. intros [H|[H|H] ]; [auto|auto|]. right. right. now apply F.
Qed.
Lemma children_new h' o cs c : In c (children (h' ++ [rebuild o cs]) (List.length h')) -> In c cs.
Proof.
  unfold children. rewrite nth_error_app2 by lia. rewrite Nat.sub_diag. cbn [nth_error].
  destruct o as [n|ex t|k items|items|k env fields st]; cbn [rebuild]; try contradiction; auto. apply in_pairs.
Qed.
Lemma closed_new h' o cs : closed h' -> Forall (fun c => c < List.length h') cs -> closed (h' ++ [rebuild o cs]).
Proof.
  intros C F r c I. rewrite app_length. cbn [List.length]. pose proof (children_lt _ _ _ I) as L. rewrite app_length in L. cbn [List.length] in L.
  destruct (Nat.eq_dec r (List.length h')) as [->|N].
  - apply children_new in I. rewrite Forall_forall in F. apply F in I. lia.
  - rewrite children_app in I by lia. apply C in I. lia.
Qed.
Lemma alike_rebuild r o (h' : heap) cs : shared o = false -> alike r o (List.length h') (rebuild o cs).
Proof. destruct o; cbn; intros S; try discriminate; auto. Qed.
Lemma mirrors_shared h r o : shared o = true -> nth_error h r = Some o -> forall p, at_path h r p = match p with [] => Some r | _ => None end.
Proof.
  intros S O [|i p]; cbn; [reflexivity|]. unfold children. rewrite O. destruct o as [n|ex t|k items|items|k env fields st]; cbn in S; try discriminate; now destruct i.
Qed.
Lemma Forall2_nth {A B} (P : A -> B -> Prop) l l' : Forall2 P l l' -> forall i, match nth_error l i, nth_error l' i with Some a, Some b => P a b | None, None => True | _, _ => False end.
Proof. intros H. induction H; intros [|i]; cbn; auto. apply IHForall2. Qed.

Lemma pcopy_copied d : forall h r h' c, closed h -> r < List.length h -> pcopy d h r = Some (h', c) -> copied h r h' c.
Proof.
  induction d as [|d IH]; intros h r h' c C L P; cbn [pcopy] in P; [discriminate|].
  destruct (nth_error h r) as [o|] eqn:O; [|discriminate]. destruct (shared o) eqn:S.
  - injection P as <- <-. pose proof (mirrors_shared h r o S O) as X. constructor; auto.
    + exists []. now rewrite app_nil_r.
    + intros p. rewrite X. destruct p; [|exact Logic.I]. exists o, o. repeat split; auto. destruct o; cbn in S; try discriminate; now cbn.
    + intros p y o' A B K. rewrite X in A. destruct p; [|discriminate]. injection A as <-. assert (o' = o) by congruence. subst. destruct o; cbn in S, K; try discriminate; contradiction.
    + intros p q y o' A B _ _. rewrite X in A, B. destruct p, q; congruence.
  - destruct (peach (pcopy d) h (children h r)) as [ [h1 cs]|] eqn:E; [|discriminate]. injection P as <- <-.
    assert (F : Forall (fun q => q < List.length h) (children h r)). { apply Forall_forall. intros q Q. now apply C in Q. }
    pose proof (copied_all_of (pcopy d) IH _ _ _ _ C F E) as [ [x X] C1 L1 I1 M1 N1 D1].
    assert (CH : children (h1 ++ [rebuild o cs]) (List.length h1) = cs) by (now apply (children_rebuild h h1 r)).
    assert (NE : nth_error (h1 ++ [rebuild o cs]) (List.length h1) = Some (rebuild o cs)) by (rewrite nth_error_app2, Nat.sub_diag by lia; reflexivity).
    assert (IN : forall i q, nth_error cs i = Some q -> q < List.length h1). { intros i q Q. rewrite Forall_forall in I1. apply I1. now apply nth_error_In in Q. }
    assert (AT : forall i p, at_path (h1 ++ [rebuild o cs]) (List.length h1) (i :: p) = match nth_error cs i with Some q => at_path h1 q p | None => None end).
    { intros i p. cbn [at_path]. rewrite CH. destruct (nth_error cs i) as [q|] eqn:Q; [|reflexivity]. apply at_app; [exact C1|eauto]. }
    assert (LOW : forall i p y, at_path (h1 ++ [rebuild o cs]) (List.length h1) (i :: p) = Some y -> y < List.length h1).
    { intros i p y A. rewrite AT in A. destruct (nth_error cs i) as [q|] eqn:Q; [|discriminate]. apply at_lt in A; eauto. }
    constructor.
    + exists (x ++ [rebuild o cs]). subst h1. now rewrite app_assoc.
    + now apply closed_new.
    + rewrite app_length. cbn. lia.
    + intros [|i p].
      * cbn [at_path]. exists o, (rebuild o cs). repeat split; auto. now apply alike_rebuild.
      * rewrite AT. cbn [at_path]. pose proof (Forall2_nth _ _ _ M1 i) as M. destruct (nth_error (children h r) i) as [a|], (nth_error cs i) as [b|] eqn:Q; try contradiction; [|exact Logic.I].
        specialize (M p). destruct (at_path h a p) as [u|]; [|exact M]. destruct (at_path h1 b p) as [v|]; [|exact M].
        destruct M as (o1 & o2 & A & B & Z). exists o1, o2. repeat split; auto. rewrite nth_error_app1; [exact B|]. now apply nth_error_len in B.
    + intros p y o' A B K. destruct p as [|i p].
      * cbn in A. injection A as <-. subst h1. rewrite app_length. lia.
      * pose proof (LOW _ _ _ A) as Y. rewrite AT in A. destruct (nth_error cs i) as [q|] eqn:Q; [|discriminate].
        rewrite nth_error_app1 in B by exact Y. exact (N1 _ _ _ _ _ Q A B K).
    + intros p q y o' A B K1 K2. destruct p as [|i p], q as [|j q].
      * reflexivity.
      * exfalso. apply LOW in B. cbn in A. injection A as <-. lia.
      * exfalso. apply LOW in A. cbn in B. injection B as <-. lia.
      * pose proof (LOW _ _ _ A) as Y. rewrite AT in A, B. destruct (nth_error cs i) as [a|] eqn:Q; [|discriminate]. destruct (nth_error cs j) as [b|] eqn:R; [|discriminate].
        rewrite nth_error_app1 in K1 by exact Y. destruct (D1 _ _ _ _ _ _ _ _ Q R A B K1 K2) as [-> ->]. reflexivity.
Qed.

Lemma deepcopy_copied d s r s' c : closed (c_heap s) -> r < List.length (c_heap s) -> idle s -> deepcopy d s r = Some (s', c) ->
  copied (c_heap s) r (c_heap s') c /\ c_cur s' = c_cur s.
Proof.
  intros C L I E. pose proof (deepcopy_agrees d s r I) as A. destruct (pcopy d (c_heap s) r) as [ [h' q]|] eqn:P; [|congruence].
  destruct A as [ms A]. rewrite E in A. injection A as -> ->. cbn. split; [|reflexivity]. now apply (pcopy_copied d).
Qed.

(** ** Termination *)
Lemma pcopy_total d : forall h r, closed h -> r < List.length h -> depth_below h r d -> pcopy d h r <> None.
Proof.
  induction d as [|d IH]; intros h r C L D.
  - specialize (D [] r eq_refl). cbn in D. lia.
  - cbn [pcopy]. destruct (nth_error h r) as [o|] eqn:O; [|apply nth_error_None in O; lia]. destruct (shared o); [discriminate|].
    assert (P : peach (pcopy d) h (children h r) <> None).
    { assert (K : forall i c, nth_error (children h r) i = Some c -> depth_below h c d).
      { intros i c H p x A. assert (Q : at_path h r (i :: p) = Some x) by (cbn; now rewrite H). apply D in Q. cbn in Q. lia. }
      assert (G : forall l g x, g = h ++ x -> closed g -> (forall c, In c l -> c < List.length h /\ depth_below h c d) -> peach (pcopy d) g l <> None).
      { clear K. induction l as [|c l IHl]; intros g x G Cg F; cbn [peach]; [discriminate|].
        destruct (F c (or_introl eq_refl)) as [Fc Dc].
        assert (Lc : c < List.length g) by (subst g; rewrite app_length; lia).
        assert (Dg : depth_below g c d). { intros p y A. subst g. rewrite at_app in A by assumption. now apply Dc in A. }
        pose proof (IH g c Cg Lc Dg) as X. destruct (pcopy d g c) as [ [g1 c1]|] eqn:Pc; [|contradiction].
        destruct (pcopy_copied d _ _ _ _ Cg Lc Pc) as [ [x1 X1] Cg1 _ _ _ _].
        pose proof (IHl g1 (x ++ x1)) as Y. specialize (Y ltac:(subst; now rewrite app_assoc) Cg1 (fun q Q => F q (or_intror Q))).
        destruct (peach (pcopy d) g1 l) as [ [g2 cs]|]; [discriminate|contradiction]. }
      apply (G _ h []); [now rewrite app_nil_r|exact C|]. intros c I. split; [now apply C in I|]. apply In_nth_error in I as [i I]. now apply (K i). }
    destruct (peach (pcopy d) h (children h r)) as [ [h' cs]|]; [discriminate|contradiction].
Qed.
Lemma peach_prefix one h l1 : forall x l2 g, peach one h (l1 ++ x :: l2) = g -> g <> None -> exists h1 cs, peach one h l1 = Some (h1, cs) /\ one h1 x <> None.
Proof.
  revert h. induction l1 as [|a l1 IH]; intros h x l2 g E N; cbn [app peach] in *.
  - exists h, []. split; [reflexivity|]. destruct (one h x); [discriminate|congruence].
  - destruct (one h a) as [ [h1 c]|]; [|congruence]. destruct (peach one h1 (l1 ++ x :: l2)) as [ [h2 cs]|] eqn:R; [|congruence].
    destruct (IH h1 x l2 _ R ltac:(discriminate)) as (h3 & cs3 & A & B). exists h3, (c :: cs3). now rewrite A.
Qed.
Lemma pcopy_depth d : forall h r, closed h -> r < List.length h -> pcopy d h r <> None -> depth_below h r d.
Proof.
  induction d as [|d IH]; intros h r C L N; [now destruct N|]. cbn [pcopy] in N.
  destruct (nth_error h r) as [o|] eqn:O; [|congruence]. destruct (shared o) eqn:S.
  - intros p x A. rewrite (mirrors_shared h r o S O) in A. destruct p; [cbn; lia|discriminate].
  - destruct (peach (pcopy d) h (children h r)) as [ [h1 cs]|] eqn:P; [|congruence].
    intros [|i p] x A; cbn; [lia|]. cbn in A. destruct (nth_error (children h r) i) as [c|] eqn:Q; [|discriminate].
    destruct (nth_error_split _ _ Q) as (l1 & l2 & E & _). rewrite E in P.
    destruct (peach_prefix _ _ _ _ _ _ P ltac:(discriminate)) as (h2 & cs2 & P1 & P2).
    assert (F : forall q, In q (children h r) -> q < List.length h) by (intros q; apply C). rewrite E in F.
    assert (F1 : Forall (fun q => q < List.length h) l1) by (apply Forall_forall; intros q I; apply F, in_or_app; now left).
    pose proof (copied_all_of (pcopy d) (pcopy_copied d) _ _ _ _ C F1 P1) as [ [x1 X1] C1 _ _ _ _ _].
    assert (Lc : c < List.length h) by (apply F, in_or_app; right; now left).
    pose proof (IH h2 c C1 ltac:(subst h2; rewrite app_length; lia) P2 p x) as D. subst h2. rewrite at_app in D by assumption.
    specialize (D A). lia.
Qed.
Lemma deepcopy_total d s r : closed (c_heap s) -> r < List.length (c_heap s) -> idle s ->
  (deepcopy d s r <> None <-> depth_below (c_heap s) r d).
Proof.
  intros C L I. pose proof (deepcopy_agrees d s r I) as A. destruct (pcopy d (c_heap s) r) as [ [h' q]|] eqn:P.
  - destruct A as [ms A]. rewrite A. split; [|discriminate]. intros _. apply pcopy_depth; auto. congruence.
  - rewrite A. split; [contradiction|]. intros D. apply (pcopy_total d) in D; auto.
Qed.

(** ** Running the copy *)
Definition leads (h : heap) (r : nat) (p : list nat) : Prop := exists x, at_path h r p = Some x /\ is_node h x = true.
Lemma prefix_In i ps p : In p (prefix i ps) <-> exists q, p = i :: q /\ In q ps.
Proof. unfold prefix. rewrite in_map_iff. split; intros (q & A & B); exists q; auto. Qed.
Lemma prefix_NoDup i ps : NoDup ps -> NoDup (prefix i ps).
Proof. intros N. apply FinFun.Injective_map_NoDup; [|exact N]. intros a b E. congruence. Qed.
Lemma NoDup_app_intro {A} (a b : list A) : NoDup a -> NoDup b -> (forall x, In x a -> ~ In x b) -> NoDup (a ++ b).
Proof.
  induction a as [|x a IH]; cbn; [auto|]. intros N M D. inversion N; subst. constructor; [|apply IH; auto].
  rewrite in_app_iff. intros [H|H]; [auto|]. exact (D x (or_introl eq_refl) H).
Qed.
Lemma dict_runs_In runs h items : forall i p, In p (dict_runs runs h i items) ->
  exists j k v q, p = S (2 * (i + j)) :: q /\ nth_error items j = Some (k, v) /\ In q (runs v).
Proof.
  induction items as [|[k v] items IH]; intros i p I; cbn [dict_runs] in I; [contradiction|].
  apply in_app_iff in I as [I|I].
  - destruct (is_node h v); [|contradiction]. apply prefix_In in I as (q & -> & I). exists 0, k, v, q. rewrite Nat.add_0_r. auto.
  - apply IH in I as (j & k' & v' & q & -> & A & B). exists (S j), k', v', q. replace (i + S j) with (S i + j) by lia. auto.
Qed.
Lemma dict_runs_NoDup runs h items : (forall v, NoDup (runs v)) -> forall i, NoDup (dict_runs runs h i items).
Proof.
  intros N. induction items as [|[k v] items IH]; intros i; cbn [dict_runs]; [constructor|].
  apply NoDup_app_intro; [destruct (is_node h v); [now apply prefix_NoDup|constructor]|apply IH|].
  intros p A B. destruct (is_node h v); [|contradiction]. apply prefix_In in A as (q & -> & _).
  apply dict_runs_In in B as (j & k' & v' & q' & E & _). injection E as E _. lia.
Qed.
Definition arg_one (runs : nat -> list (list nat)) (h : heap) (a : nat) : list (list nat) :=
  match nth_error h a with Some (ONode _ _ _ _) => runs a | Some (ODict kvs) => dict_runs runs h 0 kvs | _ => [] end.
Lemma arg_runs_In runs h items : forall i p, In p (arg_runs runs h i items) ->
  exists j a q, p = (i + j) :: q /\ nth_error items j = Some a /\ In q (arg_one runs h a).
Proof.
  induction items as [|a items IH]; intros i p I; cbn [arg_runs] in I; [contradiction|].
  apply in_app_iff in I as [I|I].
  - apply prefix_In in I as (q & -> & I). exists 0, a, q. rewrite Nat.add_0_r. auto.
  - apply IH in I as (j & a' & q & -> & A & B). exists (S j), a', q. replace (i + S j) with (S i + j) by lia. auto.
Qed.
Lemma arg_runs_NoDup runs h items : (forall v, NoDup (runs v)) -> forall i, NoDup (arg_runs runs h i items).
Proof.
  intros N. induction items as [|a items IH]; intros i; cbn [arg_runs]; [constructor|].
  apply NoDup_app_intro; [|apply IH|].
  - apply prefix_NoDup. destruct (nth_error h a) as [ [n|ex t|k its|its|c env fields st]|]; try constructor; [now apply dict_runs_NoDup|apply N].
  - intros p A B. apply prefix_In in A as (q & -> & _). apply arg_runs_In in B as (j & a' & q' & E & _). injection E as E _. lia.
Qed.
Lemma nth_flat (items : list (nat * nat)) : forall j k v, nth_error items j = Some (k, v) ->
  nth_error (flat_map (fun kv => [fst kv; snd kv]) items) (S (2 * j)) = Some v.
Proof.
  induction items as [|[a b] items IH]; intros [|j] k v H; cbn in H; try discriminate.
  - injection H as -> ->. reflexivity.
  - replace (S (2 * S j)) with (S (S (S (2 * j)))) by lia. cbn [flat_map app fst snd nth_error]. now apply (IH j k).
Qed.
Lemma run_order_ok d h : forall r, NoDup (run_order d h r) /\ Forall (leads h r) (run_order d h r).
Proof.
  induction d as [|d IH]; intros r; cbn [run_order]; [split; constructor|].
  assert (ROOT : forall o, nth_error h r = Some o -> (match o with ONode _ _ _ _ => True | _ => False end) -> leads h r []).
  { intros o O K. exists r. split; [reflexivity|]. unfold is_node. rewrite O. destruct o; [contradiction|contradiction|contradiction|contradiction|reflexivity]. }
  assert (KID : forall i c ps, nth_error (children h r) i = Some c -> Forall (leads h c) ps -> Forall (leads h r) (prefix i ps)).
  { intros i c ps E F. apply Forall_forall. intros p I. apply prefix_In in I as (q & -> & I). rewrite Forall_forall in F. destruct (F q I) as (x & A & B).
    exists x. split; [|exact B]. cbn. now rewrite E. }
  assert (ONE : forall o, nth_error h r = Some o -> (match o with ONode _ _ _ _ => True | _ => False end) -> NoDup [ @nil nat] /\ Forall (leads h r) [ [] ]).
  { intros o O K. split; [repeat constructor; auto|]. constructor; [now apply (ROOT o)|constructor]. }
  assert (NIL : forall i ps, ~ In [] (prefix i ps)). { intros i ps I. apply prefix_In in I as (q & E & _). discriminate. }
  assert (TWO : forall c env a b st, nth_error h r = Some (ONode c env [a; b] st) ->
    NoDup ([] :: prefix 0 (run_order d h a) ++ prefix 1 (run_order d h b)) /\ Forall (leads h r) ([] :: prefix 0 (run_order d h a) ++ prefix 1 (run_order d h b))).
  { intros c env a b st O. assert (CH : children h r = [a; b]) by (unfold children; now rewrite O).
    destruct (IH a) as [Na Fa], (IH b) as [Nb Fb]. split.
    - constructor; [rewrite in_app_iff; intros [H|H]; now apply NIL in H|]. apply NoDup_app_intro; try now apply prefix_NoDup.
      intros p A B. apply prefix_In in A as (q & -> & _). apply prefix_In in B as (q' & E & _). discriminate.
    - constructor; [now apply (ROOT (ONode c env [a; b] st))|]. apply Forall_app. split; [apply (KID 0 a)|apply (KID 1 b)]; auto; now rewrite CH. }
  destruct (nth_error h r) as [o|] eqn:O; [|split; constructor].
  destruct o as [n|ex t|k items|items|c env fields st]; try (split; constructor).
  pose proof (ONE _ eq_refl Logic.I) as ONE'.
  destruct c as [| | | | |bn|f]; try exact ONE'.
  - destruct fields as [|a [|b [|? ?] ] ]; try exact ONE'. now apply (TWO NPipe env a b st).
  - destruct fields as [|a [|b [|? ?] ] ]; try exact ONE'. now apply (TWO NGroup env a b st).
  - destruct fields as [|a [|b [|? ?] ] ]; try exact ONE'. destruct (IH a) as [Na Fa]. split.
    + constructor; [apply NIL|now apply prefix_NoDup].
    + constructor; [now apply (ROOT _ eq_refl)|]. apply (KID 0 a); [unfold children; now rewrite O|exact Fa].
  - destruct fields as [|a [|? ?] ]; try exact ONE'. split.
    + constructor; [apply NIL|]. apply prefix_NoDup, arg_runs_NoDup. intros v. apply IH.
    + constructor; [now apply (ROOT _ eq_refl)|]. apply (KID 0 a); [unfold children; now rewrite O|].
      apply Forall_forall. intros p I. apply arg_runs_In in I as (j & x & q & -> & X & Q). unfold arg_one in Q.
      destruct (nth_error h x) as [ [n|ex t|k items|items|c env' fields' st']|] eqn:HX; try contradiction.
      * apply dict_runs_In in Q as (i & k & v & q' & -> & V & Q). destruct (IH v) as [_ F]. rewrite Forall_forall in F. destruct (F _ Q) as (y & A & B).
        exists y. split; [|exact B]. cbn [at_path]. cbn [Nat.add]. rewrite X. unfold children at 1. rewrite HX.
        rewrite (nth_flat items i k v V). exact A.
      * destruct (IH x) as [_ F]. rewrite Forall_forall in F. destruct (F _ Q) as (y & A & B). exists y. split; [|exact B].
        cbn [at_path Nat.add]. now rewrite X.
Qed.

Lemma set_at_len {A} (l : list A) : forall n x, List.length (set_at l n x) = List.length l.
Proof. induction l; intros [|n] x; cbn; auto. Qed.
Lemma set_at_other {A} (l : list A) : forall n x m, n <> m -> nth_error (set_at l n x) m = nth_error l m.
Proof. induction l; intros [|n] x [|m] H; cbn; auto; congruence. Qed.
Lemma set_at_same {A} (l : list A) : forall n x, n < List.length l -> nth_error (set_at l n x) n = Some x.
Proof. induction l; intros [|n] x H; cbn in *; auto; try lia. apply IHl. lia. Qed.
Definition started (h : heap) (x : nat) : Prop := exists c e fs, nth_error h x = Some (ONode c e fs true).
Lemma start_other h x m : x <> m -> nth_error (start_node h x) m = nth_error h m.
Proof. intros N. unfold start_node. destruct (nth_error h x) as [ [n|ex t|k items|items|c env fields st]|]; auto. now apply set_at_other. Qed.
Lemma start_same h x : is_node h x = true -> started (start_node h x) x.
Proof.
  unfold is_node, start_node, started. destruct (nth_error h x) as [ [n|ex t|k items|items|c env fields st]|] eqn:E; try discriminate.
  intros _. exists c, env, fields. apply set_at_same. now apply nth_error_len in E.
Qed.
Lemma start_is_node h x m : is_node (start_node h x) m = is_node h m.
Proof.
  destruct (Nat.eq_dec x m) as [<-|N]; [|unfold is_node; now rewrite start_other].
  unfold start_node, is_node. destruct (nth_error h x) as [ [n|ex t|k items|items|c env fields st]|] eqn:E; try now rewrite E.
  rewrite set_at_same; [reflexivity|now apply nth_error_len in E].
Qed.
Lemma start_keeps h x m : started h m -> started (start_node h x) m.
Proof.
  intros S. destruct (Nat.eq_dec x m) as [<-|N]; [|unfold started; now rewrite start_other].
  apply start_same. destruct S as (c & e & fs & S). unfold is_node. now rewrite S.
Qed.
Definition targets (h : heap) (r : nat) (ps : list (list nat)) : list nat :=
  flat_map (fun p => match at_path h r p with Some x => [x] | None => [] end) ps.
Lemma start_all_spec h0 r ps : forall h, Forall (leads h0 r) ps -> (forall x, is_node h x = is_node h0 x) ->
  let h' := fold_left (fun h' p => match at_path h0 r p with Some x => start_node h' x | None => h' end) ps h in
  (forall m, ~ In m (targets h0 r ps) -> nth_error h' m = nth_error h m) /\ (forall m, In m (targets h0 r ps) \/ started h m -> started h' m).
Proof.
  induction ps as [|p ps IH]; intros h F N h'; cbn [fold_left targets flat_map] in *.
  - subst h'. cbn. split; [auto|]. intros m [H|H]; [contradiction|exact H].
  - inversion F as [|? ? (x & A & B) F2]; subst. subst h'. cbn [fold_left]. rewrite A. cbn [app].
    destruct (IH (start_node h x) F2 ltac:(intros y; rewrite start_is_node; apply N)) as [X Y]. split.
    + intros m M. rewrite X; [|intros I; apply M; now right]. apply start_other. intros ->. apply M. now left.
    + intros m [ [<-|M]|M].
      * apply Y. right. apply start_same. now rewrite N.
      * apply Y. now left.
      * apply Y. right. now apply start_keeps.
Qed.
Lemma targets_In h r ps x : In x (targets h r ps) <-> exists p, In p ps /\ at_path h r p = Some x.
Proof.
  unfold targets. rewrite in_flat_map. split; intros (p & I & A); exists p; (split; [exact I|]).
  - destruct (at_path h r p); [destruct A as [->|[]]; reflexivity|contradiction].
  - rewrite A. now left.
Qed.
Lemma targets_NoDup h r ps : NoDup ps -> Forall (leads h r) ps ->
  (forall p q y o, at_path h r p = Some y -> at_path h r q = Some y -> nth_error h y = Some o -> container o -> p = q) ->
  NoDup (targets h r ps).
Proof.
  intros N F D. induction ps as [|p ps IH]; cbn [targets flat_map]; [constructor|]. inversion N as [|? ? N1 N2]; subst.
  inversion F as [|? ? (x & A & B) F2]; subst. rewrite A. cbn [app]. fold (targets h r ps). constructor; [|auto].
  rewrite targets_In. intros (q & Q & A'). unfold is_node in B. destruct (nth_error h x) as [ [n|ex t|k items|items|c env fields st]|] eqn:E; try discriminate.
  rewrite <- (D p q x _ A A' E Logic.I) in Q. contradiction.
Qed.
Lemma leads_targets h r ps : Forall (leads h r) ps -> targets h r ps = map (fun p => match at_path h r p with Some x => x | None => 0 end) ps.
Proof. induction ps as [|p ps IH]; intros F; cbn; [reflexivity|]. inversion F as [|? ? (x & A & B) F2]; subst. rewrite A. cbn. unfold targets in IH. now rewrite IH. Qed.

(** ** The copy runs in the same order as the original would *)
Lemma mirrors_root h r h' c : mirrors h r h' c -> exists o o', nth_error h r = Some o /\ nth_error h' c = Some o' /\ alike r o c o'.
Proof. intros M. exact (M []). Qed.
Lemma mirrors_kids h r h' c : mirrors h r h' c -> Forall2 (fun a b => mirrors h a h' b) (children h r) (children h' c).
Proof.
  intros M. assert (K : forall i, match nth_error (children h r) i, nth_error (children h' c) i with Some a, Some b => mirrors h a h' b | None, None => True | _, _ => False end).
  { intros i. pose proof (fun p => M (i :: p)) as Mi. cbn [at_path] in Mi.
    destruct (nth_error (children h r) i) as [a|], (nth_error (children h' c) i) as [b|]; [exact Mi|exact (Mi [])|exact (Mi [])|exact Logic.I]. }
  clear M. revert K. generalize (children h r) (children h' c). induction l as [|a l IH]; intros [|b l'] K; [constructor|exact (False_ind _ (K 0))|exact (False_ind _ (K 0))|].
  constructor; [exact (K 0)|]. apply IH. intros i. exact (K (S i)).
Qed.
Lemma mirrors_is_node h a h' b : mirrors h a h' b -> is_node h a = is_node h' b.
Proof. intros M. destruct (mirrors_root _ _ _ _ M) as (o & o' & A & B & K). unfold is_node. rewrite A, B. destruct o, o'; cbn in K; tauto || reflexivity. Qed.
Lemma run_order_mirrors d : forall h r h' c, mirrors h r h' c -> run_order d h r = run_order d h' c.
Proof.
  induction d as [|d IH]; intros h r h' c M; cbn [run_order]; [reflexivity|].
  destruct (mirrors_root _ _ _ _ M) as (o & o' & A & B & K). pose proof (mirrors_kids _ _ _ _ M) as KS. unfold children in KS. rewrite A, B in *.
  destruct o as [n|ex t|k items|items|nc env fields st], o' as [n'|ex' t'|k' items'|items'|nc' env' fields' st']; cbn in K; try contradiction; try reflexivity.
  destruct K as (<- & <- & ->).
  assert (TWO : match fields, fields' with [a; b], [a'; b'] => run_order d h a = run_order d h' a' /\ run_order d h b = run_order d h' b'
                | [a; b], _ => False | _, [a'; b'] => False | _, _ => True end).
  { destruct KS as [|a a' fs fs' Ma KS]; [exact Logic.I|]. destruct KS as [|b b' fs fs' Mb KS]; [exact Logic.I|]. destruct KS as [|? ? fs fs' Mb' KS]; [|exact Logic.I]. auto. }
  destruct nc as [| | | | |bn|f]; try reflexivity.
  - destruct fields as [|a [|b [|? ?] ] ], fields' as [|a' [|b' [|? ?] ] ]; try contradiction; try reflexivity. destruct TWO as [-> ->]. reflexivity.
  - destruct fields as [|a [|b [|? ?] ] ], fields' as [|a' [|b' [|? ?] ] ]; try contradiction; try reflexivity. destruct TWO as [-> ->]. reflexivity.
  - destruct fields as [|a [|b [|? ?] ] ], fields' as [|a' [|b' [|? ?] ] ]; try contradiction; try reflexivity. destruct TWO as [-> _]. reflexivity.
  - destruct KS as [|a a' fs fs' Ma KS]; [reflexivity|]. destruct KS; [|reflexivity]. f_equal. f_equal.
    pose proof (mirrors_kids _ _ _ _ Ma) as KA. clear - IH KA. revert KA. generalize (children h a) (children h' a') 0.
    intros l l' i KA. revert i. induction KA as [|x y l l' Mx KA IHl]; intros i; cbn [arg_runs]; [reflexivity|]. rewrite (IHl (S i)). f_equal. f_equal.
    pose proof (mirrors_kids _ _ _ _ Mx) as KX. unfold children in KX.
    destruct (mirrors_root _ _ _ _ Mx) as (o & o' & A & B & K). rewrite A, B in *.
    destruct o as [n|ex t|k items|items|nc env fields st], o' as [n'|ex' t'|k' items'|items'|nc' env' fields' st']; cbn in K; try contradiction; try reflexivity; [|now apply IH].
    clear - IH KX. generalize 0. revert items' KX. induction items as [|[k v] items IHi]; intros [|[k' v'] items'] KX j; cbn [flat_map app fst snd] in KX; try (inversion KX; fail); [reflexivity|].
    inversion KX as [|? ? ? ? M1 KX1]; subst. inversion KX1 as [|? ? ? ? M2 KX2]; subst. cbn [dict_runs]. rewrite (IHi _ KX2 (S j)).
    rewrite (mirrors_is_node _ _ _ _ M2). rewrite (IH _ _ _ _ M2). reflexivity.
Qed.
Lemma rebuild_unstarted h o cs m : m = List.length h -> ~ started (h ++ [rebuild o cs]) m.
Proof.
  intros -> (c & e & fs & E). rewrite nth_error_app2, Nat.sub_diag in E by lia. cbn in E. destruct o; cbn in E; congruence.
Qed.
Lemma pcopy_unstarted d : forall h r h' c, closed h -> r < List.length h -> pcopy d h r = Some (h', c) -> forall m, List.length h <= m -> ~ started h' m.
Proof.
  induction d as [|d IH]; intros h r h' c C L P m M; cbn [pcopy] in P; [discriminate|].
  destruct (nth_error h r) as [o|] eqn:O; [|discriminate]. destruct (shared o).
  - injection P as <- <-. intros (k & e & fs & E). apply nth_error_len in E. lia.
  - destruct (peach (pcopy d) h (children h r)) as [ [h1 cs]|] eqn:E; [|discriminate]. injection P as <- <-.
    assert (F : Forall (fun q => q < List.length h) (children h r)). { apply Forall_forall. intros q Q. now apply C in Q. }
    assert (G : forall rs g g' cs, closed g -> Forall (fun q => q < List.length g) rs -> peach (pcopy d) g rs = Some (g', cs) ->
              forall m, List.length g <= m -> ~ started g' m).
    { clear - IH. induction rs as [|r rs IHr]; intros g g' cs C F E m M; cbn [peach] in E.
      - injection E as <- <-. intros (k & e & fs & E). apply nth_error_len in E. lia.
      - destruct (pcopy d g r) as [ [g1 c]|] eqn:P; [|discriminate]. destruct (peach (pcopy d) g1 rs) as [ [g2 cs']|] eqn:R; [|discriminate]. injection E as <- <-.
        inversion F as [|? ? F1 F2]; subst. pose proof (IH _ _ _ _ C F1 P) as U. destruct (pcopy_copied d _ _ _ _ C F1 P) as [ [x X] C1 _ _ _ _].
        assert (F3 : Forall (fun q => q < List.length g1) rs). { eapply Forall_impl; [|exact F2]. intros a A. subst g1. rewrite app_length. cbn in A. lia. }
        destruct (copied_all_of _ (pcopy_copied d) _ _ _ _ C1 F3 R) as [ [y Y] _ _ _ _ _ _].
        destruct (le_lt_dec (List.length g1) m) as [LE|LT]; [exact (IHr _ _ _ C1 F3 R m LE)|].
        intros (k & e & fs & E). subst g2. rewrite nth_error_app1 in E by exact LT. apply (U m M). now exists k, e, fs. }
    pose proof (G _ _ _ _ C F E m M) as U. intros (k & e & fs & Z).
    assert (LT : m < List.length (h1 ++ [rebuild o cs])) by (now apply nth_error_len in Z). rewrite app_length in LT. cbn in LT.
    destruct (Nat.eq_dec m (List.length h1)) as [EQ|NE].
    + apply (rebuild_unstarted h1 o cs m EQ). now exists k, e, fs.
    + rewrite nth_error_app1 in Z by lia. apply U. now exists k, e, fs.
Qed.
Lemma deepcopy_unstarted d s r s' c : closed (c_heap s) -> r < List.length (c_heap s) -> idle s -> deepcopy d s r = Some (s', c) ->
  forall m, List.length (c_heap s) <= m -> ~ started (c_heap s') m.
Proof.
  intros C L I E. pose proof (deepcopy_agrees d s r I) as A. destruct (pcopy d (c_heap s) r) as [ [h' q]|] eqn:P; [|congruence].
  destruct A as [ms A]. rewrite E in A. injection A as -> ->. cbn. now apply (pcopy_unstarted d _ _ _ _ C L P).
Qed.
Lemma run_spec d s r s' c : closed (c_heap s) -> r < List.length (c_heap s) -> idle s -> run_pipeline d s r = Some (s', c) ->
  exists h, copied (c_heap s) r h c /\ (forall m, List.length (c_heap s) <= m -> ~ started h m) /\ c_cur s' = c_cur s /\
    let ran := targets h c (run_order d h c) in
    NoDup ran /\ (forall x, In x ran -> List.length (c_heap s) <= x) /\
    (forall m, In m ran -> started (c_heap s') m) /\ (forall m, ~ In m ran -> nth_error (c_heap s') m = nth_error h m) /\
    List.length ran = List.length (run_order d h c).
Proof.
  intros C L I E. unfold run_pipeline in E. rewrite (enter_idle s I) in E.
  pose proof (idle_new (c_heap s) (c_memos s) []) as N. cbn [app] in N.
  destruct (deepcopy d _ r) as [ [s1 c1]|] eqn:D; [|discriminate]. injection E as <- <-.
  pose proof (deepcopy_unstarted d _ r s1 c1 (C : closed (c_heap (mkC _ _ _))) L N D) as U. apply deepcopy_copied in D; auto. destruct D as [D D']. cbn [c_heap] in D. exists (c_heap s1). split; [exact D|]. split; [exact U|]. split; [reflexivity|].
  destruct (run_order_ok d (c_heap s1) c1) as [R1 R2]. cbv zeta.
  destruct (start_all_spec (c_heap s1) c1 (run_order d (c_heap s1) c1) (c_heap s1) R2 (fun _ => eq_refl)) as [X Y].
  split; [|split; [|split; [|split] ] ].
  - apply targets_NoDup; auto. apply D.
  - intros x T. apply targets_In in T as (p & P & A). rewrite Forall_forall in R2. destruct (R2 p P) as (x' & A' & B). assert (x' = x) by congruence. subst.
    unfold is_node in B. destruct (nth_error (c_heap s1) x) as [ [n|ex t|k items|items|k env fields st]|] eqn:O; try discriminate.
    exact (cp_fresh _ _ _ _ D _ _ _ A O Logic.I).
  - intros m M. apply Y. now left.
  - intros m M. now apply X.
  - rewrite leads_targets by exact R2. now rewrite map_length.
Qed.

Lemma run_once d s r s' c : closed (c_heap s) -> r < List.length (c_heap s) -> idle s -> run_pipeline d s r = Some (s', c) ->
  exists ran, NoDup ran /\ List.length ran = List.length (run_order d (c_heap s) r) /\
    (forall m, List.length (c_heap s) <= m -> (started (c_heap s') m <-> In m ran)) /\
    (forall m, In m ran -> List.length (c_heap s) <= m).
Proof.
  intros C L I E. destruct (run_spec d s r s' c C L I E) as (h & D & U & _ & R). cbv zeta in R. destruct R as (R1 & R2 & R3 & R4 & R5).
  exists (targets h c (run_order d h c)). split; [exact R1|]. split; [|split; [|exact R2] ].
  - rewrite R5. now rewrite (run_order_mirrors d _ _ _ _ (cp_mirror _ _ _ _ D)).
  - intros m M. split; [|apply R3]. intros S. destruct (in_dec Nat.eq_dec m (targets h c (run_order d h c))) as [T|T]; [exact T|exfalso].
    unfold started in S. rewrite (R4 m T) in S. exact (U m M S).
Qed.
Lemma run_originals d s r s' c : closed (c_heap s) -> r < List.length (c_heap s) -> idle s -> run_pipeline d s r = Some (s', c) ->
  (forall m, m < List.length (c_heap s) -> nth_error (c_heap s') m = nth_error (c_heap s) m) /\ c_cur s' = c_cur s.
Proof.
  intros C L I E. destruct (run_spec d s r s' c C L I E) as (h & D & _ & Q & R). cbv zeta in R. destruct R as (R1 & R2 & R3 & R4 & R5).
  split; [|exact Q]. intros m M. rewrite R4; [|intros T; apply R2 in T; lia]. destruct (cp_ext _ _ _ _ D) as [x ->]. now apply nth_error_app1.
Qed.
