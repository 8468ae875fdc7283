From Verif Require Import Py PathModel PathSpec PathProofs DirModel DirSpec.
From Coq Require Import Permutation Sorted.

Lemma leb_spec a : forall b, text_leb a b = true <-> alphabetical a b.
Proof.
  induction a as [|x a IH]; intros [|y b]; cbn [text_leb].
  - split; [constructor|reflexivity].
  - split; [constructor|reflexivity].
  - split; [discriminate|intros H; inversion H].
  - destruct (N.ltb_spec x y) as [L|L]; cbn [orb].
    + split; [now constructor|reflexivity].
    + destruct (N.eqb_spec x y) as [->|N]; cbn [andb].
      * rewrite IH. split; [now constructor|]. intros H. inversion H; subst; [lia|assumption].
      * split; [discriminate|]. intros H. inversion H; subst; [lia|congruence].
Qed.
Lemma leb_total a b : text_leb a b = false -> alphabetical b a.
Proof.
  revert b; induction a as [|x a IH]; intros [|y b]; cbn [text_leb]; try discriminate; [constructor|].
  destruct (N.ltb_spec x y) as [L|L]; [discriminate|]. cbn [orb]. destruct (N.eqb_spec x y) as [->|N]; cbn [andb]; intros H.
  - apply al_same. now apply IH.
  - apply al_less. lia.
Qed.
Lemma al_trans a b c : alphabetical a b -> alphabetical b c -> alphabetical a c.
Proof.
  intros H. revert c. induction H as [b|x y a b L|x a b H IH]; intros c K; [constructor| |].
  - inversion K; subst; constructor; [lia|assumption].
  - inversion K; subst; [now constructor|]. apply al_same. now apply IH.
Qed.
Lemma al_antisym a b : alphabetical a b -> alphabetical b a -> a = b.
Proof.
  induction 1 as [b|x y a b L|x a b H IH]; intros K; [now inversion K| |].
  - inversion K; subst; lia.
  - inversion K; subst; [lia|]. f_equal. now apply IH.
Qed.
Lemma insert_perm x l : Permutation (insert_sorted x l) (x :: l).
Proof.
  induction l as [|y l IH]; cbn [insert_sorted]; [reflexivity|]. destruct (text_leb x y); [reflexivity|].
  rewrite IH. apply perm_swap.
Qed.
Lemma sort_perm l : Permutation (sort_texts l) l.
Proof. induction l as [|x l IH]; cbn [sort_texts]; [reflexivity|]. rewrite insert_perm. now constructor. Qed.
Lemma insert_sorted_ok x l : StronglySorted alphabetical l -> StronglySorted alphabetical (insert_sorted x l).
Proof.
  induction 1 as [|y l S IH F]; cbn [insert_sorted]; [repeat constructor|]. destruct (text_leb x y) eqn:E.
  - apply leb_spec in E. constructor; [now constructor|]. constructor; [exact E|]. eapply Forall_impl; [|exact F]. intros z. now apply al_trans.
  - constructor; [exact IH|]. apply leb_total in E. rewrite Forall_forall in *. intros z Hz.
    apply (Permutation_in _ (insert_perm x l)) in Hz. destruct Hz as [<-|Hz]; [exact E|now apply F].
Qed.
Lemma sort_ok l : StronglySorted alphabetical (sort_texts l).
Proof. induction l; cbn [sort_texts]; [constructor|now apply insert_sorted_ok]. Qed.
Lemma sorted_perm_eq l : forall m, StronglySorted alphabetical l -> StronglySorted alphabetical m -> Permutation l m -> l = m.
Proof.
  induction l as [|x l IH]; intros m S T P; [apply Permutation_nil in P; now symmetry|].
  destruct m as [|y m]; [symmetry in P; apply Permutation_nil in P; discriminate|].
  inversion S as [|? ? S' F]; subst. inversion T as [|? ? T' G]; subst. rewrite Forall_forall in F, G.
  assert (E : x = y).
  { apply al_antisym.
    - assert (I : In y (x :: l)) by (eapply Permutation_in; [symmetry; exact P|now left]). destruct I as [->|I]; [|now apply F].
      clear. induction y; [constructor|now apply al_same].
    - assert (I : In x (y :: m)) by (eapply Permutation_in; [exact P|now left]). destruct I as [->|I]; [|now apply G].
      clear. induction x; [constructor|now apply al_same]. }
  subst y. f_equal. apply IH; try assumption. now apply Permutation_cons_inv in P.
Qed.
Lemma sort_sorted l : StronglySorted alphabetical l -> sort_texts l = l.
Proof. intros S. apply sorted_perm_eq; [apply sort_ok|exact S|apply sort_perm]. Qed.

Lemma split_nil c : split_on c [] = [ [] ]. Proof. reflexivity. Qed.
Lemma split_no c p : ~ In c p -> split_on c p = [p].
Proof.
  induction p as [|x p IH]; intros H; [reflexivity|]. cbn [split_on]. destruct (N.eqb_spec x c) as [->|_]; [exfalso; apply H; now left|].
  rewrite IH by (intros I; apply H; now right). reflexivity.
Qed.
Lemma split_app c p rest : ~ In c p -> split_on c (p ++ c :: rest) = p :: split_on c rest.
Proof.
  induction p as [|x p IH]; intros H; cbn [List.app split_on].
  - now rewrite N.eqb_refl.
  - destruct (N.eqb_spec x c) as [->|_]; [exfalso; apply H; now left|]. rewrite IH by (intros I; apply H; now right). reflexivity.
Qed.
Lemma pieces_split p l : pieces p l <-> split_on 58%N p = l.
Proof.
  split.
  - induction 1 as [p H|p rest l H _ IH]; [now apply split_no|]. rewrite split_app by exact H. now rewrite IH.
  - intros <-. remember (List.length p) as n eqn:L. revert p L. induction n as [n IH] using lt_wf_ind. intros p L.
    destruct (in_dec N.eq_dec 58%N p) as [I|N]; [|rewrite split_no by exact N; now constructor].
    assert (S : exists a b, p = a ++ 58%N :: b /\ ~ In 58%N a).
    { clear - I. induction p as [|x p IH]; [destruct I|]. destruct (N.eq_dec x 58%N) as [->|N]; [now exists [], p|].
      destruct I as [E|I]; [congruence|]. destruct (IH I) as (a & b & -> & H). exists (x :: a), b. split; [reflexivity|]. intros [E|J]; [congruence|now apply H]. }
    destruct S as (a & b & -> & N). rewrite split_app by exact N. constructor; [exact N|]. eapply IH; [|reflexivity]. rewrite L, app_length. cbn. lia.
Qed.
Lemma dir_name d pcwd p : dir_ok d -> abspath pcwd (if startswith p [c_slash] then p else path_join (render d) p) = render (resolve d p).
Proof.
  intros O. rewrite <- (join_resolve d p pcwd O). unfold path_join. destruct (startswith p [c_slash]); reflexivity.
Qed.
Lemma list_dirs_ok s d pcwd dirs : d_cwd s = render d -> dir_ok d -> forall acc l, list_dirs s pcwd dirs acc = (l, true) <->
  exists ls, listing (d_list s) d dirs ls /\ l = acc ++ List.concat ls.
Proof.
  intros C O. induction dirs as [|p dirs IH]; intros acc l; cbn [list_dirs].
  - split; [intros H; injection H as <-; exists []; split; [constructor|now rewrite app_nil_r]|].
    intros (ls & H & ->). inversion H; subst. cbn. now rewrite app_nil_r.
  - rewrite C, dir_name by exact O. destruct (d_list s (render (resolve d p))) as [m|] eqn:E.
    + rewrite IH. split.
      * intros (ls & H & ->). exists (m :: ls). split; [now constructor|]. cbn. now rewrite app_assoc.
      * intros (ls & H & ->). inversion H; subst. match goal with K : d_list s _ = Some ?l0 |- _ => assert (l0 = m) by congruence; subst l0 end.
        eexists. split; [eassumption|]. cbn. now rewrite app_assoc.
    + split; [discriminate|]. intros (ls & H & _). inversion H; subst. congruence.
Qed.
Lemma list_dirs_fails s d pcwd dirs : d_cwd s = render d -> dir_ok d -> forall good bad rest ls acc, dirs = good ++ bad :: rest ->
  listing (d_list s) d good ls -> d_list s (render (resolve d bad)) = None -> list_dirs s pcwd dirs acc = (acc ++ List.concat ls, false).
Proof.
  intros C O good bad rest ls acc -> L. revert acc. induction L as [|p l ps ls E L IH]; intros acc B; cbn [List.app list_dirs].
  - rewrite C, dir_name by exact O. rewrite B. cbn. now rewrite app_nil_r.
  - rewrite C, dir_name by exact O. rewrite E, IH by exact B. cbn. now rewrite app_assoc.
Qed.
Lemma fresh s d pcwd l s' : d_cwd s = render d -> dir_ok d -> d_cache s = None -> do_dir s pcwd = (s', Ok l) -> completions s d l.
Proof.
  intros C O N. unfold do_dir. rewrite N. destruct (d_path s) as [p|] eqn:P; [|discriminate]. destruct (list_dirs s pcwd (split_on 58%N p) []) as [m [|]] eqn:E; [|discriminate].
  intros H. injection H as _ <-. apply (list_dirs_ok s d) in E; [|exact C|exact O]. destruct E as (ls & L & ->).
  exists p, (split_on 58%N p), ls. repeat split; [exact P|now apply pieces_split|exact L|rewrite !sort_perm; reflexivity|apply sort_ok].
Qed.
Lemma completions_fun s d l m : completions s d l -> completions s d m -> l = m.
Proof.
  intros (p & ds & ls & P & D & L & Q & S) (p' & ds' & ls' & P' & D' & L' & Q' & S'). assert (p' = p) by congruence. subst p'.
  apply pieces_split in D, D'. rewrite D in D'. subst ds'.
  assert (ls' = ls). { clear - L L'. revert ls' L'. induction L as [|a b c e E L IH]; intros x H; inversion H; subst; [reflexivity|]. f_equal; [congruence|now apply IH]. }
  subst ls'. apply sorted_perm_eq; try assumption. now rewrite Q, Q'.
Qed.
Lemma fresh_all s d pcwd l : d_cwd s = render d -> dir_ok d -> d_cache s = None -> completions s d l -> do_dir s pcwd = (set_cache s (Some l), Ok l).
Proof.
  intros C O N (p & ds & ls & P & D & L & Q & S). unfold do_dir. rewrite N, P. apply pieces_split in D. subst ds.
  destruct (list_dirs_ok s d pcwd (split_on 58%N p) C O [] (List.concat ls)) as [_ X]. rewrite X by (exists ls; now split).
  assert (E : sort_texts (List.concat ls ++ d_builtins s) = l) by (apply sorted_perm_eq; [apply sort_ok|exact S|rewrite sort_perm; now symmetry]).
  rewrite E. rewrite (sort_sorted l S). reflexivity.
Qed.
Lemma cache_kept ops : forall s c, d_cache s = Some c -> ~ In DClear ops -> d_cache (dsteps s ops) = Some c.
Proof.
  induction ops as [|o ops IH]; intros s c H N; [exact H|]. cbn [dsteps fold_left]. apply IH; [|intros I; apply N; now right].
  destruct o as [pcwd| | |f|p|x]; cbn [dstep]; try exact H.
  - unfold do_dir. now rewrite H.
  - exfalso. apply N. now left.
Qed.
Lemma dir_caches s pcwd : exists c, d_cache (fst (do_dir s pcwd)) = Some c /\ forall l, snd (do_dir s pcwd) = Ok l -> sort_texts c = l.
Proof.
  unfold do_dir. destruct (d_cache s) as [c|] eqn:E; [exists c; split; [exact E|]; intros l H; now injection H|].
  destruct (d_path s) as [p|]; [|exists []; split; [reflexivity|discriminate]].
  destruct (list_dirs s pcwd (split_on 58%N p) []) as [m [|]]; cbn; eexists; split; try reflexivity; try discriminate. intros l H. injection H as <-. reflexivity.
Qed.
Lemma dir_cached s c pcwd : d_cache s = Some c -> do_dir s pcwd = (s, Ok (sort_texts c)).
Proof. intros H. unfold do_dir. now rewrite H. Qed.
