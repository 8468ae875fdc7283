From Verif Require Import Py RedirModel IterModel Utf8Model Utf8Spec Utf8Proofs FinishModel FinishSpec.

Lemma no_cr_same t : no_cr t -> universal_newlines t = t.
Proof.
  unfold no_cr. induction t as [|c t IH]; cbn; intros H; [reflexivity|].
  destruct (N.eqb_spec c 13) as [->|]; [exfalso; auto|]. now rewrite IH by auto.
Qed.
(** Text mode removes every carriage return. *)
Lemma universal_no_cr_aux n : forall t, List.length t <= n -> ~ In 13%N (universal_newlines t).
Proof.
  induction n as [|n IH]; intros t L.
  { destruct t; [auto|cbn in L; lia]. }
  destruct t as [|c t]; [auto|]. cbn in L. cbn [universal_newlines].
  destruct (N.eqb_spec c 13) as [->|Hc].
  - intros [X|X]; [discriminate|]. destruct t as [|d t]; [auto|].
    destruct (N.eqb_spec d 10); [apply (IH t) in X; [auto|cbn in L; lia]|apply (IH (d :: t)) in X; [auto|lia]].
  - intros [X|X]; [auto|]. apply (IH t) in X; [auto|lia].
Qed.
Lemma universal_no_cr t : ~ In 13%N (universal_newlines t).
Proof. apply (universal_no_cr_aux (List.length t)). lia. Qed.

Lemma read_holds f k t : holds f k t -> read_text f k = Ok (universal_newlines t).
Proof. intros (b & H & E). unfold read_text. rewrite H, (decode_encode _ _ E). reflexivity. Qed.
Lemma read_ok_holds f k u : read_text f k = Ok u -> exists t, holds f k t /\ u = universal_newlines t.
Proof.
  unfold read_text. destruct (f k) as [b|] eqn:E; [|discriminate].
  destruct (decode b) eqn:D; [|discriminate]. intros H. injection H as <-.
  exists a. split; [|reflexivity]. exists b. split; [exact E|]. now apply encode_decode.
Qed.

Lemma read_strings_spec f rs : NoDup (dkeys rs) -> forall c c' e, read_strings f rs c = (c', e) ->
  (e = None -> forall fd, dget c' fd =
     match dget rs fd with
     | Some r => match r_pipe r with
                 | Some (PString k) => match read_text f k with Ok t => Some t | Err _ => None end
                 | _ => dget c fd end
     | None => dget c fd end) /\
  (e = None <-> forall fd r k, dget rs fd = Some r -> r_pipe r = Some (PString k) -> exists t, read_text f k = Ok t).
Proof.
  induction rs as [|[fd r] rs IH]; cbn [read_strings dget dkeys map fst]; intros Nd c c' e H.
  { injection H as <- <-. split; [auto|]. split; [discriminate|auto]. }
  inversion Nd as [|? ? Hn Nd']; subst.
  assert (Hfd : dget rs fd = None) by (apply dget_None; exact Hn).
  assert (Keep : (forall k, r_pipe r <> Some (PString k)) -> read_strings f rs c = (c', e) ->
    (e = None -> forall fd', dget c' fd' =
      match (if keqb fd' fd then Some r else dget rs fd') with
      | Some r0 => match r_pipe r0 with
                 | Some (PString k) => match read_text f k with Ok t => Some t | Err _ => None end
                 | _ => dget c fd' end
      | None => dget c fd' end) /\
    (e = None <-> forall fd' r0 k, (if keqb fd' fd then Some r else dget rs fd') = Some r0 -> r_pipe r0 = Some (PString k) -> exists t, read_text f k = Ok t)).
  { intros Np E. destruct (IH Nd' _ _ _ E) as [A B]. split.
    - intros X fd'. rewrite (A X fd'). destruct (keqb_spec fd' fd) as [->|]; [|reflexivity].
      rewrite Hfd. destruct (r_pipe r) as [[| |k]|] eqn:P; try reflexivity. now destruct (Np k).
    - rewrite B. split; intros Y fd' r0 k G P.
      + destruct (keqb fd' fd); [injection G as <-; now destruct (Np k)|eauto].
      + apply (Y fd' r0 k); [|exact P]. destruct (keqb_spec fd' fd) as [->|]; [congruence|exact G]. }
  destruct (r_pipe r) as [[n|n|k]|] eqn:P; try (apply Keep; [intros; discriminate|exact H]).
  clear Keep. destruct (read_text f k) as [t|x] eqn:R.
  - destruct (IH Nd' _ _ _ H) as [A B]. split.
    + intros X fd'. rewrite (A X fd'), dget_dset. destruct (keqb_spec fd' fd) as [->|]; [|reflexivity].
      now rewrite Hfd, P, R.
    + rewrite B. split; intros Y fd' r0 k' G P'.
      * destruct (keqb fd' fd); [injection G as <-; replace k' with k by congruence; eauto|eauto].
      * apply (Y fd' r0 k'); [|exact P']. destruct (keqb_spec fd' fd) as [->|]; [congruence|exact G].
  - injection H as <- <-. split; [discriminate|]. split; [discriminate|].
    intros Y. destruct (Y fd r k) as [t T]; [now rewrite keqb_refl|exact P|]. congruence.
Qed.

Lemma unlink_strings_spec rs : NoDup (dkeys rs) -> forall f j,
  ((exists fd r, dget rs fd = Some r /\ r_pipe r = Some (PString j)) -> unlink_strings f rs j = None) /\
  ((forall fd r, dget rs fd = Some r -> r_pipe r <> Some (PString j)) -> unlink_strings f rs j = f j).
Proof.
  assert (Gone : forall rs f j, f j = None -> unlink_strings f rs j = None).
  { clear. induction rs as [|[fd r] rs IH]; cbn; intros f j H; [exact H|].
    destruct (r_pipe r) as [[n|n|k]|]; auto. apply IH. unfold fs_rm. now destruct (j =? k). }
  induction rs as [|[fd r] rs IH]; cbn [unlink_strings dget dkeys map fst]; intros Nd f j.
  { split; [intros (? & ? & X & _); discriminate|auto]. }
  inversion Nd as [|? ? Hn Nd']; subst.
  assert (Hfd : dget rs fd = None) by (apply dget_None; exact Hn).
  assert (In2 : forall fd' r0, dget rs fd' = Some r0 -> (if keqb fd' fd then Some r else dget rs fd') = Some r0).
  { intros fd' r0 G. destruct (keqb_spec fd' fd) as [->|]; [congruence|exact G]. }
  destruct (r_pipe r) as [[n|n|k]|] eqn:P.
  1,2,4: destruct (IH Nd' f j) as [A B]; split;
    [ intros (fd' & r0 & G & P'); apply A; destruct (keqb fd' fd); [congruence|eauto]
    | intros X; apply B; intros fd' r0 G; apply (X fd'); now apply In2 ].
  destruct (IH Nd' (fs_rm f k) j) as [A B]. split.
  - intros (fd' & r0 & G & P'). destruct (keqb fd' fd); [|apply A; eauto].
    injection G as <-. replace k with j in * by congruence. apply Gone. unfold fs_rm. now rewrite Nat.eqb_refl.
  - intros X. rewrite B; [|intros fd' r0 G; apply (X fd'); now apply In2].
    unfold fs_rm. destruct (Nat.eqb_spec j k) as [->|]; [|reflexivity].
    exfalso. apply (X fd r); [now rewrite keqb_refl|exact P].
Qed.

Lemma finish_unlink_spec it f j : NoDup (dkeys (it_redirs it)) ->
  ((exists fd, captures it fd j) -> finish_unlink f it j = None) /\
  ((forall fd, ~ captures it fd j) -> finish_unlink f it j = f j).
Proof.
  intros Nd. unfold finish_unlink, captures. destruct (it_base it).
  { split; [intros (? & ? & _); discriminate|auto]. }
  destruct (unlink_strings_spec _ Nd f j) as [A B]. split.
  - intros (fd & _ & r & G & P). apply A. eauto.
  - intros X. apply B. intros fd r G P. apply (X fd). split; [reflexivity|eauto].
Qed.
Lemma finish_unlink_gone it f j : f j = None -> NoDup (dkeys (it_redirs it)) -> finish_unlink f it j = None.
Proof.
  intros H Nd. unfold finish_unlink. destruct (it_base it); [exact H|].
  generalize f H. clear. induction (it_redirs it) as [|[fd r] rs IH]; cbn; intros f H; [exact H|].
  destruct (r_pipe r) as [[n|n|k]|]; auto. apply IH. unfold fs_rm. now destruct (j =? k).
Qed.
Lemma unlink_fold its : well_formed its -> forall f j,
  ((exists it fd, In it its /\ captures it fd j) -> fold_left finish_unlink its f j = None) /\
  ((forall it fd, In it its -> ~ captures it fd j) -> fold_left finish_unlink its f j = f j).
Proof.
  unfold well_formed.
  assert (Gone : forall its f j, Forall (fun it => NoDup (dkeys (it_redirs it))) its -> f j = None -> fold_left finish_unlink its f j = None).
  { clear. induction its as [|it its IH]; cbn; intros f j W H; [exact H|]. inversion W; subst. apply IH; [assumption|]. now apply finish_unlink_gone. }
  induction its as [|it its IH]; cbn; intros W f j.
  { split; [intros (? & ? & [] & _)|auto]. }
  inversion W as [|? ? W1 W2]; subst. destruct (finish_unlink_spec it f j W1) as [A B].
  destruct (IH W2 (finish_unlink f it) j) as [C D]. split.
  - intros (it' & fd & [<-|Hin] & Cp); [|apply C; eauto]. apply Gone; [exact W2|]. apply A. eauto.
  - intros X. rewrite D; [|intros it' fd Hin; apply X; auto]. apply B. intros fd. apply X. now left.
Qed.

Lemma read_all_None f its : forall its' , read_all f its = (its', None) ->
  Forall2 (fun it it' => finish_read f it = (it', None)) its its'.
Proof.
  induction its as [|it its IH]; cbn; intros its' H; [injection H as <-; constructor|].
  destruct (finish_read f it) as [it1 [x|]] eqn:E; [discriminate|].
  destruct (read_all f its) as [its1 e1] eqn:E1. injection H as <- ->. constructor; [exact E|]. now apply IH.
Qed.
Lemma finish_read_same f it it' e : finish_read f it = (it', e) -> it_base it' = it_base it /\ it_redirs it' = it_redirs it.
Proof.
  unfold finish_read. destruct (it_base it) eqn:B; [intros H; injection H as <- _; auto|].
  destruct (read_strings f (it_redirs it) (it_content it)). intros H. injection H as <- _. auto.
Qed.
Lemma read_all_same f its : forall its' e, read_all f its = (its', e) ->
  Forall2 (fun it it' => it_base it' = it_base it /\ it_redirs it' = it_redirs it) its its'.
Proof.
  induction its as [|it its IH]; cbn; intros its' e H; [injection H as <- _; constructor|].
  destruct (finish_read f it) as [it1 [x|]] eqn:E.
  - injection H as <- _. constructor; [eapply finish_read_same; eauto|]. clear. induction its; constructor; auto.
  - destruct (read_all f its) as [its1 e1] eqn:E1. injection H as <- _. constructor; [eapply finish_read_same; eauto|eauto].
Qed.
Lemma Forall2_nth {A B} (P : A -> B -> Prop) l l' : Forall2 P l l' -> forall n x, nth_error l n = Some x -> exists y, nth_error l' n = Some y /\ P x y.
Proof. induction 1 as [|a b l l' H F IH]; intros [|n] x E; cbn in *; try discriminate; [injection E as <-; eauto|auto]. Qed.
Lemma Forall2_nth' {A B} (P : A -> B -> Prop) l l' : Forall2 P l l' -> forall n y, nth_error l' n = Some y -> exists x, nth_error l n = Some x /\ P x y.
Proof. induction 1 as [|a b l l' H F IH]; intros [|n] x E; cbn in *; try discriminate; [injection E as <-; eauto|auto]. Qed.

Lemma same_captures it it' : it_base it' = it_base it /\ it_redirs it' = it_redirs it -> forall fd k, captures it' fd k <-> captures it fd k.
Proof. intros [A B] fd k. unfold captures. now rewrite A, B. Qed.

Lemma finish_recorded f its f' its' : well_formed its -> finish f its = (f', its', None) ->
  List.length its' = List.length its /\
  (forall n it it', nth_error its n = Some it -> nth_error its' n = Some it' ->
     (forall fd k, captures it fd k -> exists t, holds f k t /\ dget (it_content it') fd = Some (universal_newlines t)) /\
     (forall fd, (forall k, ~ captures it fd k) -> dget (it_content it') fd = dget (it_content it) fd)) /\
  (forall k, (exists it fd, In it its /\ captures it fd k) -> f' k = None) /\
  (forall k, (forall it fd, In it its -> ~ captures it fd k) -> f' k = f k).
Proof.
  intros W. unfold finish. destruct (read_all f its) as [its1 [x|]] eqn:E; [discriminate|].
  intros H. injection H as <- <-. pose proof (read_all_None _ _ _ E) as F. pose proof (read_all_same _ _ _ _ E) as F'.
  split; [symmetry; clear -F; induction F; cbn; auto|]. split.
  - intros n it it' N1 N2. destruct (Forall2_nth _ _ _ F _ _ N1) as (y & Ny & R). replace y with it' in * by congruence. clear y Ny.
    assert (Nd : NoDup (dkeys (it_redirs it))). { unfold well_formed in W. rewrite Forall_forall in W. apply W. eapply nth_error_In; eauto. }
    unfold finish_read in R. destruct (it_base it) eqn:B.
    { injection R as <-. split; [intros fd k [X _]; congruence|auto]. }
    destruct (read_strings f (it_redirs it) (it_content it)) as [c e] eqn:Rs. injection R as <- ->.
    destruct (read_strings_spec f _ Nd _ _ _ Rs) as [A D]. specialize (A eq_refl).
    destruct D as [D _]. specialize (D eq_refl). split.
    + intros fd k (_ & r & G & P). destruct (D _ _ _ G P) as [u Hu]. cbn. rewrite (A fd), G, P, Hu.
      destruct (read_ok_holds _ _ _ Hu) as (t & Ht & ->). eauto.
    + intros fd X. cbn. rewrite (A fd). destruct (dget (it_redirs it) fd) as [r|] eqn:G; [|reflexivity].
      destruct (r_pipe r) as [[|a|k]|] eqn:P; try reflexivity. exfalso. apply (X k). split; [exact B|eauto].
  - assert (W1 : well_formed its1).
    { unfold well_formed in *. rewrite Forall_forall in *. intros it' Hin. apply In_nth_error in Hin as [n Hn].
      destruct (Forall2_nth' _ _ _ F' _ _ Hn) as (it & Hit & [_ S]). rewrite S. apply W. eapply nth_error_In; eauto. }
    split.
    + intros k (it & fd & Hin & Cp). apply (unlink_fold _ W1). apply In_nth_error in Hin as [n Hn].
      destruct (Forall2_nth _ _ _ F' _ _ Hn) as (it' & Hit & S). exists it', fd. split; [eapply nth_error_In; eauto|]. now apply (same_captures _ _ S).
    + intros k X. apply (unlink_fold _ W1). intros it' fd Hin Cp. apply In_nth_error in Hin as [n Hn].
      destruct (Forall2_nth' _ _ _ F' _ _ Hn) as (it & Hit & S). apply (X it fd); [eapply nth_error_In; eauto|]. now apply (same_captures _ _ S).
Qed.

Lemma finish_ok_iff f its : well_formed its ->
  (snd (finish f its) = None <-> forall it fd k, In it its -> captures it fd k -> exists t, holds f k t).
Proof.
  intros W. unfold finish. split.
  - destruct (read_all f its) as [its1 [x|]] eqn:E; [discriminate|]. intros _ it fd k Hin Cp.
    assert (X : finish f its = (fold_left finish_unlink its1 f, its1, None)) by (unfold finish; now rewrite E).
    destruct (finish_recorded _ _ _ _ W X) as (L & R & _). apply In_nth_error in Hin as [n Hn].
    destruct (nth_error its1 n) as [it'|] eqn:N2.
    + destruct (R n it it' Hn N2) as [A _]. destruct (A _ _ Cp) as (t & Ht & _). eauto.
    + apply nth_error_None in N2. assert (n < List.length its) by (apply nth_error_Some; congruence). lia.
  - intros H. enough (X : snd (read_all f its) = None). { destruct (read_all f its) as [a [x|]]; [discriminate|reflexivity]. }
    revert W H. induction its as [|it its IH]; intros W H; [reflexivity|]. unfold well_formed in W. inversion W as [|? ? Nd W2]; subst. cbn.
    destruct (finish_read f it) as [it1 e] eqn:E.
    assert (e = None) as ->.
    { unfold finish_read in E. destruct (it_base it) eqn:B; [congruence|].
      destruct (read_strings f (it_redirs it) (it_content it)) as [c e'] eqn:Rs. injection E as _ <-.
      destruct (read_strings_spec f _ Nd _ _ _ Rs) as [_ D]. apply D. intros fd r k G P.
      destruct (H it fd k) as [t Ht]; [now left|split; [exact B|eauto]|]. rewrite (read_holds _ _ _ Ht). eauto. }
    specialize (IH W2). destruct (read_all f its) as [its1 e1]. cbn. apply IH. intros it' fd k Hin. apply H. now right.
Qed.
(** A failed finish removes no file. *)
Lemma finish_failed_keeps f its f' its' x : finish f its = (f', its', Some x) -> f' = f.
Proof. unfold finish. destruct (read_all f its) as [a [y|]]; intros H; [now injection H|discriminate]. Qed.

(** remove_output_files *)
Lemma unlink_all_ok ks : forall f, NoDup ks -> (forall k, In k ks -> f k <> None) ->
  exists f', unlink_all f ks = (f', None) /\ forall j, f' j = if existsb (Nat.eqb j) ks then None else f j.
Proof.
  induction ks as [|k ks IH]; cbn; intros f Nd Ex; [exists f; auto|].
  inversion Nd as [|? ? Hn Nd']; subst. destruct (f k) eqn:E; [|exfalso; now apply (Ex k); auto].
  destruct (IH (fs_rm f k)) as (f' & -> & H); [exact Nd'| |].
  { intros j Hj. unfold fs_rm. destruct (Nat.eqb_spec j k) as [->|]; [contradiction|apply Ex; auto]. }
  exists f'. split; [reflexivity|]. intros j. rewrite H. unfold fs_rm. destruct (j =? k) eqn:J; cbn; [now destruct (existsb _ ks)|reflexivity].
Qed.
Lemma unlink_all_dup ks1 k ks2 ks3 : forall f, snd (unlink_all f (ks1 ++ k :: ks2 ++ k :: ks3)) = Some FileNotFoundError.
Proof.
  assert (Gone : forall ks f, f k = None -> snd (unlink_all f (ks ++ k :: ks3)) = Some FileNotFoundError).
  { induction ks as [|j ks IH]; cbn; intros f H; [now rewrite H|]. destruct (f j); [|reflexivity]. apply IH. unfold fs_rm. now destruct (k =? j). }
  induction ks1 as [|j ks1 IH]; cbn; intros f.
  - destruct (f k); [|reflexivity]. apply Gone. unfold fs_rm. now rewrite Nat.eqb_refl.
  - destruct (f j); [apply IH|reflexivity].
Qed.
Lemma unlink_all_app a : forall f b, unlink_all f (a ++ b) = let '(f1, e) := unlink_all f a in match e with Some x => (f1, Some x) | None => unlink_all f1 b end.
Proof. induction a as [|k a IH]; cbn; intros f b; [reflexivity|]. destruct (f k); [apply IH|reflexivity]. Qed.
Definition all_outputs (its : list item) : list nat := flat_map (fun it => dvals (output_files it)) its.
Lemma remove_is_unlink its : forall f, remove_output_files f its = unlink_all f (all_outputs its).
Proof.
  induction its as [|it its IH]; cbn; intros f; [reflexivity|]. rewrite unlink_all_app.
  destruct (unlink_all f (dvals (output_files it))) as [f1 [x|]]; [reflexivity|apply IH].
Qed.
Lemma output_files_In it k : NoDup (dkeys (it_redirs it)) -> In k (dvals (output_files it)) <-> exists fd, saves it fd k.
Proof.
  intros Nd. unfold output_files, saves, dvals. destruct (it_base it).
  { cbn. split; [tauto|intros (? & ? & _); discriminate]. }
  rewrite in_map_iff. split.
  - intros ([fd k'] & <- & H). apply in_flat_map in H as ([fd' r] & Hin & H). cbn in H.
    destruct (r_pipe r) as [[n|n|n]|] eqn:P; cbn in H; try tauto. destruct H as [H|[]]. injection H as <- <-.
    exists fd'. split; [reflexivity|]. exists r. split; [now apply In_dget|exact P].
  - intros (fd & _ & r & G & P). exists (fd, k). split; [reflexivity|]. apply in_flat_map. exists (fd, r). split; [now apply dget_In|]. cbn. rewrite P. now left.
Qed.
(** The files of all items, each used by one descriptor of one item. *)
Definition own_files (its : list item) : Prop := NoDup (all_outputs its).
Lemma remove_ok f its : well_formed its -> own_files its -> (forall it fd k, In it its -> saves it fd k -> f k <> None) ->
  exists f', remove_output_files f its = (f', None) /\
    (forall k, (exists it fd, In it its /\ saves it fd k) -> f' k = None) /\
    (forall k, (forall it fd, In it its -> ~ saves it fd k) -> f' k = f k).
Proof.
  intros W Ow Ex. rewrite remove_is_unlink. unfold well_formed in W. rewrite Forall_forall in W.
  assert (I : forall k, In k (all_outputs its) <-> exists it fd, In it its /\ saves it fd k).
  { intros k. unfold all_outputs. rewrite in_flat_map. split.
    - intros (it & Hin & H). apply output_files_In in H as [fd H]; [eauto|auto].
    - intros (it & fd & Hin & H). exists it. split; [exact Hin|]. apply output_files_In; eauto. }
  destruct (unlink_all_ok (all_outputs its) f Ow) as (f' & E & H).
  { intros k Hk. apply I in Hk as (it & fd & Hin & S). eauto. }
  exists f'. split; [exact E|]. split; intros k X; rewrite H.
  - apply I in X. destruct (existsb _ _) eqn:Q; [reflexivity|]. exfalso. apply not_true_iff_false in Q. apply Q. apply existsb_exists. exists k. split; [exact X|apply Nat.eqb_refl].
  - destruct (existsb _ _) eqn:Q; [|reflexivity]. apply existsb_exists in Q as (j & Hj & J). apply Nat.eqb_eq in J as ->.
    apply I in Hj as (it & fd & Hin & S). now destruct (X it fd Hin).
Qed.
Lemma nodup_split {A} (l : list A) (dec : forall x y : A, {x = y} + {x <> y}) : ~ NoDup l -> exists k a b c, l = a ++ k :: b ++ k :: c.
Proof.
  induction l as [|x l IH]; intros H; [exfalso; apply H; constructor|].
  destruct (in_dec dec x l) as [Hin|Hn].
  - apply in_split in Hin as (b & c & ->). exists x, [], b, c. reflexivity.
  - destruct IH as (k & a & b & c & ->); [intros Nd; apply H; now constructor|]. exists k, (x :: a), b, c. reflexivity.
Qed.
Lemma remove_shared f its : ~ own_files its -> snd (remove_output_files f its) = Some FileNotFoundError.
Proof.
  intros H. rewrite remove_is_unlink. destruct (nodup_split _ Nat.eq_dec H) as (k & a & b & c & E). rewrite E. apply unlink_all_dup.
Qed.
(** Two different items using one TMP file. *)
Lemma shared_not_own its n m it1 it2 fd1 fd2 k : well_formed its -> n <> m -> nth_error its n = Some it1 -> nth_error its m = Some it2 ->
  saves it1 fd1 k -> saves it2 fd2 k -> ~ own_files its.
Proof.
  intros W Ne N1 N2 S1 S2. unfold own_files.
  assert (Gen : forall its n m it1 it2, well_formed its -> n < m -> nth_error its n = Some it1 -> nth_error its m = Some it2 ->
     (exists fd, saves it1 fd k) -> (exists fd, saves it2 fd k) -> ~ NoDup (all_outputs its)).
  { clear. induction its as [|it its IH]; intros n m it1 it2 W L N1 N2 S1 S2 Nd; [destruct n; discriminate|].
    unfold well_formed in W. inversion W as [|? ? W1 W2]; subst. unfold all_outputs in Nd; cbn in Nd. fold (all_outputs its) in Nd.
    destruct m as [|m]; [lia|]. cbn in N2. destruct n as [|n]; cbn in N1.
    - injection N1 as <-. apply (output_files_In _ k W1) in S1.
      assert (S3 : In k (all_outputs its)).
      { unfold all_outputs. apply in_flat_map. exists it2. pose proof (nth_error_In _ _ N2) as Hin. split; [exact Hin|].
        apply output_files_In; [|exact S2]. rewrite Forall_forall in W2. now apply W2. }
      apply in_split in S1 as (a & b & E). rewrite E, <- app_assoc in Nd. cbn in Nd. apply NoDup_remove_2 in Nd.
      apply Nd. rewrite !in_app_iff. auto.
    - refine (IH n m it1 it2 W2 _ N1 N2 S1 S2 _); [lia|]. clear -Nd. induction (dvals (output_files it)); [exact Nd|]. cbn in Nd. inversion Nd; auto. }
  destruct (Nat.lt_total n m) as [H|[H|H]]; [|contradiction|].
  - exact (Gen _ _ _ _ _ W H N1 N2 (ex_intro _ fd1 S1) (ex_intro _ fd2 S2)).
  - exact (Gen _ _ _ _ _ W H N2 N1 (ex_intro _ fd2 S2) (ex_intro _ fd1 S1)).
Qed.
