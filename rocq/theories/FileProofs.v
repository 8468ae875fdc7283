(** Proofs about files. *)
From Verif Require Import Py RedirModel FileModel FileSpec.

Lemma path_eqb_spec a b : reflect (a = b) (path_eqb a b).
Proof.
  destruct a as [s|i], b as [t|j]; cbn; try (constructor; congruence).
  - destruct (String.eqb_spec s t); constructor; congruence.
  - destruct (Nat.eqb_spec i j); constructor; congruence.
Qed.
Lemma fset_same f p c : fset f p c p = Some c.
Proof. unfold fset. destruct (path_eqb_spec p p); congruence. Qed.
Lemma fset_other f p c q : q <> p -> fset f p c q = f q.
Proof. unfold fset. destruct (path_eqb_spec q p); congruence. Qed.
Lemma overwrite_length c pos data : pos <= List.length c -> List.length (overwrite c pos data) = Nat.max (List.length c) (pos + List.length data).
Proof. intros H. unfold overwrite. rewrite !app_length, firstn_length, repeat_length, skipn_length. lia. Qed.
Lemma overwrite_end c data : overwrite c (List.length c) data = c ++ data.
Proof.
  unfold overwrite. rewrite firstn_all, Nat.sub_diag, skipn_all2 by lia. cbn. now rewrite app_nil_r.
Qed.
Lemma skipn_skipn' {A} (x y : nat) (l : list A) : skipn x (skipn y l) = skipn (y + x) l.
Proof. revert l. induction y as [|y IH]; intros l; cbn; [reflexivity|]. destruct l; [now rewrite skipn_nil|apply IH]. Qed.
Lemma overwrite_prefix out old data : overwrite (out ++ skipn (List.length out) old) (List.length out) data = (out ++ data) ++ skipn (List.length (out ++ data)) old.
Proof.
  unfold overwrite. rewrite firstn_app, firstn_all, Nat.sub_diag. cbn [firstn]. rewrite app_nil_r.
  rewrite app_length. replace (List.length out - (List.length out + List.length (skipn (List.length out) old))) with 0 by lia. cbn [repeat app].
  rewrite skipn_app. rewrite skipn_all2 by lia. cbn [app].
  replace (List.length out + List.length data - List.length out) with (List.length data) by lia. rewrite skipn_skipn'.
  rewrite <- app_assoc, app_length. reflexivity.
Qed.
Lemma out_snoc i es e : output_of i (es ++ [e]) = output_of i es ++ match e with FWrite j data => if Nat.eqb j i then data else [] | FOpen _ => [] end.
Proof. unfold output_of. rewrite flat_map_app. cbn. now rewrite app_nil_r. Qed.
Lemma all_snoc es e : all_output (es ++ [e]) = all_output es ++ match e with FWrite _ data => data | FOpen _ => [] end.
Proof. unfold all_output. rewrite flat_map_app. cbn. now rewrite app_nil_r. Qed.

Lemma frun_inv (r : redirect) (P : list fev -> fstate -> Prop) :
  (forall es s e s', P es s -> fstep r s e = Some s' -> P (es ++ [e]) s') ->
  forall es done s s', P done s -> frun r s es = Some s' -> P (done ++ es) s'.
Proof.
  intros STEP. induction es as [|e es IH]; intros done s s' H R; cbn in R.
  - injection R as <-. now rewrite app_nil_r.
  - destruct (fstep r s e) as [s1|] eqn:E; [|discriminate]. replace (done ++ e :: es) with ((done ++ [e]) ++ es) by (now rewrite <- app_assoc).
    apply (IH _ s1); eauto.
Qed.

(** ** Without O_TRUNC and O_APPEND *)
Definition plain (flag : N) : Prop := has flag O_TRUNC = false /\ has flag O_APPEND = false /\ has flag O_WRONLY = true /\ has flag O_CREAT = true.
Lemma stdout_flag p r : to_file p = Ok r -> r_source r = SPath p /\ plain (r_flag r).
Proof. unfold to_file, new_redirect. cbn. intros E. injection E as <-. cbn. repeat split. Qed.
Record pinv (f0 : fs) (p : path) (done : list fev) (s : fstate) : Prop := mkPinv {
  pi_desc : forall i d, f_desc s i = Some d -> d_path d = p /\ d_off d = List.length (output_of i done) /\ d_append d = false /\ d_writable d = true /\ f_fs s p <> None;
  pi_none : forall i, f_desc s i = None -> output_of i done = [];
  pi_low : forall i, List.length (output_of i done) <= List.length (old_content (f_fs s) p);
  pi_old : List.length (old_content f0 p) <= List.length (old_content (f_fs s) p);
  pi_high : List.length (old_content (f_fs s) p) = List.length (old_content f0 p) \/ exists i, List.length (old_content (f_fs s) p) = List.length (output_of i done);
  pi_one : forall i, only i done -> old_content (f_fs s) p = output_of i done ++ skipn (List.length (output_of i done)) (old_content f0 p);
  pi_others : forall q, q <> p -> f_fs s q = f0 q }.
Lemma only_snoc i es e : only i (es ++ [e]) -> only i es /\ match e with FOpen j | FWrite j _ => j = i end.
Proof. unfold only. rewrite Forall_app. intros [A B]. split; [exact A|]. now inversion B. Qed.
Lemma open_content f p flag f' d : plain flag -> sys_open f p flag = (f', Ok d) ->
  d = mkD p 0 false true /\ old_content f' p = old_content f p /\ f' p <> None /\ forall q, q <> p -> f' q = f q.
Proof.
  intros (T & A & W & C). unfold sys_open, old_content. rewrite T, A, W, C. cbn [orb andb]. destruct (f p) as [c|] eqn:E; intros H; injection H as <- <-.
  - rewrite E. repeat split; congruence.
  - rewrite fset_same. repeat split; [congruence|]. intros q Q. now apply fset_other.
Qed.
Lemma pinv_step f0 p r : r_source r = SPath p -> plain (r_flag r) ->
  forall es s e s', pinv f0 p es s -> fstep r s e = Some s' -> pinv f0 p (es ++ [e]) s'.
Proof.
  intros SR PL es s e s' [D N LO OL HI ONE OTH] E. destruct e as [i|i data]; cbn [fstep] in E.
  - destruct (f_desc s i) as [d0|] eqn:Di; [discriminate|]. unfold redirect_open in E. rewrite SR in E.
    destruct (sys_open (f_fs s) p (r_flag r)) as [f' [d|]] eqn:O; [|discriminate]. injection E as <-.
    destruct (open_content _ _ _ _ _ PL O) as (-> & EC & NN & QQ). unfold put_desc. cbn [f_fs f_desc].
    assert (SAME : forall j, output_of j (es ++ [FOpen i]) = output_of j es) by (intros j; rewrite out_snoc; apply app_nil_r).
    constructor; cbn [f_fs f_desc].
    + intros j d. rewrite SAME. destruct (Nat.eqb_spec j i) as [->|Nj].
      * intros H. injection H as <-. cbn. rewrite (N i Di). auto.
      * intros H. destruct (D j d H) as (A1 & A2 & A3 & A4 & A5). auto.
    + intros j. rewrite SAME. destruct (Nat.eqb j i); [discriminate|]. apply N.
    + intros j. rewrite SAME, EC. apply LO.
    + rewrite EC. exact OL.
    + rewrite EC. destruct HI as [H|[j H] ]; [now left|right; exists j; now rewrite SAME].
    + intros j J. apply only_snoc in J as [J _]. rewrite SAME, EC. now apply ONE.
    + intros q Q. rewrite QQ by exact Q. now apply OTH.
  - destruct (f_desc s i) as [d|] eqn:Di; [|discriminate]. destruct (D i d Di) as (A1 & A2 & A3 & A4 & A5).
    unfold sys_write in E. rewrite A4, A3, A1 in E. cbn [negb] in E. destruct (f_fs s p) as [c|] eqn:Fc; [|congruence]. injection E as <-.
    assert (OC : old_content (f_fs s) p = c) by (unfold old_content; now rewrite Fc). rewrite OC in *.
    assert (OI : output_of i (es ++ [FWrite i data]) = output_of i es ++ data) by (rewrite out_snoc, Nat.eqb_refl; reflexivity).
    assert (OJ : forall j, j <> i -> output_of j (es ++ [FWrite i data]) = output_of j es).
    { intros j Nj. rewrite out_snoc. destruct (Nat.eqb_spec i j); [congruence|apply app_nil_r]. }
    assert (NEW : old_content (fset (f_fs s) p (overwrite c (d_off d) data)) p = overwrite c (d_off d) data) by (unfold old_content; now rewrite fset_same).
    pose proof (LO i) as Li. assert (LEN : List.length (overwrite c (d_off d) data) = Nat.max (List.length c) (List.length (output_of i es ++ data))).
    { rewrite overwrite_length by lia. rewrite app_length. lia. }
    constructor; unfold put_desc; cbn [f_fs f_desc].
    + intros j d'. destruct (Nat.eqb_spec j i) as [->|Nj].
      * intros H. injection H as <-. cbn. rewrite OI, app_length, fset_same. repeat split; auto; try lia; discriminate.
      * intros H. destruct (D j d' H) as (B1 & B2 & B3 & B4 & B5). rewrite OJ by exact Nj. repeat split; auto. rewrite fset_same. discriminate.
    + intros j. destruct (Nat.eqb_spec j i) as [->|Nj]; [discriminate|]. rewrite OJ by exact Nj. apply N.
    + intros j. rewrite NEW, LEN. destruct (Nat.eq_dec j i) as [->|Nj]; [rewrite OI; lia|]. rewrite OJ by exact Nj. specialize (LO j). lia.
    + rewrite NEW, LEN. lia.
    + rewrite NEW, LEN. destruct (le_lt_dec (List.length (output_of i es ++ data)) (List.length c)) as [LE|LT].
      * rewrite Nat.max_l by lia. destruct HI as [H|[j H] ]; [now left|]. right. destruct (Nat.eq_dec j i) as [->|Nj].
        -- exists i. rewrite OI. rewrite app_length in *. lia.
        -- exists j. now rewrite OJ.
      * right. exists i. rewrite OI. lia.
    + intros j J. apply only_snoc in J as [J Ej]. subst j. rewrite NEW, A2, (ONE i J), OI. apply overwrite_prefix.
    + intros q Q. rewrite fset_other by exact Q. now apply OTH.
Qed.
Lemma pinv_start f0 p : pinv f0 p [] (fstart f0).
Proof. constructor; cbn; auto; try discriminate; lia. Qed.
Lemma pinv_run f0 p r es s : to_file p = Ok r -> frun r (fstart f0) es = Some s -> pinv f0 p es s.
Proof.
  intros T R. destruct (stdout_flag p r T) as [S F]. apply (frun_inv r (pinv f0 p) (pinv_step f0 p r S F) es [] _ _ (pinv_start f0 p) R).
Qed.

(** ** With O_APPEND *)
Definition appending (flag : N) : Prop := has flag O_TRUNC = false /\ has flag O_APPEND = true /\ has flag O_WRONLY = true /\ has flag O_CREAT = true.
Record ainv (f0 : fs) (p : path) (done : list fev) (s : fstate) : Prop := mkAinv {
  ai_desc : forall i d, f_desc s i = Some d -> d_path d = p /\ d_append d = true /\ d_writable d = true /\ f_fs s p <> None;
  ai_all : old_content (f_fs s) p = old_content f0 p ++ all_output done;
  ai_others : forall q, q <> p -> f_fs s q = f0 q }.
Lemma ainv_step f0 p r : r_source r = SPath p -> appending (r_flag r) ->
  forall es s e s', ainv f0 p es s -> fstep r s e = Some s' -> ainv f0 p (es ++ [e]) s'.
Proof.
  intros SR (T & A & W & C) es s e s' [D AL OTH] E. destruct e as [i|i data]; cbn [fstep] in E.
  - destruct (f_desc s i) as [d0|] eqn:Di; [discriminate|]. unfold redirect_open, sys_open in E. rewrite SR, T, A, W, C in E. cbn [orb andb] in E.
    destruct (f_fs s p) as [c|] eqn:Fc; injection E as <-; unfold put_desc; constructor; cbn [f_fs f_desc]; rewrite ?all_snoc, ?app_nil_r; auto.
    + intros j d. destruct (Nat.eqb j i); [|rewrite Fc; apply D]. intros H. injection H as <-. cbn. repeat split; congruence.
    + intros j d. destruct (Nat.eqb j i); [intros H; injection H as <-; cbn; rewrite fset_same; repeat split; discriminate|].
      intros H. destruct (D j d H) as (B1 & B2 & B3 & B4). congruence.
    + unfold old_content in *. rewrite fset_same. rewrite Fc in AL. exact AL.
    + intros q Q. rewrite fset_other by exact Q. now apply OTH.
  - destruct (f_desc s i) as [d|] eqn:Di; [|discriminate]. destruct (D i d Di) as (A1 & A2 & A3 & A4).
    unfold sys_write in E. rewrite A2, A3, A1 in E. cbn [negb] in E. destruct (f_fs s p) as [c|] eqn:Fc; [|congruence]. injection E as <-.
    unfold put_desc. constructor; cbn [f_fs f_desc].
    + intros j d'. destruct (Nat.eqb_spec j i) as [->|Nj].
      * intros H. injection H as <-. cbn. rewrite fset_same. repeat split; auto; discriminate.
      * intros H. destruct (D j d' H) as (B1 & B2 & B3 & B4). rewrite fset_same. repeat split; auto; discriminate.
    + unfold old_content at 1. rewrite fset_same, overwrite_end, all_snoc. unfold old_content at 1 in AL. rewrite Fc in AL. rewrite AL. now rewrite app_assoc.
    + intros q Q. rewrite fset_other by exact Q. now apply OTH.
Qed.
Lemma ainv_run f0 p r es s : r_source r = SPath p -> appending (r_flag r) -> frun r (fstart f0) es = Some s -> ainv f0 p es s.
Proof.
  intros S F R. apply (frun_inv r (ainv f0 p) (ainv_step f0 p r S F) es [] (fstart f0) s); [|exact R].
  constructor; cbn; [discriminate|now rewrite app_nil_r|auto].
Qed.

(** ** With O_TRUNC, one process *)
Definition truncating (flag : N) : Prop := has flag O_TRUNC = true /\ has flag O_APPEND = false /\ has flag O_WRONLY = true /\ has flag O_CREAT = true.
Record tinv (i : nat) (p : path) (done : list fev) (s : fstate) : Prop := mkTinv {
  ti_desc : forall d, f_desc s i = Some d -> d_path d = p /\ d_off d = List.length (output_of i done) /\ d_append d = false /\ d_writable d = true /\ f_fs s p = Some (output_of i done);
  ti_none : f_desc s i = None -> done = [] \/ ~ only i done }.
Lemma tinv_step i p r : r_source r = SPath p -> truncating (r_flag r) ->
  forall es s e s', (only i es -> tinv i p es s) -> fstep r s e = Some s' -> (only i (es ++ [e]) -> tinv i p (es ++ [e]) s').
Proof.
  intros SR (T & A & W & C) es s e s' I E O. apply only_snoc in O as [O OE]. destruct (I O) as [D N]. destruct e as [j|j data]; subst j; cbn [fstep] in E.
  - destruct (f_desc s i) as [d0|] eqn:Di; [discriminate|]. destruct (N eq_refl) as [->|X]; [|contradiction].
    unfold redirect_open, sys_open in E. rewrite SR, T, A, W, C in E. cbn [orb andb] in E.
    destruct (f_fs s p) as [c|] eqn:Fc; injection E as <-; unfold put_desc; (constructor; cbn [f_fs f_desc]; rewrite Nat.eqb_refl; [|discriminate]);
      intros d H; injection H as <-; cbn; rewrite fset_same; repeat split.
  - destruct (f_desc s i) as [d|] eqn:Di; [|discriminate]. destruct (D d eq_refl) as (A1 & A2 & A3 & A4 & A5).
    unfold sys_write in E. rewrite A4, A3, A1, A5 in E. cbn [negb] in E. injection E as <-. unfold put_desc.
    constructor; cbn [f_fs f_desc]; rewrite Nat.eqb_refl; [|discriminate]. intros d' H. injection H as <-. cbn [d_path d_off d_append d_writable].
    rewrite fset_same, A2, out_snoc, Nat.eqb_refl, app_length, overwrite_end. auto.
Qed.
Lemma trunc_run f0 p r i es s : r_source r = SPath p -> truncating (r_flag r) -> only i es -> es <> [] -> frun r (fstart f0) es = Some s ->
  f_fs s p = Some (output_of i es).
Proof.
  intros S F O NE R.
  pose proof (frun_inv r (fun es s => only i es -> tinv i p es s) (tinv_step i p r S F) es [] (fstart f0) s) as X.
  cbn [app] in X. assert (I0 : only i [] -> tinv i p [] (fstart f0)) by (intros _; constructor; cbn; [discriminate|auto]).
  specialize (X I0 R O) as [D N]. destruct (f_desc s i) as [d|]; [apply (D d eq_refl)|]. destruct (N eq_refl); contradiction.
Qed.
