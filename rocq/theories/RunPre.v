(** Proofs about starting pipelines, part 2: what holds of the redirects handed
    to a pipeline, and how the callers establish it. *)
From Verif Require Import Py RedirModel RedirSpec RedirProofs Os PerformModel PerformSpec
  PerformProofs RunModel RunSpec RunProofs.
From Coq Require Import Permutation.

(** A redirect in a table stands for a wish. *)
Definition absw (t : tab) (kr : nat * redirect) (kw : nat * (want * N)) : Prop :=
  fst kr = fst kw /\ r_flag (snd kr) = snd (snd kw) /\
  match r_source (snd kr), fst (snd kw) with
  | SInt n, WOfd o => refers t n = Some o
  | SPath p, WPath q => p = q
  | SPIPE, WPipe => True
  | STMP, WTmp | SSTRING, WTmp => True
  | _, _ => False
  end.

Section Pre.
  Variable L : limits.

  Definition entry_ok (i : inkind) (o : bool) (k : nat) (r : redirect) : Prop :=
    match r_source r with
    | SInt n => (n <= 2 -> n = k /\ r_borrowed r = true) /\ (r_borrowed r = false -> k = 0 /\ i = IPiped)
    | SPath p => k <= 2 /\ can_open L p (r_flag r) = true
    | SPIPE => (k = 0 /\ i = IReq /\ is_write (r_flag r) = false) \/
               (k = 1 /\ o = true /\ is_write (r_flag r) = true)
    | STMP | SSTRING => is_write (r_flag r) = true
    | _ => False
    end.

  Record Pre (i : inkind) (o : bool) (t : tab) (rs : redirects) (e : wenv) : Prop := {
    pre_wf : wf_redirects rs;
    pre_abs : Forall2 (absw t) rs e;
    pre_nd : NoDup (source_ints rs);
    pre_0 : dget rs 0 <> None;
    pre_1 : dget rs 1 <> None;
    pre_ent : forall k r, In (k, r) rs -> entry_ok i o k r;
    pre_ask1 : o = true -> exists r, dget rs 1 = Some r /\ r_source r = SPIPE;
    pre_ask0 : i = IReq -> exists r, dget rs 0 = Some r /\ r_source r = SPIPE;
    pre_std : forall n, n <= 2 -> tget t n <> None }.

  Lemma abs_open t rs e : Forall2 (absw t) rs e ->
    forall n, In n (source_ints rs) -> tget t n <> None.
  Proof.
    intros H n Hn. apply in_ints in Hn as [r [Hr Hs]]. apply in_map_iff in Hr as [[k x] [E Hk]].
    cbn in E. subst x. revert Hk. induction H as [|kr kw rs e Ha Hl IH]; cbn; [tauto|].
    intros [->|Hk]; [|auto]. destruct Ha as [_ [_ Ha]]. cbn in Ha. rewrite Hs in Ha.
    destruct kw as [k' [w f]]. destruct w; cbn in Ha; try tauto. unfold refers in Ha.
    destruct (tget t n); [discriminate|discriminate].
  Qed.

  Lemma abs_keys t rs e : Forall2 (absw t) rs e -> dkeys rs = dkeys e.
  Proof.
    induction 1 as [|kr kw rs e Ha Hl IH]; cbn; [reflexivity|].
    destruct Ha as [H _]. rewrite H. f_equal. exact IH.
  Qed.

  Lemma abs_frame t t' rs e :
    Forall2 (absw t) rs e -> (forall n, In n (source_ints rs) -> tget t' n = tget t n) ->
    Forall2 (absw t') rs e.
  Proof.
    intros H. induction H as [|kr kw rs e Ha Hl IH]; intros Hf; constructor.
    - destruct Ha as [A [B C]]. split; [exact A|]. split; [exact B|].
      destruct (r_source (snd kr)) as [|n|p| | | |] eqn:Es; try exact C.
      destruct (fst (snd kw)); try exact C. unfold refers in *. rewrite Hf; [exact C|].
      apply in_ints. exists (snd kr). split; [now left|exact Es].
    - apply IH. intros n Hn. apply Hf. apply in_ints in Hn as [r [Hr Hs]].
      apply in_ints. exists r. split; [now right|exact Hs].
  Qed.

  Lemma abs_dset t rs e k r w :
    Forall2 (absw t) rs e -> absw t (k, r) (k, w) -> Forall2 (absw t) (dset rs k r) (dset e k w).
  Proof.
    intros H Hn. induction H as [|[k1 r1] [k2 w2] rs e Ha Hl IH]; cbn.
    - constructor; [exact Hn|constructor].
    - assert (k1 = k2) by apply Ha. subst k2.
      destruct (Nat.eqb_spec k k1) as [->|]; constructor; auto.
  Qed.

  Lemma In_dset (rs : redirects) k r k' r' :
    NoDup (dkeys rs) -> In (k', r') (dset rs k r) -> (k' = k /\ r' = r) \/ (k' <> k /\ In (k', r') rs).
  Proof.
    intros Hnd Hin.
    assert (G : dget (dset rs k r) k' = Some r') by (apply In_dget; [now apply dset_NoDup|exact Hin]).
    rewrite dget_dset in G. cbn in G. destruct (Nat.eqb_spec k' k) as [->|Hne].
    - left. split; congruence.
    - right. split; [exact Hne|]. now apply dget_In.
  Qed.

  Lemma ints_dset_sub (rs : redirects) k r n :
    NoDup (dkeys rs) -> In n (source_ints (dset rs k r)) -> r_source r = SInt n \/ In n (source_ints rs).
  Proof.
    intros Hnd Hn. apply in_ints in Hn as [x [Hx Hs]]. apply in_map_iff in Hx as [[k' x'] [E Hk]].
    cbn in E. subst x'. apply In_dset in Hk as [[-> ->]|[Hne Hk]]; auto.
    right. apply in_ints. exists x. split; [|exact Hs]. apply in_map_iff. now exists (k', x).
  Qed.

  Lemma source_ints_cons k r (rs : redirects) :
    source_ints ((k, r) :: rs) = match r_source r with SInt n => [n] | _ => [] end ++ source_ints rs.
  Proof. reflexivity. Qed.

  Lemma nodup_dset (rs : redirects) k r :
    NoDup (dkeys rs) -> NoDup (source_ints rs) ->
    (forall n, r_source r = SInt n -> ~ In n (source_ints rs)) ->
    NoDup (source_ints (dset rs k r)).
  Proof.
    induction rs as [|[k1 r1] rs IH]; cbn [dset].
    - intros _ _ _. rewrite source_ints_cons. cbn. rewrite app_nil_r.
      destruct (r_source r); repeat constructor; intros [].
    - intros Hnd Hs Hf. cbn in Hnd. inversion Hnd as [|? ? Hn Hnd']; subst.
      rewrite source_ints_cons in Hs. apply NoDup_app_inv in Hs as [A [B C]].
      assert (Hf' : forall n, r_source r = SInt n -> ~ In n (source_ints rs)).
      { intros n E Hin. apply (Hf n E). rewrite source_ints_cons. apply in_app_iff. auto. }
      destruct (keqb_spec k k1) as [->|Hne]; rewrite source_ints_cons.
      + apply NoDup_app_intro; auto.
        * destruct (r_source r); repeat constructor; intros [].
        * intros x Hx. destruct (r_source r) eqn:E; cbn in Hx; try tauto.
          destruct Hx as [<-|[]]. now apply Hf'.
      + apply NoDup_app_intro; auto. intros x Hx Hy.
        apply ints_dset_sub in Hy as [Hy|Hy]; auto.
        * apply (Hf x Hy). rewrite source_ints_cons. apply in_app_iff. auto.
        * now apply (C x).
  Qed.

  Lemma wf_dset (rs : redirects) r : wf_redirects rs -> r_source r <> SNone -> wf_redirects (dset rs (r_fd r) r).
  Proof.
    intros H Hs. eapply wf_register; [exact H|]. now apply register_ok.
  Qed.

  (** ** Borrowing *)
  Lemma borrow_ints rs : source_ints (borrow rs) = source_ints rs.
  Proof.
    unfold borrow. induction rs as [|[k r] rs IH]; [reflexivity|].
    cbn [map]. rewrite !source_ints_cons. cbn [fst snd borrow1 r_source]. now rewrite IH.
  Qed.
  Lemma borrow_nbs rs : nbs (dvals (borrow rs)) = [].
  Proof.
    induction rs as [|[k r] rs IH]; [reflexivity|]. cbn. destruct (r_source r); exact IH.
  Qed.
  Definition unpiped (i : inkind) : inkind := match i with IReq => IReq | _ => INone end.
  Lemma Pre_borrow i o t rs e : Pre i o t rs e -> Pre (unpiped i) o t (borrow rs) e.
  Proof.
    intros H. destruct H as [Hwf Ha Hn H0 H1 He Ha1 Ha0 Hs]. constructor.
    - now apply wf_borrow.
    - clear -Ha. induction Ha as [|kr kw rs e A Hl IH]; constructor; [|exact IH].
      destruct kr as [k r]. exact A.
    - now rewrite borrow_ints.
    - rewrite borrow_in_force. destruct (dget rs 0); [discriminate|congruence].
    - rewrite borrow_in_force. destruct (dget rs 1); [discriminate|congruence].
    - intros k r Hin. apply in_map_iff in Hin as [[k' r'] [E Hin]]. cbn in E. injection E as <- <-.
      specialize (He k' r' Hin). unfold entry_ok in *. cbn.
      destruct (r_source r'); auto.
      + destruct He as [A B]. split; [|discriminate]. intros X. split; [|reflexivity]. now apply A.
      + destruct He as [[A [-> B]]|He]; [left; auto|right; auto].
    - intros E. destruct (Ha1 E) as [r [Hr Hsr]]. exists (borrow1 r). rewrite borrow_in_force, Hr. auto.
    - intros E. destruct Ha0 as [r [Hr Hsr]]; [destruct i; cbn in E; congruence|].
      exists (borrow1 r). rewrite borrow_in_force, Hr. auto.
    - exact Hs.
  Qed.

  (** ** Frames *)
  Lemma Pre_frame i o t t' rs e :
    Pre i o t rs e -> (forall n, tget t n <> None -> tget t' n = tget t n) -> Pre i o t' rs e.
  Proof.
    intros H Hf. destruct H as [Hwf Ha Hn H0 H1 He Ha1 Ha0 Hs]. constructor; auto.
    - eapply abs_frame; [exact Ha|]. intros n Hx. apply Hf. eapply abs_open; eauto.
    - intros n Hx. rewrite Hf; auto.
  Qed.

  (** ** Replacing the entry of one descriptor *)
  Lemma Pre_set i o i' o' t rs e r w :
    Pre i o t rs e ->
    absw t (r_fd r, r) (r_fd r, w) ->
    r_source r <> SNone ->
    (forall n, r_source r = SInt n -> ~ In n (source_ints rs)) ->
    entry_ok i' o' (r_fd r) r ->
    (forall k x, In (k, x) rs -> k <> r_fd r -> entry_ok i o k x -> entry_ok i' o' k x) ->
    (o' = true -> (r_fd r = 1 /\ r_source r = SPIPE) \/ (r_fd r <> 1 /\ o = true)) ->
    (i' = IReq -> (r_fd r = 0 /\ r_source r = SPIPE) \/ (r_fd r <> 0 /\ i = IReq)) ->
    Pre i' o' t (dset rs (r_fd r) r) (dset e (r_fd r) w).
  Proof.
    intros H Hab Hsn Hfr Hek Hot Hob Hib. destruct H as [Hwf Ha Hn H0 H1 He Ha1 Ha0 Hs].
    pose proof (proj1 Hwf) as Hnd. constructor; auto.
    - now apply wf_dset.
    - now apply abs_dset.
    - now apply nodup_dset.
    - rewrite dget_dset. destruct (keqb 0 (r_fd r)); [discriminate|exact H0].
    - rewrite dget_dset. destruct (keqb 1 (r_fd r)); [discriminate|exact H1].
    - intros k x Hin. apply In_dset in Hin as [[-> ->]|[Hne Hin]]; auto.
    - intros E. rewrite dget_dset. cbn. destruct (Hob E) as [[F S]|[F S]].
      + rewrite F. eexists. split; [reflexivity|exact S].
      + destruct (Ha1 S) as [x [Hx Sx]]. destruct (r_fd r) as [|[|m]]; [|congruence|]; eauto.
    - intros E. rewrite dget_dset. cbn. destruct (Hib E) as [[F S]|[F S]].
      + rewrite F. eexists. split; [reflexivity|exact S].
      + destruct (Ha0 S) as [x [Hx Sx]]. destruct (r_fd r) as [|m]; [congruence|]; eauto.
  Qed.

  Definition pipe_out : redirect := mkRedirect 1 SPIPE out_flags default_mode None false.
  Definition pipe_in : redirect := mkRedirect 0 SPIPE O_RDONLY default_mode None false.
  Definition fed (n : nat) : redirect := mkRedirect 0 (SInt n) O_RDONLY default_mode None false.

  Lemma Pre_ask1 i o t rs e : Pre i o t rs e -> Pre i true t (dset rs 1 pipe_out) (ask_stdout e).
  Proof.
    intros H. unfold ask_stdout.
    apply (Pre_set i o i true t rs e pipe_out (WPipe, out_flags) H); cbn; auto; try discriminate.
    - repeat split.
    - intros k x Hin Hne Hk. unfold entry_ok in *. destruct (r_source x); auto.
      destruct Hk as [Hk|[-> _]]; [now left|congruence].
  Qed.
  Lemma Pre_ask0 i o t rs e : Pre i o t rs e -> Pre IReq o t (dset rs 0 pipe_in) (ask_stdin e).
  Proof.
    intros H. unfold ask_stdin.
    apply (Pre_set i o IReq o t rs e pipe_in (WPipe, O_RDONLY) H); cbn; auto; try discriminate.
    - repeat split.
    - intros k x Hin Hne Hk. unfold entry_ok in *. destruct (r_source x); auto.
      + destruct Hk as [A B]. split; [exact A|]. intros E. destruct (B E). congruence.
      + destruct Hk as [[-> _]|Hk]; [congruence|now right].
  Qed.
  Lemma Pre_feed i o t rs e n k : Pre i o t rs e ->
    ~ In n (source_ints rs) -> 2 < n -> refers t n = Some (OPipeR k) ->
    Pre IPiped o t (dset rs 0 (fed n)) (feed_stdin e k).
  Proof.
    intros H Hn H2 Hr. unfold feed_stdin.
    apply (Pre_set i o IPiped o t rs e (fed n) (WOfd (OPipeR k), O_RDONLY) H); cbn; auto; try discriminate.
    - repeat split. cbn. exact Hr.
    - intros m E. injection E as <-. exact Hn.
    - split; [lia|]. auto.
    - intros k0 x Hin Hne Hk. unfold entry_ok in *. destruct (r_source x); auto.
      + destruct Hk as [A B]. split; [exact A|]. intros E. destruct (B E). congruence.
      + destruct Hk as [[-> _]|Hk]; [congruence|now right].
  Qed.

  (** ** User redirects *)
  Lemma Pre_override i o t rs e crs :
    Pre i o t rs e -> Forall (fun kr => r_fd (snd kr) = fst kr) crs ->
    Forall (redirect_clean (can_open L) i o) crs ->
    Pre i o t (fold_left (fun d r => dset d (r_fd r) r) (dvals crs) rs) (override e (dvals crs)).
  Proof.
    revert rs e. induction crs as [|[k r] crs IH]; intros rs e H Hf Hc; [exact H|].
    inversion Hf as [|? ? Hf1 Hf2]; subst. inversion Hc as [|? ? Hc1 Hc2]; subst. cbn.
    apply IH; auto. destruct Hc1 as [C0 [C1 Hk]]. cbn in C0, C1, Hk.
    apply (Pre_set i o i o t rs e r (wish r) H); auto.
    - unfold wish. split; [reflexivity|]. split; [reflexivity|]. cbn.
      destruct (r_source r); auto; tauto.
    - destruct (r_source r); try discriminate. tauto.
    - intros n E. rewrite E in Hk. tauto.
    - unfold entry_ok. destruct (r_source r); auto; tauto.
    - intros ->. right. split; [|reflexivity]. intros E. specialize (C1 E). discriminate.
    - intros ->. right. split; [|reflexivity]. intros E. specialize (C0 E). discriminate.
  Qed.
End Pre.
