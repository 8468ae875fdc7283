(** Property theorems C01-C05: redirect sets and the child side of
    redirection.  Each is closed by a lemma proved elsewhere. *)
From Verif Require Import Py RedirModel RedirSpec RedirProofs Os PerformModel PerformSpec
  PerformProofs PerformSound.

(** C01.  After any history of operations on a redirect set, the redirect held
    for descriptor [n] is what the history says ([in_force], RedirSpec.v: last
    registration wins, other descriptors untouched), and there is one entry per
    descriptor. *)
Theorem C01_last_registration_wins : forall ops rs rs' n,
  wf_redirects rs -> Forall op_wf ops -> apply_ops rs ops = Ok rs' ->
  NoDup (dkeys rs') /\ dget rs' n = fold_left (in_force n) ops (dget rs n).
Proof. exact (fun ops rs rs' n Hw Ho H =>
  conj (proj1 (proj1 (apply_ops_in_force ops rs rs' n Hw Ho H)))
       (proj2 (apply_ops_in_force ops rs rs' n Hw Ho H))). Qed.
Print Assumptions C01_last_registration_wins.

(** C01, errors: an operation is refused exactly when it removes what is not
    there, and the exception is KeyError. *)
Theorem C01_refused_iff_removing_nothing : forall rs o e,
  wf_redirects rs -> op_wf o ->
  (apply_op rs o = Err e <->
   e = KeyError /\ exists r, o = OpRegister r /\ r_source r = SNone /\ dget rs (r_fd r) = None).
Proof. exact apply_op_fails. Qed.
Print Assumptions C01_refused_iff_removing_nothing.

(** C01, merge: right argument wins. *)
Theorem C01_merge_right_wins : forall a b,
  wf_redirects a -> wf_redirects b ->
  exists c, merge a b = Ok c /\ wf_redirects c /\
    forall n, dget c n = match dget b n with Some r => Some r | None => dget a n end.
Proof. exact merge_spec. Qed.
Print Assumptions C01_merge_right_wins.

(** C01, copying: the copy constructor is the identity. *)
Theorem C01_copy_is_identity : forall rs,
  wf_redirects rs -> new_redirects [IRedirects rs] = Ok rs.
Proof. exact copy_redirects. Qed.
Print Assumptions C01_copy_is_identity.

Example C01_nonvacuous :
  exists rs, default_redirects = Ok rs /\ wf_redirects rs /\
    exists rs', apply_ops rs
      [OpRegister (mkRedirect 1 (SPath (PName "out")) 65 511 None false);
       OpMerge [(3, mkRedirect 3 SPIPE 0 511 None false)];
       OpRegister (mkRedirect 0 SNone 0 511 None false); OpBorrow] = Ok rs' /\
      dget rs' 0 = None /\ List.length rs' = 3.
Proof.
  eexists. split; [reflexivity|]. split.
  - split; [cbn; repeat constructor; cbn; intuition congruence|].
    repeat constructor; cbn; try reflexivity; discriminate.
  - eexists. split; [vm_compute; reflexivity|]. vm_compute. auto.
Qed.

(** C02.  The free descriptor clashes with nothing, and is the least such above
    2. *)
Theorem C02_free_descriptor_is_free : forall rs,
  2 < find_free_fd rs /\
  (forall k r, In (k, r) rs -> r_fd r < find_free_fd rs) /\
  (forall k r n, In (k, r) rs -> r_source r = SInt n -> n < find_free_fd rs).
Proof. exact find_free_fd_above. Qed.
Print Assumptions C02_free_descriptor_is_free.
Theorem C02_free_descriptor_is_least : forall rs m,
  2 < m ->
  (forall k r, In (k, r) rs -> r_fd r < m) ->
  (forall k r n, In (k, r) rs -> r_source r = SInt n -> n < m) ->
  find_free_fd rs <= m.
Proof. exact find_free_fd_least. Qed.
Print Assumptions C02_free_descriptor_is_least.
Example C02_nonvacuous :
  find_free_fd [(0, mkRedirect 0 (SInt 7) 0 511 None false); (5, mkRedirect 5 (SPath (PName "f")) 0 511 None false)] = 8.
Proof. reflexivity. Qed.

(** C03.  Under [performable] (PerformSpec.v) no error occurs, every redirected
    descriptor refers to the wanted open file and survives exec, every other
    descriptor below the limit is closed, and the log descriptor is as it was. *)
Theorem C03_child_has_exactly_its_redirects : forall L logfd maxfd rs t,
  performable L logfd rs t ->
  exists t',
    perform L logfd maxfd rs t = (t', None) /\
    (forall n r, dget rs n = Some r -> tget t' n = option_map (fun o => mkEnt o false) (wanted t r)) /\
    (forall n r, dget rs n = Some r -> wanted t r <> None) /\
    (forall n, dget rs n = None -> n <> logfd -> n < maxfd -> tget t' n = None) /\
    tget t' logfd = tget t logfd.
Proof. exact perform_correct. Qed.
Print Assumptions C03_child_has_exactly_its_redirects.

(** C03, for every table and every redirect set: if no error was swallowed the
    child has exactly what was asked for. *)
Theorem C03_no_error_means_exact : forall L logfd maxfd rs t t',
  wf_redirects rs ->
  perform L logfd maxfd rs t = (t', None) ->
  (forall n r, dget rs n = Some r ->
     wanted t r <> None /\ tget t' n = option_map (fun o => mkEnt o false) (wanted t r)) /\
  (forall n, dget rs n = None -> n <> logfd -> n < maxfd -> tget t' n = None) /\
  NoDup (source_ints rs).
Proof. exact perform_sound. Qed.
Print Assumptions C03_no_error_means_exact.

(** C03 after exec: the program sees exactly those descriptors. *)
Theorem C03_program_sees_exactly : forall L logfd maxfd rs t t' n,
  wf_redirects rs -> perform L logfd maxfd rs t = (t', None) -> n <> logfd -> n < maxfd ->
  refers (exec_tab t') n = match dget rs n with Some r => wanted t r | None => None end.
Proof. exact program_sees. Qed.
Print Assumptions C03_program_sees_exactly.

(** A swap of descriptors 0 and 1 together with a file on 2. *)
Definition swap_tab : tab :=
  [Some (mkEnt (OInit 0) false); Some (mkEnt (OInit 1) false); Some (mkEnt (OInit 2) false);
   Some (mkEnt (OPipeR 0) true); None; None; None; None; None; Some (mkEnt (OInit 9) false)].
Definition swap_rs : redirects :=
  [(0, mkRedirect 0 (SInt 1) 0 511 None true); (1, mkRedirect 1 (SInt 0) 65 511 None true);
   (2, mkRedirect 2 (SPath (PName "log")) 65 511 None false)].
Definition swap_lim : limits := mkLimits 10 (fun _ _ => true).
Example C03_nonvacuous : performable swap_lim 9 swap_rs swap_tab.
Proof.
  constructor.
  - split; [cbn; repeat constructor; cbn; intuition congruence|].
    repeat constructor; cbn; try reflexivity; discriminate.
  - intros r [<-|[<-|[<-|[]]]].
    + left. exists 1. split; [reflexivity|]. vm_compute. discriminate.
    + left. exists 0. split; [reflexivity|]. vm_compute. discriminate.
    + right. exists (PName "log"). repeat split; try (vm_compute; discriminate).
      vm_compute. intuition congruence.
  - vm_compute. repeat constructor; cbn; intuition congruence.
  - vm_compute. lia.
  - vm_compute. lia.
  - intros _. exists 8. vm_compute. repeat split; lia.
Qed.

(** C04 is false of the code: for EVERY descriptor table, two redirects with the
    same source descriptor make the child fail with a swallowed EBADF, before
    any descriptor is connected or closed. *)
Theorem C04_shared_source_refuted : forall L logfd maxfd rs t,
  wf_redirects rs -> ~ NoDup (source_ints rs) ->
  exists t', perform L logfd maxfd rs t = (t', Some (OSError EBADF)) /\
    (forall n, ~ In n (source_ints rs) -> n < find_free_fd rs -> tget t' n = tget t n).
Proof. exact perform_shared_source. Qed.
Print Assumptions C04_shared_source_refuted.
(** The user level case: default redirects plus Redirect("stderr", 1).  The
    command is started with descriptor 1 closed, and 2 still the shell's. *)
Example C04_witness :
  exists rs t', register_all [] [(0, mkRedirect 0 (SInt 0) 0 511 None true);
      (1, mkRedirect 1 (SInt 1) 65 511 None true); (2, mkRedirect 2 (SInt 1) 65 511 None false)] = Ok rs /\
    ~ NoDup (source_ints rs) /\
    perform swap_lim 9 10 rs swap_tab = (t', Some (OSError EBADF)) /\
    refers (exec_tab t') 1 = None /\ refers (exec_tab t') 2 = Some (OInit 2).
Proof.
  eexists. eexists. split; [reflexivity|]. split.
  - cbn. intros H. inversion H as [|? ? _ H1]; subst. inversion H1 as [|? ? Hn _]; subst. apply Hn. now left.
  - split; [vm_compute; reflexivity|]. vm_compute. auto.
Qed.

(** C05 is false of the code: whenever the target is itself the lowest free
    descriptor, the redirect is not installed; the program sees the target
    closed (the file was opened there with close-on-exec). *)
Theorem C05_file_at_lowest_refuted : forall L logfd maxfd r p t,
  r_source r = SPath p -> can_open L p (r_flag r) = true ->
  r_fd r = lowest t -> lowest t < lim L ->
  exists t', perform L logfd maxfd [(r_fd r, r)] t = (t', Some AssertionError) /\
    tget t' (r_fd r) = Some (mkEnt (OFile p (r_flag r)) true) /\
    refers (exec_tab t') (r_fd r) = None.
Proof. exact file_at_lowest. Qed.
Print Assumptions C05_file_at_lowest_refuted.
Example C05_nonvacuous :
  let r := mkRedirect 0 (SPath (PName "in")) 0 511 None false in
  let t := [None; Some (mkEnt (OInit 1) false)] in
  can_open swap_lim (PName "in") (r_flag r) = true /\ r_fd r = lowest t /\ lowest t < lim swap_lim.
Proof. cbn. repeat split; lia. Qed.
(** C05, the part that holds: with an open target that no redirect uses as a
    source, and a spare descriptor, a file redirect takes effect. *)
Theorem C05_file_redirect_partial : forall L logfd maxfd rs t,
  performable L logfd rs t ->
  forall n r p, dget rs n = Some r -> r_source r = SPath p ->
  refers (exec_tab (fst (perform L logfd maxfd rs t))) n = Some (OFile p (r_flag r)).
Proof. exact file_redirect_ok. Qed.
Print Assumptions C05_file_redirect_partial.
