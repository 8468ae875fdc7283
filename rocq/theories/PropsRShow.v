(** C118: the printed form of redirects. *)
From Coq Require Import Ascii Permutation.
From Verif Require Import Py RedirModel RedirProofs StatusModel StatusSpec StatusProofs RShowModel RShowSpec RShowProofs.
Local Open Scope string_scope.

Lemma wf_perm d : wf_redirects d -> Permutation (map snd d) (by_fd (map snd d)) /\ map r_fd (map snd d) = dkeys d.
Proof.
  intros (_ & F). split; [apply by_fd_perm|]. unfold dkeys. rewrite map_map. induction F as [|kr l [H _] F IH]; [reflexivity|]. cbn. now rewrite H, IH.
Qed.
Lemma dget_of_In (d : redirects) n r : NoDup (dkeys d) -> In (n, r) d -> dget d n = Some r.
Proof.
  intros ND Hin. induction d as [|(k, v) d IH]; [destruct Hin|]. cbn in *. inversion ND as [|? ? H ND']; subst. destruct (Nat.eqb_spec n k) as [->|Hne].
  - destruct Hin as [X|X]; [congruence|]. destruct H. now apply (in_map fst) in X.
  - destruct Hin as [X|X]; [congruence|]. now apply IH.
Qed.
(** Redirects that print alike redirect the same descriptors to the same things. *)
Theorem C118_told : forall tmp tab d e, flag_names tab -> (forall k, ordinary (tmp k)) -> (forall k j, tmp k = tmp j -> k = j) ->
  wf_redirects d -> wf_redirects e -> (forall n r, dget d n = Some r \/ dget e n = Some r -> usual_redirect r) ->
  show_all tmp tab d = show_all tmp tab e ->
  forall n, match dget d n, dget e n with Some a, Some b => same_redirect tab a b | None, None => True | _, _ => False end.
Proof.
  intros tmp tab d e HT Ho Hi Wd We U E.
  assert (US : forall c, wf_redirects c -> (forall n r, dget c n = Some r -> usual_redirect r) -> Forall usual_redirect (by_fd (map snd c))).
  { intros c W H. apply Forall_forall. intros r Hin. apply (Permutation_in _ (Permutation_sym (proj1 (wf_perm c W)))) in Hin. apply in_map_iff in Hin as ((k, v) & <- & Hin).
    apply (H k). apply dget_of_In; [apply W|exact Hin]. }
  pose proof (joined_show tmp tab HT Ho Hi _ _ (US d Wd (fun n r H => U n r (or_introl H))) (US e We (fun n r H => U n r (or_intror H))) E) as F.
  assert (G : forall c c', wf_redirects c -> wf_redirects c' -> forall R : redirect -> redirect -> Prop, (forall a b, R a b -> r_fd a = r_fd b) -> Forall2 R (by_fd (map snd c)) (by_fd (map snd c')) ->
    forall n a, dget c n = Some a -> exists b, dget c' n = Some b /\ R a b).
  { intros c c' W W' R HR F0 n a Ha. pose proof (dget_In _ _ _ Ha) as Hin. assert (Hf : r_fd a = n) by (destruct W as (_ & W); rewrite Forall_forall in W; apply (W _ Hin)).
    apply (in_map snd) in Hin. cbn in Hin. apply (Permutation_in _ (proj1 (wf_perm c W))) in Hin.
    assert (X : exists b, In b (by_fd (map snd c')) /\ R a b).
    { clear - F0 Hin. induction F0 as [|x y l m H F0 IH]; [destruct Hin|]. destruct Hin as [->|Hin]; [exists y; split; [now left|exact H]|].
      destruct (IH Hin) as (b & A & B). exists b. split; [now right|exact B]. }
    destruct X as (b & Hb & Hr). exists b. split; [|exact Hr]. apply (Permutation_in _ (Permutation_sym (proj1 (wf_perm c' W')))) in Hb. apply in_map_iff in Hb as ((k, v) & Hv & Hb). cbn in Hv. subst v.
    assert (k = n); [|subst k; apply dget_of_In; [apply W'|exact Hb] ]. rewrite <- Hf, (HR _ _ Hr). destruct W' as (_ & W'). rewrite Forall_forall in W'. symmetry. apply (W' _ Hb). }
  intros n. destruct (dget d n) as [a|] eqn:Ed.
  - destruct (G d e Wd We _ (fun a b H => proj1 (proj1 H)) F n a Ed) as (b & -> & H). apply H.
  - destruct (dget e n) as [b|] eqn:Ee; [|exact I].
    assert (F' : Forall2 (fun b a => same_redirect tab a b) (by_fd (map snd e)) (by_fd (map snd d))).
    { clear - F. induction F as [|x y l m H F IH]; constructor; [apply H|exact IH]. }
    destruct (G e d We Wd _ (fun a b H => eq_sym (proj1 H)) F' n b Ee) as (a & Ha & _). congruence.
Qed.
Print Assumptions C118_told.

(** The text does not depend on the order in which redirects were added. *)
Theorem C118_order : forall tmp tab d e, wf_redirects d -> wf_redirects e -> (forall n, dget d n = dget e n) -> show_all tmp tab d = show_all tmp tab e.
Proof.
  intros tmp tab d e Wd We H. unfold show_all. rewrite (by_fd_same (map snd d) (map snd e)); [reflexivity| |].
  - rewrite (proj2 (wf_perm d Wd)). apply Wd.
  - apply Permutation_map. apply NoDup_Permutation.
    + apply (NoDup_map_inv fst). apply Wd.
    + apply (NoDup_map_inv fst). apply We.
    + intros (n, r). split; intros X.
      * apply dget_In. rewrite <- H. apply dget_of_In; [apply Wd|exact X].
      * apply dget_In. rewrite H. apply dget_of_In; [apply We|exact X].
Qed.
Print Assumptions C118_order.

(** Flags each bit of which has a name are told exactly. *)
Theorem C118_flags : forall tab f g, each_named tab f -> each_named tab g -> same_named tab f g -> f = g.
Proof.
  assert (K : forall f i, N.land f (2 ^ i) = 0%N <-> N.testbit f i = false).
  { intros f i. split; intros H.
    - apply (f_equal (fun x => N.testbit x i)) in H. rewrite N.land_spec, N.bits_0, N.pow2_bits_true, andb_true_r in H. exact H.
    - apply N.bits_inj. intros j. rewrite N.land_spec, N.bits_0. destruct (N.eq_dec i j) as [<-|Hne]; [now rewrite H|]. now rewrite N.pow2_bits_false, andb_false_r by exact Hne. }
  intros tab f g Hf Hg S. apply N.bits_inj. intros i. destruct (N.testbit f i) eqn:Ef, (N.testbit g i) eqn:Eg; try reflexivity.
  - destruct (Hf i Ef) as (n & Hn). apply K in Eg. apply (S _ _ Hn) in Eg. apply K in Eg. congruence.
  - destruct (Hg i Eg) as (n & Hn). apply K in Ef. apply (S _ _ Hn) in Ef. apply K in Ef. congruence.
Qed.
Print Assumptions C118_flags.

(** What cmd > "p", cmd < "p" and errors = "p" show *)
Theorem C118_usual : forall tmp tab r s, r_source r = SPath (PName s) -> r_mode r = default_mode -> r_pipe r = None -> r_borrowed r = false ->
  (r_fd r = 0 -> r_flag r = 0%N -> show tmp tab r = "0 <-- " ++ s) /\
  (r_fd r = 1 -> r_flag r = 65%N -> show tmp tab r = "1 --> " ++ s) /\
  (r_fd r = 2 -> r_flag r = 65%N -> show tmp tab r = "2 --> " ++ s).
Proof.
  intros tmp tab [fd src fl mo pi bo] s. cbn. intros -> -> -> ->. repeat split; intros -> ->; reflexivity.
Qed.
Print Assumptions C118_usual.

(** What cmd > Redirect("stdout", "p", flags) shows: the names of the flags that are set *)
Theorem C118_listed : forall tmp tab r s, flag_names tab -> r_source r = SPath (PName s) -> r_mode r = default_mode -> r_pipe r = None -> r_borrowed r = false ->
  r_fd r = 1 -> r_flag r <> 65%N -> N.odd (r_flag r) = true ->
  exists l, show tmp tab r = "1 -[" ++ String.concat "," l ++ "]-> " ++ s /\ forall n b, In (n, b) tab -> (In n l <-> N.land (r_flag r) b <> 0%N).
Proof.
  intros tmp tab [fd src fl mo pi bo] s HT. cbn. intros -> -> -> -> -> Hf Ho. exists (map fst (filter (fun e => negb (N.eqb (N.land fl (snd e)) 0)) tab)).
  split; [|intros n b Hin; now apply listed_names].
  assert (J : forall l, joined "," l = String.concat "," l) by (induction l as [|x [|y l] IH]; [reflexivity|reflexivity|cbn [joined String.concat]; cbn [joined String.concat] in IH; now rewrite IH]).
  unfold show, show_flagmode. cbn -[N.land joined append]. apply N.eqb_neq in Hf. rewrite Hf.
  assert (W : N.eqb (N.land fl O_WRONLY) 0 = false).
  { apply N.eqb_neq. intros X. apply (f_equal (fun x => N.testbit x 0)) in X. rewrite N.land_spec, N.bit0_odd, Ho in X. discriminate. }
  rewrite W. cbn [negb joined]. unfold flags_to_string. rewrite J. cbn [List.app joined]. repeat (rewrite ?app_assoc_s; cbn [append]). reflexivity.
Qed.
Print Assumptions C118_listed.

(** dir(os) of CPython 3 on Linux (x86_64) *)
Definition linux_flags : list (string * N) :=
  [("APPEND", 1024); ("ASYNC", 8192); ("CLOEXEC", 524288); ("CREAT", 64); ("DIRECT", 16384); ("DIRECTORY", 65536); ("DSYNC", 4096); ("EXCL", 128); ("LARGEFILE", 0);
   ("NDELAY", 2048); ("NOATIME", 262144); ("NOCTTY", 256); ("NOFOLLOW", 131072); ("NONBLOCK", 2048); ("PATH", 2097152); ("RDONLY", 0); ("RDWR", 2); ("RSYNC", 1052672);
   ("SYNC", 1052672); ("TMPFILE", 4259840); ("TRUNC", 512); ("WRONLY", 1)]%N.
Definition temp_names (k : nat) : string := "/tmp/t" ++ num (N.of_nat k).
Lemma temp_ordinary k : ordinary (temp_names k).
Proof.
  unfold temp_names. split; [|split; [|intros r X; discriminate] ].
  - rewrite every_app. generalize (num_digits (N.of_nat k)). intros D. apply (every_imp _ _ digit_tail) in D. unfold tailc in D. now rewrite D.
  - rewrite every_app. reflexivity.
Qed.
Lemma temp_distinct k j : temp_names k = temp_names j -> k = j.
Proof. intros E. apply (app_cancel "/tmp/t") in E. apply num_same in E. now apply Nnat.Nat2N.inj. Qed.
Lemma linux_names : flag_names linux_flags.
Proof.
  split.
  - cbn. repeat (constructor; [cbn; intuition discriminate|]). constructor.
  - intros n b H. cbn in H. repeat (destruct H as [H|H]; [injection H as <- <-; split; [discriminate|reflexivity]|]). destruct H.
Qed.
Definition two_redirects : redirects :=
  [(1, mkRedirect 1 (SPath (PName "log")) 1089 default_mode None false); (0, mkRedirect 0 (SInt 5) 0 438 (Some (PFd 6)) true)].
Example C118_nonvacuous :
  flag_names linux_flags /\ (forall k, ordinary (temp_names k)) /\ (forall k j, temp_names k = temp_names j -> k = j) /\ wf_redirects two_redirects /\
  (forall n r, dget two_redirects n = Some r -> usual_redirect r) /\
  show_all temp_names linux_flags two_redirects = "(0 <-[m=438]- 5) pipe=6, 1 -[APPEND,CREAT,WRONLY]-> log" /\
  each_named linux_flags 1089.
Proof.
  split; [apply linux_names|]. split; [apply temp_ordinary|]. split; [apply temp_distinct|]. split; [|split; [|split; [reflexivity|] ] ].
  - split; [cbn; repeat (constructor; [cbn; intuition discriminate|]); constructor|]. repeat (constructor; [split; [reflexivity|discriminate]|]). constructor.
  - intros n r H. apply dget_In in H. destruct H as [H|[H|[] ] ]; injection H as <- <-; [|exact I]. cbn. split; [reflexivity|]. split; [reflexivity|]. intros r X. discriminate.
  - intros i Hi. assert (Hl : (i < 11)%N). { destruct (N.lt_ge_cases i 11) as [|Hge]; [assumption|]. rewrite (N.bits_above_log2 1089 i) in Hi; [discriminate|]. eapply N.lt_le_trans; [|exact Hge]. reflexivity. }
    assert (C : (i = 0 \/ i = 6 \/ i = 10 \/ In i [1;2;3;4;5;7;8;9])%N) by (cbn; lia).
    destruct C as [->|[->|[->|C] ] ]; [exists "WRONLY"|exists "CREAT"|exists "APPEND"|]; try (cbn; tauto). exfalso. cbn in C. repeat (destruct C as [<-|C]; [discriminate|]). exact C.
Qed.

(** False of file names that are numbers or contain blanks, and of flags without a name of
    their own: a file named 3 looks like descriptor 3, a file named "x, 2 --> y" like two
    redirects, and O_SYNC like O_DSYNC. *)
Theorem C118_refuted :
  show_all temp_names linux_flags [(1, mkRedirect 1 (SPath (PName "3")) 65 default_mode None false)] = show_all temp_names linux_flags [(1, mkRedirect 1 (SInt 3) 65 default_mode None false)] /\
  show_all temp_names linux_flags [(1, mkRedirect 1 (SPath (PName "x, 2 --> y")) 65 default_mode None false)] =
  show_all temp_names linux_flags [(1, mkRedirect 1 (SPath (PName "x")) 65 default_mode None false); (2, mkRedirect 2 (SPath (PName "y")) 65 default_mode None false)] /\
  show_all temp_names linux_flags [(1, mkRedirect 1 (SPath (PName "x")) 1052673 default_mode None false)] = show_all temp_names linux_flags [(1, mkRedirect 1 (SPath (PName "x")) 4097 default_mode None false)].
Proof. vm_compute. repeat split. Qed.
Print Assumptions C118_refuted.
