(** C117: the printed form of a running command tells what happened to its process. *)
From Coq Require Import Decimal DecimalString.
From Verif Require Import Py WorldModel WorldSpec WorldProofs WorldMore StatusModel StatusSpec StatusProofs.
Local Open Scope string_scope.

Lemma commas_listed files x : commas (x :: files) = x ++ listed files.
Proof.
  revert x. induction files as [|f r IH]; intros x; [cbn; induction x as [|a x IHx]; [reflexivity|cbn; now rewrite <- IHx]|].
  change (commas (x :: f :: r)) with (x ++ ", " ++ commas (f :: r)). rewrite IH. reflexivity.
Qed.
Lemma app_assoc_s : forall a b c : string, (a ++ b) ++ c = a ++ b ++ c.
Proof. induction a as [|x a IH]; cbn; intros; [reflexivity|now rewrite IH]. Qed.
Lemma alive_running mgr w i pid : reachable mgr w -> i < w_ni w -> i_kind (w_item w i) = KProc pid ->
  (forall c, ~ exited w i c) -> item_running w i = true.
Proof.
  intros R Hi Hk N. rewrite (item_running_proc _ _ _ Hk). pose proof (KI_reach _ _ R) as K.
  destruct (k_fate _ K i pid Hi Hk) as [Ho|(h & e & H1 & _ & _ & _ & H5)].
  - destruct (k_kern _ K _ _ Ho) as [A _]. destruct (k_regitem _ K _ _ A) as (_ & _ & D). now rewrite D.
  - destruct e as [c| | |]; try (now rewrite H5). exfalso. apply (N c). now exists h.
Qed.
(** The process id, and: the exit code and the output files once it has exited; the signal
    that stopped or killed it; nothing more as long as nothing happened to it.  For every
    process in every reachable state, except while the last thing that happened to it was
    that it was continued. *)
Theorem C117_shown_partial : forall mgr w i pid e files,
  reachable mgr w -> i < w_ni w -> i_kind (w_item w i) = KProc pid -> only_children_signals w i ->
  last_happened w i e -> e <> Some CCont ->
  item_repr w i files = Some (told pid e (listed files)).
Proof.
  intros mgr w i pid e files R Hi Hk Hc Hl Ne. unfold item_repr. rewrite Hk.
  pose proof (last_event mgr w i pid R Hi Hk Hc) as El.
  destruct e as [e|]; cbn in Hl.
  - destruct Hl as [h Hh]. assert (Ve : valid_event e = true).
    { pose proof (HV_reach _ _ R i) as X. rewrite Hh in X. apply Forall_app in X as [_ X]. now inversion X. }
    assert (En : e <> CCont) by (intros ->; now apply Ne).
    rewrite Hh, last_of_snoc in El. rewrite El. unfold sigchld_info. rewrite (classify_ok e Ve En). cbn [fst snd].
    destruct e as [c|s core|s|].
    + destruct (exit_reported mgr w i pid c R Hi Hk) as [X _]; [now exists h|]. rewrite X. unfold proc_repr. cbn [ssi_status right_status].
      rewrite commas_listed. unfold told. f_equal. fold (decimal pid). change (num pid) with (decimal pid). f_equal.
      change (num c) with (decimal c). cbn [append]. rewrite !app_assoc_s. reflexivity.
    + rewrite (alive_running mgr w i pid R Hi Hk) by (intros c [h' X]; rewrite Hh in X; apply app_inj_tail in X as [_ X]; discriminate).
      destruct core; unfold proc_repr; cbn [right_code right_status ssi_code ssi_status]; cbn [code_name is_name negb String.eqb]; unfold told, num, decimal; cbn [commas append]; repeat f_equal; cbn [append]; rewrite ?app_assoc_s; reflexivity.
    + rewrite (alive_running mgr w i pid R Hi Hk) by (intros c [h' X]; rewrite Hh in X; apply app_inj_tail in X as [_ X]; discriminate).
      unfold proc_repr; cbn [right_code right_status ssi_code ssi_status]; unfold told, num, decimal; reflexivity.
    + contradiction.
  - rewrite Hl in El. cbn in El. rewrite El, (alive_running mgr w i pid R Hi Hk) by (intros c [h X]; rewrite Hl in X; destruct h; discriminate).
    unfold proc_repr, told. change (num pid) with (decimal pid). f_equal. induction (decimal pid) as [|a x IH]; [reflexivity|]. cbn. now rewrite IH.
Qed.
Print Assumptions C117_shown_partial.
(** So two processes that are shown alike are the same process, and the same happened. *)
Theorem C117_tells : forall pid pid' e e' files files',
  e <> Some CCont -> e' <> Some CCont ->
  told pid e (listed files) = told pid' e' (listed files') -> pid = pid' /\ e = e'.
Proof.
  assert (Sl : forall files, stops (listed files ++ ")")) by (intros [|f r]; reflexivity).
  assert (Nil : forall s, s ++ "" = s) by (induction s as [|a s IH]; [reflexivity|cbn; now rewrite IH]).
  assert (G : forall pid e files, e <> Some CCont -> exists r, told pid e (listed files) = decimal pid ++ r /\ stops r /\
    r = match e with None | Some CCont => "" | Some (CExit c) => " (exit_code=" ++ decimal c ++ listed files ++ ")"
        | Some (CStop s) => " (status=5, signal=" ++ decimal s ++ ")" | Some (CKill s false) => " (status=2, signal=" ++ decimal s ++ ")"
        | Some (CKill s true) => " (status=3, signal=" ++ decimal s ++ ")" end).
  { intros pid e files Ne. eexists. split; [|split; [|reflexivity] ]; destruct e as [[c|s [|]|s|]|]; cbn [told]; try reflexivity; try (now rewrite Nil); try exact Logic.I; now destruct Ne. }
  intros pid pid' e e' files files' Ne Ne' E. destruct (G pid e files Ne) as (r & E1 & S1 & R1), (G pid' e' files' Ne') as (r' & E2 & S2 & R2).
  rewrite E1, E2 in E. destruct (num_inj _ _ _ _ S1 S2 E) as [-> Er]. split; [reflexivity|]. clear E1 E2 E S1 S2. subst r r'.
  assert (T : forall n m s t, stops s -> stops t -> decimal n ++ s = decimal m ++ t -> n = m) by (intros n m s t A B C; exact (proj1 (num_inj n m s t A B C))).
  destruct e as [[c|s [|]|s|]|], e' as [[c'|s' [|]|s'|]|]; try (now destruct Ne); try (now destruct Ne'); try discriminate Er; try reflexivity;
    repeat (injection Er as Er); repeat f_equal;
    match type of Er with decimal ?a ++ _ = decimal ?b ++ _ => refine (T _ _ _ _ _ _ Er) end; try reflexivity; apply Sl.
Qed.
Print Assumptions C117_tells.
(** A process that was stopped and goes on is not shown as one that runs, but as one that
    died of signal 127, dumping core. *)
Theorem C117_continued_refuted : forall mgr w i pid files,
  reachable mgr w -> i < w_ni w -> i_kind (w_item w i) = KProc pid -> only_children_signals w i ->
  last_happened w i (Some CCont) ->
  item_repr w i files = Some (decimal pid ++ " (status=3, signal=127)") /\ item_repr w i files <> Some (told pid (Some CCont) (listed files)).
Proof.
  intros mgr w i pid files R Hi Hk Hc [h Hh].
  assert (X : item_repr w i files = Some (decimal pid ++ " (status=3, signal=127)")).
  { unfold item_repr. rewrite Hk. pose proof (last_event mgr w i pid R Hi Hk Hc) as El. rewrite Hh, last_of_snoc in El. rewrite El.
    rewrite (alive_running mgr w i pid R Hi Hk) by (intros c [h' X]; rewrite Hh in X; apply app_inj_tail in X as [_ X]; discriminate).
    unfold sigchld_info. rewrite continued_wrong. reflexivity. }
  split; [exact X|]. rewrite X. unfold told. intros E. injection E as E.
  assert (Nil : forall s, s ++ "" = s) by (induction s as [|a s IH]; [reflexivity|cbn; now rewrite IH]).
  rewrite <- (Nil (decimal pid)) in E at 2. apply num_inj in E as [_ E]; [discriminate|reflexivity|exact Logic.I].
Qed.
Print Assumptions C117_continued_refuted.
(** The whole of what is printed for the command. *)
Theorem C117_command : forall cmd mgr w i pid e files,
  reachable mgr w -> i < w_ni w -> i_kind (w_item w i) = KProc pid -> only_children_signals w i ->
  last_happened w i e -> e <> Some CCont ->
  command_repr cmd w i files = Some (cmd ++ " as " ++ told pid e (listed files)).
Proof. intros cmd mgr w i pid e files R Hi Hk Hc Hl Ne. unfold command_repr. now rewrite (C117_shown_partial mgr w i pid e files R Hi Hk Hc Hl Ne). Qed.
Print Assumptions C117_command.

Definition at_end (ls : list label) : world := match steps Asyncio w_init ls with Some w => w | None => w_init end.
Definition two_started : list label := [LStart [SProc 10; SProc 211] true false].
Definition one_ended : list label := List.app two_started [LChild 10 (CExit 3); LChild 211 (CStop 20); LSigchld; LReap 10; LReap 211; LReapEnd].
Definition one_goes_on : list label := List.app one_ended [LChild 211 CCont; LSigchld; LReap 211; LReapEnd].
Example C117_nonvacuous :
  forallb (fun ls => match steps Asyncio w_init ls with Some _ => true | None => false end) [two_started; one_ended; one_goes_on] = true /\
  map (fun i => w_hist (at_end one_goes_on) i) [0; 1] = [[CExit 3]; [CStop 20; CCont]] /\
  forallb (fun x => N.eqb (ssi_signo x) SIGCHLD) (i_seen (w_item (at_end one_goes_on) 1)) = true /\
  map (fun i => command_repr "cat" (at_end two_started) i []) [0; 1] = [Some "cat as 10"; Some "cat as 211"] /\
  map (fun i => command_repr "cat" (at_end one_ended) i ["2=/tmp/x"]) [0; 1] = [Some "cat as 10 (exit_code=3, 2=/tmp/x)"; Some "cat as 211 (status=5, signal=20)"] /\
  item_repr (at_end one_goes_on) 1 [] = Some "211 (status=3, signal=127)".
Proof. vm_compute. repeat split. Qed.
