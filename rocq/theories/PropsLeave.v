(** C96: leaving a loop over a pipeline before its end. *)
From Verif Require Import Py RedirModel Os PerformModel PerformSpec RunModel RunSpec RunTopSpec RunEnds PropsRun IterModel IterSpec IterProofs NetModel NetSpec NetProofs NetTop PropsNet MixSpec LeaveSpec LeaveProofs LeaveTop.

(** C96 is false.  If the programs compute [first ++ rest], at most as many items are
    asked for as [first] has lines but one, and [rest] does not fit into the pipe and
    one read, then whatever happens afterwards the last process is there for ever, and
    the shell keeps the descriptor it reads from open. *)
Theorem C96_too_much_refuted : forall L pf logfd maxfd c cs s s' its x cap progs inp first rest oks q,
  launched L pf logfd maxfd c cs s s' its x ->
  List.length progs = S (List.length cs) -> all_do progs inp (first ++ rest) oks ->
  q < count_occ N.eq_dec first nl -> cap + 1023 < List.length rest ->
  forall ls t, asked ls <= q -> lines_run L logfd maxfd cap s s' its x (net_start line_handler line_init progs inp) ls = Some t ->
  ~ ended (r_out (n_rd t)) /\ li_open (r_h (n_rd t)) = true /\ nth (List.length cs) (n_procs t) None <> None.
Proof.
  intros L pf logfd maxfd c cs s s' its x cap progs inp first rest oks q HL Hl Ha Hq Hb ls t As E.
  destruct (do_facts cs progs inp (first ++ rest) Hl oks Ha) as (ws & cs0 & F1 & F2 & F3 & F4).
  revert E. unfold lines_run. apply (chain_hyps L pf logfd maxfd c cs s s' its x HL progs Hl). intros A1 A2 A3 A4 A5 A6 A7 A8 A9 A10 A11 A12. unfold caller_pipe in *. rewrite A12 in *. intros E.
  set (es := fun i => nth_error oks i) in *. pose (okf := fun _ : nat => false).
  assert (Hokf : False -> forall i, es i = Some false -> okf i = false) by contradiction.
  eapply (stuck_end (s_np s) cap (proc_fds logfd maxfd) (map (item_sees L logfd maxfd) its) (s_tab s') x (List.length cs) A1 A2 A4 A5 first rest q Hq Hb
    (fun u => exists ws cs1, inv line_handler (s_np s) (map (item_sees L logfd maxfd) its) (List.length cs) LInv (first ++ rest) es okf False (others_read progs inp) u ws cs1)); [| | |exact As|exact E].
  - intros u l u' (w1 & c1 & I) Eu.
    destruct (inv_nstep line_handler line_wants line_event line_next line_next li_open (s_np s) cap (proc_fds logfd maxfd) (map (item_sees L logfd maxfd) its) (s_tab s') x (List.length cs) A1 A2 A4 A5 A6 A7 A8 A9 A10 A11 A12 LInv
          (fun r l r' I0 X => LInv_step true r l r' I0 X) l_open_w (first ++ rest) es okf False (others_read progs inp) F3 F4 Hokf u w1 c1 l u' I Eu) as (w2 & c2 & I2 & _). eauto.
  - intros u (w1 & c1 & I). split; [apply I|]. split; [apply I|]. split; [apply I|]. split; [left; exists (w1 (List.length cs)); apply I|].
    intros W. rewrite (i_wopen _ _ _ _ _ _ _ _ _ _ _ _ _ I) in W. unfold live in W. destruct (nth (List.length cs) (n_procs u) None) eqn:En; [discriminate|].
    exists []. rewrite app_nil_r, <- (i_sent _ _ _ _ _ _ _ _ _ _ _ _ _ I). destruct (i_dead _ _ _ _ _ _ _ _ _ _ _ _ _ I (List.length cs) (le_n _) En) as [->|[X _] ]; [now rewrite app_nil_r|lia].
  - exists ws, cs0. apply inv_start; auto; [intros X; contradiction|apply LInv_start|]. intros i p Ei. destruct (F1 i p Ei) as (B1 & B2 & B3). split; [exact B1|]. split; [contradiction|split; [contradiction|exact B3] ].
Qed.
Print Assumptions C96_too_much_refuted.
(** The same if the last program writes that much whatever it reads, and then goes on
    as it likes. *)
Theorem C96_goes_on_refuted : forall L pf logfd maxfd c cs s s' its x cap progs inp p first rest q,
  launched L pf logfd maxfd c cs s s' its x ->
  List.length progs = S (List.length cs) -> nth_error progs (List.length cs) = Some p -> writes_first p (first ++ rest) ->
  q < count_occ N.eq_dec first nl -> cap + 1023 < List.length rest ->
  forall ls t, asked ls <= q -> lines_run L logfd maxfd cap s s' its x (net_start line_handler line_init progs inp) ls = Some t ->
  ~ ended (r_out (n_rd t)) /\ li_open (r_h (n_rd t)) = true /\ nth (List.length cs) (n_procs t) None <> None.
Proof.
  intros L pf logfd maxfd c cs s s' its x cap progs inp p first rest q HL Hl Hp Hw Hq Hb ls t As E.
  revert E. unfold lines_run. apply (chain_hyps L pf logfd maxfd c cs s s' its x HL progs Hl). intros A1 A2 A3 A4 A5 A6 A7 A8 A9 A10 A11 A12. unfold caller_pipe in *. rewrite A12 in *. intros E.
  eapply (stuck_end (s_np s) cap (proc_fds logfd maxfd) (map (item_sees L logfd maxfd) its) (s_tab s') x (List.length cs) A1 A2 A4 A5 first rest q Hq Hb
    (wgood (List.length cs) (first ++ rest))); [| | |exact As|exact E].
  - intros u l u'. apply (wgood_step (s_np s) cap (proc_fds logfd maxfd) (map (item_sees L logfd maxfd) its) (s_tab s') x (List.length cs) A1 A2 A4 A5 A6 A7 A8 A9 A10 A11 A12).
  - intros u. now apply wgood_inv.
  - assert (En : nth (List.length cs) (map Some progs) None = Some p) by (rewrite nth_indep with (d' := Some p) by (rewrite map_length; lia); rewrite map_nth; f_equal; now apply nth_error_nth).
    split; [apply LInv_start|]. cbn. rewrite map_length. split; [exact Hl|]. split; [unfold live; now rewrite En|]. left. exists p, (first ++ rest). auto.
Qed.
Print Assumptions C96_goes_on_refuted.
(** If all of the output fits into the pipe, the processes come to their end without
    anybody reading. *)
Theorem C96_short : forall L pf logfd maxfd c cs s s' its x cap progs inp out oks,
  launched L pf logfd maxfd c cs s s' its x ->
  List.length progs = S (List.length cs) -> all_do progs inp out oks -> Forall careful progs -> 0 < cap -> List.length out <= cap ->
  forall ls t, lines_run L logfd maxfd cap s s' its x (net_start line_handler line_init progs inp) ls = Some t ->
  exists is t', lines_run L logfd maxfd cap s s' its x t (map NProc is) = Some t' /\ forall i, nth i (n_procs t') None = None.
Proof.
  intros L pf logfd maxfd c cs s s' its x cap progs inp out oks HL Hl Ha Hc Hcap Hs ls t E.
  destruct (do_facts cs progs inp out Hl oks Ha) as (ws & cs0 & F1 & F2 & F3 & F4).
  assert (Hall : forall i, i <= List.length cs -> nth_error oks i <> None).
  { assert (Lo : List.length oks = List.length progs) by (clear -Ha; induction Ha; cbn; congruence). intros i Hi. apply nth_error_Some. lia. }
  revert E. unfold lines_run. apply (chain_hyps L pf logfd maxfd c cs s s' its x HL progs Hl). intros A1 A2 A3 A4 A5 A6 A7 A8 A9 A10 A11 A12. unfold caller_pipe in *. rewrite A12 in *. intros E.
  set (es := fun i => nth_error oks i) in *. pose (okf := fun _ : nat => false).
  assert (Hokf : True -> forall i, es i = Some false -> okf i = false) by reflexivity.
  assert (I0 : inv line_handler (s_np s) (map (item_sees L logfd maxfd) its) (List.length cs) LInv out es okf True (others_read progs inp) (net_start line_handler line_init progs inp) ws cs0).
  { apply inv_start; auto; [intros X; contradiction|apply LInv_start|]. intros i q Ei. destruct (F1 i q Ei) as (B1 & B2 & B3). split; [exact B1|]. split; [|split; [auto|exact B3] ].
    intros _. apply careful_heeds. rewrite Forall_forall in Hc. apply Hc. eapply nth_error_In; exact Ei. }
  edestruct (inv_nsteps line_handler line_wants line_event line_next line_next li_open (s_np s) cap (proc_fds logfd maxfd) (map (item_sees L logfd maxfd) its) (s_tab s') x (List.length cs) A1 A2 A4 A5 A6 A7 A8 A9 A10 A11 A12 LInv
          (fun r l r' I0 X => LInv_step true r l r' I0 X) l_open_w out es okf True (others_read progs inp) F3 F4 Hokf ls) as (w1 & c1 & I & _); [exact I0|exact E|].
  exact (all_exit (s_np s) cap (proc_fds logfd maxfd) (map (item_sees L logfd maxfd) its) (s_tab s') x (List.length cs) A1 A2 A4 A5 A6 A7 A8 A9 A10 A11 A12 out es okf True (others_read progs inp) F3 F4 Hokf Logic.I Hall Hcap Hs _ t w1 c1 I (le_n _)).
Qed.
Print Assumptions C96_short.

(** for line in (yes | cat, both writing forever): break.  Programs: one writing "y\n"
    m times and exiting, cat. *)
Fixpoint puts (l : list N) : prog := match l with [] => Exits true | b :: r => put b (puts r) end.
Lemma does_puts l inp : does (puts l) inp l true.
Proof. induction l as [|b l IH]; cbn; constructor. exact IH. Qed.
Lemma careful_puts l : careful (puts l).
Proof. induction l as [|b l IH]; cbn; constructor; [reflexivity|exact IH]. Qed.
Lemma careful_cat : careful cat.
Proof. cofix IH. rewrite (unfold_eq cat). cbn. constructor. intros [b|]; constructor; [reflexivity|exact IH]. Qed.
Definition ys (m : nat) : list N := List.concat (repeat [121; 10]%N m).
Lemma ys_length m : List.length (ys m) = 2 * m.
Proof. unfold ys. induction m as [|m IH]; [reflexivity|]. cbn [repeat List.concat]. rewrite app_length, IH. cbn [List.length]. lia. Qed.
Lemma yes_first m : writes_first yes (ys m).
Proof. unfold ys. induction m as [|m IH]; [constructor|]. cbn [repeat List.concat List.app]. rewrite yes_eq. constructor. constructor. exact IH. Qed.
Example C96_nonvacuous : forall cap,
  launched some_limits (fun _ => true) 63 64 ["echo"%string] [["head"%string]] shell (fst started) started_items started_fd /\
  all_do [puts (ys 2 ++ ys (cap + 512)); cat] [] (ys 2 ++ ys (cap + 512)) [true; true] /\
  writes_first yes (ys 2 ++ ys (cap + 512)) /\
  1 < count_occ N.eq_dec (ys 2) nl /\ cap + 1023 < List.length (ys (cap + 512)) /\
  (exists ls t, asked ls = 1 /\ lines_run some_limits 63 64 4 shell (fst started) started_items started_fd (net_start line_handler line_init [puts (ys 2 ++ ys (4 + 512)); cat] []) ls = Some t /\
     r_out (n_rd t) = [GItem [121%N] ] /\ List.length (filter proc_label ls) = 16).
Proof.
  intros cap. split; [exact started_launched|]. split; [econstructor; [apply does_puts|]; econstructor; [apply does_cat|constructor]|].
  split; [unfold ys; rewrite <- concat_app, <- repeat_app; apply yes_first|]. split; [vm_compute; lia|]. split; [rewrite ys_length; lia|].
  exists (map NProc [0; 0; 0; 0; 1; 1; 1; 1] ++ [NNext; NReadable 2; NWake] ++ map NProc [0; 0; 1; 1; 1; 1; 0; 0]).
  eexists. split; [reflexivity|]. split; [vm_compute; reflexivity|]. now split.
Qed.
Example C96_short_nonvacuous :
  all_do [puts [97; 10]%N; cat] [] [97; 10]%N [true; true] /\ Forall careful [puts [97; 10]%N; cat] /\ List.length [97; 10]%N <= 2.
Proof.
  split; [econstructor; [apply does_puts|]; econstructor; [apply does_cat|constructor]|]. split; [constructor; [apply careful_puts|constructor; [apply careful_cat|constructor] ]|]. cbn. lia.
Qed.
