(** Lemmas for C112. *)
From Verif Require Import Py RedirModel Os PerformModel PerformSpec RunModel RunSpec RunTopSpec RunEnds IterModel IterSpec IterProofs NetModel NetSpec NetProofs NetTop LeaveSpec SyncModel SyncSpec.

Lemma within_runs p : within_loop p <-> loop_runs p = true.
Proof.
  split; [intros W; induction W as [| |w p _ IH|p|p]; cbn [loop_runs starts_in_loop]; try reflexivity; [now rewrite IH|apply orb_true_r|apply orb_true_r]|].
  induction p as [| | |w p IH]; cbn [loop_runs]; [discriminate|constructor|constructor|]. intros E. apply orb_true_iff in E as [E|E]; [constructor; auto|].
  destruct w; cbn in E; try discriminate; [apply in_function_of_plus|apply in_function_of_await].
Qed.
Lemma waits_through w : waits_for_output w <-> through_loop w = true.
Proof. unfold waits_for_output. destruct w; cbn; split; intros X; auto; try discriminate; destruct X as [X|[X|X] ]; discriminate. Qed.

Section Use.
  Variable H : Type.
  Variable h_wants : H -> bool.
  Variable h_event : H -> bytes -> H * bool.
  Variable h_next h_resume : H -> H * outcome.
  Variable h_open : H -> bool.
  Variables np cap : nat.
  Variable fds : list nat.
  Variable sees : list (nat -> option ofd).
  Variable shell : tab.
  Variables x K : nat.
  Notation step := (nstep H h_wants h_event h_next h_resume h_open np cap fds sees shell x K).
  Notation steps := (nsteps H h_wants h_event h_next h_resume h_open np cap fds sees shell x K).
  Notation ust w p := (ustep H step w p).
  Notation usts w p := (usteps H step w p).
  Lemma allowed_step w p u l : through_loop w && loop_runs p = false -> u_refused u = false ->
    ust w p u l = match step (u_net u) l with Some n => Some (mkU n false) | None => None end.
  Proof. intros A R. unfold ustep. rewrite A, R. destruct l; reflexivity. Qed.
  Lemma allowed_steps w p : through_loop w && loop_runs p = false -> forall ls u, u_refused u = false ->
    usts w p u ls = match steps (u_net u) ls with Some n => Some (mkU n false) | None => None end.
  Proof.
    intros A. induction ls as [|l ls IH]; intros u R; cbn [usteps nsteps]; [destruct u; cbn in *; now subst|]. rewrite (allowed_step w p u l A R).
    destruct (step (u_net u) l) as [n|]; [|reflexivity]. rewrite IH by reflexivity. reflexivity.
  Qed.
  Lemma refused_steps w p : through_loop w && loop_runs p = true -> forall ls u t, usts w p u ls = Some t ->
    steps (u_net u) (filter (fun l => negb (asks l)) ls) = Some (u_net t) /\ u_refused t = u_refused u || existsb asks ls.
  Proof.
    intros A. induction ls as [|l ls IH]; intros u t; cbn [usteps filter existsb]; [intros E; injection E as <-; split; [reflexivity|now rewrite orb_false_r]|].
    unfold ustep at 1. destruct l as [i|m| | |ok]; cbn [asks negb];
      try (cbn [nsteps]; destruct (step (u_net u) _) as [n|]; [|discriminate]; intros E; exact (IH _ _ E)).
    rewrite A. destruct (u_refused u) eqn:R; [discriminate|]. intros E. destruct (IH _ _ E) as [E1 E2]. split; [exact E1|]. rewrite E2. reflexivity.
  Qed.
End Use.

(** An iteration nobody asks. *)
Section Net.
  Variable H : Type.
  Variable h_wants : H -> bool.
  Variable h_event : H -> bytes -> H * bool.
  Variable h_next h_resume : H -> H * outcome.
  Variable h_open : H -> bool.
  Variables np cap : nat.
  Variable fds : list nat.
  Variable sees : list (nat -> option ofd).
  Variable shell : tab.
  Variables x n : nat.
  Notation K := (np + n).
  Notation see i := (nth i sees (fun _ => None)).
  Notation step := (nstep H h_wants h_event h_next h_resume h_open np cap fds sees shell x K).
  Notation steps := (nsteps H h_wants h_event h_next h_resume h_open np cap fds sees shell x K).
  Notation rst := (rstep H h_wants h_event h_next h_resume h_open true).
  Hypothesis Hlen : List.length sees = S n.
  Hypothesis Hin0 : forall k, see 0 0 = Some (OPipeR k) -> k < np.
  Hypothesis HinS : forall j, j < n -> see (S j) 0 = Some (OPipeR (np + j)).
  Hypothesis Hout : forall i, i <= n -> see i 1 = Some (OPipeW (np + i)).

  Lemma proc_rd s i s' : i <= n -> proc_step H h_open np cap fds sees shell x K s i = Some s' ->
    exists d w, n_rd s' = mkR (r_h (n_rd s)) (r_pend (n_rd s) ++ d) w (r_phase (n_rd s)) (r_out (n_rd s)) (r_sent (n_rd s) ++ d) /\
      (d = [] \/ List.length (r_pend (n_rd s)) < cap /\ List.length d = 1).
  Proof.
    intros Hi E. assert (Same : forall r, r = mkR (r_h r) (r_pend r ++ []) (r_wopen r) (r_phase r) (r_out r) (r_sent r ++ []) :> rstate H) by (intros [? ? ? ? ? ?]; cbn; now rewrite !app_nil_r).
    unfold proc_step in E. destruct (nth i (n_procs s) None) as [q|] eqn:Eq; [|discriminate]. pose proof (nth_some_lt _ _ _ Eq) as Lt. destruct q as [f|b f|ok].
    - exists [], (r_wopen (n_rd s)). split; [|now left]. rewrite <- Same. destruct i as [|j].
      + destruct (see 0 0) as [ [?|k'|?|? ?|?]|] eqn:E0; try (destruct (n_in s); injection E as <-; reflexivity); try (injection E as <-; reflexivity).
        assert (Ek : k' < np) by now apply Hin0. unfold ours in E. destruct (Nat.leb_spec np k'); [lia|]. destruct (n_in s); injection E as <-; reflexivity.
      + rewrite (HinS j) in E by lia. unfold ours in E. destruct (Nat.leb_spec np (np + j)); [|lia]. unfold content in E. assert (Nk : (np + j =? K) = false) by (apply Nat.eqb_neq; lia). rewrite Nk in E. destruct (n_pipes s (np + j)).
        * destruct (writer_left _ _ _ _ _ _ s _ _); [discriminate|]. injection E as <-. reflexivity.
        * injection E as <-. cbn. unfold pop. rewrite Nk. reflexivity.
    - rewrite Hout in E by lia. unfold ours in E. destruct (Nat.leb_spec np (np + i)); [|lia]. destruct (negb _).
      { injection E as <-. exists [], (r_wopen (n_rd s)). split; [cbn; apply Same|now left]. }
      destruct (Nat.ltb_spec (List.length (content H K s (np + i))) cap) as [Lc|]; [|discriminate]. injection E as <-. unfold push, content in *.
      destruct (Nat.eqb_spec (np + i) K) as [Ei|Ne]; cbn.
      + exists [b], (r_wopen (n_rd s)). split; [reflexivity|]. right. split; [exact Lc|reflexivity].
      + exists [], (r_wopen (n_rd s)). split; [apply Same|now left].
    - injection E as <-. exists [], (r_wopen (n_rd s) && writer_left H h_open fds sees shell x s (set_nth (n_procs s) i None) K). split; [|now left]. cbn. now rewrite !app_nil_r.
  Qed.

  (** [X]: what is special about the reader. *)
  Variable X : rstate H -> Prop.
  Hypothesis X_feed : forall r d w, X r -> X (mkR (r_h r) (r_pend r ++ d) w (r_phase r) (r_out r) (r_sent r ++ d)).
  Variable RI : rstate H -> Prop.
  Hypothesis RI_step : forall r l r', RI r -> rst r l = Some r' -> RI r'.
  Hypothesis X_read : forall r m r', RI r -> r_phase r = PIdle -> X r -> rst r (LReadable m) = Some r' -> X r' /\ r_phase r' = PIdle.
  Definition unasked (s : net H) : Prop := r_phase (n_rd s) = PIdle /\ r_out (n_rd s) = [] /\ List.length (r_pend (n_rd s)) <= cap /\ X (n_rd s).
  Lemma unasked_step s l s' : List.length (n_procs s) = S n -> RI (n_rd s) -> asks l = false -> unasked s -> step s l = Some s' -> unasked s'.
  Proof.
    intros Ln R A (P & O & B & HX) E. unfold nstep in E. destruct (negb (may H s l)); [discriminate|]. destruct l as [i|m| | |ok]; cbn [asks reader_label] in *; try discriminate.
    - assert (Hi : i <= n).
      { unfold proc_step in E. destruct (nth i (n_procs s) None) eqn:Eq; [|discriminate]. apply nth_some_lt in Eq. lia. }
      destruct (proc_rd s i s' Hi E) as (d & w & Rr & D). unfold unasked. rewrite Rr. cbn [r_phase r_out r_pend]. repeat split; auto. rewrite app_length. destruct D as [->|[? ?] ]; cbn [List.length]; lia.
    - destruct (rst (n_rd s) (LReadable m)) as [r'|] eqn:Er; [|discriminate]. injection E as <-. destruct (X_read _ _ _ R P HX Er) as [X1 X2]. split; [exact X2|]. cbn [n_rd].
      cbn [rstep] in Er. destruct (readable _ _ _); [|discriminate]. destruct (h_wants _).
      + destruct (read_ok _ _ _); [|discriminate]. destruct (h_event _ _). injection Er as <-. cbn [r_out r_pend]. repeat split; auto. rewrite skipn_length. lia.
      + destruct (h_event _ _). injection Er as <-. repeat split; auto.
    - unfold rstep in E. rewrite P in E. discriminate.
    - unfold rstep in E. rewrite P in E. discriminate.
  Qed.
End Net.
