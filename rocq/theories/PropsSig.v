(** C50 and C52: signal handlers. *)
From Verif Require Import Py SigModel SigSpec SigProofs.

(** C52: filters are compared as sets of field = value pairs. *)
Theorem C52_same_key_iff_same_filter : forall f g, wf_filter f -> wf_filter g ->
  (filter_to_key f = filter_to_key g <-> same_filter f g).
Proof. exact key_same. Qed.
Print Assumptions C52_same_key_iff_same_filter.
(** C52: after any history in which handlers with different filters come and go,
    an event reaches exactly the registered handlers whose filter it matches, in
    the order of registration, provided no handler raises. *)
Theorem C52_dispatch_exact_partial : forall ops ev raises, disciplined [] ops ->
  (forall h, In h (live [] ops) -> has_fields ev (h_filter h) /\ raises h ev = None) ->
  exists l, dispatch raises ev (dvals (fold_left rstep ops [])) = (l, None) /\ served ev (live [] ops) l.
Proof. exact registry_dispatch. Qed.
Print Assumptions C52_dispatch_exact_partial.
(** False without these conditions: a handler with the same filter silently
    replaces the earlier one; removing the earlier one then removes the later
    one, whose own removal raises KeyError. *)
Theorem C52_same_filter_refuted : forall ops h g, wf_filter (h_filter h) -> wf_filter (h_filter g) -> same_filter (h_filter h) (h_filter g) -> h <> g ->
  ~ In h (dvals (fold_left rstep (ops ++ [RReg h; RReg g]) [])) /\
  exists r', deregister (fold_left rstep (ops ++ [RReg h; RReg g]) []) h = Ok r' /\ ~ In g (dvals r') /\ deregister r' g = Err KeyError.
Proof.
  intros ops h g Wh Wg S Ne. rewrite fold_left_app. cbn [fold_left rstep]. pose proof (reg_ok_reach ops [] reg_ok_nil) as R.
  split; [now apply evicted|now apply removes_other].
Qed.
Print Assumptions C52_same_filter_refuted.
(** A handler that raises: no handler after it gets the event, no handler gets
    the rest of the batch. *)
Theorem C52_raising_handler_refuted : forall raises ev evs hs1 h hs2 e r,
  dvals r = hs1 ++ h :: hs2 -> match_signal ev (h_filter h) = Ok true -> raises h ev = Some e ->
  Forall (fun g => match_signal ev (h_filter g) <> Err KeyError /\ raises g ev = None) hs1 ->
  exists l, dispatch_all raises (ev :: evs) r = ([l ++ [h_id h]], Some e) /\ incl l (map h_id hs1).
Proof.
  intros raises ev evs hs1 h hs2 e r E M R F. destruct (raising_stops raises ev hs1 h hs2 e M R F) as (l & D & I).
  exists l. split; [|exact I]. cbn. now rewrite E, D.
Qed.
Print Assumptions C52_raising_handler_refuted.

Definition hp (id : nat) (pid : N) : handler := mkHandler id [("ssi_pid"%string, pid)].
Definition ht (id : nat) : handler := mkHandler id [("ssi_signo"%string, 20%N)].
Example C52_nonvacuous :
  let ops := [RReg (ht 0); RReg (hp 1 10); RReg (hp 2 11); RDereg (hp 1 10)] in
  disciplined [] ops /\ live [] ops = [ht 0; hp 2 11] /\
  dispatch (fun _ _ => None) [("ssi_signo"%string, 20%N); ("ssi_pid"%string, 11%N)] (dvals (fold_left rstep ops [])) = ([0; 2], None).
Proof.
  cbn zeta. split; [|vm_compute; auto].
  assert (D : forall a b c d, a <> c -> ~ same_filter [(a, b)] [(c, d)]).
  { intros a b c d N0 S. specialize (S a). cbn in S. rewrite String.eqb_refl in S. destruct (String.eqb_spec a c); congruence. }
  assert (D2 : forall a b d, b <> d -> ~ same_filter [(a, b)] [(a, d)]).
  { intros a b d N0 S. specialize (S a). cbn in S. rewrite String.eqb_refl in S. congruence. }
  cbn. repeat split; unfold wf_filter; cbn; try (repeat constructor; tauto); try tauto;
  repeat match goal with |- forall g, _ \/ _ -> _ => let H := fresh in intros g [<-|H] | H : _ \/ _ |- _ => destruct H as [<-|H] | H : False |- _ => destruct H end;
  cbn; try (apply D; discriminate); try (apply D2; discriminate); try discriminate; auto.
  all: try (intros g [<-|[<-|[]]]; cbn; split; try discriminate; first [apply D; discriminate|apply D2; discriminate]).
  all: try (intros g [<-|[]]; cbn; split; try discriminate; first [apply D; discriminate|apply D2; discriminate]).
Qed.

(** C50, when __anext__ is called directly: the events come out in the order they
    arrived, each once; a waiting consumer is woken by the next event and gets
    it; a consumer that asks gets the oldest event it has not had. *)
Theorem C50_in_order_partial : forall E (ls : list (silabel E)) s es, si_steps si_init ls = Some (s, es) ->
  (exists rest, si_sent s = si_got s ++ rest) /\
  (si_sent s <> si_got s -> si_phase s <> Waiting) /\
  (si_phase s = Waiting -> forall e, exists s', si_step s (SiEvent e) = Some (s', None) /\
      exists s2, si_step s' SiWake = Some (s2, None) /\ si_got s2 = si_got s ++ [e]) /\
  (si_phase s = Idle -> si_sent s <> si_got s -> exists s', si_step s SiNext = Some (s', None) /\ List.length (si_got s') = S (List.length (si_got s))).
Proof. exact @si_in_order. Qed.
Print Assumptions C50_in_order_partial.
(** What is false: once the consumer has been woken, the next event that it is
    not waiting for raises InvalidStateError in the manager (with the
    consequences of C52_raising_handler_refuted); and [async for] raises
    TypeError. *)
Theorem C50_second_event_raises_refuted : forall E (ls : list (silabel E)) s es, si_steps si_init ls = Some (s, es) -> si_phase s = Waiting ->
  forall e1 e2, exists s1 s2 s3, si_step s (SiEvent e1) = Some (s1, None) /\ si_step s1 SiWake = Some (s2, None) /\
    si_step s2 (SiEvent e2) = Some (s3, Some InvalidStateError).
Proof. exact @si_done_after_wait. Qed.
Print Assumptions C50_second_event_raises_refuted.
Theorem C50_async_for_refuted : async_for si_aiter = Err TypeError.
Proof. reflexivity. Qed.
Print Assumptions C50_async_for_refuted.
Example C50_nonvacuous : exists s, si_steps si_init [SiNext; SiEvent 1; SiWake; SiEvent 2; SiEvent 3; SiNext; SiNext] = Some (s, [InvalidStateError; InvalidStateError]) /\ si_got s = [1; 2; 3].
Proof. eexists. split; vm_compute; reflexivity. Qed.
