(** Model of the signal handler registry, identical in
    /repo/pieshell/signalio/manager_signalfd.py and manager_asyncio.py, and of
    SignalIteratorHandler in /repo/pieshell/signalio/__init__.py.  (Process
    handlers, reaping and the two managers' event sources are in
    WorldModel.v.) *)
From Verif Require Import Py.

(** A filter or an event: a dict from field names to numbers
    (signalio/__init__.py:18,50; a siginfo dict has every field). *)
Definition fields := dict string N.

(** python str ordering as used by [sorted(..., key=lambda item: item[0])] *)
Definition str_le (a b : string) : bool := match String.compare a b with Gt => false | _ => true end.
Fixpoint insert_item (x : string * N) (l : fields) : fields :=
  match l with
  | [] => [x]
  | y :: l' => if str_le (fst x) (fst y) then x :: l else y :: insert_item x l'
  end.
(** manager_signalfd.py:22-24, manager_asyncio.py:17-19 filter_to_key.
    [sorted] is any correct sort (keys of a dict are distinct, so stability does
    not matter); insertion sort is used here. *)
Definition filter_to_key (flt : fields) : fields := fold_right insert_item [] flt.

(** tuples of pairs compare componentwise *)
Fixpoint key_eqb (a b : fields) : bool :=
  match a, b with
  | [], [] => true
  | (k, v) :: a', (k', v') :: b' => String.eqb k k' && N.eqb v v' && key_eqb a' b'
  | _, _ => false
  end.
Lemma key_eqb_spec a b : reflect (a = b) (key_eqb a b).
Proof.
  revert b; induction a as [|[k v] a IH]; intros [|[k' v'] b]; cbn; try (constructor; congruence).
  destruct (String.eqb_spec k k') as [->|]; cbn; [|constructor; congruence].
  destruct (N.eqb_spec v v') as [->|]; cbn; [|constructor; congruence].
  destruct (IH b) as [->|]; constructor; congruence.
Qed.
#[global] Instance Key_fields : Key fields := {| keqb := key_eqb; keqb_spec := key_eqb_spec |}.

(** A handler object: its identity and its filter. *)
Record handler := mkHandler { h_id : nat; h_filter : fields }.
(** manager_*.py signal_handlers *)
Definition registry := dict fields handler.

(** manager_signalfd.py:26-31, manager_asyncio.py:21-26 register *)
Definition register (r : registry) (h : handler) : registry := dset r (filter_to_key (h_filter h)) h.
(** manager_signalfd.py:33-36, manager_asyncio.py:28-31 deregister *)
Definition deregister (r : registry) (h : handler) : res registry :=
  let k := filter_to_key (h_filter h) in
  if dmem r k then Ok (ddel r k) else Err KeyError.

(** manager_signalfd.py:38-42, manager_asyncio.py:33-37 match_signal: a field
    missing from the event raises KeyError. *)
Fixpoint match_signal (ev : fields) (flt : fields) : res bool :=
  match flt with
  | [] => Ok true
  | (k, v) :: flt' => match dget ev k with
                      | None => Err KeyError
                      | Some x => if N.eqb x v then match_signal ev flt' else Ok false
                      end
  end.

(** manager_signalfd.py:71-73, manager_asyncio.py:75-77: the handlers called for
    one event, over a snapshot of the registry.  [raises h ev] is whether
    [h.handle_event(ev)] raises; the handlers called so far are returned with
    the exception that ended the loop, if any. *)
Fixpoint dispatch (raises : handler -> fields -> option exn) (ev : fields) (hs : list handler) : list nat * option exn :=
  match hs with
  | [] => ([], None)
  | h :: hs' =>
      match match_signal ev (h_filter h) with
      | Err e => ([], Some e)
      | Ok false => dispatch raises ev hs'
      | Ok true =>
          match raises h ev with
          | Some e => ([h_id h], Some e)
          | None => let '(l, e) := dispatch raises ev hs' in (h_id h :: l, e)
          end
      end
  end.
(** manager_signalfd.py:62-73, manager_asyncio.py:66-77: all events of a batch;
    an exception leaves both loops. *)
Fixpoint dispatch_all (raises : handler -> fields -> option exn) (evs : list fields) (r : registry) : list (list nat) * option exn :=
  match evs with
  | [] => ([], None)
  | ev :: evs' =>
      let '(l, e) := dispatch raises ev (dvals r) in
      match e with
      | Some x => ([l], Some x)
      | None => let '(ls, e') := dispatch_all raises evs' r in (l :: ls, e')
      end
  end.

(** Registry histories. *)
Inductive rop := RReg (h : handler) | RDereg (h : handler).
(** An operation that raises leaves the registry as it was. *)
Definition rstep (r : registry) (o : rop) : registry :=
  match o with
  | RReg h => register r h
  | RDereg h => match deregister r h with Ok r' => r' | Err _ => r end
  end.

(** ** signalio/__init__.py:26-43 SignalIteratorHandler *)
Inductive fut := FNone | FPending | FDone.
Inductive iphase := Idle | Waiting | Woken.
(** [si_buf] is self.buffer (newest first), [si_fut] self.future; the rest is
    the consumer and what it got. *)
Record sigiter {E : Type} := mkSI { si_buf : list E; si_fut : fut; si_phase : iphase; si_got : list E; si_sent : list E }.
Arguments sigiter : clear implicits.
Arguments mkSI {E}.
Definition si_init {E} : sigiter E := mkSI [] FNone Idle [] [].

(** signalio/__init__.py:31-34 handle_event: the event is buffered before
    set_result, which raises InvalidStateError on a future that is done. *)
Definition si_event {E} (s : sigiter E) (e : E) : sigiter E * option exn :=
  match si_fut s with
  | FNone => (mkSI (e :: si_buf s) FNone (si_phase s) (si_got s) (si_sent s ++ [e]), None)
  | FPending => (mkSI (e :: si_buf s) FDone Woken (si_got s) (si_sent s ++ [e]), None)
  | FDone => (mkSI (e :: si_buf s) FDone (si_phase s) (si_got s) (si_sent s ++ [e]), Some InvalidStateError)
  end.
(** signalio/__init__.py:43 self.buffer.pop(): the oldest event; IndexError on an
    empty buffer is None here. *)
Definition si_pop {E} (s : sigiter E) : option (sigiter E) :=
  match rev (si_buf s) with
  | [] => None
  | e :: r => Some (mkSI (rev r) (si_fut s) Idle (si_got s ++ [e]) (si_sent s))
  end.
Inductive silabel {E : Type} := SiEvent (e : E) | SiNext | SiWake.
Arguments silabel : clear implicits.
(** signalio/__init__.py:39-43 __anext__ *)
Definition si_step {E} (s : sigiter E) (l : silabel E) : option (sigiter E * option exn) :=
  match l with
  | SiEvent e => Some (si_event s e)
  | SiNext =>
      match si_phase s with
      | Idle => match si_buf s with
                | [] => Some (mkSI [] FPending Waiting (si_got s) (si_sent s), None)
                | _ => match si_pop s with Some s' => Some (s', None) | None => Some (s, Some IndexError) end
                end
      | _ => None
      end
  | SiWake =>
      match si_phase s with
      | Woken => match si_pop s with Some s' => Some (s', None) | None => Some (s, Some IndexError) end
      | _ => None
      end
  end.
(** Runs; the exceptions raised on the way are collected. *)
Fixpoint si_steps {E} (s : sigiter E) (ls : list (silabel E)) : option (sigiter E * list exn) :=
  match ls with
  | [] => Some (s, [])
  | l :: ls' => match si_step s l with
                | None => None
                | Some (s', e) => match si_steps s' ls' with
                                  | None => None
                                  | Some (s2, es) => Some (s2, match e with Some x => x :: es | None => es end)
                                  end
                end
  end.

(** signalio/__init__.py:36-37: [async def __aiter__] makes the call return a
    coroutine, which has no __anext__; [async for] requires it (TypeError). *)
Inductive aiter_value := ACoroutine | AHandler.
Definition si_aiter : aiter_value := ACoroutine.
Definition async_for (v : aiter_value) : res unit := match v with ACoroutine => Err TypeError | AHandler => Ok tt end.
