(** What kinds of things can stand in a pipeline as a function: Function._run,
    /repo/pieshell/pipeline/function.py:86-104, with itertoasync and asyncmap,
    /repo/pieshell/utils/asyncutils.py:14-39, and the functions of
    /repo/pieshell/utils/jsonutils.py:3-11,23-24.  The result is the [fn] the output handler
    runs (MixModel.v).
    Simplifications: exceptions are not caught inside generators and coroutines; an
    exception raised by the call of the function itself, before it returns anything, is
    not modelled here (C76). *)
From Verif Require Import Py IterModel Utf8Model MixModel.

(** No /repo code: python objects as far as function.py looks at them.  A coroutine:
    it awaits a line of the input (None: StopAsyncIteration), returns, or raises. *)
CoInductive coro := CAsk (k : option text -> coro) | CReturn (v : pyval) | CRaise (e : exn).
(** A generator (def with yield): yields a value, yields a coroutine, asks iter(stdin)
    for its next item as a for loop does, or ends. *)
CoInductive sgen := SGive (v : pyval) (k : sgen) | SCoro (c : coro) (k : sgen) | SLoop (k : option text -> sgen) | SEnd (e : iend).
(** An asynchronous generator (async def with yield): asks its input with async for,
    yields, or ends. *)
CoInductive agen := AAsk (k : option text -> agen) | AGive (v : pyval) (k : agen) | AEnd (e : iend).
(** What a function returns: a generator, an asynchronous one, a list (tuple, set, dict,
    ...) of values and coroutines, a string, bytes, a coroutine, an object that cannot
    be iterated over, an object with __aiter__ only, or a pipeline with these lines. *)
Inductive elem := EVal (v : pyval) | ECoro (c : coro).
Inductive obj :=
| OGen (g : sgen) | OAgen (g : agen) | OSeq (l : list elem) | OStr (t : text) | OBytes (b : bytes)
| OCoro (c : coro) | OVal (v : pyval) | OAiter (g : agen) | OPipe (ls : list text).

(** iterio.py:206-217: a line of the input for a coroutine or asynchronous generator *)
Definition decoded (o : option bytes) : res (option text) :=
  match o with None => Ok None | Some b => let* t := decode b in Ok (Some t) end.
(** asyncutils.py:14-27: next() of a generator or list; a coroutine is awaited; then
    asyncutils.py:38-39 with function.py:75-84, convert.  [inr]: while awaiting.
    iterio.py has no LineInputHandler.__iter__: a for loop over it raises TypeError. *)
CoFixpoint sync_fn (g : sgen + coro * sgen) : fn :=
  match g with
  | inl (SGive v k) => match convert v with Ok o => FGive o (sync_fn (inl k)) | Err e => FEnd (ERaise e) end
  | inl (SCoro c k) | inr (c, k) =>
      match c with
      | CAsk f => FAsk (fun o => match decoded o with Ok t => sync_fn (inr (f t, k)) | Err e => FEnd (ERaise e) end)
      | CReturn v => match convert v with Ok o => FGive o (sync_fn (inl k)) | Err e => FEnd (ERaise e) end
      | CRaise e => FEnd (ERaise e)
      end
  | inl (SLoop _) => FEnd (ERaise TypeError)
  | inl (SEnd e) => FEnd e
  end.
(** asyncutils.py:38-39 on an object with __anext__ *)
CoFixpoint async_fn (g : agen) : fn :=
  match g with
  | AAsk f => FAsk (fun o => match decoded o with Ok t => async_fn (f t) | Err e => FEnd (ERaise e) end)
  | AGive v k => match convert v with Ok o => FGive o (async_fn k) | Err e => FEnd (ERaise e) end
  | AEnd e => FEnd e
  end.
(** iter() of a list; of a string: its characters; of bytes: integers, whose str() is *)
Fixpoint seq_gen (l : list elem) : sgen :=
  match l with [] => SEnd EStop | EVal v :: r => SGive v (seq_gen r) | ECoro c :: r => SCoro c (seq_gen r) end.
Definition byte_str (n : N) : text :=
  (if n <? 10 then [48 + n] else if n <? 100 then [48 + n / 10; 48 + n mod 10] else [48 + n / 100; 48 + n / 10 mod 10; 48 + n mod 10])%N.
(** function.py:95-98, wrapper: awaits and yields once *)
Definition wrapper (c : coro) : sgen := SCoro c (SEnd EStop).
(** function.py:86-103 *)
Definition obj_fn (o : obj) : fn :=
  match o with
  (* hasattr __iter__: itertoasync, function.py:101-102 *)
  | OGen g => sync_fn (inl g)
  | OSeq l => sync_fn (inl (seq_gen l))
  | OStr t => sync_fn (inl (seq_gen (map (fun c => EVal (VStr [c])) t)))
  | OBytes b => sync_fn (inl (seq_gen (map (fun n => EVal (VOther (byte_str n))) b)))
  (* Pipeline.__iter__ (base.py:174-175) runs it; the first next() calls
     run_until_complete (asyncutils.py:9) inside the running loop: RuntimeError *)
  | OPipe _ => FEnd (ERaise PlainException)
  (* __aiter__ only: asyncmap has __anext__, so iterio.py:100 does not call
     __aiter__, and asyncutils.py:39 finds no __anext__: AttributeError *)
  | OAgen g => async_fn g
  | OAiter _ => FEnd (ERaise AttributeError)
  (* neither: function.py:92-100 *)
  | OCoro c => sync_fn (inl (wrapper c))
  | OVal v => sync_fn (inl (seq_gen [EVal v]))
  end.

(** jsonutils.py:3-11, map(func); [func] may raise *)
CoFixpoint map_gen (func : text -> res pyval) : sgen :=
  SLoop (fun o => match o with
                  | None => SEnd EStop
                  | Some l => match func l with Ok v => SGive v (map_gen func) | Err e => SEnd (ERaise e) end
                  end).
Definition json_map (func : text -> res pyval) : obj := OGen (map_gen func).
