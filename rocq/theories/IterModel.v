(** Model of /repo/pieshell/iterio.py: input and output handlers as transition
    systems.  Each label is one atomic piece of the event loop (python code
    between two awaits); the order of labels is chosen by the scheduler. *)
From Verif Require Import Py.

Definition bytes := list N.
Definition nl : N := 10%N.
Definition has_nl (b : bytes) : bool := existsb (N.eqb nl) b.
(** bytes.split(b"\n", 1) of a buffer that contains a newline *)
Fixpoint split1 (b : bytes) : bytes * bytes :=
  match b with
  | [] => ([], [])
  | c :: b' => if N.eqb nl c then ([], b') else let '(l, r) := split1 b' in (c :: l, r)
  end.

(** What running __anext__ up to its next await (or return) does: wait for the
    future, reach the end of file branch, or return an item. *)
Inductive outcome := NWait | NEof | NItem (b : bytes).

(** ** Handlers: attributes and methods *)

(** iterio.py:187-190 LineInputHandler attributes; [li_open] is "registered with
    the loop and descriptor open" (enabled and not destroyed: iterio.py:23-26,
    29-38 change both together). *)
Record line_handler := mkLine { li_buf : bytes; li_eof : bool; li_fut : bool; li_open : bool }.
Definition line_init : line_handler := mkLine [] false false true.
(** iterio.py:193: the descriptor is read only if no complete line is buffered *)
Definition line_wants (h : line_handler) : bool := negb (has_nl (li_buf h)).
(** iterio.py:192-201 handle_event; [d] is what os.read returned.  The second
    component tells whether a pending future was resolved. *)
Definition line_event (h : line_handler) (d : bytes) : line_handler * bool :=
  if line_wants h
  then let eof := match d with [] => true | _ => false end in
       (mkLine (li_buf h ++ d) (li_eof h || eof) false (li_open h && negb eof), li_fut h)
  else (h, false).
(** iterio.py:206-217 __anext__ from the head of its loop, up to decoding *)
Definition line_next (h : line_handler) : line_handler * outcome :=
  if negb (li_eof h) && negb (has_nl (li_buf h))
  then (mkLine (li_buf h) (li_eof h) true (li_open h), NWait)
  else match li_buf h with
       | [] => (h, NEof)
       | _ => let b := if has_nl (li_buf h) then li_buf h else li_buf h ++ [nl] in
              let '(l, r) := split1 b in
              (mkLine r (li_eof h) (li_fut h) (li_open h), NItem l)
       end.

(** iterio.py:144-152 InputHandler attributes *)
Record byte_handler := mkByte { bi_buf : option bytes; bi_eof : bool; bi_fut : bool; bi_open : bool }.
Definition byte_init : byte_handler := mkByte None false false true.
Definition byte_wants (h : byte_handler) : bool := match bi_buf h with None => true | Some _ => false end.
(** iterio.py:154-162 handle_event *)
Definition byte_event (h : byte_handler) (d : bytes) : byte_handler * bool :=
  let h1 := if byte_wants h
            then let eof := match d with [] => true | _ => false end in
                 mkByte (Some d) (bi_eof h || eof) (bi_fut h) (bi_open h && negb eof)
            else h in
  (mkByte (bi_buf h1) (bi_eof h1) false (bi_open h1), bi_fut h1).
(** iterio.py:167-173 __anext__ when called *)
Definition byte_take (h : byte_handler) : byte_handler * outcome :=
  (mkByte None (bi_eof h) (bi_fut h) (bi_open h),
   NItem (match bi_buf h with Some b => b | None => [] end)).
Definition byte_next (h : byte_handler) : byte_handler * outcome :=
  match bi_buf h with
  | None => if bi_eof h then (h, NEof)
            else (mkByte None (bi_eof h) true (bi_open h), NWait)
  | Some _ => byte_take h
  end.
(** iterio.py:174-177 after the await.  (A buffer of None here would be returned
    as None; the invariant in IterProofs.v shows it does not happen.) *)
Definition byte_resume := byte_take.

(** ** A reader: handler, pipe and consumer under an arbitrary scheduler *)

Inductive phase := PIdle | PWait | PWoken | PAtEof.
(** What the consumer got: an item, the end of the iteration, or the exception
    raised by at_eof. *)
Inductive got := GItem (b : bytes) | GStop | GFailed.
Inductive label :=
| LFeed (d : bytes)       (* the writing side writes *)
| LClose                  (* the last writing end is closed *)
| LReadable (n : nat)     (* the loop runs the reader callback; os.read returns n bytes *)
| LNext                   (* the consumer calls __anext__ *)
| LWake                   (* the consumer's task resumes after its future *)
| LAtEof (ok : bool).     (* the at_eof coroutine finishes (ok) or raises *)

Section Reader.
  Variable H : Type.
  Variable h_wants : H -> bool.
  Variable h_event : H -> bytes -> H * bool.
  Variable h_next h_resume : H -> H * outcome.
  Variable h_open : H -> bool.
  (** Whether an at_eof coroutine was given (running.py:76,78 do, function.py:89
      does not). *)
  Variable at_eof : bool.

  Record rstate := mkR {
    r_h : H;
    r_pend : bytes;        (* written, not yet read *)
    r_wopen : bool;        (* some writing end is open *)
    r_phase : phase;
    r_out : list got;      (* what the consumer got so far *)
    r_sent : bytes }.      (* everything written so far *)
  Definition r_init (h : H) : rstate := mkR h [] true PIdle [] [].

  Definition after (s : rstate) (ho : H * outcome) : rstate :=
    let '(h, o) := ho in
    match o with
    | NWait => mkR h (r_pend s) (r_wopen s) PWait (r_out s) (r_sent s)
    | NItem b => mkR h (r_pend s) (r_wopen s) PIdle (r_out s ++ [GItem b]) (r_sent s)
    | NEof => if at_eof
              then mkR h (r_pend s) (r_wopen s) PAtEof (r_out s) (r_sent s)
              else mkR h (r_pend s) (r_wopen s) PIdle (r_out s ++ [GStop]) (r_sent s)
    end.

  (** os.read on the pipe: at most 1024 bytes, at least one if there are any,
      none only at end of file (the callback runs only when readable). *)
  Definition read_ok (s : rstate) (n : nat) : bool :=
    match r_pend s with
    | [] => negb (r_wopen s) && (n =? 0)
    | _ => (1 <=? n) && (n <=? 1024) && (n <=? List.length (r_pend s))
    end.
  Definition readable (s : rstate) : bool :=
    h_open (r_h s) && (negb (r_wopen s) || match r_pend s with [] => false | _ => true end).

  Definition rstep (s : rstate) (l : label) : option rstate :=
    match l with
    | LFeed d => if r_wopen s then Some (mkR (r_h s) (r_pend s ++ d) true (r_phase s) (r_out s) (r_sent s ++ d)) else None
    | LClose => if r_wopen s then Some (mkR (r_h s) (r_pend s) false (r_phase s) (r_out s) (r_sent s)) else None
    | LReadable n =>
        if readable s then
          if h_wants (r_h s) then
            if read_ok s n then
              let '(h, wake) := h_event (r_h s) (firstn n (r_pend s)) in
              Some (mkR h (skipn n (r_pend s)) (r_wopen s)
                     (if wake then PWoken else r_phase s) (r_out s) (r_sent s))
            else None
          else let '(h, wake) := h_event (r_h s) [] in
               Some (mkR h (r_pend s) (r_wopen s) (if wake then PWoken else r_phase s) (r_out s) (r_sent s))
        else None
    | LNext => match r_phase s with PIdle => Some (after s (h_next (r_h s))) | _ => None end
    | LWake => match r_phase s with PWoken => Some (after s (h_resume (r_h s))) | _ => None end
    | LAtEof ok =>
        match r_phase s with
        | PAtEof => Some (mkR (r_h s) (r_pend s) (r_wopen s) PIdle
                           (r_out s ++ [if ok then GStop else GFailed]) (r_sent s))
        | _ => None
        end
    end.
  Fixpoint rsteps (s : rstate) (ls : list label) : option rstate :=
    match ls with
    | [] => Some s
    | l :: ls' => match rstep s l with Some s' => rsteps s' ls' | None => None end
    end.

  (** One iteration of the event loop (asyncio base_events._run_once): tasks
      whose future was resolved earlier run first, then the reader callback if
      the descriptor was ready.  [n] chooses how much is read. *)
  Definition clamp (s : rstate) (n : nat) : nat :=
    match r_pend s with [] => 0 | _ => Nat.min (Nat.min (S n) 1024) (List.length (r_pend s)) end.
  Definition round (s : rstate) (n : nat) : rstate :=
    let s1 := match rstep s LWake with Some s1 => s1 | None => s end in
    match rstep s1 (LReadable (clamp s1 n)) with Some s2 => s2 | None => s1 end.
End Reader.
Arguments mkR {H}. Arguments r_h {H}. Arguments r_pend {H}. Arguments r_wopen {H}.
Arguments r_phase {H}. Arguments r_out {H}. Arguments r_sent {H}.

Definition line_state := rstate line_handler.
Definition line_step (at_eof : bool) := rstep line_handler line_wants line_event line_next line_next li_open at_eof.
Definition line_steps (at_eof : bool) := rsteps line_handler line_wants line_event line_next line_next li_open at_eof.
Definition line_round (at_eof : bool) := round line_handler line_wants line_event line_next line_next li_open at_eof.
Definition line_start : line_state := r_init line_handler line_init.

Definition byte_state := rstate byte_handler.
Definition byte_step (at_eof : bool) := rstep byte_handler byte_wants byte_event byte_next byte_resume bi_open at_eof.
Definition byte_steps (at_eof : bool) := rsteps byte_handler byte_wants byte_event byte_next byte_resume bi_open at_eof.
Definition byte_round (at_eof : bool) := round byte_handler byte_wants byte_event byte_next byte_resume bi_open at_eof.
Definition byte_start : byte_state := r_init byte_handler byte_init.

(** ** The output handler *)

(** What os.write does with a value: everything, only its first [n] bytes, or an
    error (EPIPE, EBADF, ...). *)
Inductive wres := WFull | WShort (n : nat) | WFail (e : exn).
(** How the iterator ends after its items. *)
Inductive iend := EStop | ERaise (e : exn).
Inductive olabel :=
| OWritable              (* the loop runs the writer callback: iterio.py:96-97 *)
| OStart                 (* a created task runs up to its await: 129-133 *)
| OYield (w : wres).     (* the awaited __anext__ completes: 133-142 *)

(** iterio.py:70-74 and the environment: [o_tasks] created tasks that have not
    run yet, [o_inflight] tasks awaiting __anext__, [o_open] registered and
    descriptor open, [o_done] the done_future.  Ghost: bytes written while open,
    number of close calls and of writes issued after closing. *)
Record ostate := mkO {
  o_items : list (option bytes); o_end : iend;
  o_lock : bool; o_open : bool; o_tasks : nat; o_inflight : nat;
  o_done : option (option exn);
  o_written : bytes; o_closes : nat; o_late : nat }.
Definition o_init (items : list (option bytes)) (e : iend) : ostate :=
  mkO items e false true 0 0 None [] 0 0.

(** iterio.py:88-94 OutputHandler.destroy with 29-38 IOHandler.destroy *)
Definition o_destroy (s : ostate) (e : option exn) : ostate :=
  mkO (o_items s) (o_end s) (o_lock s) false (o_tasks s) (o_inflight s)
      (match o_done s with None => Some e | d => d end)
      (o_written s) (o_closes s + (if o_open s then 1 else 0)) (o_late s).

(** iterio.py:136 os.write(self.fd, val + b"\n"); 141-142 on error.  A write to
    the closed descriptor is recorded and not charged to the pipe. *)
Definition o_write (s : ostate) (v : bytes) (w : wres) : ostate :=
  if o_open s then
    match w with
    | WFull => mkO (o_items s) (o_end s) (o_lock s) (o_open s) (o_tasks s) (o_inflight s) (o_done s)
                 (o_written s ++ v ++ [nl]) (o_closes s) (o_late s)
    | WShort n => mkO (o_items s) (o_end s) (o_lock s) (o_open s) (o_tasks s) (o_inflight s) (o_done s)
                    (o_written s ++ firstn n (v ++ [nl])) (o_closes s) (o_late s)
    | WFail e => o_destroy s (Some e)
    end
  else o_destroy (mkO (o_items s) (o_end s) (o_lock s) (o_open s) (o_tasks s) (o_inflight s) (o_done s)
                    (o_written s) (o_closes s) (S (o_late s))) (Some (OSError EBADF)).

Definition ostep (s : ostate) (l : olabel) : option ostate :=
  match l with
  | OWritable =>
      if o_open s then Some (mkO (o_items s) (o_end s) (o_lock s) true (S (o_tasks s)) (o_inflight s)
                               (o_done s) (o_written s) (o_closes s) (o_late s))
      else None
  | OStart =>
      match o_tasks s with
      | 0 => None
      | S k => Some (if o_lock s
                     then mkO (o_items s) (o_end s) true (o_open s) k (o_inflight s)
                            (o_done s) (o_written s) (o_closes s) (o_late s)
                     else mkO (o_items s) (o_end s) true (o_open s) k (S (o_inflight s))
                            (o_done s) (o_written s) (o_closes s) (o_late s))
      end
  | OYield w =>
      match o_inflight s with
      | 0 => None
      | S k =>
          Some (match o_items s with
                | v :: its =>
                    let s1 := mkO its (o_end s) false (o_open s) (o_tasks s) k (o_done s)
                                (o_written s) (o_closes s) (o_late s) in
                    match v with None => s1 | Some b => o_write s1 b w end
                | [] =>
                    let s1 := mkO [] EStop (o_lock s) (o_open s) (o_tasks s) k (o_done s)
                                (o_written s) (o_closes s) (o_late s) in
                    o_destroy s1 (match o_end s with EStop => None | ERaise e => Some e end)
                end)
      end
  end.
Fixpoint osteps (s : ostate) (ls : list olabel) : option ostate :=
  match ls with
  | [] => Some s
  | l :: ls' => match ostep s l with Some s' => osteps s' ls' | None => None end
  end.

(** ** A python function writing into another one: the writer's descriptor is
    the write end of the reader's pipe and both live in one process, so a write
    that does not fit blocks the event loop itself (os.write is synchronous). *)
Inductive clabel := CW (l : olabel) | CR (l : label).
Record cstate := mkC { c_w : ostate; c_r : line_state; c_blocked : bool }.
Definition c_init (items : list (option bytes)) : cstate := mkC (o_init items EStop) line_start false.

Section Pair.
  (** Capacity of the pipe and the free space poll(2) requires to report it
      writable. *)
  Variable cap pipe_buf : nat.
  Definition writable (s : cstate) : bool := List.length (r_pend (c_r s)) + pipe_buf <=? cap.
  (** The reader side follows the bytes written and the closing. *)
  Definition deliver (s : cstate) (w' : ostate) : cstate :=
    let d := skipn (List.length (o_written (c_w s))) (o_written w') in
    let r := c_r s in
    let r1 := mkR (r_h r) (r_pend r ++ d) (o_open w') (r_phase r) (r_out r) (r_sent r ++ d) in
    mkC w' r1 false.
  Definition cstep (s : cstate) (l : clabel) : option cstate :=
    if c_blocked s then None else
    match l with
    | CW OWritable => if writable s then
                        match ostep (c_w s) OWritable with
                        | Some w' => Some (mkC w' (c_r s) false) | None => None end
                      else None
    | CW OStart => match ostep (c_w s) OStart with
                   | Some w' => Some (mkC w' (c_r s) false) | None => None end
    | CW (OYield WFull) =>
        match ostep (c_w s) (OYield WFull) with
        | None => None
        | Some w' =>
            let n := List.length (o_written w') - List.length (o_written (c_w s)) in
            if List.length (r_pend (c_r s)) + n <=? cap
            then Some (deliver s w')
            else Some (mkC (c_w s) (c_r s) true)
        end
    | CW (OYield _) => None
    | CR (LFeed _) | CR LClose => None
    | CR l => match line_step false (c_r s) l with
              | Some r' => Some (mkC (c_w s) r' false) | None => None end
    end.
  Fixpoint csteps (s : cstate) (ls : list clabel) : option cstate :=
    match ls with
    | [] => Some s
    | l :: ls' => match cstep s l with Some s' => csteps s' ls' | None => None end
    end.
End Pair.
