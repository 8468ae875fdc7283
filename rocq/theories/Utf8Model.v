(** Model of the UTF-8 steps of the data path: iterio.py:217
    ([ret.decode("utf-8")]) and function.py:75-84 ([convert]).  Python's strict
    "utf-8" codec is modelled from the definition in RFC 3629, which is the one
    CPython implements. *)
From Verif Require Import Py IterModel.

(** A python [str]: a list of code points (0 .. 0x10ffff, surrogates allowed). *)
Definition text := list N.

(** str.encode("utf-8"): one code point; lone surrogates are refused. *)
Definition enc1 (c : N) : option bytes :=
  (if c <? 128 then Some [c]
   else if c <? 2048 then Some [192 + c / 64; 128 + c mod 64]
   else if c <? 65536 then
     if (55296 <=? c) && (c <=? 57343) then None
     else Some [224 + c / 4096; 128 + (c / 64) mod 64; 128 + c mod 64]
   else if c <? 1114112 then
     Some [240 + c / 262144; 128 + (c / 4096) mod 64; 128 + (c / 64) mod 64; 128 + c mod 64]
   else None)%N.

(** function.py:82,84 and the codec: UnicodeEncodeError for a lone surrogate *)
Fixpoint encode (t : text) : res bytes :=
  match t with
  | [] => Ok []
  | c :: t' => match enc1 c with
               | None => Err UnicodeEncodeError
               | Some b => let* b' := encode t' in Ok (b ++ b')
               end
  end.

(** Continuation bytes 10xxxxxx *)
Definition cont (b : N) : bool := ((128 <=? b) && (b <? 192))%N.

Definition dec_cons (c : N) (r : res text) : res text := let* t := r in Ok (c :: t).

(** iterio.py:217 bytes.decode("utf-8"), strict: overlong forms, surrogates,
    values above 0x10ffff, stray and missing continuation bytes are refused. *)
Fixpoint decode (b : bytes) : res text :=
  (match b with
  | [] => Ok []
  | b0 :: r0 =>
      if b0 <? 128 then dec_cons b0 (decode r0)
      else if (194 <=? b0) && (b0 <? 224) then
        match r0 with
        | b1 :: r1 => if cont b1 then dec_cons ((b0 - 192) * 64 + (b1 - 128)) (decode r1)
                      else Err UnicodeDecodeError
        | _ => Err UnicodeDecodeError
        end
      else if (224 <=? b0) && (b0 <? 240) then
        match r0 with
        | b1 :: b2 :: r2 =>
            let c := (b0 - 224) * 4096 + (b1 - 128) * 64 + (b2 - 128) in
            if cont b1 && cont b2 && (2048 <=? c) && negb ((55296 <=? c) && (c <=? 57343))
            then dec_cons c (decode r2) else Err UnicodeDecodeError
        | _ => Err UnicodeDecodeError
        end
      else if (240 <=? b0) && (b0 <? 245) then
        match r0 with
        | b1 :: b2 :: b3 :: r3 =>
            let c := (b0 - 240) * 262144 + (b1 - 128) * 4096 + (b2 - 128) * 64 + (b3 - 128) in
            if cont b1 && cont b2 && cont b3 && (65536 <=? c) && (c <? 1114112)
            then dec_cons c (decode r3) else Err UnicodeDecodeError
        | _ => Err UnicodeDecodeError
        end
      else Err UnicodeDecodeError
  end)%N.

(** What a python function or iterator may yield, as [convert] sees it.
    [VOther t] is any other object, [t] its str(). *)
Inductive pyval := VNone | VBytes (b : bytes) | VStr (t : text) | VOther (t : text).

(** function.py:75-84 convert *)
Definition convert (v : pyval) : res (option bytes) :=
  match v with
  | VNone => Ok None
  | VBytes b => Ok (Some b)
  | VStr t | VOther t => let* b := encode t in Ok (Some b)
  end.

(** function.py:101-110 with asyncutils.py:29-39: the iterator the output handler
    sees.  A conversion error is raised by __anext__ in place of the item, and
    the handler stops asking (iterio.py:141-142), so what follows is never
    converted. *)
Fixpoint converted (vs : list pyval) (e : iend) : list (option bytes) * iend :=
  match vs with
  | [] => ([], e)
  | v :: vs' => match convert v with
                | Err x => ([], ERaise x)
                | Ok o => let '(os, e') := converted vs' e in (o :: os, e')
                end
  end.

(** iterio.py:217: what the consumer of a LineInputHandler gets for one line:
    the decoded string or an exception. *)
Definition texts_of (out : list got) : list (res text) :=
  flat_map (fun g => match g with GItem b => [decode b] | _ => [] end) out.
