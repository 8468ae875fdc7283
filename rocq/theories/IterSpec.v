(** What "the lines of a byte stream" are. *)
From Verif Require Import Py IterModel.

(** [is_lines d ls]: [ls] are the lines of [d].  No line contains a newline, and
    putting a newline after each line gives [d] back, up to a missing newline
    after the last line.  ([d] empty has no lines.) *)
Definition is_lines (d : bytes) (ls : list bytes) : Prop :=
  Forall (fun l => ~ In nl l) ls /\
  (List.concat (map (fun l => l ++ [nl]) ls) = d \/
   (List.concat (map (fun l => l ++ [nl]) ls) = d ++ [nl] /\ d <> [] /\ last d 0%N <> nl)).

(** The items a consumer got, and whether the iteration was ended. *)
Definition items_of (out : list got) : list bytes :=
  flat_map (fun g => match g with GItem b => [b] | _ => [] end) out.
Definition ended (out : list got) : Prop := In GStop out \/ In GFailed out.
Definition prefix {A} (a b : list A) : Prop := exists c, b = a ++ c.

(** What an output handler should write: every value and a newline, nothing for
    None. *)
Definition rendered (items : list (option bytes)) : bytes :=
  flat_map (fun v => match v with Some b => b ++ [nl] | None => [] end) items.

(** A consumer that has asked and not been answered. *)
Definition waiting (s : line_state) : Prop := r_phase s = PWait \/ r_phase s = PWoken.
(** A line or the end of the stream is on its way. *)
Definition due (s : line_state) : Prop := r_wopen s = false \/ In nl (li_buf (r_h s) ++ r_pend s).
(** The consumer got something, or is at the end of file check. *)
Definition served (s s' : line_state) : Prop :=
  (r_phase s' = PIdle /\ exists g, r_out s' = r_out s ++ [g]) \/ r_phase s' = PAtEof.
Definition bserved (s s' : byte_state) : Prop :=
  r_phase s' = PIdle /\ exists b, r_out s' = r_out s ++ [GItem b].

(** Schedules in which no write fails, and in which every write is complete. *)
Definition nofail (l : olabel) : Prop := match l with OYield (WFail _) => False | _ => True end.
Definition full (l : olabel) : Prop := match l with OYield WFull | OWritable | OStart => True | _ => False end.
(** The result recorded for an iterator's end. *)
Definition end_result (e : iend) : option exn := match e with EStop => None | ERaise x => Some x end.
(** The values actually sent. *)
Definition values (items : list (option bytes)) : list bytes :=
  flat_map (fun v => match v with Some b => [b] | None => [] end) items.
