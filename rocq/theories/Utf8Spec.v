(** Notions used in the statements about text. *)
From Verif Require Import Py IterModel IterSpec Utf8Model.

(** A Unicode scalar value: a code point that is not a surrogate. *)
Definition scalar (c : N) : Prop := (c < 55296 \/ 57343 < c < 1114112)%N.

(** [lines t ls]: the lines of a text, as for bytes: no line contains a newline
    and the lines, each followed by a newline, are the text (up to a missing
    newline after the last line). *)
Definition text_lines (t : text) (ls : list text) : Prop :=
  Forall (fun l => ~ In 10%N l) ls /\
  (List.concat (map (fun l => l ++ [10%N]) ls) = t \/
   (List.concat (map (fun l => l ++ [10%N]) ls) = t ++ [10%N] /\ t <> [] /\ last t 0%N <> 10%N)).

(** [means v t]: the value [v] yielded by a python function stands for the text
    [t]: [t] itself, an object whose str() is [t], or bytes that are the UTF-8
    form of [t]. *)
Inductive means : pyval -> text -> Prop :=
| means_str t : means (VStr t) t
| means_other t : means (VOther t) t
| means_bytes b t : encode t = Ok b -> means (VBytes b) t.

(** [sends vs ts]: the values, None left out, stand for the texts. *)
Inductive sends : list pyval -> list text -> Prop :=
| sends_nil : sends [] []
| sends_none vs ts : sends vs ts -> sends (VNone :: vs) ts
| sends_cons v t vs ts : means v t -> sends vs ts -> sends (v :: vs) (t :: ts).
