(** Notions for the end-of-pipeline statements. *)
From Verif Require Import Py RedirModel IterModel Utf8Model FinishModel.

(** Item [it] captures descriptor [fd] in the STRING file [k]. *)
Definition captures (it : item) (fd k : nat) : Prop :=
  it_base it = false /\ exists r, dget (it_redirs it) fd = Some r /\ r_pipe r = Some (PString k).
(** Item [it] sends descriptor [fd] to the TMP file [k]. *)
Definition saves (it : item) (fd k : nat) : Prop :=
  it_base it = false /\ exists r, dget (it_redirs it) fd = Some r /\ r_pipe r = Some (PTmp k).
(** Redirect dictionaries have one entry per descriptor (python dicts). *)
Definition well_formed (its : list item) : Prop := Forall (fun it => NoDup (dkeys (it_redirs it))) its.

(** The file holds exactly the UTF-8 form of [t]. *)
Definition holds (f : fs) (k : nat) (t : text) : Prop :=
  exists b, f k = Some b /\ encode t = Ok b.
(** No carriage return, so text mode reading changes nothing. *)
Definition no_cr (t : text) : Prop := ~ In 13%N t.
