(** Notions for the handler registry. *)
From Verif Require Import Py SigModel.

(** Two filters ask for the same thing: same value for every field. *)
Definition same_filter (a b : fields) : Prop := forall k, dget a k = dget b k.
(** The event has the values the filter asks for. *)
Definition matches (ev flt : fields) : Prop := forall k v, dget flt k = Some v -> dget ev k = Some v.
Definition wf_filter (f : fields) : Prop := NoDup (dkeys f).
(** Handlers registered and not deregistered, in order of registration, in a
    history where equal filters are never registered twice at a time. *)
Fixpoint live (hs : list handler) (ops : list rop) : list handler :=
  match ops with
  | [] => hs
  | RReg h :: ops' => live (hs ++ [h]) ops'
  | RDereg h :: ops' => live (filter (fun g => negb (h_id g =? h_id h)) hs) ops'
  end.
(** Registration and removal of a handler with an own filter. *)
Fixpoint disciplined (hs : list handler) (ops : list rop) : Prop :=
  match ops with
  | [] => True
  | RReg h :: ops' => wf_filter (h_filter h) /\
      (forall g, In g hs -> ~ same_filter (h_filter g) (h_filter h) /\ h_id g <> h_id h) /\ disciplined (hs ++ [h]) ops'
  | RDereg h :: ops' => In h hs /\ disciplined (filter (fun g => negb (h_id g =? h_id h)) hs) ops'
  end.
Definition same_handler_filter (h : handler) (g : handler) : Prop := same_filter (h_filter h) (h_filter g).
(** The event has every field a filter mentions. *)
Definition has_fields (ev flt : fields) : Prop := forall k, In k (dkeys flt) -> dget ev k <> None.
(** [served ev hs l]: [l] names the handlers of [hs] whose filter matches, in
    order, each once. *)
Inductive served (ev : fields) : list handler -> list nat -> Prop :=
| served_nil : served ev [] []
| served_yes h hs l : matches ev (h_filter h) -> served ev hs l -> served ev (h :: hs) (h_id h :: l)
| served_no h hs l : ~ matches ev (h_filter h) -> served ev hs l -> served ev (h :: hs) l.
