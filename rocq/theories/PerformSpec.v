(** Specification of "the child has exactly the redirected descriptors". *)
From Verif Require Import Py RedirModel Os.

(** What a redirect asks for, in terms of the files open in the process [t]
    that performs it. *)
Definition wanted (t : tab) (r : redirect) : option ofd :=
  match r_source r with
  | SInt n => option_map e_ofd (tget t n)
  | SPath p => Some (OFile p (r_flag r))
  | _ => None
  end.

(** The open file a descriptor refers to. *)
Definition refers (t : tab) (n : nat) : option ofd := option_map e_ofd (tget t n).

(** Circumstances in which performing the redirects is required to work: every
    source exists, no two redirects share a source descriptor, there is room
    below the descriptor limit, the log descriptor is above everything in use.
    For file redirects, the target is an open descriptor that is not itself
    used as a source, and a spare descriptor exists. *)
Record performable (L : limits) (logfd : nat) (rs : redirects) (t : tab) : Prop := {
  pf_wf : wf_redirects rs;
  pf_src : forall r, In r (dvals rs) ->
      (exists n, r_source r = SInt n /\ tget t n <> None) \/
      (exists p, r_source r = SPath p /\ can_open L p (r_flag r) = true /\
                 tget t (r_fd r) <> None /\ ~ In (r_fd r) (source_ints rs));
  pf_distinct : NoDup (source_ints rs);
  pf_room : find_free_fd rs + List.length rs <= lim L;
  pf_log : find_free_fd rs + List.length rs <= logfd;
  pf_spare : (exists r p, In r (dvals rs) /\ r_source r = SPath p) ->
      exists j, find_free_fd rs + List.length rs <= j /\ j < lim L /\ tget t j = None }.
