(** What a function in a pipeline should give: the values it produces. *)
From Verif Require Import Py IterModel Utf8Model KindModel.

(** A coroutine, given these lines, returns [v] and leaves the others. *)
Inductive returns : coro -> list text -> pyval -> list text -> Prop :=
| ret_val v ls : returns (CReturn v) ls v ls
| ret_line k l ls v ls' : returns (k (Some l)) ls v ls' -> returns (CAsk k) (l :: ls) v ls'
| ret_over k v ls' : returns (k None) [] v ls' -> returns (CAsk k) [] v ls'.
Inductive raises : coro -> list text -> exn -> Prop :=
| raise_now e ls : raises (CRaise e) ls e
| raise_line k l ls e : raises (k (Some l)) ls e -> raises (CAsk k) (l :: ls) e
| raise_over k e : raises (k None) [] e -> raises (CAsk k) [] e.
(** A generator, given these lines, produces these values and ends with [e]; [loops]:
    whether for loops over the input are to count. *)
Inductive yields (loops : bool) : sgen -> list text -> list pyval -> iend -> Prop :=
| yd_end e ls : yields loops (SEnd e) ls [] e
| yd_give v k ls vs e : yields loops k ls vs e -> yields loops (SGive v k) ls (v :: vs) e
| yd_coro c k ls v ls' vs e : returns c ls v ls' -> yields loops k ls' vs e -> yields loops (SCoro c k) ls (v :: vs) e
| yd_raise c k ls e : raises c ls e -> yields loops (SCoro c k) ls [] (ERaise e)
| yd_line k l ls vs e : loops = true -> yields loops (k (Some l)) ls vs e -> yields loops (SLoop k) (l :: ls) vs e
| yd_over k vs e : loops = true -> yields loops (k None) [] vs e -> yields loops (SLoop k) [] vs e.
Inductive ayields : agen -> list text -> list pyval -> iend -> Prop :=
| ay_end e ls : ayields (AEnd e) ls [] e
| ay_give v k ls vs e : ayields k ls vs e -> ayields (AGive v k) ls (v :: vs) e
| ay_line k l ls vs e : ayields (k (Some l)) ls vs e -> ayields (AAsk k) (l :: ls) vs e
| ay_over k vs e : ayields (k None) [] vs e -> ayields (AAsk k) [] vs e.
Inductive elems : list elem -> list text -> list pyval -> iend -> Prop :=
| el_nil ls : elems [] ls [] EStop
| el_val v l ls vs e : elems l ls vs e -> elems (EVal v :: l) ls (v :: vs) e
| el_coro c l ls v ls' vs e : returns c ls v ls' -> elems l ls' vs e -> elems (ECoro c :: l) ls (v :: vs) e
| el_raise c l ls e : raises c ls e -> elems (ECoro c :: l) ls [] (ERaise e).
(** What a user expects of each kind: a generator or list gives its values, anything
    else is one value. *)
Inductive gives : obj -> list text -> list pyval -> iend -> Prop :=
| gv_gen g ls vs e : yields true g ls vs e -> gives (OGen g) ls vs e
| gv_agen g ls vs e : ayields g ls vs e -> gives (OAgen g) ls vs e
| gv_aiter g ls vs e : ayields g ls vs e -> gives (OAiter g) ls vs e
| gv_seq l ls vs e : elems l ls vs e -> gives (OSeq l) ls vs e
| gv_str t ls : gives (OStr t) ls [VStr t] EStop
| gv_bytes b ls : gives (OBytes b) ls [VBytes b] EStop
| gv_coro c ls v ls' : returns c ls v ls' -> gives (OCoro c) ls [v] EStop
| gv_raise c ls e : raises c ls e -> gives (OCoro c) ls [] (ERaise e)
| gv_val v ls : gives (OVal v) ls [v] EStop
| gv_pipe out ls : gives (OPipe out) ls (map VStr out) EStop.
(** The kinds that work: asynchronous generators, generators without a for loop over
    the input, lists, coroutines, and single values other than strings. *)
Inductive works : obj -> list text -> Prop :=
| wk_gen g ls vs e : yields false g ls vs e -> works (OGen g) ls
| wk_agen g ls : works (OAgen g) ls
| wk_seq l ls : works (OSeq l) ls
| wk_coro c ls : works (OCoro c) ls
| wk_val v ls : works (OVal v) ls.
(** The bytes these values are written as, each with a newline: None is nothing; from
    the first that cannot be encoded on, nothing is written. *)
Inductive written_as : list pyval -> list N -> Prop :=
| wa_nil : written_as [] []
| wa_none vs b : written_as vs b -> written_as (VNone :: vs) b
| wa_bytes x vs b : written_as vs b -> written_as (VBytes x :: vs) (x ++ 10%N :: b)
| wa_str t x vs b : encode t = Ok x -> written_as vs b -> written_as (VStr t :: vs) (x ++ 10%N :: b)
| wa_other t x vs b : encode t = Ok x -> written_as vs b -> written_as (VOther t :: vs) (x ++ 10%N :: b)
| wa_str_bad t x vs : encode t = Err x -> written_as (VStr t :: vs) []
| wa_other_bad t x vs : encode t = Err x -> written_as (VOther t :: vs) [].
