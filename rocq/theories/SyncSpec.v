(** Where a pipeline is used. *)
From Verif Require Import SyncModel.
(** Code that runs because the event loop runs it: a generator or coroutine, or a
    plain function called by something that does. *)
Inductive within_loop : place -> Prop :=
| in_generator : within_loop GeneratorBody
| in_coroutine : within_loop CoroutineBody
| in_function w p : within_loop p -> within_loop (PlainBody w p)
| in_function_of_plus p : within_loop (PlainBody UPlus p)
| in_function_of_await p : within_loop (PlainBody UAwait p).
(** The uses that wait for the result before going on, and iterate. *)
Definition waits_for_output (w : use) : Prop := w = UBytes \/ w = UStr \/ w = UFor.
