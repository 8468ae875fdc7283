(** Model of the end-of-pipeline work of /repo/pieshell/pipeline/running.py:
    reading captured output, removing the files, remove_output_files.  Who calls
    it and when is in WorldModel.v (handle_finish). *)
From Verif Require Import Py RedirModel IterModel Utf8Model.

(** Temporary files by their number ([PTmp k]/[PString k] of RedirModel name the
    file [k]); [None] is a missing file.  Simplification: other files are not
    touched by this code and are not represented. *)
Definition fs := nat -> option bytes.
Definition fs_rm (f : fs) (k : nat) : fs := fun j => if j =? k then None else f j.

(** io.TextIOWrapper with newline=None, the mode of [open(path)] at
    running.py:212: \r\n and \r become \n. *)
Fixpoint universal_newlines (t : text) : text :=
  match t with
  | [] => []
  | c :: t' => if N.eqb c 13 then 10%N :: match t' with
                                           | d :: t'' => if N.eqb d 10 then universal_newlines t'' else universal_newlines t'
                                           | [] => []
                                           end
               else c :: universal_newlines t'
  end.

(** running.py:212-213 [open(path)] and [f.read()].  Assumption: the locale's
    encoding is UTF-8. *)
Definition read_text (f : fs) (k : nat) : res text :=
  match f k with
  | None => Err FileNotFoundError
  | Some b => let* t := decode b in Ok (universal_newlines t)
  end.

(** running.py:169-189 BaseRunningItem and 190-226 RunningItem: [it_base] items
    (builtins) have no files; the others have the redirects of their command and
    the output_content dict. *)
Record item := mkItem { it_base : bool; it_redirs : redirects; it_content : dict nat text }.

(** running.py:207-213 handle_pipeline_finish of one item: the dict is updated
    one descriptor at a time, so an exception leaves the earlier ones set. *)
Fixpoint read_strings (f : fs) (rs : redirects) (cont : dict nat text) : dict nat text * option exn :=
  match rs with
  | [] => (cont, None)
  | (fd, r) :: rs' =>
      match r_pipe r with
      | Some (PString k) =>
          match read_text f k with
          | Ok t => read_strings f rs' (dset cont fd t)
          | Err e => (cont, Some e)
          end
      | _ => read_strings f rs' cont
      end
  end.
Definition finish_read (f : fs) (it : item) : item * option exn :=
  if it_base it then (it, None)
  else let '(c, e) := read_strings f (it_redirs it) (it_content it) in
       (mkItem (it_base it) (it_redirs it) c, e).

(** running.py:214-220 handle_pipeline_finish_destructive; a missing file is
    ignored, so it never raises (other errors of unlink are not modelled). *)
Fixpoint unlink_strings (f : fs) (rs : redirects) : fs :=
  match rs with
  | [] => f
  | (_, r) :: rs' =>
      match r_pipe r with
      | Some (PString k) => unlink_strings (fs_rm f k) rs'
      | _ => unlink_strings f rs'
      end
  end.
Definition finish_unlink (f : fs) (it : item) : fs :=
  if it_base it then f else unlink_strings f (it_redirs it).

(** running.py:110-111 the first loop of handle_finish *)
Fixpoint read_all (f : fs) (its : list item) : list item * option exn :=
  match its with
  | [] => ([], None)
  | it :: its' =>
      let '(it1, e) := finish_read f it in
      match e with
      | Some x => (it1 :: its', Some x)
      | None => let '(its1, e1) := read_all f its' in (it1 :: its1, e1)
      end
  end.
(** running.py:110-113: both loops; an exception in the first skips the second *)
Definition finish (f : fs) (its : list item) : fs * list item * option exn :=
  let '(its1, e) := read_all f its in
  match e with
  | Some x => (f, its1, Some x)
  | None => (fold_left finish_unlink its1 f, its1, None)
  end.

(** running.py:202-206 output_files: the TMP redirects that are not STRING *)
Definition output_files (it : item) : dict nat nat :=
  if it_base it then []
  else flat_map (fun fr => match r_pipe (snd fr) with Some (PTmp k) => [(fst fr, k)] | _ => [] end) (it_redirs it).

(** running.py:178-182 remove_output_files of one item: os.unlink raises when the
    file is missing. *)
Fixpoint unlink_all (f : fs) (ks : list nat) : fs * option exn :=
  match ks with
  | [] => (f, None)
  | k :: ks' => match f k with
                | None => (f, Some FileNotFoundError)
                | Some _ => unlink_all (fs_rm f k) ks'
                end
  end.
(** running.py:120-122 RunningPipeline.remove_output_files *)
Fixpoint remove_output_files (f : fs) (its : list item) : fs * option exn :=
  match its with
  | [] => (f, None)
  | it :: its' =>
      let '(f1, e) := unlink_all f (dvals (output_files it)) in
      match e with Some x => (f1, Some x) | None => remove_output_files f1 its' end
  end.
