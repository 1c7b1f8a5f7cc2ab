(** Model of reading and writing files: write_pickle, read_pickle (src/glimpse/helpers.py:207-247), read_json, write_json with a path (253-305).

    A path is the list of its components, the last one first, so that the parent of [x :: p] is [p]; [] is the directory paths start from.
    The state of the file system is what is at each path.  An operation gives the states it passes through, in order: a program killed during the operation leaves one of them (or the first, given, state). *)
From Coq Require Import String Ascii.
From Verif Require Import Base.
Notation length := List.length.
Definition path := list string.
Definition bytes := list ascii.
Inductive node := Dir | File (b : bytes).
Definition fs := path -> option node.
Definition path_eqb (p q : path) : bool := if list_eq_dec string_dec p q then true else false.
Definition put (p : path) (x : node) (s : fs) : fs := fun q => if path_eqb q p then Some x else s q.
Inductive failure := FileNotFound | FileExists | NotADirectory | IsADirectory | Raised (e : exn).
Inductive outcome (A : Type) := Done (a : A) | Fail (e : failure).
Arguments Done {A} a. Arguments Fail {A} e.
Definition lift {A} (r : result A) : outcome A := match r with Ok a => Done a | Err e => Fail (Raised e) end.
(** the state after an operation *)
Definition final (s : fs) (t : list fs) : fs := last t s.

(** pathlib.Path.mkdir(parents=True, exist_ok=True) (python 3.7 to 3.11, posix): os.mkdir raises if there is something at the path, which is ignored for directories; if the parent is missing it is made first.  helpers.py:220, 302. *)
Fixpoint mkdir (p : path) (s : fs) : list fs * outcome unit :=
  match p with
  | [] => ([], Done tt)
  | _ :: parent =>
    match s p with
    | Some Dir => ([], Done tt)
    | Some (File _) => ([], Fail FileExists)
    | None =>
      match s parent with
      | Some Dir => ([put p Dir s], Done tt)
      | Some (File _) => ([], Fail NotADirectory)
      | None => let (t, r) := mkdir parent s in
                match r with Done _ => (t ++ [put p Dir (final s t)], Done tt) | Fail e => (t, Fail e) end
      end
    end
  end.
(** open(path, mode="w") and "wb": an existing file is emptied *)
Definition open_write (p : path) (s : fs) : outcome fs :=
  match s p with
  | Some Dir => Fail IsADirectory
  | _ => match s (tl p) with Some Dir => Done (put p (File []) s) | Some (File _) => Fail NotADirectory | None => Fail FileNotFound end
  end.
(** open(path, mode="r") and "rb" *)
Definition open_read (p : path) (s : fs) : outcome bytes := match s p with Some (File b) => Done b | Some Dir => Fail IsADirectory | None => Fail FileNotFound end.
(** the states while [b] is written to the file just opened in [s]: buffers are flushed at any time, so that any part of [b] from its start can be in the file *)
Fixpoint writing (p : path) (written b : bytes) (s : fs) : list fs :=
  match b with [] => [] | c :: r => put p (File (written ++ [c])) s :: writing p (written ++ [c]) r s end.
(** open, write and close *)
Definition store (p : path) (b : bytes) (s : fs) : list fs * outcome unit :=
  match open_write p s with Fail e => ([], Fail e) | Done s' => (s' :: writing p [] b s, Done tt) end.
Definition and_then (s : fs) (x : list fs * outcome unit) (f : fs -> list fs * outcome unit) : list fs * outcome unit :=
  let (t, r) := x in match r with Fail e => (t, Fail e) | Done _ => let (t', r') := f (final s t) in (t ++ t', r') end.

Section Pickle.
(** [encode gz o]: the content of a file to which [o] was written with pickle.dump (and gzip if [gz]), [empty gz] if nothing was; [decode gz b]: pickle.load.  What pickle.dump writes is one buffer given to the file when the object has been pickled. *)
Context {obj : Type} (encode : bool -> obj -> result bytes) (empty : bool -> bytes) (decode : bool -> bytes -> result obj).
(** helpers.py:207-227.  gzip.open gives files of bytes for the modes "w" and "r" too; text files refuse the bytes of pickle.dump with TypeError, as bytes are expected from those read by pickle.load.  An object that cannot be pickled raises after the file has been opened. *)
Definition write_pickle (o : obj) (p : path) (gz binary : bool) (s : fs) : list fs * outcome unit :=
  and_then s (mkdir (tl p) s) (fun s =>
    match encode gz o with
    | Err e => let (t, r) := store p (empty gz) s in (t, match r with Done _ => Fail (Raised e) | Fail f => Fail f end)
    | Ok b => if (binary || gz)%bool then store p b s
              else let (t, r) := store p [] s in (t, match r with Done _ => Fail (Raised TypeError) | Fail f => Fail f end)
    end).
(** helpers.py:230-247 *)
Definition read_pickle (p : path) (gz binary : bool) (s : fs) : outcome obj :=
  match open_read p s with
  | Fail e => Fail e
  | Done b => if (binary || gz)%bool then lift (decode gz b) else Fail (Raised TypeError)
  end.
End Pickle.

Section Json.
(** [dumps o]: the text of write_json without a path (FlatJsonModel); [loads]: json.loads *)
Context {obj : Type} (dumps : obj -> result bytes) (loads : bytes -> result obj).
(** helpers.py:289-305, with a path: the text is made before anything is written *)
Definition write_json_file (o : obj) (p : path) (s : fs) : list fs * outcome unit :=
  match dumps o with Err e => ([], Fail (Raised e)) | Ok b => and_then s (mkdir (tl p) s) (store p b) end.
(** helpers.py:253-262 *)
Definition read_json (p : path) (s : fs) : outcome obj := match open_read p s with Fail e => Fail e | Done b => lift (loads b) end.
End Json.
