(** Model of strip_path (src/glimpse/helpers.py:134-157), of the names of images of a matcher (src/glimpse/optimize.py:2336-2341) and of os.path.splitext as used in gdal_driver_from_path (helpers.py:535).
    A path is a list of (ASCII) characters; posix paths. *)
From Coq Require Import Ascii.
From Verif Require Import Base.

Definition str := list ascii.
Definition dot : ascii := "."%char.
Definition slash : ascii := "/"%char.

(** what precedes the first [c] *)
Fixpoint before (c : ascii) (s : str) : str := match s with [] => [] | x :: r => if Ascii.eqb x c then [] else x :: before c r end.
(** os.path.basename: what follows the last slash *)
Definition basename (s : str) : str := rev (before slash (rev s)).

(** str.split(".", maxsplit): at most [maxsplit] splits, None = no limit (a negative number) *)
Fixpoint split_dots (maxsplit : option nat) (cur : str) (s : str) : list str :=
  match s with
  | [] => [rev cur]
  | c :: r =>
    if Ascii.eqb c dot then
      match maxsplit with
      | Some O => [rev cur ++ s]
      | Some (S m) => rev cur :: split_dots (Some m) [] r
      | None => rev cur :: split_dots None [] r
      end
    else split_dots maxsplit (c :: cur) r
  end.

(** the extensions argument: a boolean or an integer *)
Inductive ext_arg := EBool (b : bool) | EInt (n : Z).
(** helpers.py:152-157 *)
Definition strip_path (path : str) (extensions : ext_arg) : str :=
  let b := basename path in
  let strip (m : option nat) := rev (last (split_dots m [] (rev b)) []) in
  match extensions with
  | EBool true => strip None
  | EBool false => b
  | EInt n => if (n =? 0)%Z then b else strip (if (n <? 0)%Z then None else Some (Z.to_nat n))
  end.

(** optimize.py:2336-2341 *)
Fixpoint str_eqb (a b : str) : bool :=
  match a, b with [], [] => true | x :: a, y :: b => (Ascii.eqb x y && str_eqb a b)%bool | _, _ => false end.
Fixpoint distinct (l : list str) : bool := match l with [] => true | a :: r => (negb (existsb (str_eqb a) r) && distinct r)%bool end.
Definition image_basenames (paths : list str) : result (list str) :=
  let names := map (fun p => strip_path p (EBool true)) paths in
  if negb (distinct names) then Err ValueError else Ok names.

(** os.path.splitext(path)[1]: from the last dot of the basename, if a character that is not a dot precedes it in the basename *)
Definition splitext1 (path : str) : str :=
  let b := basename path in
  let tail := before dot (rev b) in                          (* the characters after the last dot, reversed *)
  let root := rev (skipn (S (List.length tail)) (rev b)) in  (* those before it *)
  if (existsb (Ascii.eqb dot) b && negb (forallb (Ascii.eqb dot) root))%bool then dot :: rev tail else [].
