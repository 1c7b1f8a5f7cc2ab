(** Base vocabulary shared by every model file.

    Numbers.  Python integers and datetimes/timedeltas (integer
    microseconds) are [Z].  Finite floating point numbers are modelled by
    exact reals [R]: rounding error is not modelled anywhere.  Where the code
    depends on IEEE special values (nan, +-inf) they are written out, either as
    [option R] ([None] = nan) or with the type [xr] of XReal.v.

    Exceptions are values: [Err kind]. *)
From Coq Require Export ZArith Reals List Bool Lia Lra.
Export ListNotations.

(** Python / numpy exceptions that the modelled code can raise. *)
Inductive exn : Type :=
| ValueError | IndexError | KeyError | TypeError | AttributeError
| ZeroDivisionError | NotImplementedError | RuntimeError | OtherError.

Inductive result (A : Type) : Type :=
| Ok (a : A)
| Err (e : exn).
Arguments Ok {A} a.
Arguments Err {A} e.

Definition bind {A B} (x : result A) (f : A -> result B) : result B :=
  match x with Ok a => f a | Err e => Err e end.
Notation "'let*' x ':=' e1 'in' e2" := (bind e1 (fun x => e2))
  (at level 61, x pattern, e1 at next level, right associativity).

Fixpoint mapM {A B} (f : A -> result B) (l : list A) : result (list B) :=
  match l with
  | [] => Ok []
  | x :: r => let* y := f x in let* ys := mapM f r in Ok (y :: ys)
  end.

Definition is_ok {A} (x : result A) : bool :=
  match x with Ok _ => true | Err _ => false end.

(** Booleans deciding real (in)equalities (python comparison operators on
    finite floats). *)
Definition Rltb (x y : R) : bool := if Rlt_dec x y then true else false.
Definition Rleb (x y : R) : bool := if Rle_dec x y then true else false.
Definition Reqb (x y : R) : bool := if Req_EM_T x y then true else false.

(** floor, ceil, numpy.round / python round (half to even), int() (toward 0),
    python [%] on floats. *)
Definition Rfloor (x : R) : Z := (up x - 1)%Z.
Definition Rceil (x : R) : Z := (- Rfloor (- x))%Z.
Definition Rround (x : R) : Z :=
  let f := Rfloor x in
  if Rltb (x - IZR f) (/ 2) then f
  else if Rltb (/ 2) (x - IZR f) then (f + 1)%Z
  else if Z.even f then f else (f + 1)%Z.
Definition Rtrunc (x : R) : Z := if Rltb x 0 then Rceil x else Rfloor x.
Definition Rmod (x y : R) : R := (x - y * IZR (Rfloor (x / y)))%R.

(** [Zrange n] = list(range(n)). *)
Definition Zrange (n : Z) : list Z := map Z.of_nat (seq 0 (Z.to_nat n)).

(** Python subscript [l[i]] with negative indices counting from the end. *)
Definition py_index {A} (l : list A) (i : Z) : result Z :=
  let n := Z.of_nat (length l) in
  if (i <? - n)%Z then Err IndexError
  else if (i <? 0)%Z then Ok (n + i)%Z
  else if (i <? n)%Z then Ok i
  else Err IndexError.

Definition py_get {A} (l : list A) (i : Z) : result A :=
  let* k := py_index l i in
  match nth_error l (Z.to_nat k) with Some a => Ok a | None => Err IndexError end.

(** Element update [l[i] = v] at a non-negative in-range position. *)
Fixpoint set_nth {A} (n : nat) (v : A) (l : list A) : list A :=
  match l, n with
  | [], _ => []
  | _ :: r, O => v :: r
  | x :: r, S k => x :: set_nth k v r
  end.

Fixpoint map2 {A B C} (f : A -> B -> C) (l : list A) (m : list B) : list C :=
  match l, m with
  | x :: l', y :: m' => f x y :: map2 f l' m'
  | _, _ => []
  end.

Definition sumR (l : list R) : R := fold_right Rplus 0%R l.

(** Running sum, numpy.cumsum. *)
Fixpoint cumsum_from (s : R) (l : list R) : list R :=
  match l with [] => [] | x :: r => (s + x)%R :: cumsum_from (s + x)%R r end.
Definition cumsum (l : list R) : list R := cumsum_from 0%R l.

(** Index of the first minimum, numpy.argmin. *)
Fixpoint argmin_from {A} (ltb : A -> A -> bool) (best : A) (ibest i : nat) (l : list A) : nat :=
  match l with
  | [] => ibest
  | x :: r => if ltb x best then argmin_from ltb x i (S i) r else argmin_from ltb best ibest (S i) r
  end.
Definition argmin {A} (ltb : A -> A -> bool) (l : list A) : result nat :=
  match l with [] => Err ValueError | x :: r => Ok (argmin_from ltb x 0 1 r) end.
