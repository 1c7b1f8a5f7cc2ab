(** IEEE-style special values over exact reals (no signed zero). *)
From Verif Require Import Base.
Open Scope R_scope.

Inductive xr : Type := Fin (r : R) | PInf | NInf | NaN.

(** [a < b]; every comparison with nan is False. *)
Definition xlt (a b : xr) : bool :=
  match a, b with
  | NaN, _ | _, NaN => false
  | Fin x, Fin y => Rltb x y
  | NInf, NInf => false
  | NInf, _ => true
  | _, NInf => false
  | PInf, _ => false
  | _, PInf => true
  end.

(** [a * b]; 0 * inf is nan. *)
Definition xmul (a b : xr) : xr :=
  match a, b with
  | NaN, _ | _, NaN => NaN
  | Fin x, Fin y => Fin (x * y)
  | Fin x, PInf | PInf, Fin x =>
    if Rltb 0 x then PInf else if Rltb x 0 then NInf else NaN
  | Fin x, NInf | NInf, Fin x =>
    if Rltb 0 x then NInf else if Rltb x 0 then PInf else NaN
  | PInf, PInf | NInf, NInf => PInf
  | PInf, NInf | NInf, PInf => NInf
  end.

(** [1 / x] for a finite x under np.errstate(divide="ignore"); 1 / 0 = +inf. *)
Definition xinv (x : R) : xr := if Reqb x 0 then PInf else Fin (/ x).

Definition is_nan (a : xr) : bool := match a with NaN => true | _ => false end.
