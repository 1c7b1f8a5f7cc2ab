(** Model of ransac and _ransac_samples, src/glimpse/optimize.py:2090-2185.

    Floats are exact reals; lgamma(k + 1) is ln (k!).  A model is its documented interface: a fit that may
    give nothing and an error for each member.  Exceptions raised by the model are not modelled.
    numpy.random.shuffle is a parameter: the list of permutations it produces.  A frozenset is the list
    of its elements up to order; the order in which list() gives them is the parameter [order]. *)
From Verif Require Import Base.
Open Scope R_scope.

Record rmodel (P : Type) := mk_rmodel { rm_size : nat; rm_fit : list nat -> option P; rm_error : P -> nat -> R }.
Arguments mk_rmodel {P}. Arguments rm_size {P}. Arguments rm_fit {P}. Arguments rm_error {P}.
Definition mem (i : nat) (l : list nat) : bool := existsb (Nat.eqb i) l.
Definition Rmean (l : list R) : R := fold_right Rplus 0 l / INR (length l).

(** optimize.py:2171-2180: the number of samples *)
Definition log_combinations (size n : nat) : R := ln (INR (fact size)) - ln (INR (fact n)) - ln (INR (fact (size - n))).
Definition limit (size n : nat) (iterations : Z) : Z :=
  let log := log_combinations size n in
  if Reqb log 0 then iterations else Z.min iterations (Rfloor (exp log)).
Definition same_set (s t : list nat) : bool := (forallb (fun i => mem i t) s && forallb (fun i => mem i s) t)%bool.
(** optimize.py:2181-2188: the samples produced with the given shuffles, and whether the loop has ended *)
Fixpoint generate (lim : Z) (n : nat) (order : list nat -> list nat) (samples : list (list nat)) (shuffles : list (list nat)) : list (list nat) * bool :=
  if (lim <=? Z.of_nat (length samples))%Z then (samples, true) else
  match shuffles with
  | [] => (samples, false)
  | sh :: r =>
    let sample := order (firstn n sh) in
    if existsb (same_set sample) samples then generate lim n order samples r else generate lim n order (samples ++ [sample]) r
  end.
(** optimize.py:2152-2188 *)
Definition ransac_samples (n size : nat) (iterations : Z) (order : list nat -> list nat) (shuffles : list (list nat)) : result (list (list nat) * bool) :=
  if (size <=? n)%nat then Err ValueError else Ok (generate (limit size n iterations) n order [] shuffles).

(** optimize.py:2126-2143: one sample *)
Definition consider {P} (m : rmodel P) (max_error : R) (min_inliers : Z) (best : option (P * R)) (sample : list nat) : option (P * R) :=
  match rm_fit m sample with
  | None => best
  | Some p =>
    let test := filter (fun i => negb (mem i sample)) (seq 0 (rm_size m)) in
    let also := filter (fun i => Rltb (rm_error m p i) max_error) test in
    if (min_inliers <? Z.of_nat (length also))%Z then
      match rm_fit m (sample ++ also) with
      | None => best
      | Some q =>
        let e := Rmean (map (rm_error m q) (sample ++ also)) in
        if (length (sample ++ also) =? 0)%nat then best else (* the mean of nothing is nan *)
        match best with
        | None => Some (q, e)
        | Some (_, b) => if Rltb e b then Some (q, e) else best
        end
      end
    else best
  end.
(** optimize.py:2122-2149 *)
Definition ransac {P} (m : rmodel P) (max_error : R) (min_inliers : Z) (samples : list (list nat)) : result (P * list nat) :=
  match fold_left (consider m max_error min_inliers) samples None with
  | None => Err ValueError
  | Some (q, _) => Ok (q, filter (fun i => Rleb (rm_error m q i) max_error) (seq 0 (rm_size m)))
  end.

(** Polynomial of degree 0, optimize.py:1029-1069: numpy.polyfit gives the mean, and nothing sensible for no points. *)
Definition constant_model (y : list R) : rmodel R :=
  mk_rmodel (length y) (fun idx => match idx with [] => None | _ => Some (Rmean (map (fun i => nth i y 0) idx)) end) (fun p i => Rabs (p - nth i y 0)).
