(** Specification of C81: points at given distances along a line. *)
From Coq Require Import Reals List Permutation Sorted ZArith.
Import ListNotations.
Open Scope R_scope.

(** distance measures that never fall, or always fall, along the line *)
Definition rising (x : list R) : Prop := forall i j, (i < j < length x)%nat -> nth i x 0 <= nth j x 0.
Definition falling (x : list R) : Prop := forall i j, (i < j < length x)%nat -> nth j x 0 < nth i x 0.
(** t is one of the distances of the line *)
Definition within (x : list R) (t : R) : Prop := nth 0 x 0 <= t <= last x 0 \/ last x 0 <= t <= nth 0 x 0.
(** p is the point of the line with vertices m at distance t (x: distances of the vertices): the same part of the way between two neighbouring vertices
    as t is between their distances *)
Definition on_line (d : nat) (x : list R) (m : list (list R)) (t : R) (p : list R) : Prop :=
  length p = d /\ exists j s, (S j < length m)%nat /\ 0 <= s <= 1 /\ t = nth j x 0 + s * (nth (S j) x 0 - nth j x 0) /\
  forall i, (i < d)%nat -> nth i p 0 = (1 - s) * nth i (nth j m []) 0 + s * nth i (nth (S j) m []) 0.
(** Euclidean distance of two points, and length of the line up to a vertex *)
Fixpoint sq_diff (p q : list R) : R := match p, q with a :: p, b :: q => (b - a) ^ 2 + sq_diff p q | _, _ => 0 end.
Fixpoint arc (m : list (list R)) (j : nat) : R := match j with O => 0 | S k => arc m k + sqrt (sq_diff (nth k m []) (nth (S k) m [])) end.
Definition arcs (m : list (list R)) : list R := map (arc m) (seq 0 (length m)).
(** a matrix with d columns *)
Definition matrix (d : nat) (m : list (list R)) : Prop := forall r, In r m -> length r = d.
(** what is assumed of numpy.argsort *)
Definition sorts (argsort : list R -> list nat) : Prop :=
  forall l, Permutation (argsort l) (seq 0 (length l)) /\ StronglySorted Rle (map (fun k => nth k l 0) (argsort l)).
