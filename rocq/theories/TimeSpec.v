(** Specification vocabulary for observation times. *)
From Coq Require Import ZArith List Sorting.Sorted.
Import ListNotations.
Open Scope Z_scope.
Definition increasing (l : list Z) : Prop := StronglySorted Z.lt l.
Definition decreasing (l : list Z) : Prop := StronglySorted Z.gt l.
Definition nondecreasing (l : list Z) : Prop := StronglySorted Z.le l.
Definition nonincreasing (l : list Z) : Prop := StronglySorted Z.ge l.
(** within maxdt of an image of some observer *)
Definition has_image (obs : list (list Z)) (maxdt d : Z) : Prop :=
  exists ts t, In ts obs /\ In t ts /\ Z.abs (d - t) <= Z.abs maxdt.
(** k is the first position of ts nearest to d *)
Definition nearest_at (d : Z) (ts : list Z) (k : nat) : Prop :=
  (k < length ts)%nat /\ (forall t, In t ts -> Z.abs (d - nth k ts 0) <= Z.abs (d - t)) /\
  (forall j, (j < k)%nat -> Z.abs (d - nth k ts 0) < Z.abs (d - nth j ts 0)).
(** the elements a, a+1, ..., b-1 of a list *)
Definition slice {A} (a b : nat) (l : list A) : list A := firstn (b - a) (skipn a l).
(** number of times up to e *)
Definition upto (ts : list Z) (e : Z) : nat := length (filter (fun t => t <=? e) ts).
(** the segments (a, b) that splitting should give: each ends with the last
    image up to its break and starts with the last [overlap] images of the
    segment before *)
Fixpoint segments (ts : list Z) (overlap a : nat) (ends : list Z) : list (nat * nat) :=
  match ends with
  | [] => []
  | e :: r => let b := upto ts e in (a, b) :: segments ts overlap (b - Nat.min overlap (b - a)) r
  end.
