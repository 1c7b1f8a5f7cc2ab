(** Specification vocabulary for resampling. *)
From Verif Require Import Base.
From Coq Require Import Sorting.Sorted.
Open Scope R_scope.
(** a distribution up to scale *)
Definition weights_ok (ws : list R) : Prop := Forall (fun w => 0 <= w) ws /\ 0 < sumR ws.
(** relative weight of particle i *)
Definition share (ws : list R) (i : nat) : R := nth i ws 0 / sumR ws.
(** total relative weight of the particles before i *)
Definition share_before (ws : list R) (i : nat) : R := sumR (firstn i ws) / sumR ws.
Definition copies (idx : list nat) (i : nat) : Z := Z.of_nat (count_occ Nat.eq_dec idx i).
Definition unit_draw (u : R) : Prop := 0 < u < 1.
(** the particles and weights at the selected indexes *)
Definition selects {P} (d : P) (ps : list P) (ws : list R) (idx : list nat) (ps' : list P) (ws' : list R) : Prop :=
  ps' = map (fun i => nth i ps d) idx /\ ws' = map (fun i => nth i ws 0) idx /\ Forall (fun i => (i < length ps)%nat) idx.
