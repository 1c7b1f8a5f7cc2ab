(** Specification vocabulary for Tracker.track. *)
From Verif Require Import Base TrackModel.
Definition matched (matching : list (list (option nat))) (i o : nat) : option nat := nth o (nth i matching []) None.
(** at time i, an observer used by the track has a matching image *)
Definition sees (matching : list (list (option nat))) (mask : list bool) (i : nat) : Prop :=
  exists o k, nth o mask false = true /\ matched matching i o = Some k.
(** i0 is the first time at which observer o has a matching image, k0 *)
Definition first_match (matching : list (list (option nat))) (o i0 k0 : nat) : Prop :=
  matched matching i0 o = Some k0 /\ forall j, (j < i0)%nat -> matched matching j o = None.
(** Every use of a template in the log L is preceded by its making, at the first
    time with a matching image for that observer; no observer's template is made twice. *)
Definition templates_in_order {T} (matching : list (list (option nat))) (mask : list bool) (L : list (@event T)) : Prop :=
  (forall p o i k t, nth_error L p = Some (Used o i k t) ->
     nth o mask false = true /\ matched matching i o = Some k /\
     exists q i0 k0, (q < p)%nat /\ (i0 <= i)%nat /\ first_match matching o i0 k0 /\ nth_error L q = Some (Made o i0 (Some k0) t)) /\
  (forall p q o i1 i2 k1 k2 t1 t2, nth_error L p = Some (Made o i1 k1 t1) -> nth_error L q = Some (Made o i2 k2 t2) -> p = q).
