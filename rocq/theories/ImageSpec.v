(** Specification vocabulary for Image. *)
From Verif Require Import Base HelpersModel CameraModel ImageModel.
Open Scope Z_scope.

Section Spec.
Context {V : Type}.
(** a picture with at least one pixel whose rows all have its width *)
Definition proper (a : pic V) : Prop :=
  0 < pw a /\ 0 < ph a /\ length (rows a) = Z.to_nat (ph a) /\ forall r, In r (rows a) -> length r = Z.to_nat (pw a).
Definition pixel (a : pic V) (row col : Z) : option V :=
  match nth_error (rows a) (Z.to_nat row) with Some r => nth_error r (Z.to_nat col) | None => None end.
(** [t] is the part of [a] in the box *)
Definition tile_of (a : pic V) (b : Z * Z * Z * Z) (t : pic V) : Prop :=
  let '(l, tp, r, d) := b in
  proper t /\ pw t = r - l /\ ph t = d - tp /\
  forall i j, 0 <= i < ph t -> 0 <= j < pw t -> pixel t i j = pixel a (tp + i) (l + j) /\ pixel t i j <> None.
Definition box_inside (w h : Z) (b : Z * Z * Z * Z) : Prop := let '(l, t, r, d) := b in 0 <= l < r /\ r <= w /\ 0 <= t < d /\ d <= h.
(** what is asked of GDAL: a window read at its own size is unchanged, and the size is the one asked for *)
Definition good_rescale (rescale : pic V -> Z * Z -> pic V) : Prop :=
  (forall a, proper a -> rescale a (psize a) = a) /\
  (forall a w h, proper a -> 0 < w -> 0 < h -> proper (rescale a (w, h)) /\ psize (rescale a (w, h)) = (w, h)).
Definition positive (n : Z * Z) : Prop := 0 < fst n /\ 0 < snd n.
(** histories with sensible camera sizes *)
Definition sensible (o : iop) : Prop := match o with IResize n => positive n | _ => True end.
Definition reached (rescale : pic V -> Z * Z -> pic V) (file : pic V) (s : istate V) : Prop :=
  exists size os, positive size /\ Forall sensible os /\ s = irun rescale file os (fresh size).
End Spec.
