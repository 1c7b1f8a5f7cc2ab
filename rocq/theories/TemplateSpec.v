(** Specification vocabulary for template matching. *)
From Verif Require Import Base TemplateModel.
Open Scope R_scope.

Definition box_w (b : zbox) : Z := let '(l, _, r, _) := b in (r - l)%Z.
Definition box_h (b : zbox) : Z := let '(_, t, _, d) := b in (d - t)%Z.
Definition box_corner (b : zbox) : R * R := let '(l, t, _, _) := b in (IZR l, IZR t).
Definition box_center (b : zbox) : R * R := let '(l, t, r, d) := b in ((IZR l + IZR r) / 2, (IZR t + IZR d) / 2).
(** the box is within an image of nx by ny pixels *)
Definition inside_image (nx ny : Z) (b : zbox) : Prop := let '(l, t, r, d) := b in (0 <= l <= r /\ r <= nx /\ 0 <= t <= d /\ d <= ny)%Z.
(** a tile of h rows and w columns *)
Definition shaped (a : tile) (h w : nat) : Prop := length a = h /\ Forall (fun row => length row = w) a.
(** reading a box of the image gives one value per pixel *)
Definition reads_pixels (nx ny : Z) (extract : zbox -> result tile) : Prop :=
  forall b, inside_image nx ny b -> exists a, extract b = Ok a /\ shaped a (Z.to_nat (box_h b)) (Z.to_nat (box_w b)).
(** mean squared difference between the template and the part of the search tile it covers when its upper left corner is
    at row r, column c *)
Definition mean_sq_diff (search tl : tile) (r c : nat) : R :=
  let h := length tl in let w := length (hd [] tl) in
  sumR (map (fun i => sumR (map (fun j => (cell search (r + i) (c + j) - cell tl i j) ^ 2) (seq 0 w))) (seq 0 h)) / (INR w * INR h).
(** the surface through the nodes: what is assumed of the spline *)
Definition interpolates (spline : list R -> list R -> tile -> R -> R -> R) : Prop :=
  forall cv cu a r c, (r < length cv)%nat -> (c < length cu)%nat -> spline cv cu a (nth r cv 0) (nth c cu 0) = cell a r c.
