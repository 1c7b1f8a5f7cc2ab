(** Specification vocabulary for observers and their images. *)
From Verif Require Import Base HelpersModel TemplateModel ImageModel ImageSpec ObserverModel.
Open Scope Z_scope.

(** no image has the buffer of array [a] as its cached array *)
Definition unheld {V} (st : store V) (a : arr) : Prop := forall im, In im (imgs st) -> hi_array im <> Some (a_buf a).
(** camera sizes are positive, and only arrays whose buffer is not a cached array are shifted *)
Definition clean_op (s : pstate) (x : oop) : Prop :=
  match x with
  | OResize _ n => positive n
  | OShift k _ _ _ => forall a, nth_error (p_arrays s) k = Some a -> unheld (p_store s) a
  | _ => True
  end.
(** the states reached from the start by such histories *)
Inductive clean_run rescale spline cast : pstate -> pstate -> Prop :=
| clean_start : forall s, clean_run rescale spline cast s s
| clean_step : forall s0 s x, clean_run rescale spline cast s0 s -> clean_op s x -> clean_run rescale spline cast s0 (ostep rescale spline cast s x).
(** files are pictures, cameras have a size *)
Definition good_files (files : list (pic (list R) * (Z * Z))) : Prop := Forall (fun fs => proper (fst fs) /\ positive (snd fs)) files.
(** inside the box (l, t, r, d) *)
Definition in_zbox (b : Z * Z * Z * Z) (row col : Z) : Prop := let '(l, t, r, d) := b in t <= row < d /\ l <= col < r.
Definition corner (b : Z * Z * Z * Z) : Z * Z := let '(l, t, r, d) := b in (t, l).
(** the picture an image shows: its file at the size of its camera *)
Definition picture {V} (rescale : pic V -> Z * Z -> pic V) (im : himage V) : pic V := rescale (hi_file im) (hi_cam im).
(** the size of the cached array of an image, else of its file *)
Definition known_size {V} (st : store V) (im : himage V) : Z * Z := match held st im with Some p => psize p | None => psize (hi_file im) end.
