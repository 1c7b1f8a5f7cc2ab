(** Specification vocabulary for camera.py. *)
From Verif Require Import Base HelpersModel CameraModel.
Open Scope R_scope.

(** The named components and where they live in to_array(). *)
Inductive component := Xyz | Viewdir | Imgsz | Foc | Cen | Krad | Ptan.
Definition cpos (q : component) : nat :=
  match q with Xyz => 0 | Viewdir => 3 | Imgsz => 6 | Foc => 8 | Cen => 10 | Krad => 12 | Ptan => 18 end.
Definition clen (q : component) : nat :=
  match q with Xyz => 3 | Viewdir => 3 | Imgsz => 2 | Foc => 2 | Cen => 2 | Krad => 6 | Ptan => 2 end.
Definition cget (q : component) (v : list R) : list R := firstn (clen q) (skipn (cpos q) v).

(** Components an action may change. *)
Definition touches (o : cam_op) : list component :=
  match o with
  | OXyz _ => [Xyz] | OViewdir _ => [Viewdir] | OImgsz _ => [Imgsz] | OF _ => [Foc]
  | OC _ => [Cen] | OK _ => [Krad] | OP _ => [Ptan]
  | OSensorsz _ => [] | OFmm _ => [Foc] | OCmm _ => [Cen]
  | OSetItem i _ =>
    if (i <? 3)%nat then [Xyz] else if (i <? 6)%nat then [Viewdir] else if (i <? 8)%nat then []
    else if (i <? 10)%nat then [Foc] else if (i <? 12)%nat then [Cen]
    else if (i <? 18)%nat then [Krad] else if (i <? 20)%nat then [Ptan] else []
  | OIdealize => [Cen; Krad; Ptan]
  | OResize _ _ _ => [Imgsz; Foc; Cen]
  | OReset => [Xyz; Viewdir; Imgsz; Foc; Cen; Krad; Ptan]
  end.

(** The values given, padded with [d] or truncated to [n]. *)
Definition pad (n : nat) (d : R) (x : list R) : list R := firstn n (x ++ repeat d n).
(** Two values from one (repeated) or more (truncated). *)
Definition pair_of (x : list R) : list R :=
  match x with [] => [] | [a] => [a; a] | a :: b :: _ => [a; b] end.
Definition integral (x : R) : Prop := exists n : Z, x = IZR n.

Definition wf (c : cam) : Prop := length (vec c) = 20%nat /\ length (orig c) = 20%nat.
