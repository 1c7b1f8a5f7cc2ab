(** Specification vocabulary for optimize.Cameras. *)
From Verif Require Import Base XReal ParamsModel.
Open Scope R_scope.

(** A consistent model: distinct camera objects with 20 parameters each, one mask of 20 entries per camera and per group, groups of existing
    cameras, and no camera in two groups that share a parameter (accepted by the constructor). *)
Definition consistent (m : model) (h : heap) : Prop :=
  NoDup (m_cams m) /\ (forall o, In o (m_cams m) -> length (h o) = 20%nat) /\
  length (m_cam_masks m) = length (m_cams m) /\ length (m_group_masks m) = length (m_group_indices m) /\
  Forall (fun k => length k = 20%nat) (m_cam_masks m) /\ Forall (fun k => length k = 20%nat) (m_group_masks m) /\
  Forall (Forall (fun j => (j < length (m_cams m))%nat)) (m_group_indices m) /\
  overlap_test m = Ok tt.

Definition on (mask : list bool) (q : nat) : bool := nth q mask false.
Definition cam_on (m : model) (j q : nat) : bool := on (nth j (m_cam_masks m) []) q.
Definition group_on (m : model) (i q : nat) : bool := on (nth i (m_group_masks m) []) q.
Definition member (m : model) (i j : nat) : Prop := exists idx, nth_error (m_group_indices m) i = Some idx /\ In j idx.
Definition grouped (m : model) (j : nat) : Prop := exists i, member m i j.

(** Where a parameter is in the vector [group0 | group1 | ... | cam0 | cam1 | ...]. *)
Definition total (ms : list (list bool)) : nat := fold_right plus 0%nat (map count_true ms).
Definition rank (mask : list bool) (q : nat) : nat := count_true (firstn q mask).
Definition group_pos (m : model) (i q : nat) : nat := (total (firstn i (m_group_masks m)) + rank (nth i (m_group_masks m) []) q)%nat.
Definition cam_pos (m : model) (j q : nat) : nat :=
  (total (m_group_masks m) + total (firstn j (m_cam_masks m)) + rank (nth j (m_cam_masks m) []) q)%nat.
Definition n_params (m : model) : nat := (total (m_group_masks m) + total (m_cam_masks m))%nat.

(** What set_cameras(params) is documented to do to parameter q of the camera at position j. *)
Definition camera_value (m : model) (params : list R) (h h' : heap) (j q : nat) : Prop :=
  let o := nth j (m_cams m) 0%nat in
  (cam_on m j q = true -> nth q (h' o) 0 = nth (cam_pos m j q) params 0) /\
  (forall i, member m i j -> group_on m i q = true -> cam_on m j q = false -> nth q (h' o) 0 = nth (group_pos m i q) params 0) /\
  ((forall i, member m i j -> group_on m i q = false) -> cam_on m j q = false -> nth q (h' o) 0 = nth q (h o) 0).

(** A control's predictions only depend on its cameras, and there is one per observed point. *)
Definition local (c : control) : Prop :=
  (forall h h', (forall o, In o (ct_cams c) -> h o = h' o) -> ct_predict c h = ct_predict c h') /\
  (forall h l, ct_predict c h = Ok l -> length l = ct_size c).

(** Entry [row] of the flattened list of residuals. *)
Definition flat (l : list (R * R)) (row : nat) : R :=
  let a := nth (row / 2) l (0, 0) in if Nat.even row then fst a else snd a.

(** The parameters of a camera, in order: xyz, viewdir (3 each), imgsz, f, c (2 each), k (6), p (2). *)
Definition attr_len (a : attr) : Z := match a with Axyz | Aviewdir => 3 | Aimgsz | Af | Ac => 2 | Ak => 6 | Ap => 2 end.
Definition first (a : attr) : Z := match a with Axyz => 0 | Aviewdir => 3 | Aimgsz => 6 | Af => 8 | Ac => 10 | Ak => 12 | Ap => 18 end.
(** Documented selections: True, or indices within the attribute. *)
Definition in_attr (a : attr) (i : Z) : Prop := (0 <= i < attr_len a)%Z.
Definition chosen (a : attr) (s : sel) (i : Z) : Prop :=
  match s with STrue => in_attr a i | SInt k => i = k | SList l => In i l | SFalse | SNone => False end.
Definition documented (a : attr) (s : sel) : Prop :=
  match s with STrue => True | SNone => True | SFalse => False | SInt k => in_attr a k | SList l => NoDup l /\ Forall (in_attr a) l end.
(** The bounds for the n-th chosen element. *)
Definition nth_choice (a : attr) (s : sel) (n : nat) : option Z :=
  match s with
  | STrue => if (Z.of_nat n <? attr_len a)%Z then Some (Z.of_nat n) else None
  | SInt k => match n with O => Some k | _ => None end
  | SList l => nth_error l n
  | _ => None
  end.
Definition bound_fits (a : attr) (v : pval) : Prop :=
  match v with
  | PSel _ => True
  | PBounded s lo hi =>
    let n := length (positions_of a s) in (0 < n)%nat /\ (length lo = 1%nat \/ length lo = n) /\ (length hi = 1%nat \/ length hi = n)
  end.
Definition bound_at (l : list xr) (n : nat) : xr := match l with [x] => x | _ => nth n l NaN end.
Definition or_default (x d : xr) : xr := match x with NaN => d | _ => x end.
