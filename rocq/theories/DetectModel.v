(** Model of detect_keypoints, src/glimpse/optimize.py:2191-2228.

    Descriptors are exact reals; [detect] is detectAndCompute of the OpenCV detector, for an array of bytes and a mask of bytes: the keypoints
    and one row of descriptors for each, or None if there are no keypoints (line 2222).  Values of arrays are reals (pixels of all channels in
    one list); casts to bytes drop decimals and wrap around, as numpy does for values in the range of its integers. *)
From Verif Require Import Base.
Open Scope R_scope.

(** np.asarray(x, dtype=np.uint8), optimize.py:2217-2219 *)
Definition to_byte (x : R) : Z := (Rtrunc x mod 256)%Z.
Definition sum_row (d : list R) : R := fold_right Rplus 0 d.
(** optimize.py:2224-2227: for one row; a row is not divided by zero because of the added 1e-7 *)
Definition root_row (d : list R) : list R := map (fun x => sqrt (x / (sum_row d + / 10000000))) d.
Definition detect_keypoints {K} (detect : list Z -> option (list Z) -> list K * option (list (list R))) (array : list R) (mask : option (list R)) (root : bool)
  : list K * option (list (list R)) :=
  let (keypoints, descriptors) := detect (map to_byte array) (option_map (map to_byte) mask) in
  if root then (keypoints, option_map (map root_row) descriptors) else (keypoints, descriptors).
