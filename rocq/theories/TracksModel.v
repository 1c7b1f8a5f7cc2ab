(** Model of the accessors of Tracks, src/glimpse/track/tracks.py:90-138.
    A track is its list of means over time, each (x, y, z, vx, vy, vz) with None = nan. *)
From Verif Require Import Base TrackModel.
Open Scope R_scope.

Definition mean6 := list (option R).
(** tracks.py:116-120 *)
Definition success {E} (errors : option (list (option E))) : option (list bool) :=
  option_map (map (fun e => match e with None => true | Some _ => false end)) errors.
(** valid = ~isnan(means[tracks, :, 0]), for the selected tracks *)
Definition valid (means : list (list mean6)) : list (list bool) :=
  map (map (fun m => is_some (nth 0 m None))) means.
(** numpy.argmax along axis 1 raises for an empty axis *)
Definition argmax_row (r : list bool) : result nat := match r with [] => Err ValueError | _ => Ok (argmaxb r) end.
(** array[mask] *)
Definition masked {A} (l : list A) (mask : list bool) : list A := map fst (filter snd (combine l mask)).
(** tracks.py:134-138 *)
Definition endpoints (means : list (list mean6)) : result (list bool * list nat * list nat) :=
  let v := valid means in
  let* first := mapM argmax_row v in
  let* last_ := mapM (fun r => let* i := argmax_row (rev r) in Ok (length r - 1 - i)%nat) v in
  let first_valid := map2 (fun r i => nth i r false) v first in
  Ok (first_valid, masked first first_valid, masked last_ first_valid).

(** tracks.py:90-98 *)
Definition xyz (means : list (list mean6)) : list (list (list (option R))) := map (map (firstn 3)) means.
Definition vxyz (means : list (list mean6)) : list (list (list (option R))) := map (map (fun m => firstn 3 (skipn 3 m))) means.
(** tracks.py:100-114: components 0:3 (or 3:6) of sigmas, else the square roots of the diagonal of covariances *)
Definition diag_sqrt (from : nat) (c : list (list (option R))) : list (option R) :=
  map (fun i => option_map sqrt (nth i (nth i c []) None)) (seq from 3).
Definition xyz_sigma (sigmas : option (list (list mean6))) (covs : option (list (list (list mean6)))) : option (list (list mean6)) :=
  match sigmas with Some s => Some (map (map (firstn 3)) s) | None => option_map (map (map (diag_sqrt 0))) covs end.
Definition vxyz_sigma (sigmas : option (list (list mean6))) (covs : option (list (list (list mean6)))) : option (list (list mean6)) :=
  match sigmas with Some s => Some (map (map (fun m => firstn 3 (skipn 3 m))) s) | None => option_map (map (map (diag_sqrt 3))) covs end.
