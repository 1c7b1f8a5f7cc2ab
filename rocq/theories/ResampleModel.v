(** Model of particle weights and resampling, src/glimpse/track/tracker.py:73-223.

    Random draws are arguments.  numpy.searchsorted is modelled as the binary
    search it performs (numpy 1.19.5, npysort/binsearch), because the code
    applies it to arrays that are not always ascending. *)
From Verif Require Import Base XReal.
Open Scope R_scope.

Section Binsearch.
  Context {T : Type} (lt cmp : T -> T -> bool) (d : T).
  (** the loop of numpy's binsearch; [cmp a k] is a < k for side 'left', a <= k for side 'right' *)
  Fixpoint bsearch (arr : list T) (key : T) (fuel lo hi : nat) : nat :=
    match fuel with
    | O => lo
    | S f =>
      if (lo <? hi)%nat then
        let mid := (lo + (hi - lo) / 2)%nat in
        if cmp (nth mid arr d) key then bsearch arr key f (S mid) hi else bsearch arr key f lo mid
      else lo
    end.
  (** all keys in turn; the bounds left by a key are reused for the next *)
  Fixpoint searchsorted_from (arr : list T) (lo hi : nat) (last : T) (keys : list T) : list nat :=
    match keys with
    | [] => []
    | k :: r =>
      let n := length arr in
      let lo' := if lt last k then lo else 0%nat in
      let hi' := if lt last k then n else if (hi <? n)%nat then S hi else n in
      let i := bsearch arr k (S n) lo' hi' in
      i :: searchsorted_from arr i i k r
    end.
  Definition searchsorted_all (arr keys : list T) : list nat :=
    match keys with [] => [] | k :: _ => searchsorted_from arr 0 (length arr) k keys end.
End Binsearch.

(** weights / weights.sum() *)
Definition normalize (ws : list R) : list R := map (fun w => w / sumR ws) ws.

(** tracker.py:168-176; [u] is numpy.random.random() *)
Definition systematic (n : nat) (ws : list R) (u : R) : list nat :=
  let positions := map (fun k => (INR k + u) * (1 / INR n)) (seq 0 n) in
  searchsorted_all Rltb Rltb 0 (cumsum (normalize ws)) positions.
(** tracker.py:178-186; [us] is numpy.random.random(n) *)
Definition stratified (n : nat) (ws : list R) (us : list R) : list nat :=
  let positions := map2 (fun k u => (INR k + u) * (1 / INR n)) (seq 0 n) us in
  searchsorted_all Rltb Rltb 0 (cumsum (normalize ws)) positions.

(** sums of numbers that may be infinite or nan *)
Definition xadd (a b : xr) : xr :=
  match a, b with
  | NaN, _ | _, NaN => NaN
  | Fin x, Fin y => Fin (x + y)
  | PInf, NInf | NInf, PInf => NaN
  | PInf, _ | _, PInf => PInf
  | NInf, _ | _, NInf => NInf
  end.
Fixpoint xcumsum_from (s : xr) (l : list xr) : list xr :=
  match l with [] => [] | x :: r => xadd s x :: xcumsum_from (xadd s x) r end.
(** l[-1] = v *)
Definition set_last {A} (v : A) (l : list A) : list A := set_nth (length l - 1) v l.
(** numpy.repeat(numpy.arange(n), repetitions) *)
Definition repeat_each (reps : list nat) : list nat :=
  concat (map2 (fun k r => repeat k r) (seq 0 (length reps)) reps).
(** tracker.py:188-203; [us] is numpy.random.random(n - len(initial_indexes)) *)
Definition residual_draws (n : nat) (ws : list R) : nat :=
  (n - length (repeat_each (map (fun w => Z.to_nat (Rtrunc (INR n * w))) (normalize ws))))%nat.
Definition residual (n : nat) (ws : list R) (us : list R) : list nat :=
  let ws := normalize ws in
  let repetitions := map (fun w => Z.to_nat (Rtrunc (INR n * w))) ws in
  let initial_indexes := repeat_each repetitions in
  let residuals := map2 (fun w r => w - INR r) ws repetitions in
  let factor := xinv (sumR residuals) in
  let residuals := map (fun r => xmul (Fin r) factor) residuals in
  let cumulative_sum := set_last (Fin 1) (xcumsum_from (Fin 0) residuals) in
  initial_indexes ++ searchsorted_all xlt xlt (Fin 0) cumulative_sum (map Fin us).
(** tracker.py:205-209: numpy.random.choice(p=weights) (numpy 1.19.5: cdf = p.cumsum(); cdf /= cdf[-1];
    cdf.searchsorted(uniform_samples, side='right')) *)
Definition choice (n : nat) (ws : list R) (us : list R) : list nat :=
  let p := normalize ws in
  let cdf := cumsum p in
  let cdf := map (fun c => c / last cdf 0) cdf in
  searchsorted_all Rltb Rleb 0 cdf us.

Inductive method := Systematic (u : R) | Stratified (us : list R) | Residual (us : list R) | Choice (us : list R).
(** tracker.py:211-221 *)
Definition resample_indexes (m : method) (n : nat) (ws : list R) : list nat :=
  match m with
  | Systematic u => systematic n ws u
  | Stratified us => stratified n ws us
  | Residual us => residual n ws us
  | Choice us => choice n ws us
  end.
(** a[indexes] *)
Definition take {A} (l : list A) (idx : list nat) : result (list A) :=
  mapM (fun i => match nth_error l i with Some a => Ok a | None => Err IndexError end) idx.
(** tracker.py:151-223 *)
Definition resample_particles {P} (m : method) (particles : list P) (weights : list R) : result (list P * list R) :=
  let indexes := resample_indexes m (length particles) weights in
  let* particles' := take particles indexes in
  let* weights' := take weights indexes in
  Ok (particles', weights').

(** tracker.py:121-124 *)
Definition initialize_weights {P} (particles : list P) : list R := repeat 1 (length particles).
(** tracker.py:126-149.  [logs] are the log likelihoods of the observers and the motion model, in
    this order, None where there is none; [fexp] is the machine exponential (it may underflow to 0).
    The code's 1e-300 is the positive constant [tiny]. *)
Definition update_weights (fexp : R -> R) (tiny : R) (logs : list (option (list R))) (weights : list R) : list R :=
  let present := flat_map (fun o => match o with Some l => [l] | None => [] end) logs in
  match present with
  | [] => weights
  | l :: ls => map (fun s => fexp (- s) + tiny) (fold_left (map2 Rplus) ls (map (fun x => 0 + x) l))
  end.

(** numpy.average(a, weights=w) for one column (numpy 1.19.5 raises ZeroDivisionError when the weights sum to zero) *)
Definition average (a ws : list R) : result R :=
  if Reqb (sumR ws) 0 then Err ZeroDivisionError
  else Ok (sumR (map2 Rmult a ws) / sumR ws).
(** A particle has 6 components; a column is one component of all particles.
    tracker.py:73-76 *)
Definition particle_mean (cols : list (list R)) (ws : list R) : result (list R) := mapM (fun a => average a ws) cols.
(** tracker.py:89-104 with mean=None or the mean *)
Definition compute_particle_sigma (cols : list (list R)) (ws : list R) : result (list R) :=
  let* means := particle_mean cols ws in
  mapM (fun am => let* v := average (map (fun x => (x - snd am) ^ 2) (fst am)) ws in Ok (sqrt v)) (combine cols means).
(** tracker.py:78-82: numpy.cov(particles.T, aweights=weights, ddof=0): X - average(X), times w, dotted, over the sum of weights *)
Definition particle_covariance (cols : list (list R)) (ws : list R) : result (list (list R)) :=
  let* means := particle_mean cols ws in
  let X := map2 (fun a m => map (fun x => x - m) a) cols means in
  Ok (map (fun a => map (fun b => sumR (map2 Rmult a (map2 Rmult b ws)) * (1 / sumR ws)) X) X).
