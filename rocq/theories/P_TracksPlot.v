(** Property C121: plots of tracks. *)
From Coq Require Import String Sorting.Sorted.
From Verif Require Import Base BaseLemmas HelpersModel TrackModel TracksModel PlotModel P_Plot TracksPlotModel.
From Verif Require GetitemModel P_Getitem.
Open Scope R_scope.

(** ** Specification *)
(** The tracks of an index *)
Definition picks (n : nat) (ix : pindex) (sel : list nat) : Prop :=
  match ix with One i => exists k, sel = [k] /\ (k < n)%nat /\ (i = Z.of_nat k \/ i = (Z.of_nat k - Z.of_nat n)%Z) | _ => selects n ix sel end.
(** True or arguments *)
Definition on (s : shown) : Prop := s = Flag true \/ exists d, s = Dict d /\ d <> [].
Definition given (s : shown) (k : string) : option pvalue := match s with Dict d => kget k d | Flag _ => None end.
(** A mean, x or y of its position, or its velocity in one dimension (None = nan) *)
Definition position (m : mean6) : pt := (nth 0 m None, nth 1 m None).
Definition velocity (k : nat) (m : mean6) : option R := nth (3 + k) m None.
(** The standard deviation of entry k of a mean: given, else the square root of the variance *)
Definition deviation (sigmas : option (list (list mean6))) (covs : option (list (list (list mean6)))) (i t k : nat) : option R :=
  match sigmas, covs with
  | Some s, _ => nth k (nth t (nth i s []) []) None
  | None, Some c => option_map sqrt (nth k (nth k (nth t (nth i c []) []) []) None)
  | None, None => None
  end.
(** As many times of each track as of its means *)
Definition shaped (means : list (list mean6)) (sigmas : option (list (list mean6))) (covs : option (list (list (list mean6)))) : Prop :=
  match sigmas, covs with
  | Some s, _ => forall i, length (nth i s []) = length (nth i means [])
  | None, Some c => forall i, length (nth i c []) = length (nth i means [])
  | None, None => True
  end.
(** The color of the means, if given, else black *)
Definition drawn_color (mean : shown) : pvalue := match given mean "color" with Some c => c | None => PText "black" end.
(* ---------------------------------------------------------------- *)

Lemma rows_spec n ix sel : rows n ix = Ok sel -> picks n ix sel /\ forall k, In k sel -> (k < n)%nat.
Proof.
  destruct ix as [|i|l|m|a b s]; cbn [rows picks]; try (intros E; now apply chosen_spec in E).
  destruct (py_get (seq 0 n) i) as [k|] eqn:E; [|discriminate]. cbn [bind]. intros Q. injection Q as <-. apply py_get_seq in E as [E1 E2]. split; [eauto|]. intros j [<-|[]]. exact E1.
Qed.
Lemma truthy_on s : truthy s = true <-> on s.
Proof.
  split.
  - destruct s as [[]|[|x d]]; cbn; try discriminate; [now left|]. intros _. right. eexists. split; [reflexivity|discriminate].
  - intros [->|(d & -> & N)]; [reflexivity|]. destruct d; [contradiction|reflexivity].
Qed.
Lemma with_default_spec d s k : kget k (with_default d s) = match given s k with Some v => Some v | None => kget k d end.
Proof. unfold with_default. rewrite kget_merge. destruct s; reflexivity. Qed.
Lemma mean_color_spec mean : mean_color mean (PText "black") = drawn_color mean.
Proof.
  unfold mean_color, drawn_color. rewrite with_default_spec. destruct mean as [[]|[|x d]]; cbn [truthy given]; try reflexivity.
  destruct (kget "color" (x :: d)); reflexivity.
Qed.
Lemma nth_map_in {A B} (f : A -> B) l i d d' : f d' = d -> nth i (map f l) d = f (nth i l d').
Proof. intros <-. apply map_nth. Qed.
Lemma nth_firstn_lt {A} n k (l : list A) d : (k < n)%nat -> nth k (firstn n l) d = nth k l d.
Proof. revert k l. induction n as [|n IH]; intros [|k] [|x l] H; try lia; try reflexivity. cbn. apply IH. lia. Qed.
Lemma nth_skip {A} n k (l : list A) d : nth k (skipn n l) d = nth (n + k) l d.
Proof. revert l. induction n as [|n IH]; intros l; [reflexivity|]. destruct l as [|x l]; [destruct k; reflexivity|]. apply IH. Qed.
Lemma component_xyz means k i : (k < 3)%nat -> component (xyz means) k i = map (fun m => nth k m None) (nth i means []).
Proof. intros H. unfold component, xyz. rewrite (nth_map_in (map (firstn 3)) means i [] []) by reflexivity. rewrite map_map. apply map_ext. intros m. now apply nth_firstn_lt. Qed.
Lemma component_vxyz means k i : (k < 3)%nat -> component (vxyz means) k i = map (velocity k) (nth i means []).
Proof. intros H. unfold component, vxyz. rewrite (nth_map_in (map (fun m => firstn 3 (skipn 3 m))) means i [] []) by reflexivity. rewrite map_map. apply map_ext. intros m. rewrite nth_firstn_lt by exact H. apply nth_skip. Qed.
Lemma combine_map {A B C} (f : A -> B) (g : A -> C) l : combine (map f l) (map g l) = map (fun a => (f a, g a)) l.
Proof. induction l as [|a l IH]; [reflexivity|]. cbn. now rewrite IH. Qed.
Lemma path_xyz means i : path (xyz means) i = map position (nth i means []).
Proof. unfold path. rewrite !component_xyz by lia. apply combine_map. Qed.
Lemma path_vxyz means i : path (vxyz means) i = map (fun m => (velocity 0 m, velocity 1 m)) (nth i means []).
Proof. unfold path. rewrite !component_vxyz by lia. apply combine_map. Qed.
Lemma map_seq_nth {A B} (f : A -> B) l d : map f l = map (fun t => f (nth t l d)) (seq 0 (length l)).
Proof. induction l as [|a l IH]; [reflexivity|]. cbn [length seq map nth]. f_equal. rewrite <- seq_shift, map_map. exact IH. Qed.
Lemma component_sigma means sigmas covs s k i : shaped means sigmas covs -> xyz_sigma sigmas covs = Some s -> (k < 3)%nat -> component s k i = map (fun t => deviation sigmas covs i t k) (seq 0 (length (nth i means []))).
Proof.
  intros W E H. unfold xyz_sigma in E. destruct sigmas as [s'|].
  - injection E as <-. transitivity (component (xyz s') k i); [reflexivity|]. rewrite component_xyz by exact H. rewrite (map_seq_nth _ _ []). cbn [deviation]. cbn [shaped] in W. now rewrite W.
  - destruct covs as [c|]; [|discriminate]. injection E as <-. unfold component. rewrite (nth_map_in (map (diag_sqrt 0)) c i [] []) by reflexivity. rewrite map_map. rewrite (map_seq_nth _ _ []). cbn [shaped] in W. rewrite W. apply map_ext. intros t. cbn [deviation].
    unfold diag_sqrt. cbn [seq map]. destruct k as [|[|[|k]]]; [reflexivity|reflexivity|reflexivity|lia].
Qed.
Lemma component_vsigma means sigmas covs s k i : shaped means sigmas covs -> vxyz_sigma sigmas covs = Some s -> (k < 3)%nat -> component s k i = map (fun t => deviation sigmas covs i t (3 + k)) (seq 0 (length (nth i means []))).
Proof.
  intros W E H. unfold vxyz_sigma in E. destruct sigmas as [s'|].
  - injection E as <-. transitivity (component (vxyz s') k i); [reflexivity|]. rewrite component_vxyz by exact H. rewrite (map_seq_nth (velocity k) (nth i s' []) []). cbn [shaped] in W. now rewrite W.
  - destruct covs as [c|]; [|discriminate]. injection E as <-. unfold component. rewrite (nth_map_in (map (diag_sqrt 3)) c i [] []) by reflexivity. rewrite map_map. rewrite (map_seq_nth _ _ []). cbn [shaped] in W. rewrite W. apply map_ext. intros t. cbn [deviation].
    unfold diag_sqrt. cbn [seq map]. destruct k as [|[|[|k]]]; [reflexivity|reflexivity|reflexivity|lia].
Qed.
Lemma when_spec {A} b (x : result A) o : when b x = Ok o -> match o with None => b = false | Some a => b = true /\ x = Ok a end.
Proof. unfold when. destruct b; [|intros E; injection E as <-; reflexivity]. destruct x as [a|]; [|discriminate]. cbn [bind]. intros E. injection E as <-. split; reflexivity. Qed.
Lemma off s : truthy s = false -> ~ on s.
Proof. intros E H. apply truthy_on in H. congruence. Qed.
Lemma Forall2_map {A B} (f : A -> B) l : Forall2 (fun a b => b = f a) l (map f l).
Proof. induction l; constructor; [reflexivity|assumption]. Qed.
Ltac keys := unfold kget; cbn [find fst snd]; rewrite !(String.eqb_sym _ _).

(** C121: plot_xy.  Means: the positions of each selected track as a line.  Start: the positions of all selected tracks at the first time.  Sigma: the
    positions of each selected track with the deviations in x and y.  Options given come before the defaults; the color of the means, if given, is also that of
    starts and sigmas. *)
Theorem tracks_plot_xy times means sigmas covs ix start mean sigma p : shaped means sigmas covs -> plot_xy times means sigmas covs ix start mean sigma = Ok p ->
  match xp_mean p with
  | None => ~ on mean
  | Some (l, kw) => on mean /\ (exists sel, picks (length means) ix sel /\ Forall2 (fun i path => path = map position (nth i means [])) sel l) /\
      forall k, kget k kw = match given mean k with Some v => Some v | None => if String.eqb k "color" then Some (PText "black") else None end
  end /\
  match xp_start p with
  | None => ~ on start
  | Some (l, kw) => on start /\ times <> [] /\ (exists sel, picks (length means) ix sel /\ Forall2 (fun i pos => pos = nth 0 (map position (nth i means [])) (None, None)) sel l) /\
      forall k, kget k kw = match given start k with
                            | Some v => Some v
                            | None => if String.eqb k "color" then Some (drawn_color mean) else if String.eqb k "marker" then Some (PText ".") else if String.eqb k "linestyle" then Some (PText "none") else None
                            end
  end /\
  match xp_sigma p with
  | None => ~ on sigma
  | Some (l, kw) => on sigma /\ (exists sel, picks (length means) ix sel /\
        Forall2 (fun i d => (sigmas <> None \/ covs <> None) /\ fst d = map position (nth i means []) /\ snd d = map (fun t => (deviation sigmas covs i t 0, deviation sigmas covs i t 1)) (seq 0 (length (nth i means [])))) sel l) /\
      forall k, kget k kw = match given sigma k with
                            | Some v => Some v
                            | None => if String.eqb k "color" then Some (drawn_color mean) else if String.eqb k "alpha" then Some (PNum (25 / 100)) else None
                            end
  end.
Proof.
  intros W. unfold plot_xy. destruct (when (truthy mean) _) as [m|] eqn:Em; [|discriminate]. cbn [bind].
  destruct (when (truthy start) _) as [s|] eqn:Es; [|discriminate]. cbn [bind]. destruct (when (truthy sigma) _) as [g|] eqn:Eg; [|discriminate]. cbn [bind]. intros Q. injection Q as <-. cbn [xp_mean xp_start xp_sigma].
  apply when_spec in Em. apply when_spec in Es. apply when_spec in Eg. split; [|split].
  - destruct m as [[l kw]|]; [|now apply off]. destruct Em as [T E]. apply truthy_on in T. destruct (rows (length means) ix) as [sel|] eqn:R; [|discriminate]. cbn [bind] in E. injection E as <- <-. apply rows_spec in R as [R B].
    split; [exact T|]. split.
    + exists sel. split; [exact R|]. clear. induction sel; constructor; [apply path_xyz|assumption].
    + intros k. rewrite with_default_spec. destruct (given mean k); [reflexivity|]. unfold kget. cbn [find fst snd]. rewrite (String.eqb_sym _ k). destruct (String.eqb k "color"); reflexivity.
  - destruct s as [[l kw]|]; [|now apply off]. destruct Es as [T E]. apply truthy_on in T. destruct (rows (length means) ix) as [sel|] eqn:R; [|discriminate]. cbn [bind] in E. destruct times as [|t0 times]; [discriminate|]. injection E as <- <-. apply rows_spec in R as [R B].
    split; [exact T|]. split; [discriminate|]. split.
    + exists sel. split; [exact R|]. clear. induction sel; constructor; [now rewrite path_xyz|assumption].
    + intros k. rewrite with_default_spec, mean_color_spec. destruct (given start k); [reflexivity|]. unfold kget. cbn [find fst snd]. rewrite !(String.eqb_sym _ k).
      destruct (String.eqb k "color"); [reflexivity|]. destruct (String.eqb k "marker"); [reflexivity|]. destruct (String.eqb k "linestyle"); reflexivity.
  - destruct g as [[l kw]|]; [|now apply off]. destruct Eg as [T E]. apply truthy_on in T. destruct (rows (length means) ix) as [sel|] eqn:R; [|discriminate]. cbn [bind] in E. destruct (mapM _ sel) as [l'|] eqn:M; [|discriminate]. cbn [bind] in E. injection E as <- <-. apply rows_spec in R as [R B].
    split; [exact T|]. split.
    + exists sel. split; [exact R|]. apply mapM_Forall2 in M. clear B R; try clear Em; try clear Es. induction M as [|i d sel l H M IH]; [constructor|constructor; [|exact IH]].
      destruct (xyz_sigma sigmas covs) as [s'|] eqn:Ex; [|discriminate]. injection H as <-. cbn [fst snd]. split; [destruct sigmas; [left; discriminate|destruct covs; [right; discriminate|discriminate]]|]. split; [apply path_xyz|].
      unfold path. rewrite !(component_sigma means sigmas covs s') by (assumption || lia). apply combine_map.
    + intros k. rewrite with_default_spec, mean_color_spec. destruct (given sigma k); [reflexivity|]. unfold kget. cbn [find fst snd]. rewrite !(String.eqb_sym _ k).
      destruct (String.eqb k "color"); [reflexivity|]. destruct (String.eqb k "alpha"); reflexivity.
Qed.
Print Assumptions tracks_plot_xy.
(** It succeeds for every index of tracks (also a single one), if there are deviations for sigmas and at least one time for starts. *)
Theorem tracks_plot_xy_total times means sigmas covs ix start mean sigma : (exists sel, rows (length means) ix = Ok sel) -> times <> [] -> (on sigma -> sigmas <> None \/ covs <> None) ->
  exists p, plot_xy times means sigmas covs ix start mean sigma = Ok p.
Proof.
  intros [sel E] N C. unfold plot_xy, when. rewrite E. cbn [bind]. destruct times as [|t times]; [contradiction|].
  assert (G : truthy sigma = true -> exists l, mapM (fun i => match xyz_sigma sigmas covs with None => Err TypeError | Some s => Ok (path (xyz means) i, path s i) end) sel = Ok l).
  { intros T. apply truthy_on, C in T. destruct (xyz_sigma sigmas covs) as [s|] eqn:X; [|exfalso; unfold xyz_sigma in X; destruct sigmas; [discriminate|]; destruct covs; [discriminate|]; destruct T; contradiction].
    clear. induction sel as [|i sel [l IH]]; [eexists; reflexivity|]. cbn [mapM]. rewrite IH. eexists. reflexivity. }
  destruct (truthy mean), (truthy start); cbn [bind]; (destruct (truthy sigma); [destruct (G eq_refl) as [l ->]|]; cbn [bind]; eexists; reflexivity).
Qed.
Print Assumptions tracks_plot_xy_total.
(** "arguments to pyplot.plot (dict)": an empty dictionary of arguments is taken as False. *)
Theorem tracks_plot_empty_refuted times means sigmas covs dim ix start mean sigma :
  plot_xy times means sigmas covs ix start (Dict []) sigma = plot_xy times means sigmas covs ix start (Flag false) sigma /\
  plot_xy times means sigmas covs ix (Dict []) mean sigma = plot_xy times means sigmas covs ix (Flag false) mean sigma /\
  plot_xy times means sigmas covs ix start mean (Dict []) = plot_xy times means sigmas covs ix start mean (Flag false) /\
  plot_v1d means sigmas covs dim ix (Dict []) sigma = plot_v1d means sigmas covs dim ix (Flag false) sigma /\
  plot_v1d means sigmas covs dim ix mean (Dict []) = plot_v1d means sigmas covs dim ix mean (Flag false).
Proof. repeat split. Qed.
Print Assumptions tracks_plot_empty_refuted.
(** "starting x, y": a track that starts later, after times without a position, has no start in the plot, whatever its first position is (compare
    Tracks.endpoints). *)
Theorem tracks_plot_start_refuted times means sigmas covs ix start mean sigma p l kw : plot_xy times means sigmas covs ix start mean sigma = Ok p -> xp_start p = Some (l, kw) ->
  exists sel, picks (length means) ix sel /\ length l = length sel /\
  forall j i m ms, nth_error sel j = Some i -> nth i means [] = m :: ms -> nth 0 m None = None -> exists y, nth_error l j = Some (None, y).
Proof.
  intros E S. unfold plot_xy in E. destruct (when (truthy mean) _) as [mm|]; [|discriminate]. cbn [bind] in E. destruct (when (truthy start) _) as [s|] eqn:Es; [|discriminate]. cbn [bind] in E.
  destruct (when (truthy sigma) _) as [g|]; [|discriminate]. cbn [bind] in E. injection E as <-. cbn [xp_start] in S. subst s. apply when_spec in Es as [_ Es].
  destruct (rows (length means) ix) as [sel|] eqn:R; [|discriminate]. cbn [bind] in Es. destruct times as [|t0 times]; [discriminate|]. injection Es as <- <-. apply rows_spec in R as [R _]. exists sel. split; [exact R|]. split; [apply map_length|].
  intros j i m ms Hj Hm Hn. rewrite (map_nth_error _ _ _ Hj). rewrite path_xyz, Hm. cbn [map nth]. unfold position. rewrite Hn. eauto.
Qed.
Print Assumptions tracks_plot_start_refuted.

(** C121: plot_vxy.  An arrow along the velocity at each position of each selected track *)
Theorem tracks_plot_vxy means ix kw l kw' : plot_vxy means ix kw = Ok (l, kw') ->
  (exists sel, picks (length means) ix sel /\ Forall2 (fun i d => fst d = map position (nth i means []) /\ snd d = map (fun m => (velocity 0 m, velocity 1 m)) (nth i means [])) sel l) /\
  forall k, kget k kw' = match kget k kw with Some v => Some v | None => if String.eqb k "angles" then Some (PText "xy") else None end.
Proof.
  unfold plot_vxy. destruct (rows (length means) ix) as [sel|] eqn:R; [|discriminate]. cbn [bind]. intros E. injection E as <- <-. apply rows_spec in R as [R _]. split.
  - exists sel. split; [exact R|]. clear. induction sel; constructor; [cbn [fst snd]; split; [apply path_xyz|apply path_vxyz]|assumption].
  - intros k. rewrite kget_merge. destruct (kget k kw); [reflexivity|]. unfold kget. cbn [find fst snd]. rewrite (String.eqb_sym _ k). destruct (String.eqb k "angles"); reflexivity.
Qed.
Print Assumptions tracks_plot_vxy.

(** C121: plot_v1d.  The velocity in one dimension (0, 1, 2, or -3, -2, -1) over time, and a band of one deviation on either side *)
Theorem tracks_plot_v1d means sigmas covs dim ix mean sigma p : shaped means sigmas covs -> plot_v1d means sigmas covs dim ix mean sigma = Ok p ->
  match vp_mean p with
  | None => ~ on mean
  | Some (l, kw) => on mean /\ (exists sel k, picks (length means) ix sel /\ (k < 3)%nat /\ (dim = Z.of_nat k \/ dim = Z.of_nat k - 3)%Z /\ Forall2 (fun i v => v = map (velocity k) (nth i means [])) sel l) /\
      forall k, kget k kw = match given mean k with Some v => Some v | None => if String.eqb k "color" then Some (PText "black") else None end
  end /\
  match vp_sigma p with
  | None => ~ on sigma
  | Some (l, kw) => on sigma /\ (exists sel, picks (length means) ix sel /\
        Forall2 (fun i d => exists k, (k < 3)%nat /\ (dim = Z.of_nat k \/ dim = Z.of_nat k - 3)%Z /\ length (fst d) = length (nth i means []) /\ length (snd d) = length (nth i means []) /\
          forall t m, nth_error (nth i means []) t = Some m ->
            match velocity k m, deviation sigmas covs i t (3 + k) with
            | Some v, Some s => exists hi lo, nth_error (fst d) t = Some (Some hi) /\ nth_error (snd d) t = Some (Some lo) /\ hi - v = s /\ v - lo = s
            | _, _ => nth_error (fst d) t = Some None /\ nth_error (snd d) t = Some None
            end) sel l) /\
      forall k, kget k kw = match given sigma k with
                            | Some v => Some v
                            | None => if String.eqb k "facecolor" then Some (drawn_color mean) else if String.eqb k "edgecolor" then Some (PText "none") else if String.eqb k "alpha" then Some (PNum (25 / 100)) else None
                            end
  end.
Proof.
  intros W. unfold plot_v1d. destruct (when (truthy mean) _) as [m|] eqn:Em; [|discriminate]. cbn [bind].
  destruct (when (truthy sigma) _) as [g|] eqn:Eg; [|discriminate]. cbn [bind]. intros Q. injection Q as <-. cbn [vp_mean vp_sigma].
  apply when_spec in Em. apply when_spec in Eg. split.
  - destruct m as [[l kw]|]; [|now apply off]. destruct Em as [T E]. apply truthy_on in T. destruct (rows (length means) ix) as [sel|] eqn:R; [|discriminate]. cbn [bind] in E. destruct (py_get (seq 0 3) dim) as [k|] eqn:K; [|discriminate]. cbn [bind] in E. injection E as <- <-. apply rows_spec in R as [R B].
    apply py_get_seq in K as [K1 K2]. split; [exact T|]. split.
    + exists sel, k. split; [exact R|]. split; [exact K1|]. split; [exact K2|]. clear - K1. induction sel; constructor; [now apply component_vxyz|assumption].
    + intros q. rewrite with_default_spec. destruct (given mean q); [reflexivity|]. unfold kget. cbn [find fst snd]. rewrite (String.eqb_sym _ q). destruct (String.eqb q "color"); reflexivity.
  - destruct g as [[l kw]|]; [|now apply off]. destruct Eg as [T E]. apply truthy_on in T. destruct (rows (length means) ix) as [sel|] eqn:R; [|discriminate]. cbn [bind] in E. destruct (mapM _ sel) as [l'|] eqn:M; [|discriminate]. cbn [bind] in E. injection E as <- <-. apply rows_spec in R as [R B].
    split; [exact T|]. split.
    + exists sel. split; [exact R|]. apply mapM_Forall2 in M. clear B R; try clear Em; try clear Es. induction M as [|i d sel l H M IH]; [constructor|constructor; [|exact IH]].
      destruct (py_get (seq 0 3) dim) as [k|] eqn:K; [|discriminate]. cbn [bind] in H. apply py_get_seq in K as [K1 K2]. destruct (vxyz_sigma sigmas covs) as [s'|] eqn:Ex; [|discriminate]. injection H as <-. cbn [fst snd].
      exists k. split; [exact K1|]. split; [exact K2|]. rewrite component_vxyz by exact K1. rewrite (component_vsigma means sigmas covs s') by assumption.
      assert (L2 : forall A B C (f : A -> B -> C) a b, length a = length b -> length (map2 f a b) = length a) by (intros A B C f; induction a as [|x a IHa]; intros [|y b] H; try discriminate; [reflexivity|]; cbn in *; f_equal; apply IHa; lia).
      rewrite !L2 by (rewrite !map_length, ?seq_length; reflexivity). rewrite map_length. split; [reflexivity|]. split; [reflexivity|]. intros t mm Ht.
      assert (Lt : (t < length (nth i means []))%nat) by (apply nth_error_Some; congruence).
      assert (A : nth_error (map (velocity k) (nth i means [])) t = Some (velocity k mm)) by now apply map_nth_error.
      assert (D : nth_error (map (fun t => deviation sigmas covs i t (3 + k)) (seq 0 (length (nth i means [])))) t = Some (deviation sigmas covs i t (3 + k))) by (apply (map_nth_error (fun t => deviation sigmas covs i t (3 + k))); rewrite nth_error_nth' with (d := 0%nat) by (now rewrite seq_length); now rewrite seq_nth).
      rewrite !(map2_nth_error _ _ _ _ _ _ A D). destruct (velocity k mm) as [v|]; [|split; reflexivity]. destruct (deviation sigmas covs i t (3 + k)) as [sd|]; [|split; reflexivity]. cbn [lift2]. exists (v + sd), (v - sd). repeat split; ring.
    + intros q. rewrite with_default_spec, mean_color_spec. destruct (given sigma q); [reflexivity|]. unfold kget. cbn [find fst snd]. rewrite !(String.eqb_sym _ q).
      destruct (String.eqb q "facecolor"); [reflexivity|]. destruct (String.eqb q "edgecolor"); [reflexivity|]. destruct (String.eqb q "alpha"); reflexivity.
Qed.
Print Assumptions tracks_plot_v1d.

(** ** Examples *)
Definition two_tracks : list (list mean6) :=
  [[[Some 1; Some 2; Some 0; Some 1; Some 1; Some 0]; [Some 2; Some 3; Some 0; Some 1; Some 1; Some 0]]; [[None; None; None; None; None; None]; [Some 5; Some 6; Some 7; Some 2; Some 0; Some 0]]].
Example plot_xy_ex : exists p, plot_xy [0; 1] two_tracks (Some two_tracks) None (One (-1)) (Flag true) (Dict [("color"%string, PText "blue")]) (Flag true) = Ok p /\ shaped two_tracks (Some two_tracks) None /\
  option_map fst (xp_mean p) = Some [[(None, None); (Some 5, Some 6)]] /\ option_map fst (xp_start p) = Some [(None, None)] /\ match xp_start p with Some (_, kw) => kget "color" kw = Some (PText "blue") | None => False end.
Proof. eexists. split; [reflexivity|]. split; [intros i; reflexivity|]. split; [reflexivity|]. split; reflexivity. Qed.
Example plot_vxy_ex : exists kw, plot_vxy two_tracks (Several [1%Z]) [] = Ok ([([(None, None); (Some 5, Some 6)], [(None, None); (Some 2, Some 0)])], kw).
Proof. eexists. reflexivity. Qed.
Example plot_v1d_ex : exists p, plot_v1d two_tracks (Some two_tracks) None (-3) Whole (Flag true) (Flag true) = Ok p /\ option_map fst (vp_mean p) = Some [[Some 1; Some 1]; [None; Some 2]] /\
  option_map fst (vp_sigma p) = Some [([Some (1 + 1); Some (1 + 1)], [Some (1 - 1); Some (1 - 1)]); ([None; Some (2 + 2)], [None; Some (2 - 2)])].
Proof. eexists. split; [reflexivity|]. split; reflexivity. Qed.
