From Verif Require Import Base BaseLemmas HelpersModel GridModel RasterModel MotionModel MotionSpec MotionProofs.
Open Scope R_scope.

(** ** sampling of the surface *)
Lemma dem_at_samples d q v : samples d q v -> dem_at d (Some (fst q)) (Some (snd q)) = Ok v.
Proof. intros [d' E]. unfold dem_at. rewrite E. reflexivity. Qed.
Lemma dem_at_outside d q : outside d q -> dem_at d (Some (fst q)) (Some (snd q)) = Err ValueError.
Proof. intros E. unfold dem_at. rewrite E. reflexivity. Qed.
Lemma mapM_ok {A B} (f : A -> result B) (g : A -> B) l : (forall x, In x l -> f x = Ok (g x)) -> mapM f l = Ok (map g l).
Proof. induction l as [|x l IH]; intros H; cbn; auto. rewrite (H x (or_introl eq_refl)). cbn [bind]. rewrite IH by (intros; apply H; now right). reflexivity. Qed.
Lemma mapM_one_err {A B} (f : A -> result B) l e : (forall x, In x l -> (exists v, f x = Ok v) \/ f x = Err e) -> (exists x, In x l /\ f x = Err e) -> mapM f l = Err e.
Proof.
  induction l as [|x l IH]; intros H [y [I E]]; [destruct I|]. cbn. destruct (H x (or_introl eq_refl)) as [[v F]|F]; rewrite F; cbn [bind]; [|reflexivity].
  destruct I as [->|I]; [congruence|]. rewrite IH; [reflexivity|intros; apply H; now right|eauto].
Qed.

(** ** tangent motion, given the accelerations *)
Section Tangent.
Variables (acc : motion2 -> pt -> vec2 -> onum * onum) (m : motion2) (a : pv -> vec2 -> vec2).
Variable (dt : Z).
Hypothesis U : g_unit m <> 0%Z.
Let t := IZR dt / IZR (g_unit m).
Variable noise : list (vec2 * R).
Variable ss : list pv.
Hypothesis A : forall s e, In (s, e) (combine ss noise) -> acc m (to_pt s) (fst e) = (Some (fst (a s (fst e))), Some (snd (a s (fst e)))).
Hypothesis L : length noise = length ss.
Definition ends (s : pv) (e : vec2 * R) : vec2 := add2 (hpos s) (hshift t (a s (fst e)) s).
Definition walked (s : pv) (e : vec2 * R) : R := g_slope m * snd e * hypot (hshift t (a s (fst e)) s).

Lemma to_pt_px s : px (to_pt s) = Some (fst (hpos s)). Proof. now destruct s as [[[x y] z] [[vx vy] vz]]. Qed.
Lemma to_pt_py s : py (to_pt s) = Some (snd (hpos s)). Proof. now destruct s as [[[x y] z] [[vx vy] vz]]. Qed.
Lemma to_pt_pz s : pz (to_pt s) = Some (height s). Proof. now destruct s as [[[x y] z] [[vx vy] vz]]. Qed.
Definition hmoved (s : pv) (e : vec2 * R) : pt :=
  mkpt (Some (fst (ends s e))) (Some (snd (ends s e))) (pz (to_pt s)) (pvx (to_pt s)) (pvy (to_pt s)) (pvz (to_pt s)).

Lemma axy_eq : map2 (fun p e => acc m p (fst e)) (map to_pt ss) noise = map2 (fun s e => (Some (fst (a s (fst e))), Some (snd (a s (fst e))))) ss noise.
Proof. rewrite map2_map_l. apply map2_ext_in. exact A. Qed.
Lemma map2_map2_r {A1 B C D E} (f : A1 -> C -> D) (g : A1 -> B -> C) (l : list A1) (k : list B) (h : A1 -> B -> D) (_ : E) :
  (forall x y, In (x, y) (combine l k) -> f x (g x y) = h x y) -> map2 f l (map2 g l k) = map2 h l k.
Proof. revert k. induction l as [|x l IH]; intros [|y k] H; cbn; auto. f_equal. apply H; now left. apply IH. intros. apply H. now right. Qed.
Lemma shift1_hshift s v : shift1 t (pvx (to_pt s)) (Some (fst v)) = Some (fst (hshift t v s)) /\ shift1 t (pvy (to_pt s)) (Some (snd v)) = Some (snd (hshift t v s)).
Proof.
  destruct s as [[[x y] z] [[vx vy] vz]]. unfold shift1, oadd, omul, oscale, omap2, option_map. cbn [to_pt pvx pvy hshift fst snd].
  split; f_equal; unfold Rdiv; ring.
Qed.
Lemma dxy_eq : map2 (fun p w => (shift1 t (pvx p) (fst w), shift1 t (pvy p) (snd w))) (map to_pt ss)
                 (map2 (fun s e => (Some (fst (a s (fst e))), Some (snd (a s (fst e))))) ss noise)
  = map2 (fun s e => (Some (fst (hshift t (a s (fst e)) s)), Some (snd (hshift t (a s (fst e)) s)))) ss noise.
Proof.
  rewrite map2_map_l. apply (map2_map2_r _ _ _ _ _ tt). intros s e _. cbn [fst snd]. destruct (shift1_hshift s (a s (fst e))) as [-> ->]. reflexivity.
Qed.
Lemma moved_eq : map2 (fun p d => mkpt (oadd (px p) (fst d)) (oadd (py p) (snd d)) (pz p) (pvx p) (pvy p) (pvz p)) (map to_pt ss)
    (map2 (fun s e => (Some (fst (hshift t (a s (fst e)) s)), Some (snd (hshift t (a s (fst e)) s)))) ss noise)
  = map2 hmoved ss noise.
Proof.
  rewrite map2_map_l. apply (map2_map2_r _ _ _ _ _ tt). intros s e _. cbn [fst snd]. rewrite to_pt_px, to_pt_py. reflexivity.
Qed.

Lemma map2_as_map {A1 B C} (f : A1 -> B -> C) l k : map2 f l k = map (fun x => f (fst x) (snd x)) (combine l k).
Proof. revert k. induction l as [|x l IH]; intros [|y k]; cbn; auto. now rewrite IH. Qed.
Lemma in_combine_ex {A1 B} (l : list A1) (k : list B) x : length k = length l -> In x l -> exists y, In (x, y) (combine l k).
Proof.
  revert k. induction l as [|z l IH]; intros [|y k] H I; cbn in *; try lia; try (now destruct I).
  destruct I as [->|I]; [exists y; now left|]. destruct (IH k ltac:(lia) I) as [w W]. exists w. now right.
Qed.

Lemma tangent_ok (elev : vec2 -> R) :
  (forall s e, In (s, e) (combine ss noise) -> samples (g_dem m) (hpos s) (Some (elev (hpos s))) /\ samples (g_dem m) (ends s e) (Some (elev (ends s e)))) ->
  evolve2 acc m dt noise (map to_pt ss) = (map2 (fun s e => to_pt (along elev t (a s (fst e)) (walked s e) s)) ss noise, Ok tt).
Proof.
  intros S. unfold evolve2. rewrite units_ok by assumption. fold t. cbv zeta. rewrite axy_eq, dxy_eq, moved_eq.
  rewrite (mapM_ok _ (fun p => match px p, py p with Some x, Some y => Some (elev (x, y)) | _, _ => None end)).
  2:{ intros p I. apply in_map_iff in I. destruct I as (s & <- & I). destruct (in_combine_ex ss noise s L I) as [e J].
      destruct (S s e J) as [S1 _]. rewrite to_pt_px, to_pt_py. rewrite (dem_at_samples _ _ _ S1). now destruct (hpos s). }
  rewrite (mapM_ok _ (fun p => match px p, py p with Some x, Some y => Some (elev (x, y)) | _, _ => None end) (map2 hmoved ss noise)).
  2:{ intros p I. rewrite map2_as_map in I. apply in_map_iff in I. destruct I as ([s e] & <- & J). cbn [fst snd].
      destruct (S s e J) as [_ S1]. unfold hmoved. cbn [px py]. rewrite (dem_at_samples _ _ _ S1). now destruct (ends s e). }
  f_equal. clear S A. generalize dependent noise. clear noise L.
  induction ss as [|s l IH]; intros [|e nz] L; try (cbn in L; lia); [reflexivity|].
  cbn [map map2]. f_equal; [|apply IH; cbn in L; lia].
  clear IH. unfold hmoved, walked. rewrite to_pt_px, to_pt_py, to_pt_pz. cbn [px py pz pvx pvy pvz fst snd].
  rewrite <- !surjective_pairing. unfold osub, omap2, osq, omul, omap2. cbn [oadd oscale osqrt option_map omap2].
  assert (Q : ends s e = add2 (hpos s) (hshift t (a s (fst e)) s)) by reflexivity.
  set (h := hshift t (a s (fst e)) s) in *.
  unfold along. fold h. rewrite <- Q. set (w := a s (fst e)).
  destruct s as [[[x y] z] [[vx vy] vz]]. cbn [to_pt pvx pvy pvz oadd oscale option_map push1].
  unfold push1, oadd, oscale, option_map. f_equal.
  f_equal. unfold hypot. replace (fst h * fst h + snd h * snd h) with (fst h ^ 2 + snd h ^ 2) by ring. ring.
Qed.

Lemma tangent_start_err :
  (forall s, In s ss -> (exists v, samples (g_dem m) (hpos s) v) \/ outside (g_dem m) (hpos s)) ->
  (exists s, In s ss /\ outside (g_dem m) (hpos s)) ->
  evolve2 acc m dt noise (map to_pt ss) = (map to_pt ss, Err ValueError).
Proof.
  intros D [s [I O]]. unfold evolve2. rewrite units_ok by assumption. cbv zeta.
  rewrite (mapM_one_err _ _ ValueError); [reflexivity| |].
  - intros p J. apply in_map_iff in J. destruct J as (s' & <- & J). rewrite to_pt_px, to_pt_py.
    destruct (D s' J) as [[v V]|V]; [left; exists v; now apply dem_at_samples|right; now apply dem_at_outside].
  - exists (to_pt s). split; [now apply in_map|]. rewrite to_pt_px, to_pt_py. now apply dem_at_outside.
Qed.
Lemma tangent_end_err :
  (forall s, In s ss -> exists v, samples (g_dem m) (hpos s) v) ->
  (forall s e, In (s, e) (combine ss noise) -> (exists v, samples (g_dem m) (ends s e) v) \/ outside (g_dem m) (ends s e)) ->
  (exists s e, In (s, e) (combine ss noise) /\ outside (g_dem m) (ends s e)) ->
  evolve2 acc m dt noise (map to_pt ss) = (map2 hmoved ss noise, Err ValueError).
Proof.
  intros S D (s & e & I & O). unfold evolve2. rewrite units_ok by assumption. fold t. cbv zeta. rewrite axy_eq, dxy_eq, moved_eq.
  assert (M : exists zs, mapM (fun p => dem_at (g_dem m) (px p) (py p)) (map to_pt ss) = Ok zs).
  { clear -S. induction ss as [|s l IH]; [eexists; reflexivity|]. cbn [map mapM]. rewrite to_pt_px, to_pt_py.
    destruct (S s (or_introl eq_refl)) as [v V]. rewrite (dem_at_samples _ _ _ V). cbn [bind].
    destruct IH as [zs ->]; [intros; apply S; now right|]. eexists; reflexivity. }
  destruct M as [zs ->].
  rewrite (mapM_one_err _ _ ValueError); [reflexivity| |].
  - intros p J. rewrite map2_as_map in J. apply in_map_iff in J. destruct J as ([s' e'] & <- & J). unfold hmoved. cbn [px py fst snd].
    destruct (D s' e' J) as [[v V]|V]; [left; exists v; now apply dem_at_samples|right; now apply dem_at_outside].
  - exists (hmoved s e). split; [rewrite map2_as_map; apply in_map_iff; exists (s, e); auto|]. unfold hmoved. cbn [px py]. now apply dem_at_outside.
Qed.
End Tangent.

Lemma normal2_drawn m s e : normal2 m s e = drawn2 m s e. Proof. reflexivity. Qed.
Lemma tangent_acc_drawn m s e : tangent_acc m (to_pt s) e = (Some (fst (drawn2 (g_a m) (g_as m) e)), Some (snd (drawn2 (g_a m) (g_as m) e))).
Proof. reflexivity. Qed.
Lemma tangent_cyl_acc_drawn m s e : speed s <> 0 ->
  tangent_cyl_acc m (to_pt s) e = (Some (fst (polar2 s (drawn2 (g_a m) (g_as m) e))), Some (snd (polar2 s (drawn2 (g_a m) (g_as m) e)))).
Proof.
  intros H. unfold tangent_cyl_acc. rewrite normal2_drawn. destruct (drawn2 _ _ _) as [ar ath]. unfold polar2. cbn [fst snd].
  destruct (polar_acc_moving s ar ath 0 H) as (ax & ay & -> & ->). reflexivity.
Qed.
