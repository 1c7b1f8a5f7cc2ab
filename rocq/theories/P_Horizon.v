(** Property theorems about Raster.horizon (C92).  Vocabulary: HorizonSpec.v. *)
From Coq Require Import Lia Lra Permutation.
From Verif Require Import Base BaseLemmas HelpersModel GridModel GridSpec GridProofs GetitemModel HorizonModel HorizonSpec HorizonProofs HorizonProofs2 MotionProofs2.
Open Scope R_scope.

Definition within (lim : R * R) (x : R) : Prop := Rmin (fst lim) (snd lim) < x < Rmax (fst lim) (snd lim).

Lemma within_axis (a : axis) x : within (fst a) x -> in_axis a x.
Proof. unfold within, in_axis, between. lra. Qed.
Lemma within_inbounds g x y : within (gxlim g) x -> within (gylim g) y -> inbounds_xy g (x, y) = true.
Proof.
  intros Hx Hy. unfold inbounds_xy. cbn [fst snd]. rewrite (proj2 (inbounds1_spec (xaxis g) x) (within_axis (xaxis g) x Hx)), (proj2 (inbounds1_spec (yaxis g) y) (within_axis (yaxis g) y Hy)). reflexivity.
Qed.

Lemma Forall2_nth {A B} (P : A -> B -> Prop) l m : Forall2 P l m -> forall i a, nth_error l i = Some a -> exists b, nth_error m i = Some b /\ P a b.
Proof. induction 1; intros [|i] c Hc; cbn in *; try discriminate; [inversion Hc; subst; eauto|eauto]. Qed.
Lemma lines_exist {A B} (P : A -> B -> Prop) (l : list A) : (forall a, exists b, P a b) -> exists m, Forall2 P l m.
Proof. intros H. induction l as [|a l [m IH]]; [exists []; constructor|]. destruct (H a) as [b Hb]. exists (b :: m). constructor; assumption. Qed.

(** From an origin within the bounds of the raster: for each heading a line of cells in sight.  If a line has no valid cell, ValueError.  Otherwise one optional point per line: the center and elevation of the first cell seen at the greatest angle, unless it is the last valid cell; the result is the runs of consecutive headings with a point. *)
Theorem horizon_points : forall r cor x y z hs, grid_ok (s_grid r) -> rows_fit r -> within (gxlim (s_grid r)) x -> within (gylim (s_grid r)) y -> hs <> [] ->
  exists start lines, cell_has (s_grid r) start x y /\ Forall2 (sightline (s_grid r) x y start) hs lines
    /\ ((exists cells, In cells lines /\ ~ sees r cells) -> horizon r cor (x, y, z) hs = Err ValueError)
    /\ ((forall cells, In cells lines -> sees r cells) ->
        exists pts segs, Forall2 (horizon_point r cor (x, y, z)) lines pts /\ circular_runs pts segs /\ horizon r cor (x, y, z) hs = Ok segs).
Proof.
  intros r cor x y z hs HG _ Hx Hy NE.
  destruct (snap_rowcol_contains (s_grid r) x y HG (within_axis (xaxis (s_grid r)) x Hx) (within_axis (yaxis (s_grid r)) y Hy)) as (r0 & c0 & Es & Hr0 & Hc0 & Cx & Cy).
  assert (HS : in_grid (s_grid r) (r0, c0)) by (split; assumption).
  set (f := fun h => sight r cor (x, y, z) (r0, c0) (snd (ray_points (s_grid r) (x, y) h))).
  assert (EH : horizon r cor (x, y, z) hs = let* hxyz := mapM f hs in
      let mask := map (fun p : option vec3_ => match p with Some _ => false | None => true end) hxyz in
      let* splits := boolean_split hxyz mask true IncAll in
      match mask with [] => Err IndexError | m :: _ => Ok (if m then odds splits else evens splits) end).
  { unfold horizon. cbv zeta. rewrite (within_inbounds _ _ _ Hx Hy), Es. cbn [bind]. reflexivity. }
  destruct (lines_exist (fun h cells => sightline (s_grid r) x y (r0, c0) h cells /\ (~ sees r cells -> f h = Err ValueError) /\ (sees r cells -> exists p, f h = Ok p /\ horizon_point r cor (x, y, z) cells p)) hs) as [lines HL].
  { intros h. exact (sight_spec r cor x y z (r0, c0) HG Hx Hy HS h). }
  exists (r0, c0), lines. split; [split; [exact HS|split; assumption]|]. split; [clear - HL; induction HL as [|h c hs lines (H & _) _ IH]; constructor; assumption|]. rewrite EH. clear EH. split.
  - intros (cells & Hin & NS).
    rewrite (mapM_one_err f hs ValueError); [reflexivity| |].
    + intros h Hh. apply In_nth_error in Hh. destruct Hh as [i Hi]. destruct (Forall2_nth _ _ _ HL i h Hi) as (c & _ & _ & H1 & H2).
      assert (D : sees r c \/ ~ sees r c).
      { destruct (existsb (fun p => match elev r p with Some _ => true | None => false end) c) eqn:E; [left|right].
        - apply existsb_exists in E. destruct E as (p & Hp & Hb). destruct (elev r p) as [w|] eqn:Ew; [|discriminate]. exists p, w. auto.
        - intros (p & w & Hp & Hw). assert (T : existsb (fun p => match elev r p with Some _ => true | None => false end) c = true) by (apply existsb_exists; exists p; rewrite Hw; auto). congruence. }
      destruct D as [D|D]; [left; destruct (H2 D) as (p & Hp & _); exists p; exact Hp|right; exact (H1 D)].
    + clear - HL Hin NS. induction HL as [|h c hs lines (_ & H & _) _ IH]; [destruct Hin|]. destruct Hin as [->|Hin]; [exists h; split; [left; reflexivity|exact (H NS)]|].
      destruct (IH Hin) as (h' & Hh' & E). exists h'. split; [right; exact Hh'|exact E].
  - intros HA. assert (HP : exists pts, mapM f hs = Ok pts /\ Forall2 (horizon_point r cor (x, y, z)) lines pts).
    { clear NE. revert HA. induction HL as [|h c hs lines (_ & _ & H) _ IH]; intros HA; [exists []; split; [reflexivity|constructor]|].
      destruct (H (HA c (or_introl eq_refl))) as (p & Ep & Hp). destruct (IH (fun c' Hc' => HA c' (or_intror Hc'))) as (pts & Em & Hpts).
      exists (p :: pts). cbn [mapM]. rewrite Ep. cbn [bind]. rewrite Em. cbn [bind]. split; [reflexivity|constructor; assumption]. }
    destruct HP as (pts & Em & Hpts). rewrite Em. cbn [bind].
    assert (NP : pts <> []). { intros ->. apply mapM_ok_length in Em. destruct hs; [congruence|discriminate]. }
    destruct (horizon_split pts NP) as (segs & HC & ES). exists pts, segs. split; [exact Hpts|]. split; [exact HC|exact ES].
Qed.
Print Assumptions horizon_points.

(** The segments hold exactly the points, each once. *)
Theorem horizon_segments_lossless : forall (A : Type) (pts : list (option A)) segs, circular_runs pts segs ->
  Permutation (concat segs) (filter (fun p => match p with Some _ => true | None => false end) pts) /\ Forall (fun s => s <> []) segs.
Proof.
  intros A pts segs (runs & HC & HB & HA & HJ & HN).
  set (v := fun p : option A => match p with Some _ => true | None => false end).
  assert (FT : forall l, (forall p, In p l -> p <> None) -> filter v l = l).
  { induction l as [|a l IH]; intros H; [reflexivity|]. cbn. destruct a; [|destruct (H None (or_introl eq_refl) eq_refl)]. cbn. f_equal. apply IH. intros p Hp. apply H. right. exact Hp. }
  assert (FF : forall l, (forall p, In p l -> p = None) -> filter v l = []).
  { induction l as [|a l IH]; intros H; [reflexivity|]. cbn. rewrite (H a (or_introl eq_refl)). cbn. apply IH. intros p Hp. apply H. right. exact Hp. }
  assert (G : forall l, (forall b q, In (b, q) l -> forall p, In p q -> (b = true <-> p <> None)) -> filter v (concat (map snd l)) = concat (map snd (filter (fun r : bool * list (option A) => fst r) l))).
  { induction l as [|[b q] l IH]; intros H; [reflexivity|]. cbn [map concat snd filter fst]. rewrite filter_app, IH by (intros b' q' Hin; apply H; right; exact Hin).
    destruct b; cbn [map concat snd]; f_equal.
    - apply FT. intros p Hp. apply (H true q (or_introl eq_refl) p Hp). reflexivity.
    - rewrite FF; [reflexivity|]. intros p Hp. destruct p as [p|]; [|reflexivity]. assert (false = true) by (apply (H false q (or_introl eq_refl) (Some p) Hp); discriminate). discriminate. }
  assert (HG := G runs (fun b q Hin => proj2 (HB b q Hin))). rewrite HC in HG.
  assert (Dec : (exists m p mid q, runs = (m, p) :: mid ++ [(m, q)]) \/ (forall m p mid q, runs <> (m, p) :: mid ++ [(m, q)])).
  { clear. destruct runs as [|[m p] rest]; [right; discriminate|]. destruct rest as [|x rest' _] using rev_ind; [right; intros m' p' mid q Eq; destruct mid; discriminate|]. destruct x as [m2 q].
    destruct (Bool.bool_dec m m2) as [->|N]; [left; exists m2, p, rest', q; reflexivity|right]. intros m' p' mid q' Eq. injection Eq as E1 E2 E3. apply app_inj_tail in E3. destruct E3 as [_ E3]. congruence. }
  destruct Dec as [(m & p & mid & q & ER)|N].
  - rewrite (HJ _ _ _ _ ER). split.
    + rewrite HG. subst runs. cbn [filter fst]. destruct m; cbn [map snd concat].
      * rewrite filter_app. cbn [filter fst]. rewrite map_app, concat_app. cbn [map snd concat]. rewrite app_nil_r. rewrite <- app_assoc. rewrite Permutation_app_comm. rewrite <- app_assoc. reflexivity.
      * rewrite filter_app. cbn [filter fst]. rewrite app_nil_r. reflexivity.
    + apply Forall_forall. intros s Hs. apply in_map_iff in Hs. destruct Hs as ((b & l) & <- & Hin). cbn [snd]. apply filter_In in Hin. destruct Hin as [[Hin|Hin] _].
      * inversion Hin; subst b l. assert (q <> []) by (apply (HB m q); rewrite ER; right; apply in_or_app; right; left; reflexivity). destruct q; [congruence|discriminate].
      * apply (HB b l). rewrite ER. right. apply in_or_app. left. exact Hin.
  - rewrite (HN N). split; [rewrite HG; reflexivity|]. apply Forall_forall. intros s Hs. apply in_map_iff in Hs. destruct Hs as ((b & l) & <- & Hin). apply filter_In in Hin. exact (proj1 (HB b l (proj1 Hin))).
Qed.
Print Assumptions horizon_segments_lossless.

Lemma cell_unique a k k' x : axis_ok a -> inside_cell a k x -> in_cell a k' x -> k' = k.
Proof.
  intros HA H H'. rewrite <- (at_cells_surj a x HA) in H, H'. apply (inside_cell_at a k _ HA) in H. apply (in_cell_at a k' _ HA) in H'.
  assert (IZR k' < IZR (k + 1)) by (rewrite plus_IZR; lra). assert (IZR k < IZR (k' + 1)) by (rewrite plus_IZR; lra). apply lt_IZR in H0, H1. lia.
Qed.
Lemma end_cell_unique a k k' : axis_ok a -> (0 <= k < snd a)%Z -> (0 <= k' < snd a)%Z -> in_cell a k (Rmax (fst (fst a)) (snd (fst a))) -> in_cell a k' (Rmax (fst (fst a)) (snd (fst a))) -> k' = k.
Proof.
  intros HA Hk Hk' H H'.
  assert (E : Rmax (fst (fst a)) (snd (fst a)) = at_cells a 0 \/ Rmax (fst (fst a)) (snd (fst a)) = at_cells a (IZR (snd a))).
  { rewrite at_cells_first, at_cells_last by exact HA. unfold Rmax. destruct (Rle_dec (fst (fst a)) (snd (fst a))); auto. }
  destruct E as [E|E]; rewrite E in H, H'; apply (in_cell_at a k _ HA) in H; apply (in_cell_at a k' _ HA) in H'; destruct H as [H1 H2], H' as [H3 H4].
  - apply (le_IZR k 0) in H1. apply (le_IZR k' 0) in H3. lia.
  - rewrite <- plus_IZR in H2, H4. apply le_IZR in H2, H4. lia.
Qed.

(** Finding: from an origin inside a cell on the eastern border, a heading of 90 degrees (the default headings contain it) raises ValueError, whatever the elevations. *)
Theorem horizon_border_refuted : forall r cor x y z hs row col, grid_ok (s_grid r) -> rows_fit r -> in_grid (s_grid r) (row, col) ->
  inside_cell (xaxis (s_grid r)) col x -> inside_cell (yaxis (s_grid r)) row y -> in_cell (xaxis (s_grid r)) col (Rmax (fst (gxlim (s_grid r))) (snd (gxlim (s_grid r)))) ->
  within (gxlim (s_grid r)) x -> within (gylim (s_grid r)) y -> In 90 hs ->
  horizon r cor (x, y, z) hs = Err ValueError.
Proof.
  intros r cor x y z hs row col HG HF [IGr IGc] Ix Iy Ie Hx Hy H90. cbn [fst snd] in IGr, IGc.
  destruct (horizon_points r cor x y z hs HG HF Hx Hy) as (start & lines & (HS & Sx & Sy) & HL & HE & _); [intros ->; destruct H90|].
  apply HE. apply In_nth_error in H90. destruct H90 as [i Hi]. destruct (Forall2_nth _ _ _ HL i 90 Hi) as (cells & Hc & t & stop & Ht & HT & (Hst & Ex & Ey) & Hn & _).
  exists cells. split; [exact (nth_error_In _ _ Hc)|]. intros (p & w & Hp & _).
  replace (90 * PI / 180) with (PI / 2) in * by lra. rewrite sin_PI2, cos_PI2 in *.
  rewrite Rmult_0_r, Rplus_0_r, Rmult_1_r in *.
  destruct HG as [GX GY].
  assert (Et : x + t = Rmax (fst (gxlim (s_grid r))) (snd (gxlim (s_grid r)))).
  { assert (A1 : in_axis (xaxis (s_grid r)) (x + t * 1) /\ in_axis (yaxis (s_grid r)) (y + t * 0)) by (apply (HT t Ht); lra).
    set (M := Rmax (fst (gxlim (s_grid r))) (snd (gxlim (s_grid r)))) in *. assert (M - x <= t).
    { apply (HT (M - x)); [unfold within in Hx; fold M in Hx; lra|]. rewrite Rmult_0_r, Rplus_0_r. split; [|apply (within_axis (yaxis (s_grid r))); exact Hy].
      unfold in_axis, between. cbn [xaxis fst]. fold M. unfold within in Hx. fold M in Hx. lra. }
    destruct A1 as [A1 _]. unfold in_axis, between in A1. cbn [xaxis fst] in A1. fold M in A1. lra. }
  rewrite Et in Ex.
  assert (E1 : snd start = col) by exact (cell_unique (xaxis (s_grid r)) col (snd start) x GX Ix Sx).
  assert (E2 : fst start = row) by exact (cell_unique (yaxis (s_grid r)) row (fst start) y GY Iy Sy).
  assert (E3 : fst stop = row) by exact (cell_unique (yaxis (s_grid r)) row (fst stop) y GY Iy Ey).
  assert (E4 : snd stop = col) by exact (end_cell_unique (xaxis (s_grid r)) col (snd stop) GX IGc (proj2 Hst) Ie Ex).
  rewrite E1, E2, E3, E4 in Hn. rewrite !Z.sub_diag in Hn. cbn in Hn. destruct cells; [destruct Hp|cbn in Hn; lia].
Qed.
Print Assumptions horizon_border_refuted.

(** Finding: from a position outside the raster it always raises. *)
Theorem horizon_outside_refuted : forall r cor x y z hs, ~ (in_axis (xaxis (s_grid r)) x /\ in_axis (yaxis (s_grid r)) y) -> exists e, horizon r cor (x, y, z) hs = Err e.
Proof.
  intros r cor x y z hs N. unfold horizon. cbv zeta. assert (E : inbounds_xy (s_grid r) (x, y) = false).
  { destruct (inbounds_xy (s_grid r) (x, y)) eqn:E; [|reflexivity]. exfalso. apply N. unfold inbounds_xy in E. cbn [fst snd] in E. apply andb_true_iff in E. split; apply inbounds1_spec; tauto. }
  rewrite E. destruct hs as [|h hs]; [exists IndexError; reflexivity|]. destruct (fst (ray_points (s_grid r) (x, y) h)); eexists; reflexivity.
Qed.
Print Assumptions horizon_outside_refuted.

(** a raster of 3 rows and 4 columns, y decreasing, and an origin in its second row and column *)
Definition hraster : sraster := mksraster [[Some 1; None; Some 2; Some 3]; [Some 0; Some 5; Some 9; Some 4]; [None; Some 7; Some 1; Some 0]] (mkgrid 4 3 (0, 8) (3, 0)) None None None None.
Example horizon_ex : grid_ok (s_grid hraster) /\ rows_fit hraster /\ within (gxlim (s_grid hraster)) 3 /\ within (gylim (s_grid hraster)) 1.6 /\ in_grid (s_grid hraster) (1, 3)%Z
  /\ inside_cell (xaxis (s_grid hraster)) 3 7 /\ inside_cell (yaxis (s_grid hraster)) 1 1.6 /\ in_cell (xaxis (s_grid hraster)) 3 (Rmax (fst (gxlim (s_grid hraster))) (snd (gxlim (s_grid hraster)))).
Proof.
  repeat split; cbn; try lia; try lra; repeat constructor; try lia; unfold Rmin, Rmax, edge, at_cells; cbn; repeat match goal with |- context [Rle_dec ?a ?b] => destruct (Rle_dec a b) end; lra.
Qed.
