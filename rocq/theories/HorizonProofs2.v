From Coq Require Import Lia Lra.
From Verif Require Import Base BaseLemmas XReal HelpersModel HelpersSpec BresenhamProofs SplitProofs RayModel GridModel GridSpec GridProofs GetitemModel HorizonModel HorizonSpec HorizonProofs MotionProofs2 ImageProofs.
Open Scope R_scope.

Lemma nth_error_map2 {A B C} (f : A -> B -> C) l : forall m i, nth_error (map2 f l m) i = match nth_error l i, nth_error m i with Some a, Some b => Some (f a b) | _, _ => None end.
Proof. induction l as [|a l IH]; intros [|b m] [|i]; cbn; try reflexivity; [destruct (nth_error l i); reflexivity|apply IH]. Qed.
Lemma nth_error_tl {A} (l : list A) i : nth_error (tl l) i = nth_error l (S i).
Proof. destruct l; [destruct i|]; reflexivity. Qed.
Lemma nth_of_error {A} (l : list A) i d x : nth_error l i = Some x -> nth i l d = x.
Proof. intros H. apply nth_error_nth. exact H. Qed.

Lemma app_inj_len {A} (a b c d : list A) : a ++ b = c ++ d -> length a = length c -> a = c /\ b = d.
Proof. revert c. induction a as [|x a IH]; intros [|y c] H L; cbn in *; try discriminate; [auto|]. injection H as -> H. destruct (IH c H ltac:(lia)) as [-> ->]. auto. Qed.

Section Sight.
  Variables (r : sraster) (cor : R -> R) (ox oy oz : R) (start : Z * Z).
  Let g := s_grid r.
  Hypothesis HG : grid_ok g.
  Hypothesis Hx : Rmin (fst (gxlim g)) (snd (gxlim g)) < ox < Rmax (fst (gxlim g)) (snd (gxlim g)).
  Hypothesis Hy : Rmin (fst (gylim g)) (snd (gylim g)) < oy < Rmax (fst (gylim g)) (snd (gylim g)).
  Hypothesis HS : in_grid g start.

  (** everything after the cells of the line are known *)
  Definition look (cells : list (Z * Z)) : result (option vec3_) :=
    let dz := map (fun p => option_map (fun z => z - oz) (zat None (zat [] (s_rows r) (fst p)) (snd p))) cells in
    let xy := map (fun p => rowcol_to_xy (s_grid r) (IZR (fst p), IZR (snd p))) cells in
    let d2 := map (fun p => (fst p - ox) ^ 2 + (snd p - oy) ^ 2) xy in
    let* maxi := nanargmax (map2 (fun z d => option_map (fun z => (z + cor d) / sqrt d) z) dz d2) in
    if ((maxi <? length dz - 1)%nat && existsb (fun z : option R => match z with Some _ => true | None => false end) (skipn (S maxi) dz))%bool
    then Ok (match nth maxi dz None with Some z => let p := nth maxi xy (0, 0) in Some (fst p, snd p, z + oz) | None => None end)
    else Ok None.

  Lemma slopes cells i : nth_error (map2 (fun z d => option_map (fun z => (z + cor d) / sqrt d) z)
      (map (fun p => option_map (fun z => z - oz) (zat None (zat [] (s_rows r) (fst p)) (snd p))) cells)
      (map (fun p => (fst p - ox) ^ 2 + (snd p - oy) ^ 2) (map (fun p => rowcol_to_xy (s_grid r) (IZR (fst p), IZR (snd p))) cells))) i
    = option_map (fun p => option_map (fun z => slope g cor (ox, oy, oz) p z) (elev r p)) (nth_error cells i).
  Proof.
    rewrite nth_error_map2, !nth_error_map. destruct (nth_error cells i) as [p|]; [|reflexivity]. cbn [option_map].
    rewrite rowcol_to_xy_centers. cbn [fst snd]. unfold elev, zat, slope.
    destruct (nth (Z.to_nat (snd p)) (nth (Z.to_nat (fst p)) (s_rows r) []) None); reflexivity.
  Qed.
  Lemma look_spec cells : (~ sees r cells -> look cells = Err ValueError) /\ (sees r cells -> exists p, look cells = Ok p /\ horizon_point r cor (ox, oy, oz) cells p).
  Proof.
    unfold look. cbv zeta. set (dz := map (fun p => option_map _ _) cells). set (sl := map2 _ _ _).
    assert (SL : forall i, nth_error sl i = option_map (fun p => option_map (fun z => slope g cor (ox, oy, oz) p z) (elev r p)) (nth_error cells i)) by (intros i; apply slopes).
    split.
    - intros N. rewrite nanargmax_err; [reflexivity|]. intros j y Hj. rewrite SL in Hj. apply N.
      destruct (nth_error cells j) as [p|] eqn:E; [|discriminate]. cbn [option_map] in Hj. destruct (elev r p) as [z|] eqn:Ez; [|discriminate].
      exists p, z. split; [exact (nth_error_In _ _ E)|exact Ez].
    - intros (p & z & Hin & Hz). destruct (nanargmax_ok sl) as (i & -> & (x & Hi & Hm & Hf)).
      { apply In_nth_error in Hin. destruct Hin as [j Hj]. exists j, (slope g cor (ox, oy, oz) p z). rewrite SL, Hj. cbn. rewrite Hz. reflexivity. }
      clear p z Hin Hz. cbn [bind]. rewrite SL in Hi. destruct (nth_error cells i) as [p|] eqn:E; [|discriminate]. cbn [option_map] in Hi.
      destruct (elev r p) as [z|] eqn:Ez; [|discriminate]. cbn [option_map] in Hi. assert (Hi2 : slope g cor (ox, oy, oz) p z = x) by congruence. clear Hi. rename Hi2 into Hi.
      assert (HH : highest r cor (ox, oy, oz) cells i p z).
      { split; [exact E|]. split; [exact Ez|]. intros j q w Hj Hw. fold g. rewrite Hi.
        assert (Hs : nth_error sl j = Some (Some (slope g cor (ox, oy, oz) q w))) by (rewrite SL, Hj; cbn; rewrite Hw; reflexivity).
        split; [exact (Hm _ _ Hs)|intros Hl; exact (Hf _ _ Hl Hs)]. }
      assert (FW : existsb (fun z : option R => match z with Some _ => true | None => false end) (skipn (S i) dz) = true <-> exists j q w, (i < j)%nat /\ nth_error cells j = Some q /\ elev r q = Some w).
      { rewrite existsb_exists. split.
        - intros (v & Hv & Hb). destruct v as [v|]; [|discriminate]. apply In_nth_error in Hv. destruct Hv as [k Hk]. rewrite nth_error_skipn_add in Hk. unfold dz in Hk. rewrite nth_error_map in Hk.
          destruct (nth_error cells (S i + k)) as [q|] eqn:Eq; [|discriminate]. cbn [option_map] in Hk.
          destruct (elev r q) as [w|] eqn:Ew; [|unfold elev in Ew; unfold zat in Hk; rewrite Ew in Hk; discriminate].
          exists (S i + k)%nat, q, w. repeat split; [lia|exact Eq|exact Ew].
        - intros (j & q & w & Hl & Hj & Hw). exists (Some (w - oz)). split; [|reflexivity]. apply (nth_error_In _ (j - S i)). rewrite nth_error_skipn_add. unfold dz. rewrite nth_error_map.
          replace (S i + (j - S i))%nat with j by lia. rewrite Hj. cbn [option_map]. unfold zat. unfold elev in Hw. rewrite Hw. reflexivity. }
      assert (HL : length dz = length cells) by (unfold dz; apply map_length).
      destruct (existsb (fun z : option R => match z with Some _ => true | None => false end) (skipn (S i) dz)) eqn:EX.
      + assert (F := proj1 FW eq_refl). assert (Hl : (i <? length dz - 1)%nat = true).
        { apply Nat.ltb_lt. destruct F as (j & q & w & Hl & Hj & _). assert (j < length cells)%nat by (apply nth_error_Some; congruence). lia. }
        rewrite Hl. cbn [andb]. eexists. split; [reflexivity|]. exists i, p, z. split; [exact HH|]. cbv zeta. left. split; [exact F|].
        rewrite (nth_of_error dz i None (Some (z - oz))) by (unfold dz; rewrite nth_error_map, E; cbn [option_map]; unfold zat; unfold elev in Ez; rewrite Ez; reflexivity).
        rewrite (nth_of_error (map _ cells) i (0, 0) (center (xaxis g) (snd p), center (yaxis g) (fst p))) by (rewrite nth_error_map, E; cbn [option_map]; rewrite rowcol_to_xy_centers; reflexivity).
        cbn [fst snd]. f_equal. f_equal. ring.
      + rewrite andb_false_r. exists None. split; [reflexivity|]. exists i, p, z. split; [exact HH|]. cbv zeta. right. split; [|reflexivity]. intros F. apply FW in F. discriminate.
  Qed.

  Lemma sight_spec h : exists cells, sightline g ox oy start h cells
    /\ (~ sees r cells -> sight r cor (ox, oy, oz) start (snd (ray_points g (ox, oy) h)) = Err ValueError)
    /\ (sees r cells -> exists p, sight r cor (ox, oy, oz) start (snd (ray_points g (ox, oy) h)) = Ok p /\ horizon_point r cor (ox, oy, oz) cells p).
  Proof.
    destruct (ray_exit g ox oy h Hx Hy) as (t & -> & Ht & HT). cbn [sight].
    destruct (proj2 (HT t Ht) (Rle_refl t)) as [Ex Ey].
    destruct (snap_rowcol_contains g _ _ HG Ex Ey) as (r1 & c1 & Es & Hr1 & Hc1 & Cx & Cy). fold g. rewrite Es. cbn [bind fst snd].
    destruct start as [r0 c0]. destruct HS as [HS1 HS2]. cbn [fst snd] in *.
    set (cells := tl (map (fun p => (snd p, fst p)) (bresenham_line (c0, r0) (c1, r1)))).
    assert (NC : forall i rr cc, nth_error cells i = Some (rr, cc) -> nth_error (bresenham_line (c0, r0) (c1, r1)) (S i) = Some (cc, rr)).
    { intros i rr cc H. unfold cells in H. rewrite nth_error_tl, nth_error_map in H. destruct (nth_error (bresenham_line (c0, r0) (c1, r1)) (S i)) as [[a b]|]; cbn in H; congruence. }
    assert (IG : forall i rr cc, nth_error cells i = Some (rr, cc) -> in_grid g (rr, cc)).
    { intros i rr cc H. apply NC in H. apply nth_error_In, bresenham_box in H. cbn [fst snd] in H. unfold in_grid. cbn [fst snd]. lia. }
    exists cells. split.
    - exists t, (r1, c1). split; [exact Ht|]. split; [exact HT|]. split; [split; [split; assumption|split; assumption]|]. cbv zeta. cbn [fst snd].
      pose proof (bresenham_line_spec c0 r0 c1 r1) as S. cbv zeta in S. destruct S as (L & _ & _ & _ & S & _).
      split.
      + assert (Lc : length cells = (length (bresenham_line (c0, r0) (c1, r1)) - 1)%nat). { unfold cells. destruct (bresenham_line (c0, r0) (c1, r1)); cbn; [reflexivity|]. rewrite map_length. lia. } lia.
      + intros i rr cc H. split; [exact (IG _ _ _ H)|]. destruct (S _ _ _ (NC _ _ _ H)) as [Sa Sb]. split; [|lia].
        destruct (Z.abs (c1 - c0) <? Z.abs (r1 - r0))%Z; lia.
    - rewrite (mapM_all_ok _ (fun p => match rowcol_to_idx g p with Ok i => i | Err _ => 0%Z end)).
      + cbn [bind]. exact (look_spec cells).
      + intros [rr cc] H. apply In_nth_error in H. destruct H as [i H]. apply IG in H. destruct H as [H1 H2]. cbn [fst snd] in H1, H2.
        destruct (rowcol_idx_ok g rr cc H1 H2) as (k & -> & _). reflexivity.
  Qed.
End Sight.

(** ** The segments *)
Lemma horizon_split {A} (pts : list (option A)) : pts <> [] ->
  let mask := map (fun p : option A => match p with Some _ => false | None => true end) pts in
  exists segs, circular_runs pts segs /\
    (let* splits := boolean_split pts mask true IncAll in match mask with [] => Err IndexError | m :: _ => Ok (if m then odds splits else evens splits) end) = Ok segs.
Proof.
  intros NE mask. assert (HL : length pts = length mask) by (unfold mask; symmetry; apply map_length).
  assert (NM : mask <> []) by (destruct pts; [congruence|discriminate]).
  destruct (boolean_split_spec pts mask HL NM) as (runs & RC & RM & RN & RA & _ & RJ & RS).
  assert (E : (let* splits := boolean_split pts mask true IncAll in match mask with [] => Err IndexError | m :: _ => Ok (if m then odds splits else evens splits) end) = boolean_split pts mask true IncFalse).
  { unfold boolean_split. destruct mask as [|m mask']; [congruence|].
    cbn [py_get]. destruct (if (true && (1 <? Z.of_nat (length (np_split 0 pts (mask_cuts 1 (m :: mask'))))))%Z%bool then _ else _) as [splits|e]; cbn [bind]; [|reflexivity].
    reflexivity. }
  rewrite E.
  set (runs' := map (fun q : bool * list (option A) => (negb (fst q), snd q)) runs).
  assert (HF : forall l, select IncFalse l = map snd (filter (fun r : bool * list (option A) => fst r) (map (fun q => (negb (fst q), snd q)) l))).
  { intros l. cbn [select]. induction l as [|[b p] l IH]; [reflexivity|]. cbn [map filter fst snd]. destruct b; cbn [negb]; [exact IH|cbn [map]; f_equal; exact IH]. }
  assert (HB : forall b l, In (b, l) runs' -> l <> [] /\ forall p, In p l -> (b = true <-> p <> None)).
  { intros b l Hin. unfold runs' in Hin. apply in_map_iff in Hin. destruct Hin as ((b' & l') & Eq & Hin). cbn [fst snd] in Eq. inversion Eq; subst b l. split; [exact (RN _ Hin)|].
    clear - RC RM Hin. intros p Hp. unfold mask in RM. rewrite <- RC in RM. clear RC. revert RM Hin. induction runs as [|[b1 l1] runs IH]; intros RM Hin; [destruct Hin|].
    cbn [map concat fst snd] in RM. rewrite map_app in RM. apply app_inj_len in RM; [|rewrite repeat_length, map_length; reflexivity]. destruct RM as [R1 R2].
    destruct Hin as [Hin|Hin]; [|exact (IH R2 Hin)]. inversion Hin; subst b1 l1.
    assert (In (match p with Some _ => false | None => true end) (repeat b' (length l'))) by (rewrite R1; exact (in_map (fun p : option A => match p with Some _ => false | None => true end) _ _ Hp)).
    apply repeat_spec in H. destruct p; subst b'; cbn; split; congruence. }
  assert (HA : forall i a b, nth_error runs' i = Some a -> nth_error runs' (S i) = Some b -> fst a <> fst b).
  { intros i a b Ha Hb. unfold runs' in Ha, Hb. rewrite nth_error_map in Ha, Hb. destruct (nth_error runs i) as [a'|] eqn:Ea; [|discriminate]. destruct (nth_error runs (S i)) as [b'|] eqn:Eb; [|discriminate].
    cbn [option_map] in Ha, Hb. inversion Ha; inversion Hb. cbn [fst]. rewrite (RA _ _ _ Ea Eb). destruct (fst b'); discriminate. }
  assert (HC : concat (map snd runs') = pts). { unfold runs'. rewrite map_map. cbn [snd]. exact RC. }
  assert (Dec : (exists m p mid q, runs = (m, p) :: mid ++ [(m, q)]) \/ (forall m p mid q, runs <> (m, p) :: mid ++ [(m, q)])).
  { destruct runs as [|[m p] rest]; [right; discriminate|]. destruct rest as [|x rest'] using rev_ind; [right; intros m' p' mid q Eq; destruct mid; discriminate|]. destruct x as [m2 q].
    destruct (Bool.bool_dec m m2) as [->|N]; [left; exists m2, p, rest', q; reflexivity|right]. intros m' p' mid q' Eq. injection Eq as E1 E2 E3. apply app_inj_tail in E3. destruct E3 as [_ E3]. congruence. }
  destruct Dec as [(m & p & mid & q & ER)|N].
  - exists (select IncFalse ((m, q ++ p) :: mid)). split; [|exact (RJ _ _ _ _ ER IncFalse)]. exists runs'. repeat (split; [assumption|]). split.
    + intros m' p' mid' q' ER'. rewrite HF. cbn [map fst snd]. unfold runs' in ER'. rewrite ER in ER'. cbn [map fst snd] in ER'. rewrite map_app in ER'. cbn [map fst snd] in ER'.
      injection ER' as E1 E2 E3. apply app_inj_tail in E3. destruct E3 as [E3 E4]. inversion E4. subst. reflexivity.
    + intros N. exfalso. apply (N (negb m) p (map (fun q => (negb (fst q), snd q)) mid) q). unfold runs'. rewrite ER. cbn [map fst snd]. rewrite map_app. reflexivity.
  - exists (select IncFalse runs). split; [|exact (RS N IncFalse)]. exists runs'. repeat (split; [assumption|]). split.
    + intros m' p' mid' q' ER'. exfalso. unfold runs' in ER'. destruct runs as [|[m p] rest]; [discriminate|]. cbn [map fst snd] in ER'. injection ER' as E1 E2 E3.
      destruct (map_eq_app _ _ _ _ E3) as (l1 & l2 & -> & E4 & E5). destruct l2 as [|[m2 q2] [|y l2]]; try discriminate. cbn in E5. inversion E5.
      apply (N m p l1 q2). f_equal. assert (m2 = m) by (destruct m, m2; cbn in *; congruence). subst m2. reflexivity.
    + intros _. rewrite HF. reflexivity.
Qed.
