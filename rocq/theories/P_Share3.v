(** Property C123: parts of rasters, k[i, j], are views. *)
From Coq Require Import Lia Lra.
From Verif Require Import Base BaseLemmas HelpersModel GridModel GetitemModel ShareModel ShareProofs ShareProofs2 ShareProofs3 P_Share P_Share2.
Open Scope R_scope.

(** operations on k only change in place *)
Definition keeps_arrays (k : nat) (p : op) : Prop := changes p <> Some k \/ in_place p = true.
(** number of columns ([true]), of rows *)
Definition size (x : bool) (w : world) (k : nat) : option Z := option_map (fun o => if x then o_nx o else o_ny o) (nth_error (w_objs w) k).
(** the positions that an index selects among n *)
Definition selects (n : Z) (ix : index) (ps : list Z) : Prop := exists a b c, as_slice ix = Ok (a, b, c) /\ positions n a b c = Ok ps.

Lemma run_arrays h : forall w j o, nth_error (w_objs w) j = Some o -> Forall (keeps_arrays j) h -> exists o', nth_error (w_objs (fold_left (fun w p => fst (step p w)) h w)) j = Some o' /\ o_cells o' = o_cells o /\ forall y v, cached y o = Some v -> cached y o' = Some v.
Proof.
  induction h as [|p h IH]; intros w j o E F; [exists o; auto|]. inversion F; subst. cbn [fold_left]. destruct (step_refs p w j o E) as (o1 & E1 & _ & A). destruct (A H1) as (_ & C1 & V1). destruct (IH _ _ _ E1 H2) as (o2 & E2 & C2 & V2). exists o2. split; [exact E2|]. split; [congruence|auto].
Qed.
Lemma picked_map {A B} (f : A -> B) ps l : picked ps (map f l) = map f (picked ps l).
Proof. unfold picked. induction ps as [|p ps IH]; [reflexivity|]. cbn [flat_map]. rewrite map_app, <- IH, nth_error_map. destruct (nth_error l (Z.to_nat p)); reflexivity. Qed.
(** what the new object refers to *)
Lemma sub_made h k i j : snd (step (OSub k i j) (run h)) = Ok tt -> exists ok os c cs cols rows,
  nth_error (w_objs (run (h ++ [OSub k i j]))) k = Some ok /\ nth_error (w_objs (run (h ++ [OSub k i j]))) (objects (run h)) = Some os /\ objects (run (h ++ [OSub k i j])) = S (objects (run h)) /\ (k < objects (run h))%nat /\
  (forall n, size true (run h) k = Some n -> selects n j cols) /\ (forall n, size false (run h) k = Some n -> selects n i rows) /\
  (forall x v, cached x ok = Some v -> (2 < length (if x then cols else rows))%nat -> cached x os = Some (mkview (v_buf v) (picked (if x then cols else rows) (v_pos v)))) /\
  (forall x, exists v, cached x ok = Some v) /\
  o_cells ok = Some c /\ o_cells os = Some cs /\ fst cs = fst c /\ snd cs = map (fun r => picked cols (nth (Z.to_nat r) (snd c) [])) rows.
Proof.
  rewrite run_snoc. unfold size. set (w := run h). cbn [step]. unfold step_sub. destruct (nth_error (w_objs w) k) as [o|] eqn:Ek; [|discriminate]. destruct (o_cells o) as [c|] eqn:C; [|discriminate].
  destruct (as_slice i) as [[[i0 i1] istep]|] eqn:Ai; [|discriminate]. destruct (as_slice j) as [[[j1 j2] jstep]|] eqn:Aj; [|discriminate].
  destruct (get_c true k w) as [w1 vx] eqn:G1. destruct vx as [vx|]; [|discriminate]. destruct (positions _ j1 j2 jstep) as [cols|] eqn:Pj; [|discriminate].
  destruct (get_c_unchanged _ _ _ _ _ (valid_run h) G1) as (V1 & _ & _ & R1 & _). destruct (R1 vx eq_refl) as (_ & o1 & E1 & Q1). destruct (get_c_ref _ _ _ _ _ _ _ G1 Ek) as (o1' & E1' & _ & C1 & _). rewrite E1 in E1'. injection E1' as <-. destruct (get_c_objs _ _ _ _ _ G1) as [L1 _].
  destruct (get_c false k w1) as [w2 vy] eqn:G2. destruct vy as [vy|]; [|discriminate]. destruct (positions _ i0 i1 istep) as [rows|] eqn:Pi; [|discriminate]. cbv zeta.
  destruct (get_c_unchanged _ _ _ _ _ V1 G2) as (_ & _ & _ & R2 & _). destruct (R2 vy eq_refl) as (_ & o2 & E2 & Q2). destruct (get_c_ref _ _ _ _ _ _ _ G2 E1) as (o2' & E2' & _ & C2 & D2). rewrite E2 in E2'. injection E2' as <-. destruct (get_c_objs _ _ _ _ _ G2) as [L2 _].
  destruct (sub_coordinates _ _ cols jstep) as [cx|] eqn:SX; [|discriminate]. destruct (sub_coordinates _ _ rows istep) as [cy|] eqn:SY; [|discriminate].
  destruct (parse_xy _ _ (CVec cx) _) as [[[xl kx] ?]|] eqn:PX; [|discriminate]. destruct (parse_xy _ _ (CVec cy) _) as [[[yl ky] ?]|] eqn:PY; [|discriminate]. intros _.
  destruct (new_lim w2 xl) as [bx w3] eqn:N3. apply new_lim_grows in N3. destruct N3 as (_ & O3 & _). destruct (new_lim w3 yl) as [by_ w4] eqn:N4. apply new_lim_grows in N4. destruct N4 as (_ & O4 & _). cbn [fst add_o w_objs].
  assert (EL : length (w_objs w4) = objects w) by (unfold objects; congruence). assert (E4 : nth_error (w_objs w4) k = Some o2) by congruence.
  exists o2. eexists. exists c. eexists. exists cols, rows. split; [now apply nth_app_some|]. split; [rewrite nth_error_app2 by lia; rewrite EL, Nat.sub_diag; reflexivity|]. split; [unfold objects in *; cbn [w_objs add_o]; rewrite app_length; cbn [length]; lia|].
  split; [apply nth_error_Some; congruence|]. split; [intros n E; injection E as <-; exists j1, j2, jstep; auto|]. split; [intros n E; injection E as <-; exists i0, i1, istep; auto|].
  apply parse_vec in PX. apply parse_vec in PY.
  assert (LV : forall d l ps st v, sub_coordinates d l ps st = Ok v -> (2 < length ps)%nat -> (2 <? length v)%nat = true).
  { intros d l ps st v E L. unfold sub_coordinates in E. rewrite map_length in E. destruct (Nat.ltb_spec (length ps) 3); [lia|]. injection E as <-. rewrite map_length. now apply Nat.ltb_lt. }
  split; [|split; [|split; [congruence|split; [cbn [o_cells]; reflexivity|split; reflexivity]]]].
  - intros x v Q L. destruct x.
    + rewrite (LV _ _ _ _ _ SX L) in PX. cbn [cached o_x]. rewrite PX. rewrite (D2 true vx Q1) in Q. injection Q as <-. reflexivity.
    + rewrite (LV _ _ _ _ _ SY L) in PY. cbn [cached o_y]. rewrite PY. rewrite Q2 in Q. injection Q as <-. reflexivity.
  - intros []; eauto.
Qed.
(** While the arrays of both are kept, coordinates (of three columns, or rows, or more) and values of k[i, j] are those of k at the selected positions, whichever of them is shifted or assigned to. *)
Theorem share_sub_view h k i j h' : snd (step (OSub k i j) (run h)) = Ok tt -> Forall (keeps_arrays k) h' -> Forall (keeps_arrays (objects (run h))) h' ->
  let s := objects (run h) in let w := run (h ++ OSub k i j :: h') in
  exists cols rows, (forall n, size true (run h) k = Some n -> selects n j cols) /\ (forall n, size false (run h) k = Some n -> selects n i rows) /\
  (forall x : bool, (2 < length (if x then cols else rows))%nat -> exists l, coordinates x w k = Some (Ok l) /\ coordinates x w s = Some (Ok (picked (if x then cols else rows) l))) /\
  exists v, values w k = Some (Some v) /\ values w s = Some (Some (map (fun r => picked cols (nth (Z.to_nat r) v [])) rows)).
Proof.
  intros R0 K1 K2 s w. destruct (sub_made h k i j R0) as (ok & os & c & cs & cols & rows & Ek & Es & _ & _ & S1 & S2 & V & HV & C & Cs & F1 & F2). exists cols, rows. split; [exact S1|]. split; [exact S2|].
  assert (EW : w = fold_left (fun w p => fst (step p w)) h' (run (h ++ [OSub k i j]))) by (unfold w; change (h ++ OSub k i j :: h') with (h ++ [OSub k i j] ++ h'); now rewrite app_assoc, run_app).
  destruct (run_arrays h' _ _ _ Ek K1) as (ok' & Ek' & Ck & Vk). destruct (run_arrays h' _ _ _ Es K2) as (os' & Es' & Cos & Vs). rewrite <- EW in *. split.
  - intros x L. destruct (HV x) as [v Q]. exists (crd_at w v). unfold coordinates, s. rewrite Ek', Es'. cbn [option_map]. rewrite (Vk _ _ Q), (Vs _ _ (V x v Q L)). split; [reflexivity|]. do 2 f_equal. unfold crd_at. cbn [v_buf v_pos]. now rewrite picked_map.
  - unfold values, s. rewrite Ek', Es'. cbn [option_map]. rewrite Ck, C, Cos, Cs. cbn [option_map]. eexists. split; [reflexivity|]. do 2 f_equal. unfold val_at. rewrite F1, F2, map_map. apply map_ext. intros r.
    rewrite <- picked_map. f_equal. symmetry. exact (map_nth (map (fun p => nth p (nth (fst c) (w_vals w) []) None)) (snd c) [] (Z.to_nat r)).
Qed.
Print Assumptions share_sub_view.
(** Then shifting k[i, j] moves the selected coordinates of k, but not the limits of k. *)
Theorem share_sub_shift_refuted h k i j h' (x : bool) d : snd (step (OSub k i j) (run h)) = Ok tt -> Forall (keeps_arrays k) h' -> Forall (keeps_arrays (objects (run h))) h' -> Forall (fun q => forall k g rows, q <> OResample k g rows) h' ->
  let s := objects (run h) in let before := h ++ OSub k i j :: h' in
  exists cols rows, (forall n, size true (run h) k = Some n -> selects n j cols) /\ (forall n, size false (run h) k = Some n -> selects n i rows) /\
  ((2 < length (if x then cols else rows))%nat ->
   exists l l', coordinates x (run before) k = Some (Ok l) /\ coordinates x (run (before ++ [push s x d])) k = Some (Ok l') /\
     picked (if x then cols else rows) l' = map (fun c => c + d) (picked (if x then cols else rows) l) /\ limits (run (before ++ [push s x d])) k = limits (run before) k).
Proof.
  intros R0 K1 K2 NR s before. destruct (share_sub_view h k i j h' R0 K1 K2) as (cols & rows & S1 & S2 & V & _). exists cols, rows. split; [exact S1|]. split; [exact S2|]. intros L.
  destruct (V x L) as (l & A & B). exists l. fold before in A, B. fold s in B. destruct (share_shift_own before s x d _ B) as [_ M].
  assert (KP : forall n, keeps_arrays n (push s x d)) by (intros n; now right).
  destruct (share_sub_view h k i j (h' ++ [push s x d]) R0) as (cols' & rows' & S1' & S2' & V' & _); [apply Forall_app; auto|apply Forall_app; auto|].
  destruct (sub_made h k i j R0) as (ok & os & c & cs & cols0 & rows0 & Ek & Es & EO & KL & _).
  assert (SZ : exists nx ny, size true (run h) k = Some nx /\ size false (run h) k = Some ny) by (unfold size; destruct (nth_error (w_objs (run h)) k) as [o|] eqn:E; [cbn; eauto|apply nth_error_None in E; unfold objects in KL; lia]).
  destruct SZ as (nx & ny & X & Y).
  assert (FN : forall n ix a b, selects n ix a -> selects n ix b -> a = b) by (intros n ix a b (? & ? & ? & P & Q) (? & ? & ? & P' & Q'); rewrite P in P'; injection P' as <- <- <-; congruence).
  rewrite <- (FN _ _ _ _ (S1 nx X) (S1' nx X)), <- (FN _ _ _ _ (S2 ny Y) (S2' ny Y)) in V'. destruct (V' x L) as (l' & A' & B'). exists l'.
  assert (EB : h ++ OSub k i j :: h' ++ [push s x d] = before ++ [push s x d]) by (unfold before; now rewrite <- app_assoc). rewrite EB in *. fold s in B'. split; [exact A|]. split; [exact A'|]. split; [rewrite B' in M; injection M as M; exact M|].
  destruct (share_apart before (push s x d) s k) as [SL _]; [|reflexivity|apply SL].
  - assert (M0 : forall g, (objects (run h) <= objects (run (h ++ g)))%nat) by (induction g as [|r g IHg] using rev_ind; [now rewrite app_nil_r|]; rewrite app_assoc, run_snoc; unfold objects in *; destruct (step_objects r (run (h ++ g))) as [->| ->]; lia). eapply Nat.lt_le_trans; [exact KL|apply M0].
  - unfold before. change (h ++ OSub k i j :: h') with (h ++ [OSub k i j] ++ h'). rewrite app_assoc. intros T. rewrite together_kept in T; [|rewrite EO; lia|unfold s; rewrite EO; lia|exact NR]. exact (share_fresh PLim h (OSub k i j) k EO eq_refl KL T).
Qed.
Print Assumptions share_sub_shift_refuted.
(** A copy has the limits and values of k, and shares nothing with any object. *)
Theorem share_copy h k : (k < objects (run h))%nat -> let n := objects (run h) in let w := run (h ++ [OCopy k]) in
  limits w n = limits (run h) k /\ values w n = values (run h) k /\ (forall j, (j < n)%nat -> unchanged (run h) w j) /\ forall t j, (j < n)%nat -> ~ together t (h ++ [OCopy k]) j n.
Proof.
  intros L n w. assert (EO : objects w = S n).
  { unfold w. rewrite run_snoc. cbn [step]. destruct (nth_error (w_objs (run h)) k) as [o|] eqn:E; [|apply nth_error_None in E; unfold objects in L; lia]. unfold n, objects. destruct (o_cells o); cbn; rewrite app_length; cbn; lia. }
  assert (H : limits w n = limits (run h) k /\ values w n = values (run h) k).
  { pose proof (valid_run h) as V. pose proof (run_wf h) as W. unfold w, n, limits, values, objects. rewrite run_snoc. cbn [step]. set (u := run h) in *. destruct (nth_error (w_objs u) k) as [o|] eqn:E; [|apply nth_error_None in E; unfold objects in L; lia].
    assert (LA : forall (w : world) o', nth_error (w_objs (add_o w o')) (length (w_objs w)) = Some o') by (intros v o'; cbn; rewrite nth_error_app2, Nat.sub_diag by lia; reflexivity).
    destruct (new_lim u (lim_at u (o_xl o))) as [bx w1] eqn:N1. destruct (new_lim w1 (lim_at u (o_yl o))) as [by_ w2] eqn:N2.
    pose proof (new_lim_grows _ _ _ _ N1) as (_ & O1 & B1 & L1). pose proof (new_lim_grows _ _ _ _ N2) as (G2 & O2 & B2 & L2).
    assert (L1' : lim_at w2 bx = lim_at u (o_xl o)) by (unfold lim_at at 1; rewrite (grows_lim w1 w2 bx G2); [exact L1|]; rewrite B1; injection N1 as _ <-; cbn; rewrite app_length; cbn; lia).
    destruct (o_cells o) as [c|] eqn:C.
    - destruct (new_val w2 (val_at u c)) as [c' w3] eqn:N3. pose proof (new_val_grows _ _ _ _ N3) as (G3 & O3 & _). cbn [fst]. replace (length (w_objs u)) with (length (w_objs w3)) by congruence. rewrite LA. cbn [option_map bare o_xl o_yl o_cells].
      unfold new_val in N3. injection N3 as <- <-. split; [cbn [lim_at add_o w_lims]; unfold lim_at in L1', L2 |- *; cbn [add_o w_lims]; now rewrite L1', L2|]. rewrite C. cbn [option_map]. do 2 f_equal. unfold val_at at 1. cbn [fst snd add_o w_vals]. rewrite app_nth2, Nat.sub_diag by lia. cbn [nth].
      clear. generalize (val_at u c) as rows. intros rows. assert (Q : forall pre, map (map (fun p => nth p (pre ++ concat rows) None)) (row_positions (length pre) rows) = rows); [|exact (Q [])].
      induction rows as [|r rows IH]; intros pre; [reflexivity|]. cbn [row_positions map concat]. f_equal.
      + assert (Z : forall (r post pre : list (option R)), map (fun p => nth p (pre ++ r ++ post) None) (seq (length pre) (length r)) = r); [|apply Z].
        clear. induction r as [|a r IH]; intros post pre; [reflexivity|]. cbn [length seq map]. f_equal; [rewrite app_nth2, Nat.sub_diag by lia; reflexivity|]. specialize (IH post (pre ++ [a])). rewrite app_length in IH. cbn [length] in IH. rewrite Nat.add_comm in IH. rewrite <- app_assoc in IH. exact IH.
      + specialize (IH (pre ++ r)). rewrite app_length, <- app_assoc in IH. exact IH.
    - cbn [fst]. replace (length (w_objs u)) with (length (w_objs w2)) by congruence. rewrite LA. cbn [option_map bare o_xl o_yl o_cells]. rewrite C. split; [unfold lim_at in L1', L2 |- *; cbn [add_o w_lims]; now rewrite L1', L2|reflexivity]. }
  destruct H as [H1 H2]. split; [exact H1|]. split; [exact H2|]. split; [intros j J; apply share_quiet; [exact J|reflexivity|discriminate]|]. intros t j J. apply share_fresh; [exact EO|destruct t; reflexivity|exact J].
Qed.
Print Assumptions share_copy.

(** Some objects: a raster of 3 by 3 cells made with coordinates, its grid, and its first two rows. *)
Lemma Reqb_no a b : a <> b -> Reqb a b = false. Proof. apply Reqb_false. Qed.
Definition ex_rows : list (list (option R)) := [[Some 1; Some 2; Some 3]; [Some 4; None; Some 6]; [Some 7; Some 8; Some 9]].
Definition ex_h : list op := [ONew ex_rows [0; 1; 2] [2; 1; 0]].
Definition ex_o : robj := mkrobj 3 3 0 1 (Some (mkview 0 [0; 1; 2]%nat)) (Some (mkview 1 [0; 1; 2]%nat)) (Some (0%nat, [[0; 1; 2]; [3; 4; 5]; [6; 7; 8]]%nat)).
Lemma ex_run : run ex_h = mkworld [(0 - (1 - 0) / 2, 2 + (1 - 0) / 2); (2 - (1 - 2) / 2, 0 + (1 - 2) / 2)] [[0; 1; 2]; [2; 1; 0]] [concat ex_rows] [ex_o].
Proof. unfold run, ex_h. cbn [fold_left step]. unfold step_new, parse_xy, parse_limits. cbn [length Nat.ltb Nat.leb last]. rewrite !Reqb_no by lra. reflexivity. Qed.
Example share_grid_ex : source PLim (OGrid 0) = Some 0%nat /\ objects (run ex_h) = 1%nat /\ objects (run (ex_h ++ [OGrid 0])) = 2%nat /\
  Forall (keeps_limits 0) [OLim 2 true [5; 6]; OShift 0 None (Some 1) None] /\ coordinates true (run (ex_h ++ OGrid 0 :: [OShift 0 None (Some 1) None] ++ [ORead 0 true])) 0 = Some (Ok [0; 1; 2]).
Proof.
  split; [reflexivity|]. split; [now rewrite ex_run|]. split; [rewrite run_snoc, ex_run; reflexivity|]. split; [repeat constructor; congruence|].
  rewrite run_app, ex_run. reflexivity.
Qed.
(** the grid, shifted, has moved limits of the raster, whose x is as before *)
Example share_grid_ex2 : let before := ex_h ++ OGrid 0 :: [] ++ [ORead 0 true] in
  lim true (run (before ++ [push 1 true 10])) 0 = Some (moved 10 (0 - (1 - 0) / 2, 2 + (1 - 0) / 2)) /\ coordinates true (run (before ++ [push 1 true 10])) 0 = Some (Ok [0; 1; 2]).
Proof.
  intros before. destruct (share_grid_shift_refuted ex_h (OGrid 0) 0 [] 1 0 true 10 [0; 1; 2]) as [A B]; try (now constructor); try (rewrite ex_run; cbn; auto; fail).
  - rewrite run_snoc, ex_run. reflexivity.
  - rewrite run_app, ex_run. reflexivity.
  - split; [|exact B]. unfold before. rewrite A, run_app, ex_run. reflexivity.
Qed.
Example share_sub_ex : snd (step (OSub 0 (ISlice None (Some 2%Z) None) (ISlice None None None)) (run ex_h)) = Ok tt /\ selects 3 (ISlice None None None) [0; 1; 2]%Z /\
  Forall (keeps_arrays 0) [OShift 0 (Some 1) None None; OCell 0 0 0 None; OCells 1 []].
Proof.
  split; [|split; [exists None, None, None; split; reflexivity|]].
  - rewrite ex_run. cbn [step]. unfold step_sub. cbn. unfold sub_coordinates, parse_xy, parse_limits. cbn. change (Pos.to_nat 3) with 3%nat. change (Pos.to_nat 2) with 2%nat. unfold step_size. cbn. rewrite !Reqb_no by (unfold dcell, zat; cbn; try change (Pos.to_nat 1) with 1%nat; try change (Pos.to_nat 2) with 2%nat; cbn; lra). reflexivity.
  - constructor; [now right|]. constructor; [now right|]. constructor; [left; discriminate|constructor].
Qed.
