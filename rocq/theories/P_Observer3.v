(** C113: examples.  Linear interpolation is a spline as asked for, and picking the nearest pixel a resampling. *)
From Verif Require Import Base BaseLemmas HelpersModel CameraModel ImageModel ImageSpec ImageProofs TemplateModel ObserverModel ObserverSpec ObserverProofs ObserverProofs2 ObserverProofs3 P_Observer P_Observer2.
Open Scope R_scope.

(** linear interpolation between pixel centers *)
Definition lower (n : Z) (x : R) : Z := Z.min (Rfloor (to_range n x - / 2)) (n - 2).
Definition part (n : Z) (x : R) : R := to_range n x - / 2 - IZR (lower n x).
Definition linear (cv cu : list R) (a : tile) (v u : R) : R :=
  let h := Z.of_nat (length cv) in let w := Z.of_nat (length cu) in
  let i := lower h v in let j := lower w u in let f := part h v in let g := part w u in
  (1 - f) * ((1 - g) * value a i j + g * value a i (j + 1)) + f * ((1 - g) * value a (i + 1) j + g * value a (i + 1) (j + 1)).
Lemma nodes_len n : (0 <= n)%Z -> Z.of_nat (length (nodes n)) = n.
Proof. intros H. unfold nodes. rewrite map_length, seq_length. lia. Qed.
Lemma to_range_bounds n x : (2 <= n)%Z -> / 2 <= to_range n x <= IZR n - / 2.
Proof. intros H. apply IZR_le in H. unfold to_range, Rmax, Rmin. destruct (Rle_dec (IZR n - / 2) x); destruct (Rle_dec (/ 2) _); lra. Qed.
Lemma lower_range n x : (2 <= n)%Z -> (0 <= lower n x <= n - 2)%Z.
Proof. intros H. pose proof (to_range_bounds n x H) as B. unfold lower. assert (0 <= Rfloor (to_range n x - / 2))%Z by (pose proof (Rfloor_ub (to_range n x - / 2)); assert (-1 < Rfloor (to_range n x - / 2))%Z by (apply lt_IZR; lra); lia). lia. Qed.
Lemma linear_planes h w : (2 <= h)%Z -> (2 <= w)%Z -> exact_on_planes linear h w.
Proof.
  intros Hh Hw a al be ga Sz PL v u. unfold linear. rewrite !nodes_len by lia. cbv zeta. pose proof (lower_range h v Hh) as A. pose proof (lower_range w u Hw) as B.
  rewrite !PL by lia. unfold part. rewrite !plus_IZR. ring.
Qed.
Lemma to_range_node n j : (0 <= j < n)%Z -> to_range n (IZR j + / 2) = IZR j + / 2.
Proof.
  intros H. assert (0 <= IZR j) by (apply (IZR_le 0); lia). assert (IZR j <= IZR n - 1) by (rewrite <- (minus_IZR n 1); apply IZR_le; lia).
  unfold to_range. rewrite Rmin_right by lra. now rewrite Rmax_right by lra.
Qed.
Lemma node_parts n j : (2 <= n)%Z -> (0 <= j < n)%Z -> (lower n (IZR j + / 2) = j /\ part n (IZR j + / 2) = 0) \/ (lower n (IZR j + / 2) = (j - 1)%Z /\ part n (IZR j + / 2) = 1).
Proof.
  intros Hn H. unfold part, lower. rewrite to_range_node by exact H. replace (IZR j + / 2 - / 2) with (IZR j) by ring. rewrite Rfloor_IZR.
  destruct (Z.le_gt_cases j (n - 2)).
  - left. rewrite Z.min_l by lia. split; [reflexivity|ring].
  - right. replace (Z.min j (n - 2)) with (j - 1)%Z by lia. split; [reflexivity|]. rewrite minus_IZR. ring.
Qed.
Lemma linear_interpolates h w : (2 <= h)%Z -> (2 <= w)%Z -> interpolates linear h w.
Proof.
  intros Hh Hw a i j Sz Hi Hj. unfold linear. rewrite !nodes_len by lia. cbv zeta.
  destruct (node_parts h i Hh Hi) as [[-> ->]|[-> ->]]; destruct (node_parts w j Hw Hj) as [[-> ->]|[-> ->]]; rewrite ?Z.sub_add; ring.
Qed.
(** the hypotheses of observer_shift_none and observer_shift_plane are met, for floats *)
Example observer_shift_ex :
  let t := mkpic 2 2 [[[1]; [3]]; [[2]; [4]]] in
  proper t /\ interpolates linear (ph t) (pw t) /\ exact_on_planes linear (ph t) (pw t) /\ shift_tile linear (fun x => x) 1 1 (0, 0) t = Ok t /\
  exists w, shift_tile linear (fun x => x) 1 1 (/ 2, 0) t = Ok w /\ pixel w 0 0 = Some [2] /\ pixel w 0 1 = Some [3].
Proof.
  intros t.
  assert (Pt : proper t) by (split; [cbn; lia|]; split; [cbn; lia|]; split; [reflexivity|]; intros r [<-|[<-|[]]]; reflexivity).
  assert (PX : forall i j px, (0 <= i < 2)%Z -> (0 <= j < 2)%Z -> pixel t i j = Some px -> nth 0 px 0 = / 2 * (-1) + 2 * (IZR j + / 2) + 1 * (IZR i + / 2)).
  { intros i j px Hi Hj E. assert (I : i = 0%Z \/ i = 1%Z) by lia. assert (J : j = 0%Z \/ j = 1%Z) by lia.
    destruct I as [-> | ->]; destruct J as [-> | ->]; unfold pixel in E; cbn in E; injection E as <-; cbn [nth]; lra. }
  assert (Q : is_ok (shift_tile linear (fun x => x) 1 1 (/ 2, 0) t) = true) by (apply shift_ok; cbn [fst snd]; rewrite Rabs_R0, Rabs_pos_eq by lra; repeat split; (lra || reflexivity)).
  split; [exact Pt|]. split; [apply linear_interpolates; cbn; lia|]. split; [apply linear_planes; cbn; lia|]. split.
  - apply observer_shift_none; [exact Pt|reflexivity|reflexivity|apply linear_interpolates; cbn; lia|].
    intros i j px E. split; [|auto]. unfold pixel in E. destruct (nth_error (rows t) (Z.to_nat i)) as [r|] eqn:Er; [|discriminate]. apply nth_error_In in Er, E.
    destruct Er as [<-|[<-|[]]]; (destruct E as [<-|[<-|[]]]; reflexivity).
  - destruct (shift_tile linear (fun x => x) 1 1 (/ 2, 0) t) as [w|] eqn:E; [|discriminate]. exists w. split; [reflexivity|].
    assert (EX : exact_on_planes linear (ph t) (pw t)) by (apply linear_planes; cbn; lia).
    assert (L1 : forall i j px, pixel w i j = Some px -> (0 <= i < 2)%Z -> (0 <= j < 2)%Z -> exists x, px = [x]).
    { intros i j px Ep Hi Hj. destruct (observer_shift_tile linear (fun x => x) 1 1 (/ 2, 0) t Pt) as (_ & _ & H). destruct (H w E) as (_ & _ & H'). destruct (H' i j Hi Hj) as (px' & Ep' & L & _). rewrite Ep in Ep'. injection Ep' as <-.
      destruct px as [|x [|y l]]; cbn in L; try discriminate. now exists x. }
    split.
    + destruct (observer_shift_plane linear (fun x => x) 1 1 (/ 2, 0) t w _ _ _ 0 Pt EX E ltac:(cbn; lia) PX 0 0 ltac:(cbn; lia) ltac:(cbn; lia)) as (px & Ep & V).
      destruct (L1 _ _ _ Ep ltac:(lia) ltac:(lia)) as [x ->]. rewrite Ep. cbn [nth] in V. rewrite V. unfold to_range. cbn [fst snd pw ph t]. rewrite !Rmin_right by lra. rewrite !Rmax_right by lra. do 2 f_equal. lra.
    + destruct (observer_shift_plane linear (fun x => x) 1 1 (/ 2, 0) t w _ _ _ 0 Pt EX E ltac:(cbn; lia) PX 0 1 ltac:(cbn; lia) ltac:(cbn; lia)) as (px & Ep & V).
      destruct (L1 _ _ _ Ep ltac:(lia) ltac:(lia)) as [x ->]. rewrite Ep. cbn [nth] in V. rewrite V. unfold to_range. cbn [fst snd pw ph t]. rewrite (Rmin_left (2 - / 2)) by lra. rewrite (Rmin_right (2 - / 2)) by lra. rewrite !Rmax_right by lra. do 2 f_equal. lra.
Qed.

(** resampling by picking pixels *)
Definition pick_nearest (a : pic (list R)) (wh : Z * Z) : pic (list R) :=
  mkpic (fst wh) (snd wh) (map (fun i => map (fun j => nth (Z.to_nat (Z.of_nat j * pw a / fst wh)) (nth (Z.to_nat (Z.of_nat i * ph a / snd wh)) (rows a) []) []) (seq 0 (Z.to_nat (fst wh)))) (seq 0 (Z.to_nat (snd wh)))).
Lemma map_nth_seq {A} (l : list A) d : map (fun i => nth i l d) (seq 0 (length l)) = l.
Proof. induction l as [|x l IH]; [reflexivity|]. cbn [length seq map nth]. f_equal. rewrite <- seq_shift, map_map. exact IH. Qed.
Lemma pick_nearest_good : good_rescale pick_nearest.
Proof.
  split.
  - intros [w h rs] (W & H & L & Rw). cbn [pw ph rows] in *. unfold pick_nearest, psize. cbn [pw ph rows fst snd]. f_equal.
    transitivity (map (fun i => nth i rs []) (seq 0 (length rs))); [|apply map_nth_seq]. rewrite L. apply map_ext_in. intros i Hi. apply in_seq in Hi.
    rewrite Z.div_mul by lia. rewrite Nat2Z.id. set (r := nth i rs []). assert (Lr : length r = Z.to_nat w) by (apply Rw; apply nth_In; lia).
    transitivity (map (fun j => nth j r []) (seq 0 (length r))); [|apply map_nth_seq]. rewrite Lr. apply map_ext. intros j. rewrite Z.div_mul by lia. now rewrite Nat2Z.id.
  - intros a w h _ W H. split; [|reflexivity]. split; [exact W|]. split; [exact H|]. cbn [rows pw ph pick_nearest fst snd]. split; [now rewrite map_length, seq_length|].
    intros r Q. apply in_map_iff in Q. destruct Q as (i & <- & _). now rewrite map_length, seq_length.
Qed.
(** two images of 3 x 2 pixels in an observer with caching, of which a tile is extracted and shifted (the finding), after the images were cached,
    tracked, cleared and put in another observer, and a tile of an image that was cleared meanwhile was shifted *)
Definition img_a : pic (list R) := mkpic 3 2 [[[1]; [3]; [5]]; [[2]; [4]; [6]]].
Definition img_b : pic (list R) := mkpic 3 2 [[[0]; [0]; [0]]; [[0]; [0]; [0]]].
Example observer_history_ex :
  let files := [(img_a, (3, 2)%Z); (img_b, (3, 2)%Z)] in
  let obs := [mk_observer [0; 1]%nat true] in
  let step := ostep pick_nearest linear (fun x => x) in
  let s := step (fold_left step [OCache 0 (IInts [-1]%Z); OTrack 0 (0, 0, 2, 2)%Z 1 (fun p => p); OExtract 0 (0, 0, 2, 2)%Z 0; OClear 0 (ISlice None None); OSubset 0 [true; true]] (pstart files obs))
     (OShift 1 1 1 (/ 2, 0)) in
  good_files files /\ clean_run pick_nearest linear (fun x => x) (pstart files obs) s /\ p_obs s = [mk_observer [0; 1]%nat true; mk_observer [0; 1]%nat true] /\ length (p_arrays s) = 2%nat /\
  exists a st t w, extract_tile pick_nearest (mk_observer [0; 1]%nat true) (0, 0, 2, 2)%Z 0 (p_store s) = Ok (a, st) /\ contents st a = Some t /\ shift_tile linear (fun x => x) 1 1 (/ 2, 0) t = Ok w /\
    pixel t 0 0 = Some [1] /\ exists px, pixel w 0 0 = Some px /\ nth 0 px 0 = 2.
Proof.
  intros files obs step s.
  assert (Pa : proper img_a) by (split; [cbn; lia|]; split; [cbn; lia|]; split; [reflexivity|]; intros r [<-|[<-|[]]]; reflexivity).
  assert (Pb : proper img_b) by (split; [cbn; lia|]; split; [cbn; lia|]; split; [reflexivity|]; intros r [<-|[<-|[]]]; reflexivity).
  assert (Gf : good_files files) by (constructor; [split; [exact Pa|split; cbn; lia]|constructor; [split; [exact Pb|split; cbn; lia]|constructor]]).
  assert (Oo : forall o i, In o obs -> In i (o_images o) -> (i < length files)%nat) by (intros o i [<-|[]] [<-|[<-|[]]]; cbn; lia).
  set (s0 := fold_left step _ _) in s.
  assert (R0 : clean_run pick_nearest linear (fun x => x) (pstart files obs) s0).
  { unfold s0. cbn [fold_left]. do 5 (apply clean_step; [|exact Logic.I]). apply clean_start. }
  assert (I0 : imgs (p_store s0) = [mk_himage img_a (3, 2)%Z None; mk_himage img_b (3, 2)%Z None]) by reflexivity.
  assert (O0 : p_obs s0 = [mk_observer [0; 1]%nat true; mk_observer [0; 1]%nat true]) by reflexivity.
  assert (A0 : length (p_arrays s0) = 2%nat) by reflexivity.
  clearbody s0.
  assert (R1 : clean_run pick_nearest linear (fun x => x) (pstart files obs) s).
  { apply clean_step; [exact R0|]. cbn [clean_op]. intros a _ im Iim. rewrite I0 in Iim. destruct Iim as [<-|[<-|[]]]; discriminate. }
  assert (S : imgs (p_store s) = imgs (p_store s0) /\ p_obs s = p_obs s0 /\ p_arrays s = p_arrays s0).
  { unfold s, step. cbn [ostep]. destruct (nth_error (p_arrays s0) 1) as [a|]; [|auto]. destruct (contents (p_store s0) a) as [p|]; [|auto].
    destruct (shift_tile linear (fun x => x) 1 1 (/ 2, 0) p) as [w|]; [|auto]. cbn [with_store p_store p_obs p_arrays]. split; [apply write_len|auto]. }
  destruct S as (S1 & S2 & S3). clearbody s. split; [exact Gf|]. split; [exact R1|]. split; [congruence|]. split; [congruence|].
  destruct (observer_tiles pick_nearest linear (fun x => x) files obs s pick_nearest_good Gf Oo R1 (mk_observer [0; 1]%nat true) 0 0%nat) as (im & Ei & _ & H); [rewrite S2, O0; now left|reflexivity|].
  rewrite S1, I0 in Ei. injection Ei as <-.
  destruct (H (0, 0, 2, 2)%Z) as (a & st & t & E & C & TL & _); [cbn; lia|now left|].
  change (picture pick_nearest (mk_himage img_a (3, 2)%Z None)) with img_a in TL. destruct TL as (Pt & W & Hh & PX).
  assert (PX' : forall i j px, (0 <= i < ph t)%Z -> (0 <= j < pw t)%Z -> pixel t i j = Some px -> nth 0 px 0 = / 2 * (-1) + 2 * (IZR j + / 2) + 1 * (IZR i + / 2)).
  { intros i j px Hi Hj Q. destruct (PX i j Hi Hj) as [PX1 _]. rewrite Q in PX1. rewrite W in Hj. rewrite Hh in Hi. assert (I : i = 0%Z \/ i = 1%Z) by lia. assert (J : j = 0%Z \/ j = 1%Z) by lia.
    destruct I as [-> | ->]; destruct J as [-> | ->]; unfold pixel in PX1; cbn in PX1; injection PX1 as ->; cbn [nth]; lra. }
  assert (P0 : pixel t 0 0 = Some [1]) by (destruct (PX 0%Z 0%Z) as [Q _]; [rewrite Hh; cbn; lia|rewrite W; cbn; lia|exact Q]).
  assert (NB : nbands t = 1%nat).
  { unfold nbands. unfold pixel in P0. destruct (rows t) as [|r rs]; [discriminate|]. cbn [Z.to_nat nth_error hd] in P0 |- *. destruct r; [discriminate|]. injection P0 as ->. reflexivity. }
  assert (Q : is_ok (shift_tile linear (fun x => x) 1 1 (/ 2, 0) t) = true).
  { apply shift_ok. cbn [fst snd]. rewrite Rabs_R0, Rabs_pos_eq by lra. rewrite W, Hh. repeat split; (lra || reflexivity). }
  destruct (shift_tile linear (fun x => x) 1 1 (/ 2, 0) t) as [w|] eqn:Ew; [|discriminate].
  exists a, st, t, w. split; [exact E|]. split; [exact C|]. split; [exact Ew|]. split; [exact P0|].
  destruct (observer_shift_plane linear (fun x => x) 1 1 (/ 2, 0) t w _ _ _ 0 Pt ltac:(apply linear_planes; lia) Ew ltac:(lia) PX' 0 0 ltac:(lia) ltac:(lia)) as (px & Ep & V).
  exists px. split; [exact Ep|]. rewrite V. unfold to_range. rewrite W, Hh. cbn [fst snd Z.sub]. rewrite !Rmin_right by (cbn; lra). rewrite !Rmax_right by lra. lra.
Qed.
