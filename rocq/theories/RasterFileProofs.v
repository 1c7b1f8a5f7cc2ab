(** Proofs about rasters in files (RasterFileModel.v). *)
From Coq Require Import Lia Lra.
From Verif Require Import Base BaseLemmas HelpersModel GridModel GridSpec GridProofs GridProofs2 ImageModel ImageSpec ImageProofs RasterFileModel.
Open Scope Z_scope.

Definition blank1 (nan : option R) (v : cell) : cell := match v, nan with Some x, Some n => if Reqb x n then None else v | _, _ => v end.
Lemma blank_proper n a : proper a -> proper (blank n a).
Proof.
  intros (W & H & L & Q). unfold proper, blank. cbn [pw ph rows]. split; [exact W|]. split; [exact H|]. rewrite map_length. split; [exact L|].
  intros r Hr. apply in_map_iff in Hr. destruct Hr as (q & <- & Hq). rewrite map_length. exact (Q q Hq).
Qed.
Lemma blank_pixel n a i j : pixel (blank n a) i j = option_map (blank1 n) (pixel a i j).
Proof. unfold pixel, blank. cbn [rows]. rewrite nth_error_map. destruct (nth_error (rows a) (Z.to_nat i)); [|reflexivity]. cbn [option_map]. rewrite nth_error_map. reflexivity. Qed.
Lemma blank_tile n a b t : tile_of a b t -> tile_of (blank n a) b (blank n t).
Proof.
  destruct b as [[[l tp] r] d]. intros (P & W & H & Q). split; [apply blank_proper; exact P|]. split; [exact W|]. split; [exact H|]. intros i j Hi Hj.
  rewrite !blank_pixel. destruct (Q i j Hi Hj) as [-> N]. split; [reflexivity|]. destruct (pixel a (tp + i) (l + j)) eqn:E; [discriminate|]. destruct (Q i j Hi Hj) as [E2 N2]. congruence.
Qed.
Lemma tile_tile {V} (a : pic V) x y w h b t u : tile_of a (x, y, x + w, y + h) t -> box_inside w h b ->
  (let '(l, tp, r, d) := b in tile_of a (x + l, y + tp, x + r, y + d) u) -> tile_of t b u.
Proof.
  destruct b as [[[l tp] r] d]. intros (P & W & H & Q) (B1 & B2 & B3 & B4) (P2 & W2 & H2 & Q2). unfold tile_of. split; [exact P2|]. split; [lia|]. split; [lia|].
  intros i j Hi Hj. destruct (Q2 i j Hi Hj) as [-> N]. destruct (Q (tp + i) (l + j) ltac:(lia) ltac:(lia)) as [-> N'].
  replace (y + (tp + i)) with (y + tp + i) by lia. replace (x + (l + j)) with (x + l + j) by lia. split; [reflexivity|exact N].
Qed.
(** pictures are determined by their pixels *)
Lemma pic_ext {V} (a b : pic V) : proper a -> proper b -> pw a = pw b -> ph a = ph b -> (forall i j, 0 <= i < ph a -> 0 <= j < pw a -> pixel a i j = pixel b i j) -> a = b.
Proof.
  intros (W & H & L & Q) (W' & H' & L' & Q') E1 E2 E. destruct a as [w h ra], b as [w' h' rb]. cbn [pw ph rows] in *. subst w' h'. f_equal.
  apply nth_ext with (d := []) (d' := []); [lia|]. intros n Hn.
  assert (In (nth n ra []) ra) by (apply nth_In; lia). assert (In (nth n rb []) rb) by (apply nth_In; lia).
  assert (LA := Q _ H0). assert (LB := Q' _ H1).
  assert (PE : forall j, nth_error (nth n ra []) j = nth_error (nth n rb []) j).
  { intros j. destruct (Nat.lt_ge_cases j (Z.to_nat w)) as [C|C].
    - specialize (E (Z.of_nat n) (Z.of_nat j) ltac:(lia) ltac:(lia)). unfold pixel in E. cbn [rows] in E. rewrite !Nat2Z.id in E.
      rewrite (nth_error_nth' ra [] (n := n)) in E by lia. rewrite (nth_error_nth' rb [] (n := n)) in E by lia. exact E.
    - rewrite (proj2 (nth_error_None (nth n ra []) j)) by lia. symmetry. apply nth_error_None. lia. }
  clear - PE. revert PE. generalize (nth n ra []) (nth n rb []). intros l1. induction l1 as [|x l1 IH]; intros [|y l2] PE; [reflexivity|specialize (PE 0%nat); discriminate|specialize (PE 0%nat); discriminate|].
  f_equal; [specialize (PE 0%nat); cbn in PE; congruence|apply IH; intros j; exact (PE (S j))].
Qed.
Lemma tile_unique {V} (a : pic V) b t u : tile_of a b t -> tile_of a b u -> t = u.
Proof.
  destruct b as [[[l tp] r] d]. intros (P & W & H & Q) (P2 & W2 & H2 & Q2). apply pic_ext; try assumption; try lia.
  intros i j Hi Hj. destruct (Q i j Hi Hj) as [-> _]. destruct (Q2 i j ltac:(lia) ltac:(lia)) as [-> _]. reflexivity.
Qed.

Section G.
  Variable rescale : pic cell -> Z * Z -> pic cell.
  Hypothesis GR : good_rescale rescale.
  Variable file : pic cell.
  Hypothesis PF : proper file.

  Lemma gdal_window x y wx wy bx by_ : box_inside (pw file) (ph file) (x, y, x + wx, y + wy) -> 0 < bx -> 0 < by_ ->
    exists w, tile_of file (x, y, x + wx, y + wy) w /\ gdal_read rescale file (Some (x, y, wx, wy)) (Some (bx, by_)) = Ok (rescale w (bx, by_))
      /\ ((bx, by_) = (wx, wy) -> rescale w (bx, by_) = w) /\ proper (rescale w (bx, by_)) /\ psize (rescale w (bx, by_)) = (bx, by_).
  Proof.
    intros B Hx Hy. pose proof (subset_tile file _ PF B) as T. exists (subset (x, y, x + wx, y + wy) file). split; [exact T|]. unfold gdal_read.
    destruct B as (B1 & B2 & B3 & B4).
    assert (O : ((x <? 0) || (y <? 0) || (wx <=? 0) || (wy <=? 0) || (pw file <? x + wx) || (ph file <? y + wy))%bool = false) by (repeat (apply orb_false_iff; split); rewrite ?Z.ltb_ge, ?Z.leb_gt; lia).
    rewrite O. split; [reflexivity|]. destruct T as (P & W & H & _). split; [|exact (proj2 GR _ bx by_ P Hx Hy)].
    intros E. rewrite E. rewrite <- (proj1 GR _ P) at 2. f_equal. unfold psize. rewrite W, H. f_equal; lia.
  Qed.
End G.

