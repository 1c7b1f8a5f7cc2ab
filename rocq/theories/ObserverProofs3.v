(** Writing into views; the values of shift_tile. *)
From Verif Require Import Base BaseLemmas HelpersModel CameraModel ImageModel ImageSpec ImageProofs TemplateModel ObserverModel ObserverSpec.
Open Scope Z_scope.

Section W.
Context {V : Type}.
Lemma splice_in {A} (l : list A) n i j new : 0 <= i -> i <= j -> j <= n -> splice l n i j new = firstn (Z.to_nat i) l ++ new ++ skipn (Z.to_nat j) l.
Proof. intros. unfold splice. rewrite !slice_bound_in by lia. now rewrite Z.max_r by lia. Qed.
Lemma splice_nth {A} (l : list A) n i j new k : 0 <= i -> i <= j -> j <= n -> length l = Z.to_nat n -> length new = Z.to_nat (j - i) -> 0 <= k < n ->
  nth_error (splice l n i j new) (Z.to_nat k) = if ((i <=? k) && (k <? j))%bool then nth_error new (Z.to_nat (k - i)) else nth_error l (Z.to_nat k).
Proof.
  intros H1 H2 H3 L Ln Hk. rewrite splice_in by assumption. assert (Lf : length (firstn (Z.to_nat i) l) = Z.to_nat i) by (rewrite firstn_length; lia).
  destruct (Z.leb_spec i k) as [Q|Q]; cbn [andb].
  - rewrite nth_error_app2 by lia. rewrite Lf. destruct (Z.ltb_spec k j) as [W|W].
    + rewrite nth_error_app1 by lia. f_equal. lia.
    + rewrite nth_error_app2 by lia. rewrite nth_error_skipn_add. f_equal. lia.
  - rewrite nth_error_app1 by lia. apply nth_error_firstn_lt. lia.
Qed.
Lemma splice_length {A} (l : list A) n i j new : 0 <= i -> i <= j -> j <= n -> length l = Z.to_nat n -> length new = Z.to_nat (j - i) -> length (splice l n i j new) = Z.to_nat n.
Proof. intros. rewrite splice_in by assumption. rewrite !app_length, firstn_length, skipn_length. lia. Qed.
Lemma nth_error_map2 {A B C} (f : A -> B -> C) l m k : nth_error (map2 f l m) k = match nth_error l k, nth_error m k with Some x, Some y => Some (f x y) | _, _ => None end.
Proof. revert m k. induction l as [|x l IH]; intros [|y m] [|k]; cbn; auto. - destruct (nth_error l k); reflexivity. Qed.
Lemma map2_length' {A B C} (f : A -> B -> C) l m : length l = length m -> length (map2 f l m) = length l.
Proof. revert m. induction l as [|x l IH]; intros [|y m] H; cbn in *; try discriminate; auto. Qed.
Lemma in_map2 {A B C} (f : A -> B -> C) l m z : In z (map2 f l m) -> exists x y, In x l /\ In y m /\ z = f x y.
Proof. revert m. induction l as [|x l IH]; intros [|y m]; cbn; try contradiction. intros [<-|H]; [exists x, y; auto|]. destruct (IH m H) as (x' & y' & Q & Q' & E). exists x', y'. auto. Qed.

Lemma write_view_pixels (p w : pic V) b : proper p -> proper w -> box_inside (pw p) (ph p) b ->
  (let '(l, t, r, d) := b in psize w = (r - l, d - t)) ->
  let q := write_view (Some b) w p in proper q /\ psize q = psize p /\
  forall i j, 0 <= i < ph p -> 0 <= j < pw p ->
    (in_zbox b i j -> pixel q i j = pixel w (i - fst (corner b)) (j - snd (corner b))) /\ (~ in_zbox b i j -> pixel q i j = pixel p i j).
Proof.
  destruct b as [[[l t] r] d]. intros (Wp & Hp & Lp & Rp) (Ww & Hw & Lw & Rw) (B1 & B2 & B3 & B4) SZ q. unfold psize in SZ. injection SZ as SW SH.
  unfold corner, in_zbox. cbn [fst snd]. 
  set (mid := map2 (fun row new => splice row (pw p) l r new) (py_slice (rows p) (ph p) t d) (rows w)).
  assert (LS : length (py_slice (rows p) (ph p) t d) = Z.to_nat (d - t)) by (rewrite py_slice_in by lia; rewrite firstn_length, skipn_length; lia).
  assert (LM : length mid = Z.to_nat (d - t)) by (unfold mid; rewrite map2_length'; lia).
  assert (RQ : rows q = splice (rows p) (ph p) t d mid) by reflexivity.
  split; [|split; [reflexivity|]].
  - split; [exact Wp|]. split; [exact Hp|]. change (ph q) with (ph p). change (pw q) with (pw p). rewrite RQ. split; [apply splice_length; lia|].
    intros row Q. rewrite splice_in in Q by lia. apply in_app_iff in Q. destruct Q as [Q|Q]; [apply Rp; now apply in_firstn in Q|].
    apply in_app_iff in Q. destruct Q as [Q|Q]; [|apply Rp; now apply in_skipn in Q].
    apply in_map2 in Q. destruct Q as (x & y & X & Y & ->). rewrite py_slice_in in X by lia. apply in_firstn, in_skipn in X. apply splice_length; try lia; [now apply Rp|]. rewrite (Rw y Y). lia.
  - intros i j Hi Hj. unfold pixel. rewrite RQ. rewrite splice_nth by lia.
    destruct (Z.leb_spec t i) as [Q|Q]; [destruct (Z.ltb_spec i d) as [Q2|Q2]|]; cbn [andb].
    + unfold mid. rewrite nth_error_map2. 
      assert (E1 : nth_error (py_slice (rows p) (ph p) t d) (Z.to_nat (i - t)) = nth_error (rows p) (Z.to_nat i)).
      { rewrite py_slice_in by lia. rewrite nth_error_firstn_lt by lia. rewrite nth_error_skipn_add. f_equal. lia. }
      rewrite E1. destruct (nth_error (rows p) (Z.to_nat i)) as [row|] eqn:Er; [|apply nth_error_None in Er; lia].
      destruct (nth_error (rows w) (Z.to_nat (i - t))) as [new|] eqn:En; [|apply nth_error_None in En; lia].
      pose proof (Rp row (nth_error_In _ _ Er)) as LR. pose proof (Rw new (nth_error_In _ _ En)) as LN.
      rewrite splice_nth by lia. destruct (Z.leb_spec l j) as [Q3|Q3]; [destruct (Z.ltb_spec j r) as [Q4|Q4]|]; cbn [andb].
      * split; [reflexivity|]. intros N. exfalso. apply N. lia.
      * split; [intros K; exfalso; lia|reflexivity].
      * split; [intros K; exfalso; lia|reflexivity].
    + split; [intros K; exfalso; lia|reflexivity].
    + split; [intros K; exfalso; lia|reflexivity].
Qed.
End W.

(** ** shift_tile *)
Open Scope R_scope.
Lemma centers_eq n : (0 < n)%Z -> centers n = map (fun i => / 2 + INR i) (seq 0 (Z.to_nat n)).
Proof.
  intros H. unfold centers, arange. replace (Rceil (IZR n - / 2)) with n; [reflexivity|]. symmetry. apply Rceil_imp. lra.
Qed.
Section S.
Variable spline : list R -> list R -> tile -> R -> R -> R.
Variable cast : R -> R.
Lemma shift_ok kx ky duv t : is_ok (shift_tile spline cast kx ky duv t) = true <->
  Rabs (fst duv) <= / 2 /\ Rabs (snd duv) <= / 2 /\ (kx < ph t)%Z /\ (ky < pw t)%Z.
Proof.
  unfold shift_tile. destruct (Rltb (/ 2) (Rabs (fst duv))) eqn:E1; cbn [orb].
  - apply Rltb_true in E1. split; [discriminate|]. intros (H & _). lra.
  - apply Rltb_false in E1. destruct (Rltb (/ 2) (Rabs (snd duv))) eqn:E2.
    + apply Rltb_true in E2. split; [discriminate|]. intros (_ & H & _). lra.
    + apply Rltb_false in E2. destruct (Z.ltb_spec kx (ph t)); cbn [negb orb]; [destruct (Z.ltb_spec ky (pw t)); cbn [negb]|].
      * split; [|reflexivity]. intros _. repeat split; (lra || assumption).
      * split; [discriminate|]. intros (_ & _ & _ & K). lia.
      * split; [discriminate|]. intros (_ & _ & K & _). lia.
Qed.
Lemma shift_err kx ky duv t e : shift_tile spline cast kx ky duv t = Err e -> e = ValueError.
Proof. unfold shift_tile. destruct (_ || _)%bool; [intros Q; now injection Q|]. destruct (_ || _)%bool; [intros Q; now injection Q|discriminate]. Qed.
Lemma shift_pixels kx ky duv t w : proper t -> shift_tile spline cast kx ky duv t = Ok w ->
  proper w /\ psize w = psize t /\
  forall i j, (0 <= i < ph t)%Z -> (0 <= j < pw t)%Z ->
    pixel w i j = Some (map (fun k => cast (spline (centers (ph t)) (centers (pw t)) (band k t) (IZR i + / 2 + snd duv) (IZR j + / 2 + fst duv))) (seq 0 (nbands t))).
Proof.
  intros (Wt & Ht & _) E. unfold shift_tile in E. destruct (_ || _)%bool; [discriminate|]. destruct (_ || _)%bool; [discriminate|]. cbv zeta in E. injection E as <-.
  assert (LC : forall n, (0 < n)%Z -> length (centers n) = Z.to_nat n) by (intros n Hn; rewrite centers_eq by exact Hn; now rewrite map_length, seq_length).
  assert (NC : forall n i, (0 < n)%Z -> (0 <= i < n)%Z -> nth_error (centers n) (Z.to_nat i) = Some (IZR i + / 2)).
  { intros n i Hn Hi. rewrite centers_eq by exact Hn. rewrite nth_error_map. rewrite (nth_error_nth' _ 0%nat) by (rewrite seq_length; lia). rewrite seq_nth by lia.
    cbn [option_map]. rewrite Nat.add_0_l, INR_IZR_INZ, Z2Nat.id by lia. f_equal. lra. }
  split; [|split; [reflexivity|]].
  - split; [exact Wt|]. split; [exact Ht|]. cbn [rows ph pw]. split; [rewrite map_length; now apply LC|]. intros r Q. apply in_map_iff in Q. destruct Q as (v & <- & _). rewrite map_length. now apply LC.
  - intros i j Hi Hj. unfold pixel. cbn [rows]. rewrite nth_error_map, NC by assumption. cbn [option_map]. rewrite nth_error_map, NC by assumption. reflexivity.
Qed.
End S.
