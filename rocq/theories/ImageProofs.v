From Verif Require Import Base BaseLemmas HelpersModel CameraModel ImageModel ImageSpec.
Open Scope Z_scope.

Section P.
Context {V : Type}.
Implicit Types (a file : pic V).
Lemma slice_bound_in n i : 0 <= i <= n -> slice_bound n i = i.
Proof. intros H. unfold slice_bound. destruct (Z.ltb_spec i 0); lia. Qed.
Lemma py_slice_in {A} (l : list A) n i j : 0 <= i -> i <= j -> j <= n -> py_slice l n i j = firstn (Z.to_nat (j - i)) (skipn (Z.to_nat i) l).
Proof. intros. unfold py_slice. rewrite !slice_bound_in by lia. reflexivity. Qed.
Lemma slice_len_in n i j : 0 <= i -> i <= j -> j <= n -> slice_len n i j = j - i.
Proof. intros. unfold slice_len. rewrite !slice_bound_in by lia. lia. Qed.
Lemma nth_error_firstn_lt {A} (l : list A) n k : (k < n)%nat -> nth_error (firstn n l) k = nth_error l k.
Proof. revert n k. induction l as [|x l IH]; intros [|n] [|k] H; cbn; try lia; auto. apply IH. lia. Qed.
Lemma nth_error_skipn_add {A} (l : list A) n k : nth_error (skipn n l) k = nth_error l (n + k).
Proof. revert l. induction n as [|n IH]; intros [|x l]; cbn; auto. now destruct k. Qed.
Lemma in_firstn {A} (x : A) n l : In x (firstn n l) -> In x l.
Proof. revert l. induction n as [|n IH]; intros [|y l]; cbn; try tauto. intros [<-|H]; [now left|right; auto]. Qed.
Lemma in_skipn {A} (x : A) n l : In x (skipn n l) -> In x l.
Proof. revert l. induction n as [|n IH]; intros [|y l]; cbn; try tauto. intros H. right. now apply IH. Qed.

Lemma subset_tile a b : proper a -> box_inside (pw a) (ph a) b -> tile_of a b (subset b a).
Proof.
  destruct b as [[[l t] r] d]. intros (W & H & L & Rw) (B1 & B2 & B3 & B4). unfold tile_of, subset. cbn [pw ph rows].
  rewrite !slice_len_in by lia.
  assert (LR : length (py_slice (rows a) (ph a) t d) = Z.to_nat (d - t)).
  { rewrite py_slice_in by lia. rewrite firstn_length, skipn_length, L. lia. }
  split.
  - unfold proper. cbn [pw ph rows]. split; [lia|]. split; [lia|]. split; [now rewrite map_length|].
    intros q Q. apply in_map_iff in Q. destruct Q as (row & <- & I). rewrite py_slice_in in I by lia. apply in_firstn, in_skipn in I.
    rewrite py_slice_in by lia. rewrite firstn_length, skipn_length, (Rw _ I). lia.
  - split; [reflexivity|]. split; [reflexivity|]. intros i j Hi Hj. unfold pixel. cbn [rows].
    rewrite nth_error_map. rewrite py_slice_in by lia. rewrite nth_error_firstn_lt by lia. rewrite nth_error_skipn_add.
    replace (Z.to_nat t + Z.to_nat i)%nat with (Z.to_nat (t + i)) by lia.
    destruct (nth_error (rows a) (Z.to_nat (t + i))) as [row|] eqn:E.
    + cbn [option_map]. rewrite py_slice_in by lia. rewrite nth_error_firstn_lt by lia. rewrite nth_error_skipn_add.
      replace (Z.to_nat l + Z.to_nat j)%nat with (Z.to_nat (l + j)) by lia. split; [reflexivity|].
      apply nth_error_Some. rewrite (Rw row); [lia|]. now apply nth_error_In in E.
    + exfalso. apply nth_error_None in E. lia.
Qed.
Lemma subset_whole a : proper a -> subset (0, 0, pw a, ph a) a = a.
Proof.
  intros (W & H & L & Rw). destruct a as [w h rs]. cbn [pw ph rows] in *. unfold subset. cbn [pw ph rows]. rewrite !slice_len_in by lia. rewrite !Z.sub_0_r. f_equal.
  rewrite py_slice_in by lia. cbn [skipn]. rewrite Z.sub_0_r, <- L, firstn_all. cbn [Z.to_nat skipn].
  transitivity (map (fun r => r) rs); [|apply map_id]. apply map_ext_in. intros r I. rewrite py_slice_in by lia. cbn [Z.to_nat skipn]. rewrite Z.sub_0_r, <- (Rw r I). apply firstn_all.
Qed.
Lemma size_eqb_true x y : size_eqb x y = true <-> x = y.
Proof. unfold size_eqb. destruct x as [a b], y as [c d]. cbn. rewrite andb_true_iff, !Z.eqb_eq. split; [intros [-> ->]; auto|intros Q; injection Q; auto]. Qed.

Variable rescale : pic V -> Z * Z -> pic V.
Hypothesis G : good_rescale rescale.
Variable file : pic V.
Hypothesis F : proper file.

Lemma gdal_full buf : gdal_read rescale file None buf = Ok (rescale file (match buf with Some b => b | None => psize file end)).
Proof.
  unfold gdal_read. destruct F as (W & H & _).
  replace ((0 <? 0) || (0 <? 0) || (pw file <=? 0) || (ph file <=? 0) || (pw file <? 0 + pw file) || (ph file <? 0 + ph file))%bool with false by (repeat rewrite (proj2 (Z.ltb_ge _ _)) by lia; rewrite !(proj2 (Z.leb_gt _ _)) by lia; reflexivity).
  rewrite !Z.add_0_l, subset_whole by assumption. reflexivity.
Qed.
Definition inv (s : istate V) : Prop := positive (camsz s) /\ match cached s with Some a => positive (psize a) /\ a = rescale file (psize a) | None => True end.
Lemma rescale_psize n : positive n -> psize (rescale file n) = n /\ proper (rescale file n).
Proof. destruct n as [w h]. intros [W H]. destruct (proj2 G file w h F W H). auto. Qed.
(** the full picture at the camera's size, cached or not *)
Lemma read_full box cache s : inv s -> (box = None \/ cache = true) ->
  exists sh s', read rescale file box cache s = Ok (match box with Some b => subset b (rescale file (camsz s)) | None => rescale file (camsz s) end, sh, s')
    /\ inv s' /\ camsz s' = camsz s /\ (cache = true -> cached s' = Some (rescale file (camsz s)) /\ sh = true).
Proof.
  intros [P I] BC. unfold read.
  assert (W : match box, cache with
      | Some (l, t, r, d), false =>
          Some (to_file l (fst (match cached s with Some a => psize a | None => psize file end)) (fst (camsz s)),
                to_file t (snd (match cached s with Some a => psize a | None => psize file end)) (snd (camsz s)),
                to_file (r - l) (fst (match cached s with Some a => psize a | None => psize file end)) (fst (camsz s)),
                to_file (d - t) (snd (match cached s with Some a => psize a | None => psize file end)) (snd (camsz s)))
      | _, _ => None end = None).
  { destruct BC as [->| ->]; [reflexivity|]. destruct box as [[[[l t] r] d]|]; reflexivity. }
  cbv zeta. rewrite W. destruct (rescale_psize _ P) as [PS PR].
  assert (NB : forall b, (if negb (size_eqb (camsz s) b) then Some (camsz s) else None) = None -> camsz s = b).
  { intros b. destruct (size_eqb (camsz s) b) eqn:E; cbn; [|discriminate]. intros _. now apply size_eqb_true. }
  destruct (cached s) as [a|] eqn:C.
  - destruct I as [Pa Ea]. destruct (negb (size_eqb (camsz s) (psize a))) eqn:E.
    + rewrite gdal_full. cbn [bind].
      assert (BX : (cache || negb true)%bool = cache) by (destruct cache; reflexivity). rewrite BX.
      destruct cache.
      * destruct box as [b|]; eexists _, _; (split; [reflexivity|]); cbn; (split; [split; [exact P|cbn; rewrite PS; auto]|auto]).
      * destruct BC as [->|]; [|discriminate]. eexists _, _. split; [reflexivity|]. split; [split; [exact P|rewrite C; auto]|]. split; [reflexivity|discriminate].
    + apply negb_false_iff in E. apply size_eqb_true in E.
      assert (EA : rescale file (camsz s) = a) by (rewrite E; now rewrite <- Ea). rewrite EA.
      cbn [bind]. assert (BX : (cache || negb false)%bool = true) by (destruct cache; reflexivity). rewrite BX.
      destruct box as [b|]; eexists _, _; (split; [reflexivity|]); (split; [split; [exact P|rewrite C; auto]|]); (split; [reflexivity|]); intros _; rewrite C; auto.
  - assert (RF : rescale file (match (if negb (size_eqb (camsz s) (psize file)) then Some (camsz s) else None) with Some b => b | None => psize file end) = rescale file (camsz s)).
    { destruct (negb (size_eqb (camsz s) (psize file))) eqn:E; [reflexivity|]. apply negb_false_iff in E. apply size_eqb_true in E. now rewrite E. }
    rewrite gdal_full, RF. cbn [bind].
    assert (BX : (cache || negb true)%bool = cache) by (destruct cache; reflexivity). rewrite BX.
    destruct cache.
    + destruct box as [b|]; eexists _, _; (split; [reflexivity|]); cbn; (split; [split; [exact P|cbn; rewrite PS; auto]|auto]).
    + destruct BC as [->|]; [|discriminate]. eexists _, _. split; [reflexivity|]. split; [split; [exact P|rewrite C; auto]|]. split; [reflexivity|discriminate].
Qed.
(** without caching a box: the state does not change *)
Lemma read_uncached_state b s p sh s' : read rescale file (Some b) false s = Ok (p, sh, s') -> s' = s.
Proof.
  unfold read. cbv zeta. destruct b as [[[l t] r] d].
  destruct (cached s) as [a|]; destruct (negb _); cbn [bind orb negb];
    try (intros Q; now injection Q); destruct (gdal_read _ _ _ _); cbn [bind orb negb]; try discriminate; intros Q; now injection Q.
Qed.
Lemma inv_reached s : reached rescale file s -> inv s.
Proof.
  intros (size & os & P & Fo & ->). unfold irun. assert (I0 : inv (fresh size)) by (split; [exact P|exact Logic.I]).
  revert I0. generalize (@fresh V size). induction Fo as [|o os So _ IH]; intros s I0; cbn [fold_left]; [exact I0|]. apply IH.
  destruct o as [b c|n|]; cbn [istep].
  - destruct (read rescale file b c s) as [[[p sh] s']|] eqn:E; [|exact I0].
    destruct b as [b|].
    + destruct c.
      * destruct (read_full (Some b) true s I0 (or_intror eq_refl)) as (sh2 & s2 & E2 & I2 & _). rewrite E in E2. injection E2 as _ _ ->. exact I2.
      * apply read_uncached_state in E. now subst.
    + destruct (read_full None c s I0 (or_introl eq_refl)) as (sh2 & s2 & E2 & I2 & _). rewrite E in E2. injection E2 as _ _ ->. exact I2.
  - destruct I0 as [_ I0]. split; [exact So|exact I0].
  - destruct I0 as [I0 _]. split; [exact I0|exact Logic.I].
Qed.
(** a box read from the file at the file's own size *)
Lemma read_uncached_native b s : inv s -> cached s = None -> camsz s = psize file -> box_inside (pw file) (ph file) b ->
  read rescale file (Some b) false s = Ok (subset b file, false, s).
Proof.
  intros [P _] C E B. unfold read. rewrite C, E. cbv zeta. destruct b as [[[l t] r] d].
  replace (size_eqb (psize file) (psize file)) with true by (symmetry; now apply size_eqb_true). cbn [negb].
  destruct F as (W & H & _). destruct B as (B1 & B2 & B3 & B4).
  assert (T : forall v n, (0 < n)%Z -> to_file v n n = v).
  { intros v n Hn. unfold to_file. assert (IZR n <> 0)%R by (apply not_0_IZR; lia). replace (IZR v * (IZR n / IZR n))%R with (IZR v) by (field; assumption). apply Rround_IZR. }
  unfold psize; cbn [fst snd]. rewrite !T by lia. unfold gdal_read.
  replace ((l <? 0) || (t <? 0) || (r - l <=? 0) || (d - t <=? 0) || (pw file <? l + (r - l)) || (ph file <? t + (d - t)))%bool with false
    by (repeat rewrite (proj2 (Z.ltb_ge _ _)) by lia; rewrite !(proj2 (Z.leb_gt _ _)) by lia; reflexivity).
  cbn [bind orb negb]. replace (l + (r - l)) with r by lia. replace (t + (d - t)) with d by lia.
  do 3 f_equal. pose proof (subset_tile file (l, t, r, d) F (conj B1 (conj B2 (conj B3 B4)))) as (PT & W1 & H1 & _).
  rewrite <- W1, <- H1. apply (proj1 G). exact PT.
Qed.
End P.
