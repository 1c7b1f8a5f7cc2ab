(** C79, C80: circles of grid cells (helpers.bresenham_circle, Raster.fill_circle). *)
From Verif Require Import Base BaseLemmas CircleModel CircleProofs.
Open Scope Z_scope.

(* ------------------------------------------------------------------ *)
(** * Specification *)
(** distance of a cell from the center of the circle, squared *)
Definition sq_distance (c p : zpt) : Z := (fst p - fst c) ^ 2 + (snd p - snd c) ^ 2.
Definition distance (c p : zpt) : R := sqrt (IZR (sq_distance c p)).
(** the same cell or one of the eight around it *)
Definition adjacent (p q : zpt) : Prop := Z.abs (fst q - fst p) <= 1 /\ Z.abs (snd q - snd p) <= 1.
(** a path without gaps *)
Definition connected (l : list zpt) : Prop := forall l1 p q l2, l = l1 ++ p :: q :: l2 -> adjacent p q.
(** the eight symmetries of a circle *)
Definition symmetric (c : zpt) (l : list zpt) : Prop :=
  forall u v, In (fst c + u, snd c + v) l -> In (fst c - u, snd c + v) l /\ In (fst c + u, snd c - v) l /\ In (fst c + v, snd c + u) l.

(** steps that bresenham_circle takes for repetitions: none, right and down, left and up *)
Definition dropped_step (p q : zpt) : Prop := q = p \/ q = (fst p + 1, snd p - 1) \/ q = (fst p - 1, snd p + 1).
(** [thinned p l l']: l' is l without the points reached by such a step from the point before them (p before the first) *)
Inductive thinned : zpt -> list zpt -> list zpt -> Prop :=
| th_nil p : thinned p [] []
| th_drop p q l l' : dropped_step p q -> thinned q l l' -> thinned p (q :: l) l'
| th_keep p q l l' : ~ dropped_step p q -> thinned q l l' -> thinned p (q :: l) (q :: l').

(* ------------------------------------------------------------------ *)
Lemma in_Zrange n k : In k (Zrange n) <-> 0 <= k < n.
Proof.
  unfold Zrange. rewrite in_map_iff. split.
  - intros (j & <- & H). apply in_seq in H. lia.
  - intros H. exists (Z.to_nat k). split; [lia|]. apply in_seq. lia.
Qed.
(** every point of the path is close to the circle *)
Lemma vpt_near c r k : 0 <= r -> 0 <= k < 8 * octant_size r ->
  let p := vpt c r (octant_size r) k in
  Z.abs (sq_distance c p - r ^ 2) <= Z.max (Z.abs (fst p - fst c)) (Z.abs (snd p - snd c)) <= r.
Proof.
  intros Hr Hk. destruct c as [x0 y0]. set (m := octant_size r) in *.
  assert (B : forall n, 0 <= n <= m - 1 -> 0 <= height r n <= r /\ 0 <= n <= r /\ - height r n <= n ^ 2 + height r n ^ 2 - r ^ 2 <= height r n).
  { intros n Hn. destruct (Z.eq_dec r 0) as [->|N].
    - unfold m in Hn. rewrite octant_0 in Hn. assert (n = 0) by lia. subst n. change (height 0 0) with 0. lia.
    - destruct (height_bounds r n ltac:(lia) Hn) as [A B]. split; [lia|]. split; [|lia]. destruct (octant_bounds r ltac:(lia)) as (M2 & Mb). fold m in M2, Mb. split; [lia|nia]. }
  unfold vpt, sq_distance. zcmp; cbn [fst snd];
  match goal with
  | |- context[height r ?n] => destruct (B n ltac:(lia)) as (B1 & B2 & B3); set (h := height r n) in *; clearbody h; set (q := n) in *; clearbody q
  end;
  match goal with
  | |- context[(?a ^ 2 + ?b ^ 2)] => replace (a ^ 2 + b ^ 2) with (q ^ 2 + h ^ 2) by (try ring; subst; ring)
  end; set (S := q ^ 2 + h ^ 2 - r ^ 2) in *; clearbody S; lia.
Qed.

(** the path has no gaps *)
Lemma vpt_adjacent c r k : 0 <= r -> 0 <= k -> k + 1 < 8 * octant_size r -> adjacent (vpt c r (octant_size r) k) (vpt c r (octant_size r) (k + 1)).
Proof.
  intros Hr H0 H1. pose proof (height_end r Hr) as E. set (m := octant_size r) in *. destruct c as [x0 y0].
  assert (D : forall n, 0 <= n -> height r (n + 1) = height r n \/ height r (n + 1) = height r n - 1) by (intros n Hn; rewrite height_step by exact Hn; destruct (_ <? _); lia).
  assert (K : forall a b, a = b -> height r a = height r b) by (intros; congruence).
  unfold adjacent, vpt. zcmp; cbn [fst snd];
  repeat match goal with
  | |- context[height r ?a] => match goal with |- context[height r ?b] => first [constr_eq a b; fail 1 | assert_fails (constr_eq a b)]; 
       first [ (assert (Q : a = b) by lia; rewrite Q in *; clear Q) | (assert (Q : a = b + 1) by lia; rewrite Q in *; destruct (D b ltac:(lia)) as [DD|DD]; rewrite DD in *; clear Q DD) | (assert (Q : b = a + 1) by lia; rewrite Q in *; destruct (D a ltac:(lia)) as [DD|DD]; rewrite DD in *; clear Q DD)] end
  end; try lia;
  first [ destruct (D k H0) as [DD|DD]; rewrite DD; lia
        | match goal with |- context[height r ?a] => replace (height r a) with (height r (m - 1)) by (apply K; lia); lia end ].
Qed.

Lemma vpt_closed c r : 0 <= r -> vpt c r (octant_size r) (8 * octant_size r - 1) = vpt c r (octant_size r) 0.
Proof.
  intros Hr. pose proof (octant_pos r Hr). set (m := octant_size r) in *. destruct c as [x0 y0]. unfold vpt. zcmp.
  replace (8 * m - (8 * m - 1) - 1) with 0 by lia. f_equal; lia.
Qed.
Definition full (c : zpt) (r : Z) : list zpt := map (vpt c r (octant_size r)) (Zrange (8 * octant_size r)).
Lemma full_in c r p : In p (full c r) <-> exists k, 0 <= k < 8 * octant_size r /\ p = vpt c r (octant_size r) k.
Proof. unfold full. rewrite in_map_iff. split; [intros (k & <- & H)|intros (k & H & ->)]; exists k; rewrite in_Zrange in *; auto. Qed.
Lemma vpt_in c r n : 0 <= r -> 0 <= n <= octant_size r - 1 ->
  let h := height r n in forall u v, (Z.abs u = n /\ Z.abs v = h) \/ (Z.abs u = h /\ Z.abs v = n) -> In (fst c + u, snd c + v) (full c r).
Proof.
  intros Hr Hn h u v H. assert (Hh : 0 <= h) by lia. pose proof (octant_pos r Hr) as M. destruct c as [x0 y0]. cbn [fst snd].
  set (m := octant_size r) in *.
  assert (G : forall k, 0 <= k < 8 * m -> forall a b, (a, b) = vpt (x0, y0) r m k -> In (a, b) (full (x0, y0) r)) by (intros k Hk a b ->; apply full_in; exists k; auto).
  assert (P : (u = n \/ u = - n) /\ (v = h \/ v = - h) \/ (u = h \/ u = - h) /\ (v = n \/ v = - n)) by lia.
  destruct P as [[[->| ->] [->| ->]]|[[->| ->] [->| ->]]];
  [ apply (G n) | apply (G (4 * m - 1 - n)) | apply (G (8 * m - 1 - n)) | apply (G (4 * m + n))
  | apply (G (2 * m - 1 - n)) | apply (G (2 * m + n)) | apply (G (6 * m + n)) | apply (G (6 * m - 1 - n))]; try lia;
  unfold vpt; zcmp; apply f_equal2; first [lia | unfold h; first [apply f_equal2; [reflexivity|f_equal; lia] | rewrite Z.add_opp_r; f_equal; f_equal; lia]].
Qed.
Lemma full_shape c r p : 0 <= r -> In p (full c r) -> exists n u v, 0 <= n <= octant_size r - 1 /\ p = (fst c + u, snd c + v) /\
  ((Z.abs u = n /\ Z.abs v = height r n) \/ (Z.abs u = height r n /\ Z.abs v = n)).
Proof.
  intros Hr H. apply full_in in H as (k & Hk & ->). set (m := octant_size r) in *. destruct c as [x0 y0].
  assert (B : forall n, 0 <= n <= m - 1 -> 0 <= height r n). { intros n Hn. destruct (Z.eq_dec r 0) as [->|N]; [|apply height_bounds; [lia|exact Hn]].
    unfold m in Hn. rewrite octant_0 in Hn. assert (n = 0) by lia. subst n. reflexivity. }
  unfold vpt. cbn [fst snd]. zcmp;
  match goal with |- context[height r ?n] => exists n; pose proof (B n ltac:(lia)) end;
  match goal with |- exists u v, _ /\ (?a, ?b) = _ /\ _ => exists (a - x0), (b - y0) end; (split; [lia|]); (split; [f_equal; lia|]); lia.
Qed.
Lemma full_symmetric c r : 0 <= r -> symmetric c (full c r).
Proof.
  intros Hr u v H. destruct (full_shape c r _ Hr H) as (n & u' & v' & Hn & E & S). injection E as E1 E2.
  assert (u' = u) by lia. assert (v' = v) by lia. subst u' v'.
  split; [|split]; [replace (fst c - u) with (fst c + (- u)) by lia|replace (snd c - v) with (snd c + (- v)) by lia|]; apply (vpt_in c r n Hr Hn); lia.
Qed.

(** * Removal of points *)
Definition movedp (p q : zpt) : bool := moved (Some p) (Some q).
Fixpoint movesp (p : zpt) (l : list zpt) : list zpt := match l with [] => [] | q :: r => if movedp p q then q :: movesp q r else movesp q r end.
Lemma moves_some p l : moves (Some p) (map Some l) = map Some (movesp p l).
Proof. revert p; induction l as [|q l IH]; intros p; [reflexivity|]. cbn [map moves movesp]. unfold movedp. rewrite IH. destruct (moved (Some p) (Some q)); reflexivity. Qed.
Lemma movedp_dropped p q : adjacent p q -> (movedp p q = false <-> dropped_step p q).
Proof.
  destruct p as [a b], q as [u v]. unfold adjacent, movedp, moved, dropped_step. cbn [fst snd]. intros [A B]. rewrite negb_false_iff, Z.eqb_eq. split.
  - intros E. assert (C : u = a \/ u = a + 1 \/ u = a - 1) by lia. destruct C as [->|[->| ->]]; [left|right; left|right; right]; f_equal; lia.
  - intros [E|[E|E]]; injection E as -> ->; lia.
Qed.
Lemma connected_tail p l : connected (p :: l) -> connected l.
Proof. intros C l1 a b l2 ->. apply (C (p :: l1) a b l2). reflexivity. Qed.
Lemma movesp_thinned p l : connected (p :: l) -> thinned p l (movesp p l).
Proof.
  revert p; induction l as [|q l IH]; intros p C; [constructor|]. pose proof (C [] p q l eq_refl) as A. pose proof (movedp_dropped p q A) as D.
  cbn [movesp]. destruct (movedp p q).
  - apply th_keep; [intros E; apply D in E; discriminate|]. apply IH. apply (connected_tail _ _ C).
  - apply th_drop; [apply D; reflexivity|]. apply IH. apply (connected_tail _ _ C).
Qed.
Lemma full_connected c r : 0 <= r -> connected (full c r).
Proof.
  intros Hr l1 p q l2 E. set (m := octant_size r) in *.
  assert (N : forall i d, (i < length (full c r))%nat -> nth i (full c r) d = vpt c r m (Z.of_nat i)).
  { intros i d Hi. unfold full, Zrange in *. rewrite !map_length, seq_length in Hi. rewrite map_map.
    rewrite (nth_indep _ d (vpt c r m (Z.of_nat 0))) by (rewrite map_length, seq_length; exact Hi). rewrite (map_nth (fun x => vpt c r m (Z.of_nat x))), seq_nth by exact Hi. reflexivity. }
  assert (L : length (full c r) = Z.to_nat (8 * m)) by (unfold full, Zrange; rewrite !map_length, seq_length; reflexivity).
  assert (L' : (length l1 + 2 + length l2)%nat = Z.to_nat (8 * m)) by (rewrite <- L, E, app_length; cbn [length]; lia).
  assert (P : p = vpt c r m (Z.of_nat (length l1))). { rewrite <- (N _ p) by lia. rewrite E, nth_middle. reflexivity. }
  assert (Q : q = vpt c r m (Z.of_nat (length l1) + 1)).
  { replace (Z.of_nat (length l1) + 1) with (Z.of_nat (S (length l1))) by lia. rewrite <- (N _ p) by lia. rewrite E.
    rewrite app_nth2 by lia. replace (S (length l1) - length l1)%nat with 1%nat by lia. reflexivity. }
  rewrite P, Q. apply vpt_adjacent; lia.
Qed.
Lemma full_cons c r : 0 <= r -> exists rest, full c r = (fst c, snd c + r) :: rest.
Proof.
  intros Hr. pose proof (octant_pos r Hr) as M. unfold full, Zrange. destruct (Z.to_nat (8 * octant_size r)) as [|n] eqn:E; [lia|]. cbn [seq map].
  eexists. f_equal. destruct c as [x0 y0]. unfold vpt. change (Z.of_nat 0) with 0. destruct (Z.ltb_spec 0 (octant_size r)); [|lia]. cbn [fst snd]. rewrite Z.add_0_r. reflexivity.
Qed.
Lemma circle_result c r : 0 <= r -> exists rest, full c r = (fst c, snd c + r) :: rest /\
  bresenham_circle c r = Ok (map Some ((fst c, snd c + r) :: movesp (fst c, snd c + r) rest)).
Proof.
  intros Hr. destruct (full_cons c r Hr) as (rest & E). exists rest. split; [exact E|]. unfold bresenham_circle. rewrite circle_path_exact by exact Hr. cbn [bind].
  rewrite <- map_map. fold (full c r). rewrite E. cbn [map drop_duplicates]. rewrite moves_some. reflexivity.
Qed.
Lemma near_distance c p r : 0 <= r -> Z.abs (sq_distance c p - r ^ 2) <= Z.max (Z.abs (fst p - fst c)) (Z.abs (snd p - snd c)) <= r -> (Rabs (distance c p - IZR r) < 1)%R.
Proof.
  intros Hr H. unfold distance. set (s := sq_distance c p) in *.
  assert (S0 : 0 <= s) by (unfold s, sq_distance; nia).
  assert (Q : Z.max (Z.abs (fst p - fst c)) (Z.abs (snd p - snd c)) ^ 2 <= s) by (unfold s, sq_distance; destruct (Z.max_spec (Z.abs (fst p - fst c)) (Z.abs (snd p - snd c))) as [[_ ->]|[_ ->]]; nia).
  set (k := Z.max _ _) in *. assert (K0 : 0 <= k) by lia. clearbody s k.
  set (d := sqrt (IZR s)). assert (D0 : (0 <= d)%R) by apply sqrt_pos. assert (D2 : (d * d = IZR s)%R) by (apply sqrt_sqrt; apply IZR_le in S0; exact S0). clearbody d.
  assert (R0 : (0 <= IZR r)%R) by (apply IZR_le in Hr; exact Hr).
  assert (KR : (0 <= IZR k)%R) by (apply IZR_le in K0; exact K0).
  assert (KD : (IZR k <= d)%R). { apply IZR_le in Q. rewrite Z.pow_2_r, mult_IZR in Q. nra. }
  assert (A1 : s - r ^ 2 <= k) by lia. assert (A2 : r ^ 2 - s <= k) by lia. apply IZR_le in A1, A2. rewrite minus_IZR, Z.pow_2_r, mult_IZR in A1, A2.
  destruct (Z.eq_dec r 0) as [->|Nr].
  - assert (s = 0) by lia. subst s. assert (d = 0%R) by nra. subst d. rewrite Rminus_0_r, Rabs_R0. lra.
  - assert (1 <= IZR r)%R by (apply (IZR_le 1); lia). apply Rabs_def1; nra.
Qed.
Lemma movesp_in p l q : In q (movesp p l) -> In q l.
Proof. revert p; induction l as [|a l IH]; intros p H; [destruct H|]. cbn [movesp] in H. destruct (movedp p a); [destruct H as [->|H]; [left; reflexivity|]|]; right; apply (IH a), H. Qed.

(* ------------------------------------------------------------------ *)
(** * Theorems *)
(** C79: the cells of a circle of any radius are less than one cell from it (and never further out in x or y than the radius) *)
Theorem circle_near : forall c r l p, 0 <= r -> bresenham_circle c r = Ok l -> In p l ->
  exists q, p = Some q /\ (Rabs (distance c q - IZR r) < 1)%R /\
    Z.abs (sq_distance c q - r ^ 2) <= Z.max (Z.abs (fst q - fst c)) (Z.abs (snd q - snd c)) <= r.
Proof.
  intros c r l p Hr E H. destruct (circle_result c r Hr) as (rest & F & E'). rewrite E' in E. injection E as <-.
  change (In p (map Some ((fst c, snd c + r) :: movesp (fst c, snd c + r) rest))) in H.
  apply in_map_iff in H as (q & <- & H). exists q. split; [reflexivity|].
  assert (I : In q (full c r)) by (rewrite F; destruct H as [<-|H]; [left; reflexivity|right; apply (movesp_in _ _ _ H)]).
  apply full_in in I as (k & Hk & ->). pose proof (vpt_near c r k Hr Hk) as N. cbv zeta in N. split; [apply near_distance; assumption|exact N].
Qed.
Print Assumptions circle_near.

(** C79: exactly which cells are returned: a closed, symmetric path of neighbouring cells, without those reached by a step
    to the right and down, or to the left and up (or by no step) *)
Theorem circle_exact : forall c r, 0 <= r -> exists start path kept,
  bresenham_circle c r = Ok (map Some (start :: kept)) /\ thinned start path kept /\
  connected (start :: path) /\ last path start = start /\ symmetric c (start :: path) /\ start = (fst c, snd c + r) /\
  forall q, In q (start :: path) -> Z.abs (sq_distance c q - r ^ 2) <= Z.max (Z.abs (fst q - fst c)) (Z.abs (snd q - snd c)) <= r.
Proof.
  intros c r Hr. destruct (circle_result c r Hr) as (rest & F & E). exists (fst c, snd c + r), rest, (movesp (fst c, snd c + r) rest).
  pose proof (full_connected c r Hr) as C. pose proof (full_symmetric c r Hr) as Sy.
  assert (N : forall q, In q (full c r) -> Z.abs (sq_distance c q - r ^ 2) <= Z.max (Z.abs (fst q - fst c)) (Z.abs (snd q - snd c)) <= r).
  { intros q I. apply full_in in I as (k & Hk & ->). apply (vpt_near c r k Hr Hk). }
  assert (L : last (full c r) (fst c, snd c + r) = (fst c, snd c + r)).
  { pose proof (octant_pos r Hr) as M. pose proof (vpt_closed c r Hr) as V. unfold full.
    replace (Zrange (8 * octant_size r)) with (Zrange (8 * octant_size r - 1) ++ [8 * octant_size r - 1]).
    2:{ unfold Zrange. replace (Z.to_nat (8 * octant_size r)) with (S (Z.to_nat (8 * octant_size r - 1))) by lia. rewrite seq_S, map_app. cbn [map plus]. f_equal. f_equal. lia. }
    rewrite map_app. cbn [map]. rewrite last_last, V. destruct c as [x0 y0]. unfold vpt. destruct (Z.ltb_spec 0 (octant_size r)); [|lia]. cbn [fst snd]. rewrite Z.add_0_r. reflexivity. }
  rewrite F in C, Sy, N, L. split; [exact E|]. split; [apply movesp_thinned; exact C|]. split; [exact C|]. split; [destruct rest; [reflexivity|exact L]|]. split; [exact Sy|]. split; [reflexivity|exact N].
Qed.
Print Assumptions circle_exact.

(** C79: there is a circle exactly for radii that are not negative *)
Theorem circle_total : forall c r, (exists l, bresenham_circle c r = Ok l) <-> 0 <= r.
Proof.
  intros c r. split.
  - intros [l E]. destruct (Z_lt_le_dec r 0) as [N|]; [|assumption]. exfalso. pose proof (octant_neg r N) as M. unfold bresenham_circle, circle_path in E.
    destruct (Z.ltb_spec (8 * octant_size r) 0); [discriminate|]. destruct (Z.eqb_spec (8 * octant_size r) 0); [discriminate|]. lia.
  - intros H. destruct (circle_result c r H) as (rest & _ & E). eauto.
Qed.
Print Assumptions circle_total.

(** ** Gaps *)
Lemma movesp_filter (V : nat -> zpt) k n : movesp (V k) (map V (seq (S k) n)) = map V (filter (fun j => movedp (V (j - 1)%nat) (V j)) (seq (S k) n)).
Proof.
  revert k; induction n as [|n IH]; intros k; [reflexivity|]. cbn [seq map movesp filter]. replace (S k - 1)%nat with k by lia.
  rewrite IH. destruct (movedp (V k) (V (S k))); reflexivity.
Qed.
(** the point at a position of the path, and whether it is returned *)
Definition at_ (c : zpt) (r : Z) (k : nat) : zpt := vpt c r (octant_size r) (Z.of_nat k).
Definition kept_at (c : zpt) (r : Z) (k : nat) : bool := match k with O => true | S j => movedp (at_ c r j) (at_ c r k) end.
Lemma circle_kept c r : 0 <= r -> bresenham_circle c r = Ok (map Some (map (at_ c r) (filter (kept_at c r) (seq 0 (Z.to_nat (8 * octant_size r)))))).
Proof.
  intros Hr. pose proof (octant_pos r Hr) as M. destruct (circle_result c r Hr) as (rest & F & ->). f_equal. f_equal.
  unfold full, Zrange in F. rewrite map_map in F. change (fun x => vpt c r (octant_size r) (Z.of_nat x)) with (at_ c r) in F.
  destruct (Z.to_nat (8 * octant_size r)) as [|n]; [discriminate|]. cbn [seq map filter kept_at] in *. injection F as F1 F2. rewrite <- F1, <- F2. f_equal.
  rewrite movesp_filter. f_equal. apply filter_ext_in. intros j Hj. apply in_seq in Hj. destruct j as [|j]; [lia|]. cbn [kept_at]. replace (S j - 1)%nat with j by lia. reflexivity.
Qed.
(** the length of the flat top of the circle *)
Lemma flat_top r : 1 <= r -> exists n, 1 <= n <= octant_size r - 1 /\ (forall k, 0 <= k <= n -> height r k = r) /\ (n = octant_size r - 1 \/ height r (n + 1) = r - 1).
Proof.
  intros Hr. destruct (octant_bounds r Hr) as (M & _). cbv zeta in M. set (m := octant_size r) in *.
  assert (H1 : height r 1 = r). { change 1 with (0 + 1). rewrite height_step by lia. rewrite height_0. destruct (Z.ltb_spec (r ^ 2) ((0 + 1) ^ 2 + r ^ 2 - r)); lia. }
  assert (G : forall j, 0 <= j -> j <= m - 2 -> (forall k, 0 <= k <= 1 + j -> height r k = r) \/
     exists n, 1 <= n <= m - 1 /\ (forall k, 0 <= k <= n -> height r k = r) /\ height r (n + 1) = r - 1).
  { intros j Hj. pattern j. apply natlike_ind; [| |exact Hj]; clear j Hj.
    - intros _. left. intros k Hk. assert (k = 0 \/ k = 1) as [->| ->] by lia; [apply height_0|exact H1].
    - intros j Hj IH Hm. unfold Z.succ in *. destruct (IH ltac:(lia)) as [A|A]; [|right; exact A].
      assert (S : height r (1 + j + 1) = r \/ height r (1 + j + 1) = r - 1).
      { rewrite height_step by lia. rewrite (A (1 + j)) by lia. destruct (_ <? _); lia. }
      destruct S as [S|S].
      + left. intros k Hk. destruct (Z.eq_dec k (1 + j + 1)) as [->|]; [exact S|]. apply A. lia.
      + right. exists (1 + j). split; [lia|]. split; [exact A|exact S]. }
  destruct (G (m - 2) ltac:(lia) ltac:(lia)) as [A|(n & Hn & A & B)].
  - exists (m - 1). split; [lia|]. split; [intros k Hk; apply A; lia|left; reflexivity].
  - exists n. split; [lia|]. split; [exact A|right; exact B].
Qed.
Lemma octant_le r : 2 <= r -> octant_size r <= r.
Proof. intros H. destruct (octant_bounds r ltac:(lia)) as (A & B). cbv zeta in A, B. nia. Qed.
(** the first point of the second half of the quadrant is never returned *)
Lemma middle_dropped c r : 0 <= r -> kept_at c r (Z.to_nat (octant_size r)) = false.
Proof.
  intros Hr. pose proof (octant_pos r Hr) as M. set (m := octant_size r) in *. destruct (Z.to_nat m) as [|j] eqn:E; [lia|].
  cbn [kept_at]. unfold at_. fold m. destruct c as [x0 y0]. unfold vpt, movedp, moved.
  replace (Z.of_nat j) with (m - 1) by lia. replace (Z.of_nat (S j)) with m by lia. zcmp. rewrite negb_false_iff, Z.eqb_eq.
  replace (2 * m - m - 1) with (m - 1) by lia. lia.
Qed.
Lemma flat_end_dropped c r n : 1 <= r -> 1 <= n <= octant_size r - 1 -> (forall k, 0 <= k <= n -> height r k = r) ->
  (n = octant_size r - 1 \/ height r (n + 1) = r - 1) -> kept_at c r (Z.to_nat (n + 1)) = false.
Proof.
  intros Hr Hn A B. destruct B as [->|B]; [replace (octant_size r - 1 + 1) with (octant_size r) by lia; apply middle_dropped; lia|].
  destruct (Z.eq_dec n (octant_size r - 1)) as [->|N]; [replace (octant_size r - 1 + 1) with (octant_size r) by lia; apply middle_dropped; lia|].
  set (m := octant_size r) in *. replace (Z.to_nat (n + 1)) with (S (Z.to_nat n)) by lia. cbn [kept_at]. unfold at_. fold m.
  replace (Z.of_nat (Z.to_nat n)) with n by lia. replace (Z.of_nat (S (Z.to_nat n))) with (n + 1) by lia. destruct c as [x0 y0]. unfold vpt, movedp, moved. zcmp.
  rewrite negb_false_iff, Z.eqb_eq, B, (A n) by lia. lia.
Qed.
Lemma last_returned c r : 1 <= r -> kept_at c r (Z.to_nat (2 * octant_size r + 1)) = true.
Proof.
  intros Hr. destruct (octant_bounds r Hr) as (M & _). cbv zeta in M. set (m := octant_size r) in *.
  replace (Z.to_nat (2 * m + 1)) with (S (Z.to_nat (2 * m))) by lia. cbn [kept_at]. unfold at_. fold m.
  replace (Z.of_nat (Z.to_nat (2 * m))) with (2 * m) by lia. replace (Z.of_nat (S (Z.to_nat (2 * m)))) with (2 * m + 1) by lia. destruct c as [x0 y0]. unfold vpt, movedp, moved. zcmp.
  rewrite negb_true_iff, Z.eqb_neq. replace (2 * m - 2 * m) with 0 by lia. replace (2 * m + 1 - 2 * m) with (0 + 1) by lia. rewrite height_0.
  rewrite height_step by lia. rewrite height_0. destruct (Z.ltb_spec (r ^ 2) ((0 + 1) ^ 2 + r ^ 2 - r)); lia.
Qed.
Lemma map_Some_inj {A} (a b : list A) : map Some a = map Some b -> a = b.
Proof.
  revert b; induction a as [|x a IH]; intros b H; destruct b as [|y b]; [reflexivity|discriminate H|discriminate H|]. cbn [map] in H.
  injection H as E H. subst y. f_equal. apply IH, H.
Qed.
Lemma filter_T {A} (f : A -> bool) x l : f x = true -> filter f (x :: l) = x :: filter f l.
Proof. intros H. cbn. rewrite H. reflexivity. Qed.
Lemma filter_F {A} (f : A -> bool) x l : f x = false -> filter f (x :: l) = filter f l.
Proof. intros H. cbn. rewrite H. reflexivity. Qed.
Fixpoint chain (p : zpt) (l : list zpt) : Prop := match l with [] => True | q :: r => adjacent p q /\ chain q r end.
Lemma chain_connected p l : chain p l -> connected (p :: l).
Proof.
  revert p; induction l as [|q l IH]; intros p C l1 a b l2 E.
  - destruct l1 as [|? [|]]; discriminate E.
  - destruct C as [A C]. destruct l1 as [|x l1].
    + cbn [app] in E. assert (a = p /\ b = q) as [-> ->] by (split; congruence). exact A.
    + cbn [app] in E. apply (IH q C l1 a b l2). congruence.
Qed.
Lemma ring_0 c : filter (kept_at c 0) (seq 0 (Z.to_nat (8 * 1))) = [0%nat].
Proof.
  destruct c as [x0 y0]. change (seq 0 (Z.to_nat (8 * 1))) with [0; 1; 2; 3; 4; 5; 6; 7]%nat. unfold filter, kept_at, at_. rewrite octant_0. unfold movedp, moved, vpt. cbn -[Z.add Z.sub Z.eqb height].
        repeat match goal with |- context[height 0 ?a] => change (height 0 a) with 0 end.
        repeat match goal with |- context[negb (?a =? 0)] => replace (a =? 0) with true by (symmetry; apply Z.eqb_eq; lia); cbn [negb] end. reflexivity.
Qed.
Lemma ring_1 c : map (at_ c 1) (filter (kept_at c 1) (seq 0 (Z.to_nat (8 * octant_size 1)))) =
        [(fst c, snd c + 1); (fst c + 1, snd c + 1); (fst c + 1, snd c); (fst c + 1, snd c - 1); (fst c, snd c - 1); (fst c - 1, snd c - 1); (fst c - 1, snd c); (fst c - 1, snd c + 1); (fst c, snd c + 1)].
Proof.
  assert (O1 : octant_size 1 = 2) by (apply octant_exact; lia).
  destruct c as [x0 y0]. rewrite O1. change (seq 0 (Z.to_nat (8 * 2))) with [0; 1; 2; 3; 4; 5; 6; 7; 8; 9; 10; 11; 12; 13; 14; 15]%nat.
        assert (V : forall k, at_ (x0, y0) 1 k = vpt (x0, y0) 1 2 (Z.of_nat k)) by (intros; unfold at_; rewrite O1; reflexivity).
        assert (K : forall k, kept_at (x0, y0) 1 k = match k with O => true | S j => movedp (vpt (x0, y0) 1 2 (Z.of_nat j)) (vpt (x0, y0) 1 2 (Z.of_nat k)) end) by (intros [|]; unfold kept_at; rewrite ?V; reflexivity).
        assert (T : forall k, In k [0; 1; 3; 5; 7; 9; 11; 13; 15]%nat -> kept_at (x0, y0) 1 k = true).
        { intros k Hk. rewrite K. repeat destruct Hk as [<-|Hk]; try destruct Hk; [reflexivity|..]; unfold movedp, moved, vpt; cbn -[Z.add Z.sub Z.eqb height];
          repeat match goal with |- context[height 1 ?a] => change (height 1 a) with 1 end; rewrite negb_true_iff, Z.eqb_neq; lia. }
        assert (F : forall k, In k [2; 4; 6; 8; 10; 12; 14]%nat -> kept_at (x0, y0) 1 k = false).
        { intros k Hk. rewrite K. repeat destruct Hk as [<-|Hk]; try destruct Hk; unfold movedp, moved, vpt; cbn -[Z.add Z.sub Z.eqb height];
          repeat match goal with |- context[height 1 ?a] => change (height 1 a) with 1 end; rewrite negb_false_iff, Z.eqb_eq; lia. }
        assert (Qf : filter (kept_at (x0, y0) 1) [0; 1; 2; 3; 4; 5; 6; 7; 8; 9; 10; 11; 12; 13; 14; 15]%nat = [0; 1; 3; 5; 7; 9; 11; 13; 15]%nat).
        { repeat first [rewrite filter_T by (apply T; cbn; tauto) | rewrite filter_F by (apply F; cbn; tauto)]. reflexivity. }
        rewrite Qf. clear Qf T F K. cbn [map]. rewrite !V. clear V. unfold vpt. cbn -[Z.add Z.sub Z.eqb height].
        repeat match goal with |- context[height 1 ?a] => change (height 1 a) with 1 end. cbn [fst snd]. repeat (apply f_equal2; [apply f_equal2; lia|]). reflexivity.
Qed.
(** C79, refuted: the path of no circle of radius 2 or more is connected (that of smaller circles is) *)
Theorem circle_connected_refuted : forall c r l, bresenham_circle c r = Ok (map Some l) -> (connected l <-> r <= 1).
Proof.
  intros c r l E. assert (Hr : 0 <= r) by (apply (circle_total c r); eauto). rewrite circle_kept in E by exact Hr.
  assert (El : map (at_ c r) (filter (kept_at c r) (seq 0 (Z.to_nat (8 * octant_size r)))) = l).
  { assert (E' : map Some (map (at_ c r) (filter (kept_at c r) (seq 0 (Z.to_nat (8 * octant_size r))))) = map Some l) by congruence.
    apply map_Some_inj, E'. }
  clear E. split.
  - intros C. destruct (Z_lt_le_dec 1 r) as [R2|]; [|assumption]. exfalso.
    destruct (octant_bounds r ltac:(lia)) as (M & _). cbv zeta in M. pose proof (octant_le r ltac:(lia)) as Mr.
    destruct (flat_top r ltac:(lia)) as (n & Hn & A & B). pose proof (flat_end_dropped c r n ltac:(lia) Hn A B) as D1. pose proof (middle_dropped c r Hr) as D2. pose proof (last_returned c r ltac:(lia)) as K2.
    set (m := octant_size r) in *.
    assert (K1 : kept_at c r (Z.to_nat n) = true).
    { replace (Z.to_nat n) with (S (Z.to_nat (n - 1))) by lia. cbn [kept_at]. unfold at_. fold m. replace (Z.of_nat (Z.to_nat (n - 1))) with (n - 1) by lia. replace (Z.of_nat (S (Z.to_nat (n - 1)))) with n by lia.
      destruct c as [x0 y0]. unfold vpt, movedp, moved. zcmp. rewrite negb_true_iff, Z.eqb_neq, (A n), (A (n - 1)) by lia. lia. }
    assert (Sq : seq 0 (Z.to_nat (8 * m)) = seq 0 (Z.to_nat n) ++ Z.to_nat n :: seq (S (Z.to_nat n)) (Z.to_nat (8 * m - n - 1))).
    { replace (Z.to_nat (8 * m)) with (Z.to_nat n + S (Z.to_nat (8 * m - n - 1)))%nat by lia. rewrite seq_app. reflexivity. }
    rewrite Sq, filter_app in El. cbn [filter] in El. rewrite K1 in El.
    set (F2 := filter (kept_at c r) (seq (S (Z.to_nat n)) (Z.to_nat (8 * m - n - 1)))) in *.
    assert (I2 : In (Z.to_nat (2 * m + 1)) F2) by (apply filter_In; split; [apply in_seq; lia|exact K2]).
    assert (X : exists j Y, F2 = j :: Y /\ (Z.to_nat n < j <= Z.to_nat (2 * m + 1))%nat /\ kept_at c r j = true).
    { destruct F2 as [|j Y] eqn:EF; [destruct I2|]. exists j, Y. split; [reflexivity|].
      assert (Ij : In j F2) by (rewrite EF; left; reflexivity). unfold F2 in Ij. apply filter_In in Ij as [Ij Kj]. apply in_seq in Ij. split; [|exact Kj]. split; [lia|].
      (* F2 is increasing *)
      destruct I2 as [->|I2]; [lia|].
      assert (So : forall a len, Forall (fun x => (a <= x)%nat) (filter (kept_at c r) (seq a len))).
      { intros a len. apply Forall_forall. intros x Hx. apply filter_In in Hx as [Hx _]. apply in_seq in Hx. lia. }
      assert (St : forall len a x t, filter (kept_at c r) (seq a len) = x :: t -> Forall (fun y => (x < y)%nat) t).
      { induction len as [|len IH]; intros a x t Hf; [discriminate|]. cbn [seq filter] in Hf. destruct (kept_at c r a).
        - injection Hf as <- <-. eapply Forall_impl; [|apply So]. cbn. intros; lia.
        - apply (IH _ _ _ Hf). }
      unfold F2 in EF. pose proof (St _ _ _ _ EF) as T. rewrite Forall_forall in T. specialize (T _ I2). lia. }
    destruct X as (j & Y & EF & Hj & Kj). rewrite EF in El. rewrite map_app in El. cbn [map] in El.
    pose proof (C _ _ _ _ (eq_sym El)) as [Ax Ay].
    assert (j <> Z.to_nat (n + 1)) by (intros ->; congruence). assert (j <> Z.to_nat m) by (intros ->; congruence).
    revert Ax Ay. unfold at_. fold m. destruct c as [x0 y0]. unfold vpt. replace (Z.of_nat (Z.to_nat n)) with n by lia. assert (Hjz : n + 2 <= Z.of_nat j <= 2 * m + 1) by lia. assert (Z.of_nat j <> m) by lia. clear - Hjz H1 A Hn M Mr R2.
    set (q := Z.of_nat j) in *. clearbody q. destruct (Z.ltb_spec n m); [|lia]. rewrite (A n) by lia. zcmp; cbn [fst snd]; intros; lia.
  - intros R1 l1 p q l2 El'. rewrite <- El in El'. clear El.
    assert (R : r = 0 \/ r = 1) by lia. destruct R as [->| ->].
    + rewrite octant_0, ring_0 in El'. destruct l1 as [|? [|]]; discriminate.
    + rewrite ring_1 in El'. revert El'.
      match goal with |- ?L = _ -> _ => enough (C : connected L) by (intros El'; exact (C _ _ _ _ El')) end.
      apply chain_connected. cbn [chain]. unfold adjacent. cbn [fst snd]. repeat split; lia.
Qed.
Print Assumptions circle_connected_refuted.

(* ------------------------------------------------------------------ *)
(** * Filled circles: specification *)
(** a cell of a grid of nx columns and ny rows *)
Definition in_grid (nx ny i j : Z) : Prop := 0 <= i < ny /\ 0 <= j < nx.
(** the cell in row i and column j has a cell of the path on, or to, either side of it, in its row *)
Definition enclosed (path : list zpt) (i j : Z) : Prop := exists a b, In (a, i) path /\ In (b, i) path /\ a <= j <= b.

Lemma fold_min_spec l a : (forall x, In x (a :: l) -> fold_left Z.min l a <= x) /\ In (fold_left Z.min l a) (a :: l).
Proof.
  revert a; induction l as [|b l IH]; intros a; cbn [fold_left]; [split; [intros x [->|[]]; lia|left; reflexivity]|]. destruct (IH (Z.min a b)) as [L I]. split.
  - intros x Hx. assert (M : fold_left Z.min l (Z.min a b) <= Z.min a b) by (apply L; left; reflexivity). destruct Hx as [->|[->|Hx]]; [lia|lia|]. apply L. right. exact Hx.
  - destruct I as [I|I]; [|right; right; exact I]. rewrite <- I. destruct (Z.min_spec a b) as [[_ ->]|[_ ->]]; cbn; auto.
Qed.
Lemma fold_max_spec l a : (forall x, In x (a :: l) -> x <= fold_left Z.max l a) /\ In (fold_left Z.max l a) (a :: l).
Proof.
  revert a; induction l as [|b l IH]; intros a; cbn [fold_left]; [split; [intros x [->|[]]; lia|left; reflexivity]|]. destruct (IH (Z.max a b)) as [L I]. split.
  - intros x Hx. assert (M : Z.max a b <= fold_left Z.max l (Z.max a b)) by (apply L; left; reflexivity). destruct Hx as [->|[->|Hx]]; [lia|lia|]. apply L. right. exact Hx.
  - destruct I as [I|I]; [|right; right; exact I]. rewrite <- I. destruct (Z.max_spec a b) as [[_ ->]|[_ ->]]; cbn; auto.
Qed.
Lemma filled_spec nx ny path i j : filled nx ny path i j = true <-> in_grid nx ny i j /\ enclosed path i j.
Proof.
  unfold filled, in_grid, enclosed. set (xb := map fst (filter (fun p => snd p =? i) path)).
  assert (I : forall a, In a xb <-> In (a, i) path).
  { intros a. unfold xb. rewrite in_map_iff. split.
    - intros ([u v] & E & H). cbn [fst] in E. subst u. apply filter_In in H as [H1 H2]. cbn [snd] in H2. apply Z.eqb_eq in H2. subst v. exact H1.
    - intros H. exists (a, i). split; [reflexivity|]. apply filter_In. split; [exact H|]. cbn [snd]. apply Z.eqb_refl. }
  clearbody xb. destruct xb as [|a r].
  - split; [discriminate|]. intros (_ & a & b & A & _). apply I in A. destruct A.
  - destruct (fold_min_spec r a) as [L1 I1]. destruct (fold_max_spec r a) as [L2 I2]. rewrite !andb_true_iff, !Z.leb_le, !Z.ltb_lt. split.
    + intros (((A & B) & C) & D). split; [lia|]. exists (fold_left Z.min r a), (fold_left Z.max r a). rewrite <- !I. split; [exact I1|]. split; [exact I2|]. lia.
    + intros (G & u & v & U & V & H). apply I in U, V. apply L1 in U. apply L2 in V. lia.
Qed.
Lemma concat_some {A} (l : list A) : concat (map (fun p => match p with Some q => [q] | None => [] end) (map Some l)) = l.
Proof. induction l; cbn; [reflexivity|]. f_equal. exact IHl. Qed.
Lemma circle_some c r l : bresenham_circle c r = Ok l -> exists path, l = map Some path.
Proof. intros E. assert (0 <= r) by (apply (circle_total c r); eauto). rewrite circle_kept in E by assumption. eexists. injection E as <-. reflexivity. Qed.

(** C80: the cells that are filled are those enclosed, in their row, by the cells of the circle; nothing else changes *)
Theorem fill_circle_exact : forall {V} nx ny row col radius d (value : V) array out,
  fill_circle nx ny row col radius d value array = Ok out -> exists path,
  bresenham_circle (col, row) (Rround (radius / d)) = Ok (map Some path) /\
  forall i j, (in_grid nx ny i j /\ enclosed path i j -> out i j = value) /\ (~ (in_grid nx ny i j /\ enclosed path i j) -> out i j = array i j).
Proof.
  intros V nx ny row col radius d value array out E. unfold fill_circle in E. destruct (Reqb d 0); [discriminate|].
  destruct (bresenham_circle (col, row) (Rround (radius / d))) as [l|] eqn:B; [|discriminate]. cbn [bind] in E. injection E as <-.
  destruct (circle_some _ _ _ B) as [path ->]. exists path. split; [reflexivity|]. intros i j. rewrite concat_some. split; intros H.
  - apply filled_spec in H. rewrite H. reflexivity.
  - destruct (filled nx ny path i j) eqn:F; [|reflexivity]. apply filled_spec in F. contradiction.
Qed.
Print Assumptions fill_circle_exact.

Lemma enclosed_near c r path i j a b : 0 <= r -> bresenham_circle c r = Ok (map Some path) -> In (a, i) path -> In (b, i) path -> a <= j <= b ->
  sq_distance c (j, i) <= r ^ 2 + r.
Proof.
  intros Hr B A A' L. destruct (circle_near _ _ _ _ Hr B (in_map Some _ _ A)) as (q & Eq & _ & N). injection Eq as <-.
  destruct (circle_near _ _ _ _ Hr B (in_map Some _ _ A')) as (q & Eq & _ & N'). injection Eq as <-.
  clear - N N' L. destruct c as [col row]. unfold sq_distance in *. cbn [fst snd] in *.
  assert ((j - col) ^ 2 <= (a - col) ^ 2 \/ (j - col) ^ 2 <= (b - col) ^ 2) by (clear - L; destruct (Z_le_gt_dec j col); [left|right]; nia).
  set (u := (a - col) ^ 2) in *. set (v := (b - col) ^ 2) in *. set (w := (i - row) ^ 2) in *. set (x := (j - col) ^ 2) in *. set (y := r ^ 2) in *. clearbody u v w x y. lia.
Qed.
Lemma far_away c p r : 0 <= r -> sq_distance c p <= r ^ 2 + r -> ~ (IZR r + / 2 <= distance c p)%R.
Proof.
  intros Hr S D. unfold distance in D. assert (P : 0 <= sq_distance c p) by (unfold sq_distance; nia). set (s := sq_distance c p) in *. clearbody s.
  apply IZR_le in S. rewrite plus_IZR, Z.pow_2_r, mult_IZR in S. apply IZR_le in Hr, P.
  pose proof (sqrt_pos (IZR s)). pose proof (sqrt_sqrt (IZR s) P). nra.
Qed.
(** C80: no cell further from the center than the radius (in cells, rounded) and half a cell is changed *)
Theorem fill_circle_outside : forall {V} nx ny row col radius d (value : V) array out i j,
  fill_circle nx ny row col radius d value array = Ok out ->
  (IZR (Rround (radius / d)) + / 2 <= distance (col, row) (j, i))%R -> out i j = array i j.
Proof.
  intros V nx ny row col radius d value array out i j E D. destruct (fill_circle_exact _ _ _ _ _ _ _ _ _ E) as (path & B & H). apply H. intros (_ & a & b & A & A' & L).
  assert (Hr : 0 <= Rround (radius / d)) by (apply (circle_total (col, row) (Rround (radius / d))); eauto).
  pose proof (enclosed_near (col, row) _ path i j a b Hr B A A' L) as S. revert D S Hr. generalize (Rround (radius / d)). clear. intros r D S Hr. exact (far_away _ _ _ Hr S D).
Qed.
Print Assumptions fill_circle_outside.

(** C80, refuted: circles of radius 2 or more (in cells) have holes: a whole row within the circle, but for its first cell, is never filled *)
Theorem fill_circle_inside_refuted : forall r, 2 <= r -> exists n, 1 <= n < r /\ n ^ 2 <= r /\
  forall V nx ny row col radius d (value : V) array out, Rround (radius / d) = r ->
  fill_circle nx ny row col radius d value array = Ok out ->
  forall j, col - r < j -> out (row + n) j = array (row + n) j.
Proof.
  intros r Hr. destruct (octant_bounds r ltac:(lia)) as (M & Mb). cbv zeta in M, Mb. pose proof (octant_le r Hr) as Mr.
  destruct (flat_top r ltac:(lia)) as (n & Hn & A & B). exists n.
  destruct (height_bounds r n ltac:(lia) ltac:(lia)) as [_ Q]. rewrite (A n) in Q by lia. split; [lia|]. split; [lia|].
  intros V nx ny row col radius d value array out R E j Hj. destruct (fill_circle_exact _ _ _ _ _ _ _ _ _ E) as (path & C & H). apply H. clear H E. rewrite R in C.
  intros (_ & a & b & _ & I & L).
  assert (X : b = col - r); [|lia]. clear L.
  rewrite circle_kept in C by lia. assert (P : map (at_ (col, row) r) (filter (kept_at (col, row) r) (seq 0 (Z.to_nat (8 * octant_size r)))) = path) by (apply map_Some_inj; congruence).
  rewrite <- P in I. clear P C. apply in_map_iff in I as (k & Ek & I). apply filter_In in I as [I K]. apply in_seq in I.
  assert (Hh : forall k, 0 <= k <= octant_size r - 1 -> height r k <> n).
  { intros q Hq Eq. destruct (height_bounds r q ltac:(lia) Hq) as [_ Q']. rewrite Eq in Q'. set (m := octant_size r) in *. clearbody m. clear - Hr M Mb Mr Hn Q Q' Hq.
    assert (q ^ 2 <= (m - 1) ^ 2) by nia. assert (r ^ 2 < (m - 1) ^ 2 + r + n) by lia.
    assert (r <= 5). { clear Hq Q Q' H. assert (2 * r ^ 2 < 2 * (m - 2) ^ 2 + 4 * (m - 2) + 2 + 2 * r + 2 * n) by lia. nia. } assert (C : r = 2 \/ r = 3 \/ r = 4 \/ r = 5) by lia.
    assert (n <= 2) by nia. assert (m <= 4) by nia. destruct C as [->|[->|[->| ->]]]; nia. }
  assert (Hp : forall k, 0 <= k <= octant_size r - 1 -> 0 <= height r k) by (intros q Hq; apply height_bounds; lia).
  assert (D : kept_at (col, row) r (Z.to_nat (2 * octant_size r - 1 - n)) = false).
  { destruct (Z.eq_dec n (octant_size r - 1)) as [En|Nn].
    - replace (2 * octant_size r - 1 - n) with (octant_size r) by lia. apply middle_dropped. lia.
    - destruct B as [B|B]; [lia|]. set (m := octant_size r) in *. replace (Z.to_nat (2 * m - 1 - n)) with (S (Z.to_nat (2 * m - 2 - n))) by lia. cbn [kept_at]. unfold at_. fold m.
      replace (Z.of_nat (Z.to_nat (2 * m - 2 - n))) with (2 * m - 2 - n) by lia. replace (Z.of_nat (S (Z.to_nat (2 * m - 2 - n)))) with (2 * m - 1 - n) by lia.
      unfold vpt, movedp, moved. zcmp. rewrite negb_false_iff, Z.eqb_eq. replace (2 * m - (2 * m - 1 - n) - 1) with n by lia. replace (2 * m - (2 * m - 2 - n) - 1) with (n + 1) by lia.
      rewrite B, (A n) by lia. lia. }
  set (m := octant_size r) in *. unfold at_ in Ek. fold m in Ek. destruct (Z.eq_dec (Z.of_nat k) (2 * m - 1 - n)) as [Kk|Nk].
  { replace k with (Z.to_nat (2 * m - 1 - n)) in K by lia. congruence. }
  assert (Hk : 0 <= Z.of_nat k < 8 * m) by lia. revert Ek Hk Nk. generalize (Z.of_nat k). intros q Ek Hk Nk. clear - Ek Hk Nk Hh Hp A Hn Hr M Mr.
  revert Ek. unfold vpt.
  repeat match goal with |- context[?a <? ?b] => destruct (Z.ltb_spec a b); try lia end; intros Ek; pose proof (f_equal fst Ek) as Ea; pose proof (f_equal snd Ek) as Eb; cbn [fst snd] in Ea, Eb.
  - exfalso. apply (Hh q); lia.
  - exfalso. lia.
  - exfalso. lia.
  - exfalso. pose proof (Hp (4 * m - q - 1)). lia.
  - exfalso. pose proof (Hp (q - 4 * m)). lia.
  - exfalso. lia.
  - assert (Ez : q - 6 * m = n) by lia. rewrite Ez, (A n) in Ea by lia. lia.
  - exfalso. apply (Hh (8 * m - q - 1)); lia.
Qed.
Print Assumptions fill_circle_inside_refuted.

(** C80: circles that round to a radius of 0 or 1 cells are filled without holes: the center, or the 3 x 3 cells around it *)
Theorem fill_circle_small : forall {V} nx ny row col radius d (value : V) array out i j,
  fill_circle nx ny row col radius d value array = Ok out -> Rround (radius / d) <= 1 -> in_grid nx ny i j ->
  (Z.max (Z.abs (i - row)) (Z.abs (j - col)) <= Rround (radius / d) -> out i j = value) /\
  (~ Z.max (Z.abs (i - row)) (Z.abs (j - col)) <= Rround (radius / d) -> out i j = array i j).
Proof.
  intros V nx ny row col radius d value array out i j E R1 G. destruct (fill_circle_exact _ _ _ _ _ _ _ _ _ E) as (path & C & H). specialize (H i j).
  assert (X : enclosed path i j <-> Z.max (Z.abs (i - row)) (Z.abs (j - col)) <= Rround (radius / d)); [|tauto]. clear H E.
  set (r := Rround (radius / d)) in *. clearbody r. assert (Hr : 0 <= r) by (apply (circle_total (col, row) r); eauto).
  rewrite circle_kept in C by exact Hr. assert (P : map (at_ (col, row) r) (filter (kept_at (col, row) r) (seq 0 (Z.to_nat (8 * octant_size r)))) = path) by (apply map_Some_inj; congruence).
  clear C. assert (D : r = 0 \/ r = 1) by lia. destruct D as [->| ->].
  - rewrite octant_0, ring_0 in P. cbn [map] in P. assert (P0 : at_ (col, row) 0 0 = (col, row)) by (unfold at_; rewrite octant_0; unfold vpt; cbn -[Z.add height]; rewrite height_0; f_equal; lia).
    rewrite P0 in P. clear P0. subst path. unfold enclosed. split.
    + intros (a & b & [A|[]] & [B|[]] & L). injection A as <- <-. injection B as <-. lia.
    + intros L. exists col, col. assert (i = row) by lia. subst i. split; [left; reflexivity|]. split; [left; reflexivity|]. lia.
  - rewrite ring_1 in P. cbn [fst snd] in P. subst path. split.
    + intros (a & b & A & B & L). cbn [In] in A, B.
      assert (A' : col - 1 <= a <= col + 1 /\ row - 1 <= i <= row + 1) by (decompose [or] A; try tauto; match goal with X : (_, _) = (_, _) |- _ => pose proof (f_equal fst X) as A1; pose proof (f_equal snd X) as A2; cbn [fst snd] in A1, A2; lia end).
      assert (B' : col - 1 <= b <= col + 1) by (clear A; decompose [or] B; try tauto; match goal with X : (_, _) = (_, _) |- _ => pose proof (f_equal fst X) as B1; cbn [fst] in B1; lia end). lia.
    + intros L. exists (col - 1), (col + 1). split; [|split; [|lia]]; cbn [In]; (assert (I : i = row + 1 \/ i = row \/ i = row - 1) by lia); destruct I as [->|[->| ->]]; tauto.
Qed.
Print Assumptions fill_circle_small.

(** C80: a raster can be filled exactly when the radius, in cells of its x axis, does not round to a negative number: not if x decreases, but for
    radii of at most half a cell *)
Theorem fill_circle_total : forall {V} nx ny row col radius d (value : V) array, d <> 0%R ->
  ((exists out, fill_circle nx ny row col radius d value array = Ok out) <-> 0 <= Rround (radius / d)) /\
  ((d < 0)%R -> (0 < radius)%R -> ((exists out, fill_circle nx ny row col radius d value array = Ok out) <-> (radius <= - d / 2)%R)).
Proof.
  intros V nx ny row col radius d value array D.
  assert (T : (exists out, fill_circle nx ny row col radius d value array = Ok out) <-> 0 <= Rround (radius / d)).
  { unfold fill_circle. destruct (Reqb d 0) eqn:Q; [apply Reqb_true in Q; contradiction|]. rewrite <- (circle_total (col, row)).
    destruct (bresenham_circle (col, row) (Rround (radius / d))) as [l|e]; cbn [bind]; split; intros [o O]; try discriminate; eauto. }
  split; [exact T|]. intros Dn Rp. rewrite T. clear T. set (t := (radius / d)%R). assert (Et : (radius = t * d)%R) by (unfold t; field; exact D).
  clearbody t. pose proof (Rround_near t) as N. assert (T0 : (t < 0)%R) by nra. split.
  - intros H. apply IZR_le in H. assert (- / 2 <= t)%R by (revert N; unfold Rabs; destruct (Rcase_abs _); lra). nra.
  - intros H. assert (- / 2 <= t)%R by nra. unfold Rround. pose proof (Rfloor_lb t). pose proof (Rfloor_ub t).
    assert (F : Rfloor t = -1) by (apply Rfloor_imp; cbn; lra). rewrite F. unfold Rltb. destruct (Rlt_dec (t - -1) (/ 2)) as [C|C]; [lra|]. destruct (Rlt_dec (/ 2) (t - -1)); reflexivity || (cbn; lia).
Qed.
Print Assumptions fill_circle_total.

(** C80: the row of the center is filled, from one side of the circle to the other *)
Theorem fill_circle_center : forall {V} nx ny row col radius d (value : V) array out j,
  fill_circle nx ny row col radius d value array = Ok out -> in_grid nx ny row j -> Z.abs (j - col) <= Rround (radius / d) -> out row j = value.
Proof.
  intros V nx ny row col radius d value array out j E G L. destruct (Z_le_gt_dec (Rround (radius / d)) 1) as [R1|R1].
  { apply (fill_circle_small _ _ _ _ _ _ _ _ _ _ _ E R1 G). rewrite Z.sub_diag. cbn [Z.abs]. lia. }
  destruct (fill_circle_exact _ _ _ _ _ _ _ _ _ E) as (path & C & H). apply H. split; [exact G|]. clear H E. set (r := Rround (radius / d)) in *. clearbody r.
  rewrite circle_kept in C by lia. assert (P : map (at_ (col, row) r) (filter (kept_at (col, row) r) (seq 0 (Z.to_nat (8 * octant_size r)))) = path) by (apply map_Some_inj; congruence).
  clear C. destruct (octant_bounds r ltac:(lia)) as (M & _). cbv zeta in M. set (m := octant_size r) in *.
  assert (H1 : height r 1 = r). { change 1 with (0 + 1). rewrite height_step by lia. rewrite height_0. destruct (Z.ltb_spec (r ^ 2) ((0 + 1) ^ 2 + r ^ 2 - r)); lia. }
  exists (col - r), (col + r). rewrite <- P. split; [|split; [|lia]]; apply in_map_iff.
  - exists (S (Z.to_nat (6 * m - 2))). split; [|apply filter_In; split; [apply in_seq; lia|]].
    + unfold at_. fold m. replace (Z.of_nat (S (Z.to_nat (6 * m - 2)))) with (6 * m - 1) by lia. unfold vpt. zcmp. replace (6 * m - (6 * m - 1) - 1) with 0 by lia. rewrite height_0. f_equal; lia.
    + cbn [kept_at]. unfold at_. fold m. replace (Z.of_nat (S (Z.to_nat (6 * m - 2)))) with (6 * m - 1) by lia. replace (Z.of_nat (Z.to_nat (6 * m - 2))) with (6 * m - 2) by lia. unfold vpt, movedp, moved. zcmp.
      replace (6 * m - (6 * m - 1) - 1) with 0 by lia. replace (6 * m - (6 * m - 2) - 1) with 1 by lia. rewrite height_0, H1, negb_true_iff, Z.eqb_neq. lia.
  - exists (S (Z.to_nat (2 * m - 2))). split; [|apply filter_In; split; [apply in_seq; lia|]].
    + unfold at_. fold m. replace (Z.of_nat (S (Z.to_nat (2 * m - 2)))) with (2 * m - 1) by lia. unfold vpt. zcmp. replace (2 * m - (2 * m - 1) - 1) with 0 by lia. rewrite height_0. f_equal; lia.
    + cbn [kept_at]. unfold at_. fold m. replace (Z.of_nat (S (Z.to_nat (2 * m - 2)))) with (2 * m - 1) by lia. replace (Z.of_nat (Z.to_nat (2 * m - 2))) with (2 * m - 2) by lia. unfold vpt, movedp, moved. zcmp.
      replace (2 * m - (2 * m - 1) - 1) with 0 by lia. replace (2 * m - (2 * m - 2) - 1) with 1 by lia. rewrite height_0, H1, negb_true_iff, Z.eqb_neq. lia.
Qed.
Print Assumptions fill_circle_center.

(** ** The hypotheses are met *)
Example circle_applies : exists l, bresenham_circle (3, 4) 2 = Ok (map Some l) /\ ~ connected l.
Proof.
  assert (exists l, bresenham_circle (3, 4) 2 = Ok l) as [l E] by (apply circle_total; lia). destruct (circle_some _ _ _ E) as [p ->]. exists p. split; [exact E|].
  intros C. apply (circle_connected_refuted (3, 4) 2 p E) in C. lia.
Qed.
(** a circle of radius 5 in a raster of 20 x 20 cells of size 2: filled, but for the cell two rows below the center *)
Example fill_circle_applies : exists out, fill_circle 20 20 10 10 10 2 1 (fun _ _ => 0) = Ok out /\ exists n, 1 <= n <= 2 /\ out (10 + n) 10 = 0.
Proof.
  assert (R5 : Rround (10 / 2) = 5) by (replace (10 / 2)%R with (IZR 5) by (cbn; field); apply Rround_IZR).
  assert (exists out, fill_circle 20 20 10 10 10 2 1 (fun _ _ => 0) = Ok out) as [out E] by (apply (proj1 (fill_circle_total 20 20 10 10 10 2 1 (fun _ _ => 0) ltac:(lra))); rewrite R5; lia).
  exists out. split; [exact E|]. destruct (fill_circle_inside_refuted 5 ltac:(lia)) as (n & N1 & N2 & H). exists n. split; [nia|].
  apply (H _ _ _ _ _ _ _ _ _ _ R5 E). lia.
Qed.
