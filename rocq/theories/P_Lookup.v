(** C127: undistortion by table lookup. *)
From Verif Require Import Base BaseLemmas HelpersModel CameraModel CameraSpec CameraStateProofs LookupModel.
Open Scope R_scope.

Lemma least_le l x : In x l -> least l <= x.
Proof.
  unfold least. generalize (hd 0 l). intros h. induction l as [|y l IH]; intros []; cbn [fold_right]; [subst; apply Rmin_l|]. eapply Rle_trans; [apply Rmin_r|]. now apply IH.
Qed.
Lemma greatest_ge l x : In x l -> x <= greatest l.
Proof.
  unfold greatest. generalize (hd 0 l). intros h. induction l as [|y l IH]; intros []; cbn [fold_right]; [subst; apply Rmax_l|]. eapply Rle_trans; [|apply Rmax_r]. now apply IH.
Qed.
Lemma least_ge l b : l <> [] -> Forall (fun x => b <= x) l -> b <= least l.
Proof.
  intros N F. unfold least. assert (H : b <= hd 0 l) by (destruct F; [contradiction|assumption]). revert H. generalize (hd 0 l). intros h Hh. clear N. induction F as [|x l Hx F IH]; cbn [fold_right]; [exact Hh|now apply Rmin_glb].
Qed.
Lemma greatest_le l b : l <> [] -> Forall (fun x => x <= b) l -> greatest l <= b.
Proof.
  intros N F. unfold greatest. assert (H : hd 0 l <= b) by (destruct F; [contradiction|assumption]). revert H. generalize (hd 0 l). intros h Hh. clear N. induction F as [|x l Hx F IH]; cbn [fold_right]; [exact Hh|now apply Rmax_lub].
Qed.
Lemma linspace_within a b n l : a <= b -> linspace a b n = Ok l -> Forall (fun x => a <= x <= b) l /\ ((1 < n)%Z -> In a l /\ In b l).
Proof.
  intros L E. unfold linspace in E. destruct (Z.ltb_spec n 0); [discriminate|]. injection E as <-. destruct (Z.eqb_spec n 1) as [->|N1].
  - split; [rewrite Forall_forall; intros x I; apply in_map_iff in I as (i & <- & I); lra|lia].
  - assert (IN : forall i, In i (Zrange n) <-> (0 <= i < n)%Z).
    { intros i. unfold Zrange. rewrite in_map_iff. split; [intros (k & <- & I); apply in_seq in I; lia|intros B; exists (Z.to_nat i); rewrite in_seq; split; lia]. }
    split.
    + rewrite Forall_forall. intros x I. apply in_map_iff in I as (i & <- & I). apply IN in I. assert (N : 0 < IZR (n - 1)) by (apply IZR_lt; lia). assert (0 <= IZR i <= IZR (n - 1)) by (split; apply IZR_le; lia).
      set (s := (b - a) / IZR (n - 1)). assert (0 <= s) by (unfold s; apply Rmult_le_pos; [lra|left; now apply Rinv_0_lt_compat]). assert (IZR (n - 1) * s = b - a) by (unfold s; field; lra). nra.
    + intros B. assert (N : 0 < IZR (n - 1)) by (apply IZR_lt; lia). split; apply in_map_iff; [exists 0%Z|exists (n - 1)%Z]; (split; [|apply IN; lia]); [ring|field; lra].
Qed.

(** ** The table *)
(** the ranges of the table in x (i = 0) and y (i = 1) *)
Definition coordinate (i : nat) (p : vec2) : R := if (i =? 0)%nat then fst p else snd p.
Definition low (c : cam) (i : nat) : R := Rmin (least (map (coordinate i) (xyu_edges c))) (least (map (coordinate i) (xyd_edges c))).
Definition high (c : cam) (i : nat) : R := Rmax (greatest (map (coordinate i) (xyu_edges c))) (greatest (map (coordinate i) (xyd_edges c))).
(** the number of table points along an axis: the image size times the density, less any fraction *)
Definition table_size (c : cam) (density : R) (i : nat) : Z := Rtrunc (density * nth i (imgszR c) 0).
Lemma low_high c i : low c i <= high c i.
Proof.
  unfold low, high. assert (I : exists x, In x (map (coordinate i) (xyu_edges c))) by (eexists; left; reflexivity). destruct I as (x & I).
  apply Rle_trans with x; [eapply Rle_trans; [apply Rmin_l|now apply least_le]|eapply Rle_trans; [|apply Rmax_l]; now apply greatest_ge].
Qed.
Lemma table_points c density table : lookup_table c density = Ok table ->
  (forall d u, In (d, u) table -> d = distort c u /\ low c 0 <= fst u <= high c 0 /\ low c 1 <= snd u <= high c 1) /\
  ((1 < table_size c density 0)%Z -> (1 < table_size c density 1)%Z ->
   forall x y, (x = low c 0 \/ x = high c 0) -> (y = low c 1 \/ y = high c 1) -> In (distort c (x, y), (x, y)) table).
Proof.
  unfold lookup_table. destruct (table_axis c density 0) as [ux|] eqn:E0; [|discriminate]. cbn [bind]. destruct (table_axis c density 1) as [uy|] eqn:E1; [|discriminate]. cbn [bind]. intros [= <-].
  destruct (linspace_within _ _ _ _ (low_high c 0) E0) as [F0 G0]. destruct (linspace_within _ _ _ _ (low_high c 1) E1) as [F1 G1]. rewrite Forall_forall in F0, F1. split.
  - intros d u I. apply in_map_iff in I as (u' & [= <- <-] & I). apply in_concat in I as (l & I & Iu). apply in_map_iff in I as (y & <- & Iy). apply in_map_iff in Iu as (x & <- & Ix). split; [reflexivity|]. split; [now apply F0|now apply F1].
  - intros N0 N1 x y Hx Hy. apply in_map_iff. exists (x, y). split; [reflexivity|]. apply in_concat. exists (map (fun x => (x, y)) ux). split; apply in_map_iff.
    + exists y. split; [reflexivity|]. destruct (G1 N1). destruct Hy; subst; assumption.
    + exists x. split; [reflexivity|]. destruct (G0 N0). destruct Hx; subst; assumption.
Qed.

(** ** What is found *)
(** A table point is found from where it is distorted to: exactly, or as another table point that is distorted to the same place. *)
Lemma two_of_three a b s : 0 <= a -> 0 <= b -> 0 < s -> a * b * s <= 0 -> a = 0 \/ b = 0.
Proof. intros A B S H. destruct (Req_dec a 0); [tauto|]. destruct (Req_dec b 0); [tauto|]. assert (0 < a * b) by (apply Rmult_lt_0_compat; lra). assert (0 < a * b * s) by (now apply Rmult_lt_0_compat). lra. Qed.
Lemma apart p q : p <> q -> 0 < distance2 p q.
Proof.
  intros N. destruct p as [a b], q as [x y]. unfold distance2. cbn [fst snd]. pose proof (Rle_0_sqr (a - x)). pose proof (Rle_0_sqr (b - y)). unfold Rsqr in *.
  destruct (Req_dec (a - x) 0) as [E|E]; [|apply Rsqr_pos_lt in E; unfold Rsqr in E; lra]. destruct (Req_dec (b - y) 0) as [E'|E']; [|apply Rsqr_pos_lt in E'; unfold Rsqr in E'; lra]. exfalso. apply N. f_equal; lra.
Qed.
Lemma vertex points p1 p2 p3 w1 w2 w3 : delaunay points p1 p2 p3 -> 0 <= w1 -> 0 <= w2 -> 0 <= w3 -> w1 + w2 + w3 = 1 -> In (weighted w1 w2 w3 p1 p2 p3) points ->
  (w1 = 1 /\ w2 = 0 /\ w3 = 0) \/ (w1 = 0 /\ w2 = 1 /\ w3 = 0) \/ (w1 = 0 /\ w2 = 0 /\ w3 = 1).
Proof.
  intros (ND & o & O2 & O3 & EM) W1 W2 W3 SW I. rewrite Forall_forall in EM. specialize (EM _ I).
  assert (N12 : p1 <> p2) by (intros ->; apply ND; ring). assert (N13 : p1 <> p3) by (intros ->; apply ND; ring). assert (N23 : p2 <> p3) by (intros ->; apply ND; ring).
  apply apart in N12, N13, N23.
  assert (ID : distance2 (weighted w1 w2 w3 p1 p2 p3) o = w1 * distance2 p1 o + w2 * distance2 p2 o + w3 * distance2 p3 o - (w1 * w2 * distance2 p1 p2 + w1 * w3 * distance2 p1 p3 + w2 * w3 * distance2 p2 p3)).
  { assert (W : w3 = 1 - w1 - w2) by lra. subst w3. unfold weighted, distance2. cbn [fst snd]. ring. }
  rewrite O2, O3 in ID. replace (w1 * distance2 p1 o + w2 * distance2 p1 o + w3 * distance2 p1 o) with (distance2 p1 o) in ID by (transitivity ((w1 + w2 + w3) * distance2 p1 o); [rewrite SW|]; ring).
  assert (P12 : 0 <= w1 * w2 * distance2 p1 p2) by (apply Rmult_le_pos; [apply Rmult_le_pos; assumption|lra]). assert (P13 : 0 <= w1 * w3 * distance2 p1 p3) by (apply Rmult_le_pos; [apply Rmult_le_pos; assumption|lra]). assert (P23 : 0 <= w2 * w3 * distance2 p2 p3) by (apply Rmult_le_pos; [apply Rmult_le_pos; assumption|lra]).
  destruct (two_of_three w1 w2 _ W1 W2 N12 ltac:(lra)), (two_of_three w1 w3 _ W1 W3 N13 ltac:(lra)), (two_of_three w2 w3 _ W2 W3 N23 ltac:(lra)); lra.
Qed.
Theorem lookup_known : forall c density table d u r, lookup_table c density = Ok table -> In (d, u) table -> undistort_lookup c density d r ->
  exists u', r = Some u' /\ In (d, u') table /\ distort c u' = d.
Proof.
  intros c density table d u r E I (t & E' & G). rewrite E in E'. injection E' as <-. destruct (table_points c density table E) as [T _]. destruct r as [v|]; cbn [griddata] in G.
  - destruct G as (d1 & u1 & d2 & u2 & d3 & u3 & w1 & w2 & w3 & I1 & I2 & I3 & D & W1 & W2 & W3 & SW & Q & V).
    assert (IQ : In (weighted w1 w2 w3 d1 d2 d3) (map fst table)) by (rewrite <- Q; apply in_map_iff; exists (d, u); now split).
    assert (Z : forall u', v = u' -> In (d, u') table -> exists u'0, Some v = Some u'0 /\ In (d, u'0) table /\ distort c u'0 = d).
    { intros u' -> I'. exists u'. split; [reflexivity|]. split; [exact I'|]. symmetry. apply (T d u' I'). }
    destruct (vertex _ _ _ _ _ _ _ D W1 W2 W3 SW IQ) as [(A & B & C)|[(A & B & C)|(A & B & C)]]; subst w1 w2 w3; [apply (Z u1)|apply (Z u2)|apply (Z u3)];
      try (rewrite V; unfold weighted; destruct u1, u2, u3; cbn [fst snd]; f_equal; ring);
      [replace d with d1|replace d with d2|replace d with d3]; try assumption; rewrite Q; unfold weighted; destruct d1, d2, d3; cbn [fst snd]; f_equal; ring.
  - exfalso. apply G. intros a b e F. rewrite Forall_forall in F. apply F. apply in_map_iff. exists (d, u). now split.
Qed.
Print Assumptions lookup_known.

(** ** Images *)
Definition width (c : cam) : R := nth 0 (imgszR c) 0.
Definition height (c : cam) : R := nth 1 (imgszR c) 0.
Definition in_image (c : cam) (uv : vec2) : Prop := 0 <= fst uv <= width c /\ 0 <= snd uv <= height c.
Definition on_border (c : cam) (uv : vec2) : Prop := in_image c uv /\ (fst uv = 0 \/ fst uv = width c \/ snd uv = 0 \/ snd uv = height c).
(** positive focal lengths, and the principal point inside of the image *)
Definition usual (c : cam) : Prop := 0 < f_ c 0 /\ 0 < f_ c 1 /\ 0 < center c 0 < width c /\ 0 < center c 1 < height c.
Lemma nonzero_0 : nonzero 0 = false. Proof. unfold nonzero, Reqb. destruct (Req_EM_T 0 0); [reflexivity|congruence]. Qed.
Lemma anynz_nth l i : anynz l = false -> nonzero (nth i l 0) = false.
Proof. unfold anynz. revert i. induction l as [|x l IH]; intros [|i] H; cbn [nth]; try apply nonzero_0; cbn [existsb] in H; apply orb_false_iff in H as [A B]; [exact A|now apply IH]. Qed.
Lemma anynz_sub l l' : (forall x, In x l' -> In x l) -> anynz l = false -> anynz l' = false.
Proof. unfold anynz. intros S H. apply not_true_is_false. intros T. apply existsb_exists in T as (x & I & N). assert (existsb nonzero l = true) by (apply existsb_exists; exists x; auto). congruence. Qed.
Lemma radial_none c r2 : anynz (get_k c) = false -> radial_distortion c r2 = 1.
Proof.
  intros H. unfold radial_distortion, kk. rewrite !(anynz_nth _ _ H). cbv iota zeta. rewrite (anynz_sub (get_k c)); [reflexivity| |exact H]. intros x I. unfold slice in I.
  assert (S1 : forall n (l : list R), In x (firstn n l) -> In x l) by (intros n l I'; rewrite <- (firstn_skipn n l); apply in_or_app; now left).
  assert (S2 : forall n (l : list R), In x (skipn n l) -> In x l) by (intros n l I'; rewrite <- (firstn_skipn n l); apply in_or_app; now right).
  apply (S2 3%nat). apply (S1 3%nat). exact I.
Qed.
Lemma distort_radial c x y : anynz (get_p c) = false -> distort c (x, y) = (x * radial_distortion c (x * x + y * y), y * radial_distortion c (x * x + y * y)).
Proof.
  intros P. unfold distort. rewrite P. cbn [negb]. rewrite andb_true_r. destruct (anynz (get_k c)) eqn:K; cbn [negb]; [reflexivity|]. rewrite (radial_none c _ K). now rewrite !Rmult_1_r.
Qed.
Definition left_ (c : cam) (i : nat) : R := (0 - center c i) / f_ c i.
Definition right_ (c : cam) (i : nat) : R := (nth i (imgszR c) 0 - center c i) / f_ c i.
Lemma div_le a b f : 0 < f -> a <= b -> a / f <= b / f. Proof. intros F L. apply Rmult_le_compat_r; [left; now apply Rinv_0_lt_compat|exact L]. Qed.
Lemma signs c i : 0 < f_ c i -> 0 < center c i < nth i (imgszR c) 0 -> left_ c i < 0 < right_ c i.
Proof.
  intros F C. pose proof (Rinv_0_lt_compat _ F) as I. unfold left_, right_, Rdiv. split; [|apply Rmult_lt_0_compat; lra]. replace 0 with (0 * / f_ c i) at 2 by ring. apply Rmult_lt_compat_r; lra.
Qed.
Lemma edges_in c p : usual c -> In p (xyu_edges c) -> left_ c 0 <= fst p <= right_ c 0 /\ left_ c 1 <= snd p <= right_ c 1.
Proof.
  intros (F0 & F1 & C0 & C1) I. unfold width, height in *. unfold xyu_edges, uv_edges in I. rewrite map_map in I. apply in_map_iff in I as (ab & <- & I). unfold normalized, left_, right_. cbn [fst snd]. set (W := nth 0 (imgszR c) 0) in *. set (H := nth 1 (imgszR c) 0) in *. clearbody W H.
  assert (B : 0 <= fst ab <= 1 /\ 0 <= snd ab <= 1) by (repeat (destruct I as [<-|I]; [cbn [fst snd]; lra|]); destruct I). destruct B as [B0 B1].
  assert (0 <= W * fst ab <= W) by nra. assert (0 <= H * snd ab <= H) by nra. split; split; apply div_le; lra.
Qed.
Lemma edges_ends c i : (i < 2)%nat -> In (left_ c i) (map (coordinate i) (xyu_edges c)) /\ In (right_ c i) (map (coordinate i) (xyu_edges c)).
Proof.
  intros L. unfold xyu_edges, uv_edges. cbn [map]. destruct i as [|[|i]]; [| |lia]; unfold coordinate, normalized, left_, right_; cbn [Nat.eqb fst snd map In]; rewrite !Rmult_0_r, !Rmult_1_r; tauto.
Qed.
Lemma range_wide c i : (i < 2)%nat -> low c i <= left_ c i /\ right_ c i <= high c i.
Proof.
  intros L. destruct (edges_ends c i L) as [A B]. split; [eapply Rle_trans; [apply Rmin_l|now apply least_le]|eapply Rle_trans; [|apply Rmax_l]; now apply greatest_ge].
Qed.
Lemma image_of c uv : usual c -> in_image c uv -> left_ c 0 <= fst (normalized c uv) <= right_ c 0 /\ left_ c 1 <= snd (normalized c uv) <= right_ c 1.
Proof. intros (F0 & F1 & _) (U & V). unfold width, height in *. unfold normalized, left_, right_. cbn [fst snd]. split; split; apply div_le; lra. Qed.
Lemma image_back c p : usual c -> left_ c 0 <= fst p <= right_ c 0 -> left_ c 1 <= snd p <= right_ c 1 -> exists uv, in_image c uv /\ p = normalized c uv.
Proof.
  intros (F0 & F1 & _) A B. exists (fst p * f_ c 0 + center c 0, snd p * f_ c 1 + center c 1). unfold in_image, width, height, normalized, left_, right_ in *. cbn [fst snd].
  assert (S : forall a x f, 0 < f -> a / f <= x -> a <= x * f) by (intros a x f F L; replace a with (a / f * f) by (field; lra); apply Rmult_le_compat_r; lra).
  assert (T : forall a x f, 0 < f -> x <= a / f -> x * f <= a) by (intros a x f F L; replace a with (a / f * f) by (field; lra); apply Rmult_le_compat_r; lra).
  destruct A as [A1 A2], B as [B1 B2]. apply S in A1; [|exact F0]. apply T in A2; [|exact F0]. apply S in B1; [|exact F1]. apply T in B2; [|exact F1].
  split; [repeat split; lra|]. destruct p as [x y]. cbn [fst snd]. f_equal; field; lra.
Qed.

(** Finding: a lens that draws every point of the image towards the principal point (barrel distortion) leaves the border of the image without a value: the table only reaches to what the lens makes of the border of the image, which is inside of it. *)
Lemma below_all l h : Forall (fun x => x < h) l -> exists e, e < h /\ Forall (fun x => x <= e) l.
Proof.
  induction 1 as [|x l Hx F (e & He & Fe)]; [exists (h - 1); split; [lra|constructor]|]. exists (Rmax x e). split; [now apply Rmax_lub_lt|]. constructor; [apply Rmax_l|]. rewrite Forall_forall in *. intros y I. eapply Rle_trans; [now apply Fe|apply Rmax_r].
Qed.
Lemma outside points a b q : Forall (fun p => a * fst p + b * snd p < a * fst q + b * snd q) points -> ~ in_hull points q.
Proof.
  intros F G. destruct (below_all (map (fun p => a * fst p + b * snd p) points) (a * fst q + b * snd q)) as (e & L & Fe); [now apply Forall_map|]. rewrite Forall_map in Fe. specialize (G a b e Fe). lra.
Qed.
Lemma found_inside table q v : griddata table q (Some v) -> in_hull (map fst table) q.
Proof.
  intros (d1 & u1 & d2 & u2 & d3 & u3 & w1 & w2 & w3 & I1 & I2 & I3 & _ & W1 & W2 & W3 & SW & -> & _) a b e F. rewrite Forall_forall in F.
  pose proof (F d1 (in_map fst _ _ I1)). pose proof (F d2 (in_map fst _ _ I2)). pose proof (F d3 (in_map fst _ _ I3)). unfold weighted. cbn [fst snd].
  replace (a * (w1 * fst d1 + w2 * fst d2 + w3 * fst d3) + b * (w1 * snd d1 + w2 * snd d2 + w3 * snd d3)) with (w1 * (a * fst d1 + b * snd d1) + w2 * (a * fst d2 + b * snd d2) + w3 * (a * fst d3 + b * snd d3)) by ring.
  assert (w1 * (a * fst d1 + b * snd d1) <= w1 * e) by (apply Rmult_le_compat_l; assumption). assert (w2 * (a * fst d2 + b * snd d2) <= w2 * e) by (apply Rmult_le_compat_l; assumption). assert (w3 * (a * fst d3 + b * snd d3) <= w3 * e) by (apply Rmult_le_compat_l; assumption).
  replace e with (w1 * e + w2 * e + w3 * e) by (rewrite <- !Rmult_plus_distr_r, SW; ring). lra.
Qed.
Lemma shrunk x m h : 0 < h -> x <= h -> 0 <= m -> (x <> 0 -> m < 1) -> x * m < h. Proof. intros H X M1 M2. destruct (Rle_or_lt x 0); [nra|]. specialize (M2 ltac:(lra)). nra. Qed.
Lemma shrunk_low x m h : h < 0 -> h <= x -> 0 <= m -> (x <> 0 -> m < 1) -> h < x * m. Proof. intros H X M1 M2. destruct (Rle_or_lt 0 x); [nra|]. specialize (M2 ltac:(lra)). nra. Qed.
Definition barrel (c : cam) : Prop := anynz (get_p c) = false /\ forall uv, in_image c uv -> let '(x, y) := normalized c uv in 0 <= radial_distortion c (x * x + y * y) /\ ((x, y) <> (0, 0) -> radial_distortion c (x * x + y * y) < 1).
Lemma barrel_inside c p : usual c -> barrel c -> left_ c 0 <= fst p <= right_ c 0 -> left_ c 1 <= snd p <= right_ c 1 ->
  left_ c 0 < fst (distort c p) < right_ c 0 /\ left_ c 1 < snd (distort c p) < right_ c 1.
Proof.
  intros U (NP & BA) A B. destruct (image_back c p U A B) as (uv & I & E). specialize (BA uv I). rewrite <- E in BA. destruct U as (F0 & F1 & C0 & C1). pose proof (signs c 0 F0 C0) as S0. pose proof (signs c 1 F1 C1) as S1. destruct p as [x y]. rewrite (distort_radial c x y NP). cbn [fst snd] in *. destruct BA as [M0 M1]. set (m := radial_distortion c _) in *. clearbody m.
  assert (Mx : x <> 0 -> m < 1) by (intros N; apply M1; congruence). assert (My : y <> 0 -> m < 1) by (intros N; apply M1; congruence).
  repeat split; [apply shrunk_low|apply shrunk|apply shrunk_low|apply shrunk]; try lra; try assumption; tauto.
Qed.
Theorem lookup_barrel_refuted : forall c density uv r, usual c -> barrel c -> on_border c uv -> undistort_lookup c density (normalized c uv) r -> r = None.
Proof.
  intros c density uv r U BA (IM & ON) (table & E & G). destruct r as [v|]; [exfalso|reflexivity]. apply found_inside in G. destruct (table_points c density table E) as [T _].
  assert (RG : forall i, (i < 2)%nat -> left_ c i <= low c i /\ high c i <= right_ c i).
  { intros i L. assert (EU : forall p, In p (xyu_edges c) -> left_ c i <= coordinate i p <= right_ c i) by (intros p I; destruct (edges_in c p U I); destruct i as [|[|i]]; [assumption|assumption|lia]).
    assert (ED : forall p, In p (xyd_edges c) -> left_ c i <= coordinate i p <= right_ c i).
    { intros p I. apply in_map_iff in I as (p' & <- & I). destruct (edges_in c p' U I) as [A B]. destruct (barrel_inside c p' U BA A B). destruct i as [|[|i]]; [| |lia]; unfold coordinate; cbn [Nat.eqb]; lra. }
    split; [apply Rmin_glb; apply least_ge|apply Rmax_lub; apply greatest_le]; try discriminate; rewrite Forall_forall; intros x I; apply in_map_iff in I as (p & <- & I); (apply EU in I || apply ED in I); lra. }
  destruct (RG 0%nat ltac:(lia)) as [L0 R0], (RG 1%nat ltac:(lia)) as [L1 R1].
  assert (D : forall d, In d (map fst table) -> left_ c 0 < fst d < right_ c 0 /\ left_ c 1 < snd d < right_ c 1).
  { intros d I. apply in_map_iff in I as ((d' & u) & <- & I). destruct (T d' u I) as (-> & A & B). cbn [fst]. apply barrel_inside; try assumption; lra. }
  assert (Q : fst (normalized c uv) = left_ c 0 \/ fst (normalized c uv) = right_ c 0 \/ snd (normalized c uv) = left_ c 1 \/ snd (normalized c uv) = right_ c 1).
  { unfold normalized, left_, right_. cbn [fst snd]. unfold width, height in ON. destruct ON as [->|[->|[->| ->]]]; auto. }
  destruct Q as [Q|[Q|[Q|Q]]]; [apply (outside (map fst table) (-1) 0 (normalized c uv))|apply (outside (map fst table) 1 0 (normalized c uv))|apply (outside (map fst table) 0 (-1) (normalized c uv))|apply (outside (map fst table) 0 1 (normalized c uv))]; try exact G; rewrite Forall_forall; intros d I; destruct (D d I); rewrite Q; lra.
Qed.
Print Assumptions lookup_barrel_refuted.

(** A lens that draws no point towards the principal point leaves no point of the image without a value, whatever the density is (from two table points along each axis). *)
Definition spread (c : cam) : Prop := anynz (get_p c) = false /\ forall r2, 0 <= r2 -> 1 <= radial_distortion c r2.
Lemma corner a b x y X Y m e : 0 <= a * X -> 0 <= b * Y -> a * x <= a * X -> b * y <= b * Y -> 1 <= m -> a * (X * m) + b * (Y * m) <= e -> a * x + b * y <= e.
Proof. intros A B AX BY M E. assert (0 <= (m - 1) * (a * X + b * Y)) by (apply Rmult_le_pos; lra). nra. Qed.
Lemma covered c density table q : usual c -> spread c -> lookup_table c density = Ok table -> (1 < table_size c density 0)%Z -> (1 < table_size c density 1)%Z ->
  left_ c 0 <= fst q <= right_ c 0 -> left_ c 1 <= snd q <= right_ c 1 -> in_hull (map fst table) q.
Proof.
  intros (F0 & F1 & C0 & C1) (NP & SP) E N0 N1 Q0 Q1 a b e F. rewrite Forall_forall in F. destruct (table_points c density table E) as [_ T]. specialize (T N0 N1).
  pose proof (signs c 0 F0 C0) as S0. pose proof (signs c 1 F1 C1) as S1. destruct (range_wide c 0 ltac:(lia)) as [L0 H0], (range_wide c 1 ltac:(lia)) as [L1 H1].
  assert (K : forall x y, (x = low c 0 \/ x = high c 0) -> (y = low c 1 \/ y = high c 1) -> exists m, 1 <= m /\ a * (x * m) + b * (y * m) <= e).
  { intros x y Hx Hy. exists (radial_distortion c (x * x + y * y)). split; [apply SP; pose proof (Rle_0_sqr x); pose proof (Rle_0_sqr y); unfold Rsqr in *; lra|].
    pose proof (F (distort c (x, y)) (in_map fst _ _ (T x y Hx Hy))) as P. rewrite (distort_radial c x y NP) in P. exact P. }
  destruct (Rle_or_lt 0 a) as [A|A], (Rle_or_lt 0 b) as [B|B].
  - destruct (K (high c 0) (high c 1)) as (m & M & P); [tauto|tauto|]. apply (corner a b _ _ (high c 0) (high c 1) m e); try assumption; nra.
  - destruct (K (high c 0) (low c 1)) as (m & M & P); [tauto|tauto|]. apply (corner a b _ _ (high c 0) (low c 1) m e); try assumption; nra.
  - destruct (K (low c 0) (high c 1)) as (m & M & P); [tauto|tauto|]. apply (corner a b _ _ (low c 0) (high c 1) m e); try assumption; nra.
  - destruct (K (low c 0) (low c 1)) as (m & M & P); [tauto|tauto|]. apply (corner a b _ _ (low c 0) (low c 1) m e); try assumption; nra.
Qed.
Theorem lookup_spread : forall c density uv r, usual c -> spread c -> (1 < table_size c density 0)%Z -> (1 < table_size c density 1)%Z -> in_image c uv ->
  undistort_lookup c density (normalized c uv) r -> exists v, r = Some v.
Proof.
  intros c density uv r U SP N0 N1 I (table & E & G). destruct r as [v|]; [now exists v|]. exfalso. apply G. destruct (image_of c uv U I). now apply (covered c density).
Qed.
Print Assumptions lookup_spread.
(** What is found is between the ends of the table. *)
Theorem lookup_within : forall c density q v, undistort_lookup c density q (Some v) -> low c 0 <= fst v <= high c 0 /\ low c 1 <= snd v <= high c 1.
Proof.
  intros c density q v (table & E & d1 & u1 & d2 & u2 & d3 & u3 & w1 & w2 & w3 & I1 & I2 & I3 & _ & W1 & W2 & W3 & SW & _ & ->). destruct (table_points c density table E) as [T _].
  destruct (T _ _ I1) as (_ & A1 & B1), (T _ _ I2) as (_ & A2 & B2), (T _ _ I3) as (_ & A3 & B3). unfold weighted. cbn [fst snd].
  assert (K : forall lo hi x y z, lo <= x <= hi -> lo <= y <= hi -> lo <= z <= hi -> lo <= w1 * x + w2 * y + w3 * z <= hi).
  { intros lo hi x y z X Y Z. replace lo with (w1 * lo + w2 * lo + w3 * lo) at 1 by (rewrite <- !Rmult_plus_distr_r, SW; ring). replace hi with (w1 * hi + w2 * hi + w3 * hi) by (rewrite <- !Rmult_plus_distr_r, SW; ring).
    split; repeat apply Rplus_le_compat; apply Rmult_le_compat_l; lra. }
  split; apply K; assumption.
Qed.
Print Assumptions lookup_within.
(** Without distortion, points of the image are found as they are, and points outside of it are not. *)
Theorem lookup_plain : forall c density uv r, usual c -> anynz (get_k c) = false -> anynz (get_p c) = false -> (1 < table_size c density 0)%Z -> (1 < table_size c density 1)%Z ->
  undistort_lookup c density (normalized c uv) r -> (in_image c uv -> r = Some (normalized c uv)) /\ (~ in_image c uv -> r = None).
Proof.
  intros c density uv r U NK NP N0 N1 H. assert (SP : spread c) by (split; [exact NP|intros; rewrite (radial_none c _ NK); lra]).
  assert (D : forall p, distort c p = p) by (intros [x y]; unfold distort; now rewrite NK, NP).
  split; intros I.
  - destruct (lookup_spread c density uv r U SP N0 N1 I H) as (v & ->). destruct H as (table & E & d1 & u1 & d2 & u2 & d3 & u3 & w1 & w2 & w3 & I1 & I2 & I3 & _ & _ & _ & _ & _ & -> & ->).
    destruct (table_points c density table E) as [T _]. destruct (T _ _ I1) as (-> & _), (T _ _ I2) as (-> & _), (T _ _ I3) as (-> & _). now rewrite !D.
  - destruct r as [v|]; [exfalso|reflexivity]. apply I. clear I. assert (Q : v = normalized c uv).
    { destruct H as (table & E & d1 & u1 & d2 & u2 & d3 & u3 & w1 & w2 & w3 & I1 & I2 & I3 & _ & _ & _ & _ & _ & -> & ->). destruct (table_points c density table E) as [T _]. destruct (T _ _ I1) as (-> & _), (T _ _ I2) as (-> & _), (T _ _ I3) as (-> & _). now rewrite !D. }
    destruct (lookup_within c density _ v H) as [A B]. subst v.
    assert (RG : forall i, (i < 2)%nat -> left_ c i <= low c i /\ high c i <= right_ c i).
    { intros i L. assert (EU : forall p, In p (xyu_edges c) -> left_ c i <= coordinate i p <= right_ c i) by (intros p J; destruct (edges_in c p U J); destruct i as [|[|i]]; [assumption|assumption|lia]).
      assert (ED : forall p, In p (xyd_edges c) -> left_ c i <= coordinate i p <= right_ c i) by (intros p J; apply in_map_iff in J as (p' & <- & J); rewrite D; now apply EU).
      split; [apply Rmin_glb; apply least_ge|apply Rmax_lub; apply greatest_le]; try discriminate; rewrite Forall_forall; intros x J; apply in_map_iff in J as (p & <- & J); (apply EU in J || apply ED in J); lra. }
    destruct (RG 0%nat ltac:(lia)) as [L0 R0], (RG 1%nat ltac:(lia)) as [L1 R1]. destruct (image_back c (normalized c uv) U ltac:(lra) ltac:(lra)) as (uv' & J & Eq). replace uv with uv'; [exact J|].
    destruct U as (F0 & F1 & _). unfold normalized in Eq. injection Eq as Eu Ev. destruct uv as [u w], uv' as [u' w']. cbn [fst snd] in *.
    assert (Z : forall x x' cc f, 0 < f -> (x - cc) / f = (x' - cc) / f -> x' = x) by (intros x x' cc f F Ef; apply (f_equal (fun t => t * f)) in Ef; unfold Rdiv in Ef; rewrite !Rmult_assoc, Rinv_l in Ef by lra; lra).
    f_equal; [apply (Z _ _ _ _ F0 Eu)|apply (Z _ _ _ _ F1 Ev)].
Qed.
Print Assumptions lookup_plain.

(** ** Examples: an image of 2 x 2 pixels, focal length 1, without distortion and with a rational barrel and a pincushion distortion *)
Definition small (k : list R) : cam := let v := [0; 0; 0; 0; 0; 0; IZR 2; IZR 2; 1; 1; 0; 0] ++ k ++ [0; 0] in mkcam v v None None.
Lemma small_imgsz k : imgszR (small k) = [IZR 2; IZR 2]. Proof. unfold imgszR, get_imgsz, small. cbn [vec slice skipn firstn app map]. now rewrite !Rtrunc_IZR. Qed.
Lemma small_f k : f_ (small k) 0 = 1 /\ f_ (small k) 1 = 1. Proof. split; reflexivity. Qed.
Lemma small_center k : center (small k) 0 = 1 /\ center (small k) 1 = 1.
Proof. unfold center. rewrite small_imgsz. change (get_c (small k)) with [0; 0]. cbn [nth]. split; lra. Qed.
Lemma small_usual k : usual (small k).
Proof. unfold usual, width, height. destruct (small_f k) as [-> ->], (small_center k) as [-> ->]. rewrite small_imgsz. cbn [nth]. lra. Qed.
Lemma small_p k : length k = 6%nat -> anynz (get_p (small k)) = false /\ get_k (small k) = k.
Proof.
  intros L. do 6 (destruct k as [|? k]; [discriminate|]). destruct k; [|discriminate]. split; [|reflexivity]. unfold get_p, small, slice. cbn [vec app skipn firstn]. unfold anynz. cbn [existsb]. now rewrite nonzero_0.
Qed.
Lemma nonzero_1 : nonzero 1 = true. Proof. unfold nonzero, Reqb. destruct (Req_EM_T 1 0); [lra|reflexivity]. Qed.
Definition plain_k : list R := [0; 0; 0; 0; 0; 0].
Definition barrel_k : list R := [0; 0; 0; 1; 0; 0].
Definition spread_k : list R := [1; 1; 0; 0; 0; 0].
Lemma barrel_radial r2 : radial_distortion (small barrel_k) r2 = 1 / (1 + 1 * r2).
Proof. unfold radial_distortion, kk. destruct (small_p barrel_k eq_refl) as [_ ->]. unfold barrel_k, slice, anynz. cbn [nth skipn firstn existsb]. rewrite !nonzero_0, !nonzero_1. cbn [orb]. cbv iota zeta. reflexivity. Qed.
Example lookup_barrel_ex : usual (small barrel_k) /\ barrel (small barrel_k) /\ on_border (small barrel_k) (2, 1) /\ in_image (small barrel_k) (1, 1).
Proof.
  split; [apply small_usual|]. split; [|unfold on_border, in_image, width, height; rewrite small_imgsz; cbn [nth fst snd]; lra]. split; [apply small_p; reflexivity|]. intros uv _. destruct (normalized (small barrel_k) uv) as [x y]. rewrite barrel_radial.
  pose proof (Rle_0_sqr x) as X. pose proof (Rle_0_sqr y) as Y. assert (P : 0 < 1 + 1 * (x * x + y * y)) by (unfold Rsqr in *; lra). split; [apply Rlt_le, Rdiv_lt_0_compat; lra|]. intros N. pose proof (apart _ _ N) as D. unfold distance2 in D. cbn [fst snd] in D. unfold Rsqr in *.
  apply (Rmult_lt_reg_r (1 + 1 * (x * x + y * y))); [exact P|]. unfold Rdiv. rewrite Rmult_assoc, Rinv_l by lra. lra.
Qed.
Lemma small_size k : table_size (small k) 1 0 = 2%Z /\ table_size (small k) 1 1 = 2%Z.
Proof. unfold table_size. rewrite small_imgsz. cbn [nth]. rewrite !Rmult_1_l, !Rtrunc_IZR. split; reflexivity. Qed.
Example lookup_spread_ex : usual (small spread_k) /\ spread (small spread_k) /\ (1 < table_size (small spread_k) 1 0)%Z /\ (1 < table_size (small spread_k) 1 1)%Z /\ in_image (small spread_k) (2, 1).
Proof.
  split; [apply small_usual|]. split; [|destruct (small_size spread_k) as [-> ->]; split; [lia|]; split; [lia|unfold in_image, width, height; rewrite small_imgsz; cbn [nth fst snd]; lra]]. split; [apply small_p; reflexivity|].
  intros r2 H. unfold radial_distortion, kk. destruct (small_p spread_k eq_refl) as [_ ->]. unfold spread_k, slice, anynz. cbn [nth skipn firstn existsb]. rewrite !nonzero_0, !nonzero_1. cbn [orb]. cbv iota zeta. nra.
Qed.
(** the table of the first one is the four corners, and the middle of the image is found between two of them *)
Lemma plain_table : lookup_table (small plain_k) 1 = Ok [((-1, -1), (-1, -1)); ((1, -1), (1, -1)); ((-1, 1), (-1, 1)); ((1, 1), (1, 1))].
Proof.
  destruct (small_p plain_k eq_refl) as [NP EK]. assert (NK : anynz (get_k (small plain_k)) = false) by (rewrite EK; unfold plain_k, anynz; cbn [existsb]; now rewrite nonzero_0).
  assert (D : forall p, distort (small plain_k) p = p) by (intros [x y]; unfold distort; now rewrite NK, NP).
  pose proof (small_usual plain_k) as U. assert (LR : forall i, (i < 2)%nat -> left_ (small plain_k) i = -1 /\ right_ (small plain_k) i = 1).
  { intros i L. unfold left_, right_. rewrite small_imgsz. destruct i as [|[|i]]; [| |lia]; destruct (small_f plain_k) as [F0 F1], (small_center plain_k) as [C0 C1]; rewrite ?F0, ?F1, ?C0, ?C1; cbn [nth]; split; field. }
  assert (RG : forall i, (i < 2)%nat -> low (small plain_k) i = -1 /\ high (small plain_k) i = 1).
  { intros i L. destruct (range_wide (small plain_k) i L) as [A B]. destruct (LR i L) as [E1 E2].
    assert (EU : forall p, In p (xyu_edges (small plain_k)) -> left_ (small plain_k) i <= coordinate i p <= right_ (small plain_k) i) by (intros p J; destruct (edges_in _ p U J); destruct i as [|[|i]]; [assumption|assumption|lia]).
    assert (ED : forall p, In p (xyd_edges (small plain_k)) -> left_ (small plain_k) i <= coordinate i p <= right_ (small plain_k) i) by (intros p J; apply in_map_iff in J as (p' & <- & J); rewrite D; now apply EU).
    assert (left_ (small plain_k) i <= low (small plain_k) i /\ high (small plain_k) i <= right_ (small plain_k) i).
    { split; [apply Rmin_glb; apply least_ge|apply Rmax_lub; apply greatest_le]; try discriminate; rewrite Forall_forall; intros x J; apply in_map_iff in J as (p & <- & J); (apply EU in J || apply ED in J); lra. }
    lra. }
  assert (AX : forall i, (i < 2)%nat -> table_axis (small plain_k) 1 i = Ok [-1; 1]).
  { intros i L. change (table_axis (small plain_k) 1 i) with (linspace (low (small plain_k) i) (high (small plain_k) i) (table_size (small plain_k) 1 i)). destruct (RG i L) as [-> ->].
    replace (table_size (small plain_k) 1 i) with 2%Z by (destruct (small_size plain_k), i as [|[|i]]; [congruence|congruence|lia]). unfold linspace. change (2 <? 0)%Z with false. change (2 =? 1)%Z with false. change (Zrange 2) with [0%Z; 1%Z]. change (2 - 1)%Z with 1%Z. cbv iota. cbn [map]. f_equal.
    apply f_equal2; [field|apply f_equal2; [field|reflexivity]]. }
  unfold lookup_table. rewrite !AX by lia. cbn [bind map concat app]. now rewrite !D.
Qed.
Example lookup_plain_ex : usual (small plain_k) /\ anynz (get_k (small plain_k)) = false /\ in_image (small plain_k) (1, 1) /\ undistort_lookup (small plain_k) 1 (normalized (small plain_k) (1, 1)) (Some (0, 0)).
Proof.
  split; [apply small_usual|]. split; [destruct (small_p plain_k eq_refl) as [_ ->]; unfold plain_k, anynz; cbn [existsb]; now rewrite nonzero_0|]. split; [unfold in_image, width, height; rewrite small_imgsz; cbn [nth fst snd]; lra|].
  eexists. split; [exact plain_table|]. exists (-1, -1), (-1, -1), (1, -1), (1, -1), (1, 1), (1, 1), (1 / 2), 0, (1 / 2). cbn [In].
  split; [tauto|]. split; [tauto|]. split; [tauto|]. split.
  - split; [cbn [fst snd]; lra|]. exists (0, 0). unfold distance2. cbn [map fst snd]. split; [lra|]. split; [lra|]. repeat constructor; cbn [fst snd]; lra.
  - split; [lra|]. split; [lra|]. split; [lra|]. split; [lra|]. unfold normalized, weighted. destruct (small_f plain_k) as [-> ->], (small_center plain_k) as [-> ->]. cbn [fst snd]. split; apply (f_equal2 pair); field.
Qed.
