(** Properties C117, C55: the edges of an image and the view box. *)
From Verif Require Import Base BaseLemmas HelpersModel HelpersSpec CameraModel CameraSpec.
From Verif Require Import CameraStateProofs CameraProofs CameraProofs2 CameraProofs3 CameraProofs4 BoxProofs P_Camera.
Open Scope R_scope.

(** ** Specification *)
(** The [k]-th of 2 (a + b) points on the frame of a W by H image, clockwise (v down) from (0, 0): [a] equal steps along the top,
    [b] down the right side, [a] back along the bottom and [b] up the left side. *)
Definition frame_point (W H : R) (a b k : nat) : R * R :=
  if (k <? a)%nat then (W * (INR k / INR a), 0)
  else if (k <? a + b)%nat then (W, H * (INR (k - a) / INR b))
  else if (k <? a + b + a)%nat then (W * (INR (a + b + a - k) / INR a), H)
  else (0, H * (INR (a + b + a + b - k) / INR b)).
(* ---------------------------------------------------------------- *)

Lemma map_seq_ext {A} (f g : nat -> A) n : forall a b, (forall i, (i < n)%nat -> f (a + i)%nat = g (b + i)%nat) -> map f (seq a n) = map g (seq b n).
Proof.
  induction n as [|n IH]; intros a b H; [reflexivity|]. cbn [seq map]. f_equal; [specialize (H 0%nat); rewrite !Nat.add_0_r in H; apply H; lia|].
  apply IH. intros i Hi. specialize (H (S i)). rewrite !Nat.add_succ_r in H. cbn [Nat.add]. apply H. lia.
Qed.
Lemma rev_map_seq {A} (f : nat -> A) n : forall a, rev (map f (seq a n)) = map (fun i => f (a + (a + n - 1) - i)%nat) (seq a n).
Proof.
  induction n as [|n IH]; intros a; [reflexivity|]. rewrite seq_S, map_app, rev_app_distr. cbn [map rev app]. rewrite <- seq_S. cbn [seq map]. f_equal; [f_equal; lia|].
  rewrite IH. apply map_seq_ext. intros i Hi. f_equal. lia.
Qed.
Lemma linspace_steps W s : 0 < s <= W -> exists a, (1 <= a)%nat /\ INR a <= W / s < INR a + 1 /\ linspace 0 W (Rtrunc (W / s + 1)) = Ok (map (fun i => W * (INR i / INR a)) (seq 0 (S a))).
Proof.
  intros [P L]. assert (Q : 1 <= W / s) by (apply (Rmult_le_reg_r s); [lra|]; unfold Rdiv; rewrite Rmult_assoc, Rinv_l by lra; lra).
  pose proof (conj (Rfloor_lb (W / s)) (Rfloor_ub (W / s))) as F. set (n := Rfloor (W / s)) in *. assert (Hn : (1 <= n)%Z) by (apply Rfloor_le; exact Q).
  exists (Z.to_nat n). assert (En : INR (Z.to_nat n) = IZR n) by (rewrite INR_IZR_INZ, Z2Nat.id by lia; reflexivity). split; [lia|]. split; [rewrite En; lra|].
  assert (T : Rtrunc (W / s + 1) = (n + 1)%Z). { unfold Rtrunc. destruct (Rltb_spec (W / s + 1) 0); [lra|]. apply Rfloor_imp. rewrite plus_IZR. lra. }
  rewrite T. unfold linspace. destruct (Z.ltb_spec (n + 1) 0); [lia|]. destruct (Z.eqb_spec (n + 1) 1); [lia|]. replace (n + 1 - 1)%Z with n by lia. unfold Zrange. rewrite map_map.
  replace (Z.to_nat (n + 1)) with (S (Z.to_nat n)) by lia. apply f_equal. apply map_ext. intros i. rewrite En, <- INR_IZR_INZ. field. apply not_0_IZR. lia.
Qed.
Lemma pair_eq (x y x' y' : R) : x = x' -> y = y' -> (x, y) = (x', y'). Proof. congruence. Qed.
Lemma INR_ne a : (1 <= a)%nat -> INR a <> 0. Proof. intros H. apply not_0_INR. lia. Qed.
Lemma last_map_seq {A} (f : nat -> A) n d : last (map f (seq 0 (S n))) d = f n.
Proof. rewrite seq_S, map_app. cbn [map]. now rewrite last_last. Qed.
Lemma inner_map_seq {A} (f : nat -> A) b : (1 <= b)%nat -> removelast (tl (map f (seq 0 (S b)))) = map f (seq 1 (b - 1)).
Proof. intros H. cbn [seq map tl]. destruct b as [|b]; [lia|]. rewrite seq_S, map_app. cbn [map]. rewrite removelast_last. now rewrite Nat.sub_succ, Nat.sub_0_r. Qed.

(** The edges of an image: equally spaced points clockwise from the origin, as many on each side as steps of the requested length fit. *)
Theorem camera_edges : forall c W H su sv, get_imgsz c = [W; H] -> 0 < su <= IZR W -> 0 < sv <= IZR H ->
  exists a b, (1 <= a)%nat /\ (1 <= b)%nat /\ INR a <= IZR W / su < INR a + 1 /\ INR b <= IZR H / sv < INR b + 1 /\
    edges c su sv = Ok (map (frame_point (IZR W) (IZR H) a b) (seq 0 (a + b + a + b))).
Proof.
  intros c W H su sv Hi Hu Hv. destruct (linspace_steps _ _ Hu) as (a & A1 & A2 & Eu). destruct (linspace_steps _ _ Hv) as (b & B1 & B2 & Ev).
  exists a, b. split; [exact A1|]. split; [exact B1|]. split; [exact A2|]. split; [exact B2|]. unfold edges, imgszR. rewrite Hi. cbn [map nth]. cbv zeta. rewrite Eu, Ev. cbn [bind].
  rewrite !map_length, !seq_length. destruct (Nat.eqb_spec (S a) 0); [lia|]. destruct (Nat.ltb_spec (S b) 2); [lia|]. cbn [orb]. apply f_equal.
  rewrite !last_map_seq, (inner_map_seq _ b B1), !rev_map_seq, !map_map. pose proof (INR_ne a A1) as Na. pose proof (INR_ne b B1) as Nb.
  replace (a + b + a + b)%nat with (S a + (b - 1) + S a + (b - 1))%nat by lia. rewrite !seq_app, !map_app, <- !app_assoc. cbn [Nat.add].
  apply f_equal2; [|apply f_equal2; [|apply f_equal2]]; apply map_seq_ext; intros i I; unfold frame_point.
  - cbn [Nat.add]. destruct (Nat.ltb_spec i a); [reflexivity|]. assert (i = a) by lia. subst i. destruct (Nat.ltb_spec a (a + b)); [|lia]. rewrite Nat.sub_diag. cbn [INR]. apply pair_eq; field; auto.
  - destruct (Nat.ltb_spec (S a + i) a); [lia|]. destruct (Nat.ltb_spec (S a + i) (a + b)); [|lia]. replace (S a + i - a)%nat with (1 + i)%nat by lia. apply pair_eq; [|reflexivity]. field; auto.
  - destruct (Nat.ltb_spec (S (a + (b - 1)) + i) a); [lia|]. destruct (Nat.ltb_spec (S (a + (b - 1)) + i) (a + b)); [lia|]. destruct (Nat.ltb_spec (S (a + (b - 1)) + i) (a + b + a)).
    + apply pair_eq; [|field; auto]. do 3 f_equal. lia.
    + assert (i = a) by lia. subst i. replace (a + b + a + b - (S (a + (b - 1)) + a))%nat with b by lia. apply pair_eq; [|reflexivity]. match goal with |- context [INR ?x] => replace x with 0%nat by lia end. cbn [INR]. field; auto.
  - destruct (Nat.ltb_spec (S (a + (b - 1) + S a) + i) a); [lia|]. destruct (Nat.ltb_spec (S (a + (b - 1) + S a) + i) (a + b)); [lia|]. destruct (Nat.ltb_spec (S (a + (b - 1) + S a) + i) (a + b + a)); [lia|]. do 4 f_equal. lia.
Qed.
Print Assumptions camera_edges.
(** Points of the frame: none twice, all on the sides of the image. *)
Lemma frame_point_spec W H a b k : 0 < W -> 0 < H -> (1 <= a)%nat -> (1 <= b)%nat -> (k < a + b + a + b)%nat ->
  let p := frame_point W H a b k in
  0 <= fst p <= W /\ 0 <= snd p <= H /\
  ((k < a)%nat /\ fst p = W * (INR k / INR a) /\ snd p = 0 /\ fst p < W \/
   (a <= k < a + b)%nat /\ fst p = W /\ snd p = H * (INR (k - a) / INR b) /\ snd p < H \/
   (a + b <= k < a + b + a)%nat /\ fst p = W * (INR (a + b + a - k) / INR a) /\ snd p = H /\ 0 < fst p \/
   (a + b + a <= k)%nat /\ fst p = 0 /\ snd p = H * (INR (a + b + a + b - k) / INR b) /\ 0 < snd p).
Proof.
  intros PW PH A B K p. unfold p, frame_point.
  assert (IA : 0 < INR a) by (apply lt_0_INR; lia). assert (IB : 0 < INR b) by (apply lt_0_INR; lia).
  assert (F : forall X n i, 0 < X -> 0 < INR n -> (i <= n)%nat -> 0 <= X * (INR i / INR n) <= X /\ ((i < n)%nat -> X * (INR i / INR n) < X) /\ ((0 < i)%nat -> 0 < X * (INR i / INR n))).
  { intros X n i PX Pn Li. assert (0 < / INR n) by now apply Rinv_0_lt_compat. assert (0 <= INR i) by apply pos_INR. assert (E : X = X * (INR n * / INR n)) by (rewrite Rinv_r by lra; ring). unfold Rdiv. split; [split|split].
    - apply Rmult_le_pos; [lra|]. apply Rmult_le_pos; lra.
    - rewrite E at 2. apply Rmult_le_compat_l; [lra|]. apply Rmult_le_compat_r; [lra|]. now apply le_INR.
    - intros L. rewrite E at 2. apply Rmult_lt_compat_l; [lra|]. apply Rmult_lt_compat_r; [lra|]. now apply lt_INR.
    - intros L. apply Rmult_lt_0_compat; [lra|]. apply Rmult_lt_0_compat; [|lra]. now apply lt_0_INR. }
  destruct (Nat.ltb_spec k a); [|destruct (Nat.ltb_spec k (a + b)); [|destruct (Nat.ltb_spec k (a + b + a))]]; cbn [fst snd].
  - destruct (F W a k PW IA) as (G1 & G2 & G3); [lia|]. split; [exact G1|]. split; [lra|]. left. auto.
  - destruct (F H b (k - a)%nat PH IB) as (G1 & G2 & G3); [lia|]. split; [lra|]. split; [exact G1|]. right. left. repeat split; auto. apply G2. lia.
  - destruct (F W a (a + b + a - k)%nat PW IA) as (G1 & G2 & G3); [lia|]. split; [exact G1|]. split; [lra|]. right. right. left. repeat split; auto. apply G3. lia.
  - destruct (F H b (a + b + a + b - k)%nat PH IB) as (G1 & G2 & G3); [lia|]. split; [lra|]. split; [exact G1|]. right. right. right. repeat split; auto. apply G3. lia.
Qed.
Lemma fraction_inj X n i j : 0 < X -> (1 <= n)%nat -> X * (INR i / INR n) = X * (INR j / INR n) -> i = j.
Proof.
  intros P N E. pose proof (INR_ne n N) as Nn. apply Rmult_eq_reg_l in E; [|lra]. apply INR_eq. unfold Rdiv in E. apply Rmult_eq_reg_r in E; [exact E|]. now apply Rinv_neq_0_compat.
Qed.
Lemma frame_point_inj W H a b i j : 0 < W -> 0 < H -> (1 <= a)%nat -> (1 <= b)%nat -> (i < a + b + a + b)%nat -> (j < a + b + a + b)%nat -> frame_point W H a b i = frame_point W H a b j -> i = j.
Proof.
  intros PW PH A B Ki Kj E. destruct (frame_point_spec W H a b i PW PH A B Ki) as (_ & _ & Hi). destruct (frame_point_spec W H a b j PW PH A B Kj) as (_ & _ & Hj). rewrite E in Hi. set (p := frame_point W H a b j) in *. clearbody p. clear E.
  destruct Hi as [(I & X & Y & Z)|[(I & X & Y & Z)|[(I & X & Y & Z)|(I & X & Y & Z)]]], Hj as [(J & X' & Y' & Z')|[(J & X' & Y' & Z')|[(J & X' & Y' & Z')|(J & X' & Y' & Z')]]]; try (exfalso; lra);
    first [rewrite X in X'; apply fraction_inj in X'; [lia|lra|lia] | rewrite Y in Y'; apply fraction_inj in Y'; [lia|lra|lia]].
Qed.
Lemma map_NoDup_in {A B} (f : A -> B) l : (forall x y, In x l -> In y l -> f x = f y -> x = y) -> NoDup l -> NoDup (map f l).
Proof.
  intros H. induction 1 as [|x l N ND IH]; cbn; constructor; [|apply IH; intros; apply H; cbn; auto]. intros I. apply in_map_iff in I as (y & E & I). apply N. rewrite <- (H y x); cbn; auto.
Qed.
Theorem camera_edges_distinct : forall c W H su sv l, get_imgsz c = [W; H] -> 0 < su <= IZR W -> 0 < sv <= IZR H -> edges c su sv = Ok l ->
  NoDup l /\ forall p, In p l -> 0 <= fst p <= IZR W /\ 0 <= snd p <= IZR H /\ (fst p = 0 \/ fst p = IZR W \/ snd p = 0 \/ snd p = IZR H).
Proof.
  intros c W H su sv l Hi Hu Hv E. destruct (camera_edges c W H su sv Hi Hu Hv) as (a & b & A & B & _ & _ & E'). rewrite E in E'. injection E' as ->.
  assert (PW : 0 < IZR W) by lra. assert (PH : 0 < IZR H) by lra. split.
  - apply map_NoDup_in; [|apply seq_NoDup]. intros x y Ix Iy Q. apply in_seq in Ix, Iy. eapply (frame_point_inj (IZR W) (IZR H) a b); try eassumption; lia.
  - intros p I. apply in_map_iff in I as (k & <- & I). apply in_seq in I. destruct (frame_point_spec (IZR W) (IZR H) a b k PW PH A B) as (P1 & P2 & Q); [lia|]. split; [exact P1|]. split; [exact P2|]. intuition auto.
Qed.
(** The distance between points is the requested one only if it divides the side; otherwise it is longer, up to twice as long. *)
Theorem camera_edges_spacing : forall W s a, 0 < s -> (1 <= a)%nat -> INR a <= W / s < INR a + 1 -> s <= W / INR a < 2 * s /\ (W / INR a = s <-> W = INR a * s).
Proof.
  intros W s a P A [L U]. assert (IA : 1 <= INR a) by (apply (le_INR 1) in A; exact A).
  assert (L' : INR a * s <= W). { apply (Rmult_le_compat_r s) in L; [|lra]. unfold Rdiv in L. rewrite Rmult_assoc, Rinv_l, Rmult_1_r in L by lra. lra. }
  assert (U' : W < (INR a + 1) * s). { apply (Rmult_lt_compat_r s) in U; [|lra]. unfold Rdiv in U. rewrite Rmult_assoc, Rinv_l, Rmult_1_r in U by lra. lra. }
  assert (E : W = W / INR a * INR a) by (field; lra). set (d := W / INR a) in *. split; [split|].
  - apply (Rmult_le_reg_r (INR a)); lra.
  - apply (Rmult_lt_reg_r (INR a)); [lra|]. rewrite <- E. nra.
  - split; intros Q; [rewrite E, Q; ring|]. apply (Rmult_eq_reg_r (INR a)); lra.
Qed.
(** A step longer than the image is wide leaves out the right side; one longer than the image is high is refused. *)
Lemma linspace_long W s : 0 < W < s -> linspace 0 W (Rtrunc (W / s + 1)) = Ok [0].
Proof.
  intros [P L]. assert (I : 0 < / s) by (apply Rinv_0_lt_compat; lra). assert (Q : 0 < W / s < 1). { split; [apply Rmult_lt_0_compat; lra|]. apply (Rmult_lt_reg_r s); [lra|]. unfold Rdiv. rewrite Rmult_assoc, Rinv_l by lra. lra. }
  assert (T : Rtrunc (W / s + 1) = 1%Z) by (unfold Rtrunc; destruct (Rltb_spec (W / s + 1) 0); [lra|]; apply Rfloor_imp; lra). rewrite T. reflexivity.
Qed.
Theorem camera_edges_long_refuted : forall c W H su sv, get_imgsz c = [W; H] -> 0 < IZR W -> 0 < IZR H -> 0 < su -> 0 < sv ->
  (IZR H < sv -> edges c su sv = Err ValueError) /\
  (IZR W < su -> sv <= IZR H -> exists l, edges c su sv = Ok l /\ forall p, In p l -> fst p = 0).
Proof.
  intros c W H su sv Hi PW PH Pu Pv. unfold edges, imgszR. rewrite Hi. cbn [map nth]. cbv zeta. split.
  - intros L. rewrite (linspace_long (IZR H) sv) by lra. destruct (Rle_lt_dec su (IZR W)) as [Q|Q].
    + destruct (linspace_steps (IZR W) su (conj Pu Q)) as (a & A & _ & ->). cbn [bind length]. rewrite map_length, seq_length. reflexivity.
    + rewrite (linspace_long (IZR W) su) by lra. reflexivity.
  - intros L M. rewrite (linspace_long (IZR W) su) by lra. destruct (linspace_steps (IZR H) sv (conj Pv M)) as (b & B & _ & ->). cbn [bind length Nat.eqb orb]. rewrite map_length, seq_length. destruct (Nat.ltb_spec (S b) 2); [lia|].
    eexists. split; [reflexivity|]. intros p I. rewrite !in_app_iff, !in_map_iff in I. cbn [last rev app] in I.
    destruct I as [(x & <- & [<-|[]])|[(x & <- & _)|[(x & <- & [<-|[]])|(x & <- & _)]]]; reflexivity.
Qed.
Example camera_edges_ex : get_imgsz excam = [4; 2]%Z /\ map (frame_point 4 2 4 2) (seq 0 12) = [(4 * (0 / (1 + 1 + 1 + 1)), 0); (4 * (1 / (1 + 1 + 1 + 1)), 0); (4 * ((1 + 1) / (1 + 1 + 1 + 1)), 0); (4 * ((1 + 1 + 1) / (1 + 1 + 1 + 1)), 0); (4, 2 * (0 / (1 + 1))); (4, 2 * (1 / (1 + 1)));
  (4 * ((1 + 1 + 1 + 1) / (1 + 1 + 1 + 1)), 2); (4 * ((1 + 1 + 1) / (1 + 1 + 1 + 1)), 2); (4 * ((1 + 1) / (1 + 1 + 1 + 1)), 2); (4 * (1 / (1 + 1 + 1 + 1)), 2); (0, 2 * ((1 + 1) / (1 + 1))); (0, 2 * (1 / (1 + 1)))].
Proof. split; [apply camera_viewbox_ex|reflexivity]. Qed.

Lemma app_same_length {A} (a : list A) : forall b a' b', length a = length a' -> a ++ b = a' ++ b' -> a = a' /\ b = b'.
Proof. induction a as [|x a IH]; intros b [|y a'] b' L E; try discriminate; [auto|]. cbn in *. injection E as -> E. destruct (IH b a' b' ltac:(congruence) E) as [-> ->]. auto. Qed.
(** C55.  The view box contains every point that is projected into the image from at most the given depth, and no smaller box does:
    each of its six faces touches a point of the view. *)
Theorem camera_viewbox_exact : forall c W H depth, no_distortion c -> get_imgsz c = [W; H] -> (1 <= W)%Z -> (1 <= H)%Z ->
  f_ c 0 <> 0 -> f_ c 1 <> 0 -> 0 < depth -> correction c = None ->
  exists lo hi, viewbox c depth = Ok (lo ++ hi) /\ length lo = 3%nat /\ length hi = 3%nat /\
    (forall p u v, xyz_to_uv c false p = Some (u, v) -> 0 <= u <= IZR W -> 0 <= v <= IZR H -> axis_depth c false p <= depth ->
       forall i, (i < 3)%nat -> nth i lo 0 <= comp i p <= nth i hi 0) /\
    (forall i, (i < 3)%nat -> forall x, x = nth i lo 0 \/ x = nth i hi 0 -> exists p, comp i p = x /\
       (p = v3 (get_xyz c) \/ axis_depth c false p = depth /\ exists u v, xyz_to_uv c false p = Some (u, v) /\ 0 <= u <= IZR W /\ 0 <= v <= IZR H)).
Proof.
  intros c W H depth Nd Hi HW HH F0 F1 Hd Cn. destruct (viewbox_contains_frustum c W H depth Nd Hi HW HH F0 F1 Hd) as (lo & hi & E & Llo & Lhi & Hc).
  exists lo, hi. split; [exact E|]. split; [exact Llo|]. split; [exact Lhi|]. split.
  - intros p u v Ep Hu Hv Hz i I3. destruct (projection_depth c false p (or_intror Cn)) as (Z & Nn & _).
    pose proof (xyz_round_trip c false p (u, v) Nd (or_intror Cn) F0 F1 Ep) as Rt. rewrite Z in Rt. rewrite <- Rt. apply Hc; auto. split; [|exact Hz].
    destruct (Rle_lt_dec (axis_depth c false p) 0) as [Q|Q]; [|lra]. apply Nn in Q. congruence.
  - unfold viewbox in E. assert (PW : 0 < 1 <= IZR W) by (split; [lra|now apply IZR_le]). assert (PH : 0 < 1 <= IZR H) by (split; [lra|now apply IZR_le]).
    destruct (camera_edges c W H 1 1 Hi PW PH) as (a & b & _ & _ & _ & _ & El). destruct (camera_edges_distinct c W H 1 1 _ Hi PW PH El) as [_ Fr]. rewrite El in E. clear El. set (l := map (frame_point (IZR W) (IZR H) a b) (seq 0 (a + b + a + b))) in *. clearbody l. cbn [bind uv_to_xyz] in E.
    set (pts := map list_of3 (v3 (get_xyz c) :: map (xy_to_xyz c false depth) (map (uv_to_xy c) l))) in E.
    destruct (bounding_box_spec 3 pts) as (lo' & hi' & Eb & Llo' & Lhi' & Hb).
    { unfold pts. cbn. congruence. }
    { unfold rect, pts. intros r Hr. apply in_map_iff in Hr. destruct Hr as ([[? ?] ?] & <- & _). reflexivity. }
    assert (Q : lo ++ hi = lo' ++ hi') by congruence. apply app_same_length in Q; [|congruence]. destruct Q as [<- <-].
    assert (K : forall q, In q pts -> exists p, q = list_of3 p /\ (p = v3 (get_xyz c) \/ axis_depth c false p = depth /\ exists u v, xyz_to_uv c false p = Some (u, v) /\ 0 <= u <= IZR W /\ 0 <= v <= IZR H)).
    { intros q I. unfold pts in I. apply in_map_iff in I as (p & <- & [<-|I]); [eexists; split; [reflexivity|now left]|]. rewrite map_map in I. apply in_map_iff in I as ([u v] & <- & I). eexists; split; [reflexivity|]. right.
      destruct (uv_round_trip c false depth (u, v) Nd (or_intror Cn) Hd F0 F1) as [R1 R2]. rewrite (proj1 (projection_depth c false _ (or_intror Cn))) in R2. split; [exact R2|]. destruct (Fr (u, v) I) as (G1 & G2 & _). exists u, v. auto. }
    intros i I3 x Hx. destruct (Hb i I3) as (_ & (q1 & I1 & E1) & (q2 & I2 & E2)).
    assert (C : forall p, nth i (list_of3 p) 0 = comp i p) by (intros [[? ?] ?]; destruct i as [|[|[|i]]]; try lia; reflexivity).
    destruct Hx as [->| ->].
    + destruct (K q1 I1) as (p & -> & Kp). exists p. rewrite <- C. auto.
    + destruct (K q2 I2) as (p & -> & Kp). exists p. rewrite <- C. auto.
Qed.
Print Assumptions camera_edges_distinct.
Print Assumptions camera_edges_long_refuted.
Print Assumptions camera_viewbox_exact.
