(** C111: grids of points in boxes and images (Camera.grid, box_to_grid, grid_to_points, box_to_polygon). *)
From Coq Require Import String Lia Lra Sorted.
From Verif Require Import Base BaseLemmas HelpersModel BoxProofs CameraModel CameraStateProofs MeshModel.
Notation length := List.length.
Open Scope R_scope.

(** the point has a coordinate for each axis, among those of the axis *)
Definition of_axes (axes : list (list R)) (p : list R) : Prop := length p = length axes /\ forall i, (i < length axes)%nat -> In (nth i p 0) (nth i axes []).
Lemma product_spec axes p : In p (product axes) <-> of_axes axes p.
Proof.
  unfold of_axes. revert p. induction axes as [|a r IH]; intros p; cbn [product].
  - split; [intros [<-|[]]; split; [reflexivity|intros i H; cbn in H; lia]|intros [L _]; destruct p; [left; reflexivity|discriminate]].
  - rewrite in_flat_map. split.
    + intros (x & Ix & I). apply in_map_iff in I as (q & <- & Iq). apply IH in Iq as [L Q]. split; [cbn; congruence|]. intros [|i] H; [exact Ix|]. cbn [nth]. apply Q. cbn in H. lia.
    + intros [L Q]. destruct p as [|x q]; [discriminate|]. exists x. split; [apply (Q 0%nat); cbn; lia|]. apply in_map. apply IH. split; [cbn in L; lia|]. intros i H. apply (Q (S i)). cbn. lia.
Qed.
Lemma NoDup_append {A} (l l' : list A) : NoDup l -> NoDup l' -> (forall x, In x l -> ~ In x l') -> NoDup (l ++ l').
Proof. intros N N' D. induction N as [|x l Nx N IH]; [exact N'|]. cbn [app]. constructor; [rewrite in_app_iff; intros [I|I]; [exact (Nx I)|exact (D x (or_introl eq_refl) I)]|]. apply IH. intros y I. apply D. right. exact I. Qed.
Lemma NoDup_flat {A B} (f : A -> list B) l : NoDup l -> (forall x, In x l -> NoDup (f x)) -> (forall x y b, In b (f x) -> In b (f y) -> x = y) -> NoDup (flat_map f l).
Proof.
  intros N F D. induction N as [|x l Nx N IH]; [constructor|]. cbn [flat_map]. apply NoDup_append; [apply F; left; reflexivity|apply IH; intros y I; apply F; right; exact I|].
  intros b I J. apply in_flat_map in J as (y & Iy & J). rewrite (D x y b I J) in Nx. exact (Nx Iy).
Qed.
Lemma NoDup_map_inj {A B} (f : A -> B) l : (forall x y, f x = f y -> x = y) -> NoDup l -> NoDup (map f l).
Proof. intros J N. induction N as [|x l Nx N IH]; [constructor|]. cbn [map]. constructor; [|exact IH]. rewrite in_map_iff. intros (y & E & I). apply J in E. subst. exact (Nx I). Qed.
Lemma product_NoDup axes : (forall a, In a axes -> NoDup a) -> NoDup (product axes).
Proof.
  induction axes as [|a r IH]; intros H; cbn [product]; [constructor; [intros []|constructor]|]. apply NoDup_flat; [apply H; left; reflexivity| |].
  - intros x _. apply NoDup_map_inj; [intros p q E; injection E as ->; reflexivity|]. apply IH. intros b I. apply H. right. exact I.
  - intros x y b I J. apply in_map_iff in I as (p & <- & _). apply in_map_iff in J as (q & E & _). injection E as -> _. reflexivity.
Qed.
Lemma places_spec axes p : In p (mesh_places axes) <-> of_axes axes p.
Proof.
  destruct axes as [|a [|b r]]; [apply product_spec|apply product_spec|]. cbn [mesh_places]. rewrite <- product_spec. cbn [product]. rewrite in_flat_map. split.
  - intros (y & Iy & I). apply in_flat_map in I as (x & Ix & I). apply in_map_iff in I as (z & <- & Iz). apply in_flat_map. exists x. split; [exact Ix|]. apply in_map. apply in_flat_map. exists y. split; [exact Iy|]. apply in_map. exact Iz.
  - intros I. apply in_flat_map in I as (x & Ix & I). apply in_map_iff in I as (q & <- & I). apply in_flat_map in I as (y & Iy & I). apply in_map_iff in I as (z & <- & Iz). exists y. split; [exact Iy|]. apply in_flat_map. exists x. split; [exact Ix|]. apply in_map_iff. exists z. split; [reflexivity|exact Iz].
Qed.
Lemma places_NoDup axes : (forall a, In a axes -> NoDup a) -> NoDup (mesh_places axes).
Proof.
  intros H. destruct axes as [|a [|b r]]; [apply product_NoDup; exact H|apply product_NoDup; exact H|]. cbn [mesh_places]. apply NoDup_flat; [apply H; right; left; reflexivity| |].
  - intros y _. apply NoDup_flat; [apply H; left; reflexivity| |].
    + intros x _. apply NoDup_map_inj; [intros p q E; injection E as ->; reflexivity|]. apply product_NoDup. intros c I. apply H. right. right. exact I.
    + intros x x' q I J. apply in_map_iff in I as (p & <- & _). apply in_map_iff in J as (p' & E & _). injection E as -> _. reflexivity.
  - intros y y' q I J. apply in_flat_map in I as (x & _ & I). apply in_flat_map in J as (x' & _ & J). apply in_map_iff in I as (p & <- & _). apply in_map_iff in J as (p' & E & _). injection E as _ -> _. reflexivity.
Qed.
Lemma to_points axes : axes <> [] -> grid_to_points (meshgrid axes) = mesh_places axes.
Proof.
  intros N. unfold grid_to_points, meshgrid. set (n := length axes). assert (Hn : (0 < n)%nat) by (destruct axes; [congruence|cbn; lia]). destruct n as [|n'] eqn:En; [lia|]. rewrite <- En in *. clear Hn.
  assert (Hh : length (hd [] (map (fun i => map (fun p => nth i p 0) (mesh_places axes)) (seq 0 n))) = length (mesh_places axes)) by (rewrite En; cbn [seq map hd]; apply map_length).
  rewrite Hh. apply nth_ext with (d := []) (d' := []); [rewrite map_length, seq_length; reflexivity|]. intros k K. rewrite map_length, seq_length in K.
  set (f := fun k => map (fun g : list R => nth k g 0) (map (fun i => map (fun p => nth i p 0) (mesh_places axes)) (seq 0 n))).
  rewrite (nth_indep _ [] (f 0%nat)) by (rewrite map_length, seq_length; exact K). rewrite map_nth, seq_nth by exact K. cbn [Nat.add]. unfold f. rewrite map_map.
  assert (P : of_axes axes (nth k (mesh_places axes) [])) by (apply places_spec; apply nth_In; exact K). destruct P as [PL _]. fold n in PL.
  apply nth_ext with (d := 0) (d' := 0); [rewrite map_length, seq_length; symmetry; exact PL|]. intros i I. rewrite map_length, seq_length in I.
  set (g := fun i => nth k (map (fun p => nth i p 0) (mesh_places axes)) 0). rewrite (nth_indep _ 0 (g 0%nat)) by (rewrite map_length, seq_length; exact I). rewrite map_nth, seq_nth by exact I. cbn [Nat.add]. unfold g.
  rewrite (nth_indep _ 0 (nth i ([] : list R) 0)) by (rewrite map_length; exact K). rewrite (map_nth (fun p => nth i p 0)). reflexivity.
Qed.
Lemma sorted_NoDup l : StronglySorted Rlt l -> NoDup l.
Proof. induction 1 as [|x l S IH F]; constructor; [|exact IH]. intros I. rewrite Forall_forall in F. specialize (F x I). lra. Qed.

(** the steps of an argument, for n dimensions *)
Definition steps_of (n : nat) (s : step_arg) : list R := match s with Step s => repeat s n | Steps l => l end.
(** ** The points of the grid are exactly the points of the box that differ from [snap] by whole steps in each dimension, each once. *)
Theorem grid_points : forall n lo hi step snap, (1 <= n)%nat -> length lo = n -> length hi = n -> length (steps_of n step) = n -> (forall s, snap = Some s -> length s = n) ->
  (forall i, (i < n)%nat -> nth i lo 0 <= nth i hi 0 /\ 0 < nth i (steps_of n step) 0) ->
  exists pts, box_to_grid (lo ++ hi) step snap "points" = Ok (GPoints pts) /\ NoDup pts /\
    forall p, In p pts <-> length p = n /\ forall i, (i < n)%nat -> nth i lo 0 <= nth i p 0 <= nth i hi 0 /\ exists k : Z, nth i p 0 = nth i (match snap with Some s => s | None => lo end) 0 + IZR k * nth i (steps_of n step) 0.
Proof.
  intros n lo hi step snap N Ll Lh Ls Lsn H. destruct (box_to_grid_spec n lo hi (steps_of n step) snap Ll Lh Ls Lsn H) as (axes & E & La & A).
  unfold box_to_grid. rewrite (unravel_box_app lo hi) by congruence. cbn [bind]. replace (match step with Step s => repeat s (length lo) | Steps s => s end) with (steps_of n step) by (unfold steps_of; rewrite Ll; reflexivity). rewrite E. cbn [bind String.eqb Ascii.eqb Bool.eqb].
  eexists. split; [reflexivity|]. rewrite to_points by (intros ->; cbn in La; lia). split.
  - apply places_NoDup. intros a I. apply (In_nth _ _ []) in I as (i & Hi & <-). apply sorted_NoDup. apply A. lia.
  - intros p. rewrite places_spec. unfold of_axes. rewrite La. split; intros [L Q]; (split; [exact L|]); intros i Hi; apply (A i Hi); apply Q; exact Hi.
Qed.
Print Assumptions grid_points.

(** ** Modes: the matrices of the mode "grids" and the points are those of the vectors, x along rows and y along columns; other modes are refused. *)
Lemma flat_nth {A B} (f : A -> list B) l w r c d : (forall x, In x l -> length (f x) = w) -> (r < length l)%nat -> (c < w)%nat -> forall x0, nth (r * w + c) (flat_map f l) d = nth c (f (nth r l x0)) d.
Proof.
  intros L Hr Hc x0. revert r Hr. induction l as [|x l IH]; intros r Hr; [cbn in Hr; lia|]. cbn [flat_map]. assert (Lx : length (f x) = w) by (apply L; left; reflexivity). destruct r as [|r].
  - cbn [Nat.mul Nat.add nth]. apply app_nth1. lia.
  - rewrite app_nth2 by nia. replace (S r * w + c - length (f x))%nat with (r * w + c)%nat by nia. cbn [nth]. apply IH; [intros y I; apply L; right; exact I|cbn in Hr; lia].
Qed.
Lemma places2 a b r c : (r < length b)%nat -> (c < length a)%nat -> nth (r * length a + c) (mesh_places [a; b]) [] = [nth c a 0; nth r b 0].
Proof.
  intros Hr Hc. cbn [mesh_places product]. assert (F : forall y, flat_map (fun x => map (fun z => x :: y :: z) [[]]) a = map (fun x => [x; y]) a) by (intros y; clear; induction a as [|x a IH]; [reflexivity|]; cbn [flat_map map app]; f_equal; exact IH).
  rewrite (flat_nth _ b (length a) r c [] ltac:(intros x _; rewrite F; apply map_length) Hr Hc 0). rewrite F. rewrite (nth_indep _ [] [0; nth r b 0]) by (rewrite map_length; exact Hc). rewrite (map_nth (fun x => [x; nth r b 0])). reflexivity.
Qed.
Theorem grid_modes : forall box step snap xs ys, box_to_grid box step snap "vectors" = Ok (Vectors [xs; ys]) ->
  exists X Y pts, box_to_grid box step snap "grids" = Ok (Grids [length ys; length xs] [X; Y]) /\ box_to_grid box step snap "points" = Ok (GPoints pts) /\ length pts = (length ys * length xs)%nat /\ length X = length pts /\ length Y = length pts /\
    (forall r c, (r < length ys)%nat -> (c < length xs)%nat -> nth (r * length xs + c) X 0 = nth c xs 0 /\ nth (r * length xs + c) Y 0 = nth r ys 0 /\ nth (r * length xs + c) pts [] = [nth c xs 0; nth r ys 0]) /\
    forall mode, mode <> "vectors"%string -> mode <> "grids"%string -> mode <> "points"%string -> box_to_grid box step snap mode = Err ValueError.
Proof.
  intros box step snap xs ys E. unfold box_to_grid in *. destruct (unravel_box box) as [[lo hi]|]; [|discriminate]. cbn [bind] in *. destruct (box_to_grid_vectors box _ snap) as [axes|]; [|discriminate]. cbn [bind String.eqb Ascii.eqb Bool.eqb] in *. injection E as ->.
  assert (LP : length (mesh_places [xs; ys]) = (length ys * length xs)%nat).
  { cbn [mesh_places product]. clear. induction ys as [|y ys IH]; [reflexivity|]. cbn [flat_map length Nat.mul]. rewrite app_length, IH. f_equal. clear. induction xs as [|x xs IH]; [reflexivity|]. cbn [flat_map map app length]. f_equal. exact IH. }
  cbn [meshgrid length seq map mesh_shape]. eexists _, _, _. split; [reflexivity|]. split; [reflexivity|].
  assert (TP : grid_to_points (meshgrid [xs; ys]) = mesh_places [xs; ys]) by (apply to_points; discriminate). cbn [meshgrid length seq map] in TP. rewrite TP. split; [exact LP|]. split; [apply map_length|]. split; [apply map_length|]. split.
  - intros r c Hr Hc. assert (K : (r * length xs + c < length (mesh_places [xs; ys]))%nat) by (rewrite LP; nia).
    split; [|split; [|apply places2; assumption]].
    + rewrite (nth_indep _ 0 (nth 0 ([] : list R) 0)) by (rewrite map_length; exact K). rewrite (map_nth (fun p => nth 0 p 0)), places2 by assumption. reflexivity.
    + rewrite (nth_indep _ 0 (nth 1 ([] : list R) 0)) by (rewrite map_length; exact K). rewrite (map_nth (fun p => nth 1 p 0)), places2 by assumption. reflexivity.
  - intros mode A B C. rewrite (proj2 (String.eqb_neq _ _) A), (proj2 (String.eqb_neq _ _) B), (proj2 (String.eqb_neq _ _) C). reflexivity.
Qed.
Print Assumptions grid_modes.

(** ** Camera.grid: the points of the image on the grid; by default the centers of all pixels, row by row. *)
Definition imgsz_is (c : cam) (w h : Z) : Prop := get_imgsz c = [w; h] /\ (0 < w)%Z /\ (0 < h)%Z.
Theorem camera_grid_points : forall c w h sx sy x0 y0, imgsz_is c w h -> 0 < sx -> 0 < sy ->
  exists pts, camera_grid c (Steps [sx; sy]) [x0; y0] "points" = Ok (GPoints pts) /\ NoDup pts /\
    (forall p, In p pts -> exists u v, p = [u; v] /\ inframe c (Some (u, v)) = true) /\
    forall u v, In [u; v] pts <-> inframe c (Some (u, v)) = true /\ exists i j : Z, u = x0 + IZR i * sx /\ v = y0 + IZR j * sy.
Proof.
  intros c w h sx sy x0 y0 (EI & W & Hh) SX SY. unfold camera_grid, imgszR. rewrite EI. cbn [map nth]. apply IZR_lt in W, Hh.
  destruct (grid_points 2 [0; 0] [IZR w; IZR h] (Steps [sx; sy]) (Some [x0; y0])) as (pts & E & ND & P); try reflexivity; [lia|intros s Es; injection Es as <-; reflexivity| |].
  { intros [|[|i]] Hi; cbn; [lra|lra|lia]. }
  exists pts. split; [exact E|]. split; [exact ND|].
  assert (IF : forall u v, inframe c (Some (u, v)) = true <-> 0 <= u <= IZR w /\ 0 <= v <= IZR h).
  { intros u v. unfold inframe, imgszR. rewrite EI. cbn [map nth]. rewrite !Bool.andb_true_iff, !Rleb_true. tauto. }
  split.
  - intros p I. apply P in I as [L Q]. destruct p as [|u [|v [|]]]; try discriminate. exists u, v. split; [reflexivity|]. apply IF. pose proof (Q 0%nat ltac:(lia)) as [Q0 _]. pose proof (Q 1%nat ltac:(lia)) as [Q1 _]. cbn in Q0, Q1. split; assumption.
  - intros u v. rewrite IF, P. split.
    + intros [_ Q]. destruct (Q 0%nat ltac:(lia)) as [Q0 (i & K0)]. destruct (Q 1%nat ltac:(lia)) as [Q1 (j & K1)]. cbn in Q0, Q1, K0, K1. split; [split; assumption|]. exists i, j. split; assumption.
    + intros [[Q0 Q1] (i & j & K0 & K1)]. split; [reflexivity|]. intros [|[|k]] Hk; [| |lia]; cbn; (split; [assumption|]); eexists; eassumption.
Qed.
Print Assumptions camera_grid_points.
Lemma unit_axis w : (0 < w)%Z -> box_to_grid_axis 0 (IZR w) 1 (/ 2) = Ok (map (fun i => INR i + / 2) (seq 0 (Z.to_nat w))).
Proof.
  intros W. unfold box_to_grid_axis. assert (M : Rmod (/ 2 - 0) 1 = / 2) by (unfold Rmod; rewrite (Rfloor_imp 0) by lra; lra). rewrite M.
  assert (F : Rfloor ((IZR w - 0 - / 2) / 1) = (w - 1)%Z) by (apply Rfloor_imp; rewrite minus_IZR; lra). rewrite F. unfold linspace. destruct (Z.ltb_spec (w - 1 + 1) 0); [lia|]. f_equal. replace (w - 1 + 1)%Z with w by lia. unfold Zrange. rewrite map_map. apply map_ext_in. intros i Hi. apply in_seq in Hi. rewrite <- INR_IZR_INZ, minus_IZR.
  destruct (Z.eqb_spec w 1) as [->|N]; [assert (i = 0%nat) by (cbn in Hi; lia); subst; cbn [INR]; lra|]. assert (2 <= w)%Z by lia. apply IZR_le in H0. field. lra.
Qed.
Theorem camera_grid_pixels : forall c w h, imgsz_is c w h -> exists pts, camera_grid c (Step 1) [/ 2; / 2] "points" = Ok (GPoints pts) /\
  length pts = (Z.to_nat h * Z.to_nat w)%nat /\ forall r col, (r < Z.to_nat h)%nat -> (col < Z.to_nat w)%nat -> nth (r * Z.to_nat w + col) pts [] = [INR col + / 2; INR r + / 2].
Proof.
  intros c w h (EI & W & Hh). unfold camera_grid, imgszR. rewrite EI. cbn [map nth].
  destruct (grid_modes [0; 0; IZR w; IZR h] (Step 1) (Some [/ 2; / 2]) (map (fun i => INR i + / 2) (seq 0 (Z.to_nat w))) (map (fun i => INR i + / 2) (seq 0 (Z.to_nat h)))) as (X & Y & pts & _ & E & L & _ & _ & V & _).
  { unfold box_to_grid. change [0; 0; IZR w; IZR h] with ([0; 0] ++ [IZR w; IZR h]). rewrite unravel_box_app by reflexivity. cbn [bind length repeat]. unfold box_to_grid_vectors. rewrite unravel_box_app by reflexivity. cbn [bind combine mapM]. rewrite (unit_axis w W), (unit_axis h Hh). reflexivity. }
  rewrite !map_length, !seq_length in *. exists pts. split; [exact E|]. split; [exact L|]. intros r col Hr Hc. destruct (V r col Hr Hc) as (_ & _ & ->).
  assert (Nt : forall n k, (k < n)%nat -> nth k (map (fun i => INR i + / 2) (seq 0 n)) 0 = INR k + / 2).
  { intros n k K. rewrite (nth_indep _ 0 (INR 0 + / 2)) by (rewrite map_length, seq_length; exact K). rewrite (map_nth (fun i => INR i + / 2)), seq_nth by exact K. reflexivity. }
  rewrite !Nt by assumption. reflexivity.
Qed.
Print Assumptions camera_grid_pixels.

(** ** box_to_polygon: a closed ring of four corners that runs along the whole border of the box, and nowhere else *)
Definition on_segment (a b p : R * R) : Prop := exists t, 0 <= t <= 1 /\ fst p = fst a + t * (fst b - fst a) /\ snd p = snd a + t * (snd b - snd a).
Definition on_ring (ring : list (R * R)) (p : R * R) : Prop := exists k a b, nth_error ring k = Some a /\ nth_error ring (S k) = Some b /\ on_segment a b p.
Definition on_border (x0 y0 x1 y1 : R) (p : R * R) : Prop := x0 <= fst p <= x1 /\ y0 <= snd p <= y1 /\ (fst p = x0 \/ fst p = x1 \/ snd p = y0 \/ snd p = y1).
Lemma part_of a b x : a <= x <= b -> exists t, 0 <= t <= 1 /\ x = a + t * (b - a).
Proof.
  intros H. destruct (Req_dec a b) as [->|N]; [exists 0; lra|]. exists ((x - a) / (b - a)). split; [|field; lra]. split; [apply Rmult_le_pos; [lra|left; apply Rinv_0_lt_compat; lra]|]. apply Rmult_le_reg_r with (b - a); [lra|]. unfold Rdiv. rewrite Rmult_assoc, Rinv_l by lra. lra.
Qed.
Theorem box_polygon : forall x0 y0 x1 y1, x0 <= x1 -> y0 <= y1 -> exists ring, box_to_polygon [x0; y0; x1; y1] = Ok ring /\ length ring = 5%nat /\ nth_error ring 0 = nth_error ring 4 /\ (forall p, on_ring ring p <-> on_border x0 y0 x1 y1 p).
Proof.
  intros x0 y0 x1 y1 X Y. unfold box_to_polygon. change [x0; y0; x1; y1] with ([x0; y0] ++ [x1; y1]). rewrite unravel_box_app by reflexivity. cbn [bind nth]. eexists. split; [reflexivity|]. split; [reflexivity|]. split; [reflexivity|]. intros [px py]. unfold on_ring, on_border, on_segment. cbn [fst snd]. split.
  - intros (k & a & b & Ea & Eb & t & T & Ex & Ey). destruct k as [|[|[|[|k]]]]; cbn [nth_error] in Ea, Eb; try discriminate; [| | | |destruct k; discriminate]; injection Ea as <-; injection Eb as <-; cbn [fst snd] in *; subst px py.
    + split; [nra|]. split; [nra|]. left. ring.
    + split; [nra|]. split; [nra|]. right. right. right. ring.
    + split; [nra|]. split; [nra|]. right. left. ring.
    + split; [nra|]. split; [nra|]. right. right. left. ring.
  - intros (HX & HY & [->|[->|[->| ->]]]).
    + destruct (part_of y0 y1 py HY) as (t & T & E). exists 0%nat. eexists _, _. split; [reflexivity|]. split; [reflexivity|]. exists t. cbn [fst snd]. split; [exact T|]. split; [ring|exact E].
    + destruct (part_of y0 y1 py HY) as (t & T & E). exists 2%nat. eexists _, _. split; [reflexivity|]. split; [reflexivity|]. exists (1 - t). cbn [fst snd]. split; [lra|]. split; [ring|rewrite E; ring].
    + destruct (part_of x0 x1 px HX) as (t & T & E). exists 3%nat. eexists _, _. split; [reflexivity|]. split; [reflexivity|]. exists (1 - t). cbn [fst snd]. split; [lra|]. split; [rewrite E; ring|ring].
    + destruct (part_of x0 x1 px HX) as (t & T & E). exists 1%nat. eexists _, _. split; [reflexivity|]. split; [reflexivity|]. exists t. cbn [fst snd]. split; [exact T|]. split; [exact E|ring].
Qed.
Print Assumptions box_polygon.
Example camera_grid_ex : imgsz_is (mkcam (map IZR [0; 0; 0; 0; 0; 0; 3; 2; 1; 1; 0; 0; 0; 0; 0; 0; 0; 0; 0; 0]%Z) [] None None) 3 2.
Proof. split; [|lia]. unfold get_imgsz. cbn [slice firstn skipn vec map]. rewrite !CameraStateProofs.Rtrunc_IZR. reflexivity. Qed.
Example grid_points_ex : forall i, (i < 2)%nat -> nth i [0; 0] 0 <= nth i [3; 3] 0 /\ 0 < nth i (steps_of 2 (Step 2)) 0.
Proof. intros [|[|i]] H; cbn; lra || lia. Qed.
