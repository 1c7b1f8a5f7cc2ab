(** Proofs about CircleModel.v. *)
From Verif Require Import Base BaseLemmas CircleModel.
Open Scope Z_scope.

(** ** Size of an octant *)
Lemma octant_bounds r : 1 <= r -> let m := octant_size r in 2 <= m /\ 2 * (m - 2) ^ 2 <= (r - 1) ^ 2 < 2 * (m - 1) ^ 2.
Proof.
  intros Hr m. unfold m, octant_size.
  set (t := ((sqrt 2 * (IZR r - 1) + 4) / 2)%R). set (k := Rfloor t).
  pose proof (Rfloor_lb t) as L. pose proof (Rfloor_ub t) as U. fold k in L, U.
  assert (S2 : (sqrt 2 * sqrt 2 = 2)%R) by (apply sqrt_sqrt; lra).
  assert (Sp : (0 < sqrt 2)%R) by (apply sqrt_lt_R0; lra).
  assert (R1 : (0 <= IZR r - 1)%R) by (apply IZR_le in Hr; lra).
  assert (T : (2 * t = sqrt 2 * (IZR r - 1) + 4)%R) by (unfold t; field).
  set (s := sqrt 2) in *. set (a := (s * (IZR r - 1))%R) in *.
  assert (A0 : (0 <= a)%R) by (apply Rmult_le_pos; lra).
  assert (A2 : (a * a = 2 * ((IZR r - 1) * (IZR r - 1)))%R) by (unfold a; transitivity (s * s * ((IZR r - 1) * (IZR r - 1)))%R; [ring|rewrite S2; ring]).
  assert (K2 : 2 <= k). { apply (Rfloor_le 2). unfold t. lra. }
  split; [exact K2|].
  assert (L1 : (2 * (IZR k - 2) <= a)%R) by lra.
  assert (U1 : (a < 2 * (IZR k - 1))%R) by lra.
  assert (KR : (2 <= IZR k)%R) by (apply IZR_le in K2; lra).
  split.
  - apply le_IZR. rewrite !Z.pow_2_r, !mult_IZR, !minus_IZR. assert ((2 * (IZR k - 2)) * (2 * (IZR k - 2)) <= a * a)%R by (apply Rmult_le_compat; lra). lra.
  - apply lt_IZR. rewrite !Z.pow_2_r, !mult_IZR, !minus_IZR. assert (a * a < (2 * (IZR k - 1)) * (2 * (IZR k - 1)))%R by (apply Rmult_le_0_lt_compat; lra). lra.
Qed.
Lemma octant_exact r m : 1 <= r -> 2 <= m -> 2 * (m - 2) ^ 2 <= (r - 1) ^ 2 < 2 * (m - 1) ^ 2 -> octant_size r = m.
Proof. intros Hr Hm H. destruct (octant_bounds r Hr) as (K & Q). set (k := octant_size r) in *. assert (~ k < m) by nia. assert (~ m < k) by nia. lia. Qed.
Lemma octant_0 : octant_size 0 = 1.
Proof.
  unfold octant_size. apply Rfloor_imp. assert (S2 : (sqrt 2 * sqrt 2 = 2)%R) by (apply sqrt_sqrt; lra).
  assert (Sp : (0 < sqrt 2)%R) by (apply sqrt_lt_R0; lra). assert (sqrt 2 <= 2)%R by nra. lra.
Qed.
Lemma octant_neg r : r < 0 -> octant_size r <= 0.
Proof.
  intros H. assert (octant_size r < 1); [|lia]. apply Rfloor_lt. assert (S2 : (sqrt 2 * sqrt 2 = 2)%R) by (apply sqrt_sqrt; lra).
  assert (Sp : (0 < sqrt 2)%R) by (apply sqrt_lt_R0; lra). assert (1 < sqrt 2)%R by nra.
  assert (IZR r <= -1)%R by (apply (IZR_le r (-1)); lia). nra.
Qed.

(** ** The decision sequence: height of the path at column n of the first octant, and the decision variable there *)
Fixpoint hf (r : Z) (n : nat) : Z * Z :=
  match n with
  | O => (r, 1 - r)
  | S n => let (y, f) := hf r n in
           let x := Z.of_nat n in
           let (y', f') := if 0 <? f then (y - 1, f + (-2 * y + 2)) else (y, f) in
           (y', f' + (2 * x + 3))
  end.
Definition height (r : Z) (n : Z) : Z := fst (hf r (Z.to_nat n)).
Lemma hf_f r n : snd (hf r n) = (Z.of_nat n + 1) ^ 2 + fst (hf r n) ^ 2 - fst (hf r n) - r ^ 2.
Proof.
  induction n as [|n IH]; [cbn [hf fst snd]; lia|]. cbn [hf]. destruct (hf r n) as [y f]. cbn [fst snd] in IH. rewrite Nat2Z.inj_succ.
  destruct (0 <? f); cbn [fst snd]; lia.
Qed.
Lemma height_0 r : height r 0 = r. Proof. reflexivity. Qed.
Lemma height_step r n : 0 <= n -> height r (n + 1) = if r ^ 2 <? (n + 1) ^ 2 + height r n ^ 2 - height r n then height r n - 1 else height r n.
Proof.
  intros H. unfold height. replace (Z.to_nat (n + 1)) with (S (Z.to_nat n)) by lia. cbn [hf]. pose proof (hf_f r (Z.to_nat n)) as F.
  destruct (hf r (Z.to_nat n)) as [y f]. cbn [fst snd] in F |- *. rewrite Z2Nat.id in F by lia.
  destruct (Z.ltb_spec 0 f); destruct (Z.ltb_spec (r ^ 2) ((n + 1) ^ 2 + y ^ 2 - y)); cbn [fst]; lia.
Qed.
(** the height is that of the circle *)
Lemma height_bounds r n : 1 <= r -> 0 <= n <= octant_size r - 1 ->
  0 <= height r n <= r /\ n ^ 2 + height r n ^ 2 - height r n <= r ^ 2 < n ^ 2 + height r n ^ 2 + height r n.
Proof.
  intros Hr [H0 H1]. destruct (octant_bounds r Hr) as (M2 & Mb). set (m := octant_size r) in *. clearbody m.
  revert H1. pattern n. apply natlike_ind; [|clear n H0; intros n H0 IH|exact H0].
  - intros _. rewrite height_0. lia.
  - intros H1. unfold Z.succ in *. specialize (IH ltac:(lia)). rewrite height_step by lia. set (y := height r n) in *. clearbody y.
    destruct IH as [[Y0 Yr] [U L]].
    assert (MB : 2 * n ^ 2 <= (r - 1) ^ 2) by nia.
    destruct (Z.ltb_spec (r ^ 2) ((n + 1) ^ 2 + y ^ 2 - y)) as [F|F].
    + assert (Y1 : 1 <= y) by nia. split; [lia|]. split; [|nia].
      destruct (Z_lt_le_dec (n + 1) y) as [A|A]; [nia|]. destruct (Z.eq_dec (n + 1) y) as [B|B]; [nia|]. exfalso. assert (y <= n) by lia. nia.
    + split; [lia|]. nia.
Qed.
(** at the end of the octant the path is next to the diagonal *)
Lemma height_end r : 0 <= r -> Z.abs (height r (octant_size r - 1) - (octant_size r - 1)) <= 1.
Proof.
  intros Hr. destruct (Z.eq_dec r 0) as [->|N]; [rewrite octant_0; change (1 - 1) with 0; rewrite height_0; lia|].
  destruct (octant_bounds r ltac:(lia)) as (M2 & Mb). destruct (height_bounds r (octant_size r - 1) ltac:(lia) ltac:(lia)) as [Y B].
  set (m := octant_size r) in *. set (y := height r (m - 1)) in *. clearbody m y.
  assert (~ y >= m + 1). { intros A. assert (2 * r <= 3 * (m - 1) + 2) by nia. nia. }
  assert (~ y <= m - 3). { intros A. assert (m - 1 <= r) by nia. nia. }
  lia.
Qed.
Lemma height_low r n : 0 <= r -> 0 <= n <= octant_size r - 1 -> n - 1 <= height r n.
Proof.
  intros Hr [H0 H1]. pose proof (height_end r Hr) as E. set (m := octant_size r) in *.
  assert (G : forall k, 0 <= k -> forall n, 0 <= n -> n + k <= m - 1 -> height r (n + k) <= height r n).
  { intros k Hk. pattern k. apply natlike_ind; [intros; rewrite Z.add_0_r; lia| |exact Hk]. clear k Hk. intros k Hk IH q Hq Hb. unfold Z.succ in *.
    replace (q + (k + 1)) with (q + k + 1) by lia. rewrite height_step by lia. specialize (IH q Hq ltac:(lia)).
    destruct (_ <? _); lia. }
  specialize (G (m - 1 - n) ltac:(lia) n H0 ltac:(lia)). replace (n + (m - 1 - n)) with (m - 1) in G by lia. lia.
Qed.

(** ** The array of the path *)
(** the point with column n of the first octant (1..m) in the eight octants, by position *)
Definition vpt (c : zpt) (r m k : Z) : zpt :=
  let (x0, y0) := c in
  let h := height r in
  if k <? m then (x0 + k, y0 + h k)
  else if k <? 2 * m then (x0 + h (2 * m - k - 1), y0 + (2 * m - k - 1))
  else if k <? 3 * m then (x0 + h (k - 2 * m), y0 - (k - 2 * m))
  else if k <? 4 * m then (x0 + (4 * m - k - 1), y0 - h (4 * m - k - 1))
  else if k <? 5 * m then (x0 - (k - 4 * m), y0 - h (k - 4 * m))
  else if k <? 6 * m then (x0 - h (6 * m - k - 1), y0 - (6 * m - k - 1))
  else if k <? 7 * m then (x0 - h (k - 6 * m), y0 + (k - 6 * m))
  else (x0 - (8 * m - k - 1), y0 + h (8 * m - k - 1)).

Lemma nth_set_nth_neq {A} i j (x : A) l d : i <> j -> nth j (set_nth i x l) d = nth j l d.
Proof. revert i j; induction l as [|a l IH]; intros [|i] [|j] H; cbn; try reflexivity; try congruence. apply IH. congruence. Qed.
Lemma nth_set_nth_eq {A} i (x : A) l d : (i < length l)%nat -> nth i (set_nth i x l) d = x.
Proof. revert i; induction l as [|a l IH]; intros [|i] H; cbn in *; try reflexivity; try lia. apply IH. lia. Qed.
(** rows of the array are unwritten or right *)
Definition right_ (c : zpt) (r m : Z) (xy : list (option zpt)) : Prop :=
  forall k, 0 <= k < 8 * m -> nth (Z.to_nat k) xy None = None \/ nth (Z.to_nat k) xy None = Some (vpt c r m k).
Definition grown (a b : list (option zpt)) : Prop := length a = length b /\ forall k, nth k a None <> None -> nth k b None <> None.
Lemma grown_trans a b c : grown a b -> grown b c -> grown a c.
Proof. intros [L G] [L' G']. split; [congruence|]. intros k H. apply G', G, H. Qed.
Lemma put_grown k p xy : grown xy (put k p xy).
Proof.
  unfold put. split; [symmetry; apply set_nth_length|]. intros j H. destruct (Nat.eq_dec j (Z.to_nat k)) as [->|N].
  - destruct (lt_dec (Z.to_nat k) (length xy)); [rewrite nth_set_nth_eq by assumption; discriminate|].
    rewrite nth_overflow in H by lia. congruence.
  - rewrite nth_set_nth_neq by congruence. exact H.
Qed.
Lemma put_right c r m k p xy : 0 <= k -> right_ c r m xy -> p = vpt c r m k -> right_ c r m (put k p xy).
Proof.
  intros Hk R -> j Hj. unfold put. destruct (Z.eq_dec j k) as [->|N].
  - destruct (lt_dec (Z.to_nat k) (length xy)); [right; rewrite nth_set_nth_eq by assumption; reflexivity|].
    left. rewrite nth_overflow; [reflexivity|rewrite set_nth_length; lia].
  - rewrite nth_set_nth_neq by lia. apply R, Hj.
Qed.
Lemma put_there k p xy : 0 <= k < Z.of_nat (length xy) -> nth (Z.to_nat k) (put k p xy) None <> None.
Proof. intros H. unfold put. rewrite nth_set_nth_eq by lia. discriminate. Qed.

Ltac zcmp := repeat match goal with |- context[?a <? ?b] => destruct (Z.ltb_spec a b); try lia end.
Lemma put8_right c r m i xy : 1 <= i <= m -> right_ c r m xy -> right_ c r m (put8 c m i (i - 1) (height r (i - 1)) xy).
Proof.
  intros H R. destruct c as [x0 y0]. unfold put8.
  repeat (apply put_right; [lia| |]); try exact R; unfold vpt; zcmp;
    apply f_equal2; first [lia | f_equal; f_equal; lia].
Qed.
Definition pos8 (m i : Z) : list Z := [i - 1; 8 * m - i; 4 * m - i; 4 * m + i - 1; 2 * m - i; 6 * m + i - 1; 2 * m + i - 1; 6 * m - i].
Lemma put8_grown c m i x y xy : grown xy (put8 c m i x y xy).
Proof. destruct c as [x0 y0]. unfold put8. repeat (eapply grown_trans; [|apply put_grown]). split; auto. Qed.
Lemma put8_there c m i x y xy k : 1 <= i <= m -> Z.of_nat (length xy) = 8 * m -> In k (pos8 m i) ->
  nth (Z.to_nat k) (put8 c m i x y xy) None <> None.
Proof.
  intros Hi L H. destruct c as [x0 y0]. unfold put8.
  assert (G : forall p j l, Z.of_nat (length l) = 8 * m -> Z.of_nat (length (put j p l)) = 8 * m) by (intros p j l E; unfold put; rewrite set_nth_length; exact E).
  assert (K : 0 <= k < 8 * m) by (cbn [pos8 In] in H; lia).
  cbn [pos8 In] in H.
  repeat (destruct H as [<-|H]; [repeat first [apply put_there; rewrite ?set_nth_length; unfold put; rewrite ?set_nth_length; lia | match goal with |- nth ?q (put ?j ?p ?l) None <> None => apply (proj2 (put_grown j p l)) end]|]); destruct H.
Qed.

Lemma loop_right c r m n i xy : 1 <= i -> i + Z.of_nat n = m + 1 - 1 + 1 -> 2 <= i -> Z.of_nat (length xy) = 8 * m ->
  right_ c r m xy -> (forall j k, 1 <= j < i -> In k (pos8 m j) -> nth (Z.to_nat k) xy None <> None) ->
  forall out, out = circle_loop n c m i (i - 2) (height r (i - 2)) (snd (hf r (Z.to_nat (i - 2)))) (2 * (i - 2) + 1) (-2 * height r (i - 2)) xy ->
  length out = length xy /\ right_ c r m out /\ forall j k, 1 <= j <= m -> In k (pos8 m j) -> nth (Z.to_nat k) out None <> None.
Proof.
  revert i xy. induction n as [|n IH]; intros i xy H1 E H2 L R D.
  - intros out ->. cbn [circle_loop]. split; [reflexivity|]. split; [exact R|]. intros j k Hj. apply D. lia.
  - intros out Eo. assert (S1 : hf r (Z.to_nat (i - 1)) = let (y, f) := hf r (Z.to_nat (i - 2)) in
                 let (y', f') := if 0 <? f then (y - 1, f + (-2 * y + 2)) else (y, f) in (y', f' + (2 * (i - 2) + 3))).
    { replace (Z.to_nat (i - 1)) with (S (Z.to_nat (i - 2))) by lia. cbn [hf]. rewrite Z2Nat.id by lia. reflexivity. }
    assert (Hh : height r (i - 1) = fst (hf r (Z.to_nat (i - 1)))) by reflexivity.
    assert (Hh2 : height r (i - 2) = fst (hf r (Z.to_nat (i - 2)))) by reflexivity.
    rewrite Hh2 in *. destruct (hf r (Z.to_nat (i - 2))) as [y f]. cbn [fst snd] in *.
    assert (Q : out = circle_loop n c m (i + 1) (i + 1 - 2) (height r (i + 1 - 2)) (snd (hf r (Z.to_nat (i + 1 - 2)))) (2 * (i + 1 - 2) + 1) (-2 * height r (i + 1 - 2))
                   (put8 c m i (i - 1) (height r (i - 1)) xy)).
    { rewrite Eo. cbn [circle_loop]. replace (i + 1 - 2) with (i - 1) by lia. rewrite Hh, S1. destruct (0 <? f); cbn [fst snd]; cbv zeta; replace (i - 2 + 1) with (i - 1) by lia; f_equal; try lia. }
    clear Eo.
    specialize (IH (i + 1) (put8 c m i (i - 1) (height r (i - 1)) xy) ltac:(lia) ltac:(lia) ltac:(lia)).
    assert (L8 : length (put8 c m i (i - 1) (height r (i - 1)) xy) = length xy) by (symmetry; apply put8_grown).
    destruct (fun a b c => IH a b c out Q) as (A & B & C); [rewrite L8; exact L|apply put8_right; [lia|exact R]| |split; [congruence|split; [exact B|exact C]]].
    intros j k Hj Hk. destruct (Z.eq_dec j i) as [->|N].
    + apply put8_there; [lia|exact L|exact Hk].
    + apply put8_grown. apply (D j); [lia|exact Hk].
Qed.
Lemma nth_repeat_None {A} n k : nth k (repeat (@None A) n) None = None.
Proof. revert k; induction n; intros [|k]; cbn; auto. Qed.
(** every position is one of the eight of some column *)
Lemma pos8_cover m k : 0 <= k < 8 * m -> exists j, 1 <= j <= m /\ In k (pos8 m j).
Proof.
  intros H. unfold pos8.
  destruct (Z_lt_le_dec k m); [exists (k + 1); split; [lia|left; lia]|].
  destruct (Z_lt_le_dec k (2 * m)); [exists (2 * m - k); split; [lia|do 4 right; left; lia]|].
  destruct (Z_lt_le_dec k (3 * m)); [exists (k - 2 * m + 1); split; [lia|do 6 right; left; lia]|].
  destruct (Z_lt_le_dec k (4 * m)); [exists (4 * m - k); split; [lia|do 2 right; left; lia]|].
  destruct (Z_lt_le_dec k (5 * m)); [exists (k - 4 * m + 1); split; [lia|do 3 right; left; lia]|].
  destruct (Z_lt_le_dec k (6 * m)); [exists (6 * m - k); split; [lia|do 7 right; left; lia]|].
  destruct (Z_lt_le_dec k (7 * m)); [exists (k - 6 * m + 1); split; [lia|do 5 right; left; lia]|].
  exists (8 * m - k); split; [lia|do 1 right; left; lia].
Qed.
Lemma octant_pos r : 0 <= r -> 1 <= octant_size r.
Proof. intros H. destruct (Z.eq_dec r 0) as [->|N]; [rewrite octant_0; lia|]. destruct (octant_bounds r ltac:(lia)) as (A & _). cbv zeta in A. lia. Qed.
(** the whole path *)
Theorem circle_path_exact c r : 0 <= r -> circle_path c r = Ok (map (fun k => Some (vpt c r (octant_size r) k)) (Zrange (8 * octant_size r))).
Proof.
  intros Hr. pose proof (octant_pos r Hr) as M. unfold circle_path. set (m := octant_size r) in *.
  destruct (Z.ltb_spec (8 * m) 0); [lia|]. destruct (Z.eqb_spec (8 * m) 0); [lia|]. f_equal.
  set (xy0 := repeat (@None zpt) (Z.to_nat (8 * m))).
  assert (L0 : Z.of_nat (length xy0) = 8 * m) by (unfold xy0; rewrite repeat_length; lia).
  assert (R0 : right_ c r m xy0) by (intros k _; left; apply nth_repeat_None).
  pose proof (put8_right c r m 1 xy0 ltac:(lia) R0) as R1. change (1 - 1) with 0 in R1. change (height r 0) with r in R1.
  assert (L1 : length (put8 c m 1 0 r xy0) = length xy0) by (symmetry; apply put8_grown).
  assert (D1 : forall j k, 1 <= j < 2 -> In k (pos8 m j) -> nth (Z.to_nat k) (put8 c m 1 0 r xy0) None <> None).
  { intros j k Hj Hk. assert (j = 1) by lia. subst j. apply put8_there; [lia|exact L0|exact Hk]. }
  destruct (loop_right c r m (Z.to_nat (m - 1)) 2 (put8 c m 1 0 r xy0) ltac:(lia) ltac:(lia) ltac:(lia) ltac:(rewrite L1; exact L0) R1 D1
    (circle_loop (Z.to_nat (m - 1)) c m 2 0 r (1 - r) 1 (-2 * r) (put8 c m 1 0 r xy0)) eq_refl) as (A & B & C).
  set (out := circle_loop _ _ _ _ _ _ _ _ _ _) in *.
  apply (nth_ext _ _ None None).
  - rewrite map_length. unfold Zrange. rewrite map_length, seq_length. lia.
  - intros k Hk. assert (K : 0 <= Z.of_nat k < 8 * m) by lia.
    assert (W : nth k out None = Some (vpt c r m (Z.of_nat k))).
    { destruct (B (Z.of_nat k) K) as [E|E]; rewrite Nat2Z.id in E; [|exact E]. exfalso. destruct (pos8_cover m _ K) as (j & Hj & Hin). apply (C j _ Hj Hin). rewrite Nat2Z.id. exact E. }
    rewrite W. symmetry. unfold Zrange. rewrite map_map.
    rewrite (nth_indep _ None (Some (vpt c r m (Z.of_nat 0)))) by (rewrite map_length, seq_length; lia).
    rewrite (map_nth (fun x => Some (vpt c r m (Z.of_nat x)))). rewrite seq_nth by lia. reflexivity.
Qed.
