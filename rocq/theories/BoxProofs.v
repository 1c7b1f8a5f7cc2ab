(** Proofs about bounding_box, intersect_boxes, box_to_grid. *)
From Verif Require Import Base BaseLemmas HelpersModel HelpersSpec.
From Coq Require Import ZifyBool Sorted.
Open Scope R_scope.


Lemma fold_map2_length {A} (f : A -> A -> A) n rs r : length r = n -> rect n rs ->
  length (fold_left (map2 f) rs r) = n.
Proof.
  revert r; induction rs as [|q rs IH]; simpl; intros r Hr Hs; auto.
  apply IH; [|intros x Hx; apply Hs; right; auto].
  rewrite map2_length. rewrite (Hs q) by (left; auto). lia.
Qed.

Lemma nth_map2 {A} (f : A -> A -> A) l m i d : (i < length l)%nat -> (i < length m)%nat ->
  nth i (map2 f l m) d = f (nth i l d) (nth i m d).
Proof.
  revert m i; induction l as [|a l IH]; intros [|b m] [|i]; simpl; intros; try lia; auto.
  apply IH; lia.
Qed.

Lemma fold_map2_nth {A} (f : A -> A -> A) n rs r i d : length r = n -> rect n rs -> (i < n)%nat ->
  nth i (fold_left (map2 f) rs r) d = fold_left f (map (fun q => nth i q d) rs) (nth i r d).
Proof.
  revert r; induction rs as [|q rs IH]; simpl; intros r Hr Hs Hi; auto.
  assert (Hq : length q = n) by (apply Hs; left; auto).
  rewrite IH; auto; [|rewrite map2_length; lia|intros x Hx; apply Hs; right; auto].
  rewrite nth_map2 by lia. reflexivity.
Qed.

Lemma fold_Rmin_spec l a :
  (forall x, In x (a :: l) -> fold_left Rmin l a <= x) /\ In (fold_left Rmin l a) (a :: l).
Proof.
  revert a; induction l as [|b l IH]; intros a; simpl.
  - split; [intros x [<-|[]]; lra|auto].
  - destruct (IH (Rmin a b)) as [H1 H2]. split.
    + intros x Hx. assert (H := H1 (Rmin a b) (or_introl eq_refl)).
      pose proof (Rmin_l a b); pose proof (Rmin_r a b).
      destruct Hx as [<-|[<-|Hx]]; try lra. apply H1. right; auto.
    + destruct H2 as [H2|H2]; auto. rewrite <- H2. unfold Rmin. destruct (Rle_dec a b); auto.
Qed.
Lemma fold_Rmax_spec l a :
  (forall x, In x (a :: l) -> x <= fold_left Rmax l a) /\ In (fold_left Rmax l a) (a :: l).
Proof.
  revert a; induction l as [|b l IH]; intros a; simpl.
  - split; [intros x [<-|[]]; lra|auto].
  - destruct (IH (Rmax a b)) as [H1 H2]. split.
    + intros x Hx. assert (H := H1 (Rmax a b) (or_introl eq_refl)).
      pose proof (Rmax_l a b); pose proof (Rmax_r a b).
      destruct Hx as [<-|[<-|Hx]]; try lra. apply H1. right; auto.
    + destruct H2 as [H2|H2]; auto. rewrite <- H2. unfold Rmax. destruct (Rle_dec a b); auto.
Qed.

Lemma bounding_box_spec n (points : list (list R)) : points <> [] -> rect n points ->
  exists lo hi, bounding_box points = Ok (lo ++ hi) /\ length lo = n /\ length hi = n /\
    forall i, (i < n)%nat ->
      (forall p, In p points -> nth i lo 0 <= nth i p 0 <= nth i hi 0) /\
      (exists p, In p points /\ nth i p 0 = nth i lo 0) /\
      (exists p, In p points /\ nth i p 0 = nth i hi 0).
Proof.
  intros Hne Hr. destruct points as [|p ps]; [congruence|].
  assert (Hp : length p = n) by (apply Hr; left; auto).
  assert (Hps : rect n ps) by (intros x Hx; apply Hr; right; auto).
  exists (fold_left (map2 Rmin) ps p), (fold_left (map2 Rmax) ps p).
  split; [reflexivity|]. split; [apply fold_map2_length; auto|]. split; [apply fold_map2_length; auto|].
  intros i Hi. rewrite !(fold_map2_nth _ n) by auto.
  destruct (fold_Rmin_spec (map (fun q => nth i q 0) ps) (nth i p 0)) as [A1 A2].
  destruct (fold_Rmax_spec (map (fun q => nth i q 0) ps) (nth i p 0)) as [B1 B2].
  assert (Hin : forall q, In q (p :: ps) -> In (nth i q 0) (nth i p 0 :: map (fun q => nth i q 0) ps)).
  { intros q [<-|Hq]; [left; auto|right; apply in_map_iff; eauto]. }
  split; [intros q Hq; split; [apply A1|apply B1]; auto|].
  assert (Hex : forall v, In v (nth i p 0 :: map (fun q => nth i q 0) ps) ->
     exists q, In q (p :: ps) /\ nth i q 0 = v).
  { intros v [<-|Hv]; [exists p; split; [left|]; auto|].
    apply in_map_iff in Hv as (q & <- & Hq). exists q. split; [right|]; auto. }
  split; auto.
Qed.

(** Converse use: in_box accepts every point of the bounding box's points. *)
Lemma forallb_nth (l : list bool) : (forall i, (i < length l)%nat -> nth i l false = true) ->
  forallb (fun b => b) l = true.
Proof.
  induction l as [|b l IH]; simpl; intros H; auto.
  rewrite (H 0%nat) by lia. simpl. apply IH. intros i Hi. apply (H (S i)). lia.
Qed.
Lemma nth_map2' {A B C} (f : A -> B -> C) l m i da db dc : (i < length l)%nat -> (i < length m)%nat ->
  nth i (map2 f l m) dc = f (nth i l da) (nth i m db).
Proof.
  revert m i; induction l as [|a l IH]; intros [|b m] [|i]; simpl; intros; try lia; auto.
  apply IH; lia.
Qed.

Lemma unravel_box_app lo hi : length lo = length hi -> unravel_box (lo ++ hi) = Ok (lo, hi).
Proof.
  intros H. unfold unravel_box. rewrite app_length, <- H.
  replace (Nat.odd (length lo + length lo)) with false.
  2:{ symmetry. rewrite <- Nat.negb_even. replace (length lo + length lo)%nat with (2 * length lo)%nat by lia.
      rewrite Nat.even_mul. reflexivity. }
  replace (Nat.div (length lo + length lo) 2) with (length lo).
  2:{ replace (length lo + length lo)%nat with (length lo * 2)%nat by lia. rewrite Nat.div_mul; lia. }
  do 2 f_equal.
  - rewrite firstn_app, Nat.sub_diag, firstn_all. simpl. apply app_nil_r.
  - rewrite skipn_app, Nat.sub_diag, skipn_all. reflexivity.
Qed.

Lemma in_box1_iff n point lo hi : length point = n -> length lo = n -> length hi = n ->
  exists b, in_box1 point (lo ++ hi) = Ok b /\
   (b = true <-> forall i, (i < n)%nat -> nth i lo 0 <= nth i point 0 <= nth i hi 0).
Proof.
  intros Hp Hl Hh. unfold in_box1. rewrite unravel_box_app by congruence. cbn [bind].
  eexists; split; [reflexivity|].
  set (l := map2 andb _ _).
  assert (Hlen : length l = n) by (unfold l; rewrite !map2_length; lia).
  assert (Hnth : forall i d, (i < n)%nat ->
     nth i l d = (Rleb (nth i lo 0) (nth i point 0) && Rleb (nth i point 0) (nth i hi 0))%bool).
  { intros i d Hi. unfold l. rewrite (nth_map2' andb _ _ i true true) by (rewrite map2_length; lia).
    rewrite (nth_map2' _ point lo i 0 0) by lia. rewrite (nth_map2' _ point hi i 0 0) by lia. reflexivity. }
  split.
  - intros Hf i Hi. rewrite forallb_forall in Hf.
    specialize (Hf (nth i l false)). rewrite Hnth in Hf by auto.
    assert (Hin : In (nth i l false) l) by (apply nth_In; lia). rewrite Hnth in Hin by auto.
    specialize (Hf Hin). apply andb_true_iff in Hf as [H1 H2].
    apply Rleb_true in H1; apply Rleb_true in H2. lra.
  - intros H. apply forallb_nth. intros i Hi. rewrite Hnth by lia.
    apply andb_true_iff. rewrite !Rleb_true. split; apply H; lia.
Qed.

Lemma bounding_box_contains n points p : points <> [] -> rect n points -> In p points ->
  exists box, bounding_box points = Ok box /\ in_box1 p box = Ok true.
Proof.
  intros Hne Hr Hp. destruct (bounding_box_spec n points Hne Hr) as (lo & hi & H1 & H2 & H3 & H4).
  exists (lo ++ hi). split; [exact H1|].
  destruct (in_box1_iff n p lo hi (Hr p Hp) H2 H3) as (b & Hb & Hiff). rewrite Hb. f_equal.
  apply Hiff. intros i Hi. apply H4; auto.
Qed.


Lemma fold_nanmax l a :
  (forall x, ge_opt (fold_left (nanop Rmax) l a) x <-> (forall o, In o (a :: l) -> ge_opt o x)) /\
  (fold_left (nanop Rmax) l a = None -> forall o, In o (a :: l) -> o = None) /\
  (forall v, fold_left (nanop Rmax) l a = Some v -> In (Some v) (a :: l)).
Proof.
  revert a; induction l as [|b l IH]; intros a; simpl.
  - split; [|split].
    + intros x. split; [intros H o [<-|[]]; auto|intros H; apply H; auto].
    + intros -> o [<-|[]]; auto.
    + auto.
  - destruct (IH (nanop Rmax a b)) as (H1 & H2 & H3). split; [|split].
    + intros x. rewrite H1. split.
      * intros H o Ho. assert (Hn := H _ (or_introl eq_refl)).
        destruct Ho as [<-|[<-|Ho]]; [| |apply H; right; auto];
          destruct a, b; simpl in *; auto; pose proof (Rmax_l r r0); pose proof (Rmax_r r r0); lra.
      * intros H o [<-|Ho]; [|apply H; auto].
        assert (Ha := H a (or_introl eq_refl)). assert (Hb := H b (or_intror (or_introl eq_refl))).
        destruct a, b; simpl in *; auto. apply Rmax_lub; auto.
    + intros H o Ho. specialize (H2 H).
      assert (Hn := H2 _ (or_introl eq_refl)).
      destruct Ho as [<-|[<-|Ho]]; [| |apply H2; right; auto]; destruct a, b; simpl in *; auto; discriminate.
    + intros v H. specialize (H3 v H). destruct H3 as [H3|H3]; auto.
      destruct a, b; simpl in *; auto. injection H3 as <-. unfold Rmax. destruct (Rle_dec r r0); auto.
Qed.
Lemma fold_nanmin l a :
  (forall x, le_opt (fold_left (nanop Rmin) l a) x <-> (forall o, In o (a :: l) -> le_opt o x)) /\
  (fold_left (nanop Rmin) l a = None -> forall o, In o (a :: l) -> o = None) /\
  (forall v, fold_left (nanop Rmin) l a = Some v -> In (Some v) (a :: l)).
Proof.
  revert a; induction l as [|b l IH]; intros a; simpl.
  - split; [|split].
    + intros x. split; [intros H o [<-|[]]; auto|intros H; apply H; auto].
    + intros -> o [<-|[]]; auto.
    + auto.
  - destruct (IH (nanop Rmin a b)) as (H1 & H2 & H3). split; [|split].
    + intros x. rewrite H1. split.
      * intros H o Ho. assert (Hn := H _ (or_introl eq_refl)).
        destruct Ho as [<-|[<-|Ho]]; [| |apply H; right; auto];
          destruct a, b; simpl in *; auto; pose proof (Rmin_l r r0); pose proof (Rmin_r r r0); lra.
      * intros H o [<-|Ho]; [|apply H; auto].
        assert (Ha := H a (or_introl eq_refl)). assert (Hb := H b (or_intror (or_introl eq_refl))).
        destruct a, b; simpl in *; auto. apply Rmin_glb; auto.
    + intros H o Ho. specialize (H2 H).
      assert (Hn := H2 _ (or_introl eq_refl)).
      destruct Ho as [<-|[<-|Ho]]; [| |apply H2; right; auto]; destruct a, b; simpl in *; auto; discriminate.
    + intros v H. specialize (H3 v H). destruct H3 as [H3|H3]; auto.
      destruct a, b; simpl in *; auto. injection H3 as <-. unfold Rmin. destruct (Rle_dec r r0); auto.
Qed.

Lemma nth_firstn {A} n (l : list A) i d : (i < n)%nat -> nth i (firstn n l) d = nth i l d.
Proof. revert n i; induction l; destruct n, i; simpl; intros; try lia; auto. apply IHl; lia. Qed.
Lemma nth_skipn {A} n (l : list A) i d : nth i (skipn n l) d = nth (n + i) l d.
Proof. revert n; induction l; destruct n; simpl; auto. destruct i; auto. Qed.

Lemma existsb_nth_map2 {A} (f : A -> A -> bool) l m d : length l = length m ->
  (existsb (fun b => b) (map2 f l m) = true <-> exists i, (i < length l)%nat /\ f (nth i l d) (nth i m d) = true).
Proof.
  revert m; induction l as [|a l IH]; intros [|b m] Hl; simpl in *; try discriminate.
  - split; [discriminate|intros (i & Hi & _); lia].
  - injection Hl as Hl. rewrite orb_true_iff, (IH m Hl). split.
    + intros [H|(i & Hi & H)]; [exists 0%nat; split; auto; lia|exists (S i); split; auto; lia].
    + intros ([|i] & Hi & H); [left; auto|right; exists i; split; auto; lia].
Qed.

Lemma intersect_boxes_spec n (boxes : list (list (option R))) :
  boxes <> [] -> rect (2 * n) boxes ->
  let disjoint := exists i b1 b2 l h, (i < n)%nat /\ In b1 boxes /\ In b2 boxes /\
        nth i b1 None = Some l /\ nth (n + i) b2 None = Some h /\ h <= l in
  (disjoint -> intersect_boxes boxes = Err ValueError) /\
  (~ disjoint -> exists lo hi, intersect_boxes boxes = Ok (lo ++ hi) /\ length lo = n /\ length hi = n /\
     forall i x, (i < n)%nat ->
       (ge_opt (nth i lo None) x /\ le_opt (nth i hi None) x <->
        forall b, In b boxes -> ge_opt (nth i b None) x /\ le_opt (nth (n + i) b None) x)).
Proof.
  intros Hne Hr disjoint. destruct boxes as [|b bs]; [congruence|].
  assert (Hb : length b = (2 * n)%nat) by (apply Hr; left; auto).
  assert (Hbs : rect (2 * n) bs) by (intros x Hx; apply Hr; right; auto).
  unfold intersect_boxes. rewrite Hb.
  replace (Nat.odd (2 * n)) with false
    by (symmetry; rewrite <- Nat.negb_even, Nat.even_mul; reflexivity).
  replace (Nat.div (2 * n) 2) with n by (rewrite Nat.mul_comm, Nat.div_mul; lia).
  set (boxmin := fold_left (map2 (nanop Rmax)) (map (firstn n) bs) (firstn n b)).
  set (boxmax := fold_left (map2 (nanop Rmin)) (map (skipn n) bs) (skipn n b)).
  assert (L1 : length (firstn n b) = n) by (rewrite firstn_length; lia).
  assert (L2 : length (skipn n b) = n) by (rewrite skipn_length; lia).
  assert (R1 : rect n (map (firstn n) bs)).
  { intros x Hx. apply in_map_iff in Hx as (y & <- & Hy). rewrite firstn_length, (Hbs y Hy). lia. }
  assert (R2 : rect n (map (skipn n) bs)).
  { intros x Hx. apply in_map_iff in Hx as (y & <- & Hy). rewrite skipn_length, (Hbs y Hy). lia. }
  assert (Lmin : length boxmin = n) by (apply fold_map2_length; auto).
  assert (Lmax : length boxmax = n) by (apply fold_map2_length; auto).
  assert (Nmin : forall i, (i < n)%nat -> nth i boxmin None =
     fold_left (nanop Rmax) (map (fun q => nth i q None) bs) (nth i b None)).
  { intros i Hi. unfold boxmin. rewrite (fold_map2_nth _ n) by auto. rewrite map_map.
    rewrite nth_firstn by auto. f_equal. apply map_ext. intros. apply nth_firstn; auto. }
  assert (Nmax : forall i, (i < n)%nat -> nth i boxmax None =
     fold_left (nanop Rmin) (map (fun q => nth (n + i) q None) bs) (nth (n + i) b None)).
  { intros i Hi. unfold boxmax. rewrite (fold_map2_nth _ n) by auto. rewrite map_map.
    rewrite nth_skipn. f_equal. apply map_ext. intros. apply nth_skipn. }
  assert (Hin : forall k q, In q (b :: bs) -> In (nth k q None) (nth k b None :: map (fun q => nth k q None) bs)).
  { intros k q [<-|Hq]; [left; auto|right; apply in_map_iff; eauto]. }
  assert (Hex : forall k v, In v (nth k b None :: map (fun q => nth k q None) bs) ->
     exists q, In q (b :: bs) /\ nth k q None = v).
  { intros k v [<-|Hv]; [exists b; split; [left|]; auto|].
    apply in_map_iff in Hv as (q & <- & Hq). exists q. split; [right|]; auto. }
  set (bad := existsb (fun b => b) _).
  assert (Hbad : bad = true <-> disjoint).
  { unfold bad. rewrite (existsb_nth_map2 _ boxmax boxmin None) by congruence. rewrite Lmax. split.
    - intros (i & Hi & Hf). rewrite Nmax, Nmin in Hf by auto.
      destruct (fold_nanmin (map (fun q => nth (n + i) q None) bs) (nth (n + i) b None)) as (_ & _ & M3).
      destruct (fold_nanmax (map (fun q => nth i q None) bs) (nth i b None)) as (_ & _ & X3).
      destruct (fold_left (nanop Rmin) _ _) as [h|]; [|discriminate].
      destruct (fold_left (nanop Rmax) _ _) as [l|]; [|discriminate].
      apply Rleb_true in Hf.
      destruct (Hex _ _ (M3 h eq_refl)) as (b2 & Hb2 & E2).
      destruct (Hex _ _ (X3 l eq_refl)) as (b1 & Hb1 & E1).
      exists i, b1, b2, l, h. repeat split; auto; lra.
    - intros (i & b1 & b2 & l & h & Hi & H1 & H2 & E1 & E2 & Hle).
      exists i. split; auto. rewrite Nmax, Nmin by auto.
      destruct (fold_nanmin (map (fun q => nth (n + i) q None) bs) (nth (n + i) b None)) as (M1 & M2 & _).
      destruct (fold_nanmax (map (fun q => nth i q None) bs) (nth i b None)) as (X1 & X2 & _).
      apply Hin with (k := i) in H1. apply Hin with (k := (n + i)%nat) in H2.
      destruct (fold_left (nanop Rmin) _ _) as [h'|].
      2:{ specialize (M2 eq_refl _ H2). congruence. }
      destruct (fold_left (nanop Rmax) _ _) as [l'|].
      2:{ specialize (X2 eq_refl _ H1). congruence. }
      apply Rleb_true.
      assert (h' <= h). { assert (Hq := proj1 (M1 h')). simpl in Hq. specialize (Hq ltac:(lra) _ H2). rewrite E2 in Hq. exact Hq. }
      assert (l <= l'). { assert (Hq := proj1 (X1 l')). simpl in Hq. specialize (Hq ltac:(lra) _ H1). rewrite E1 in Hq. exact Hq. }
      lra. }
  split.
  - intros Hd. apply Hbad in Hd. rewrite Hd. reflexivity.
  - intros Hnd. destruct bad eqn:Eb; [exfalso; apply Hnd, Hbad; reflexivity|].
    exists boxmin, boxmax. split; [reflexivity|]. split; auto. split; auto.
    intros i x Hi. rewrite Nmax, Nmin by auto.
    destruct (fold_nanmin (map (fun q => nth (n + i) q None) bs) (nth (n + i) b None)) as (M1 & _).
    destruct (fold_nanmax (map (fun q => nth i q None) bs) (nth i b None)) as (X1 & _).
    rewrite X1, M1. split.
    + intros [A B] q Hq. split; [apply A|apply B]; apply Hin; auto.
    + intros H. split; intros o Ho; destruct (Hex _ _ Ho) as (q & Hq & <-); apply (H q Hq).
Qed.

Lemma intersect_boxes_odd b bs : Nat.odd (length b) = true ->
  intersect_boxes (b :: bs) = Err ValueError.
Proof. intros H. unfold intersect_boxes. rewrite H. reflexivity. Qed.

(** ** box_to_grid *)
Lemma Rmod_bound x y : 0 < y -> 0 <= Rmod x y < y.
Proof.
  intros Hy. unfold Rmod. pose proof (Rfloor_lb (x / y)); pose proof (Rfloor_ub (x / y)).
  assert (Hx : x = y * (x / y)) by (field; lra). rewrite Hx at 1 3. nra.
Qed.

Lemma box_to_grid_axis_spec lo hi step snap : lo <= hi -> 0 < step ->
  exists xs, box_to_grid_axis lo hi step snap = Ok xs
    /\ StronglySorted Rlt xs
    /\ forall x, In x xs <-> lo <= x <= hi /\ exists k : Z, x = snap + IZR k * step.
Proof.
  intros Hb Hs. unfold box_to_grid_axis.
  pose proof (Rmod_bound (snap - lo) step Hs) as Hm.
  assert (Hk : exists q, Rmod (snap - lo) step = snap - lo - step * IZR q)
    by (eexists; reflexivity).
  set (m := Rmod (snap - lo) step) in *.
  set (n := Rfloor ((hi - lo - m) / step)).
  pose proof (Rfloor_lb ((hi - lo - m) / step)) as F1.
  pose proof (Rfloor_ub ((hi - lo - m) / step)) as F2. fold n in F1, F2.
  assert (E : hi - lo - m = step * ((hi - lo - m) / step)) by (field; lra).
  assert (G1 : step * IZR n <= hi - lo - m) by (rewrite E; nra).
  assert (G2 : hi - lo - m < step * (IZR n + 1)) by (rewrite E; nra).
  assert (Hn : (-1 <= n)%Z).
  { assert (-1 <= (hi - lo - m) / step).
    { apply Rmult_le_reg_l with step; auto. rewrite <- E. lra. }
    unfold n. apply Rfloor_le. exact H. }
  unfold linspace. destruct (n + 1 <? 0)%Z eqn:En; [lia|].
  eexists; split; [reflexivity|].
  set (f := fun i : Z => _).
  assert (Hf : forall i, (0 <= i <= n)%Z -> f i = lo + m + IZR i * step).
  { intros i Hi. unfold f. destruct (n + 1 =? 1)%Z eqn:E1.
    - assert (i = 0%Z) by lia. subst i. lra.
    - replace (n + 1 - 1)%Z with n by lia.
      assert (IZR n <> 0) by (apply not_0_IZR; lia). field. auto. }
  split.
  - pose proof (Zrange_sorted (n + 1)) as Hz.
    assert (Hi : forall i, In i (Zrange (n + 1)) -> (0 <= i <= n)%Z) by (intros i Hi; apply in_Zrange in Hi; lia).
    revert Hi. induction Hz as [|a l Hl IH Hall]; simpl; intros Hi; constructor.
    + apply IH. intros; apply Hi; auto.
    + rewrite Forall_forall in *. intros b Hb'. apply in_map_iff in Hb' as (c & <- & Hc).
      specialize (Hall c Hc). rewrite !Hf by (apply Hi; auto).
      apply IZR_lt in Hall. nra.
  - intros x. rewrite in_map_iff. destruct Hk as [q Hq]. split.
    + intros (i & <- & Hi). apply in_Zrange in Hi. rewrite Hf by lia.
      assert (0 <= IZR i) by (apply IZR_le; lia). assert (IZR i <= IZR n) by (apply IZR_le; lia).
      split; [nra|]. exists (i - q)%Z. rewrite minus_IZR. rewrite Hq. ring.
    + intros (Hx & k & ->). exists (k + q)%Z.
      assert (Hxe : snap + IZR k * step = lo + m + IZR (k + q) * step) by (rewrite plus_IZR, Hq; ring).
      rewrite Hxe in Hx.
      assert (H0 : (0 <= k + q)%Z).
      { assert (-1 < IZR (k + q)); [|apply lt_IZR in H; lia]. nra. }
      assert (H1 : (k + q <= n)%Z).
      { assert (IZR (k + q) < IZR (n + 1)); [|apply lt_IZR in H; lia]. rewrite (plus_IZR n 1). nra. }
      split; [rewrite Hf by lia; symmetry; exact Hxe|]. apply in_Zrange. lia.
Qed.

Lemma box_to_grid_spec n (lo hi step : list R) (snap : option (list R)) :
  length lo = n -> length hi = n -> length step = n ->
  (forall s, snap = Some s -> length s = n) ->
  (forall i, (i < n)%nat -> nth i lo 0 <= nth i hi 0 /\ 0 < nth i step 0) ->
  exists axes, box_to_grid_vectors (lo ++ hi) step snap = Ok axes /\ length axes = n /\
    forall i, (i < n)%nat ->
      StronglySorted Rlt (nth i axes []) /\
      forall x, In x (nth i axes []) <->
        nth i lo 0 <= x <= nth i hi 0 /\
        exists k : Z, x = nth i (match snap with Some s => s | None => lo end) 0 + IZR k * nth i step 0.
Proof.
  intros Hl Hh Hst Hsn Hok. unfold box_to_grid_vectors. rewrite unravel_box_app by congruence. cbn [bind].
  set (sn := match snap with Some s => s | None => lo end).
  assert (Hsl : length sn = n) by (unfold sn; destruct snap; auto).
  clearbody sn. clear Hsn snap.
  revert lo hi step sn Hl Hh Hst Hsl Hok. induction n as [|n IH]; intros lo hi step sn Hl Hh Hst Hsl Hok.
  - destruct lo; [|discriminate]. exists []. simpl. repeat split; auto; lia.
  - destruct lo as [|l lo]; [discriminate|]. destruct hi as [|h hi]; [discriminate|].
    destruct step as [|s step]; [discriminate|]. destruct sn as [|z sn]; [discriminate|].
    injection Hl as Hl. injection Hh as Hh. injection Hst as Hst. injection Hsl as Hsl.
    destruct (Hok 0%nat ltac:(lia)) as [H1 H2]. simpl in H1, H2.
    destruct (box_to_grid_axis_spec l h s z H1 H2) as (xs & E & Hs & Hin).
    destruct (IH lo hi step sn Hl Hh Hst Hsl) as (axes & Ea & La & Hax).
    { intros i Hi. apply (Hok (S i)). lia. }
    exists (xs :: axes). split; [|split].
    + simpl. rewrite E. simpl. rewrite Ea. reflexivity.
    + simpl. lia.
    + intros [|i] Hi; simpl; [split; [exact Hs|exact Hin]|]. apply Hax. lia.
Qed.
