(** C29: tiles with any overlap. *)
From Coq Require Import Lia Lra.
From Verif Require Import Base BaseLemmas HelpersModel GridModel GridSpec GridProofs GridProofs2 TileProofs P_Grid.
Open Scope Z_scope.


Lemma extended_slice n s ov k : 0 <= fst s < snd s -> snd s <= n -> 0 <= ov ->
  (in_slice n (extend ov s) k <->
   (if fst s =? 0 then 0 else if ov <=? fst s then fst s - ov else Z.max 0 (n + fst s - ov)) <= k < snd s).
Proof.
  intros A B O. unfold in_slice, slice_bound, extend. cbn [fst snd].
  replace (if snd s <? 0 then Z.max 0 (n + snd s) else Z.min (snd s) n) with (snd s).
  2:{ destruct (Z.ltb_spec (snd s) 0); lia. }
  destruct (Z.eqb_spec (fst s) 0) as [E|E].
  - cbn [Z.ltb]. change (0 <? 0) with false. cbv iota. rewrite Z.min_l by lia. tauto.
  - destruct (Z.leb_spec ov (fst s)), (Z.ltb_spec (fst s - ov) 0); try lia; replace (n + (fst s - ov)) with (n + fst s - ov) by lia; rewrite ?Z.min_l by lia; tauto.
Qed.

(** For every overlap, the tiles are those without overlap, each extended by the overlap toward lower indices.
    In rows (same for columns), a tile that starts at a > 0 covers the cells from a - ov if ov <= a; otherwise its start is
    negative, counts from the end, and it covers the cells from max 0 (n + a - ov) only: its own cells are covered iff the overlap is
    no larger than a, or at least the whole grid. *)
Theorem grid_tiles_any_overlap : forall g size, grid_ok g -> 1 <= fst size -> 1 <= snd size ->
  exists tiles, tile_indices g size (0, 0) = Ok tiles /\
  forall ov, 0 <= fst ov -> 0 <= snd ov ->
    tile_indices g size ov = Ok (map (fun t => (extend (snd ov) (fst t), extend (fst ov) (snd t))) tiles) /\
    forall rs cs, In (rs, cs) tiles ->
      let covered n s o k := (if fst s =? 0 then 0 else if o <=? fst s then fst s - o else Z.max 0 (n + fst s - o)) <= k < snd s in
      (forall r c, tile_covers g (extend (snd ov) rs, extend (fst ov) cs) r c <->
         covered (gny g) rs (snd ov) r /\ covered (gnx g) cs (fst ov) c)
      /\ ((forall r c, tile_covers g (rs, cs) r c -> tile_covers g (extend (snd ov) rs, extend (fst ov) cs) r c) <->
          (fst rs = 0 \/ snd ov <= fst rs \/ gny g <= snd ov) /\ (fst cs = 0 \/ fst ov <= fst cs \/ gnx g <= fst ov)).
Proof.
  intros g size [[_ Hx] [_ Hy]] Sx Sy. cbn [xaxis yaxis snd] in Hx, Hy. unfold tile_indices.
  destruct (tile_axis_plain (gnx g) (fst size) Hx Sx) as (xs & Ex & Ox & Wx & Cx & Vx).
  destruct (tile_axis_plain (gny g) (snd size) Hy Sy) as (ys & Ey & Oy & Wy & Cy & Vy).
  cbn [fst snd]. rewrite Ex, Ey. cbn [bind]. eexists. split; [reflexivity|].
  intros ov O1 O2. destruct (Vx (fst ov)) as [Vx1 _]. destruct (Vy (snd ov)) as [Vy1 _]. rewrite Vx1, Vy1. cbn [bind]. split.
  { f_equal. clear. induction ys as [|y ys IH]; [reflexivity|]. cbn [map flat_map]. rewrite IH, map_app. f_equal.
    rewrite !map_map. reflexivity. }
  intros rs cs H. apply in_flat_map in H. destruct H as (r' & Hr & H). apply in_map_iff in H. destruct H as (c' & E & Hc).
  injection E as -> ->. destruct (Ox _ Hc) as [X1 X2]. destruct (Oy _ Hr) as [Y1 Y2]. cbv zeta. split.
  { intros r c. unfold tile_covers. cbn [fst snd]. rewrite !extended_slice by auto. tauto. }
  assert (G : forall n s o, 0 <= fst s < snd s -> snd s <= n -> 0 <= o ->
     ((forall k, fst s <= k < snd s -> in_slice n (extend o s) k) <-> fst s = 0 \/ o <= fst s \/ n <= o)).
  { intros n s o A B O. split.
    - intros F. specialize (F (fst s) ltac:(lia)). rewrite extended_slice in F by auto.
      destruct (Z.eqb_spec (fst s) 0), (Z.leb_spec o (fst s)); lia.
    - intros F k K. rewrite extended_slice by auto. destruct (Z.eqb_spec (fst s) 0), (Z.leb_spec o (fst s)); lia. }
  rewrite <- (G (gny g) rs (snd ov) Y1 Y2 O2), <- (G (gnx g) cs (fst ov) X1 X2 O1). unfold tile_covers. cbn [fst snd].
  assert (P : forall r, in_slice (gny g) rs r <-> fst rs <= r < snd rs) by (intros; apply in_slice_ok; auto).
  assert (Q : forall r, in_slice (gnx g) cs r <-> fst cs <= r < snd cs) by (intros; apply in_slice_ok; auto).
  split.
  - intros F. split; intros k K.
    + apply (F k (fst cs)). split; [apply P, K|apply Q; lia].
    + apply (F (fst rs) k). split; [apply P; lia|apply Q, K].
  - intros [F1 F2] r c [K1 K2]. split; [apply F1, P, K1|apply F2, Q, K2].
Qed.
Print Assumptions grid_tiles_any_overlap.
Example grid_tiles_any_overlap_ex : grid_ok exgrid /\ 1 <= fst (2, 2) /\ 0 <= snd (5, 7).
Proof. split; [apply exgrid_ok|]. cbn. lia. Qed.
