(** C85, C86: the construction of optimize.Cameras and the parameters given to the optimiser. *)
From Coq Require Import String Ascii.
From Verif Require Import Base BaseLemmas XReal ParamsModel ParamsSpec ParamsProofs ParamsProofs2 ParamsProofs3 P_Params P_Params2 BuildModel BuildProofs.
Open Scope R_scope.
Notation length := List.length.

(** ** Specification *)
(** default bounds of element i of an attribute, for the mean focal length f and the image size (W, H) *)
Definition default_bound (f W H : R) (a : attr) (i : Z) : xr * xr :=
  let plus_minus x := (Fin (- x), Fin x) in
  match a with
  | Axyz | Aviewdir => (NInf, PInf)
  | Aimgsz | Af => (Fin 0, PInf)
  | Ac => plus_minus ((if (i =? 0)%Z then W else H) / 2)
  | Ak => plus_minus (if ((i =? 1) || (i =? 2))%Z%bool then f / 8000 else f / 4000)
  | Ap => plus_minus (f / 40000)
  end.
Definition attr_name (a : attr) : string :=
  match a with Axyz => "xyz" | Aviewdir => "viewdir" | Aimgsz => "imgsz" | Af => "f" | Ac => "c" | Ak => "k" | Ap => "p" end.
(** position of an element in the vector of camera parameters *)
Definition place (a : attr) (i : Z) : nat := Z.to_nat (first a + i).
(** a parameter with bounds [b] that starts as close to v as they allow *)
Definition started (v : R) (b : xr * xr) (p : lpar) : Prop :=
  let '(lo, hi) := if xlt (snd b) (fst b) then (snd b, fst b) else b in
  lp_min p = lo /\ lp_max p = hi /\
  (xlt (Fin v) lo = false -> xlt hi (Fin v) = false -> lp_value p = v) /\
  (xlt (Fin v) lo = true -> Fin (lp_value p) = lo) /\ (xlt hi (Fin v) = true -> Fin (lp_value p) = hi).
(** bounds [d] of a parameter are the tightest of the bounds of the cameras [idx] *)
Definition tightest (idx : list nat) (b : nat -> xr * xr) (d : xr * xr) : Prop :=
  (exists j, In j idx /\ fst d = fst (b j)) /\ (forall j, In j idx -> xlt (fst d) (fst (b j)) = false) /\
  (exists j, In j idx /\ snd d = snd (b j)) /\ (forall j, In j idx -> xlt (snd (b j)) (snd d) = false).
(** arguments with their default values *)
Definition or_empty (n : nat) (p : option (list (list (attr * pval)))) : list (list (attr * pval)) := match p with Some p => p | None => repeat [] n end.
Definition or_all (n : nat) (g : option (list (list nat))) : list (list nat) := match g with Some g => g | None => [seq 0 n] end.

(** ** Proofs *)
Theorem default_bounds : forall v, length (camera_bounds v) = 20%nat /\ forall a i, in_attr a i ->
  nth (place a i) (camera_bounds v) (NaN, NaN) =
  default_bound ((nth 8 v 0 + nth 9 v 0) / 2) (IZR (Rtrunc (nth 6 v 0))) (IZR (Rtrunc (nth 7 v 0))) a i.
Proof.
  intros v. split; [reflexivity|]. intros a i [L U]. assert (C : (i = 0 \/ i = 1 \/ i = 2 \/ i = 3 \/ i = 4 \/ i = 5)%Z) by (destruct a; cbn in U; lia).
  unfold place. unfold camera_bounds. set (fm := (nth 8 v 0 + nth 9 v 0) / 2). set (W := IZR (Rtrunc (nth 6 v 0))). set (H := IZR (Rtrunc (nth 7 v 0))).
  assert (E8 : fm / 4000 / 2 = fm / 8000) by field.
  destruct a; cbn in U; repeat (destruct C as [->|C]; [try (exfalso; lia); cbn; rewrite ?E8; reflexivity|]); subst i; try (exfalso; lia); cbn; rewrite ?E8; reflexivity.
Qed.
Print Assumptions default_bounds.

Lemma xlt_irrefl a : xlt a a = false.
Proof. destruct a; try reflexivity. cbn. apply Rltb_false. lra. Qed.
Lemma xlt_asym a b : xlt a b = true -> xlt b a = false.
Proof. destruct a, b; cbn; try reflexivity; try discriminate. intros H. apply Rltb_true in H. apply Rltb_false. lra. Qed.
Lemma lmfit_started v b p : is_nan (fst b) = false -> is_nan (snd b) = false -> lmfit_parameter v b = Ok p -> started v b p.
Proof.
  unfold lmfit_parameter, started. destruct b as [lo0 hi0]. cbn [fst snd]. intros N1 N2. set (s := if xlt hi0 lo0 then (hi0, lo0) else (lo0, hi0)).
  assert (O : xlt (snd s) (fst s) = false /\ is_nan (fst s) = false /\ is_nan (snd s) = false).
  { unfold s; destruct (xlt hi0 lo0) eqn:Q; cbn [fst snd]; (split; [|split; assumption]); [now apply xlt_asym|exact Q]. }
  clear N1 N2. destruct s as [lo hi]. cbn [fst snd] in O. destruct O as (O & N1 & N2).
  destruct (isclose lo hi) eqn:Q; [discriminate|]. intros E. injection E as <-. cbn [lp_value lp_min lp_max]. split; [reflexivity|]. split; [reflexivity|].
  destruct lo as [lo| | |], hi as [hi| | |]; cbn in O, Q, N1, N2 |- *; try discriminate.
  - apply Rltb_false in O. destruct (Rltb hi v) eqn:A; [apply Rltb_true in A|apply Rltb_false in A].
    + assert (B : Rltb hi lo = false) by (apply Rltb_false; lra). rewrite B. repeat split; intros H; try discriminate. apply Rltb_true in H. lra.
    + destruct (Rltb v lo) eqn:B; repeat split; intros; try discriminate; reflexivity.
  - destruct (Rltb v lo) eqn:B; repeat split; intros; try discriminate; reflexivity.
  - destruct (Rltb hi v) eqn:B; repeat split; intros; try discriminate; reflexivity.
  - repeat split; intros; try discriminate; reflexivity.
Qed.

(** *** Tightest bounds *)
Lemma xlt_trans_ge a b c : is_nan b = false -> xlt a b = false -> xlt b c = false -> xlt a c = false.
Proof.
  destruct a, b, c; cbn; try reflexivity; try discriminate. intros _ H K. apply Rltb_false in H, K. apply Rltb_false. lra.
Qed.
Lemma xmax_nan a b : is_nan a = false -> is_nan b = false -> is_nan (xmax a b) = false.
Proof. unfold xmax. now destruct (xlt a b). Qed.
Lemma xmin_nan a b : is_nan a = false -> is_nan b = false -> is_nan (xmin a b) = false.
Proof. unfold xmin. now destruct (xlt b a). Qed.
Definition nn (b : xr * xr) : Prop := is_nan (fst b) = false /\ is_nan (snd b) = false.
Lemma fold_tightest q r : (q < 20)%nat -> forall b, length b = 20%nat -> Forall (fun x => length x = 20%nat /\ nn (nth q x (NaN, NaN))) r -> nn (nth q b (NaN, NaN)) ->
  let d := nth q (fold_left (map2 (fun x y : xr * xr => (xmax (fst x) (fst y), xmin (snd x) (snd y)))) r b) (NaN, NaN) in
  nn d /\
  (exists x, In x (b :: r) /\ fst d = fst (nth q x (NaN, NaN))) /\ (forall x, In x (b :: r) -> xlt (fst d) (fst (nth q x (NaN, NaN))) = false) /\
  (exists x, In x (b :: r) /\ snd d = snd (nth q x (NaN, NaN))) /\ (forall x, In x (b :: r) -> xlt (snd (nth q x (NaN, NaN))) (snd d) = false).
Proof.
  intros Lq. induction r as [|x r IH]; intros b Lb F Nb; cbv zeta in *.
  - cbn [fold_left]. split; [exact Nb|]. repeat split; try (exists b; split; [now left|reflexivity]); intros x [<-|[]]; apply xlt_irrefl.
  - inversion_clear F as [|? ? [Lx Nx] F']. cbn [fold_left]. set (b' := map2 _ b x).
    assert (Eb : nth q b' (NaN, NaN) = (xmax (fst (nth q b (NaN, NaN))) (fst (nth q x (NaN, NaN))), xmin (snd (nth q b (NaN, NaN))) (snd (nth q x (NaN, NaN))))).
    { unfold b'. apply (map2_nth (fun x y : xr * xr => (xmax (fst x) (fst y), xmin (snd x) (snd y)))); lia. }
    assert (Nb' : nn (nth q b' (NaN, NaN))) by (rewrite Eb; split; cbn [fst snd]; [apply xmax_nan|apply xmin_nan]; apply Nb || apply Nx).
    assert (Lb' : length b' = 20%nat) by (unfold b'; rewrite map2_len; lia).
    destruct (IH b' Lb' F' Nb') as (N & (y1 & I1 & E1) & M1 & (y2 & I2 & E2) & M2). set (d := nth q (fold_left _ r b') _) in *. split; [exact N|].
    assert (G1 : xlt (fst d) (fst (nth q b' (NaN, NaN))) = false) by (apply M1; now left). assert (G2 : xlt (snd (nth q b' (NaN, NaN))) (snd d) = false) by (apply M2; now left).
    destruct Nb as [Nb1 Nb2], Nx as [Nx1 Nx2], Nb' as [Nb1' Nb2'].
    split; [|split; [|split]].
    + destruct I1 as [<-|I1]; [|exists y1; split; [now do 2 right|exact E1]]. rewrite E1, Eb. cbn [fst]. unfold xmax. destruct (xlt (fst (nth q b (NaN, NaN))) (fst (nth q x (NaN, NaN)))); [exists x|exists b]; (split; [cbn; auto|reflexivity]).
    + assert (A : xlt (fst (nth q b' (NaN, NaN))) (fst (nth q b (NaN, NaN))) = false /\ xlt (fst (nth q b' (NaN, NaN))) (fst (nth q x (NaN, NaN))) = false).
      { rewrite Eb. cbn [fst]. unfold xmax. destruct (xlt (fst (nth q b (NaN, NaN))) (fst (nth q x (NaN, NaN)))) eqn:Q; [split; [now apply xlt_asym|apply xlt_irrefl]|split; [apply xlt_irrefl|exact Q]]. }
      intros y [<-|[<-|I]]; [apply (xlt_trans_ge _ _ _ Nb1' G1), A|apply (xlt_trans_ge _ _ _ Nb1' G1), A|apply M1; now right].
    + destruct I2 as [<-|I2]; [|exists y2; split; [now do 2 right|exact E2]]. rewrite E2, Eb. cbn [snd]. unfold xmin. destruct (xlt (snd (nth q x (NaN, NaN))) (snd (nth q b (NaN, NaN)))); [exists x|exists b]; (split; [cbn; auto|reflexivity]).
    + assert (A : xlt (snd (nth q b (NaN, NaN))) (snd (nth q b' (NaN, NaN))) = false /\ xlt (snd (nth q x (NaN, NaN))) (snd (nth q b' (NaN, NaN))) = false).
      { rewrite Eb. cbn [snd]. unfold xmin. destruct (xlt (snd (nth q x (NaN, NaN))) (snd (nth q b (NaN, NaN)))) eqn:Q; [split; [now apply xlt_asym|apply xlt_irrefl]|split; [apply xlt_irrefl|exact Q]]. }
      intros y [<-|[<-|I]]; [apply (xlt_trans_ge _ _ _ Nb2'); [apply A|exact G2]|apply (xlt_trans_ge _ _ _ Nb2'); [apply A|exact G2]|apply M2; now right].
Qed.

(** *** The parts of a constructed model *)
Section Built.
Variables (h : heap) (cams : list nat) (controls : list control) (cp : option (list (list (attr * pval)))) (gi : option (list (list nat)))
  (gp : option (list (list (attr * pval)))) (w : option (list R)) (m : model) (d : list (string * lpar)).
Hypothesis B : new_cameras h cams controls cp gi gp w = Ok (m, d).
Hypothesis W : forall o, In o cams -> length (h o) = 20%nat.
Let G := or_all (length cams) gi.
Let CP := or_empty (length cams) cp.
Let GP := or_empty (length G) gp.
Lemma built_parts : exists cs gb cb,
  mapM (fun po => parse_params (fst po) (Some (camera_bounds (h (snd po))))) (combine CP cams) = Ok cs /\ cams <> [] /\ length cs = length cams /\ (length cams <= length CP)%nat /\
  m = mk_model cams (prune_controls controls cams) G (m_group_masks m) (map fst cs) (option_map normalize_weights w) (map h cams) /\
  d = concat gb ++ concat cb /\ length (m_group_masks m) = length G /\ length gb = length G /\ length cb = length cams /\
  (forall k idx, nth_error G k = Some idx -> exists mask block, nth_error (m_group_masks m) k = Some mask /\ nth_error gb k = Some block /\
     group_made cams h (map snd cs) GP k idx mask block) /\
  (forall j o, nth_error cams j = Some o -> exists mask bounds ps, nth_error cs j = Some (mask, bounds) /\ pars (mget mask (h o)) (mget mask bounds) = Ok ps /\
     nth_error cb j = Some (combine (cam_labels j mask) ps)) /\
  Forall (fun c => length (fst c) = 20%nat /\ length (snd c) = 20%nat) cs /\
  test_model h m CP GP = Ok tt /\ G <> [].
Proof.
  assert (GG : G <> [] /\ new_cameras h cams controls cp gi gp w = (let* u := update_params cams h CP G GP in
      let '(cam_masks, group_masks, d) := u in
      let m := mk_model cams (prune_controls controls cams) G group_masks cam_masks (option_map normalize_weights w) (map h cams) in
      let* _ := test_model h m CP GP in Ok (m, d))).
  { unfold G, CP, GP, or_all, or_empty, new_cameras in *. destruct gi as [[|g r]|]; [discriminate B| |]; (split; [discriminate|]); destruct cp, gp; reflexivity. }
  destruct GG as [NG E]. rewrite B in E. symmetry in E. unfold update_params in E.
  destruct (mapM (fun po => parse_params (fst po) (Some (camera_bounds (h (snd po))))) (combine CP cams)) as [cs|] eqn:E1; [|discriminate]. cbn [bind] in E.
  assert (Fc : Forall (fun c => length (fst c) = 20%nat /\ length (snd c) = 20%nat) cs).
  { rewrite Forall_forall. intros c I. apply In_nth_error in I as [k K]. pose proof (mapM_ok_length _ _ _ E1) as L. assert (Lk : (k < length (combine CP cams))%nat) by (rewrite <- L; apply nth_error_Some; congruence).
    destruct (nth_error (combine CP cams) k) as [po|] eqn:Kp; [|apply nth_error_None in Kp; lia]. destruct (mapM_ok_nth _ _ _ E1 k po Kp) as (y & Y & Z). assert (y = c) by congruence. subst y. destruct c as [mk bo].
    destruct (parse_ok (fst po) (camera_bounds (h (snd po))) mk bo) as (_ & A1 & A2 & _); [reflexivity|exact Y|auto]. }
  destruct cs as [|c0 cs0] eqn:Ecs; [discriminate|]. rewrite <- Ecs in *. cbn [bind] in E.
  destruct (group_loop cams h (map snd cs) GP 0 G []) as [[gm d1]|] eqn:E2; [|discriminate]. cbn [bind fst snd] in E.
  destruct (cam_loop h cs 0 cams d1) as [d2|] eqn:E3; [|discriminate]. cbn [bind fst snd] in E.
  set (m' := mk_model _ _ _ _ _ _ _) in E. destruct (test_model h m' CP GP) as [[]|] eqn:E4; [|discriminate]. cbn [bind] in E. injection E as Em Ed. subst d2. 
  destruct (group_loop_spec cams h (map snd cs) GP) with (groups := G) (g := 0%nat) (d := @nil (string * lpar)) (masks := gm) (d' := d1) as (gb & Egb & Lgm & Lgb & Hg); [|intros l k mask []|exact E2|].
  { rewrite Forall_forall in Fc |- *. intros b I. apply in_map_iff in I as (c & <- & I). now apply Fc. }
  cbn [app] in Egb.
  destruct (cam_loop_spec h cs Fc cams 0 d1 d W) as (cb & Ecb & Lcb & Hc); [|exact E3|].
  { intros l k mask I _ C. subst d1. rewrite concat_map in I. apply in_concat in I as (x & I & Ix). apply in_map_iff in I as (b & <- & I). apply In_nth_error in I as [i Ki].
    destruct (nth_error G i) as [idx|] eqn:Gi; [|apply nth_error_None in Gi; assert (i < length gb)%nat by (apply nth_error_Some; congruence); lia].
    destruct (Hg i idx Gi) as (mk & bl & _ & Bl & GM). assert (bl = b) by congruence. subst bl. apply (group_made_keys _ _ _ _ _ _ _ _ l GM) in Ix. apply (cam_group_disjoint _ _ _ _ _ C Ix). }
  assert (Lcs : length cs = Nat.min (length CP) (length cams)) by (rewrite (mapM_ok_length _ _ _ E1), combine_length; reflexivity).
  assert (Lcs' : (length cams <= length cs)%nat).
  { destruct (Nat.le_gt_cases (length cams) (length cs)) as [L|L]; [exact L|]. exfalso. destruct (nth_error cams (length cs)) as [o|] eqn:K; [|apply nth_error_None in K; lia].
    destruct (Hc _ _ K) as (mk & bo & ps & N & _). cbn in N. assert (length cs < length cs)%nat by (apply nth_error_Some; congruence). lia. }
  exists cs, gb, cb. subst m. cbn [m_group_masks m']. split; [reflexivity|].
  split. { intros ->. cbn in Lcs. rewrite Nat.min_0_r in Lcs. rewrite Ecs in Lcs. discriminate. }
  split; [lia|]. split; [lia|]. split; [reflexivity|]. split; [congruence|]. split; [exact Lgm|]. split; [exact Lgb|]. split; [exact Lcb|]. split; [exact Hg|]. split; [exact Hc|]. split; [exact Fc|]. split; [exact E4|exact NG].
Qed.
Lemma built_consistent : NoDup cams -> consistent m h /\ m_cams m = cams /\ m_group_indices m = G /\ m_vectors m = map h cams /\ m_controls m = prune_controls controls cams.
Proof.
  intros N. destruct built_parts as (cs & gb & cb & E1 & NC & Lcs & LCP & Em & Ed & Lgm & Lgb & Lcb & Hg & Hc & Fc & T & NG).
  assert (O : overlap_test m = Ok tt).
  { unfold test_model in T. destruct (length (m_controls m) =? 0)%nat; [discriminate|]. destruct (existsb _ (combine _ _)); [discriminate|]. destruct (overlap_test m) as [[]|]; [reflexivity|discriminate]. }
  split; [|rewrite Em; auto]. unfold consistent.
  assert (M : m_cams m = cams /\ m_group_indices m = G /\ m_cam_masks m = map fst cs) by (rewrite Em; auto). destruct M as (M1 & M2 & M3). rewrite M1, M2, M3.
  split; [exact N|]. split; [exact W|]. split; [rewrite map_length; exact Lcs|]. split; [exact Lgm|]. split; [|split; [|split]].
  - rewrite Forall_forall in Fc |- *. intros k I. apply in_map_iff in I as (c & <- & I). now apply Fc.
  - rewrite Forall_forall. intros mk I. apply In_nth_error in I as [k K]. destruct (nth_error G k) as [idx|] eqn:Gk; [|apply nth_error_None in Gk; assert (k < length (m_group_masks m))%nat by (apply nth_error_Some; congruence); lia].
    destruct (Hg k idx Gk) as (mk' & bl & K' & _ & (bs & de & pa & bo & ps & A1 & A2 & A3 & A4 & _)). assert (mk' = mk) by congruence. subst mk'.
    destruct (parse_ok pa de mk bo) as (_ & L & _); [|exact A4|exact L]. apply (group_default_length bs de); [|exact A2]. rewrite Forall_forall. intros b I. apply In_nth_error in I as [n Nn].
    destruct (mapM_at _ _ _ A1) as (Lb & _ & H). assert (Ln : (n < length idx)%nat) by (rewrite <- Lb; apply nth_error_Some; congruence).
    destruct (nth_error idx n) as [i|] eqn:Ki; [|apply nth_error_None in Ki; lia]. rewrite (H n i Ki) in Nn. apply nth_error_In in Nn. apply in_map_iff in Nn as (c & <- & I). rewrite Forall_forall in Fc. now apply Fc.
  - rewrite Forall_forall. intros idx I. apply In_nth_error in I as [k K]. destruct (Hg k idx K) as (mk' & bl & K' & _ & (bs & de & pa & bo & ps & A1 & _)). destruct (mapM_at _ _ _ A1) as (_ & Fi & _).
    rewrite map_length, Lcs in Fi. exact Fi.
  - exact O.
Qed.
End Built.

(** *** Entries of the dictionary *)
Lemma block_nth {A} (blocks : list (list A)) (masks : list (list bool)) i q dflt : map (@length A) blocks = map count_true masks -> (i < length masks)%nat -> on (nth i masks []) q = true ->
  nth (total (firstn i masks) + rank (nth i masks []) q) (concat blocks) dflt = nth (rank (nth i masks []) q) (nth i blocks []) dflt.
Proof.
  intros L Li O. assert (Lb : length blocks = length masks) by (apply (f_equal (@length nat)) in L; now rewrite !map_length in L).
  assert (E : total (firstn i masks) = fold_right plus 0%nat (map (@length A) (firstn i blocks))) by (unfold total; rewrite <- !firstn_map, L; reflexivity). rewrite E. apply nth_concat; [lia|].
  assert (Q : length (nth i blocks []) = count_true (nth i masks [])).
  { pose proof (map_nth (@length A) blocks [] i) as Q1. pose proof (map_nth count_true masks [] i) as Q2. change (@length A []) with 0%nat in Q1. change (count_true []) with 0%nat in Q2. rewrite L in Q1. congruence. }
  rewrite Q. now apply rank_lt.
Qed.
Lemma total_le masks i : (i < length masks)%nat -> (total (firstn i masks) + count_true (nth i masks []) <= total masks)%nat.
Proof.
  intros L. pose proof (sum_firstn_S (map count_true masks) i) as Q. rewrite map_length in Q. specialize (Q L). pose proof (sum_firstn_le (map count_true masks) (S i)) as Q2.
  unfold total. rewrite <- firstn_map. replace (nth i (map count_true masks) 0%nat) with (count_true (nth i masks [])) in Q; [lia|]. change 0%nat with (count_true []). now rewrite map_nth.
Qed.
Lemma nth_combine_some {A B} (la : list A) (lb : list B) k a b : length la = length lb -> (k < length la)%nat -> nth_error (combine la lb) k = Some (nth k la a, nth k lb b).
Proof. intros L K. rewrite <- (combine_nth la lb k a b L). apply nth_error_nth'. rewrite combine_length. lia. Qed.
Lemma combine_error {A B} : forall (l : list A) (l' : list B) i, nth_error (combine l l') i = match nth_error l i, nth_error l' i with Some x, Some y => Some (x, y) | _, _ => None end.
Proof. induction l as [|x l IH]; intros [|y l'] [|i]; try reflexivity; cbn; [now destruct (nth_error l i)|apply IH]. Qed.
Lemma base_label a i : in_attr a i -> (place a i < 20)%nat /\ nth (place a i) base_labels ""%string = (attr_name a ++ str (Z.to_nat i))%string.
Proof.
  intros [L U]. assert (C : (i = 0 \/ i = 1 \/ i = 2 \/ i = 3 \/ i = 4 \/ i = 5)%Z) by (destruct a; cbn in U; lia). split.
  - unfold place. destruct a; cbn [first attr_len] in *; lia.
  - destruct a; cbn [attr_len] in U; repeat (destruct C as [C|C]); subst i; try (exfalso; lia); reflexivity.
Qed.
Lemma element_of q : (q < 20)%nat -> exists a i, in_attr a i /\ place a i = q.
Proof.
  intros L. assert (D : exists a, (Z.to_nat (first a) <= q < Z.to_nat (first a + attr_len a))%nat).
  { destruct (Nat.lt_ge_cases q 3); [exists Axyz; cbn; lia|]. destruct (Nat.lt_ge_cases q 6); [exists Aviewdir; cbn; lia|]. destruct (Nat.lt_ge_cases q 8); [exists Aimgsz; cbn; lia|].
    destruct (Nat.lt_ge_cases q 10); [exists Af; cbn; lia|]. destruct (Nat.lt_ge_cases q 12); [exists Ac; cbn; lia|]. destruct (Nat.lt_ge_cases q 18); [exists Ak; cbn; lia|]. exists Ap; cbn; lia. }
  destruct D as (a & D). exists a, (Z.of_nat q - first a)%Z. unfold in_attr, place. destruct a; cbn [first attr_len] in *; lia.
Qed.

Lemma NoDup_app {A} (a b : list A) : NoDup a -> NoDup b -> (forall x, In x a -> In x b -> False) -> NoDup (a ++ b).
Proof. induction 1 as [|x a N H IH]; intros Nb D; [exact Nb|]. cbn. constructor; [rewrite in_app_iff; intros [I|I]; [contradiction|apply (D x); [now left|exact I]]|apply IH; [exact Nb|intros y I J; apply (D y); [now right|exact J]]]. Qed.
Lemma NoDup_concat_disjoint {A} (ls : list (list A)) : (forall i, (i < length ls)%nat -> NoDup (nth i ls [])) ->
  (forall i j x, (i < length ls)%nat -> (j < length ls)%nat -> In x (nth i ls []) -> In x (nth j ls []) -> i = j) -> NoDup (concat ls).
Proof.
  induction ls as [|l ls IH]; intros N D; [constructor|]. cbn [concat]. apply NoDup_app.
  - apply (N 0%nat). cbn. lia.
  - apply IH; [intros i L; apply (N (S i)); cbn; lia|]. intros i j x Li Lj I J. assert (E : S i = S j) by (apply (D (S i) (S j) x); cbn; auto; lia). lia.
  - intros x I J. apply in_concat in J as (l' & Il & J). destruct (In_nth _ _ [] Il) as (j & Lj & <-). assert (E : 0%nat = S j) by (apply (D 0%nat (S j) x); cbn; auto; lia). discriminate.
Qed.
Lemma map_fst_combine {A B} (la : list A) (lb : list B) : length la = length lb -> map fst (combine la lb) = la.
Proof. revert lb. induction la as [|a la IH]; intros [|b lb] L; cbn in L; try lia; [reflexivity|]. cbn. now rewrite IH by lia. Qed.

Section Entries.
Variables (h : heap) (cams : list nat) (controls : list control) (cp : option (list (list (attr * pval)))) (gi : option (list (list nat)))
  (gp : option (list (list (attr * pval)))) (w : option (list R)) (m : model) (d : list (string * lpar)).
Hypothesis B : new_cameras h cams controls cp gi gp w = Ok (m, d).
Hypothesis W : forall o, In o cams -> length (h o) = 20%nat.
Let G := or_all (length cams) gi.
Let CP := or_empty (length cams) cp.
Let GP := or_empty (length G) gp.
Definition cam_parsed (j : nat) (bounds : list (xr * xr)) : Prop :=
  parse_params (nth j CP []) (Some (camera_bounds (h (nth j cams 0%nat)))) = Ok (nth j (m_cam_masks m) [], bounds).

Lemma entries : length d = n_params m /\ NoDup (map fst d) /\
  (forall j, (j < length cams)%nat -> exists bounds, cam_parsed j bounds /\
    forall q, (q < 20)%nat -> cam_on m j q = true -> exists p, nth_error d (cam_pos m j q) = Some (("cam" ++ str j ++ "_" ++ nth q base_labels "")%string, p) /\
      lmfit_parameter (nth q (h (nth j cams 0%nat)) 0) (nth q bounds (NaN, NaN)) = Ok p) /\
  (forall k, (k < length G)%nat -> exists cb default bounds, (forall j, In j (nth k G []) -> cam_parsed j (cb j)) /\
    length default = 20%nat /\ (forall q, (q < 20)%nat -> tightest (nth k G []) (fun j => nth q (cb j) (NaN, NaN)) (nth q default (NaN, NaN))) /\
    parse_params (nth k GP []) (Some default) = Ok (nth k (m_group_masks m) [], bounds) /\
    forall q, (q < 20)%nat -> group_on m k q = true -> exists p, nth_error d (group_pos m k q) = Some (("group" ++ str k ++ "_" ++ nth q base_labels "")%string, p) /\
      lmfit_parameter (sumR (map (fun j => nth q (h (nth j cams 0%nat)) 0) (nth k G [])) / INR (length (nth k G []))) (nth q bounds (NaN, NaN)) = Ok p).
Proof.
  destruct (built_parts h cams controls cp gi gp w m d B W) as (cs & gb & cb & E1 & NC & Lcs & LCP & Em & Ed & Lgm & Lgb & Lcb & Hg & Hc & Fc & T & NG). fold G CP GP in E1, LCP, Em, Lgm, Lgb, Hg, T, NG.
  assert (M : m_cams m = cams /\ m_group_indices m = G /\ m_cam_masks m = map fst cs) by (rewrite Em; auto). destruct M as (M1 & M2 & M3).
  assert (PC : forall j, (j < length cams)%nat -> exists mask bounds ps, nth_error cs j = Some (mask, bounds) /\ nth j (m_cam_masks m) [] = mask /\ cam_parsed j bounds /\
     length mask = 20%nat /\ length bounds = 20%nat /\ (forall q, (q < 20)%nat -> nn (nth q bounds (NaN, NaN))) /\
     pars (mget mask (h (nth j cams 0%nat))) (mget mask bounds) = Ok ps /\ nth j cb [] = combine (cam_labels j mask) ps /\ length ps = count_true mask).
  { intros j Lj. destruct (Hc j (nth j cams 0%nat)) as (mask & bounds & ps & N1 & N2 & N3); [now apply nth_error_nth'|]. exists mask, bounds, ps. split; [exact N1|].
    assert (E : nth j (m_cam_masks m) [] = mask) by (rewrite M3; apply nth_error_nth; now rewrite (map_nth_error fst _ _ N1)). split; [exact E|].
    destruct (mapM_ok_nth _ _ _ E1 j (nth j CP [], nth j cams 0%nat)) as (y & Y & Z); [rewrite combine_error, !(nth_error_nth' _ []), !(nth_error_nth' _ 0%nat) by lia; reflexivity|].
    assert (y = (mask, bounds)) by congruence. subst y. cbn [fst snd] in Y.
    destruct (parse_ok _ (camera_bounds (h (nth j cams 0%nat))) _ _ eq_refl Y) as (_ & L1 & L2 & NN).
    split; [unfold cam_parsed; rewrite E; exact Y|]. split; [exact L1|]. split; [exact L2|]. split; [exact NN|]. split; [exact N2|]. split; [now apply nth_error_nth|].
    assert (Lh : length (h (nth j cams 0%nat)) = 20%nat) by (apply W; now apply nth_In).
    rewrite (pars_length (mget mask (h (nth j cams 0%nat))) (mget mask bounds) ps); [apply mget_length; congruence|rewrite !mget_length; congruence|exact N2]. }
  assert (PG : forall k, (k < length G)%nat -> exists mask block, nth k (m_group_masks m) [] = mask /\ nth k gb [] = block /\ group_made cams h (map snd cs) GP k (nth k G []) mask block).
  { intros k Lk. destruct (Hg k (nth k G [])) as (mask & block & N1 & N2 & N3); [now apply nth_error_nth'|]. exists mask, block. split; [now apply nth_error_nth|]. split; [now apply nth_error_nth|exact N3]. }
  assert (LC : map (@length (string * lpar)) cb = map count_true (m_cam_masks m)).
  { apply nth_ext with (d := 0%nat) (d' := 0%nat); [rewrite !map_length, M3, map_length; lia|]. intros j Lj. rewrite map_length, Lcb in Lj.
    pose proof (map_nth (@length (string * lpar)) cb [] j) as Q1. pose proof (map_nth count_true (m_cam_masks m) [] j) as Q2. change (@length (string * lpar) []) with 0%nat in Q1. change (count_true []) with 0%nat in Q2. rewrite Q1, Q2. clear Q1 Q2. destruct (PC j Lj) as (mask & bounds & ps & _ & -> & _ & L1 & _ & _ & _ & -> & L2).
    rewrite combine_length, cam_labels_length, L2 by exact L1. lia. }
  assert (FB : forall bs idx, mapM (at_index (map snd cs)) idx = Ok bs -> Forall (fun x => length x = 20%nat) bs).
  { intros bs idx A1. rewrite Forall_forall. intros b I. apply In_nth_error in I as [n Nn]. destruct (mapM_at _ _ _ A1) as (Lb & _ & H). assert (Ln : (n < length idx)%nat) by (rewrite <- Lb; apply nth_error_Some; congruence).
    destruct (nth_error idx n) as [i|] eqn:Ki; [|apply nth_error_None in Ki; lia]. rewrite (H n i Ki) in Nn. apply nth_error_In in Nn. apply in_map_iff in Nn as (c & <- & I). rewrite Forall_forall in Fc. now apply Fc. }
  assert (LGm : forall k, (k < length G)%nat -> length (nth k gb []) = count_true (nth k (m_group_masks m) [])).
  { intros k Lk. destruct (PG k Lk) as (mask & block & -> & -> & (bs & de & pa & bo & ps & A1 & A2 & A3 & A4 & A5 & ->)). destruct (group_default_length _ _ (FB _ _ A1) A2) as [Ld _].
    destruct (parse_ok _ _ _ _ Ld A4) as (_ & L1 & L2 & _). rewrite combine_length, group_labels_length by exact L1. rewrite (pars_length (group_start cams h mask (nth k G [])) (mget mask bo) ps); [unfold group_start; rewrite mean_columns_length; lia|unfold group_start; rewrite mean_columns_length, mget_length; congruence|exact A5]. }
  assert (LG : map (@length (string * lpar)) gb = map count_true (m_group_masks m)).
  { apply nth_ext with (d := 0%nat) (d' := 0%nat); [rewrite !map_length; lia|]. intros k Lk. rewrite map_length, Lgb in Lk.
    pose proof (map_nth (@length (string * lpar)) gb [] k) as Q1. pose proof (map_nth count_true (m_group_masks m) [] k) as Q2. change (@length (string * lpar) []) with 0%nat in Q1. change (count_true []) with 0%nat in Q2. rewrite Q1, Q2. clear Q1 Q2. now apply LGm. }
  assert (Lc1 : length (concat gb) = total (m_group_masks m)) by (rewrite length_concat_sum, LG; reflexivity).
  assert (Lc2 : length (concat cb) = total (m_cam_masks m)) by (rewrite length_concat_sum, LC; reflexivity).
  split; [rewrite Ed, app_length, Lc1, Lc2; reflexivity|]. split; [|split].
  - rewrite Ed, map_app, !concat_map.
    assert (KG : forall k, (k < length G)%nat -> map fst (nth k gb []) = group_labels k (nth k (m_group_masks m) [])).
    { intros k Lk. pose proof (LGm k Lk) as Lb. destruct (PG k Lk) as (mask & block & Em' & Eb & (bs & de & pa & bo & ps & A1 & A2 & A3 & A4 & A5 & A6)). rewrite Em' in *. rewrite Eb, A6.
      destruct (group_default_length _ _ (FB _ _ A1) A2) as [Ld _]. destruct (parse_ok _ _ _ _ Ld A4) as (_ & L1 & L2 & _). apply map_fst_combine. rewrite group_labels_length by exact L1.
      rewrite (pars_length (group_start cams h mask (nth k G [])) (mget mask bo) ps); [unfold group_start; now rewrite mean_columns_length|unfold group_start; rewrite mean_columns_length, mget_length; congruence|exact A5]. }
    assert (KC : forall j, (j < length cams)%nat -> map fst (nth j cb []) = cam_labels j (nth j (m_cam_masks m) [])).
    { intros j Lj. destruct (PC j Lj) as (mask & bounds & ps & _ & -> & _ & L1 & _ & _ & _ & -> & L2). apply map_fst_combine. rewrite cam_labels_length; congruence. }
    assert (NG1 : forall k, nth k (map (map fst) gb) [] = map fst (nth k gb [])) by (intros k; change (@nil string) with (map (@fst string lpar) []); apply map_nth).
    assert (NC1 : forall k, nth k (map (map fst) cb) [] = map fst (nth k cb [])) by (intros k; change (@nil string) with (map (@fst string lpar) []); apply map_nth).
    apply NoDup_app.
    + apply NoDup_concat_disjoint; rewrite map_length, Lgb; [intros k Lk|intros k k' x Lk Lk']; rewrite !NG1, !KG by assumption; [apply group_labels_nodup|apply group_labels_disjoint].
    + apply NoDup_concat_disjoint; rewrite map_length, Lcb; [intros k Lk|intros k k' x Lk Lk']; rewrite !NC1, !KC by assumption; [apply cam_labels_nodup|apply cam_labels_disjoint].
    + intros x I J. apply in_concat in I as (l & Il & I). apply in_concat in J as (l' & Jl & J). destruct (In_nth _ _ [] Il) as (k & Lk & <-). destruct (In_nth _ _ [] Jl) as (j & Lj & <-).
      rewrite map_length in Lk, Lj. rewrite NG1, KG in I by lia. rewrite NC1, KC in J by lia. apply (cam_group_disjoint _ _ _ _ _ J I).
  - intros j Lj. destruct (PC j Lj) as (mask & bounds & ps & _ & Em' & Pa & L1 & L2 & NN & P1 & P2 & P3). exists bounds. split; [exact Pa|]. intros q Lq O. unfold cam_on in O.
    assert (Rk : (rank (nth j (m_cam_masks m) []) q < count_true (nth j (m_cam_masks m) []))%nat) by now apply rank_lt.
    assert (Lj' : (j < length (m_cam_masks m))%nat) by (rewrite M3, map_length; lia).
    assert (Lh : length (h (nth j cams 0%nat)) = 20%nat) by (apply W; now apply nth_In).
    exists (nth (rank mask q) ps (mk_lpar 0 NaN NaN)). rewrite Em' in O, Rk. split.
    + unfold cam_pos. rewrite Ed, <- Nat.add_assoc, nth_error_app2 by lia. rewrite Lc1. replace (total (m_group_masks m) + (total (firstn j (m_cam_masks m)) + rank (nth j (m_cam_masks m) []) q) - total (m_group_masks m))%nat with (total (firstn j (m_cam_masks m)) + rank (nth j (m_cam_masks m) []) q)%nat by lia.
      rewrite (nth_error_nth' _ (""%string, mk_lpar 0 NaN NaN)). 2:{ rewrite Lc2. pose proof (total_le (m_cam_masks m) j Lj'). rewrite Em' in *. lia. }
      rewrite block_nth; [|exact LC|exact Lj'|rewrite Em'; exact O]. rewrite P2, Em', combine_nth by (rewrite cam_labels_length; lia). f_equal. f_equal. unfold cam_labels.
      rewrite (nth_indep _ ""%string ((fun l => ("cam" ++ str j ++ "_" ++ l)%string) ""%string)) by (rewrite map_length, mget_length; [exact Rk|now rewrite L1]). rewrite (map_nth (fun l => ("cam" ++ str j ++ "_" ++ l)%string)). rewrite mget_nth; [reflexivity|now rewrite L1|exact O].
    + rewrite <- (pars_nth (mget mask (h (nth j cams 0%nat))) (mget mask bounds) ps (rank mask q) (mk_lpar 0 NaN NaN)); [|rewrite !mget_length; congruence|exact P1|rewrite mget_length; [exact Rk|congruence]]. rewrite !mget_nth; [reflexivity|congruence|exact O|congruence|exact O].
  - intros k Lk. destruct (PG k Lk) as (mask & block & Em' & Eb & (bs & de & pa & bo & ps & A1 & A2 & A3 & A4 & A5 & A6)). destruct (group_default_length _ _ (FB _ _ A1) A2) as [Ld Nb].
    destruct (parse_ok _ _ _ _ Ld A4) as (_ & L1 & L2 & NN). destruct (mapM_at _ _ _ A1) as (Lbs & Fi & H).
    exists (fun j => snd (nth j cs ([], []))), de, bo. rewrite map_length, Lcs in Fi. rewrite Forall_forall in Fi.
    assert (PCb : forall j, In j (nth k G []) -> cam_parsed j (snd (nth j cs ([], []))) /\ forall q, (q < 20)%nat -> nn (nth q (snd (nth j cs ([], []))) (NaN, NaN))).
    { intros j I. destruct (PC j (Fi j I)) as (mk & bd & ps' & N & _ & Pa & _ & _ & NN' & _). rewrite (nth_error_nth _ _ _ N). cbn [snd]. auto. }
    split; [intros j I; now apply PCb|]. split; [exact Ld|]. split; [|split].
    + intros q Lq. destruct bs as [|b0 r]; [contradiction|]. cbn [group_default] in A2. injection A2 as A2.
      assert (FN : Forall (fun x => length x = 20%nat /\ nn (nth q x (NaN, NaN))) (b0 :: r)).
      { rewrite Forall_forall. intros x I. apply In_nth_error in I as [n Nn]. assert (Ln : (n < length (nth k G []))%nat) by (rewrite <- Lbs; apply nth_error_Some; congruence).
        destruct (nth_error (nth k G []) n) as [i|] eqn:Ki; [|apply nth_error_None in Ki; lia]. rewrite (H n i Ki) in Nn. pose proof (nth_error_In _ _ Ki) as Ii. destruct (PCb i Ii) as [_ NN'].
        assert (Ex : x = snd (nth i cs ([], []))). { destruct (nth_error cs i) as [c|] eqn:Ci; [|rewrite nth_error_map, Ci in Nn; discriminate]. rewrite nth_error_map, Ci in Nn. injection Nn as <-. now rewrite (nth_error_nth _ _ _ Ci). }
        rewrite Ex. split; [|now apply NN']. rewrite Forall_forall in Fc. apply Fc. apply nth_In. rewrite Lcs. now apply Fi. }
      assert (IX : forall x, In x (b0 :: r) -> exists j, In j (nth k G []) /\ x = snd (nth j cs ([], []))).
      { intros x I. apply In_nth_error in I as [n Nn]. assert (Ln : (n < length (nth k G []))%nat) by (rewrite <- Lbs; apply nth_error_Some; congruence).
        destruct (nth_error (nth k G []) n) as [i|] eqn:Ki; [|apply nth_error_None in Ki; lia]. rewrite (H n i Ki) in Nn. exists i. split; [now apply nth_error_In in Ki|].
        destruct (nth_error cs i) as [c|] eqn:Ci; [|rewrite nth_error_map, Ci in Nn; discriminate]. rewrite nth_error_map, Ci in Nn. injection Nn as <-. now rewrite (nth_error_nth _ _ _ Ci). }
      assert (XI : forall j, In j (nth k G []) -> In (snd (nth j cs ([], []))) (b0 :: r)).
      { intros j I. apply In_nth_error in I as [n Nn]. pose proof (H n j Nn) as Hn. apply (nth_error_In _ n). rewrite Hn, nth_error_map. rewrite (nth_error_nth' cs ([], [])); [reflexivity|]. rewrite Lcs. apply Fi. now apply nth_error_In in Nn. }
      inversion_clear FN as [|? ? [Lb0 Nb0] FN']. destruct (fold_tightest q r Lq b0 Lb0 FN' Nb0) as (_ & (x1 & I1 & X1) & Y1 & (x2 & I2 & X2) & Y2). rewrite A2 in X1, Y1, X2, Y2.
      destruct (IX x1 I1) as (j1 & J1 & ->). destruct (IX x2 I2) as (j2 & J2 & ->). split; [now exists j1|]. split; [intros j I; now apply Y1, XI|]. split; [now exists j2|]. intros j I; now apply Y2, XI.
    + rewrite Em'. replace (nth k GP []) with pa by (symmetry; now apply nth_error_nth). exact A4.
    + intros q Lq O. unfold group_on in O. assert (Rk : (rank (nth k (m_group_masks m) []) q < count_true (nth k (m_group_masks m) []))%nat) by now apply rank_lt.
      assert (Lk' : (k < length (m_group_masks m))%nat) by lia. exists (nth (rank mask q) ps (mk_lpar 0 NaN NaN)). rewrite Em' in O, Rk.
      assert (Lps : length ps = count_true mask) by (rewrite (pars_length (group_start cams h mask (nth k G [])) (mget mask bo) ps); [unfold group_start; apply mean_columns_length|unfold group_start; rewrite mean_columns_length, mget_length; congruence|exact A5]).
      split.
      * unfold group_pos. pose proof (total_le (m_group_masks m) k Lk') as TL. rewrite Em' in TL. rewrite Ed, nth_error_app1 by (rewrite Lc1, Em'; lia).
        rewrite (nth_error_nth' _ (""%string, mk_lpar 0 NaN NaN)) by (rewrite Lc1, Em'; lia).
        rewrite block_nth; [|exact LG|exact Lk'|rewrite Em'; exact O]. rewrite Eb, A6, Em', combine_nth by (rewrite group_labels_length; lia). f_equal. f_equal. unfold group_labels.
        rewrite (nth_indep _ ""%string ((fun l => ("group" ++ str k ++ "_" ++ l)%string) ""%string)) by (rewrite map_length, mget_length; [exact Rk|now rewrite L1]). rewrite (map_nth (fun l => ("group" ++ str k ++ "_" ++ l)%string)). rewrite mget_nth; [reflexivity|now rewrite L1|exact O].
      * rewrite <- (pars_nth (group_start cams h mask (nth k G [])) (mget mask bo) ps (rank mask q) (mk_lpar 0 NaN NaN)); [|unfold group_start; rewrite mean_columns_length, mget_length; congruence|exact A5|unfold group_start; rewrite mean_columns_length; exact Rk].
        unfold group_start. rewrite mean_columns_nth by exact Rk. rewrite mget_nth by congruence. f_equal. rewrite !map_length. f_equal. f_equal. rewrite map_map. apply map_ext_in. intros j I. symmetry. apply mget_nth; [|exact O]. rewrite W; [exact L1|]. apply nth_In. now apply Fi.
Qed.
End Entries.

(** ** C85: constructed models *)
(** every model accepted by the constructor for distinct cameras has the consistency assumed in C51 and C66; it keeps the controls of its cameras, and
    saves the camera vectors *)
Theorem constructed_consistent : forall h cams controls cp gi gp w m d, new_cameras h cams controls cp gi gp w = Ok (m, d) ->
  NoDup cams -> (forall o, In o cams -> length (h o) = 20%nat) ->
  consistent m h /\ m_cams m = cams /\ m_group_indices m = or_all (length cams) gi /\ m_vectors m = map h cams /\
  (forall c, In c (m_controls m) <-> In c controls /\ exists o, In o (ct_cams c) /\ In o cams).
Proof.
  intros h cams controls cp gi gp w m d B N W. destruct (built_consistent h cams controls cp gi gp w m d B W N) as (C & E1 & E2 & E3 & E4). repeat (split; [assumption|]).
  intros c. rewrite E4. unfold prune_controls. rewrite filter_In, existsb_exists. split; intros [I H]; (split; [exact I|]).
  - destruct H as (o & Io & H). apply existsb_exists in H as (o' & I' & E). apply Nat.eqb_eq in E. subst o'. eauto.
  - destruct H as (o & Io & H). exists o. split; [exact Io|]. apply existsb_exists. exists o. split; [exact H|apply Nat.eqb_refl].
Qed.
Print Assumptions constructed_consistent.

(** the documented errors *)
Record acceptable (h : heap) (cams : list nat) (controls : list control) (G : list (list nat)) (CP GP : list (list (attr * pval))) (gm : list (list bool)) : Prop := {
  some_control : exists c o, In c controls /\ In o (ct_cams c) /\ In o cams;
  same_sizes : forall k idx p v, nth_error G k = Some idx -> nth_error GP k = Some p -> In (Af, v) p \/ In (Ac, v) p ->
    forall i j, In i idx -> In j idx -> imgsz_of h (nth i cams 0%nat) = imgsz_of h (nth j cams 0%nat);
  no_overlap : forall q, (q < 20)%nat -> let sel := filter (fun g => on (nth g gm []) q) (seq 0 (length gm)) in
    (1 < length sel)%nat -> NoDup (concat (map (fun g => nth g G []) sel));
  all_controlled : forall i, (i < length cams)%nat -> (nth i CP [] <> [] \/ exists k idx p, nth_error G k = Some idx /\ In i idx /\ nth_error GP k = Some p /\ p <> []) ->
    exists c, In c controls /\ In (nth i cams 0%nat) (ct_cams c) }.
Lemma has_key_spec a p : has_key a p = true <-> exists v, In (a, v) p.
Proof.
  unfold has_key. rewrite existsb_exists. split.
  - intros ([b v] & I & H). cbn [fst] in H. exists v. replace a with b; [exact I|]. destruct a, b; try discriminate; reflexivity.
  - intros (v & I). exists (a, v). split; [exact I|]. destruct a; reflexivity.
Qed.
Lemma prod_eq_dec_Z (a b : Z * Z) : a = b \/ a <> b.
Proof. destruct a as [a1 a2], b as [b1 b2]. destruct (Z.eq_dec a1 b1) as [->|]; [destruct (Z.eq_dec a2 b2) as [->|]|]; [left; reflexivity|right; congruence|right; congruence]. Qed.
Lemma sizes_spec h cams idx : sizes_differ h cams idx = false <-> forall i j, In i idx -> In j idx -> imgsz_of h (nth i cams 0%nat) = imgsz_of h (nth j cams 0%nat).
Proof.
  unfold sizes_differ. destruct idx as [|i0 idx]; [split; [intros _ i j []|reflexivity]|]. cbn [map]. set (s := imgsz_of h (nth i0 cams 0%nat)). rewrite <- not_true_iff_false, existsb_exists. split.
  - intros N. assert (A : forall i, In i (i0 :: idx) -> imgsz_of h (nth i cams 0%nat) = s).
    { intros i [<-|I]; [reflexivity|]. destruct (prod_eq_dec_Z (imgsz_of h (nth i cams 0%nat)) s) as [E|E]; [exact E|]. exfalso. apply N. exists (imgsz_of h (nth i cams 0%nat)). split; [apply in_map_iff; now exists i|].
      apply negb_true_iff, not_true_iff_false. intros C. apply andb_true_iff in C as [C1 C2]. apply Z.eqb_eq in C1, C2. apply E. destruct (imgsz_of h (nth i cams 0%nat)), s. cbn in *. congruence. }
    intros i j I J. now rewrite (A i I), (A j J).
  - intros A (t & I & H). apply in_map_iff in I as (i & <- & I). rewrite (A i i0) in H; [|now right|now left]. fold s in H. rewrite !Z.eqb_refl in H. discriminate.
Qed.

Lemma has_duplicates_spec l : has_duplicates l = false <-> NoDup l.
Proof.
  split; [apply has_duplicates_false|]. intros N. unfold has_duplicates. rewrite nodup_fixed_point by exact N. apply Nat.ltb_irrefl.
Qed.
Lemma combine_in {A B} (la : list A) (lb : list B) a b : In (a, b) (combine la lb) <-> exists k, nth_error la k = Some a /\ nth_error lb k = Some b.
Proof.
  split.
  - intros I. apply In_nth_error in I as [k K]. rewrite combine_error in K. exists k. destruct (nth_error la k), (nth_error lb k); try discriminate. injection K as -> ->. auto.
  - intros (k & Ka & Kb). apply (nth_error_In _ k). now rewrite combine_error, Ka, Kb.
Qed.
(** once the parameters are built, the constructor raises ValueError exactly in the documented cases: no control refers to the cameras, a group with 'f' or 'c'
    has images of different size, a camera is in several groups that select the same parameter (or repeatedly in one of these), or a camera with parameters is not in any control *)
Theorem constructor_accepts : forall h cams controls cp gi gp w cm gm d, let G := or_all (length cams) gi in
  let CP := or_empty (length cams) cp in let GP := or_empty (length G) gp in G <> [] ->
  update_params cams h CP G GP = Ok (cm, gm, d) ->
  (acceptable h cams controls G CP GP gm -> exists m, new_cameras h cams controls cp gi gp w = Ok (m, d)) /\
  (~ acceptable h cams controls G CP GP gm -> new_cameras h cams controls cp gi gp w = Err ValueError).
Proof.
  intros h cams controls cp gi gp w cm gm d G CP GP NG U. set (m := mk_model cams (prune_controls controls cams) G gm cm (option_map normalize_weights w) (map h cams)).
  assert (E : new_cameras h cams controls cp gi gp w = (let* _ := test_model h m CP GP in Ok (m, d))).
  { assert (E : new_cameras h cams controls cp gi gp w = (let* u := update_params cams h CP G GP in
      let '(cam_masks, group_masks, d) := u in
      let m := mk_model cams (prune_controls controls cams) G group_masks cam_masks (option_map normalize_weights w) (map h cams) in
      let* _ := test_model h m CP GP in Ok (m, d))).
    { unfold G, CP, GP, or_all, or_empty, new_cameras in *. destruct gi as [[|g r]|]; [contradiction| |]; destruct cp, gp; reflexivity. }
    rewrite E, U. reflexivity. }
  assert (CI : forall c, In c (prune_controls controls cams) <-> In c controls /\ exists o, In o (ct_cams c) /\ In o cams).
  { intros c. unfold prune_controls. rewrite filter_In, existsb_exists. split; intros [I H]; (split; [exact I|]).
    - destruct H as (o & Io & H). apply existsb_exists in H as (o' & I' & Q). apply Nat.eqb_eq in Q. subst o'. eauto.
    - destruct H as (o & Io & H). exists o. split; [exact Io|]. apply existsb_exists. exists o. split; [exact H|apply Nat.eqb_refl]. }
  assert (T : (acceptable h cams controls G CP GP gm <-> test_model h m CP GP = Ok tt) /\ (test_model h m CP GP = Ok tt \/ test_model h m CP GP = Err ValueError)).
  { unfold test_model. cbn [m_controls m_cams m_group_indices m].
    destruct (length (prune_controls controls cams) =? 0)%nat eqn:T1.
    { split; [|now right]. split; [|discriminate]. intros A. exfalso. destruct (some_control _ _ _ _ _ _ _ A) as (c & o & I1 & I2 & I3). apply Nat.eqb_eq, length_zero_iff_nil in T1.
      assert (X : In c (prune_controls controls cams)) by (apply CI; eauto). rewrite T1 in X. destruct X. }
    destruct (existsb _ (combine G GP)) eqn:T2.
    { split; [|now right]. split; [|discriminate]. intros A. exfalso. apply existsb_exists in T2 as ([idx p] & I & H). cbn [fst snd] in H. apply combine_in in I as (k & K1 & K2). apply andb_true_iff in H as [H1 H2]. apply not_false_iff_true in H2. apply H2.
      apply sizes_spec. apply orb_true_iff in H1 as [H1|H1]; apply has_key_spec in H1 as [v V]; apply (same_sizes _ _ _ _ _ _ _ A k idx p v K1 K2); auto. }
    assert (S2 : forall k idx p v, nth_error G k = Some idx -> nth_error GP k = Some p -> In (Af, v) p \/ In (Ac, v) p ->
      forall i j, In i idx -> In j idx -> imgsz_of h (nth i cams 0%nat) = imgsz_of h (nth j cams 0%nat)).
    { intros k idx p v K1 K2 V. apply sizes_spec. apply not_true_iff_false. intros Q. apply not_true_iff_false in T2. apply T2. apply existsb_exists. exists (idx, p). split; [apply combine_in; eauto|]. cbn [fst snd]. apply andb_true_iff. split; [|exact Q].
      apply orb_true_iff. destruct V as [V|V]; [left|right]; apply has_key_spec; eauto. }
    unfold overlap_test. destruct (existsb _ (seq 0 20)) eqn:T3; cbn [bind].
    { split; [|now right]. split; [|discriminate]. intros A. exfalso. apply existsb_exists in T3 as (q & Iq & H). apply in_seq in Iq. apply andb_true_iff in H as [H1 H2]. apply Nat.ltb_lt in H1. apply not_false_iff_true in H2. apply H2. apply has_duplicates_spec.
      apply (no_overlap _ _ _ _ _ _ _ A q); [lia|exact H1]. }
    assert (S3 : forall q, (q < 20)%nat -> let sel := filter (fun g => on (nth g gm []) q) (seq 0 (length gm)) in (1 < length sel)%nat -> NoDup (concat (map (fun g => nth g G []) sel))).
    { intros q Lq sel L. apply has_duplicates_spec. apply not_true_iff_false. intros Q. apply not_true_iff_false in T3. apply T3. apply existsb_exists. exists q. split; [apply in_seq; lia|]. apply andb_true_iff. split; [apply Nat.ltb_lt; exact L|exact Q]. }
    destruct (existsb _ (seq 0 (length cams))) eqn:T4.
    { split; [|now right]. split; [|discriminate]. intros A. exfalso. apply existsb_exists in T4 as (i & Ii & H). apply in_seq in Ii. apply andb_true_iff in H as [H1 H2]. apply negb_true_iff, not_true_iff_false in H2. apply H2.
      destruct (all_controlled _ _ _ _ _ _ _ A i) as (c & Ic & Io); [lia| |].
      - apply orb_true_iff in H1 as [H1|H1]; [left; intros Z; rewrite Z in H1; discriminate|right]. apply existsb_exists in H1 as ([idx p] & I & H). cbn [fst snd] in H. apply combine_in in I as (k & K1 & K2). apply andb_true_iff in H as [H3 H4]. apply existsb_exists in H3 as (i' & I' & Q). apply Nat.eqb_eq in Q. subst i'.
        exists k, idx, p. repeat split; auto. intros ->. discriminate.
      - apply existsb_exists. exists c. split; [|apply existsb_exists; exists (nth i cams 0%nat); split; [exact Io|apply Nat.eqb_refl]]. apply CI. split; [exact Ic|]. exists (nth i cams 0%nat). split; [exact Io|apply nth_In; lia]. }
    split; [|now left]. split; [reflexivity|]. intros _. constructor; auto.
    - destruct (prune_controls controls cams) as [|c r] eqn:P; [discriminate|]. destruct (proj1 (CI c) ltac:(now left)) as (Ic & o & Io & Io'). eauto.
    - intros i Li H. apply not_true_iff_false in T4. destruct (existsb (fun c => existsb (Nat.eqb (nth i cams 0%nat)) (ct_cams c)) (prune_controls controls cams)) eqn:Q.
      + apply existsb_exists in Q as (c & Ic & Q). apply existsb_exists in Q as (o & Io & Q). apply Nat.eqb_eq in Q. subst o. exists c. split; [now apply CI in Ic|exact Io].
      + exfalso. apply T4. apply existsb_exists. exists i. split; [apply in_seq; lia|]. rewrite Q. rewrite andb_true_r. apply orb_true_iff. destruct H as [H|(k & idx & p & K1 & I & K2 & H)].
        * left. destruct (nth i CP []); [contradiction|reflexivity].
        * right. apply existsb_exists. exists (idx, p). split; [apply combine_in; eauto|]. cbn [fst snd]. apply andb_true_iff. split; [apply existsb_exists; exists i; split; [exact I|apply Nat.eqb_refl]|]. destruct p; [contradiction|reflexivity]. }
  destruct T as [T1 T2]. rewrite E. split; intros A.
  - apply T1 in A. rewrite A. exists m. reflexivity.
  - destruct T2 as [T2|T2]; [apply T1 in T2; contradiction|]. rewrite T2. reflexivity.
Qed.
Print Assumptions constructor_accepts.

(** ** C86: the parameters given to the optimiser *)
(** one entry per selected parameter, in the order of the parameter vector, named after camera or group and element.  An entry of a camera has the bounds of
    parse_params with the default bounds of the camera; one of a group those of parse_params with the tightest of its cameras' bounds as defaults.  It
    starts at the camera's value, or the mean over the group, moved into its bounds *)
Theorem params_entries : forall h cams controls cp gi gp w m d, new_cameras h cams controls cp gi gp w = Ok (m, d) ->
  (forall o, In o cams -> length (h o) = 20%nat) -> let G := or_all (length cams) gi in
  let cam_bounds j b := parse_params (nth j (or_empty (length cams) cp) []) (Some (camera_bounds (h (nth j cams 0%nat)))) = Ok (nth j (m_cam_masks m) [], b) in
  length d = n_params m /\ NoDup (map fst d) /\
  (forall j, (j < length cams)%nat -> exists bounds, cam_bounds j bounds /\
    forall a i, in_attr a i -> let q := place a i in cam_on m j q = true -> exists p,
      nth_error d (cam_pos m j q) = Some (("cam" ++ str j ++ "_" ++ attr_name a ++ str (Z.to_nat i))%string, p) /\
      started (nth q (h (nth j cams 0%nat)) 0) (nth q bounds (NaN, NaN)) p) /\
  (forall k, (k < length G)%nat -> exists cb default bounds, (forall j, In j (nth k G []) -> cam_bounds j (cb j)) /\
    length default = 20%nat /\ (forall q, (q < 20)%nat -> tightest (nth k G []) (fun j => nth q (cb j) (NaN, NaN)) (nth q default (NaN, NaN))) /\
    parse_params (nth k (or_empty (length G) gp) []) (Some default) = Ok (nth k (m_group_masks m) [], bounds) /\
    forall a i, in_attr a i -> let q := place a i in group_on m k q = true -> exists p,
      nth_error d (group_pos m k q) = Some (("group" ++ str k ++ "_" ++ attr_name a ++ str (Z.to_nat i))%string, p) /\
      started (sumR (map (fun j => nth q (h (nth j cams 0%nat)) 0) (nth k G [])) / INR (length (nth k G []))) (nth q bounds (NaN, NaN)) p).
Proof.
  intros h cams controls cp gi gp w m d B W G cam_bounds. destruct (entries h cams controls cp gi gp w m d B W) as (L & N & C & K). split; [exact L|]. split; [exact N|]. split.
  - intros j Lj. destruct (C j Lj) as (bounds & P & H). exists bounds. split; [exact P|]. intros a i Hi q O. destruct (base_label a i Hi) as [Lq Eq]. fold q in Lq, Eq. destruct (H q Lq O) as (p & N1 & N2). exists p. rewrite Eq in N1. split; [exact N1|].
    destruct (parse_ok _ (camera_bounds (h (nth j cams 0%nat))) _ _ eq_refl P) as (_ & _ & _ & NN). apply lmfit_started; [now apply NN|now apply NN|exact N2].
  - intros k Lk. destruct (K k Lk) as (cb & de & bounds & P1 & P2 & P3 & P4 & H). exists cb, de, bounds. split; [exact P1|]. split; [exact P2|]. split; [exact P3|]. split; [exact P4|]. intros a i Hi q O.
    destruct (base_label a i Hi) as [Lq Eq]. fold q in Lq, Eq. destruct (H q Lq O) as (p & N1 & N2). exists p. rewrite Eq in N1. split; [exact N1|].
    destruct (parse_ok _ _ _ _ P2 P4) as (_ & _ & _ & NN). apply lmfit_started; [now apply NN|now apply NN|exact N2].
Qed.
Print Assumptions params_entries.

(** the parameters start at the cameras' own state iff this is within all bounds *)
Theorem params_start_iff : forall h cams controls cp gi gp w m d, new_cameras h cams controls cp gi gp w = Ok (m, d) ->
  NoDup cams -> (forall o, In o cams -> length (h o) = 20%nat) ->
  (map (fun e => lp_value (snd e)) d = initial_params m h <->
   forall n l p, nth_error d n = Some (l, p) -> let v := nth n (initial_params m h) 0 in xlt (Fin v) (lp_min p) = false /\ xlt (lp_max p) (Fin v) = false).
Proof.
  intros h cams controls cp gi gp w m d B N W. destruct (built_consistent h cams controls cp gi gp w m d B W N) as (C & E1 & E2 & E3 & E4).
  destruct (entries h cams controls cp gi gp w m d B W) as (L & _ & HC & HG). set (G := or_all (length cams) gi) in *.
  assert (W' : forall o, In o (m_cams m) -> length (h o) = 20%nat) by (rewrite E1; exact W).
  assert (X : forall n, (n < n_params m)%nat -> exists l p b, nth_error d n = Some (l, p) /\ is_nan (fst b) = false /\ is_nan (snd b) = false /\ lmfit_parameter (nth n (initial_params m h) 0) b = Ok p).
  { intros n Ln. destruct (param_position m h n C Ln) as [(k & q & Lk & Lq & O & ->)|(j & q & Lj & Lq & O & ->)].
    - assert (Lk' : (k < length G)%nat) by (destruct C as (_ & _ & _ & L2 & _); rewrite E2 in L2; fold G in L2; lia). destruct (HG k Lk') as (cb & de & bounds & _ & P2 & _ & P4 & H). destruct (H q Lq O) as (p & N1 & N2).
      destruct (parse_ok _ _ _ _ P2 P4) as (_ & _ & _ & NN). eexists _, p, (nth q bounds (NaN, NaN)). split; [exact N1|]. split; [now apply NN|]. split; [now apply NN|].
      rewrite (initial_group m h C h W' k q Lk O), E1, E2. exact N2.
    - rewrite E1 in Lj. destruct (HC j Lj) as (bounds & P & H). destruct (H q Lq O) as (p & N1 & N2). destruct (parse_ok _ (camera_bounds (h (nth j cams 0%nat))) _ _ eq_refl P) as (_ & _ & _ & NN).
      eexists _, p, (nth q bounds (NaN, NaN)). split; [exact N1|]. split; [now apply NN|]. split; [now apply NN|]. rewrite (initial_cam m h C h W' j q); [|rewrite E1; exact Lj|exact O]. rewrite E1. exact N2. }
  assert (Li : length (initial_params m h) = n_params m) by (apply (initial_length m h C h W')).
  assert (Y : forall v b p, is_nan (fst b) = false -> is_nan (snd b) = false -> lmfit_parameter v b = Ok p -> (lp_value p = v <-> xlt (Fin v) (lp_min p) = false /\ xlt (lp_max p) (Fin v) = false)).
  { intros v b p N1 N2 E. pose proof (lmfit_started v b p N1 N2 E) as S. unfold started in S. destruct (if xlt (snd b) (fst b) then (snd b, fst b) else b) as [lo hi]. destruct S as (-> & -> & S1 & S2 & S3). split; [|intros [A1 A2]; now apply S1].
    intros Ev. split; apply not_true_iff_false; intros Q; [pose proof (S2 Q) as Z|pose proof (S3 Q) as Z]; rewrite Ev in Z; rewrite <- Z in Q; rewrite xlt_irrefl in Q; discriminate. }
  split.
  - intros E n l p K v. assert (Ln : (n < n_params m)%nat) by (rewrite <- L; apply nth_error_Some; congruence). destruct (X n Ln) as (l' & p' & b & K' & N1 & N2 & Q). assert (p' = p) by congruence. subst p'. apply (Y v b p N1 N2 Q).
    unfold v. rewrite <- E. apply (map_nth_error (fun e => lp_value (snd e))) in K. symmetry. exact (nth_error_nth _ _ _ K).
  - intros H. apply nth_ext with (d := 0) (d' := 0); [rewrite map_length, Li; exact L|]. intros n Ln. rewrite map_length, L in Ln. destruct (X n Ln) as (l & p & b & K & N1 & N2 & Q). pose proof (H n l p K) as HH. apply (Y _ _ _ N1 N2 Q) in HH.
    rewrite <- HH at 1. apply (map_nth_error (fun e => lp_value (snd e))) in K. exact (nth_error_nth _ _ _ K).
Qed.
Print Assumptions params_start_iff.

(** ** A case: one camera (f = 4000, k1 = 2), one control; k1 and f[0] are optimised *)
Definition cam1 : list R := [0; 0; 0; 0; 0; 0; 100; 100; 4000; 4000; 0; 0; 2; 0; 0; 0; 0; 0; 0; 0].
Definition one_cam : heap := fun _ => cam1.
Lemma rtrunc100 : Rtrunc 100 = 100%Z.
Proof. unfold Rtrunc. destruct (Rltb 100 0) eqn:Q; [apply Rltb_true in Q; lra|]. apply Rfloor_imp. cbn. lra. Qed.
Definition one_params := [[(Ak, PSel (SInt 0)); (Af, PSel (SInt 0))]].
Definition one_dict := [("cam0_f0"%string, mk_lpar 4000 (Fin 0) PInf); ("cam0_k0"%string, mk_lpar 1 (Fin (-1)) (Fin 1))].
Lemma one_built : exists m, new_cameras one_cam [0%nat] [reads 0] (Some one_params) None None None = Ok (m, one_dict).
Proof.
  unfold one_params, one_dict. destruct (constructor_accepts one_cam [0%nat] [reads 0] (Some [[(Ak, PSel (SInt 0)); (Af, PSel (SInt 0))]]) None None None
    [ones [8; 12]%nat] [ones []] [("cam0_f0"%string, mk_lpar 4000 (Fin 0) PInf); ("cam0_k0"%string, mk_lpar 1 (Fin (-1)) (Fin 1))]) as [A _].
  - discriminate.
  - unfold update_params. cbn [or_empty or_all length repeat combine mapM fst snd].
    set (b := camera_bounds (one_cam 0%nat)).
    assert (Eb : b = repeat (NInf, PInf) 6 ++ repeat (Fin 0, PInf) 4 ++ [(Fin (-50), Fin 50); (Fin (-50), Fin 50)] ++ [(Fin (-1), Fin 1); (Fin (- / 2), Fin (/ 2)); (Fin (- / 2), Fin (/ 2)); (Fin (-1), Fin 1); (Fin (-1), Fin 1); (Fin (-1), Fin 1)] ++ [(Fin (- / 10), Fin (/ 10)); (Fin (- / 10), Fin (/ 10))]).
    { unfold b, camera_bounds, one_cam. change (nth 8 cam1 0) with 4000. change (nth 9 cam1 0) with 4000. change (nth 6 cam1 0) with 100. change (nth 7 cam1 0) with 100. rewrite rtrunc100.
      repeat (match goal with |- context [Fin ?x] => progress (try replace x with 50 by lra; try replace x with (-50) by lra; try replace x with 1 by lra; try replace x with (-1) by lra; try replace x with (/ 2) by lra; try replace x with (- / 2) by lra; try replace x with (/ 10) by lra; try replace x with (- / 10) by lra) end).
      repeat f_equal; lra. }
    rewrite Eb. clear b Eb. cbn [app repeat]. set (D := [_; _; _; _; _; _; _; _; _; _; _; _; _; _; _; _; _; _; _; _]).
    assert (P1 : parse_params [(Ak, PSel (SInt 0)); (Af, PSel (SInt 0))] (Some D) = Ok (ones [8; 12]%nat, D)) by reflexivity.
    assert (P2 : parse_params [] (Some D) = Ok (ones [], D)) by reflexivity.
    rewrite P1. cbn [bind map snd fst seq group_loop mapM at_index nth_error group_default fold_left]. rewrite P2. cbn [bind fst snd].
    change (add_all (group_labels 0 (ones [])) _ _ _) with (@Ok (list (string * lpar)) []). cbn [bind fst snd cam_loop at_index nth_error].
    change (mget (ones [8; 12]%nat) (one_cam 0%nat)) with [4000; 2]. change (mget (ones [8; 12]%nat) D) with [(Fin 0, PInf); (Fin (-1), Fin 1)]. change (cam_labels 0 (ones [8; 12]%nat)) with ["cam0_f0"; "cam0_k0"]%string.
    cbn [add_all].
    assert (L1 : lmfit_parameter 4000 (Fin 0, PInf) = Ok (mk_lpar 4000 (Fin 0) PInf)).
    { unfold lmfit_parameter. cbn [fst snd xlt isclose clip_max clip_min]. destruct (Rltb 4000 0) eqn:Q; [apply Rltb_true in Q; lra|reflexivity]. }
    assert (L2 : lmfit_parameter 2 (Fin (-1), Fin 1) = Ok (mk_lpar 1 (Fin (-1)) (Fin 1))).
    { unfold lmfit_parameter. cbn [fst snd xlt]. destruct (Rltb 1 (-1)) eqn:Q; [apply Rltb_true in Q; lra|]. cbn [isclose]. destruct (Rleb _ _) eqn:Q2.
      - exfalso. apply Rleb_true in Q2. replace (-1 - 1) with (- (2)) in Q2 by ring. rewrite Rabs_Ropp, !Rabs_right in Q2 by lra. assert (X : 1 <= 10 ^ 13) by (apply pow_R1_Rle; lra).
        assert (Y : / 10 ^ 13 <= / 1) by (apply Rinv_le_contravar; lra). rewrite Rinv_1 in Y. assert (Z : / 10 ^ 13 < 1) by (rewrite <- Rinv_1; apply Rinv_lt_contravar; [lra|]; cbn; lra). lra.
      - cbn [clip_max clip_min]. destruct (Rltb 1 2) eqn:Q3; [|apply Rltb_false in Q3; lra]. rewrite Q. reflexivity. }
    rewrite L1, L2. reflexivity.
  - assert (Z : acceptable one_cam [0%nat] [reads 0] [[0%nat]] [[(Ak, PSel (SInt 0)); (Af, PSel (SInt 0))]] [[]] [ones []]).
    { constructor.
      - exists (reads 0), 0%nat. cbn. auto.
      - intros k idx p v K1 K2 V. destruct k as [|[|k]]; [|discriminate|discriminate]. cbn in K2. injection K2 as <-. destruct V as [[]|[]].
      - intros q Lq sel L. exfalso. cbn [length seq filter] in sel. unfold sel in L. destruct (on (nth 0 [ones []] []) q); cbn in L; lia.
      - intros i Li _. exists (reads 0). destruct i; [cbn; auto|cbn in Li; lia]. }
    apply A. exact Z.
Qed.

(** C86, refuted: the optimiser does not start from a camera whose parameters are beyond the default bounds (here k1 = 2 > f / 4000): setting the cameras to the initial
    parameters changes this camera *)
Theorem params_start_refuted : exists h cams controls cp m d h', new_cameras h cams controls cp None None None = Ok (m, d) /\
  NoDup cams /\ (forall o, In o cams -> length (h o) = 20%nat) /\ set_cameras m (map (fun e => lp_value (snd e)) d) h = (h', Ok tt) /\ h' 0%nat <> h 0%nat.
Proof.
  destruct one_built as [m E]. assert (N : NoDup [0%nat]) by (repeat constructor; intros []). assert (W : forall o, In o [0%nat] -> length (one_cam o) = 20%nat) by reflexivity.
  destruct (built_consistent _ _ _ _ _ _ _ _ _ E W N) as (C & E1 & E2 & _). destruct (entries _ _ _ _ _ _ _ _ _ E W) as (L & _ & HC & _).
  destruct (cameras_set m one_cam (map (fun e => lp_value (snd e)) one_dict) C) as (h' & S & V & _); [rewrite map_length; exact L|].
  exists one_cam, [0%nat], [reads 0], (Some one_params), m, one_dict, h'. repeat (split; [assumption|]).
  destruct (HC 0%nat) as (b & Pb & Hb); [cbn; lia|].
  assert (M : nth 0 (m_cam_masks m) [] = ones [8; 12]%nat).
  { unfold cam_parsed in Pb. cbn [or_empty nth] in Pb. unfold one_params in Pb. change (parse_params _ _) with (@Ok (list bool * list (xr * xr)) (ones [8; 12]%nat, camera_bounds cam1)) in Pb. injection Pb as P1 _. now symmetry. }
  assert (O : cam_on m 0 12 = true) by (unfold cam_on; rewrite M; reflexivity). destruct (Hb 12%nat ltac:(lia) O) as (p & K & _).
  assert (Gr : grouped m 0). { exists 0%nat, [0%nat]. rewrite E2. split; [reflexivity|now left]. }
  destruct (V 0%nat 12%nat) as (V1 & _); [rewrite E1; cbn; lia|lia|exact Gr|]. specialize (V1 O). rewrite E1 in V1. cbn [nth] in V1.
  destruct (cam_pos m 0 12) as [|[|n]]; [discriminate K| |destruct n; discriminate K]. cbn [one_dict map nth snd lp_value] in V1. intros Q. rewrite Q in V1. change (nth 12 (one_cam 0%nat) 0) with 2 in V1. lra.
Qed.
Print Assumptions params_start_refuted.
