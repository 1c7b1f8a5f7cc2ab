From Verif Require Import Base BaseLemmas HelpersModel GridModel TemplateModel TemplateSpec TemplateProofs.
Open Scope R_scope.

Lemma in_box1_pt x y a b c d : in_box1 [x; y] [a; b; c; d] = Ok (Rleb a x && Rleb x c && (Rleb b y && Rleb y d)).
Proof. unfold in_box1. cbn. now rewrite Bool.andb_true_r. Qed.
Lemma mapM_all_true {A} (f : A -> result bool) l : (forall x, In x l -> f x = Ok true) -> exists bs, mapM f l = Ok bs /\ forallb (fun b => b) bs = true.
Proof.
  induction l as [|x l IH]; intros H; [exists []; auto|]. cbn. rewrite (H x (or_introl eq_refl)). destruct IH as (bs & -> & F); [intros; apply H; now right|].
  exists (true :: bs). cbn. auto.
Qed.

(** the nodes of the SSE along one axis *)
Definition nodes (b0 : Z) (s : Z) (duv : R) (n : nat) : list R := map (fun i => IZR b0 + IZR s / 2 + duv + INR i) (seq 0 n).
Lemma sse_axis_nodes s duv b0 b1 n : (s <= b1 - b0)%Z -> n = Z.to_nat (b1 - b0 - s + 1) ->
  let b := sse_axis s duv (b0, b1) in
  (snd b - fst b) / INR n = 1 /\ arange (fst b + (snd b - fst b) / INR n * / 2) (snd b) = nodes b0 s duv n.
Proof.
  intros H N b. assert (Nn : INR n = IZR b1 - IZR b0 - IZR s + 1).
  { rewrite N, INR_IZR_INZ, Z2Nat.id by lia. rewrite plus_IZR, !minus_IZR. reflexivity. }
  assert (P : (0 < n)%nat) by lia. assert (P' : INR n <> 0) by (apply not_0_INR; lia).
  assert (E : snd b - fst b = INR n) by (unfold b, sse_axis; cbn [fst snd]; rewrite Nn; lra).
  assert (D : (snd b - fst b) / INR n = 1) by (rewrite E; field; exact P'). split; [exact D|]. rewrite D.
  replace (fst b + 1 * / 2) with (fst b + / 2) by lra. replace (snd b) with (fst b + INR n) by lra. rewrite arange_nodes by assumption.
  apply map_ext. intros i. unfold b, sse_axis. cbn [fst snd]. lra.
Qed.
Lemma nodes_nth b0 s duv n i : (i < n)%nat -> nth i (nodes b0 s duv n) 0 = IZR b0 + IZR s / 2 + duv + INR i.
Proof. intros H. unfold nodes. now rewrite nth_map_seq. Qed.
Lemma nodes_len b0 s duv n : length (nodes b0 s duv n) = n.
Proof. unfold nodes. now rewrite map_length, seq_length. Qed.

Lemma sse_axis_contains s k duv lo hi x b : lo <= hi -> (0 <= k)%Z -> Rabs duv <= / 2 -> lo <= x <= hi -> b = search_axis s k lo hi ->
  fst (sse_axis s duv b) <= x <= snd (sse_axis s duv b).
Proof.
  intros L K D X ->. destruct (search_axis_bounds s k lo hi L K) as (B1 & B2 & _). apply Rabs_def2' in D || (unfold Rabs in D; destruct (Rcase_abs duv));
  unfold sse_axis; cbn [fst snd]; pose proof (Rmax_l 0 (IZR k - (hi - lo))); lra.
Qed.

Lemma uvx_le uv : uv <> ([] : list pt2) -> min_of (map fst uv) <= max_of (map fst uv).
Proof. intros NE. apply min_le_max. destruct uv; [congruence|discriminate]. Qed.
Lemma uvy_le uv : uv <> ([] : list pt2) -> min_of (map snd uv) <= max_of (map snd uv).
Proof. intros NE. apply min_le_max. destruct uv; [congruence|discriminate]. Qed.
Section Likelihood.
Variables (spline : list R -> list R -> tile -> R -> R -> R) (nx ny kx ky : Z) (sigma : R) (t : template) (uv : list pt2) (extract : zbox -> result tile).
Hypothesis NE : uv <> [].
Hypothesis Kx : (0 <= kx)%Z.
Hypothesis Ky : (0 <= ky)%Z.
Hypothesis Du : Rabs (fst (t_duv t)) <= / 2.
Hypothesis Dv : Rabs (snd (t_duv t)) <= / 2.
Variables (w h : nat).
Hypothesis Hw : (0 < w)%nat.
Hypothesis Hh : (0 < h)%nat.
Hypothesis Sh : shaped (t_tile t) h w.
Hypothesis Sz : t_size t = (Z.of_nat w, Z.of_nat h).
Hypothesis Rd : reads_pixels nx ny extract.

Let box := search_box (t_size t) kx ky uv.
Let bx := search_axis (fst (t_size t)) ky (min_of (map fst uv)) (max_of (map fst uv)).
Let by_ := search_axis (snd (t_size t)) kx (min_of (map snd uv)) (max_of (map snd uv)).
Lemma box_eq : box = (fst bx, fst by_, snd bx, snd by_).
Proof. unfold box. rewrite search_box_eq. reflexivity. Qed.
Lemma box_wide : (Z.of_nat w + ky <= snd bx - fst bx /\ Z.of_nat h + kx <= snd by_ - fst by_)%Z.
Proof.
  destruct (search_axis_bounds (fst (t_size t)) ky _ _ (uvx_le uv NE) Ky) as (_ & _ & A). destruct (search_axis_bounds (snd (t_size t)) kx _ _ (uvy_le uv NE) Kx) as (_ & _ & B).
  fold bx in A. fold by_ in B. rewrite Sz in A, B. cbn [fst snd] in A, B. lia.
Qed.
Lemma inbounds_inside : box_inbounds nx ny box = true -> inside_image nx ny box.
Proof.
  rewrite box_eq. unfold box_inbounds, inside_image. rewrite !Bool.andb_true_iff, !Z.leb_le. pose proof box_wide. lia.
Qed.
Let ncol := Z.to_nat (snd bx - fst bx - Z.of_nat w + 1).
Let nrow := Z.to_nat (snd by_ - fst by_ - Z.of_nat h + 1).

Lemma likelihoods_eq : box_inbounds nx ny box = true -> exists search,
  extract box = Ok search /\ shaped search (Z.to_nat (box_h box)) (Z.to_nat (box_w box)) /\
  log_likelihoods spline nx ny kx ky sigma t uv extract
  = Ok (Some (map (fun q => spline (nodes (fst by_) (Z.of_nat h) (snd (t_duv t)) nrow) (nodes (fst bx) (Z.of_nat w) (fst (t_duv t)) ncol)
                              (match_template search (t_tile t)) (snd q) (fst q) * (1 / (2 * sigma ^ 2))) uv)) /\
  length (match_template search (t_tile t)) = nrow /\ length (hd [] (match_template search (t_tile t))) = ncol.
Proof.
  intros IB. destruct (Rd box (inbounds_inside IB)) as (search & E & S). exists search. split; [exact E|]. split; [exact S|].
  pose proof box_wide as W. rewrite box_eq in S. unfold box_h, box_w in S.
  destruct Sh as [Lt Ft]. assert (Wt : length (hd [] (t_tile t)) = w) by (apply (Forall_hd_len _ h); auto).
  assert (Ls : length search = Z.to_nat (snd by_ - fst by_)) by apply S.
  assert (Ws : length (hd [] search) = Z.to_nat (snd bx - fst bx)) by (apply (Forall_hd_len _ (Z.to_nat (snd by_ - fst by_))); auto; lia).
  destruct (match_template_shape search (t_tile t)) as [M1 M2]; [lia|]. rewrite Ls, Lt in M1. rewrite Ws, Wt in M2.
  assert (M1' : length (match_template search (t_tile t)) = nrow) by (unfold nrow; lia).
  assert (M2' : length (hd [] (match_template search (t_tile t))) = ncol) by (unfold ncol; lia).
  split; [|split; assumption]. unfold log_likelihoods. fold box. rewrite IB. cbn [negb]. rewrite E. cbn [bind]. rewrite box_eq. cbv beta iota.
  unfold sample_tile. rewrite M1', M2'. rewrite Sz. cbn [fst snd].
  set (ax := sse_axis (Z.of_nat w) (fst (t_duv t)) (fst bx, snd bx)). set (ay := sse_axis (Z.of_nat h) (snd (t_duv t)) (fst by_, snd by_)).
  destruct (mapM_all_true (fun q => in_box1 [fst q; snd q] [fst ax; fst ay; snd ax; snd ay]) uv) as (bs & -> & F).
  { intros q I. rewrite in_box1_pt. f_equal.
    assert (Ax : fst ax <= fst q <= snd ax).
    { unfold ax. replace (Z.of_nat w) with (fst (t_size t)) by (rewrite Sz; reflexivity). eapply sse_axis_contains; [exact (uvx_le uv NE)|exact Ky|exact Du| |rewrite <- surjective_pairing; reflexivity].
      split; [apply min_of_le|apply max_of_ge]; now apply in_map. }
    assert (Ay : fst ay <= snd q <= snd ay).
    { unfold ay. replace (Z.of_nat h) with (snd (t_size t)) by (rewrite Sz; reflexivity). eapply sse_axis_contains; [exact (uvy_le uv NE)|exact Kx|exact Dv| |rewrite <- surjective_pairing; reflexivity].
      split; [apply min_of_le|apply max_of_ge]; now apply in_map. }
    unfold Rleb. destruct (Rle_dec (fst ax) (fst q)), (Rle_dec (fst q) (snd ax)), (Rle_dec (fst ay) (snd q)), (Rle_dec (snd q) (snd ay)); try lra; reflexivity. }
  cbn [bind]. rewrite F. cbn [negb].
  destruct (sse_axis_nodes (Z.of_nat w) (fst (t_duv t)) (fst bx) (snd bx) ncol) as [_ Nx]; [lia|reflexivity|].
  destruct (sse_axis_nodes (Z.of_nat h) (snd (t_duv t)) (fst by_) (snd by_) nrow) as [_ Ny]; [lia|reflexivity|].
  fold ax in Nx. fold ay in Ny. cbv zeta in Nx, Ny. rewrite Nx, Ny, !nodes_len, !Nat.eqb_refl. cbn [andb negb].
  assert (K1 : (kx <? Z.of_nat nrow)%Z = true) by (apply Z.ltb_lt; unfold nrow; lia).
  assert (K2 : (ky <? Z.of_nat ncol)%Z = true) by (apply Z.ltb_lt; unfold ncol; lia).
  rewrite K1, K2. cbn [negb orb bind]. rewrite map_map. reflexivity.
Qed.
Lemma likelihoods_skip : box_inbounds nx ny box = false -> log_likelihoods spline nx ny kx ky sigma t uv extract = Ok None.
Proof. intros H. unfold log_likelihoods. fold box. rewrite H. reflexivity. Qed.

Hypothesis Sp : interpolates spline.
Lemma likelihood_aligned r c i : box_inbounds nx ny box = true -> (r < nrow)%nat -> (c < ncol)%nat -> (i < length uv)%nat ->
  nth i uv (0, 0) = (IZR (fst bx) + INR c + IZR (Z.of_nat w) / 2 + fst (t_duv t), IZR (fst by_) + INR r + IZR (Z.of_nat h) / 2 + snd (t_duv t)) ->
  exists search ls, extract box = Ok search /\ log_likelihoods spline nx ny kx ky sigma t uv extract = Ok (Some ls) /\
    nth i ls 0 = mean_sq_diff search (t_tile t) r c / (2 * sigma ^ 2).
Proof.
  intros IB R C I Q. destruct (likelihoods_eq IB) as (search & E & S & L & M1 & M2). exists search. eexists. split; [exact E|]. split; [exact L|].
  match goal with |- nth i (map ?g uv) 0 = _ => set (f := g) end. rewrite nth_indep with (d' := f (0, 0)) by (rewrite map_length; exact I). rewrite map_nth. unfold f. cbv beta. match goal with |- context [@nth ?A i uv ?d] => set (qq := @nth A i uv d) end. change (qq = (IZR (fst bx) + INR c + IZR (Z.of_nat w) / 2 + fst (t_duv t), IZR (fst by_) + INR r + IZR (Z.of_nat h) / 2 + snd (t_duv t))) in Q. clearbody qq. subst qq. cbn [fst snd].
  pose proof (Sp (nodes (fst by_) (Z.of_nat h) (snd (t_duv t)) nrow) (nodes (fst bx) (Z.of_nat w) (fst (t_duv t)) ncol) (match_template search (t_tile t)) r c) as P.
  rewrite !nodes_len in P. specialize (P R C). rewrite !nodes_nth in P by assumption.
  replace (IZR (fst by_) + INR r + IZR (Z.of_nat h) / 2 + snd (t_duv t)) with (IZR (fst by_) + IZR (Z.of_nat h) / 2 + snd (t_duv t) + INR r) by lra.
  replace (IZR (fst bx) + INR c + IZR (Z.of_nat w) / 2 + fst (t_duv t)) with (IZR (fst bx) + IZR (Z.of_nat w) / 2 + fst (t_duv t) + INR c) by lra.
  rewrite P. clear P. pose proof box_wide as W. rewrite box_eq in S. unfold box_h, box_w in S.
  destruct Sh as [Lt Ft]. assert (Wt : length (hd [] (t_tile t)) = w) by (apply (Forall_hd_len _ h); auto).
  assert (Ls : length search = Z.to_nat (snd by_ - fst by_)) by apply S.
  assert (Ws : length (hd [] search) = Z.to_nat (snd bx - fst bx)) by (apply (Forall_hd_len _ (Z.to_nat (snd by_ - fst by_))); auto; lia).
  rewrite match_template_cell; [unfold Rdiv; lra|lia| |].
  - rewrite Ls, Lt. unfold nrow in R. lia.
  - rewrite Ws, Wt. unfold ncol in C. lia.
Qed.
End Likelihood.
