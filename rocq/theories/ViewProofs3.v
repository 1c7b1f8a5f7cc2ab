(** Rings of a grid and the viewshed. *)
From Verif Require Import Base BaseLemmas HelpersModel CameraModel GridModel GridSpec GridProofs RasterSpec RasterProofs RasterProofs3 InterpModel InterpProofs
  ViewModel ViewSpec ViewProofs ViewProofs2.
From Coq Require Import Sorting.Permutation Sorting.Sorted.
Open Scope R_scope.

(** ** sorting and grouping *)
Section Groups.
  Variables (rg : nat -> Z) (hd_ : nat -> R).
  Definition rle (a b : nat) : Prop := (rg a <= rg b)%Z.
  Lemma lex_insert_perm i l : Permutation (lex_insert rg hd_ i l) (i :: l).
  Proof. induction l as [|j l IH]; cbn; [reflexivity|]. destruct (_ || _); [|reflexivity]. etransitivity; [apply perm_skip, IH|apply perm_swap]. Qed.
  Lemma lex_insert_sorted i l : StronglySorted rle l -> StronglySorted rle (lex_insert rg hd_ i l).
  Proof.
    induction 1 as [|j l S IH F]; cbn; [repeat constructor|].
    destruct ((rg j <? rg i)%Z || ((rg j =? rg i)%Z && Rleb (hd_ j) (hd_ i))) eqn:E.
    - constructor; [exact IH|]. apply Forall_forall. intros k Hk. rewrite lex_insert_perm in Hk.
      apply orb_true_iff in E. destruct Hk as [<-|Hk]; [|rewrite Forall_forall in F; auto]. unfold rle.
      destruct E as [E|E]; [apply Z.ltb_lt in E; lia|apply andb_true_iff in E; destruct E as [E _]; apply Z.eqb_eq in E; lia].
    - apply orb_false_iff in E. destruct E as [E _]. apply Z.ltb_ge in E. constructor; [constructor; auto|]. constructor; [exact E|].
      eapply Forall_impl; [|exact F]. unfold rle. intros; cbn beta in *; lia.
  Qed.
  Lemma lexsort_spec n : StronglySorted rle (lexsort rg hd_ n) /\ Permutation (lexsort rg hd_ n) (seq 0 n).
  Proof.
    unfold lexsort. assert (G : forall ks acc, StronglySorted rle acc ->
      StronglySorted rle (fold_left (fun acc i => lex_insert rg hd_ i acc) ks acc) /\ Permutation (fold_left (fun acc i => lex_insert rg hd_ i acc) ks acc) (ks ++ acc)).
    { induction ks as [|k ks IH]; intros acc S; cbn; [auto|]. destruct (IH _ (lex_insert_sorted k acc S)) as [H1 H2]. split; [exact H1|].
      etransitivity; [exact H2|]. etransitivity; [apply Permutation_app_head, lex_insert_perm|]. symmetry. apply Permutation_middle. }
    destruct (G (seq 0 n) []) as [H1 H2]; [constructor|]. rewrite app_nil_r in H2. auto.
  Qed.
  Definition glt (g h : list nat) : Prop := forall a b, In a g -> In b h -> (rg a < rg b)%Z.
  Definition gok (g : list nat) : Prop := g <> [] /\ forall a b, In a g -> In b g -> rg a = rg b.
  Lemma groups_spec l : StronglySorted rle l -> concat (ring_groups rg l) = l /\ Forall gok (ring_groups rg l) /\ StronglySorted glt (ring_groups rg l).
  Proof.
    induction 1 as [|k l S IH F]; [cbn; repeat constructor|]. destruct IH as (C & G & T). cbn [ring_groups].
    destruct (ring_groups rg l) as [|g gs] eqn:E.
    - cbn in C. subst l. cbn. split; [reflexivity|]. split; [|repeat constructor]. constructor; [|constructor]. split; [discriminate|]. intros a b [<-|[]] [<-|[]]. reflexivity.
    - inversion G as [|? ? [Ne Gc] Gs]; subst. destruct g as [|j g]; [congruence|]. inversion T as [|? ? T1 T2]; subst.
      rewrite Forall_forall in F. 
      assert (Fj : (rg k <= rg j)%Z) by (apply F; cbn; left; reflexivity).
      destruct (rg k =? rg j)%Z eqn:Ek.
      + apply Z.eqb_eq in Ek. split; [cbn in *; reflexivity|]. split.
        * constructor; [|exact Gs]. split; [discriminate|]. intros a b Ha Hb.
          assert (Q : forall c, In c (k :: j :: g) -> rg c = rg j) by (intros c [<-|Hc]; [exact Ek|apply Gc; [exact Hc|left; reflexivity]]).
          rewrite (Q a Ha), (Q b Hb). reflexivity.
        * constructor; [exact T1|]. eapply Forall_impl; [|exact T2]. intros h Hh a b [<-|Ha] Hb; [rewrite Ek; apply (Hh j b (or_introl eq_refl) Hb)|apply (Hh a b Ha Hb)].
      + apply Z.eqb_neq in Ek. split; [cbn in *; reflexivity|]. split.
        * constructor; [|exact G]. split; [discriminate|]. intros a b [<-|[]] [<-|[]]. reflexivity.
        * constructor; [exact T|]. constructor.
          -- intros a b [<-|[]] Hb. rewrite (Gc b j Hb (or_introl eq_refl)). lia.
          -- eapply Forall_impl; [|exact T2]. intros h Hh a b [<-|[]] Hb. specialize (Hh j b (or_introl eq_refl) Hb). lia.
  Qed.
  (** position of the group of a cell *)
  Lemma group_split gs k : Forall gok gs -> StronglySorted glt gs -> In k (concat gs) ->
    exists A g B, gs = A ++ g :: B /\ In k g /\ (forall j, In j (concat gs) -> (In j g <-> rg j = rg k)) /\
      (forall j, In j (concat gs) -> (In j (concat A) <-> (rg j < rg k)%Z)).
  Proof.
    induction gs as [|h gs IH]; intros G T Hk; [destruct Hk|]. inversion G as [|? ? [Ne Gc] Gs]; subst. inversion T as [|? ? T1 T2]; subst.
    rewrite Forall_forall in T2. assert (T2' : forall a b, In a h -> In b (concat gs) -> (rg a < rg b)%Z).
    { intros a b Ha Hb. apply in_concat in Hb. destruct Hb as (h' & Hh & Hb). apply (T2 h' Hh a b Ha Hb). }
    cbn [concat] in Hk. apply in_app_or in Hk. destruct Hk as [Hk|Hk].
    - exists [], h, gs. split; [reflexivity|]. split; [exact Hk|]. split; intros j Hj; cbn [concat] in Hj; apply in_app_or in Hj.
      + split; [intros Hj'; apply Gc; auto|]. intros E. destruct Hj as [Hj|Hj]; [exact Hj|]. specialize (T2' k j Hk Hj). lia.
      + cbn. split; [tauto|]. intros L. destruct Hj as [Hj|Hj]; [rewrite (Gc j k Hj Hk) in L; lia|]. specialize (T2' k j Hk Hj). lia.
    - destruct (IH Gs T1 Hk) as (A & g & B & -> & Hg & H1 & H2). exists (h :: A), g, B. split; [reflexivity|]. split; [exact Hg|].
      split; intros j Hj; cbn [concat] in Hj; apply in_app_or in Hj.
      + destruct Hj as [Hj|Hj]; [|apply H1; exact Hj]. specialize (T2' j k Hj Hk) as L. split; [|lia]. intros Hj'. exfalso.
        assert (Jc : In j (concat (A ++ g :: B))) by (apply in_concat; exists g; split; [apply in_or_app; right; left; reflexivity|exact Hj']).
        specialize (T2' j j Hj Jc). lia.
      + cbn [concat]. split.
        * intros Hc. apply in_app_or in Hc. destruct Hc as [Hc|Hc]; [apply T2'; auto|]. apply H2; [|exact Hc].
          rewrite concat_app. apply in_or_app. left. exact Hc.
        * intros L. apply in_or_app. destruct Hj as [Hj|Hj]; [left; exact Hj|right; apply H2; auto].
  Qed.
End Groups.

Lemma nth_repeat_lt {A} (a : A) n k d : (k < n)%nat -> nth k (repeat a n) d = a.
Proof. revert k. induction n as [|n IH]; intros k H; [lia|]. destruct k; cbn; [reflexivity|apply IH; lia]. Qed.
Lemma NoDup_app_disj {A} (l m : list A) : NoDup (l ++ m) -> forall a, In a l -> In a m -> False.
Proof.
  induction l as [|x l IH]; cbn; intros N a Ha Hm; [exact Ha|]. inversion N as [|? ? N1 N2]; subst. destruct Ha as [<-|Ha]; [|eauto].
  apply N1, in_or_app. auto.
Qed.

Lemma NoDup_app_tail {A} (l m : list A) : NoDup (l ++ m) -> NoDup m.
Proof. induction l as [|x l IH]; cbn; intros N; [exact N|]. inversion N; subst. auto. Qed.
Lemma app_cmp {A} (l m l' m' : list A) : l ++ m = l' ++ m' -> exists k, (l = l' ++ k /\ m' = k ++ m) \/ (l' = l ++ k /\ m = k ++ m').
Proof.
  revert l'. induction l as [|x l IH]; intros [|y l'] E; cbn in E.
  - exists []. left. auto.
  - exists (y :: l'). right. auto.
  - exists (x :: l). left. auto.
  - injection E as -> E. destruct (IH _ E) as (k & [[-> ->]|[-> ->]]); exists k; [left|right]; auto.
Qed.

(** ** assignment to an array *)
Lemma assign_other ps : forall (vis : list bool) k, ~ In k (map fst ps) -> nth k (fold_left (fun acc p => set_nth (fst p) (snd p) acc) ps vis) false = nth k vis false.
Proof.
  induction ps as [|[i b] ps IH]; intros vis k N; cbn in *; [reflexivity|]. rewrite IH by tauto. apply nth_set_nth_neq. lia.
Qed.
Lemma assign_nth ps : forall (vis : list bool) k b, NoDup (map fst ps) -> In (k, b) ps -> (k < length vis)%nat ->
  nth k (fold_left (fun acc p => set_nth (fst p) (snd p) acc) ps vis) false = b.
Proof.
  induction ps as [|[i c] ps IH]; intros vis k b N H L; cbn in *; [contradiction|]. inversion N as [|? ? N1 N2]; subst. destruct H as [H|H].
  - injection H as -> ->. rewrite assign_other by exact N1. apply nth_set_nth_eq. exact L.
  - apply IH; auto. rewrite set_nth_length. exact L.
Qed.

(** ** cells *)
Section View.
  Variables (g : grid) (xs ys : list R) (vals : list (option R)) (ox oy oz : R) (cor : R -> R).
  Hypothesis Hg : grid_ok g.
  Hypothesis Hx : is_centers (xaxis g) xs.
  Hypothesis Hy : is_centers (yaxis g) ys.
  Let nx := Z.to_nat (gnx g).
  Let ny := Z.to_nat (gny g).
  Hypothesis Hv : length vals = (ny * nx)%nat.
  Lemma nx_pos : (1 <= nx)%nat. Proof. destruct Hg as [[_ A] _]. cbn in A. unfold nx. lia. Qed.
  Lemma div_mod_lt k : (k < ny * nx)%nat -> (k / nx < ny)%nat /\ (k mod nx < nx)%nat /\ k = (k / nx * nx + k mod nx)%nat.
  Proof.
    intros H. pose proof nx_pos. split; [apply Nat.div_lt_upper_bound; lia|]. split; [apply Nat.mod_upper_bound; lia|].
    rewrite Nat.mul_comm. apply Nat.div_mod. lia.
  Qed.
  Lemma dx_east k : (k < length vals)%nat -> nth k (cell_dx g xs ox) 0 = east g ox k.
  Proof.
    intros H. rewrite Hv in H. destruct (div_mod_lt k H) as (H1 & H2 & H3). destruct Hx as [Lx Nx]. cbn [xaxis snd] in Lx. fold nx in Lx.
    unfold cell_dx. rewrite H3 at 1. rewrite (nth_flat_rows (fun _ => map (fun x => x - ox) xs) nx).
    - rewrite (nth_map_in _ _ _ 0) by lia. unfold east. fold nx. rewrite Nx by lia. reflexivity.
    - intros. rewrite map_length. exact Lx.
    - rewrite seq_length. exact H1.
    - exact H2.
  Qed.
  Lemma dy_north k : (k < length vals)%nat -> nth k (cell_dy g ys oy) 0 = north g oy k.
  Proof.
    intros H. rewrite Hv in H. destruct (div_mod_lt k H) as (H1 & H2 & H3). destruct Hy as [Ly Ny]. cbn [yaxis snd] in Ly. fold ny in Ly.
    unfold cell_dy. fold nx. assert (E : flat_map (fun y => repeat (y - oy) nx) ys = flat_map (fun r => repeat (nth r ys 0 - oy) nx) (seq 0 ny)).
    { rewrite <- Ly. clear. rewrite !flat_map_concat_map. f_equal. apply nth_ext with (d := []) (d' := []); [rewrite !map_length, seq_length; reflexivity|].
      intros n Hn. rewrite map_length in Hn. rewrite (nth_map_in _ _ _ 0), (nth_map_in _ _ _ 0%nat) by (rewrite ?seq_length; lia). rewrite seq_nth by lia. reflexivity. }
    rewrite E. rewrite H3 at 1. rewrite (nth_flat_rows (fun r => repeat (nth r ys 0 - oy) nx) nx).
    - rewrite seq_nth by lia. rewrite nth_repeat_lt by lia. unfold north. fold nx. rewrite Nat.add_0_l, Ny by lia. reflexivity.
    - intros. apply repeat_length.
    - rewrite seq_length. exact H1.
    - exact H2.
  Qed.
  Lemma d2_distance k : (k < length vals)%nat -> sqrt (cell_d2 g xs ys ox oy k) = distance g ox oy k.
  Proof. intros H. unfold cell_d2, distance. rewrite dx_east, dy_north by exact H. reflexivity. Qed.
  Lemma dcell_pos : 0 < Rabs (dcell (xaxis g)).
  Proof. apply Rabs_pos_lt. destruct Hg as [[N P] _]. apply IZR_le in P. unfold dcell. intros E. apply N.
    assert (Q : snd (fst (xaxis g)) - fst (fst (xaxis g)) = 0). { apply Rmult_eq_compat_r with (r := IZR (snd (xaxis g))) in E. unfold Rdiv in E. rewrite Rmult_assoc, Rinv_l in E by lra. lra. } lra.
  Qed.
  Lemma distance_pos k : 0 <= distance g ox oy k. Proof. apply sqrt_pos. Qed.
  Lemma ring_eq k : (k < length vals)%nat -> cell_ring g xs ys ox oy k = ring g ox oy k.
  Proof.
    intros H. unfold cell_ring, ring. rewrite d2_distance by exact H. pose proof (distance_pos k). pose proof dcell_pos.
    replace (distance g ox oy k * (1 / Rabs (dcell (xaxis g)))) with (distance g ox oy k / Rabs (dcell (xaxis g))) by (unfold Rdiv; ring).
    assert (0 <= distance g ox oy k / Rabs (dcell (xaxis g))) by (apply Rdiv_nonneg; lra).
    unfold Rtrunc. replace (Rltb _ 0) with false by (symmetry; apply Rltb_false; lra). reflexivity.
  Qed.
  Lemma ring_nonneg k : (0 <= ring g ox oy k)%Z.
  Proof. unfold ring. apply Rfloor_le. assert (0 <= distance g ox oy k / Rabs (dcell (xaxis g))) by (apply Rdiv_nonneg; [apply distance_pos|apply dcell_pos]). lra. Qed.
  Lemma heading_eq k : (k < length vals)%nat -> cell_heading g xs ys ox oy k = azimuth g ox oy k.
  Proof. intros H. unfold cell_heading, azimuth. rewrite dx_east, dy_north by exact H. reflexivity. Qed.
  Lemma ring_pos_distance k : (0 < ring g ox oy k)%Z -> 0 < distance g ox oy k.
  Proof.
    intros H. destruct (Rle_lt_or_eq_dec _ _ (distance_pos k)) as [L|E]; [exact L|]. exfalso. unfold ring in H. rewrite <- E in H.
    assert (F : Rfloor (0 / Rabs (dcell (xaxis g)) + / 2) = 0%Z) by (apply Rfloor_imp; unfold Rdiv; lra). lia.
  Qed.
  Lemma elev_eq k : (k < length vals)%nat -> (0 < ring g ox oy k)%Z -> cell_elev g xs ys vals ox oy oz cor k = slope g vals ox oy oz cor k.
  Proof.
    intros H P. unfold cell_elev, slope. destruct (nth k vals None) as [z|]; [|reflexivity]. pose proof (ring_pos_distance k P) as D.
    rewrite d2_distance by exact H. replace (Reqb (distance g ox oy k) 0) with false by (symmetry; apply Reqb_false; lra).
    cbn [option_map]. f_equal. unfold slope_to. do 2 f_equal. f_equal. unfold distance. rewrite pow2_sqrt by nra.
    unfold cell_d2. rewrite dx_east, dy_north by exact H. reflexivity.
  Qed.

  (** the rings that are visited *)
  Let gs := ring_groups (cell_ring g xs ys ox oy) (lexsort (cell_ring g xs ys ox oy) (cell_heading g xs ys ox oy) (length vals)).
  Definition used : list (list nat) :=
    match gs with [] => [] | r :: rest => if (cell_ring g xs ys ox oy (hd 0%nat r) =? 0)%Z then rest else gs end.
  Lemma gs_spec : (forall k, In k (concat gs) <-> (k < length vals)%nat) /\ NoDup (concat gs) /\ Forall (gok (cell_ring g xs ys ox oy)) gs
    /\ StronglySorted (glt (cell_ring g xs ys ox oy)) gs.
  Proof.
    destruct (lexsort_spec (cell_ring g xs ys ox oy) (cell_heading g xs ys ox oy) (length vals)) as [S P].
    destruct (groups_spec (cell_ring g xs ys ox oy) _ S) as (C & G & T). fold gs in C, G, T. rewrite C. split; [|split; [|auto]].
    - intros k. rewrite P, in_seq. lia.
    - eapply Permutation_NoDup; [symmetry; exact P|apply seq_NoDup].
  Qed.
  Lemma used_spec : Forall (gok (cell_ring g xs ys ox oy)) used /\ StronglySorted (glt (cell_ring g xs ys ox oy)) used /\ NoDup (concat used)
    /\ (forall k, In k (concat used) <-> (k < length vals)%nat /\ (0 < ring g ox oy k)%Z).
  Proof.
    destruct gs_spec as (I & N & G & T). unfold used. destruct gs as [|r rest] eqn:E.
    - cbn in *. repeat split; try constructor; try (apply I; tauto); intros; try tauto. destruct H. apply I in H. exact H.
    - inversion G as [|? ? [Ne Gc] Gs]; subst. inversion T as [|? ? T1 T2]; subst. destruct r as [|k0 r]; [congruence|]. cbn [hd].
      assert (K0 : (k0 < length vals)%nat) by (apply I; left; reflexivity).
      destruct (Z.eqb_spec (cell_ring g xs ys ox oy k0) 0) as [Z|Z].
      + split; [exact Gs|]. split; [exact T1|]. split; [cbn in N; eapply NoDup_app_tail; change (k0 :: r ++ concat rest) with ((k0 :: r) ++ concat rest) in N; exact N|].
        intros k. split.
        * intros H. assert (L : (k < length vals)%nat) by (apply I; cbn; right; apply in_or_app; right; exact H). split; [exact L|].
          rewrite <- ring_eq by exact L. apply in_concat in H. destruct H as (h & Hh & Hk). rewrite Forall_forall in T2. specialize (T2 h Hh k0 k (or_introl eq_refl) Hk). lia.
        * intros [L P]. assert (H : In k (concat ((k0 :: r) :: rest))) by (apply I; exact L). cbn [concat] in H. apply in_app_or in H. destruct H as [H|H]; [|exact H].
          rewrite <- ring_eq in P by exact L. rewrite (Gc k k0 H (or_introl eq_refl)) in P. lia.
      + split; [exact G|]. split; [exact T|]. split; [exact N|]. intros k. rewrite I. split; [|tauto]. intros L. split; [exact L|].
        assert (H : In k (concat ((k0 :: r) :: rest))) by (apply I; exact L). cbn [concat] in H. apply in_app_or in H.
        pose proof (ring_nonneg k0) as R0. rewrite <- ring_eq in R0 by exact K0. rewrite <- ring_eq by exact L. destruct H as [H|H].
        * rewrite (Gc k k0 H (or_introl eq_refl)). lia.
        * apply in_concat in H. destruct H as (h & Hh & Hk). rewrite Forall_forall in T2. specialize (T2 h Hh k0 k (or_introl eq_refl) Hk). lia.
  Qed.
  Let heading := cell_heading g xs ys ox oy.
  Let elev := cell_elev g xs ys vals ox oy oz cor.
  Let vis := viewshed_flat g xs ys vals ox oy oz cor.
  Lemma vis_used : used <> [] -> vis = fold_left (fun acc p => set_nth (fst p) (snd p) acc) (vrings heading elev used) (repeat false (length vals)).
  Proof.
    intros N. destruct used_spec as (G & _). assert (F : Forall (fun r => r <> []) used) by (eapply Forall_impl; [|exact G]; intros a [H _]; exact H).
    rewrite <- view_rings_eq by exact F. unfold vis, viewshed_flat. fold gs. unfold used in *. destruct gs as [|r rest]; [congruence|].
    destruct (Z.eqb_spec (cell_ring g xs ys ox oy (hd 0%nat r)) 0); destruct rest as [|r' rest]; try reflexivity. congruence.
  Qed.
  Lemma vis_result k b : In (k, b) (vrings heading elev used) -> nth k vis false = b.
  Proof.
    intros H. destruct used_spec as (_ & _ & N & I). assert (K : In k (concat used)) by (rewrite <- (vrings_keys heading elev); apply in_map_iff; exists (k, b); auto).
    rewrite vis_used by (intros E; rewrite E in K; destruct K). apply assign_nth; [rewrite vrings_keys; exact N|exact H|].
    rewrite repeat_length. apply I. exact K.
  Qed.
  (** rings around a cell *)
  Lemma used_split k : (k < length vals)%nat -> (0 < ring g ox oy k)%Z -> exists A r B, used = A ++ r :: B /\ In k r
    /\ Forall (fun r => r <> []) A /\ r <> []
    /\ (forall j, In j r <-> (j < length vals)%nat /\ ring g ox oy j = ring g ox oy k)
    /\ (forall j, In j (concat A) <-> (j < length vals)%nat /\ (0 < ring g ox oy j < ring g ox oy k)%Z).
  Proof.
    intros L P. destruct used_spec as (G & T & N & I). destruct (group_split (cell_ring g xs ys ox oy) (cell_heading g xs ys ox oy) used k G T) as (A & r & B & E & Hk & H1 & H2); [apply I; auto|].
    exists A, r, B. split; [exact E|]. split; [exact Hk|].
    assert (GA : Forall (gok (cell_ring g xs ys ox oy)) (A ++ r :: B)) by (rewrite <- E; exact G). apply Forall_app in GA. destruct GA as [GA GB].
    split; [eapply Forall_impl; [|exact GA]; intros a [H _]; exact H|]. split; [inversion GB as [|? ? [H _]]; exact H|].
    assert (InR : forall j, In j r -> In j (concat used)) by (intros j H; rewrite E; apply in_concat; exists r; split; [apply in_or_app; right; left; reflexivity|exact H]).
    assert (InA : forall j, In j (concat A) -> In j (concat used)) by (intros j H; rewrite E, concat_app; apply in_or_app; left; exact H).
    split; intros j; split.
    - intros H. pose proof (InR j H) as U. apply H1 in H; [|exact U]. apply I in U. destruct U as [U1 U2]. rewrite !ring_eq in H by auto. auto.
    - intros [L' E']. assert (U : In j (concat used)) by (apply I; split; [exact L'|lia]). apply H1; [exact U|]. rewrite !ring_eq by auto. exact E'.
    - intros H. pose proof (InA j H) as U. apply H2 in H; [|exact U]. apply I in U. destruct U as [U1 U2]. rewrite !ring_eq in H by auto. lia.
    - intros [L' E']. assert (U : In j (concat used)) by (apply I; split; [exact L'|lia]). apply H2; [exact U|]. rewrite !ring_eq by auto. lia.
  Qed.

  Notation rg := (ring g ox oy).
  Notation sl := (slope g vals ox oy oz cor).
  Theorem view_first k q : (k < length vals)%nat -> first_ring g vals ox oy q -> rg k = q ->
    nth k vis false = match nth k vals None with Some _ => true | None => false end.
  Proof.
    intros L [Pq Hq] E. destruct (used_split k L ltac:(lia)) as (A & r & B & Eu & Hk & FA & Nr & Hr & HA).
    assert (A = []). { destruct A as [|a A]; [reflexivity|]. inversion FA as [|? ? Na]; subst. destruct a as [|j a]; [congruence|].
      assert (Hj : In j (concat ((j :: a) :: A))) by (left; reflexivity). apply HA in Hj. destruct Hj as [Hj1 Hj2]. destruct (Hq j Hj1); lia. }
    subst A. apply vis_result. rewrite Eu. cbn [app vrings]. apply in_or_app. left. apply in_map_iff. exists k. split; [|exact Hk]. f_equal.
    unfold elev. rewrite elev_eq by (auto; lia). unfold slope. destruct (nth k vals None); reflexivity.
  Qed.
  Theorem view_above k v : (k < length vals)%nat -> (0 < rg k)%Z -> sl k = Some v ->
    (forall j u, (j < length vals)%nat -> (0 < rg j < rg k)%Z -> sl j = Some u -> u < v) -> nth k vis false = true.
  Proof.
    intros L P Ev H. destruct (used_split k L P) as (A & r & B & Eu & Hk & FA & Nr & Hr & HA). apply vis_result. rewrite Eu.
    assert (Ek : elev k = Some v) by (unfold elev; rewrite elev_eq by auto; exact Ev).
    destruct A as [|a A].
    - cbn [app vrings]. apply in_or_app. left. apply in_map_iff. exists k. split; [|exact Hk]. rewrite Ek. reflexivity.
    - inversion FA as [|? ? Na FA']; subst. cbn [app vrings]. apply in_or_app. right.
      apply (vloop_above heading elev k v Ek A r B a elev a); auto.
      + intros c u Hc Eu'. exists c, u. split; [exact Hc|]. split; [exact Eu'|lra].
      + intros c u Hc Eu'. change (a ++ concat A) with (concat (a :: A)) in Hc. apply HA in Hc. destruct Hc as [C1 C2]. apply (H c u C1 C2).
        rewrite <- elev_eq by (auto; lia). exact Eu'.
  Qed.
  Theorem view_below k p v : (k < length vals)%nat -> preceding_ring g vals ox oy p (rg k) -> sl k = Some v ->
    (forall i, neighbour_before g vals ox oy p (azimuth g ox oy k) i -> exists u, sl i = Some u /\ v <= u) ->
    (forall j, neighbour_after g vals ox oy p (azimuth g ox oy k) j -> exists u, sl j = Some u /\ v <= u) ->
    nth k vis false = false.
  Proof.
    intros L (Pp & (k1 & K1 & R1) & Gap) Ev Hb Ha. destruct (used_split k L ltac:(lia)) as (A & r & B & Eu & Hk & FA & Nr & Hr & HA). apply vis_result. rewrite Eu.
    assert (Ek : elev k = Some v) by (unfold elev; rewrite elev_eq by (auto; lia); exact Ev).
    (* the last ring of A is ring p *)
    destruct (used_split k1 K1 ltac:(lia)) as (A1 & rp & B1 & Eu1 & Hk1 & FA1 & Nr1 & Hr1 & HA1).
    assert (EA : A = A1 ++ [rp]).
    { rewrite Eu in Eu1. destruct used_spec as (_ & _ & ND & _). 
      destruct (app_cmp _ _ _ _ Eu1) as (l & [[E1 E2]|[E1 E2]]).
      - destruct l as [|h l].
        + cbn in E2. assert (Er : rp = r) by congruence. exfalso. rewrite <- Er in Hk. apply Hr1 in Hk. lia.
        + cbn in E2. injection E2 as <- E2. subst A. f_equal. f_equal. destruct l as [|h l]; [reflexivity|]. exfalso.
          apply Forall_app in FA. destruct FA as [_ FA]. inversion FA as [|? ? _ FA']; subst. inversion FA' as [|? ? Nh _]; subst. destruct h as [|c h]; [congruence|].
          assert (Hc : In c (concat (A1 ++ rp :: (c :: h) :: l))) by (rewrite concat_app; apply in_or_app; right; cbn [concat]; apply in_or_app; right; left; reflexivity).
          apply HA in Hc. destruct Hc as [C1 C2]. destruct (Gap c C1) as [Gc|Gc]; [|lia].
          assert (Hcr : In c rp \/ In c (concat A1)).
          { destruct (Z.eq_dec (rg c) (rg k1)) as [Q|Q]; [left; apply Hr1; split; [exact C1|lia]|right; apply HA1; split; [exact C1|lia]]. }
          assert (ND2 : NoDup (concat ((A1 ++ [rp]) ++ ((c :: h) :: l) ++ r :: B))).
          { rewrite Eu in ND. replace ((A1 ++ [rp]) ++ ((c :: h) :: l) ++ r :: B) with ((A1 ++ rp :: (c :: h) :: l) ++ r :: B); [exact ND|]. rewrite <- !app_assoc. reflexivity. }
          rewrite concat_app in ND2. apply (NoDup_app_disj _ _ ND2 c).
          * rewrite concat_app. cbn. rewrite app_nil_r. apply in_or_app. tauto.
          * cbn. left. reflexivity.
      - exfalso. destruct l as [|h l].
        + cbn in E2. assert (Er : rp = r) by congruence. rewrite <- Er in Hk. apply Hr1 in Hk. lia.
        + cbn in E2. assert (Er : r = h) by congruence. assert (Hc : In k (concat A1)) by (rewrite E1, concat_app; apply in_or_app; right; cbn; apply in_or_app; left; rewrite <- Er; exact Hk).
          apply HA1 in Hc. lia. }
    assert (Nb : forall i, In i rp -> (forall d, In d rp -> tw (heading i) (heading k) <= tw (heading d) (heading k)) -> exists u, elev i = Some u /\ v <= u).
    { intros i Hi Hd. apply Hr1 in Hi. destruct Hi as [Hi Ri]. destruct (Hb i) as (u & Eu' & Lu).
      - split; [exact Hi|]. split; [lia|]. intros c Hc Rc. assert (Q : In c rp) by (apply Hr1; split; [exact Hc|lia]). specialize (Hd c Q). unfold heading in Hd. rewrite !heading_eq in Hd by auto. exact Hd.
      - exists u. split; [|exact Lu]. unfold elev. rewrite elev_eq by (auto; lia). exact Eu'. }
    assert (Na : forall i, In i rp -> (forall d, In d rp -> tw (heading k) (heading i) <= tw (heading k) (heading d)) -> exists u, elev i = Some u /\ v <= u).
    { intros i Hi Hd. apply Hr1 in Hi. destruct Hi as [Hi Ri]. destruct (Ha i) as (u & Eu' & Lu).
      - split; [exact Hi|]. split; [lia|]. intros c Hc Rc. assert (Q : In c rp) by (apply Hr1; split; [exact Hc|lia]). specialize (Hd c Q). unfold heading in Hd. rewrite !heading_eq in Hd by auto. exact Hd.
      - exists u. split; [|exact Lu]. unfold elev. rewrite elev_eq by (auto; lia). exact Eu'. }
    destruct A as [|a A]; [destruct A1; discriminate|]. inversion FA as [|? ? Na' FA']; subst. cbn [app vrings]. apply in_or_app. right.
    apply (vloop_below heading elev k v Ek A rp r B a elev); auto.
    - intros c u _ Ec. exists u. split; [exact Ec|lra].
    - destruct A1 as [|a1 A1]; cbn in EA; injection EA as -> ->; [left; auto|right; eauto].
  Qed.
  Theorem view_origin k : (k < length vals)%nat -> rg k = 0%Z -> (exists j, (j < length vals)%nat /\ (0 < rg j)%Z) -> nth k vis false = false.
  Proof.
    intros L E (j & Lj & Pj). destruct used_spec as (_ & _ & _ & I). assert (Hj : In j (concat used)) by (apply I; auto).
    rewrite vis_used by (intros Q; rewrite Q in Hj; destruct Hj). rewrite assign_other.
    - apply nth_repeat.
    - rewrite vrings_keys. intros H. apply I in H. lia.
  Qed.
  Theorem view_single k : (k < length vals)%nat -> (forall j, (j < length vals)%nat -> rg j = 0%Z) -> nth k vis false = true.
  Proof.
    intros L Z. destruct used_spec as (G & _ & _ & I). destruct gs_spec as (I' & _ & G' & _).
    assert (U : used = []).
    { destruct used as [|r rest] eqn:E; [reflexivity|]. exfalso. inversion G as [|? ? [Ne _] _]; subst. destruct r as [|j r]; [congruence|].
      destruct (proj1 (I j)) as [Lj Pj]; [left; reflexivity|]. rewrite (Z j Lj) in Pj. lia. }
    unfold vis, viewshed_flat. fold gs. unfold used in U. destruct gs as [|r rest] eqn:E.
    - apply I' in L. destruct L.
    - destruct (Z.eqb_spec (cell_ring g xs ys ox oy (hd 0%nat r)) 0) as [Q|Q]; [|discriminate]. subst rest. apply nth_repeat_lt. exact L.
  Qed.
End View.

Theorem view_monotone g xs ys vals vals' ox oy oz cor k : grid_ok g -> is_centers (xaxis g) xs -> is_centers (yaxis g) ys ->
  length vals = (Z.to_nat (gny g) * Z.to_nat (gnx g))%nat -> length vals' = length vals ->
  (forall j, (j < length vals)%nat -> nth j vals None <> None /\ nth j vals' None <> None) ->
  (k < length vals)%nat -> nth k vals' None = nth k vals None ->
  (forall j z z', (j < length vals)%nat -> (0 < ring g ox oy j < ring g ox oy k)%Z -> nth j vals None = Some z -> nth j vals' None = Some z' -> z <= z') ->
  nth k (viewshed_flat g xs ys vals' ox oy oz cor) false = true -> (0 < ring g ox oy k)%Z -> nth k (viewshed_flat g xs ys vals ox oy oz cor) false = true.
Proof.
  intros Hg Hx Hy Hv Hv' NN L Ek Le V P.
  destruct (used_split g xs ys vals ox oy cor Hg Hx Hy Hv k L P) as (A & r & B & Eu & Hk & FA & Nr & Hr & HA).
  assert (Eu' : used g xs ys vals' ox oy = A ++ r :: B) by (unfold used in *; rewrite Hv'; exact Eu).
  assert (Hv2 : length vals' = (Z.to_nat (gny g) * Z.to_nat (gnx g))%nat) by lia.
  set (e := cell_elev g xs ys vals ox oy oz cor). set (e' := cell_elev g xs ys vals' ox oy oz cor). set (hd := cell_heading g xs ys ox oy).
  assert (Sl : forall j, (j < length vals)%nat -> (0 < ring g ox oy j < ring g ox oy k)%Z -> ole (e j) (e' j)).
  { intros j Lj Pj. unfold e, e'. rewrite !elev_eq by (auto; lia). unfold slope. destruct (NN j Lj) as [N1 N2].
    destruct (nth j vals None) as [z|] eqn:Z1; [|congruence]. destruct (nth j vals' None) as [z'|] eqn:Z2; [|congruence].
    exists (slope_to g ox oy oz cor j z), (slope_to g ox oy oz cor j z'). split; [reflexivity|]. split; [reflexivity|].
    specialize (Le j z z' Lj Pj Z1 Z2). unfold slope_to. pose proof (ring_pos_distance g vals ox oy Hv j ltac:(lia)). apply Rmult_le_compat_r; [left; apply Rinv_0_lt_compat; lra|lra]. }
  assert (Ok_ : ole (e' k) (e k)).
  { unfold e, e'. rewrite !elev_eq by (auto; lia). unfold slope. rewrite Ek. destruct (NN k L) as [N1 _]. destruct (nth k vals None); [|congruence]. do 2 eexists. split; [reflexivity|]. split; [reflexivity|lra]. }
  destruct A as [|a A].
  - apply (vis_result g xs ys vals ox oy oz cor Hg Hx Hy Hv). rewrite Eu. cbn [app vrings]. apply in_or_app. left. apply in_map_iff. exists k. split; [|exact Hk]. f_equal.
    destruct Ok_ as (y' & y & _ & Ey & _). fold e. rewrite Ey. reflexivity.
  - inversion FA as [|? ? Na FA']; subst.
    destruct (vloop_mono hd e e' k A r B a e e') as (b & b' & H1 & H2 & H3); auto.
    + intros c Hc. assert (Q : In c (concat (a :: A))) by (cbn; apply in_or_app; auto). apply HA in Q. apply Sl; tauto.
    + intros c Hc. assert (Q : In c (concat (a :: A))) by (cbn; apply in_or_app; auto). apply HA in Q. apply Sl; tauto.
    + assert (B1 : nth k (viewshed_flat g xs ys vals ox oy oz cor) false = b).
      { apply (vis_result g xs ys vals ox oy oz cor Hg Hx Hy Hv). rewrite Eu. cbn [app vrings]. apply in_or_app. right. exact H1. }
      assert (B2 : nth k (viewshed_flat g xs ys vals' ox oy oz cor) false = b').
      { apply (vis_result g xs ys vals' ox oy oz cor Hg Hx Hy Hv2). rewrite Eu'. cbn [app vrings]. apply in_or_app. right. exact H2. }
      rewrite B1. apply H3. congruence.
Qed.
