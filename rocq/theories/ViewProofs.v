(** Periodic interpolation: the result is between the values of the two
    neighbours in direction. *)
From Verif Require Import Base BaseLemmas HelpersModel InterpModel InterpProofs ViewModel.
From Coq Require Import Sorting.Permutation Sorting.Sorted.
Open Scope R_scope.

(** ** Rmod *)
Lemma Rmod_range x P : 0 < P -> 0 <= Rmod x P < P.
Proof.
  intros H. unfold Rmod. pose proof (Rfloor_lb (x / P)) as L. pose proof (Rfloor_ub (x / P)) as U.
  assert (E : x = P * (x / P)) by (field; lra). set (q := x / P) in *. clearbody q. set (n := IZR (Rfloor q)) in *. rewrite E. split; nra.
Qed.
Lemma Rmod_eq x P : 0 < P -> exists n, Rmod x P = x + P * IZR n.
Proof. intros H. exists (- Rfloor (x / P))%Z. unfold Rmod. rewrite opp_IZR. ring. Qed.
Lemma Rmod_unique x P r n : 0 < P -> 0 <= r < P -> x = r + P * IZR n -> Rmod x P = r.
Proof.
  intros H R E. unfold Rmod. assert (F : Rfloor (x / P) = n).
  { apply Rfloor_imp. rewrite E. replace ((r + P * IZR n) / P) with (r / P + IZR n) by (field; lra).
    assert (0 <= r / P < 1). { split; [apply Rdiv_nonneg; lra|]. apply Rmult_lt_reg_r with P; [lra|]. unfold Rdiv. rewrite Rmult_assoc, Rinv_l by lra. lra. }
    lra. }
  rewrite F, E. ring.
Qed.
Lemma Rmod_diff a b P : 0 < P -> Rmod (b - a) P = Rmod (Rmod b P - Rmod a P) P.
Proof.
  intros H. destruct (Rmod_eq a P H) as [n En]. destruct (Rmod_eq b P H) as [m Em]. destruct (Rmod_eq (b - a) P H) as [q Eq].
  symmetry. apply (Rmod_unique _ P _ (m - n - q)%Z H); [apply Rmod_range; exact H|]. rewrite En, Em, Eq, !minus_IZR. ring.
Qed.

(** ** piecewise linear interpolation over a list of (coordinate, index) *)
(** weighted value of indices i and j *)
Definition mix (w : R) (i j : nat) (fp : list (option R)) : option R :=
  if Reqb w 0 then nth i fp None
  else olift2 (fun a b => a + (b - a) * w) (nth i fp None) (nth j fp None).

Lemma interp_opt_split (x x0 : R) (k0 : nat) (qs : list (R * nat)) : x0 <= x ->
  (exists xl kl, In (xl, kl) qs /\ x < xl) ->
  exists A i xi j xj B w, (x0, k0) :: qs = A ++ (xi, i) :: (xj, j) :: B /\ xi <= x < xj /\ w = (x - xi) / (xj - xi) /\
    forall fp, interp_opt x x0 (nth k0 fp None) (map (fun q => (fst q, nth (snd q) fp None)) qs) = mix w i j fp.
Proof.
  revert x0 k0. induction qs as [|[x1 k1] qs IH]; intros x0 k0 H (xl & kl & Hl & Hx); [destruct Hl|].
  destruct (Rleb_spec x1 x) as [L|L].
  - destruct (IH x1 k1 L) as (A & i & xi & j & xj & B & w & E & O & W & V).
    { destruct Hl as [Hl|Hl]; [injection Hl as -> ->; lra|eauto]. }
    exists ((x0, k0) :: A), i, xi, j, xj, B, w. split; [cbn; rewrite E; reflexivity|]. split; [exact O|]. split; [exact W|].
    intros fp. cbn [map interp_opt fst snd]. replace (Rleb x1 x) with true by (symmetry; apply Rleb_true; lra). apply V.
  - exists [], k0, x0, k1, x1, qs, ((x - x0) / (x1 - x0)). split; [reflexivity|]. split; [lra|].
    split; [reflexivity|]. intros fp. cbn [map interp_opt fst snd]. replace (Rleb x1 x) with false by (symmetry; apply Rleb_false; lra). unfold mix.
    destruct (Reqb_spec x x0) as [E|E].
    + replace (Reqb ((x - x0) / (x1 - x0)) 0) with true; [reflexivity|]. symmetry. apply Reqb_true. rewrite E. unfold Rdiv. lra.
    + replace (Reqb ((x - x0) / (x1 - x0)) 0) with false.
      * destruct (nth k0 fp None), (nth k1 fp None); try reflexivity. cbn. f_equal. field. lra.
      * symmetry. apply Reqb_false. intros Q. apply E. apply Rmult_eq_compat_r with (r := x1 - x0) in Q. unfold Rdiv in Q. rewrite Rmult_assoc, Rinv_l in Q by lra. lra.
Qed.

Definition ple (a b : R * nat) : Prop := fst a <= fst b.
Lemma sorted_app {A} (le : A -> A -> Prop) l m : StronglySorted le (l ++ m) -> forall a b, In a l -> In b m -> le a b.
Proof.
  induction l as [|x l IH]; cbn; [contradiction|]. intros S a b [<-|Ha] Hb; inversion S as [|? ? S1 F]; subst.
  - rewrite Forall_forall in F. apply F, in_or_app. auto.
  - apply IH; auto.
Qed.

Section Period.
  Variables (P x : R) (xp : list R).
  Hypothesis HP : 0 < P.
  Hypothesis Hne : xp <> [].
  Definition from_ (k : nat) : R := Rmod (x - nth k xp 0) P.
  Definition to_ (k : nat) : R := Rmod (nth k xp 0 - x) P.
  Lemma interp_period_mix : exists i j w, (i < length xp)%nat /\ (j < length xp)%nat /\ 0 <= w < 1
    /\ (forall k, (k < length xp)%nat -> from_ i <= from_ k) /\ (w <> 0 -> forall k, (k < length xp)%nat -> to_ j <= to_ k)
    /\ (w = 0 -> from_ i = 0)
    /\ forall fp, interp_period P x xp fp = mix w i j fp.
  Proof.
    set (xm := Rmod x P). set (xs := map (fun v => Rmod v P) xp). set (n := length xp).
    assert (Lx : length xs = n) by apply map_length.
    assert (Nx : forall k, (k < n)%nat -> nth k xs 0 = Rmod (nth k xp 0) P).
    { intros k Hk. rewrite (nth_indep _ 0 (Rmod 0 P)) by (rewrite Lx; exact Hk). apply (map_nth (fun v => Rmod v P)). }
    assert (Rx : forall k, (k < n)%nat -> 0 <= nth k xs 0 < P) by (intros k Hk; rewrite Nx by exact Hk; apply Rmod_range; exact HP).
    assert (Rm : 0 <= xm < P) by (apply Rmod_range; exact HP).
    destruct (argsort_spec xs) as [Srt Prm]. rewrite Lx in Prm.
    assert (In_ : forall k, In k (argsort xs) <-> (k < n)%nat) by (intros k; rewrite Prm, in_seq; lia).
    unfold interp_period. fold xm xs. set (ord := argsort xs) in *.
    assert (No : ord <> []). { intros E. assert (H : In 0%nat ord) by (apply In_; unfold n; destruct xp; [congruence|cbn; lia]). rewrite E in H. exact H. }
    destruct ord as [|k0 ord'] eqn:Eo; [congruence|]. rewrite <- Eo in *. clear No.
    set (kl := last ord 0%nat).
    assert (Hl : In kl ord). { assert (El : ord = removelast ord ++ [kl]) by (apply app_removelast_last; rewrite Eo; discriminate). rewrite El. apply in_or_app. right. left. reflexivity. }
    assert (Lk0 : (k0 < n)%nat) by (apply In_; rewrite Eo; left; reflexivity). assert (Lkl : (kl < n)%nat) by (apply In_; exact Hl).
    assert (Max : forall k, (k < n)%nat -> nth k xs 0 <= nth kl xs 0).
    { intros k Hk. apply In_ in Hk. assert (El : ord = removelast ord ++ [kl]) by (apply app_removelast_last; rewrite Eo; discriminate). rewrite El in Hk, Srt.
      apply in_app_or in Hk. destruct Hk as [Hk|[<-|[]]]; [|lra]. apply (sorted_app _ _ _ Srt k kl Hk). left. reflexivity. }
    assert (Min : forall k, (k < n)%nat -> nth k0 xs 0 <= nth k xs 0).
    { intros k Hk. apply In_ in Hk. rewrite Eo in Hk, Srt. inversion Srt as [|? ? S1 F]; subst. destruct Hk as [<-|Hk]; [lra|].
      rewrite Forall_forall in F. apply (F k Hk). }
    set (qs := map (fun k => (nth k xs 0, k)) ord ++ [(nth k0 xs 0 + P, k0)]).
    destruct (interp_opt_split xm (nth kl xs 0 - P) kl qs) as (A & i & xi & j & xj & B & w & E & O & W & V).
    { specialize (Rx kl Lkl). lra. }
    { exists (nth k0 xs 0 + P), k0. split; [unfold qs; apply in_or_app; right; left; reflexivity|]. specialize (Rx k0 Lk0). lra. }
    assert (Sq : StronglySorted ple ((nth kl xs 0 - P, kl) :: qs)).
    { constructor.
      - unfold qs. assert (Sm : StronglySorted ple (map (fun k => (nth k xs 0, k)) ord)).
        { clear -Srt. induction Srt as [|k l S IH F]; cbn; constructor; auto. apply Forall_forall. intros q Hq. apply in_map_iff in Hq. destruct Hq as (m & <- & Hm).
          rewrite Forall_forall in F. apply (F m Hm). }
        revert Sm. assert (Fm : Forall (fun q => ple q (nth k0 xs 0 + P, k0)) (map (fun k => (nth k xs 0, k)) ord)).
        { apply Forall_forall. intros q Hq. apply in_map_iff in Hq. destruct Hq as (m & <- & Hm). apply In_ in Hm. unfold ple. cbn. pose proof (Rx m Hm). pose proof (Rx k0 Lk0). lra. }
        revert Fm. generalize (map (fun k => (nth k xs 0, k)) ord). intros l Fm Sm. induction Sm as [|q l S IH F]; cbn; [repeat constructor|].
        inversion Fm; subst. constructor; [apply IH; auto|]. apply Forall_app. split; [exact F|]. constructor; [auto|constructor].
      - apply Forall_forall. intros q Hq. unfold qs in Hq. apply in_app_or in Hq. unfold ple. destruct Hq as [Hq|[<-|[]]].
        + apply in_map_iff in Hq. destruct Hq as (m & <- & Hm). apply In_ in Hm. cbn. pose proof (Rx m Hm). pose proof (Rx kl Lkl). lra.
        + cbn. pose proof (Rx k0 Lk0). pose proof (Rx kl Lkl). lra. }
    (* what an element of the extended list is *)
    assert (Q : forall v k, In (v, k) ((nth kl xs 0 - P, kl) :: qs) -> (k < n)%nat /\ ((v = nth k xs 0) \/ (v = nth k xs 0 - P /\ k = kl) \/ (v = nth k xs 0 + P /\ k = k0))).
    { intros v k [H|H]; [injection H as <- <-; auto|]. unfold qs in H. apply in_app_or in H. destruct H as [H|[H|[]]].
      - apply in_map_iff in H. destruct H as (m & H & Hm). injection H as <- <-. apply In_ in Hm. auto.
      - injection H as <- <-. auto. }
    assert (Hi : In (xi, i) ((nth kl xs 0 - P, kl) :: qs)) by (rewrite E; apply in_or_app; right; left; reflexivity).
    assert (Hj : In (xj, j) ((nth kl xs 0 - P, kl) :: qs)) by (rewrite E; apply in_or_app; right; right; left; reflexivity).
    assert (Sp : forall v k, In (v, k) ((nth kl xs 0 - P, kl) :: qs) -> v <= xi \/ xj <= v).
    { intros v k H. rewrite E in H, Sq. apply in_app_or in H. destruct H as [H|[H|[H|H]]].
      - left. apply (sorted_app _ _ _ Sq (v, k) (xi, i) H). left. reflexivity.
      - injection H as <- <-. left. lra.
      - injection H as <- <-. right. lra.
      - right. change (A ++ (xi, i) :: (xj, j) :: B) with (A ++ [(xi, i); (xj, j)] ++ B) in Sq. rewrite app_assoc in Sq.
        apply (sorted_app _ _ _ Sq (xj, j) (v, k)); [apply in_or_app; right; right; left; reflexivity|exact H]. }
    assert (Main : forall k, (k < n)%nat -> In (nth k xs 0, k) ((nth kl xs 0 - P, kl) :: qs)).
    { intros k Hk. right. unfold qs. apply in_or_app. left. apply in_map_iff. exists k. split; [reflexivity|apply In_; exact Hk]. }
    assert (Lo : nth kl xs 0 - P <= xi). { destruct (Sp _ _ (or_introl eq_refl)) as [H|H]; [exact H|]. pose proof (Rx kl Lkl). lra. }
    assert (Hi_ : xj <= nth k0 xs 0 + P).
    { assert (H : In (nth k0 xs 0 + P, k0) ((nth kl xs 0 - P, kl) :: qs)) by (right; unfold qs; apply in_or_app; right; left; reflexivity).
      destruct (Sp _ _ H) as [H1|H1]; [pose proof (Rx k0 Lk0); lra|exact H1]. }
    destruct (Q xi i Hi) as [Li Ci]. destruct (Q xj j Hj) as [Lj Cj].
    (* turning angles *)
    assert (Fr : forall k, (k < n)%nat -> from_ k = if Rle_dec (nth k xs 0) xm then xm - nth k xs 0 else xm - nth k xs 0 + P).
    { intros k Hk. unfold from_. rewrite Rmod_diff by exact HP. fold xm. rewrite <- Nx by exact Hk. pose proof (Rx k Hk).
      destruct (Rle_dec (nth k xs 0) xm); [apply (Rmod_unique _ P _ 0 HP)|apply (Rmod_unique _ P _ (-1) HP)]; lra. }
    assert (To : forall k, (k < n)%nat -> to_ k = if Rle_dec xm (nth k xs 0) then nth k xs 0 - xm else nth k xs 0 - xm + P).
    { intros k Hk. unfold to_. rewrite Rmod_diff by exact HP. fold xm. rewrite <- Nx by exact Hk. pose proof (Rx k Hk).
      destruct (Rle_dec xm (nth k xs 0)); [apply (Rmod_unique _ P _ 0 HP)|apply (Rmod_unique _ P _ (-1) HP)]; lra. }
    assert (Fi : from_ i = xm - xi).
    { rewrite Fr by exact Li. destruct Ci as [->|[[-> ->]|[-> ->]]].
      - destruct (Rle_dec _ _); lra.
      - destruct (Rle_dec (nth kl xs 0) xm) as [C|C]; [|lra].
        exfalso. destruct (Sp _ _ (Main kl Lkl)) as [H|H]; [pose proof (Rx kl Lkl); lra|lra].
      - pose proof (Rx k0 Lk0). lra. }
    assert (W0 : w = 0 <-> xi = xm).
    { rewrite W. split; intros H; [|rewrite H; unfold Rdiv; lra].
      apply Rmult_eq_compat_r with (r := xj - xi) in H. unfold Rdiv in H. rewrite Rmult_assoc, Rinv_l in H by lra. lra. }
    exists i, j, w. split; [exact Li|]. split; [exact Lj|]. split; [|split; [|split; [|split]]].
    - rewrite W. split; [apply Rdiv_nonneg; lra|]. apply Rmult_lt_reg_r with (xj - xi); [lra|]. unfold Rdiv. rewrite Rmult_assoc, Rinv_l by lra. lra.
    - intros k Hk. rewrite Fi, Fr by exact Hk. destruct (Rle_dec (nth k xs 0) xm) as [C|C].
      + destruct (Sp _ _ (Main k Hk)) as [H|H]; lra.
      + pose proof (Max k Hk). lra.
    - intros Nw k Hk. assert (Lt : xi < xm) by (destruct (Req_dec xi xm); [tauto|lra]).
      assert (Tj : to_ j = xj - xm).
      { rewrite To by exact Lj. destruct Cj as [->|[[-> ->]|[-> ->]]].
        - destruct (Rle_dec _ _); lra.
        - pose proof (Rx kl Lkl). lra.
        - destruct (Rle_dec xm (nth k0 xs 0)) as [C|C]; [|lra].
          destruct (Sp _ _ (Main k0 Lk0)) as [H|H]; lra. }
      rewrite Tj, To by exact Hk. destruct (Rle_dec xm (nth k xs 0)) as [C|C].
      + destruct (Sp _ _ (Main k Hk)) as [H|H]; lra.
      + pose proof (Min k Hk). lra.
    - intros Z. rewrite Fi. apply W0 in Z. lra.
    - intros fp. rewrite <- V. replace (Rltb xm (nth kl xs 0 - P)) with false by (symmetry; apply Rltb_false; pose proof (Rx kl Lkl); lra).
      f_equal. unfold qs. rewrite map_app, map_map. reflexivity.
  Qed.
End Period.
