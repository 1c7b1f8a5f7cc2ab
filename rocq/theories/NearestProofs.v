(** Proofs about sorted_nearest, datetime_range, select_datetimes. *)
From Verif Require Import Base BaseLemmas HelpersModel HelpersSpec.
From Coq Require Import ZifyBool Sorted.
Open Scope Z_scope.

Section Generic.
  Context {T : Type} (ltb : T -> T -> bool) (dist : T -> T -> T).
  Definition le a b := ltb b a = false.
  Hypothesis le_refl : forall a, le a a.
  Hypothesis le_trans : forall a b c, le a b -> le b c -> le a c.
  Hypothesis lt_le : forall a b, ltb a b = true -> le a b.
  Hypothesis dist_right : forall y a b, le y a -> le a b -> le (dist y a) (dist y b).
  Hypothesis dist_left : forall y a b, le b a -> le a y -> le (dist y a) (dist y b).

  (** position k: strictly-smaller prefix *)
  Lemma searchsorted_split x y : StronglySorted le x ->
    let k := Z.to_nat (searchsorted ltb x y) in
    (k <= length x)%nat /\
    (forall i xi, nth_error x i = Some xi -> (i < k)%nat -> ltb xi y = true) /\
    (forall i xi, nth_error x i = Some xi -> (k <= i)%nat -> le y xi).
  Proof.
    unfold searchsorted. rewrite Nat2Z.id. induction x as [|a x IH]; intros Hs; simpl.
    - split; [lia|]. split; intros i xi H; destruct i; discriminate.
    - inversion Hs as [|? ? Hs' Hall]; subst. specialize (IH Hs').
      destruct (ltb a y) eqn:E; simpl.
      + destruct IH as (H1 & H2 & H3). split; [lia|]. split; intros [|i] xi Hi Hk; simpl in Hi.
        * injection Hi as <-; auto.
        * apply (H2 i); auto; lia.
        * lia.
        * apply (H3 i); auto; lia.
      + assert (Hge : forall i xi, nth_error x i = Some xi -> le y xi).
        { intros i xi Hi. apply le_trans with a; [exact E|].
          rewrite Forall_forall in Hall. apply Hall. eapply nth_error_In; eauto. }
        assert (Hf : filter (fun xi => ltb xi y) x = []).
        { destruct (filter (fun xi => ltb xi y) x) as [|b l] eqn:Ef; auto.
          assert (Hb : In b (filter (fun xi => ltb xi y) x)) by (rewrite Ef; left; auto).
          apply filter_In in Hb as [Hb1 Hb2]. apply In_nth_error in Hb1 as [i Hi].
          apply Hge in Hi. unfold le in Hi. congruence. }
        rewrite Hf. simpl. split; [lia|]. split; [intros; lia|].
        intros [|i] xi Hi Hk; simpl in Hi; [injection Hi as <-; exact E|eauto].
  Qed.

  Lemma sorted_nth x i j xi xj : StronglySorted le x -> (i <= j)%nat ->
    nth_error x i = Some xi -> nth_error x j = Some xj -> le xi xj.
  Proof.
    revert i j; induction x as [|a x IH]; intros i j Hs Hij Hi Hj; [destruct i; discriminate|].
    inversion Hs as [|? ? Hs' Hall]; subst. rewrite Forall_forall in Hall.
    destruct i as [|i], j as [|j]; simpl in *; try lia.
    - replace xj with xi by congruence. apply le_refl.
    - injection Hi as <-. apply Hall. eapply nth_error_In; eauto.
    - apply (IH i j); auto; lia.
  Qed.

  (** [i] is a nearest index; nothing before it is as near *)
  Lemma sorted_nearest1_gen x y : StronglySorted le x -> (2 <= length x)%nat ->
    exists i xi, sorted_nearest1 ltb dist x y = Ok (Z.of_nat i) /\ nth_error x i = Some xi /\
      (forall j xj, nth_error x j = Some xj -> le (dist y xi) (dist y xj)).
  Proof.
    intros Hs Hn. destruct (searchsorted_split x y Hs) as (H1 & H2 & H3).
    unfold sorted_nearest1, sorted_neighbors.
    set (k := searchsorted ltb x y) in *.
    assert (Hk0 : 0 <= k) by (subst k; unfold searchsorted; lia).
    set (n := Z.of_nat (length x)).
    assert (Hnb : exists a xa xb, nth_error x a = Some xa /\ nth_error x (S a) = Some xb /\
       (let index := if (0 <? k) && (k <? n) then k - 1 else k in
        if index =? n then index - 2 else index) = Z.of_nat a /\
       (forall j xj, nth_error x j = Some xj ->
          le (dist y xa) (dist y xj) \/ le (dist y xb) (dist y xj))).
    { assert (Hget : forall m, (m < length x)%nat -> exists v, nth_error x m = Some v).
      { intros m Hm. destruct (nth_error x m) eqn:E; eauto. apply nth_error_None in E. lia. }
      destruct (Z.eq_dec k 0) as [Ek|Ek]; [|destruct (Z.eq_dec k n) as [Ekn|Ekn]].
      - destruct (Hget 0%nat ltac:(lia)) as [xa Ha]. destruct (Hget 1%nat ltac:(lia)) as [xb Hb].
        exists 0%nat, xa, xb. repeat split; auto.
        + cbv zeta. rewrite Ek. change ((0 <? 0) && (0 <? n)) with false. cbv iota.
          destruct (0 =? n) eqn:E; lia.
        + intros j xj Hj. left. apply dist_right.
          * apply (H3 0%nat); auto; lia.
          * apply (sorted_nth x 0 j); auto; lia.
      - destruct (Hget (length x - 2)%nat ltac:(lia)) as [xa Ha].
        destruct (Hget (S (length x - 2))%nat ltac:(lia)) as [xb Hb].
        exists (length x - 2)%nat, xa, xb. repeat split; auto.
        + cbv zeta. rewrite Ekn. destruct ((0 <? n) && (n <? n)) eqn:E; [lia|].
          rewrite Z.eqb_refl. lia.
        + intros j xj Hj. right.
          assert (j < length x)%nat by (apply nth_error_Some; congruence).
          apply dist_left.
          * apply (sorted_nth x j (S (length x - 2))); auto; lia.
          * apply lt_le. apply (H2 (S (length x - 2))); auto; lia.
      - destruct (Hget (Z.to_nat k - 1)%nat ltac:(lia)) as [xa Ha].
        destruct (Hget (S (Z.to_nat k - 1))%nat ltac:(lia)) as [xb Hb].
        exists (Z.to_nat k - 1)%nat, xa, xb. repeat split; auto.
        + cbv zeta. destruct ((0 <? k) && (k <? n)) eqn:E; [|lia].
          destruct (k - 1 =? n) eqn:E2; lia.
        + intros j xj Hj. destruct (Nat.lt_ge_cases j (Z.to_nat k)) as [Hjk|Hjk].
          * left. apply dist_left; [apply (sorted_nth x j (Z.to_nat k - 1)); auto; lia|].
            apply lt_le. apply (H2 (Z.to_nat k - 1)%nat); auto; lia.
          * right. apply dist_right; [apply (H3 (S (Z.to_nat k - 1))); auto; lia|].
            apply (sorted_nth x (S (Z.to_nat k - 1)) j); auto; lia. }
    destruct Hnb as (a & xa & xb & Ha & Hb & Hi & Hmin). cbv zeta in Hi. rewrite Hi.
    assert (Hla : (a < length x)%nat) by (apply nth_error_Some; congruence).
    assert (Hlb : (S a < length x)%nat) by (apply nth_error_Some; congruence).
    destruct (py_get_nonneg x (Z.of_nat a)) as (xa' & Ea & ->); [lia|]. rewrite Nat2Z.id, Ha in Ea.
    injection Ea as <-.
    destruct (py_get_nonneg x (Z.of_nat a + 1)) as (xb' & Eb & ->); [lia|].
    replace (Z.to_nat (Z.of_nat a + 1)) with (S a) in Eb by lia. rewrite Hb in Eb. injection Eb as <-.
    cbn [bind].
    destruct (ltb (dist y xb) (dist y xa)) eqn:E.
    - exists (S a), xb. split; [f_equal; lia|]. split; auto.
      intros j xj Hj. destruct (Hmin j xj Hj) as [H|H]; auto.
      apply le_trans with (dist y xa); auto.
    - exists a, xa. split; [reflexivity|]. split; auto.
      intros j xj Hj. destruct (Hmin j xj Hj) as [H|H]; auto.
      apply le_trans with (dist y xb); auto.
  Qed.
End Generic.

Definition Rdist' (a b : R) : R := Rabs (a - b)%R.

Lemma sorted_nearest1_R (x : list R) (y : R) : StronglySorted Rle x -> (2 <= length x)%nat ->
  exists i xi, sorted_nearest1 Rltb Rdist' x y = Ok (Z.of_nat i) /\ nth_error x i = Some xi /\
    (forall j xj, nth_error x j = Some xj -> (Rabs (y - xi) <= Rabs (y - xj))%R).
Proof.
  intros Hs Hn.
  destruct (sorted_nearest1_gen Rltb Rdist') with (x := x) (y := y) as (i & xi & H1 & H2 & H3); auto;
    unfold le; intros; rewrite ?Rltb_false, ?Rltb_true in *; unfold Rdist'; try lra.
  - unfold Rabs. destruct (Rcase_abs (y0 - a)), (Rcase_abs (y0 - b)); lra.
  - unfold Rabs. destruct (Rcase_abs (y0 - a)), (Rcase_abs (y0 - b)); lra.
  - clear Hn. induction Hs; constructor; auto. eapply Forall_impl; [|exact H].
    intros b Hb. simpl. apply Rltb_false. exact Hb.
  - exists i, xi. split; [exact H1|]. split; [exact H2|]. intros j xj Hj.
    apply H3 in Hj. unfold le in Hj. rewrite Rltb_false in Hj. exact Hj.
Qed.

Lemma sorted_nearest_R (x ys : list R) : StronglySorted Rle x -> (2 <= length x)%nat ->
  exists idx, sorted_nearest Rltb (fun a b => Rabs (a - b)) x ys = Ok idx /\ length idx = length ys /\
    forall k y, nth_error ys k = Some y ->
      exists i xi, nth_error idx k = Some (Z.of_nat i) /\ nth_error x i = Some xi /\
        forall j xj, nth_error x j = Some xj -> (Rabs (y - xi) <= Rabs (y - xj))%R.
Proof.
  intros Hs Hn. unfold sorted_nearest.
  assert (Hok : exists idx, mapM (sorted_nearest1 Rltb (fun a b => Rabs (a - b)) x) ys = Ok idx).
  { induction ys as [|y ys [idx IH]]; [exists []; reflexivity|].
    destruct (sorted_nearest1_R x y Hs Hn) as (i & xi & H1 & _).
    unfold Rdist' in H1. exists (Z.of_nat i :: idx). simpl. rewrite H1. simpl. rewrite IH. reflexivity. }
  destruct Hok as [idx Hidx]. exists idx. split; [exact Hidx|].
  split; [eapply mapM_ok_length; eauto|].
  intros k y Hk. destruct (mapM_ok_nth _ _ _ Hidx k y Hk) as (z & Hz & Hnz).
  destruct (sorted_nearest1_R x y Hs Hn) as (i & xi & H1 & H2 & H3). unfold Rdist' in H1.
  rewrite H1 in Hz. injection Hz as <-. exists i, xi. auto.
Qed.

(** singletons: succeeds only strictly to the right, with index -1 *)
Lemma sorted_nearest1_singleton (a y : R) :
  sorted_nearest1 Rltb (fun a b => Rabs (a - b)) [a] y
  = if Rltb a y then Ok (-1) else Err IndexError.
Proof.
  unfold sorted_nearest1, sorted_neighbors, searchsorted. simpl filter.
  destruct (Rltb a y) eqn:E; simpl; [|reflexivity].
  replace (Rltb (Rabs (y - a)) (Rabs (y - a))) with false; [reflexivity|].
  symmetry. apply Rltb_false. lra.
Qed.


Lemma sorted_lt_le_Z ts : StronglySorted Z.lt ts -> StronglySorted (le Z.ltb) ts.
Proof.
  induction 1; constructor; auto. eapply Forall_impl; [|exact H0].
  intros b Hb. unfold le. simpl in Hb. lia.
Qed.

Lemma sorted_lt_nth ts : StronglySorted Z.lt ts -> forall i j a b, (i < j)%nat ->
  nth_error ts i = Some a -> nth_error ts j = Some b -> a < b.
Proof.
  induction 1 as [|a ts Hs IH Hall]; intros i j x y Hij Hi Hj; [destruct i; discriminate|].
  rewrite Forall_forall in Hall.
  destruct i as [|i], j as [|j]; simpl in *; try lia.
  - injection Hi as <-. apply Hall. eapply nth_error_In; eauto.
  - eapply (IH i j); eauto; lia.
Qed.

Lemma first_nearest_unique ts g i j : first_nearest ts g i -> first_nearest ts g j -> i = j.
Proof.
  intros (a & Ha & Ha1 & Ha2) (b & Hb & Hb1 & Hb2).
  destruct (Nat.lt_trichotomy i j) as [H|[H|H]]; auto; exfalso.
  - specialize (Hb2 i a H Ha). specialize (Ha1 j b Hb). lia.
  - specialize (Ha2 j b H Hb). specialize (Hb1 i a Ha). lia.
Qed.

Lemma sorted_nearest1_Z ts g : StronglySorted Z.lt ts -> (2 <= length ts)%nat ->
  exists i, sorted_nearest1 Z.ltb Zdist ts g = Ok (Z.of_nat i) /\ first_nearest ts g i.
Proof.
  intros Hs Hn.
  destruct (sorted_nearest1_gen Z.ltb Zdist) with (x := ts) (y := g) as (i & t & H1 & H2 & H3);
    auto using sorted_lt_le_Z; unfold le, Zdist in *; intros; try lia.
  (* first: compare with the index structure *)
  exists i. split; [exact H1|]. exists t. split; [exact H2|].
  split; [intros j u Hj; specialize (H3 j u Hj); lia|].
  intros j u Hji Hj. pose proof (H3 j u Hj) as Hle.
  destruct (Z.eq_dec (Z.abs (g - t)) (Z.abs (g - u))) as [He|He]; [|lia]. exfalso.
  pose proof (sorted_lt_nth _ Hs _ _ _ _ Hji Hj H2) as Hut.
  (* u < g < t symmetric: then j = i-1 is the left neighbour and is preferred *)
  assert (Hug : u < g /\ g < t) by lia.
  destruct (searchsorted_split Z.ltb ltac:(unfold le; intros; lia) ts g (sorted_lt_le_Z _ Hs)) as (K1 & K2 & K3).
  assert (Hadj : j = (i - 1)%nat).
  { destruct (Nat.eq_dec j (i - 1)) as [|Hne]; auto. exfalso.
    destruct (nth_error ts (i - 1)) as [v|] eqn:Ev.
    - pose proof (sorted_lt_nth _ Hs (i-1) i v t ltac:(lia) Ev H2).
      pose proof (sorted_lt_nth _ Hs j (i-1) u v ltac:(lia) Hj Ev).
      specialize (H3 _ _ Ev). lia.
    - apply nth_error_None in Ev. assert (i < length ts)%nat by (apply nth_error_Some; congruence). lia. }
  assert (Hk : Z.to_nat (searchsorted Z.ltb ts g) = i).
  { destruct (Nat.lt_trichotomy (Z.to_nat (searchsorted Z.ltb ts g)) i) as [H|[H|H]]; auto.
    - specialize (K3 j u Hj ltac:(lia)). unfold le in K3. lia.
    - specialize (K2 i t H2 H). lia. }
  assert (Hi : (i < length ts)%nat) by (apply nth_error_Some; congruence).
  unfold sorted_nearest1, sorted_neighbors in H1.
  assert (Hkz : searchsorted Z.ltb ts g = Z.of_nat i).
  { assert (0 <= searchsorted Z.ltb ts g) by (unfold searchsorted; lia). lia. }
  rewrite Hkz in H1.
  destruct ((0 <? Z.of_nat i) && (Z.of_nat i <? Z.of_nat (length ts))) eqn:E1; [|lia].
  destruct (Z.of_nat i - 1 =? Z.of_nat (length ts)) eqn:E2; [lia|].
  destruct (py_get_nonneg ts (Z.of_nat i - 1)) as (v & Ev & Hv); [lia|]. rewrite Hv in H1. cbn [bind] in H1.
  replace (Z.to_nat (Z.of_nat i - 1)) with j in Ev by lia. rewrite Hj in Ev. injection Ev as <-.
  destruct (py_get_nonneg ts (Z.of_nat i - 1 + 1)) as (w & Ew & Hw); [lia|]. rewrite Hw in H1. cbn [bind] in H1.
  replace (Z.to_nat (Z.of_nat i - 1 + 1)) with i in Ew by lia. rewrite H2 in Ew. injection Ew as <-.
  unfold Zdist in H1. destruct (Z.abs (g - t) <? Z.abs (g - u)) eqn:E3; [lia|]. injection H1 as H1. lia.
Qed.

(** ** datetime_range *)
Lemma datetime_range_spec start stop step : 0 < step ->
  exists l, datetime_range start stop step = Ok l
    /\ StronglySorted Z.lt l
    /\ (forall t, In t l <-> exists k, 0 <= k /\ t = start + k * step /\ t <= stop)
    /\ (forall i t, nth_error l i = Some t -> t = start + Z.of_nat i * step)
    /\ (stop < start -> l = []).
Proof.
  intros Hs. unfold datetime_range. destruct (step =? 0) eqn:E; [lia|].
  eexists; split; [reflexivity|].
  pose proof (Z.div_mod (stop - start) step ltac:(lia)) as Hd.
  pose proof (Z.mod_pos_bound (stop - start) step Hs) as Hm.
  set (q := (stop - start) / step) in *.
  split; [|split; [|split]].
  - pose proof (Zrange_sorted (q + 1)) as Hz. induction Hz as [|a l Hl IH Hall]; simpl; constructor; auto.
    rewrite Forall_forall in *. intros b Hb. apply in_map_iff in Hb as (c & <- & Hc).
    specialize (Hall c Hc). nia.
  - intros t. rewrite in_map_iff. split.
    + intros (n & <- & Hn). apply in_Zrange in Hn. exists n. repeat split; try lia. nia.
    + intros (k & Hk & -> & Hle). exists k. split; [lia|]. apply in_Zrange. nia.
  - intros i t Hi. rewrite nth_error_map in Hi.
    assert (Hil : (i < Z.to_nat (q + 1))%nat).
    { rewrite <- Zrange_length. apply nth_error_Some. intros Hnone. rewrite Hnone in Hi. discriminate. }
    rewrite nth_error_Zrange in Hi by auto. simpl in Hi. injection Hi as <-. reflexivity.
  - intros Hlt. assert (q < 0) by nia. unfold Zrange. replace (Z.to_nat (q + 1)) with 0%nat by lia. reflexivity.
Qed.

(** ** select_datetimes *)
Lemma mask_of_none {A} (ts : list A) : map (fun _ : A => true) ts = repeat true (length ts).
Proof. induction ts; simpl; congruence. Qed.


Lemma map2_andb_true (l : list bool) : map2 andb (map (fun _ => true) l) l = l.
Proof. induction l; simpl; congruence. Qed.

Lemma map2_andb_map {A} (f g : A -> bool) l : map2 andb (map f l) (map g l) = map (fun t => f t && g t) l.
Proof. induction l; simpl; congruence. Qed.

Lemma mem_index_spec n i l : (forall k, In k l -> 0 <= k) ->
  mem_index n i l = true <-> In i l.
Proof.
  intros H. unfold mem_index. rewrite existsb_exists. split.
  - intros (k & Hk & E). specialize (H k Hk). destruct (k <? 0) eqn:E2; [lia|].
    assert (k = i) by lia. congruence.
  - intros Hi. exists i. split; auto. specialize (H i Hi). destruct (i <? 0) eqn:E2; [lia|]. lia.
Qed.


Lemma py_get_hd (ts : list Z) : ts <> [] -> py_get ts 0 = Ok (hd 0 ts).
Proof.
  destruct ts as [|t ts]; [congruence|]. intros _.
  destruct (py_get_nonneg (t :: ts) 0) as (a & Ha & Hb); [simpl; lia|]. rewrite Hb. simpl in *. congruence.
Qed.
Lemma py_get_last (l : list Z) : l <> [] -> py_get l (-1) = Ok (last l 0).
Proof.
  intros Hne. unfold py_get, py_index.
  assert (0 < Z.of_nat (length l)) by (destruct l; [congruence|simpl; lia]).
  destruct (-1 <? - Z.of_nat (length l)) eqn:E1; [lia|]. change (-1 <? 0) with true. cbn [bind].
  destruct (exists_last Hne) as (l' & x & ->).
  rewrite app_length in *. cbn [length] in *.
  rewrite nth_error_app2 by lia.
  replace (Z.to_nat (Z.of_nat (length l' + 1) + -1) - length l')%nat with 0%nat by lia.
  rewrite last_last. reflexivity.
Qed.

Lemma select_datetimes_nosnap ts start stop maxdt origin : ts <> [] ->
  let s := match start with Some s => s | None => hd 0 ts end in
  let e := match stop with Some e => e | None => last ts 0 end in
  select_datetimes ts start stop None maxdt origin =
    if e <? s then Err ValueError
    else Ok (map (fun t => opt_ge start t && opt_le stop t) ts).
Proof.
  intros Hne s e. unfold select_datetimes. cbn [truthy].
  rewrite (py_get_hd ts Hne), (py_get_last ts Hne).
  destruct start, stop; cbn [bind]; subst s e; destruct (_ <? _); auto; f_equal;
    unfold opt_ge, opt_le; rewrite ?map2_andb_map; apply map_ext; intros; destruct (_ <=? _);
    try (destruct (_ <=? _)); reflexivity.
Qed.


Lemma lattice_iff origin s d g : 0 < d ->
  (exists k, 0 <= k /\ g = (s + (origin - s) mod d) + k * d) <-> ((g - origin) mod d = 0 /\ s <= g).
Proof.
  intros Hd. pose proof (Z.div_mod (origin - s) d ltac:(lia)) as H1.
  pose proof (Z.mod_pos_bound (origin - s) d Hd) as H2.
  set (m := (origin - s) mod d) in *. set (q := (origin - s) / d) in *.
  split.
  - intros (k & Hk & ->). split; [|nia].
    replace (s + m + k * d - origin) with ((k - q) * d) by nia. apply Z.mod_mul. lia.
  - intros (Hm & Hs). apply Z.mod_divide in Hm; [|lia]. destruct Hm as [c Hc].
    exists (c + q). split; [|nia]. assert (g = s + m + (c + q) * d) by nia. nia.
Qed.

Lemma select_datetimes_snap ts start stop d maxdt origin :
  StronglySorted Z.lt ts -> (2 <= length ts)%nat -> 0 < d ->
  let tol := match maxdt with Some m => m | None => half_even d end in
  (eff_stop ts stop d < eff_start ts start d ->
     select_datetimes ts start stop (Some d) maxdt origin = Err ValueError) /\
  (eff_start ts start d <= eff_stop ts stop d ->
     exists mask, select_datetimes ts start stop (Some d) maxdt origin = Ok mask /\
       length mask = length ts /\
       forall i b, nth_error mask i = Some b ->
         (b = true <-> snap_selected ts start stop d tol origin i)).
Proof.
  intros Hs Hn Hd tol.
  assert (Hne : ts <> []) by (destruct ts; [simpl in Hn; lia|congruence]).
  unfold select_datetimes, truthy. destruct (d =? 0) eqn:Ed; [lia|]. clear Ed.
  rewrite (py_get_hd ts Hne), (py_get_last ts Hne).
  set (ES := eff_start ts start d). set (EE := eff_stop ts stop d).
  (* normalise the two binds *)
  assert (Hsel : forall (K : list bool -> Z -> Z -> result (list bool)),
    bind (match start with
          | Some s => Ok (map2 andb (map (fun _ => true) ts) (map (fun t => s <=? t) ts), s)
          | None => bind (Ok (hd 0 ts)) (fun t0 => Ok (map (fun _ => true) ts, t0 - d)) end)
      (fun '(selected, s) =>
       bind (match stop with
             | Some e => Ok (map2 andb selected (map (fun t => t <=? e) ts), e)
             | None => bind (Ok (last ts 0)) (fun t1 => Ok (selected, t1 + d)) end)
         (fun '(selected, e) => K selected s e))
    = K (map (fun t => opt_ge start t && opt_le stop t) ts) ES EE).
  { intros K. unfold ES, EE. destruct start, stop; cbn [bind eff_start eff_stop opt_ge opt_le];
    rewrite ?map2_andb_map; f_equal; apply map_ext; intros; cbn; repeat destruct (_ <=? _); reflexivity. }
  rewrite Hsel. clear Hsel.
  split; intros Hse.
  - destruct (EE <? ES) eqn:E; [reflexivity|lia].
  - destruct (EE <? ES) eqn:E; [lia|].
    set (s0 := ES + (origin - ES) mod d).
    destruct (datetime_range_spec s0 EE d Hd) as (targets & -> & Hts & Htin & _ & _). cbn [bind].
    assert (Hnear : exists near, sorted_nearest Z.ltb Zdist ts targets = Ok near).
    { clear Hts Htin. unfold sorted_nearest. induction targets as [|g gs [near IH]]; [exists []; reflexivity|].
      destruct (sorted_nearest1_Z ts g Hs Hn) as (i & Hi & _). exists (Z.of_nat i :: near).
      simpl. rewrite Hi. simpl. rewrite IH. reflexivity. }
    destruct Hnear as [near Hnear]. rewrite Hnear. cbn [bind].
    assert (Hnn : forall k g, nth_error targets k = Some g ->
       exists i t, nth_error near k = Some (Z.of_nat i) /\ first_nearest ts g i /\ nth_error ts i = Some t).
    { intros k g Hk. unfold sorted_nearest in Hnear.
      destruct (mapM_ok_nth _ _ _ Hnear k g Hk) as (z & Hz & Hnz).
      destruct (sorted_nearest1_Z ts g Hs Hn) as (i & Hi & Hf). rewrite Hi in Hz. injection Hz as <-.
      pose proof Hf as (t & Ht & _). exists i, t. auto. }
    assert (Hlen : length near = length targets) by (eapply mapM_ok_length; eauto).
    assert (Hng : exists nt, mapM (py_get ts) near = Ok nt).
    { assert (Hall : forall z, In z near -> exists t, py_get ts z = Ok t).
      { intros z Hz. apply In_nth_error in Hz as [k Hk].
        assert (Hkl : (k < length targets)%nat) by (rewrite <- Hlen; apply nth_error_Some; congruence).
        destruct (nth_error targets k) as [g|] eqn:Eg; [|apply nth_error_None in Eg; lia].
        destruct (Hnn k g Eg) as (i & t & H1 & H2 & H3). rewrite Hk in H1. injection H1 as ->.
        destruct (py_get_nonneg ts (Z.of_nat i)) as (a & _ & Ha); [|eauto].
        assert (i < length ts)%nat by (apply nth_error_Some; congruence). lia. }
      clear -Hall. induction near as [|z near IH]; [exists []; reflexivity|].
      destruct (Hall z (or_introl eq_refl)) as [t Ht].
      destruct IH as [nt IH]; [intros; apply Hall; right; auto|].
      exists (t :: nt). simpl. rewrite Ht. simpl. rewrite IH. reflexivity. }
    destruct Hng as [nt Hnt]. rewrite Hnt. cbn [bind].
    set (kept := map fst (filter _ _)).
    (* membership in kept *)
    assert (Hkept : forall i, In (Z.of_nat i) kept <->
       exists g t, In g targets /\ first_nearest ts g i /\ nth_error ts i = Some t /\ Z.abs (g - t) <= tol).
    { intros i. unfold kept. rewrite in_map_iff. split.
      - intros ([z dz] & E1 & Hf). apply filter_In in Hf as [Hf1 Hf2]. simpl in E1, Hf2. subst z.
        apply In_nth_error in Hf1 as [k Hk].
        assert (Hk1 : nth_error near k = Some (Z.of_nat i) /\ nth_error (map2 Zdist targets nt) k = Some dz).
        { clear -Hk. revert Hk. generalize (map2 Zdist targets nt). revert k.
          induction near as [|a near IH]; intros [|k] [|b m]; simpl; try discriminate.
          - intros H; injection H as <- <-; auto.
          - apply IH. }
        destruct Hk1 as [Hk1 Hk2]. rewrite nth_error_map2 in Hk2.
        destruct (nth_error targets k) as [g|] eqn:Eg; [|discriminate].
        destruct (nth_error nt k) as [t|] eqn:Et; [|discriminate]. injection Hk2 as <-.
        destruct (Hnn k g Eg) as (i' & t' & H1 & H2 & H3). rewrite Hk1 in H1. injection H1 as H1.
        assert (i' = i) by lia. subst i'.
        destruct (mapM_ok_nth _ _ _ Hnt k _ Hk1) as (y & Hy & Hyn). rewrite Et in Hyn. injection Hyn as <-.
        destruct (py_get_nonneg ts (Z.of_nat i)) as (a & Ha1 & Ha2).
        { assert (i < length ts)%nat by (apply nth_error_Some; congruence). lia. }
        rewrite Nat2Z.id in Ha1. assert (t = t') by congruence. subst t'.
        exists g, t. split; [eapply nth_error_In; eauto|]. split; auto. split; auto.
        unfold Zdist in Hf2. lia.
      - intros (g & t & Hg & Hf & Ht & Htol). apply In_nth_error in Hg as [k Hk].
        destruct (Hnn k g Hk) as (i' & t' & H1 & H2 & H3).
        assert (i' = i) by (eapply first_nearest_unique; eauto). subst i'.
        exists (Z.of_nat i, Zdist g t). split; [reflexivity|]. apply filter_In. split.
        + destruct (mapM_ok_nth _ _ _ Hnt k _ H1) as (y & Hy & Hyn).
          destruct (py_get_nonneg ts (Z.of_nat i)) as (a & Ha1 & Ha2).
          { assert (i < length ts)%nat by (apply nth_error_Some; congruence). lia. }
          rewrite Nat2Z.id in Ha1. assert (y = t) by congruence. subst y.
          assert (Hd2 : nth_error (map2 Zdist targets nt) k = Some (Zdist g t))
            by (rewrite nth_error_map2, Hk, Hyn; reflexivity).
          clear -H1 Hd2. revert H1 Hd2. generalize (map2 Zdist targets nt). revert k.
          induction near as [|a near IH]; intros [|k] [|b m]; simpl; try discriminate.
          * intros E1 E2; injection E1 as <-; injection E2 as <-; left; auto.
          * intros; right; eapply IH; eauto.
        + simpl. unfold Zdist. fold tol. lia. }
    assert (Hknn : forall k, In k kept -> 0 <= k).
    { intros k Hk. unfold kept in Hk. apply in_map_iff in Hk as ([z dz] & <- & Hf).
      apply filter_In in Hf as [Hf _]. apply in_combine_l in Hf. apply In_nth_error in Hf as [m Hm].
      simpl. destruct (nth_error targets m) as [g|] eqn:Eg.
      - destruct (Hnn m g Eg) as (i' & _ & H1 & _). rewrite Hm in H1. injection H1 as ->. lia.
      - apply nth_error_None in Eg. assert (m < length near)%nat by (apply nth_error_Some; congruence). lia. }
    eexists. split; [reflexivity|].
    split; [rewrite map2_length, !map_length, Zrange_length; lia|].
    intros i b Hi. rewrite nth_error_map2 in Hi. rewrite !nth_error_map in Hi.
    destruct (nth_error ts i) as [t|] eqn:Et; [|discriminate]. simpl in Hi.
    assert (Hil : (i < length ts)%nat) by (apply nth_error_Some; congruence).
    rewrite nth_error_Zrange in Hi by lia. simpl in Hi. injection Hi as <-.
    rewrite !andb_true_iff. rewrite mem_index_spec by auto. rewrite Hkept.
    unfold snap_selected. split.
    + intros ((Hg1 & Hg2) & g & t' & Hg & Hf & Ht' & Htol). rewrite Et in Ht'. injection Ht' as <-.
      exists t. split; auto. split; auto. split; auto. exists g.
      apply Htin in Hg as (k & Hk1 & Hk2 & Hk3).
      destruct (proj1 (lattice_iff origin ES d g Hd)) as [L1 L2]; [exists k; split; auto|].
      repeat split; auto.
    + intros (t' & Ht' & Hg1 & Hg2 & g & Hl & Hr & Hf & Htol). rewrite Et in Ht'. injection Ht' as <-.
      split; [auto|]. exists g, t. split; [|auto].
      apply Htin. destruct (proj2 (lattice_iff origin ES d g Hd)) as (k & Hk1 & Hk2); [split; [auto|apply Hr]|].
      exists k. repeat split; auto. apply Hr.
Qed.

(** Without start and end, all snap instants count. *)
Lemma hd_nth (ts : list Z) : ts <> [] -> nth_error ts 0 = Some (hd 0 ts).
Proof. destruct ts; [congruence|reflexivity]. Qed.
Lemma last_nth (ts : list Z) : ts <> [] -> nth_error ts (length ts - 1) = Some (last ts 0).
Proof.
  intros H. destruct (exists_last H) as (l & x & ->). rewrite last_last, app_length. simpl.
  rewrite nth_error_app2 by lia. replace (length l + 1 - 1 - length l)%nat with 0%nat by lia. reflexivity.
Qed.

Lemma snap_selected_unbounded ts d tol origin i :
  StronglySorted Z.lt ts -> (2 <= length ts)%nat -> 0 < d ->
  (snap_selected ts None None d tol origin i <->
   exists t g, nth_error ts i = Some t /\ (g - origin) mod d = 0 /\ first_nearest ts g i /\ Z.abs (g - t) <= tol).
Proof.
  intros Hs Hn Hd. unfold snap_selected, eff_start, eff_stop.
  assert (Hne : ts <> []) by (destruct ts; [simpl in Hn; lia|congruence]).
  split.
  - intros (t & H1 & _ & _ & g & H2 & H3 & H4 & H5). exists t, g. auto.
  - intros (t & g & Ht & Hl & Hf & Htol).
    exists t. split; [exact Ht|]. split; [reflexivity|]. split; [reflexivity|].
    pose proof (hd_nth ts Hne) as H0. pose proof (last_nth ts Hne) as H1.
    set (a := hd 0 ts) in *. set (b := last ts 0) in *.
    destruct (Z_lt_le_dec g (a - d)) as [Hlow|Hlow]; [|destruct (Z_lt_le_dec (b + d) g) as [Hhigh|Hhigh]].
    + (* below: i = 0, use the lattice point in (a-d, a] *)
      assert (Hi0 : i = 0%nat).
      { destruct Hf as (t' & Ht' & Hf1 & Hf2). rewrite Ht in Ht'; injection Ht' as <-.
        destruct i; auto. exfalso. pose proof (Hf2 0%nat a ltac:(lia) H0).
        pose proof (sorted_lt_nth _ Hs 0 (S i) a t ltac:(lia) H0 Ht). lia. }
      subst i. rewrite H0 in Ht. injection Ht as <-.
      set (m := (a - origin) mod d). pose proof (Z.mod_pos_bound (a - origin) d Hd).
      pose proof (Z.div_mod (a - origin) d ltac:(lia)).
      exists (a - m). split.
      { replace (a - m - origin) with (((a - origin) / d) * d) by (subst m; lia). apply Z.mod_mul; lia. }
      assert (Hab : a <= b).
      { destruct (Nat.eq_dec 0 (length ts - 1)); [lia|].
        pose proof (sorted_lt_nth _ Hs 0 (length ts - 1) a b ltac:(lia) H0 H1). lia. }
      split; [lia|]. split; [|lia].
      exists a. split; [exact H0|]. split; [|intros; lia].
      intros j u Hj. destruct j; [rewrite H0 in Hj; injection Hj as <-; lia|].
      pose proof (sorted_lt_nth _ Hs 0 (S j) a u ltac:(lia) H0 Hj). lia.
    + assert (Hil : i = (length ts - 1)%nat).
      { destruct Hf as (t' & Ht' & Hf1 & Hf2). rewrite Ht in Ht'; injection Ht' as <-.
        assert (i < length ts)%nat by (apply nth_error_Some; congruence).
        destruct (Nat.eq_dec i (length ts - 1)); auto. exfalso.
        pose proof (sorted_lt_nth _ Hs i (length ts - 1) t b ltac:(lia) Ht H1).
        specialize (Hf1 _ _ H1). lia. }
      subst i. rewrite H1 in Ht. injection Ht as <-.
      set (m := (origin - b) mod d). pose proof (Z.mod_pos_bound (origin - b) d Hd).
      pose proof (Z.div_mod (origin - b) d ltac:(lia)).
      exists (b + m). split.
      { replace (b + m - origin) with ((- ((origin - b) / d)) * d) by (subst m; lia). apply Z.mod_mul; lia. }
      assert (Hab : a <= b).
      { destruct (Nat.eq_dec 0 (length ts - 1)); [lia|].
        pose proof (sorted_lt_nth _ Hs 0 (length ts - 1) a b ltac:(lia) H0 H1). lia. }
      split; [lia|]. split; [|lia].
      exists b. split; [exact H1|].
      assert (Hlt : forall j u, (j < length ts - 1)%nat -> nth_error ts j = Some u -> u < b).
      { intros j u Hj Hu. apply (sorted_lt_nth _ Hs j (length ts - 1) u b); auto. }
      split.
      * intros j u Hj. assert (j < length ts)%nat by (apply nth_error_Some; congruence).
        destruct (Nat.eq_dec j (length ts - 1)) as [->|]; [rewrite H1 in Hj; injection Hj as <-; lia|].
        specialize (Hlt j u ltac:(lia) Hj). lia.
      * intros j u Hjl Hj. specialize (Hlt j u Hjl Hj). lia.
    + exists g. repeat split; auto; lia.
Qed.
