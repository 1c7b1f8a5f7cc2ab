(** Proofs: parse_params, residual rows. *)
From Verif Require Import Base BaseLemmas XReal ParamsModel ParamsSpec ParamsProofs ParamsProofs2 RasterProofs.
Open Scope R_scope.

(** ** Assignment at positions *)
Lemma py_index_in {A} (l : list A) p : (0 <= p < Z.of_nat (length l))%Z -> py_index l p = Ok p.
Proof.
  intros H. unfold py_index. destruct (p <? - Z.of_nat (length l))%Z eqn:E1; [apply Z.ltb_lt in E1; lia|].
  destruct (p <? 0)%Z eqn:E2; [apply Z.ltb_lt in E2; lia|]. destruct (p <? Z.of_nat (length l))%Z eqn:E3; [reflexivity|apply Z.ltb_ge in E3; lia].
Qed.
Lemma put_at_spec {A} (ps : list Z) : forall (w v : list A), NoDup ps -> Forall (fun p => (0 <= p < Z.of_nat (length v))%Z) ps -> length w = length ps ->
  exists v', put_at ps w v = Ok v' /\ length v' = length v /\
    (forall n p d, nth_error ps n = Some p -> nth (Z.to_nat p) v' d = nth n w d) /\
    (forall p d, (0 <= p)%Z -> ~ In p ps -> nth (Z.to_nat p) v' d = nth (Z.to_nat p) v d).
Proof.
  induction ps as [|p ps IH]; intros [|y w] v N F L; try discriminate L.
  - exists v. cbn. repeat split. intros [|n] p d E; discriminate E.
  - inversion N as [|? ? NI N']; subst. inversion F as [|? ? Fp F']; subst. cbn [put_at]. rewrite py_index_in by assumption. cbn [bind].
    destruct (IH w (set_nth (Z.to_nat p) y v)) as (v' & E & Lv & V1 & V2); [assumption| |cbn in L; lia|].
    { rewrite set_nth_length. exact F'. }
    exists v'. split; [exact E|]. split; [now rewrite Lv, set_nth_length|]. split.
    + intros [|n] q d Q; cbn in Q.
      * injection Q as <-. rewrite V2 by (auto; lia). cbn. apply nth_set_nth_eq. lia.
      * cbn. now apply V1.
    + intros q d Q NIq. rewrite V2; [|assumption|intros I; apply NIq; now right]. apply nth_set_nth_neq. intros C. apply NIq. left. lia.
Qed.

(** ** parse_params *)
Definition choices (a : attr) (s : sel) : list Z :=
  match s with STrue => Zrange (attr_len a) | SInt k => [k] | SList l => l | SFalse => [0%Z] | SNone => [] end.
Lemma positions_choices a s : positions_of a s = map (fun i => (attr_start a + i)%Z) (choices a s).
Proof. destruct s, a; reflexivity. Qed.
Lemma choices_in a s i : documented a s -> In i (choices a s) <-> chosen a s i.
Proof.
  destruct s; cbn [choices chosen documented]; intros D; [apply in_Zrange|destruct D|cbn; tauto| |tauto].
  cbn. split; [intros [->|[]]; reflexivity|auto].
Qed.
Lemma choices_nth a s n i : documented a s -> nth_error (choices a s) n = Some i <-> nth_choice a s n = Some i.
Proof.
  destruct s; cbn [choices nth_choice documented]; intros D; [|destruct D| | |tauto].
  - destruct (Z.of_nat n <? attr_len a)%Z eqn:E.
    + apply Z.ltb_lt in E. rewrite nth_error_Zrange by lia. tauto.
    + apply Z.ltb_ge in E. split; [|discriminate]. intros H. exfalso. assert (K : nth_error (Zrange (attr_len a)) n <> None) by congruence. apply nth_error_Some in K.
      rewrite Zrange_length in K. lia.
  - split; [destruct n; discriminate|discriminate].
  - destruct n as [|n]; [tauto|]. split; [destruct n; discriminate|discriminate].
Qed.
Lemma choices_nodup a s : documented a s -> NoDup (choices a s).
Proof.
  destruct s; cbn [choices documented]; intros D; [|destruct D|constructor|constructor; [intros []|constructor]|destruct D; assumption].
  destruct a; cbn; repeat constructor; cbn; intuition discriminate.
Qed.
Lemma choices_attr a s i : documented a s -> In i (choices a s) -> in_attr a i.
Proof.
  destruct s; cbn [choices documented]; intros D I; [apply in_Zrange in I; exact I|destruct D|destruct I|destruct I as [<-|[]]; assumption|].
  destruct D as [_ F]. rewrite Forall_forall in F. now apply F.
Qed.
Lemma attr_bounds a i : in_attr a i -> (0 <= attr_start a + i < 20)%Z.
Proof. unfold in_attr, attr_len. destruct a; cbn [attr_start attr_stop]; lia. Qed.
Lemma attr_disjoint a b i j : in_attr a i -> in_attr b j -> (attr_start a + i = attr_start b + j)%Z -> a = b /\ i = j.
Proof. unfold in_attr, attr_len. destruct a, b; cbn [attr_start attr_stop]; intros H K E; split; try reflexivity; try (exfalso; lia); lia. Qed.

Definition at_pos {A} (a : attr) (i : Z) (l : list A) (d : A) : A := nth (Z.to_nat (attr_start a + i)) l d.
Definition bounded_at (params : list (attr * pval)) (a : attr) (i : Z) (b : xr * xr) : Prop :=
  exists s lo hi n, In (a, PBounded s lo hi) params /\ nth_choice a s n = Some i /\ b = (bound_at lo n, bound_at hi n).
Definition good (params : list (attr * pval)) : Prop :=
  NoDup (map fst params) /\ Forall (fun kv => documented (fst kv) (pval_sel (snd kv)) /\ bound_fits (fst kv) (snd kv)) params.

Lemma positions_nodup a s : documented a s -> NoDup (positions_of a s).
Proof.
  intros D. rewrite positions_choices. pose proof (choices_nodup a s D) as N. induction N; cbn; constructor; [|assumption].
  intros I. apply in_map_iff in I. destruct I as (y & E & I). assert (y = x) by lia. subst. contradiction.
Qed.
Lemma positions_range a s : documented a s -> Forall (fun p => (0 <= p < 20)%Z) (positions_of a s).
Proof.
  intros D. rewrite positions_choices. apply Forall_forall. intros p I. apply in_map_iff in I. destruct I as (i & <- & I). apply attr_bounds. now apply (choices_attr a s).
Qed.
Lemma positions_nth a s n i : documented a s -> nth_choice a s n = Some i -> nth_error (positions_of a s) n = Some (attr_start a + i)%Z.
Proof. intros D H. rewrite positions_choices, nth_error_map. apply choices_nth in H; [|assumption]. now rewrite H. Qed.
Lemma positions_in a b s i : documented a s -> in_attr b i -> In (attr_start b + i)%Z (positions_of a s) <-> a = b /\ chosen a s i.
Proof.
  intros D Hi. rewrite positions_choices, in_map_iff. split.
  - intros (j & E & I). pose proof (choices_attr a s j D I) as Hj. destruct (attr_disjoint a b j i Hj Hi E) as [-> ->]. split; [reflexivity|]. now apply choices_in.
  - intros [-> C]. exists i. split; [reflexivity|]. now apply choices_in.
Qed.
Lemma selects_spec a s : documented a s -> selects s = false -> positions_of a s = [].
Proof. destruct s; cbn; try discriminate; intros D E; [reflexivity|]. destruct l; [reflexivity|discriminate E]. Qed.
Lemma expand_length l n : length l = 1%nat \/ length l = n -> length (expand l n) = n.
Proof. destruct l as [|x [|y l]]; cbn; intros [H|H]; try lia; try apply repeat_length; auto. Qed.
Lemma nth_repeat_in {A} (x d : A) n k : (k < n)%nat -> nth k (repeat x n) d = x.
Proof. revert k. induction n as [|n IH]; intros [|k] L; try lia; [reflexivity|]. cbn. apply IH. lia. Qed.
Lemma expand_nth l n k : length l = 1%nat \/ length l = n -> (k < n)%nat -> nth k (expand l n) NaN = bound_at l k.
Proof. destruct l as [|x [|y l]]; cbn [expand bound_at]; intros H L; try reflexivity. now apply nth_repeat_in. Qed.

Lemma step_spec s a v : documented a (pval_sel v) -> bound_fits a v -> length (ps_mask s) = 20%nat -> length (ps_bounds s) = 20%nat ->
  exists s', parse_step s (a, v) = Ok s' /\ length (ps_mask s') = 20%nat /\ length (ps_bounds s') = 20%nat /\
    (forall b i, in_attr b i -> (at_pos b i (ps_mask s') false = true <-> at_pos b i (ps_mask s) false = true \/ (a = b /\ chosen a (pval_sel v) i))) /\
    (forall i bd, bounded_at [(a, v)] a i bd -> at_pos a i (ps_bounds s') (NaN, NaN) = bd) /\
    (forall b i, in_attr b i -> (forall bd, ~ bounded_at [(a, v)] b i bd) -> at_pos b i (ps_bounds s') (NaN, NaN) = at_pos b i (ps_bounds s) (NaN, NaN)).
Proof.
  intros D B Lm Lb. unfold parse_step. cbv beta iota.
  assert (M : exists s1, (if selects (pval_sel v) then let ps := positions_of a (pval_sel v) in let* m := put_at ps (repeat true (length ps)) (ps_mask s) in Ok (mk_pstate m (ps_bounds s) (Some ps)) else Ok s) = Ok s1 /\
    length (ps_mask s1) = 20%nat /\ ps_bounds s1 = ps_bounds s /\ (selects (pval_sel v) = true -> ps_positions s1 = Some (positions_of a (pval_sel v))) /\
    (forall b i, in_attr b i -> (at_pos b i (ps_mask s1) false = true <-> at_pos b i (ps_mask s) false = true \/ (a = b /\ chosen a (pval_sel v) i)))).
  { destruct (selects (pval_sel v)) eqn:S.
    - cbv zeta. destruct (put_at_spec (positions_of a (pval_sel v)) (repeat true (length (positions_of a (pval_sel v)))) (ps_mask s)) as (m & E & L & V1 & V2).
      + now apply positions_nodup.
      + rewrite Lm. now apply positions_range.
      + apply repeat_length.
      + rewrite E. cbn [bind]. eexists. split; [reflexivity|]. cbn. split; [now rewrite L|]. split; [reflexivity|]. split; [reflexivity|].
        intros b i Hi. unfold at_pos. destruct (in_dec Z.eq_dec (attr_start b + i)%Z (positions_of a (pval_sel v))) as [I|N].
        * destruct (In_nth_error _ _ I) as (n & En). rewrite (V1 n _ false En). rewrite nth_repeat_in by (apply nth_error_Some; congruence).
          apply positions_in in I; auto. tauto.
        * rewrite V2; [|pose proof (attr_bounds b i Hi); lia|exact N]. split; [auto|]. intros [H|H]; [assumption|]. exfalso. apply N. now apply positions_in.
    - exists s. split; [reflexivity|]. split; [assumption|]. split; [reflexivity|]. split; [discriminate|]. intros b i Hi. split; [auto|]. intros [H|H]; [assumption|].
      exfalso. pose proof (selects_spec a _ D S) as P. apply (positions_in a b (pval_sel v) i D Hi) in H. rewrite P in H. destruct H. }
  destruct M as (s1 & E0 & L1 & B1 & P1 & M1). cbv zeta in E0. rewrite E0. clear E0. cbn [bind]. destruct v as [sl|sl lo hi]; cbn [pval_sel] in *.
  - exists s1. split; [reflexivity|]. split; [assumption|]. split; [now rewrite B1|]. split; [assumption|]. split.
    + intros i bd (s' & lo & hi & n & [E|[]] & _). discriminate E.
    + intros b i _ _. now rewrite B1.
  - destruct B as (Bn & Bl & Bh). assert (S : selects sl = true) by (destruct (selects sl) eqn:S; [reflexivity|rewrite (selects_spec a sl D S) in Bn; cbn in Bn; lia]).
    rewrite (P1 S). cbv zeta. set (ps := positions_of a sl) in *. rewrite (expand_length lo), (expand_length hi) by assumption. rewrite Nat.eqb_refl. cbn [andb].
    destruct (put_at_spec ps (combine (expand lo (length ps)) (expand hi (length ps))) (ps_bounds s1)) as (bs & E & L & V1 & V2).
    + now apply positions_nodup.
    + rewrite B1, Lb. now apply positions_range.
    + rewrite combine_length, !expand_length by assumption. apply Nat.min_id.
    + rewrite E. cbn [bind]. eexists. split; [reflexivity|]. cbn. split; [assumption|]. split; [now rewrite L, B1|]. split; [assumption|]. split.
      * intros i bd (s' & lo' & hi' & n & [Eq|[]] & Hn & ->). injection Eq as <- <- <-. unfold at_pos. pose proof (positions_nth a sl n i D Hn) as Pn. fold ps in Pn. rewrite (V1 n _ (NaN, NaN) Pn).
        assert (Ln : (n < length ps)%nat) by (apply nth_error_Some; congruence).
        rewrite combine_nth by (rewrite !expand_length by assumption; reflexivity). now rewrite !expand_nth by assumption.
      * intros b i Hi NB. unfold at_pos. rewrite V2; [now rewrite B1|pose proof (attr_bounds b i Hi); lia|]. intros I. apply positions_in in I; auto. destruct I as [-> C].
        apply choices_in in C; [|assumption]. destruct (In_nth_error _ _ C) as (n & En). apply choices_nth in En; [|assumption].
        eapply NB. exists sl, lo, hi, n. split; [now left|]. split; [exact En|reflexivity].
Qed.

Lemma loop_spec params : forall s, good params -> length (ps_mask s) = 20%nat -> length (ps_bounds s) = 20%nat ->
  exists s', parse_loop s params = Ok s' /\ length (ps_mask s') = 20%nat /\ length (ps_bounds s') = 20%nat /\
    (forall b i, in_attr b i -> (at_pos b i (ps_mask s') false = true <-> at_pos b i (ps_mask s) false = true \/ exists v, In (b, v) params /\ chosen b (pval_sel v) i)) /\
    (forall b i bd, in_attr b i -> bounded_at params b i bd -> at_pos b i (ps_bounds s') (NaN, NaN) = bd) /\
    (forall b i, in_attr b i -> (forall bd, ~ bounded_at params b i bd) -> at_pos b i (ps_bounds s') (NaN, NaN) = at_pos b i (ps_bounds s) (NaN, NaN)).
Proof.
  induction params as [|[a v] params IH]; intros s [N F] Lm Lb.
  - exists s. cbn. split; [reflexivity|]. split; [assumption|]. split; [assumption|]. split.
    + intros b i _. split; [auto|]. intros [H|(v & [] & _)]. exact H.
    + split; [|reflexivity]. intros b i bd _ (? & ? & ? & ? & [] & _).
  - inversion N as [|? ? NI N']; subst. inversion F as [|? ? [Dv Bv] F']; subst. cbn [fst snd] in *.
    destruct (step_spec s a v Dv Bv Lm Lb) as (s1 & E1 & L1 & L1b & M1 & B1 & B1').
    destruct (IH s1 (conj N' F') L1 L1b) as (s2 & E2 & L2 & L2b & M2 & B2 & B2'). exists s2. cbn [parse_loop]. rewrite E1. cbn [bind]. split; [exact E2|]. split; [assumption|]. split; [assumption|].
    assert (Na : forall i bd, ~ bounded_at params a i bd).
    { intros i bd (sl & lo & hi & n & I & _). apply NI. apply in_map_iff. now exists (a, PBounded sl lo hi). }
    split; [|split].
    + intros b i Hi. rewrite (M2 b i Hi), (M1 b i Hi). split.
      * intros [[H|[-> C]]|(w & I & C)]; [now left|right; exists v; split; [now left|assumption]|right; exists w; split; [now right|assumption]].
      * intros [H|(w & [E|I] & C)]; [auto|injection E as -> ->; auto|right; now exists w].
    + intros b i bd Hi (sl & lo & hi & n & [E|I] & Hn & ->).
      * injection E as -> ->. rewrite B2' by auto. apply B1. exists sl, lo, hi, n. split; [now left|auto].
      * apply B2; [assumption|]. exists sl, lo, hi, n. auto.
    + intros b i Hi NB. rewrite B2'; [|assumption|]. 2:{ intros bd (sl & lo & hi & n & I & R). apply (NB bd). exists sl, lo, hi, n. split; [now right|assumption]. }
      apply B1'; [assumption|]. intros bd (sl & lo & hi & n & [E|[]] & R). apply (NB bd). exists sl, lo, hi, n. split; [now left|assumption].
Qed.

Lemma nth_map_d {A B} (f : A -> B) l n d d' : (n < length l)%nat -> nth n (map f l) d' = f (nth n l d).
Proof. intros L. rewrite (nth_indep _ d' (f d)) by now rewrite map_length. apply map_nth. Qed.

Definition the_default (db : option (list (xr * xr))) (a : attr) (i : Z) : xr * xr :=
  match db with
  | None => (NInf, PInf)
  | Some d => (or_default (fst (at_pos a i d (NaN, NaN))) NInf, or_default (snd (at_pos a i d (NaN, NaN))) PInf)
  end.
Lemma fill_or b d1 d2 : fill_max (fill_min b (d1, d2)) (d1, d2) = (or_default (fst b) d1, or_default (snd b) d2).
Proof. destruct b as [[| | |] [| | |]]; reflexivity. Qed.
Lemma or_or x d e : or_default (or_default x d) e = or_default x (or_default d e).
Proof. destruct x; reflexivity. Qed.

Theorem parse_spec params db : good params -> (forall d, db = Some d -> length d = 20%nat) ->
  exists mask bounds, parse_params params db = Ok (mask, bounds) /\ length mask = 20%nat /\ length bounds = 20%nat /\
    (forall a i, in_attr a i -> (at_pos a i mask false = true <-> exists v, In (a, v) params /\ chosen a (pval_sel v) i)) /\
    (forall a i bd, in_attr a i -> bounded_at params a i bd -> at_pos a i bounds (NaN, NaN) = (or_default (fst bd) (fst (the_default db a i)), or_default (snd bd) (snd (the_default db a i)))) /\
    (forall a i, in_attr a i -> (forall bd, ~ bounded_at params a i bd) -> at_pos a i bounds (NaN, NaN) = the_default db a i).
Proof.
  intros G Hd. destruct (loop_spec params (mk_pstate (repeat false 20) (repeat (NaN, NaN) 20) None) G) as (s & E & Lm & Lb & M & B & B'); try apply repeat_length.
  unfold parse_params. rewrite E. cbn [bind].
  set (b1 := match db with Some d => map2 (fun x y => fill_max (fill_min x y) y) (ps_bounds s) d | None => ps_bounds s end).
  assert (L1 : length b1 = 20%nat). { unfold b1. destruct db as [d|]; [|assumption]. rewrite map2_length, Lb, (Hd d eq_refl). reflexivity. }
  exists (ps_mask s), (map (fun x => fill_max (fill_min x (NInf, PInf)) (NInf, PInf)) b1). split; [reflexivity|]. split; [assumption|]. split; [now rewrite map_length|].
  assert (K : forall a i, in_attr a i -> at_pos a i (map (fun x => fill_max (fill_min x (NInf, PInf)) (NInf, PInf)) b1) (NaN, NaN) =
    (or_default (fst (at_pos a i (ps_bounds s) (NaN, NaN))) (fst (the_default db a i)), or_default (snd (at_pos a i (ps_bounds s) (NaN, NaN))) (snd (the_default db a i)))).
  { intros a i Hi. pose proof (attr_bounds a i Hi) as Hp. unfold at_pos at 1. rewrite (nth_map_d _ b1 _ (NaN, NaN)) by lia. rewrite fill_or.
    unfold b1. destruct db as [d|]; [|reflexivity]. rewrite (map2_nth _ (ps_bounds s) d _ (NaN, NaN) (NaN, NaN)) by (rewrite ?(Hd d eq_refl); lia).
    fold (at_pos a i (ps_bounds s) (NaN, NaN)). unfold the_default. fold (at_pos a i d (NaN, NaN)). destruct (at_pos a i d (NaN, NaN)) as [d1 d2]. rewrite fill_or. cbn [fst snd]. now rewrite !or_or. }
  split; [|split].
  - intros a i Hi. rewrite (M a i Hi). split; [|auto]. intros [H|H]; [|assumption]. exfalso. unfold at_pos in H. pose proof (attr_bounds a i Hi) as Hp. cbn [ps_mask] in H. rewrite nth_repeat_in in H by lia. discriminate H.
  - intros a i bd Hi Hb. rewrite K by assumption. now rewrite (B a i bd Hi Hb).
  - intros a i Hi Hb. rewrite K by assumption. rewrite (B' a i Hi Hb). cbn [ps_bounds]. unfold at_pos at 1 2. pose proof (attr_bounds a i Hi) as Hp. rewrite nth_repeat_in by lia. cbn. now destruct (the_default db a i).
Qed.

(** ** Cameras that are not in the model *)
Lemma assign_foreign m j mask w h o : ~ In o (m_cams m) -> fst (assign m j mask w h) o = h o.
Proof.
  intros N. unfold assign. destruct (nth_error (m_cams m) j) as [o'|] eqn:E; [|reflexivity]. destruct (mask_assign mask w (h o')); [|reflexivity]. cbn. unfold hset.
  destruct (o =? o')%nat eqn:Q; [|reflexivity]. apply Nat.eqb_eq in Q. subst. apply nth_error_In in E. contradiction.
Qed.
Lemma andthen_foreign (o : nat) x f h : fst x o = h o -> (forall h', h' o = h o -> fst (f h') o = h o) -> fst (andthen x f) o = h o.
Proof. destruct x as [h1 [u|e]]; cbn; auto. Qed.
Lemma set_group_foreign m p i idx : forall h o, ~ In o (m_cams m) -> fst (set_group m p i idx h) o = h o.
Proof.
  induction idx as [|j idx IH]; intros h o N; [reflexivity|]. cbn [set_group]. apply andthen_foreign; [now apply assign_foreign|]. intros h1 E1. apply andthen_foreign; [rewrite assign_foreign by assumption; exact E1|].
  intros h2 E2. rewrite IH; assumption.
Qed.
Lemma set_cameras_foreign m p h o : ~ In o (m_cams m) -> fst (set_cameras m p h) o = h o.
Proof.
  unfold set_cameras. generalize 0%nat. intros i N. revert i h. induction (m_group_indices m) as [|idx gs IH]; intros i h; [reflexivity|]. cbn [set_groups].
  apply andthen_foreign; [now apply set_group_foreign|]. intros h1 E. rewrite IH. exact E.
Qed.
Lemma put_vectors_self cams g h o : In o cams -> put_vectors cams (map g cams) h o = g o.
Proof.
  revert h. induction cams as [|c cams IH]; intros h I; [destruct I|]. cbn. destruct (in_dec Nat.eq_dec o cams) as [I'|N'].
  - now apply IH.
  - destruct I as [->|I]; [|contradiction]. rewrite put_vectors_other by assumption. unfold hset. now rewrite Nat.eqb_refl.
Qed.

(** ** Rows of the residuals *)
Definition dummy := mk_control [] [] (fun _ => Ok []).
Lemma sum_double (l : list control) i : fold_right plus 0%nat (firstn i (map (fun c => 2 * ct_size c)%nat l)) = (2 * fold_right plus 0 (firstn i (map ct_size l)))%nat.
Proof. revert i. induction l as [|c l IH]; intros [|i]; try reflexivity. cbn [map firstn fold_right]. rewrite IH. lia. Qed.
Lemma row_control (l : list control) n : (n < fold_right plus 0 (map ct_size l))%nat ->
  exists i r, (i < length l)%nat /\ (r < ct_size (nth i l dummy))%nat /\ n = (fold_right plus 0 (firstn i (map ct_size l)) + r)%nat.
Proof.
  revert n. induction l as [|c l IH]; intros n L; [cbn in L; lia|]. cbn [map fold_right] in L. destruct (Nat.lt_ge_cases n (ct_size c)) as [H|H].
  - exists 0%nat, n. cbn. repeat split; lia.
  - destruct (IH (n - ct_size c)%nat) as (i & r & A & B & C); [lia|]. exists (S i), r. cbn [length nth map firstn fold_right]. repeat split; [lia|exact B|lia].
Qed.
Lemma sparse_row m row col i r : (i < length (m_controls m))%nat -> (r < ct_size (nth i (m_controls m) dummy))%nat ->
  (row / 2 = fold_right plus 0 (firstn i (map ct_size (m_controls m))) + r)%nat -> sparse_control m (nth i (m_controls m) dummy) col = true -> sparse m row col = true.
Proof.
  intros Li Lr E H. unfold sparse. apply existsb_exists. exists i. split; [apply in_seq; lia|]. apply andb_true_iff. split; [|exact H].
  rewrite in_slice_spec. rewrite !breaks_nth by (rewrite map_length; lia). rewrite !sum_double. rewrite sum_firstn_S by (rewrite map_length; lia).
  replace (nth i (map ct_size (m_controls m)) 0%nat) with (ct_size (nth i (m_controls m) dummy)) by (change 0%nat with (ct_size dummy); now rewrite map_nth).
  pose proof (Nat.div_mod row 2). pose proof (Nat.mod_upper_bound row 2). lia.
Qed.
Lemma predict_lengths m h l : Forall local (m_controls m) -> mapM (fun c => ct_predict c h) (m_controls m) = Ok l -> map (@length _) l = map ct_size (m_controls m).
Proof.
  generalize (m_controls m) as cs. intros cs. revert l. induction cs as [|c cs IH]; intros l F E; cbn in E; [injection E as <-; reflexivity|].
  inversion F as [|? ? [_ Lc] F']; subst. destruct (ct_predict c h) as [y|e] eqn:Ec; [|discriminate E]. cbn [bind] in E. destruct (mapM (fun c0 => ct_predict c0 h) cs) as [ys|e]; [|discriminate E].
  cbn [bind] in E. injection E as <-. cbn. rewrite (Lc h y Ec). f_equal. now apply IH.
Qed.
Lemma predict_point m h l i r : Forall local (m_controls m) -> mapM (fun c => ct_predict c h) (m_controls m) = Ok l -> (i < length (m_controls m))%nat -> (r < ct_size (nth i (m_controls m) dummy))%nat ->
  exists y, ct_predict (nth i (m_controls m) dummy) h = Ok y /\ nth (fold_right plus 0%nat (firstn i (map ct_size (m_controls m))) + r) (concat l) (0, 0) = nth r y (0, 0).
Proof.
  intros F E Li Lr. pose proof (predict_lengths m h l F E) as LL. pose proof (mapM_ok_length _ _ _ E) as Len.
  destruct (mapM_ok_nth _ _ _ E i (nth i (m_controls m) dummy) (nth_error_nth' _ dummy Li)) as (y & Ey & Ny). exists y. split; [exact Ey|].
  rewrite <- LL, firstn_map. pose proof (nth_error_nth _ _ [] Ny) as Q. rewrite nth_concat; [now rewrite Q|lia|]. rewrite Q.
  rewrite Forall_forall in F. destruct (F (nth i (m_controls m) dummy)) as [_ Lc]; [now apply nth_In|]. now rewrite (Lc h y Ey).
Qed.
