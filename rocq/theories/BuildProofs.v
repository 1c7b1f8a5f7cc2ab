(** Proofs about the construction of optimize.Cameras. *)
From Coq Require Import String Ascii DecimalString DecimalNat.
From Verif Require Import Base BaseLemmas XReal ParamsModel ParamsSpec ParamsProofs ParamsProofs2 ParamsProofs3 P_Params2 BuildModel.
Open Scope R_scope.
Notation length := List.length.

(** ** Labels *)
Definition digit (c : ascii) : Prop := c <> "_"%char.
Fixpoint all_digits (s : string) : Prop := match s with EmptyString => True | String c r => digit c /\ all_digits r end.
Lemma digits_uint d : all_digits (NilEmpty.string_of_uint d).
Proof. induction d; cbn; try exact I; (split; [intros C; discriminate C|assumption]). Qed.
Lemma str_inj a b : str a = str b -> a = b.
Proof.
  unfold str. intros E. apply (f_equal NilEmpty.uint_of_string) in E. rewrite !NilEmpty.usu in E. injection E as E. now apply Unsigned.to_uint_inj.
Qed.
Lemma split_label a b x y : all_digits a -> all_digits b -> (a ++ String "_" x)%string = (b ++ String "_" y)%string -> a = b /\ x = y.
Proof.
  revert b. induction a as [|c a IH]; intros [|c' b] A B E; cbn in *.
  - injection E as E. auto.
  - injection E as E _. destruct B as [B _]. exfalso. apply B. now symmetry.
  - injection E as E _. destruct A as [A _]. now elim A.
  - injection E as <- E. destruct A as [_ A], B as [_ B]. destruct (IH b A B E) as [-> ->]. auto.
Qed.
Lemma label_inj i j x y : (str i ++ "_" ++ x)%string = (str j ++ "_" ++ y)%string -> i = j /\ x = y.
Proof. cbn [String.append]. intros E. apply split_label in E as [E ->]; [split; [now apply str_inj|reflexivity]|apply digits_uint|apply digits_uint]. Qed.
Lemma base_length : length base_labels = 20%nat. Proof. reflexivity. Qed.
Lemma base_nodup : NoDup base_labels.
Proof.
  cbn. repeat (constructor; [cbn; intros H; repeat (destruct H as [H|H]; [discriminate H|]); exact H|]). constructor.
Qed.
Lemma mget_in {A} m (v : list A) x : In x (mget m v) -> In x v.
Proof. revert v. induction m as [|b m IH]; intros [|y v] H; cbn in H; try destruct H. destruct b; [destruct H as [<-|H]; [now left|]|]; right; now apply IH. Qed.
Lemma mget_nodup {A} m (v : list A) : NoDup v -> NoDup (mget m v).
Proof.
  revert v. induction m as [|b m IH]; intros [|y v] H; cbn; try constructor. inversion_clear H as [|? ? N H']. destruct b; [constructor; [|now apply IH]|now apply IH].
  intros C. apply N. now apply mget_in in C.
Qed.
Lemma NoDup_map_inj {A B} (f : A -> B) l : (forall x y, f x = f y -> x = y) -> NoDup l -> NoDup (map f l).
Proof. intros F. induction 1 as [|x l N H IH]; cbn; constructor; [|exact IH]. intros C. apply in_map_iff in C as (y & E & I). apply F in E. now subst. Qed.
Lemma cam_labels_nodup i mask : NoDup (cam_labels i mask).
Proof. unfold cam_labels. apply NoDup_map_inj; [|apply mget_nodup, base_nodup]. intros x y E. injection E as E. now apply label_inj in E as [_ E]. Qed.
Lemma group_labels_nodup i mask : NoDup (group_labels i mask).
Proof. unfold group_labels. apply NoDup_map_inj; [|apply mget_nodup, base_nodup]. intros x y E. injection E as E. now apply label_inj in E as [_ E]. Qed.
Lemma cam_labels_disjoint i j m m' l : In l (cam_labels i m) -> In l (cam_labels j m') -> i = j.
Proof. unfold cam_labels. intros H K. apply in_map_iff in H as (x & <- & _). apply in_map_iff in K as (y & E & _). injection E as E. now apply label_inj in E as [E _]. Qed.
Lemma group_labels_disjoint i j m m' l : In l (group_labels i m) -> In l (group_labels j m') -> i = j.
Proof. unfold group_labels. intros H K. apply in_map_iff in H as (x & <- & _). apply in_map_iff in K as (y & E & _). injection E as E. now apply label_inj in E as [E _]. Qed.
Lemma cam_group_disjoint i j m m' l : In l (cam_labels i m) -> In l (group_labels j m') -> False.
Proof. unfold cam_labels, group_labels. intros H K. apply in_map_iff in H as (x & <- & _). apply in_map_iff in K as (y & E & _). discriminate E. Qed.
Lemma cam_labels_length i m : length m = 20%nat -> length (cam_labels i m) = count_true m.
Proof. intros L. unfold cam_labels. rewrite map_length. now apply mget_length. Qed.
Lemma group_labels_length i m : length m = 20%nat -> length (group_labels i m) = count_true m.
Proof. intros L. unfold group_labels. rewrite map_length. now apply mget_length. Qed.

(** ** The dictionary *)
Definition pars (values : list R) (bounds : list (xr * xr)) : result (list lpar) := mapM (fun vb => lmfit_parameter (fst vb) (snd vb)) (combine values bounds).
Lemma dict_put_new {A} k (v : A) d : ~ In k (map fst d) -> dict_put k v d = d ++ [(k, v)].
Proof.
  induction d as [|[k' v'] d IH]; intros N; [reflexivity|]. cbn in N |- *. destruct (String.eqb_spec k k') as [->|D]; [exfalso; apply N; now left|]. rewrite IH; [reflexivity|]. intros I. apply N. now right.
Qed.
Lemma add_all_spec labels : forall values bounds d, NoDup labels -> (forall l, In l labels -> ~ In l (map fst d)) -> length values = length labels -> length bounds = length labels ->
  add_all labels values bounds d = (let* ps := pars values bounds in Ok (d ++ combine labels ps)).
Proof.
  induction labels as [|l labels IH]; intros [|v values] [|b bounds] d N D Lv Lb; cbn in Lv, Lb; try lia.
  - cbn. now rewrite app_nil_r.
  - unfold pars. cbn [add_all combine mapM fst snd]. destruct (lmfit_parameter v b) as [p|e]; [|reflexivity]. cbn [bind]. inversion_clear N as [|? ? N1 N2].
    rewrite dict_put_new by (apply D; now left). rewrite IH; try lia; try assumption.
    + fold (pars values bounds). destruct (pars values bounds) as [ps|e]; [|reflexivity]. cbn [bind combine]. now rewrite <- app_assoc.
    + intros k Ik. rewrite map_app, in_app_iff. intros [C|[C|[]]]; [apply (D k); [now right|exact C]|]. cbn in C. subst k. contradiction.
Qed.
Lemma pars_length values bounds ps : length values = length bounds -> pars values bounds = Ok ps -> length ps = length values.
Proof. intros L E. unfold pars in E. apply mapM_ok_length in E. rewrite E, combine_length. lia. Qed.
Lemma pars_nth values bounds ps k p0 : length values = length bounds -> pars values bounds = Ok ps -> (k < length values)%nat ->
  lmfit_parameter (nth k values 0) (nth k bounds (NaN, NaN)) = Ok (nth k ps p0).
Proof.
  intros L E K. pose proof (pars_length _ _ _ L E) as Lp. unfold pars in E. pose proof (mapM_ok_nth _ _ _ E k (nth k (combine values bounds) (0, (NaN, NaN)))) as H.
  destruct H as (y & Ey & Ny); [apply nth_error_nth'; rewrite combine_length; lia|]. rewrite combine_nth in Ey by assumption. cbn [fst snd] in Ey. rewrite Ey. f_equal. symmetry. now apply nth_error_nth.
Qed.

(** ** parse_params *)
Lemma parse_ok params d mask bounds : length d = 20%nat -> parse_params params (Some d) = Ok (mask, bounds) ->
  accepted params /\ length mask = 20%nat /\ length bounds = 20%nat /\ forall q, (q < 20)%nat -> is_nan (fst (nth q bounds (NaN, NaN))) = false /\ is_nan (snd (nth q bounds (NaN, NaN))) = false.
Proof.
  intros L E. destruct (params_selection_exact params (Some d)) as [N A]; [intros d' H; injection H as <-; exact L|].
  assert (C : accepted params \/ ~ accepted params) by apply Classical_Prop.classic. destruct C as [C|C]; [|destruct (N C) as [e E']; congruence].
  destruct (A C) as (m' & b' & E' & Lm & Lb & H). rewrite E in E'. injection E' as <- <-. split; [exact C|]. split; [exact Lm|]. split; [exact Lb|]. intros q Lq.
  assert (Z1 : forall x, is_nan (or_default x NInf) = false) by (intros []; reflexivity). assert (Z2 : forall x, is_nan (or_default x PInf) = false) by (intros []; reflexivity).
  assert (Z3 : forall x y, is_nan y = false -> is_nan (or_default x y) = false) by (intros [] y; cbn; auto).
  destruct (H (Z.of_nat q)) as [_ [[_ B]|(k & n & a & s & lo & hi & _ & _ & _ & B)]]; [lia| |]; rewrite Nat2Z.id in B; rewrite B; cbn [fst snd]; auto.
Qed.

(** ** The loops *)
Lemma at_index_ok {A} (l : list A) i x : at_index l i = Ok x -> nth_error l i = Some x.
Proof. unfold at_index. destruct (nth_error l i); intros E; [injection E as ->; reflexivity|discriminate]. Qed.
Lemma mapM_at {A} (l : list A) idx bs : mapM (at_index l) idx = Ok bs -> length bs = length idx /\ Forall (fun i => (i < length l)%nat) idx /\ (forall k i, nth_error idx k = Some i -> nth_error bs k = nth_error l i).
Proof.
  intros E. split; [now apply mapM_ok_length in E|]. split.
  - rewrite Forall_forall. intros i I. apply In_nth_error in I as [k K]. destruct (mapM_ok_nth _ _ _ E k i K) as (y & Y & _). apply at_index_ok in Y. apply nth_error_Some. congruence.
  - intros k i K. destruct (mapM_ok_nth _ _ _ E k i K) as (y & Y & Z). apply at_index_ok in Y. congruence.
Qed.
Lemma fold_bounds_length r : forall b, Forall (fun x => length x = 20%nat) r -> length b = 20%nat ->
  length (fold_left (map2 (fun x y : xr * xr => (xmax (fst x) (fst y), xmin (snd x) (snd y)))) r b) = 20%nat.
Proof. induction r as [|x r IH]; intros b F L; [exact L|]. inversion_clear F. cbn. apply IH; [assumption|]. rewrite map2_len; lia. Qed.
Lemma group_default_length bs d : Forall (fun x => length x = 20%nat) bs -> group_default bs = Ok d -> length d = 20%nat /\ bs <> [].
Proof. intros F E. destruct bs as [|b r]; [discriminate|]. cbn in E. injection E as <-. inversion_clear F. split; [now apply fold_bounds_length|discriminate]. Qed.

Definition group_made (cams : list nat) (h : heap) (cb : list (list (xr * xr))) (gp : list (list (attr * pval))) (g : nat) (idx : list nat)
    (mask : list bool) (block : list (string * lpar)) : Prop :=
  exists bs default params bounds ps, mapM (at_index cb) idx = Ok bs /\ group_default bs = Ok default /\ nth_error gp g = Some params /\
    parse_params params (Some default) = Ok (mask, bounds) /\ pars (group_start cams h mask idx) (mget mask bounds) = Ok ps /\ block = combine (group_labels g mask) ps.
Lemma group_loop_spec cams h cb gp : Forall (fun b => length b = 20%nat) cb -> forall groups g d masks d',
  (forall l k mask, In l (map fst d) -> (g <= k)%nat -> In l (group_labels k mask) -> False) ->
  group_loop cams h cb gp g groups d = Ok (masks, d') ->
  exists blocks, d' = d ++ concat blocks /\ length masks = length groups /\ length blocks = length groups /\
  forall k idx, nth_error groups k = Some idx -> exists mask block, nth_error masks k = Some mask /\ nth_error blocks k = Some block /\ group_made cams h cb gp (g + k) idx mask block.
Proof.
  intros F. induction groups as [|idx groups IH]; intros g d masks d' Fresh E.
  - cbn in E. injection E as <- <-. exists []. cbn. rewrite app_nil_r. repeat split. intros [|k] idx H; discriminate.
  - cbn [group_loop] in E. destruct (mapM (at_index cb) idx) as [bs|] eqn:E1; [|discriminate]. cbn [bind] in E. destruct (group_default bs) as [default|] eqn:E2; [|discriminate]. cbn [bind] in E.
    destruct (at_index gp g) as [params|] eqn:E3; [|discriminate]. cbn [bind] in E. destruct (parse_params params (Some default)) as [[mask bounds]|] eqn:E4; [|discriminate]. cbn [bind fst snd] in E.
    assert (Fb : Forall (fun x => length x = 20%nat) bs).
    { rewrite Forall_forall in F |- *. intros b I. apply In_nth_error in I as [k K]. destruct (mapM_at _ _ _ E1) as (Lb & _ & H). assert (Lk : (k < length idx)%nat) by (rewrite <- Lb; apply nth_error_Some; congruence).
      destruct (nth_error idx k) as [i|] eqn:Ki; [|apply nth_error_None in Ki; lia]. rewrite (H k i Ki) in K. apply F. now apply nth_error_In in K. }
    destruct (group_default_length _ _ Fb E2) as [Ld Nb]. destruct (parse_ok _ _ _ _ Ld E4) as (_ & Lm & Lbo & _).
    assert (L1 : length (group_start cams h mask idx) = length (group_labels g mask)) by (unfold group_start; rewrite mean_columns_length, group_labels_length; auto).
    assert (L2 : length (mget mask bounds) = length (group_labels g mask)) by (rewrite mget_length, group_labels_length; congruence).
    rewrite add_all_spec in E; [|apply group_labels_nodup|intros l I C; apply (Fresh l g mask C); auto|exact L1|exact L2].
    destruct (pars (group_start cams h mask idx) (mget mask bounds)) as [ps|] eqn:E5; [|discriminate]. cbn [bind] in E.
    destruct (group_loop cams h cb gp (S g) groups (d ++ combine (group_labels g mask) ps)) as [[masks0 d0]|] eqn:E6; [|discriminate]. cbn [bind fst snd] in E. injection E as <- <-.
    assert (Fr : forall l k mask0, In l (map fst (d ++ combine (group_labels g mask) ps)) -> (S g <= k)%nat -> In l (group_labels k mask0) -> False).
    { intros l k mk I Gk C. rewrite map_app, in_app_iff in I. destruct I as [I|I]; [apply (Fresh l k mk I); [lia|exact C]|].
      apply in_map_iff in I as ([l' p] & El & I). cbn in El. subst l'. apply in_combine_l in I. pose proof (group_labels_disjoint _ _ _ _ _ I C). lia. }
    destruct (IH (S g) _ _ _ Fr E6) as (blocks & -> & Lma & Lbl & H).
    exists (combine (group_labels g mask) ps :: blocks). cbn [concat length]. rewrite <- app_assoc. split; [reflexivity|]. split; [lia|]. split; [lia|].
    intros [|k] i K; cbn in K.
    + injection K as <-. exists mask, (combine (group_labels g mask) ps). split; [reflexivity|]. split; [reflexivity|]. rewrite Nat.add_0_r. exists bs, default, params, bounds, ps. apply at_index_ok in E3. auto 10.
    + destruct (H k i K) as (mk & bl & A & B & C). exists mk, bl. split; [exact A|]. split; [exact B|]. now rewrite Nat.add_succ_r.
Qed.
Lemma group_made_keys cams h cb gp g idx mask block l : group_made cams h cb gp g idx mask block -> In l (map fst block) -> In l (group_labels g mask).
Proof. intros (bs & de & pa & bo & ps & _ & _ & _ & _ & _ & ->) I. apply in_map_iff in I as ([l' p] & El & I). cbn in El. subst l'. now apply in_combine_l in I. Qed.

Lemma cam_loop_spec h cs : Forall (fun c => length (fst c) = 20%nat /\ length (snd c) = 20%nat) cs -> forall cams i d d',
  (forall o, In o cams -> length (h o) = 20%nat) -> (forall l k mask, In l (map fst d) -> (i <= k)%nat -> In l (cam_labels k mask) -> False) ->
  cam_loop h cs i cams d = Ok d' ->
  exists blocks, d' = d ++ concat blocks /\ length blocks = length cams /\
  forall k o, nth_error cams k = Some o -> exists mask bounds ps, nth_error cs (i + k) = Some (mask, bounds) /\ pars (mget mask (h o)) (mget mask bounds) = Ok ps /\
    nth_error blocks k = Some (combine (cam_labels (i + k) mask) ps).
Proof.
  intros F. induction cams as [|o cams IH]; intros i d d' W Fresh E.
  - cbn in E. injection E as <-. exists []. cbn. rewrite app_nil_r. repeat split. intros [|k] o H; discriminate.
  - cbn [cam_loop] in E. destruct (at_index cs i) as [[mask bounds]|] eqn:E1; [|discriminate]. cbn [bind fst snd] in E. apply at_index_ok in E1.
    rewrite Forall_forall in F. destruct (F (mask, bounds)) as [Lm Lb]; [now apply nth_error_In in E1|]. cbn [fst snd] in Lm, Lb. assert (Lo : length (h o) = 20%nat) by (apply W; now left).
    assert (L1 : length (mget mask (h o)) = length (cam_labels i mask)) by (rewrite mget_length, cam_labels_length; congruence).
    assert (L2 : length (mget mask bounds) = length (cam_labels i mask)) by (rewrite mget_length, cam_labels_length; congruence).
    rewrite add_all_spec in E; [|apply cam_labels_nodup|intros l I C; apply (Fresh l i mask C); auto|exact L1|exact L2].
    destruct (pars (mget mask (h o)) (mget mask bounds)) as [ps|] eqn:E5; [|discriminate]. cbn [bind] in E.
    assert (Fr : forall l k mask0, In l (map fst (d ++ combine (cam_labels i mask) ps)) -> (S i <= k)%nat -> In l (cam_labels k mask0) -> False).
    { intros l k mk I Gk C. rewrite map_app, in_app_iff in I. destruct I as [I|I]; [apply (Fresh l k mk I); [lia|exact C]|].
      apply in_map_iff in I as ([l' p] & El & I). cbn in El. subst l'. apply in_combine_l in I. pose proof (cam_labels_disjoint _ _ _ _ _ I C). lia. }
    destruct (IH (S i) _ _ (fun o I => W o (or_intror I)) Fr E) as (blocks & -> & Lbl & H).
    exists (combine (cam_labels i mask) ps :: blocks). cbn [concat length]. rewrite <- app_assoc. split; [reflexivity|]. split; [lia|].
    intros [|k] o' K; cbn in K.
    + injection K as <-. rewrite Nat.add_0_r. exists mask, bounds, ps. auto.
    + destruct (H k o' K) as (mk & bo & ps' & A & B & C). exists mk, bo, ps'. rewrite Nat.add_succ_r. auto.
Qed.
