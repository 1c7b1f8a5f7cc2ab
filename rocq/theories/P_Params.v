(** Properties C51, C65, C66, C67: parameters of optimize.Cameras. *)
From Verif Require Import Base BaseLemmas XReal ParamsModel ParamsSpec ParamsProofs ParamsProofs2 ParamsProofs3.
Open Scope R_scope.

(** ** C51: packing and unpacking the parameter vector *)

(** set_cameras never raises on a vector of the right length; in every camera that belongs
    to a group it writes each selected parameter from its documented position of
    [group0 | group1 | ... | cam0 | cam1 | ...] and leaves every other parameter, and
    every other camera object, as it was. *)
Theorem cameras_set m h params : consistent m h -> length params = n_params m ->
  exists h', set_cameras m params h = (h', Ok tt) /\
  (forall j q, (j < length (m_cams m))%nat -> (q < 20)%nat -> grouped m j -> camera_value m params h h' j q) /\
  (forall j, (j < length (m_cams m))%nat -> ~ grouped m j -> h' (nth j (m_cams m) 0%nat) = h (nth j (m_cams m) 0%nat)) /\
  (forall o, ~ In o (m_cams m) -> h' o = h o).
Proof.
  intros Cm L. pose proof Cm as (_ & W & _). destruct (set_cameras_spec m h Cm params L h W) as (h' & A & B & C & D & _). now exists h'.
Qed.
Print Assumptions cameras_set.

(** Every parameter vector entry has exactly one place, so different vectors give different
    cameras: when every camera is in a group, no group is empty and no camera overrides a
    parameter of its group, the vector can be recovered from the cameras. *)
Theorem cameras_set_injective m h p p' h1 h2 : consistent m h -> length p = n_params m -> length p' = n_params m ->
  (forall j, (j < length (m_cams m))%nat -> grouped m j) ->
  (forall i, (i < length (m_group_indices m))%nat -> exists j, member m i j) ->
  (forall i j q, member m i j -> group_on m i q = true -> cam_on m j q = false) ->
  set_cameras m p h = (h1, Ok tt) -> set_cameras m p' h = (h2, Ok tt) -> (forall o, In o (m_cams m) -> h1 o = h2 o) -> p = p'.
Proof.
  intros Cm Lp Lp' G NE Dj E1 E2 Same. pose proof Cm as (_ & W & _ & L2 & _).
  destruct (set_cameras_spec m h Cm p Lp h W) as (h1' & Q1 & V1 & _). rewrite E1 in Q1. injection Q1 as <-.
  destruct (set_cameras_spec m h Cm p' Lp' h W) as (h2' & Q2 & V2 & _). rewrite E2 in Q2. injection Q2 as <-.
  apply nth_ext with (d := 0) (d' := 0); [congruence|]. intros n Ln. rewrite Lp in Ln.
  destruct (param_position m h n Cm Ln) as [(i & q & Li & Lq & O & ->)|(j & q & Lj & Lq & O & ->)].
  - destruct (NE i) as (j & M); [lia|]. destruct (member_lt m h i j Cm M) as (_ & Lj & _).
    destruct (V1 j q Lj Lq (G j Lj)) as (_ & A & _), (V2 j q Lj Lq (G j Lj)) as (_ & B & _).
    rewrite <- (A i), <- (B i) by eauto. now rewrite Same by now apply nth_In.
  - destruct (V1 j q Lj Lq (G j Lj)) as (A & _), (V2 j q Lj Lq (G j Lj)) as (B & _). rewrite <- A, <- B by assumption. now rewrite Same by now apply nth_In.
Qed.
Print Assumptions cameras_set_injective.
(** In general, exactly the entries without effect are lost: those of parameters of cameras in no group, and those of group parameters that every
    camera of the group (none, for an empty group) also has as its own. Two vectors give the same cameras iff they agree everywhere else. *)
Definition effective (m : model) (n : nat) : Prop :=
  (exists j q, (j < length (m_cams m))%nat /\ (q < 20)%nat /\ grouped m j /\ cam_on m j q = true /\ n = cam_pos m j q) \/
  (exists i j q, member m i j /\ (q < 20)%nat /\ group_on m i q = true /\ cam_on m j q = false /\ n = group_pos m i q).
Theorem cameras_set_same_iff m h p p' h1 h2 : consistent m h -> length p = n_params m -> length p' = n_params m ->
  set_cameras m p h = (h1, Ok tt) -> set_cameras m p' h = (h2, Ok tt) ->
  ((forall o, h1 o = h2 o) <-> forall n, effective m n -> nth n p 0 = nth n p' 0).
Proof.
  intros Cm Lp Lp' E1 E2. pose proof Cm as (_ & W & _ & L2 & _).
  destruct (set_cameras_spec m h Cm p Lp h W) as (h1' & Q1 & V1 & U1 & O1 & W1). rewrite E1 in Q1. injection Q1 as <-.
  destruct (set_cameras_spec m h Cm p' Lp' h W) as (h2' & Q2 & V2 & U2 & O2 & W2). rewrite E2 in Q2. injection Q2 as <-. split.
  - intros Same n [(j & q & Lj & Lq & G & O & ->)|(i & j & q & M & Lq & O & NO & ->)].
    + destruct (V1 j q Lj Lq G) as (A & _), (V2 j q Lj Lq G) as (B & _). rewrite <- A, <- B by assumption. now rewrite Same.
    + destruct (member_lt m h i j Cm M) as (_ & Lj & _). assert (G : grouped m j) by now exists i.
      destruct (V1 j q Lj Lq G) as (_ & A & _), (V2 j q Lj Lq G) as (_ & B & _). rewrite <- (A i), <- (B i) by auto. now rewrite Same.
  - intros Agree o. destruct (in_dec Nat.eq_dec o (m_cams m)) as [I|N]; [|now rewrite O1, O2]. destruct (In_nth _ _ 0%nat I) as (j & Lj & <-).
    assert (D : grouped m j \/ ~ grouped m j) by apply Classical_Prop.classic. destruct D as [G|G]; [|now rewrite U1, U2].
    apply nth_ext with (d := 0) (d' := 0); [now rewrite W1, W2|]. intros q Lq. rewrite W1 in Lq by assumption.
    destruct (V1 j q Lj Lq G) as (A1 & A2 & A3), (V2 j q Lj Lq G) as (B1 & B2 & B3). destruct (cam_on m j q) eqn:O.
    + rewrite A1, B1 by reflexivity. apply Agree. left. now exists j, q.
    + assert (D : (exists i, member m i j /\ group_on m i q = true) \/ ~ exists i, member m i j /\ group_on m i q = true) by apply Classical_Prop.classic.
      destruct D as [(i & M & Gi)|NE].
      * rewrite (A2 i), (B2 i) by auto. apply Agree. right. now exists i, j, q.
      * assert (Z : forall i, member m i j -> group_on m i q = false) by (intros i M; destruct (group_on m i q) eqn:Q; [exfalso; apply NE; eauto|reflexivity]).
        now rewrite A3, B3.
Qed.
Print Assumptions cameras_set_same_iff.

(** The initial parameters describe the cameras as they are: setting them changes nothing,
    provided the cameras of each group agree on the group's parameters. *)
Theorem cameras_initial_round_trip m h : consistent m h ->
  (forall i j j' q, member m i j -> member m i j' -> group_on m i q = true -> nth q (h (nth j (m_cams m) 0%nat)) 0 = nth q (h (nth j' (m_cams m) 0%nat)) 0) ->
  length (initial_params m h) = n_params m /\
  exists h', set_cameras m (initial_params m h) h = (h', Ok tt) /\ forall o, h' o = h o.
Proof.
  intros Cm Ag. pose proof Cm as (_ & W & _). assert (L : length (initial_params m h) = n_params m) by (apply (initial_length m h Cm h W)).
  split; [exact L|]. destruct (set_cameras_spec m h Cm (initial_params m h) L h W) as (h' & E & V & U & F & W'). exists h'. split; [exact E|]. intros o.
  destruct (in_dec Nat.eq_dec o (m_cams m)) as [I|N]; [|now apply F]. destruct (In_nth _ _ 0%nat I) as (j & Lj & <-).
  assert (D : grouped m j \/ ~ grouped m j) by apply Classical_Prop.classic. destruct D as [G|G]; [|now apply U].
  apply nth_ext with (d := 0) (d' := 0); [rewrite W', W; auto|]. intros q Lq. rewrite W' in Lq by assumption.
  destruct (V j q Lj Lq G) as (A1 & A2 & A3). destruct (cam_on m j q) eqn:O.
  - rewrite A1 by reflexivity. now apply (initial_cam m h Cm h W).
  - assert (D : (exists i, member m i j /\ group_on m i q = true) \/ ~ exists i, member m i j /\ group_on m i q = true) by apply Classical_Prop.classic.
    destruct D as [(i & M & Gi)|NE].
    + rewrite (A2 i) by auto. destruct (member_lt m h i j Cm M) as (Li & _ & Ij). rewrite (initial_group m h Cm h W) by assumption.
      rewrite (sumR_const _ _ (nth q (h (nth j (m_cams m) 0%nat)) 0)).
      * field. apply not_0_INR. intros Z. apply length_zero_iff_nil in Z. rewrite Z in Ij. destruct Ij.
      * intros k Ik. apply (Ag i k j q); auto. apply member_nth; [|exact Ik]. destruct Cm as (_ & _ & _ & L2 & _). lia.
    + assert (Z : forall i, member m i j -> group_on m i q = false) by (intros i M; destruct (group_on m i q) eqn:Q; [exfalso; apply NE; eauto|reflexivity]).
      now rewrite A3.
Qed.
Print Assumptions cameras_initial_round_trip.

(** predicted(params) returns what the controls predict with the cameras set to params, and
    leaves every camera as it was (for any vector, any groups). *)
Theorem cameras_predicted_restores m params h h' r : predicted m params h = (h', Ok r) ->
  (forall o, h' o = h o) /\
  match params with
  | None => predict_now m h = Ok r
  | Some p => exists h1, set_cameras m p h = (h1, Ok tt) /\ predict_now m h1 = Ok r
  end.
Proof.
  unfold predicted. destruct params as [p|]; [|intros E; injection E as <- E; split; [reflexivity|assumption]].
  destruct (set_cameras m p h) as [h1 [[]|e]] eqn:S; [|discriminate]. destruct (predict_now m h1) as [r'|e] eqn:P; [|discriminate].
  intros E. injection E as <- <-. split; [|now exists h1]. intros o. destruct (in_dec Nat.eq_dec o (m_cams m)) as [I|N].
  - now apply put_vectors_self.
  - rewrite put_vectors_other by assumption. pose proof (set_cameras_foreign m p h o N) as Q. now rewrite S in Q.
Qed.
Print Assumptions cameras_predicted_restores.
(** When a prediction raises instead, the cameras are left as set by params (and not restored). *)
Theorem cameras_predicted_error m p h h' e : consistent m h -> length p = n_params m -> predicted m (Some p) h = (h', Err e) ->
  exists h1, set_cameras m p h = (h1, Ok tt) /\ predict_now m h1 = Err e /\ h' = h1.
Proof.
  intros Cm L. pose proof Cm as (_ & W & _). destruct (set_cameras_spec m h Cm p L h W) as (h1 & A & _). unfold predicted. rewrite A.
  destruct (predict_now m h1) as [r|e'] eqn:P; [discriminate|]. intros E. injection E as <- <-. now exists h1.
Qed.
Print Assumptions cameras_predicted_error.

(** reset_cameras() undoes any number of set_cameras(params) calls since the cameras were
    last saved, also when one of them raised. *)
Theorem cameras_reset m hs ps h : h = fold_left (fun h p => fst (set_cameras m p h)) ps hs ->
  forall o, reset_cameras (save m hs) h o = hs o.
Proof.
  intros -> o. unfold reset_cameras. cbn [save m_cams m_vectors]. destruct (in_dec Nat.eq_dec o (m_cams m)) as [I|N]; [now apply put_vectors_self|].
  rewrite put_vectors_other by assumption. revert hs. induction ps as [|p ps IH]; intros hs; [reflexivity|]. cbn. rewrite IH. now apply set_cameras_foreign.
Qed.
Print Assumptions cameras_reset.

Definition ones (l : list nat) : list bool := map (fun q => existsb (Nat.eqb q) l) (seq 0 20).
Definition start : heap := fun o => map (fun q => INR (100 * o + q)) (seq 0 20).
Definition no_predictions := mk_control [0%nat; 1%nat] [] (fun _ => Ok []).

(** Two cameras, their own view directions, a common focal length. *)
Definition two := mk_model [0%nat; 1%nat] [no_predictions] [[0%nat; 1%nat]] [ones [8; 9]%nat] [ones [3]%nat; ones [4; 5]%nat] None [].
Lemma two_consistent h : (forall o, length (h o) = 20%nat) -> consistent two h.
Proof.
  intros L. split; [repeat constructor; cbn; intuition discriminate|]. split; [intros; apply L|]. split; [reflexivity|]. split; [reflexivity|].
  split; [repeat constructor|]. split; [repeat constructor|]. split; [cbn; repeat constructor|]. vm_compute. reflexivity.
Qed.
Example two_values : exists h', set_cameras two [10; 11; 30; 40; 50] start = (h', Ok tt) /\
  nth 8 (h' 0%nat) 0 = 10 /\ nth 8 (h' 1%nat) 0 = 10 /\ nth 9 (h' 0%nat) 0 = 11 /\ nth 3 (h' 0%nat) 0 = 30 /\ nth 4 (h' 1%nat) 0 = 40 /\ nth 5 (h' 1%nat) 0 = 50.
Proof. eexists. split; [reflexivity|]. repeat split; reflexivity. Qed.
Example two_injective p p' h1 h2 : length p = 5%nat -> length p' = 5%nat -> set_cameras two p start = (h1, Ok tt) -> set_cameras two p' start = (h2, Ok tt) ->
  h1 0%nat = h2 0%nat -> h1 1%nat = h2 1%nat -> p = p'.
Proof.
  intros L L' E E' A B. apply (cameras_set_injective two start p p' h1 h2); auto.
  - apply two_consistent. intros o. unfold start. now rewrite map_length.
  - intros [|[|j]] Lj; cbn in Lj; try lia; exists 0%nat, [0%nat; 1%nat]; (split; [reflexivity|cbn; auto]).
  - intros [|i] Li; cbn in Li; try lia. exists 0%nat, [0%nat; 1%nat]. split; [reflexivity|cbn; auto].
  - intros [|[|i]] j q (idx & Q & I) O; try discriminate Q. cbn in Q. injection Q as <-. unfold group_on, on in O. cbn in O.
    destruct I as [<-|[<-|[]]]; do 20 (destruct q as [|q]; [try discriminate O; reflexivity|]); destruct q; discriminate O.
  - intros o [<-|[<-|[]]]; assumption.
Qed.

(** Finding: the entries of a camera that belongs to no group are ignored, although the
    constructor accepts it (optimize.py:1686-1693 only loops over cameras of groups). *)
Definition lone := mk_model [0%nat; 1%nat] [no_predictions] [[0%nat]] [ones []] [ones []; ones [3]%nat] None [].
Theorem cameras_ungrouped_refuted : exists m h params, consistent m h /\ length params = n_params m /\
  (exists j q, cam_on m j q = true /\ (j < length (m_cams m))%nat /\ nth (cam_pos m j q) params 0 <> nth q (h (nth j (m_cams m) 0%nat)) 0) /\
  exists h', set_cameras m params h = (h', Ok tt) /\ forall o, h' o = h o.
Proof.
  exists lone, start, [-1]. split.
  - split; [repeat constructor; cbn; intuition discriminate|]. split; [intros; unfold start; now rewrite map_length|]. split; [reflexivity|]. split; [reflexivity|].
    split; [repeat constructor|]. split; [repeat constructor|]. split; [repeat constructor|]. vm_compute. reflexivity.
  - split; [reflexivity|]. split; [exists 1%nat, 3%nat; split; [reflexivity|]; split; [cbn; lia|]; change (nth (cam_pos lone 1 3) [-1] 0) with (-1); intros Q; apply (f_equal (fun x => x + 1)) in Q; vm_compute in Q; lra|].
    eexists. split; [reflexivity|]. intros [|o]; reflexivity.
Qed.
Print Assumptions cameras_ungrouped_refuted.

(** Finding: a parameter selected both for a group and for its only camera gives a vector
    entry without any effect (the constructor does not test for this). *)
Definition twice := mk_model [0%nat] [no_predictions] [[0%nat]] [ones [3]%nat] [ones [3]%nat] None [].
Theorem cameras_overlap_refuted : exists m h p p', consistent m h /\ length p = n_params m /\ length p' = n_params m /\ p <> p' /\
  (forall j, (j < length (m_cams m))%nat -> grouped m j) /\
  forall o, fst (set_cameras m p h) o = fst (set_cameras m p' h) o.
Proof.
  exists twice, start, [1; 2], [3; 2]. split.
  - split; [repeat constructor; cbn; tauto|]. split; [intros; unfold start; now rewrite map_length|]. split; [reflexivity|]. split; [reflexivity|].
    split; [repeat constructor|]. split; [repeat constructor|]. split; [cbn; repeat constructor|]. vm_compute. reflexivity.
  - split; [reflexivity|]. split; [reflexivity|]. split; [intros E; injection E; lra|]. split.
    + intros [|j] Lj; cbn in Lj; try lia. exists 0%nat, [0%nat]. split; [reflexivity|now left].
    + intros [|o]; reflexivity.
Qed.
Print Assumptions cameras_overlap_refuted.

(** Finding: when a prediction raises, predicted(params) leaves the cameras changed. *)
Definition failing := mk_control [0%nat] [(0, 0)] (fun _ => Err ValueError).
Theorem cameras_predicted_error_refuted : exists m h params h' e, consistent m h /\ length params = n_params m /\
  predicted m (Some params) h = (h', Err e) /\ exists o, h' o <> h o.
Proof.
  exists (mk_model [0%nat] [failing] [[0%nat]] [ones []] [ones [3]%nat] None []), start, [-1]. eexists. exists ValueError. split.
  - split; [repeat constructor; cbn; tauto|]. split; [intros; unfold start; now rewrite map_length|]. split; [reflexivity|]. split; [reflexivity|].
    split; [repeat constructor|]. split; [repeat constructor|]. split; [cbn; repeat constructor|]. vm_compute. reflexivity.
  - split; [reflexivity|]. split; [reflexivity|]. exists 0%nat. intros E. apply (f_equal (fun v => nth 3 v 0)) in E. cbv beta in E.
    match type of E with ?a = _ => change a with (-1) in E end. change (nth 3 (start 0%nat) 0) with (INR 3) in E. cbn in E. lra.
Qed.
Print Assumptions cameras_predicted_error_refuted.

(** ** C65: parameter selections and bounds *)
Theorem params_selection params defaults : NoDup (map fst params) ->
  Forall (fun kv => documented (fst kv) (pval_sel (snd kv)) /\ bound_fits (fst kv) (snd kv)) params ->
  (forall d, defaults = Some d -> length d = 20%nat) ->
  exists mask bounds, parse_params params defaults = Ok (mask, bounds) /\ length mask = 20%nat /\ length bounds = 20%nat /\
  forall a i, in_attr a i ->
    let at_ {A} (l : list A) d := nth (Z.to_nat (first a + i)) l d in
    let dmin := match defaults with None => NInf | Some d => or_default (fst (at_ d (NaN, NaN))) NInf end in
    let dmax := match defaults with None => PInf | Some d => or_default (snd (at_ d (NaN, NaN))) PInf end in
    (at_ mask false = true <-> exists v, In (a, v) params /\ chosen a (pval_sel v) i) /\
    (forall s lo hi n, In (a, PBounded s lo hi) params -> nth_choice a s n = Some i ->
       at_ bounds (NaN, NaN) = (or_default (bound_at lo n) dmin, or_default (bound_at hi n) dmax)) /\
    ((forall s lo hi n, In (a, PBounded s lo hi) params -> nth_choice a s n <> Some i) -> at_ bounds (NaN, NaN) = (dmin, dmax)).
Proof.
  intros N F Ld. destruct (parse_spec params defaults (conj N F) Ld) as (mask & bounds & E & Lm & Lb & M & B & B'). exists mask, bounds.
  split; [exact E|]. split; [exact Lm|]. split; [exact Lb|]. intros a i Hi. cbv zeta. split; [now apply M|].
  assert (Dd : the_default defaults a i = (match defaults with None => NInf | Some d => or_default (fst (at_pos a i d (NaN, NaN))) NInf end, match defaults with None => PInf | Some d => or_default (snd (at_pos a i d (NaN, NaN))) PInf end))
    by (destruct defaults; reflexivity).
  split.
  - intros s lo hi n I C. specialize (B a i (bound_at lo n, bound_at hi n) Hi). rewrite Dd in B. cbn [fst snd] in B. apply B. now exists s, lo, hi, n.
  - intros H. specialize (B' a i Hi). rewrite Dd in B'. apply B'. intros bd (s & lo & hi & n & I & C & _). now apply (H s lo hi n I).
Qed.
Print Assumptions params_selection.
(** The docstring's example: the first two view angles, at most 180 degrees. *)
Example params_documented : exists mask bounds,
  parse_params [(Aviewdir, PBounded (SList [0; 1]%Z) [NInf] [Fin 180]); (Af, PSel STrue)] None = Ok (mask, bounds) /\
  mask = ones [3; 4; 8; 9]%nat /\ nth 3 bounds (NaN, NaN) = (NInf, Fin 180) /\ nth 4 bounds (NaN, NaN) = (NInf, Fin 180) /\ nth 5 bounds (NaN, NaN) = (NInf, PInf).
Proof. do 2 eexists. split; [reflexivity|]. repeat split; reflexivity. Qed.
Example params_documented_applies : let params := [(Aviewdir, PBounded (SList [0; 1]%Z) [NInf] [Fin 180]); (Af, PSel STrue)] in
  NoDup (map fst params) /\ Forall (fun kv => documented (fst kv) (pval_sel (snd kv)) /\ bound_fits (fst kv) (snd kv)) params.
Proof.
  cbv zeta. split; [cbn; repeat constructor; cbn; intuition discriminate|]. constructor; [|constructor; [|constructor]].
  - split; cbn; [split; [repeat constructor; cbn; intuition discriminate|repeat constructor; unfold in_attr, attr_len; cbn; lia]|]. repeat split; auto; lia.
  - split; cbn; exact I.
Qed.

(** Findings: False selects the first element; an index outside the attribute selects a
    parameter of another attribute; bounds without a selection are given to the parameters
    of the attribute before. *)
Theorem params_selection_refuted :
  (exists mask b, parse_params [(Ak, PSel SFalse)] None = Ok (mask, b) /\ mask = ones [12]%nat) /\
  (exists mask b, parse_params [(Af, PSel (SInt 2))] None = Ok (mask, b) /\ mask = ones [10]%nat) /\
  (exists mask b, parse_params [(Axyz, PSel (SInt (-1)))] None = Ok (mask, b) /\ mask = ones [19]%nat) /\
  (exists mask b, parse_params [(Axyz, PSel (SInt 0)); (Ak, PBounded SNone [Fin (-1)] [Fin 1])] None = Ok (mask, b) /\
     nth 0 b (NaN, NaN) = (Fin (-1), Fin 1) /\ nth 12 b (NaN, NaN) = (NInf, PInf)).
Proof. split; [|split; [|split]]; do 2 eexists; (split; [reflexivity|]); try split; reflexivity. Qed.
Print Assumptions params_selection_refuted.

(** ** C66: Jacobian sparsity *)

(** An entry of the residuals does not change with a parameter whose column is empty in that
    entry's row of the sparsity structure: the structure given to the optimiser omits no
    nonzero derivative. *)
Theorem sparsity_sound m h p p' r r' row : consistent m h -> Forall local (m_controls m) ->
  length p = n_params m -> length p' = n_params m ->
  (forall col, sparse m row col = true -> nth col p 0 = nth col p' 0) ->
  snd (residuals m (Some p) h) = Ok r -> snd (residuals m (Some p') h) = Ok r' -> (row < 2 * length r)%nat ->
  length r = length r' /\ flat r row = flat r' row.
Proof.
  intros Cm Lo Lp Lp' A R R' Lrow. unfold residuals, predicted in R, R'.
  destruct (set_cameras m p h) as [h1 [[]|e]] eqn:S1; [|discriminate R]. destruct (set_cameras m p' h) as [h2 [[]|e]] eqn:S2; [|discriminate R'].
  destruct (predict_now m h1) as [x1|e] eqn:P1; [|discriminate R]. destruct (predict_now m h2) as [x2|e] eqn:P2; [|discriminate R'].
  cbn [snd bind] in R, R'. destruct (length x1 =? length (observed m))%nat eqn:Q1; [|discriminate R]. destruct (length x2 =? length (observed m))%nat eqn:Q2; [|discriminate R'].
  apply Nat.eqb_eq in Q1, Q2. unfold predict_now in P1, P2.
  destruct (mapM (fun c => ct_predict c h1) (m_controls m)) as [l1|e] eqn:M1; [|discriminate P1]. destruct (mapM (fun c => ct_predict c h2) (m_controls m)) as [l2|e] eqn:M2; [|discriminate P2].
  cbn [bind] in P1, P2. injection P1 as <-. injection P2 as <-.
  assert (Lr : length r = length (observed m) /\ length r' = length (observed m)).
  { destruct (m_weights m) as [w|].
    - destruct (length w =? _)%nat eqn:W1 in R; [|discriminate R]. destruct (length w =? _)%nat eqn:W2 in R'; [|discriminate R']. injection R as <-. injection R' as <-.
      apply Nat.eqb_eq in W1, W2. rewrite !map2_length in *. lia.
    - injection R as <-. injection R' as <-. rewrite !map2_length. lia. }
  destruct Lr as [Lr Lr']. split; [congruence|].
  assert (Ln : (row / 2 < length (observed m))%nat) by (apply Nat.div_lt_upper_bound; lia).
  assert (Pt : nth (row / 2) (concat l1) (0, 0) = nth (row / 2) (concat l2) (0, 0)).
  { destruct (row_control (m_controls m) (row / 2)) as (i & k & Li & Lk & E).
    - unfold observed in Ln. rewrite length_concat_sum, map_map in Ln. exact Ln.
    - destruct (predict_point m h1 l1 i k Lo M1 Li Lk) as (y1 & E1 & N1). destruct (predict_point m h2 l2 i k Lo M2 Li Lk) as (y2 & E2 & N2). rewrite E, N1, N2.
      rewrite Forall_forall in Lo. destruct (Lo (nth i (m_controls m) dummy)) as [Lc _]; [now apply nth_In|]. rewrite (Lc h1 h2) in E1; [congruence|].
      intros o Io. apply (sparse_same m h p p' h1 h2 (nth i (m_controls m) dummy)); auto. intros col Sc. apply A. now apply (sparse_row m row col i k). }
  assert (K : nth (row / 2) r (0, 0) = nth (row / 2) r' (0, 0)).
  { destruct (m_weights m) as [w|].
    - destruct (length w =? _)%nat eqn:W1 in R; [|discriminate R]. destruct (length w =? _)%nat eqn:W2 in R'; [|discriminate R']. injection R as <-. injection R' as <-.
      apply Nat.eqb_eq in W1, W2.
      rewrite !(map2_nth _ w _ (row / 2) 0 (0, 0)) by (rewrite ?map2_length in *; lia).
      now rewrite !(map2_nth _ _ (observed m) (row / 2) (0, 0) (0, 0)), Pt by lia.
    - injection R as <-. injection R' as <-. now rewrite !(map2_nth _ _ (observed m) (row / 2) (0, 0) (0, 0)), Pt by lia. }
  unfold flat. now rewrite K.
Qed.
Print Assumptions sparsity_sound.

(** Two cameras with one observation each: the second camera's own parameters are not in the
    first control's rows. *)
Definition reads (o : nat) := mk_control [o] [(0, 0)] (fun h => Ok [(nth 3 (h o) 0, nth 8 (h o) 0)]).
Definition two_controls := mk_model [0%nat; 1%nat] [reads 0; reads 1] [[0%nat; 1%nat]] [ones [8]%nat] [ones [3]%nat; ones [3]%nat] None [].
Lemma reads_local o : local (reads o).
Proof. split; cbn; [intros h h' H; now rewrite (H o) by auto|intros h l E; injection E as <-; reflexivity]. Qed.
Example sparsity_two : map (fun row => map (sparse two_controls row) (seq 0 3)) (seq 0 4) =
  [[true; true; false]; [true; true; false]; [true; false; true]; [true; false; true]].
Proof. reflexivity. Qed.
Example sparsity_two_applies : Forall local (m_controls two_controls) /\ consistent two_controls start /\
  exists r, snd (residuals two_controls (Some [7; 1; 2]) start) = Ok r /\ flat r 0 = 1 - 0 /\ flat r 3 = 7 - 0.
Proof.
  split; [repeat constructor; try apply reads_local|]. split.
  - split; [repeat constructor; cbn; intuition discriminate|]. split; [intros; unfold start; now rewrite map_length|]. split; [reflexivity|]. split; [reflexivity|].
    split; [repeat constructor|]. split; [repeat constructor|]. split; [cbn; repeat constructor|]. vm_compute. reflexivity.
  - eexists. split; [reflexivity|]. split; reflexivity.
Qed.

(** ** C67: weights *)

(** Weights only matter relative to each other: they are rescaled to sum to their number, so
    equal weights are all 1 and a common factor has no effect. *)
Theorem weights_normalized w : sumR w <> 0 ->
  sumR (normalize_weights w) = INR (length w) /\
  (forall i j, (i < length w)%nat -> (j < length w)%nat -> nth i (normalize_weights w) 0 * nth j w 0 = nth j (normalize_weights w) 0 * nth i w 0) /\
  (forall c, c <> 0 -> normalize_weights (map (Rmult c) w) = normalize_weights w) /\
  ((forall x, In x w -> x = nth 0 w 0) -> normalize_weights w = repeat 1 (length w)).
Proof.
  intros S. unfold normalize_weights.
  assert (Sc : forall k l, sumR (map (fun x => x * k) l) = sumR l * k).
  { intros k l. induction l as [|x l IH]; [cbn; ring|]. cbn [map sumR fold_right]. fold (sumR (map (fun x => x * k) l)) (sumR l). rewrite IH. ring. }
  assert (N : forall i l, (i < length l)%nat -> nth i (map (fun x => x * INR (length w) / sumR w) l) 0 = nth i l 0 * INR (length w) / sumR w).
  { intros i l L. now rewrite (nth_map_d _ l i 0 0 L). }
  split; [|split; [|split]].
  - rewrite (map_ext _ (fun x => x * (INR (length w) / sumR w))) by (intros; unfold Rdiv; ring). rewrite Sc. field. exact S.
  - intros i j Li Lj. rewrite !N by assumption. field. exact S.
  - intros c Hc. assert (E : sumR (map (Rmult c) w) = c * sumR w). { rewrite (map_ext _ (fun x => x * c)) by (intros; ring). rewrite Sc. ring. }
    rewrite E, map_length, map_map. apply map_ext. intros x. field. split; assumption.
  - intros H. destruct w as [|y w']; [reflexivity|]. set (w := y :: w') in *. change (nth 0 w 0) with y in H.
    assert (E : sumR w = INR (length w) * y). { rewrite <- (map_id w) at 1. apply (sumR_const (fun x => x) w y). exact H. }
    assert (Hy : y <> 0 /\ INR (length w) <> 0) by (split; intros Q; apply S; rewrite E, Q; ring). rewrite E. clear E N Sc S. destruct Hy as [Hy Hn].
    generalize dependent (INR (length w)). intros n Hn. clearbody w. induction w as [|x l IH]; [reflexivity|]. cbn. rewrite IH by (intros; apply H; now right).
    rewrite (H x) by now left. f_equal. field. split; assumption.
Qed.
Print Assumptions weights_normalized.
Example weights_example : normalize_weights [1; 3] = [1 / 2; 3 / 2].
Proof. unfold normalize_weights. cbn. f_equal; [|f_equal]; field. Qed.

(** The residuals are the differences between predictions and observations, times the weights. *)
Theorem residuals_weighted m params h r : snd (residuals m params h) = Ok r ->
  exists p, snd (predicted m params h) = Ok p /\ length p = length (observed m) /\ length r = length (observed m) /\
  forall i, (i < length r)%nat ->
    let k := match m_weights m with None => 1 | Some w => nth i w 0 end in
    nth i r (0, 0) = (k * (fst (nth i p (0, 0)) - fst (nth i (observed m) (0, 0))), k * (snd (nth i p (0, 0)) - snd (nth i (observed m) (0, 0)))).
Proof.
  unfold residuals. destruct (predicted m params h) as [h' [p|e]]; cbn [snd bind]; [|discriminate]. destruct (length p =? length (observed m))%nat eqn:L; [|discriminate].
  apply Nat.eqb_eq in L. intros R. exists p. split; [reflexivity|]. split; [exact L|]. destruct (m_weights m) as [w|].
  - destruct (length w =? _)%nat eqn:W in R; [|discriminate R]. injection R as <-. apply Nat.eqb_eq in W. rewrite !map2_length in *. split; [lia|]. intros i Li. cbv zeta.
    rewrite (map2_nth _ w _ i 0 (0, 0)) by (rewrite ?map2_length; lia). rewrite (map2_nth _ p (observed m) i (0, 0) (0, 0)) by lia. cbn [fst snd]. f_equal; ring.
  - injection R as <-. rewrite !map2_length. split; [lia|]. intros i Li. cbv zeta. rewrite (map2_nth _ p (observed m) i (0, 0) (0, 0)) by lia. cbn [fst snd]. f_equal; ring.
Qed.
Print Assumptions residuals_weighted.
