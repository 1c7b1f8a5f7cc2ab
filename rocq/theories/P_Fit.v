(** Property theorems about Cameras.fit (C96). *)
From Coq Require Import String Lia Lra.
From Verif Require Import Base BaseLemmas XReal ParamsModel ParamsSpec ParamsProofs ParamsProofs2 ParamsProofs3 P_Params BuildModel BuildProofs P_Build FitModel.
Notation length := List.length.
Open Scope R_scope.

Lemma residuals_restores m p h h' d : residuals m (Some p) h = (h', Ok d) -> forall o, h' o = h o.
Proof.
  unfold residuals. destruct (predicted m (Some p) h) as [h1 [r|e]] eqn:P; intros E; [|discriminate]. injection E as <- _. exact (proj1 (cameras_predicted_restores m (Some p) h h1 r P)).
Qed.
Lemma pursue_restores m s : forall h h' r, pursue m h s = (h', Ok r) -> forall o, h' o = h o.
Proof.
  induction s as [b v|e|p next IH]; intros h h' r E o; cbn [pursue] in E; [injection E as <- _; reflexivity|discriminate|].
  destruct (residuals m (Some p) h) as [h1 [d|e]] eqn:Q; [|discriminate]. rewrite (IH d h1 h' r E o). exact (residuals_restores m p h h1 d Q o).
Qed.
Lemma minimize_restores opt o h xs cs h' r : minimize opt o h xs cs = (h', Ok r) -> forall c, h' c = h c.
Proof.
  unfold minimize. destruct (orb _ _); [discriminate|]. destruct (pursue (fo_model o) h (opt o)) as [h1 [[b v]|e]] eqn:P; intros E c; [|discriminate]. injection E as <- _. exact (pursue_restores _ _ _ _ _ P c).
Qed.

(** Whatever the optimiser tries, a fit without iterations that returns leaves all cameras, and the object, as they were. *)
Theorem fit_plain_restores : forall scales_of optimizer o h h' o' v, fit scales_of optimizer o [] [] h = (h', o', Ok v) -> o' = o /\ forall c, h' c = h c.
Proof.
  intros so opt o h h' o' v E. unfold fit in E. cbn [length Nat.max Nat.eqb] in E. destruct (minimize opt o h (fo_scales o) (fo_columns o)) as [h1 r] eqn:M. injection E as <- <- ->. split; [reflexivity|exact (minimize_restores _ _ _ _ _ _ _ M)].
Qed.
Print Assumptions fit_plain_restores.

(** the ways an optimiser can stop: success and the values it stops at *)
Inductive stops : strategy -> bool -> list R -> Prop :=
| StopNow b v : stops (Stop b v) b v
| StopLater p next d b v : stops (next d) b v -> stops (Try p next) b v.
Lemma pursue_stops m s : forall h h' b v, pursue m h s = (h', Ok (b, v)) -> stops s b v.
Proof.
  induction s as [b v|e|p next IH]; intros h h' b' v' E; cbn [pursue] in E; [injection E as _ <- <-; constructor|discriminate|].
  destruct (residuals m (Some p) h) as [h1 [d|e]]; [|discriminate]. apply StopLater with d. exact (IH d h1 h' b' v' E).
Qed.
Lemma minimize_stops opt o h xs cs h' r : minimize opt o h xs cs = (h', Ok r) -> exists b v, stops (opt o) b v /\ r = if b then Some v else None.
Proof.
  unfold minimize. destruct (orb _ _); [discriminate|]. destruct (pursue (fo_model o) h (opt o)) as [h1 [[b v]|e]] eqn:P; intros E; [|discriminate]. injection E as _ <-. exists b, v. split; [exact (pursue_stops _ _ _ _ _ _ P)|reflexivity].
Qed.
(** A fit, iterated or not, returns the values the optimiser of the whole problem stops at, and None if it stops without success. *)
Theorem fit_result : forall scales_of optimizer o cam_params group_params h h' o' r, fit scales_of optimizer o cam_params group_params h = (h', o', Ok r) ->
  exists problem success values, stops (optimizer problem) success values /\ r = (if success then Some values else None) /\
    (cam_params = [] -> group_params = [] -> problem = o) /\ m_cams (fo_model problem) = m_cams (fo_model o) /\ m_controls (fo_model problem) = m_controls (fo_model o).
Proof.
  intros so opt o cp gp h h' o' r E. unfold fit in E. destruct (Nat.eqb_spec (Nat.max (length cp) (length gp)) 0) as [Z|NZ].
  - destruct (minimize opt o h (fo_scales o) (fo_columns o)) as [h1 q] eqn:M. injection E as _ _ ->. destruct (minimize_stops _ _ _ _ _ _ _ M) as (b & v & S1 & ->). exists o, b, v. repeat split; assumption || reflexivity.
  - destruct (fit_rounds so opt o cp gp _ h) as [h1 [[]|e]]; [|discriminate]. destruct (update o h1) as [o1|] eqn:U1; [|discriminate].
    destruct (minimize opt o1 h1 (fo_scales o1) (fo_columns o1)) as [h2 [w|e]] eqn:M; [|discriminate]. destruct (update o1 _) as [o2|] eqn:U2; [|discriminate]. injection E as _ _ <-.
    destruct (minimize_stops _ _ _ _ _ _ _ M) as (b & v & S1 & ->). exists o1, b, v. split; [exact S1|]. split; [reflexivity|]. split; [intros -> ->; cbn in NZ; congruence|].
    unfold update in U1. destruct (update_params _ _ _ _ _) as [[[x y] z]|]; [|discriminate]. injection U1 as <-. split; reflexivity.
Qed.
Print Assumptions fit_result.

Lemma set_cameras_foreign' m p h h' r o : set_cameras m p h = (h', r) -> ~ In o (m_cams m) -> h' o = h o.
Proof. intros E N. pose proof (set_cameras_foreign m p h o N) as Q. rewrite E in Q. exact Q. Qed.
Lemma new_fobj_cams so h cams cs cp gi gp w a b o : new_fobj so h cams cs cp gi gp w a b = Ok o -> m_cams (fo_model o) = cams.
Proof.
  unfold new_fobj, new_cameras. intros E. destruct (match gi with Some [] => _ | Some g => _ | None => _ end) as [g|]; [|discriminate]. cbn [bind] in E.
  destruct (update_params _ _ _ _ _) as [[[cm gm] d]|]; [|discriminate]. cbn [bind] in E. destruct (test_model _ _ _ _); [|discriminate]. cbn [bind] in E. injection E as <-. reflexivity.
Qed.
Lemma round_foreign so opt o cp gp n h h' r c : fit_round so opt o cp gp n h = (h', Ok r) -> ~ In c (m_cams (fo_model o)) -> h' c = h c.
Proof.
  unfold fit_round. destruct (bind _ _) as [i|e] eqn:B; [|discriminate]. intros E N.
  assert (Ci : m_cams (fo_model i) = m_cams (fo_model o)). { destruct (round_params cp (fo_cam_params o) n); [|discriminate]. cbn [bind] in B. destruct (round_params gp (fo_group_params o) n); [|discriminate]. cbn [bind] in B. exact (new_fobj_cams _ _ _ _ _ _ _ _ _ _ _ B). }
  destruct (minimize opt i h _ _) as [h1 [[v|]|e]] eqn:M; [|injection E as <- _|discriminate].
  - rewrite (set_cameras_foreign' _ _ _ _ _ c E) by (rewrite Ci; exact N). exact (minimize_restores _ _ _ _ _ _ _ M c).
  - exact (minimize_restores _ _ _ _ _ _ _ M c).
Qed.
Lemma rounds_foreign so opt o cp gp ns : forall h h' r c, fit_rounds so opt o cp gp ns h = (h', Ok r) -> ~ In c (m_cams (fo_model o)) -> h' c = h c.
Proof.
  induction ns as [|n ns IH]; intros h h' r c E N; cbn [fit_rounds] in E; [injection E as <- _; reflexivity|]. destruct (fit_round so opt o cp gp n h) as [h1 [[]|e]] eqn:Q; cbn [andthen] in E; [|discriminate].
  rewrite (IH _ _ _ c E N). exact (round_foreign _ _ _ _ _ _ _ _ _ c Q N).
Qed.
Lemma update_kept o h o' : update o h = Ok o' -> m_cams (fo_model o') = m_cams (fo_model o) /\ m_vectors (fo_model o') = m_vectors (fo_model o) /\ forall h2, update o' h2 = update o h2.
Proof. unfold update. destruct (update_params _ _ _ _ _) as [[[a b] d]|]; cbn [bind]; intros E; [|discriminate]. injection E as <-. repeat split. Qed.
(** With iterations, a fit that returns leaves its cameras as they were when the object was made (or last saved), whatever they were before the fit, and all others as they were; the initial parameter values are those of these cameras. *)
Theorem fit_iterated_restores : forall scales_of optimizer o cam_params group_params h h' o' v made, (0 < Nat.max (length cam_params) (length group_params))%nat ->
  m_vectors (fo_model o) = map made (m_cams (fo_model o)) -> fit scales_of optimizer o cam_params group_params h = (h', o', Ok v) ->
  (forall c, In c (m_cams (fo_model o)) -> h' c = made c) /\ (forall c, ~ In c (m_cams (fo_model o)) -> h' c = h c) /\ update o h' = Ok o'.
Proof.
  intros so opt o cp gp h h' o' v made N V E. unfold fit in E. destruct (Nat.eqb_spec (Nat.max (length cp) (length gp)) 0) as [Z|_]; [lia|].
  destruct (fit_rounds so opt o cp gp (seq 0 (Nat.max (length cp) (length gp))) h) as [h1 [[]|e]] eqn:R; [|discriminate]. destruct (update o h1) as [o1|] eqn:U1; [|discriminate]. destruct (update_kept _ _ _ U1) as (C1 & V1 & K1).
  destruct (minimize opt o1 h1 (fo_scales o1) (fo_columns o1)) as [h2 [w|e]] eqn:M; [|discriminate]. destruct (update o1 (reset_cameras (fo_model o1) h2)) as [o2|] eqn:U2; [|discriminate]. injection E as <- <- _.
  unfold reset_cameras in *. rewrite C1, V1, V in *. split; [|split].
  - intros c I. exact (put_vectors_self _ made h2 c I).
  - intros c I. rewrite put_vectors_other by exact I. rewrite (minimize_restores _ _ _ _ _ _ _ M c). exact (rounds_foreign _ _ _ _ _ _ _ _ _ c R I).
  - rewrite <- K1. exact U2.
Qed.
Print Assumptions fit_iterated_restores.

(** Finding: with the scale factors or the sparsity structure, which are built by default, an iteration for another number of parameters than the object has is refused. *)
Lemma count_params_eq m : count_params m = n_params m.
Proof. unfold count_params, cam_breaks, group_breaks. rewrite !breaks_last. reflexivity. Qed.
Theorem fit_iteration_size_refuted : forall scales_of optimizer made cams controls cam_params group_indices group_params weights scales sparsity o h cp cps gps gp m1 d1,
  new_fobj scales_of made cams controls cam_params group_indices group_params weights scales sparsity = Ok o -> (scales || sparsity)%bool = true -> (forall m h, length (scales_of m h) = n_params m) ->
  (forall c, In c cams -> length (h c) = 20%nat) -> round_params gps (fo_group_params o) 0 = Ok gp ->
  new_cameras h cams (m_controls (fo_model o)) (Some cp) None (Some gp) None = Ok (m1, d1) -> n_params m1 <> n_params (fo_model o) ->
  fit scales_of optimizer o (cp :: cps) gps h = (h, o, Err ValueError).
Proof.
  intros so opt made cams controls cp0 gi gp0 w sc sp o h cp cps gps gp m1 d1 B0 SS LS W RP B1 NE.
  assert (L1 : length d1 = n_params m1) by exact (proj1 (entries _ _ _ _ _ _ _ _ _ B1 W)).
  pose proof (new_fobj_cams _ _ _ _ _ _ _ _ _ _ _ B0) as C0.
  assert (OS : fo_scales o = (if sc then Some (so (fo_model o) made) else None) /\ fo_columns o = (if sp then Some (count_params (fo_model o)) else None)).
  { unfold new_fobj in B0. destruct (new_cameras made cams controls cp0 gi gp0 w) as [[m d]|]; [|discriminate]. cbn [bind] in B0. injection B0 as <-. split; reflexivity. }
  destruct OS as [Es Ec]. unfold fit. assert (X : exists n, Nat.max (length (cp :: cps)) (length gps) = S n) by (cbn [length]; destruct (length gps); cbn; eauto).
  destruct X as (n & ->). cbn [Nat.eqb seq fit_rounds]. unfold fit_round at 1. change (round_params (cp :: cps) (fo_cam_params o) 0) with (Ok cp). cbn [bind]. rewrite RP. cbn [bind].
  unfold new_fobj at 1. rewrite C0, B1. cbn [bind]. unfold minimize. cbn [fo_params fo_scales fo_columns].
  match goal with |- context [if ?t then (h, Err ValueError) else _] => assert (WR : t = true) end.
  { rewrite Es, Ec, L1. destruct sc; cbn [or_own wrong_size].
    - rewrite LS. destruct (Nat.eqb_spec (n_params (fo_model o)) (n_params m1)); [congruence|reflexivity].
    - cbn [orb] in SS. rewrite SS. cbn [or_own]. rewrite !count_params_eq. destruct (Nat.eqb_spec (n_params (fo_model o)) (n_params m1)); [congruence|]. apply Bool.orb_true_r. }
  rewrite WR. reflexivity.
Qed.
Print Assumptions fit_iteration_size_refuted.
(** What an iteration does to groups, for every optimiser: it takes all cameras for one group, so that (if the optimiser succeeds) every parameter selected for the group,
    and for neither of two cameras, ends up with the same value in both, whatever groups the object was made with. *)
Theorem fit_round_shared_refuted : forall scales_of optimizer o cam_params group_params n h h', fit_round scales_of optimizer o cam_params group_params n h = (h', Ok tt) ->
  let cams := m_cams (fo_model o) in
  NoDup cams -> (forall c, In c cams -> length (h c) = 20%nat) ->
  (forall problem success values, stops (optimizer problem) success values -> length values = length (fo_params problem)) ->
  (forall c, h' c = h c) \/
  exists cp gp m d, round_params cam_params (fo_cam_params o) n = Ok cp /\ round_params group_params (fo_group_params o) n = Ok gp /\
    new_cameras h cams (m_controls (fo_model o)) (Some cp) None (Some gp) None = Ok (m, d) /\
    forall q j j', (q < 20)%nat -> (j < length cams)%nat -> (j' < length cams)%nat -> group_on m 0 q = true -> cam_on m j q = false -> cam_on m j' q = false ->
      nth q (h' (nth j cams 0%nat)) 0 = nth q (h' (nth j' cams 0%nat)) 0.
Proof.
  intros so opt o cps gps n h h' E cams ND W OL. unfold fit_round in E. fold cams in E. destruct (bind _ _) as [i|e] eqn:B; [|discriminate].
  destruct (round_params cps (fo_cam_params o) n) as [cp|] eqn:RC; [|discriminate]. cbn [bind] in B. destruct (round_params gps (fo_group_params o) n) as [gp|] eqn:RG; [|discriminate]. cbn [bind] in B.
  destruct (minimize opt i h _ _) as [h1 [[v|]|e]] eqn:M; [| |discriminate].
  2: { injection E as <-. left. exact (minimize_restores _ _ _ _ _ _ _ M). }
  right. unfold new_fobj in B. destruct (new_cameras h cams (m_controls (fo_model o)) (Some cp) None (Some gp) None) as [[m d]|] eqn:N; [|discriminate]. cbn [bind] in B. exists cp, gp, m, d. split; [reflexivity|]. split; [reflexivity|]. split; [exact N|].
  destruct (constructed_consistent _ _ _ _ _ _ _ _ _ N ND W) as (C & C1 & C2 & _). pose proof (minimize_restores _ _ _ _ _ _ _ M) as Same.
  assert (C' : consistent m h1).
  { destruct C as (Q1 & Q2 & Q3). split; [exact Q1|]. split; [|exact Q3]. intros c I. rewrite Same. now apply Q2. }
  assert (Fm : fo_model i = m) by (injection B as <-; reflexivity). destruct (minimize_stops _ _ _ _ _ _ _ M) as (b & v' & St & Ev). assert (v' = v) by (destruct b; congruence). subst v'.
  pose proof (OL i b v St) as Lv. destruct (entries h cams (m_controls (fo_model o)) (Some cp) None (Some gp) None m d N W) as (Ld & _). assert (Fp : fo_params i = d) by (injection B as <-; reflexivity). rewrite Fp, Ld in Lv. rewrite Fm in *. destruct (cameras_set m h1 v C' Lv) as (h2 & E2 & V & _). rewrite E in E2. injection E2 as <-.
  assert (MB : forall j, (j < length cams)%nat -> member m 0 j) by (intros j L; exists (seq 0 (length cams)); rewrite C2; split; [reflexivity|apply in_seq; lia]).
  assert (G : forall j, (j < length cams)%nat -> grouped m j) by (intros j L; exists 0%nat; now apply MB).
  intros q j j' Lq Lj Lj' On O1 O2. rewrite C1 in V. destruct (V j q Lj Lq (G j Lj)) as (_ & A & _), (V j' q Lj' Lq (G j' Lj')) as (_ & A' & _). rewrite C1 in A, A'.
  rewrite (A 0%nat (MB j Lj) On O1), (A' 0%nat (MB j' Lj') On O2). reflexivity.
Qed.
Print Assumptions fit_round_shared_refuted.

(** ** Examples *)
(** two cameras that differ in yaw, in groups of their own *)
Definition yaws : heap := fun o => if (o =? 0)%nat then [0; 0; 0; 10; 0; 0; 100; 100; 4000; 4000; 0; 0; 0; 0; 0; 0; 0; 0; 0; 0] else [0; 0; 0; 30; 0; 0; 100; 100; 4000; 4000; 0; 0; 0; 0; 0; 0; 0; 0; 0; 0].
Definition yaw : list (attr * pval) := [(Aviewdir, PSel (SInt 0))].
Definition starts (o : fobj) : list R := map (fun e => lp_value (snd e)) (fo_params o).
Definition stay (o : fobj) : strategy := Stop true (starts o).
Example stay_as_many : forall problem success values, stops (stay problem) success values -> length values = length (fo_params problem).
Proof. intros p b v S1. inversion S1; subst. apply map_length. Qed.
(** Finding: iterations ignore the groups of the object.  An optimiser that returns the values that it starts from returns the two yaws, and with an iteration with no other parameters their mean, twice: the iteration sets all cameras to the mean. *)
Definition ones (m : model) (h : heap) : list R := repeat 1 (n_params m).
Definition two_groups : result fobj := new_fobj ones yaws [0%nat; 1%nat] [reads 0; reads 1] None (Some [[0%nat]; [1%nat]]) (Some [yaw; yaw]) None false false.
Theorem fit_iteration_groups_refuted : exists o a b c d, two_groups = Ok o /\
  snd (fit ones stay o [] [] yaws) = Ok (Some [a; b]) /\ a = 10 /\ b = 30 /\ snd (fit ones stay o [[[]; []]] [] yaws) = Ok (Some [c; d]) /\ c = 20 /\ d = 20.
Proof.
  destruct two_groups as [o|e] eqn:B.
  2: { exfalso. lazy -[Rplus Rminus Rmult Rdiv Rinv Ropp IZR INR Rtrunc Rltb Rleb] in B. discriminate B. }
  assert (B' := B). lazy -[Rplus Rminus Rmult Rdiv Rinv Ropp IZR INR Rtrunc Rltb Rleb] in B'. injection B' as B'. subst o. clear B.
  do 5 eexists. split; [reflexivity|]. split; [lazy -[Rplus Rminus Rmult Rdiv Rinv Ropp IZR INR Rtrunc Rltb Rleb]; reflexivity|].
  split; [lazy -[Rplus Rminus Rmult Rdiv Rinv Ropp IZR INR Rtrunc Rltb Rleb]; try lra|].
  split; [lazy -[Rplus Rminus Rmult Rdiv Rinv Ropp IZR INR Rtrunc Rltb Rleb]; try lra|].
  split; [lazy -[Rplus Rminus Rmult Rdiv Rinv Ropp IZR INR Rtrunc Rltb Rleb]; reflexivity|].
  replace (INR 2) with 2 by (cbn; lra). replace (INR 1) with 1 by (cbn; lra). split; field.
Qed.
Print Assumptions fit_iteration_groups_refuted.
(** the theorem on sizes applies to the same cameras with scale factors: the iteration has one parameter, the object two *)
Example fit_iteration_size_case : exists o, new_fobj ones yaws [0%nat; 1%nat] [reads 0; reads 1] None (Some [[0%nat]; [1%nat]]) (Some [yaw; yaw]) None true true = Ok o /\
  fit ones stay o [[[]; []]] [] yaws = (yaws, o, Err ValueError).
Proof.
  destruct (new_fobj ones yaws [0%nat; 1%nat] [reads 0; reads 1] None (Some [[0%nat]; [1%nat]]) (Some [yaw; yaw]) None true true) as [o|e] eqn:B.
  2: { exfalso. lazy -[Rplus Rminus Rmult Rdiv Rinv Ropp IZR INR Rtrunc Rltb Rleb] in B. discriminate B. }
  exists o. split; [reflexivity|]. destruct (new_cameras yaws [0%nat; 1%nat] (m_controls (fo_model o)) (Some [[]; []]) None (Some [yaw; yaw]) None) as [[m1 d1]|e] eqn:N.
  - refine (fit_iteration_size_refuted ones stay yaws _ _ _ _ _ _ true true o yaws [[]; []] [] [] [yaw; yaw] m1 d1 B eq_refl _ _ _ N _).
    + intros m h. unfold ones. apply repeat_length.
    + intros c I. unfold yaws. destruct (c =? 0)%nat; reflexivity.
    + assert (B' := B). lazy -[Rplus Rminus Rmult Rdiv Rinv Ropp IZR INR Rtrunc Rltb Rleb] in B'. injection B' as B'. subst o. reflexivity.
    + assert (B' := B). lazy -[Rplus Rminus Rmult Rdiv Rinv Ropp IZR INR Rtrunc Rltb Rleb] in B'. injection B' as B'. subst o. lazy -[Rplus Rminus Rmult Rdiv Rinv Ropp IZR INR Rtrunc Rltb Rleb] in N. injection N as N1 N2. subst m1. lazy. discriminate.
  - exfalso. assert (B' := B). lazy -[Rplus Rminus Rmult Rdiv Rinv Ropp IZR INR Rtrunc Rltb Rleb] in B'. injection B' as B'. subst o. lazy -[Rplus Rminus Rmult Rdiv Rinv Ropp IZR INR Rtrunc Rltb Rleb] in N. discriminate N.
Qed.
