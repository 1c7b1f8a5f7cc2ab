(** Every operation keeps the ownership of buffers by families (ShareModel.v). *)
From Coq Require Import Lia.
From Verif Require Import Base BaseLemmas HelpersModel GridModel GetitemModel ShareModel ShareProofs.
Open Scope R_scope.

Lemma owns_new_lim t w l b w1 fams own f : new_lim w l = (b, w1) -> owns t w fams own -> exists own', owns t w1 fams own' /\ keeps_own own own' /\ (t = PLim -> nth_error own' b = Some f).
Proof.
  intros E O. injection E as <- <-. match goal with |- context [owns t ?w1 fams _] => destruct (owns_more t w w1 fams own f O eq_refl) as (own' & O' & K & Fr) end; [destruct t; cbn [hl w_lims w_crds w_vals]; rewrite ?app_length; cbn; lia|].
  exists own'. split; [exact O'|]. split; [exact K|]. intros ->. apply Fr. cbn. rewrite app_length. cbn. lia.
Qed.
Lemma owns_new_crd t w l v w1 fams own f : new_crd w l = (v, w1) -> owns t w fams own -> exists own', owns t w1 fams own' /\ keeps_own own own' /\ (t = PCrd -> nth_error own' (v_buf v) = Some f).
Proof.
  intros E O. injection E as <- <-. match goal with |- context [owns t ?w1 fams _] => destruct (owns_more t w w1 fams own f O eq_refl) as (own' & O' & K & Fr) end; [destruct t; cbn [hl w_lims w_crds w_vals]; rewrite ?app_length; cbn; lia|].
  exists own'. split; [exact O'|]. split; [exact K|]. intros ->. apply Fr. cbn. rewrite app_length. cbn. lia.
Qed.
Lemma owns_new_val t w rows c w1 fams own f : new_val w rows = (c, w1) -> owns t w fams own -> exists own', owns t w1 fams own' /\ keeps_own own own' /\ (t = PVal -> nth_error own' (fst c) = Some f).
Proof.
  intros E O. injection E as <- <-. match goal with |- context [owns t ?w1 fams _] => destruct (owns_more t w w1 fams own f O eq_refl) as (own' & O' & K & Fr) end; [destruct t; cbn [hl w_lims w_crds w_vals]; rewrite ?app_length; cbn; lia|].
  exists own'. split; [exact O'|]. split; [exact K|]. intros ->. apply Fr. cbn. rewrite app_length. cbn. lia.
Qed.
Lemma owns_inplace t w w' fams own : owns t w fams own -> w_objs w' = w_objs w -> hl t w' = hl t w -> owns t w' fams own.
Proof. intros (L & F & H) EO HL. split; [congruence|]. split; [congruence|]. intros j o b Ej. rewrite EO in Ej. apply H, Ej. Qed.
Lemma shift_axis_objs x o d w : w_objs (shift_axis x o d w) = w_objs w /\ forall t, hl t (shift_axis x o d w) = hl t w.
Proof.
  unfold shift_axis. destruct d as [d|]; [|auto]. destruct (cached x o); cbn; (split; [reflexivity|]); intros []; cbn; rewrite ?set_nth_length; reflexivity.
Qed.
Lemma change_val_objs f b ps w : w_objs (change_val f b ps w) = w_objs w /\ forall t, hl t (change_val f b ps w) = hl t w.
Proof. split; [reflexivity|]. intros []; cbn; rewrite ?set_nth_length; reflexivity. Qed.
(** ownership of what an object refers to *)
Lemma owns_refs t w fams own k o f b : owns t w fams own -> nth_error (w_objs w) k = Some o -> nth_error fams k = Some f -> In b (refs t o) -> nth_error own b = Some f.
Proof. intros (L & F & H) Ek Ef Ib. destruct (H k o b Ek Ib) as (g & A & B). congruence. Qed.

(** the families after an operation that makes no object, or one *)
Lemma family_none t p w fams : length (w_objs (fst (step p w))) = length (w_objs w) -> family_step t p w fams = joined t p fams.
Proof. intros E. unfold family_step. rewrite E, Nat.ltb_irrefl. reflexivity. Qed.
Lemma family_one t p w fams : length (w_objs (fst (step p w))) = S (length (w_objs w)) -> family_step t p w fams = joined t p fams ++ [match source t p with Some k => nth k (joined t p fams) (length (w_objs w)) | None => length (w_objs w) end].
Proof. intros E. unfold family_step. rewrite E. destruct (Nat.ltb_spec (length (w_objs w)) (S (length (w_objs w)))); [reflexivity|lia]. Qed.
Lemma joined_other t p fams : (forall k g rows, p <> OResample k g rows) -> joined t p fams = fams.
Proof. intros N. destruct t, p; try reflexivity; exfalso; eapply N; reflexivity. Qed.
(** ** Each operation *)
Lemma step_new_owns t rows x y w fams own : owns t w fams own -> exists own', owns t (fst (step (ONew rows x y) w)) (family_step t (ONew rows x y) w fams) own'.
Proof.
  intros O. pose proof (family_none t (ONew rows x y) w fams) as F0. pose proof (family_one t (ONew rows x y) w fams) as F1. rewrite joined_other in F0, F1 by discriminate.
  replace (source t (ONew rows x y)) with (@None nat) in F1 by (destruct t; reflexivity). cbn [step] in *. unfold step_new in *.
  destruct (parse_xy (size_x rows) (size_y rows) (CVec x) false) as [[[xl kx] ?]|e1].
  2:{ cbn [fst] in *. rewrite F0 by reflexivity. eauto. }
  destruct (parse_xy (size_x rows) (size_y rows) (CVec y) true) as [[[yl ky] ?]|e2].
  2:{ cbn [fst] in *. rewrite F0 by reflexivity. eauto. }
  set (n := length (w_objs w)) in *.
  destruct (new_val w rows) as [c w1] eqn:N1. destruct (owns_new_val _ _ _ _ _ _ _ n N1 O) as (own1 & O1 & K1 & R1).
  destruct (new_lim w1 xl) as [bx w2] eqn:N2. destruct (owns_new_lim _ _ _ _ _ _ _ n N2 O1) as (own2 & O2 & K2 & R2).
  destruct (new_lim w2 yl) as [by_ w3] eqn:N3. destruct (owns_new_lim _ _ _ _ _ _ _ n N3 O2) as (own3 & O3 & K3 & R3).
  assert (Q4 : exists vx w4 own4, (match kx with Some l => let (v, w) := new_crd w3 l in (Some v, w) | None => (None, w3) end) = (vx, w4) /\ w_objs w4 = w_objs w3 /\ owns t w4 fams own4 /\ keeps_own own3 own4 /\ (forall v, vx = Some v -> t = PCrd -> nth_error own4 (v_buf v) = Some n)).
  { destruct kx as [l|]; [|exists None, w3, own3; repeat split; auto; try apply O3; try apply keeps_refl; discriminate]. destruct (new_crd w3 l) as [v w4] eqn:N4. destruct (owns_new_crd _ _ _ _ _ _ _ n N4 O3) as (own4 & O4 & K4 & R4). exists (Some v), w4, own4. split; [reflexivity|]. split; [injection N4 as _ <-; reflexivity|]. split; [exact O4|]. split; [exact K4|]. intros v' Q. injection Q as <-. exact R4. }
  destruct Q4 as (vx & w4 & own4 & E4 & B4 & O4 & K4 & R4). rewrite E4 in *. clear E4.
  assert (Q5 : exists vy w5 own5, (match ky with Some l => let (v, w) := new_crd w4 l in (Some v, w) | None => (None, w4) end) = (vy, w5) /\ w_objs w5 = w_objs w4 /\ owns t w5 fams own5 /\ keeps_own own4 own5 /\ (forall v, vy = Some v -> t = PCrd -> nth_error own5 (v_buf v) = Some n)).
  { destruct ky as [l|]; [|exists None, w4, own4; repeat split; auto; try apply O4; try apply keeps_refl; discriminate]. destruct (new_crd w4 l) as [v w5] eqn:N5. destruct (owns_new_crd _ _ _ _ _ _ _ n N5 O4) as (own5 & O5 & K5 & R5). exists (Some v), w5, own5. split; [reflexivity|]. split; [injection N5 as _ <-; reflexivity|]. split; [exact O5|]. split; [exact K5|]. intros v' Q. injection Q as <-. exact R5. }
  destruct Q5 as (vy & w5 & own5 & E5 & B5 & O5 & K5 & R5). rewrite E5 in *. clear E5.
  assert (BB : w_objs w5 = w_objs w) by (rewrite B5, B4; injection N3 as _ <-; injection N2 as _ <-; injection N1 as _ <-; reflexivity).
  cbn [fst] in *. rewrite F1 by (cbn [add_o w_objs]; rewrite BB, app_length; cbn; unfold n; lia). exists own5. apply owns_add; [exact O5|]. intros b Ib. destruct t; cbn [refs o_xl o_yl o_x o_y o_cells] in Ib.
  - destruct Ib as [<-|[<-|[]]]; apply K5, K4; [apply K3|]; auto.
  - apply in_app_or in Ib. destruct Ib as [Ib|Ib].
    + destruct vx as [v|]; [|destruct Ib]. destruct Ib as [<-|[]]. apply K5. now apply R4.
    + destruct vy as [v|]; [|destruct Ib]. destruct Ib as [<-|[]]. now apply R5.
  - destruct Ib as [<-|[]]. apply K5, K4, K3, K2. auto.
Qed.
Lemma parse_vec nx ny v dim xl kx X : parse_xy nx ny (CVec v) dim = Ok (xl, kx, X) -> kx = (if (2 <? length v)%nat then Some v else None).
Proof.
  unfold parse_xy. destruct (2 <? length v)%nat.
  - destruct v as [|x0 [|x1 r]]; try discriminate. destruct (parse_limits _); [|discriminate]. cbn. intros E. injection E as _ <- _. reflexivity.
  - destruct (length v =? 2)%nat; [|discriminate]. destruct (parse_limits v); [|discriminate]. cbn. intros E. injection E as _ <- _. reflexivity.
Qed.
Lemma step_sub_owns t k i j w fams own : owns t w fams own -> exists own', owns t (fst (step (OSub k i j) w)) (family_step t (OSub k i j) w fams) own'.
Proof.
  intros O. pose proof (family_none t (OSub k i j) w fams) as F0. pose proof (family_one t (OSub k i j) w fams) as F1. rewrite joined_other in F0, F1 by discriminate. cbn [step] in *. unfold step_sub in *.
  destruct (nth_error (w_objs w) k) as [o|] eqn:Ek; [|cbn [fst] in *; rewrite F0 by reflexivity; eauto].
  destruct (owns_fam _ _ _ _ _ _ O Ek) as [f Ff].
  destruct (o_cells o) as [c|] eqn:Ec; [|cbn [fst] in *; rewrite F0 by reflexivity; eauto].
  destruct (as_slice i) as [[[i0 i1] istep]|e]; [|cbn [fst] in *; rewrite F0 by reflexivity; eauto].
  destruct (as_slice j) as [[[j0 j1] jstep]|e]; [|cbn [fst] in *; rewrite F0 by reflexivity; eauto].
  destruct (get_c true k w) as [w1 vx] eqn:G1. destruct (get_c_owns t _ _ _ _ _ _ _ O G1) as (own1 & O1 & K1 & R1). destruct (get_c_objs _ _ _ _ _ G1) as [L1 S1].
  destruct vx as [vx|]; [|cbn [fst] in *; rewrite F0 by exact L1; eauto].
  destruct (positions (o_nx o) j0 j1 jstep) as [cols|]; [|cbn [fst] in *; rewrite F0 by exact L1; eauto].
  destruct (get_c false k w1) as [w2 vy] eqn:G2. destruct (get_c_owns t _ _ _ _ _ _ _ O1 G2) as (own2 & O2 & K2 & R2). destruct (get_c_objs _ _ _ _ _ G2) as [L2 S2].
  assert (L20 : length (w_objs w2) = length (w_objs w)) by congruence.
  destruct vy as [vy|]; [|cbn [fst] in *; rewrite F0 by exact L20; eauto].
  destruct (positions (o_ny o) i0 i1 istep) as [rows|]; [|cbn [fst] in *; rewrite F0 by exact L20; eauto].
  cbv zeta in *.
  destruct (sub_coordinates _ (crd_at w2 vx) cols jstep) as [cx|]; [|cbn [fst] in *; rewrite F0 by exact L20; eauto].
  destruct (sub_coordinates _ (crd_at w2 vy) rows istep) as [cy|]; [|cbn [fst] in *; rewrite F0 by exact L20; eauto].
  destruct (parse_xy _ _ (CVec cx) false) as [[[xl kx] ?]|e1]; [|cbn [fst] in *; rewrite F0 by exact L20; eauto].
  destruct (parse_xy _ _ (CVec cy) true) as [[[yl ky] ?]|e1]; [|cbn [fst] in *; rewrite F0 by exact L20; eauto].
  set (n := length (w_objs w)) in *.
  destruct (new_lim w2 xl) as [bx w3] eqn:N3. destruct (owns_new_lim _ _ _ _ _ _ _ n N3 O2) as (own3 & O3 & K3 & R3).
  destruct (new_lim w3 yl) as [by_ w4] eqn:N4. destruct (owns_new_lim _ _ _ _ _ _ _ n N4 O3) as (own4 & O4 & K4 & R4).
  assert (B4 : length (w_objs w4) = n) by (injection N4 as _ <-; injection N3 as _ <-; exact L20).
  cbn [fst] in *. rewrite F1 by (cbn [add_o w_objs]; rewrite app_length, B4; cbn; lia). exists own4. apply owns_add; [exact O4|]. intros b Ib. destruct t; cbn [refs o_xl o_yl o_x o_y o_cells source] in *.
  - destruct Ib as [<-|[<-|[]]]; [apply K4|]; auto.
  - rewrite (nth_error_nth _ _ n Ff). apply in_app_or in Ib. destruct Ib as [Ib|Ib].
    + destruct kx; [|destruct Ib]. destruct Ib as [<-|[]]. cbn [v_buf]. apply K4, K3, K2. now apply R1.
    + destruct ky; [|destruct Ib]. destruct Ib as [<-|[]]. cbn [v_buf]. apply K4, K3. now apply R2.
  - rewrite (nth_error_nth _ _ n Ff). destruct Ib as [<-|[]]. cbn [fst]. apply K4, K3, K2, K1. apply (owns_refs PVal w fams own k o f); auto. cbn [refs]. rewrite Ec. now left.
Qed.
(** resample *)
Lemma joined_owns t p w fams own : owns t w fams own -> exists own', owns t w (joined t p fams) own'.
Proof.
  intros O. unfold joined. destruct t, p; eauto; destruct (nth_error fams k), (nth_error fams g); eauto; eexists; apply owns_map, O.
Qed.
Lemma joined_eq t k g rows fams a b : t <> PVal -> nth_error fams k = Some a -> nth_error fams g = Some b -> nth_error (joined t (OResample k g rows) fams) k = Some b /\ nth_error (joined t (OResample k g rows) fams) g = Some b.
Proof.
  intros N A B. assert (Q : joined t (OResample k g rows) fams = map (fun f => if (f =? a)%nat then b else f) fams) by (destruct t; cbn [joined]; rewrite ?A, ?B; try reflexivity; contradiction). rewrite Q, !nth_error_map, A, B. cbn. rewrite Nat.eqb_refl. destruct (b =? a)%nat; auto.
Qed.
Lemma refs_with_cells t o c nx ny b : In b (refs t (with_cells o c nx ny)) -> (t = PVal /\ b = fst c) \/ (t <> PVal /\ In b (refs t o)).
Proof.
  unfold with_cells. destruct ((nx =? o_nx o) && (ny =? o_ny o))%Z%bool, t; cbn [refs o_xl o_yl o_x o_y o_cells]; intros I; try (right; split; [discriminate|exact I]); try (destruct I; fail); try (left; destruct I as [<-|[]]; auto).
Qed.
Lemma refs_with_lim t x o n b : In b (refs t (with_lim x o n)) -> (t = PLim /\ b = n) \/ In b (refs t o).
Proof.
  unfold with_lim. destruct x, t; cbn [refs o_xl o_yl o_x o_y o_cells]; intros I; auto.
  - destruct I as [<-|[<-|[]]]; cbn; auto.
  - right. apply in_or_app. now right.
  - destruct I as [<-|[<-|[]]]; cbn; auto.
  - right. rewrite app_nil_r in I. apply in_or_app. now left.
Qed.
Lemma refs_bind_lim t x o w n b : In b (refs t (bind_lim x o w n)) -> (t = PLim /\ b = n) \/ In b (refs t o).
Proof. unfold bind_lim. destruct (req2 _ _); [auto|apply refs_with_lim]. Qed.
Lemma refs_with_cached t x o v b : In b (refs t (with_cached x o (Some v))) -> (t = PCrd /\ b = v_buf v) \/ In b (refs t o).
Proof.
  unfold with_cached. destruct x, t; cbn [refs o_xl o_yl o_x o_y o_cells]; intros I; auto; apply in_app_or in I; destruct I as [I|I].
  - destruct I as [<-|[]]. auto.
  - right. apply in_or_app. now right.
  - right. apply in_or_app. now left.
  - destruct I as [<-|[]]. auto.
Qed.
Lemma step_resample_owns t k g rows w fams own : owns t w fams own -> exists own', owns t (fst (step (OResample k g rows) w)) (family_step t (OResample k g rows) w fams) own'.
Proof.
  intros O. assert (Ln : length (w_objs (fst (step (OResample k g rows) w))) = length (w_objs w)).
  { cbn [step]. unfold step_resample. destruct (get_c true g w) as [w1 r1] eqn:G1. destruct (get_c false g w1) as [w2 r2] eqn:G2. destruct (get_c_objs _ _ _ _ _ G1) as [L1 _]. destruct (get_c_objs _ _ _ _ _ G2) as [L2 _].
    destruct (nth_error (w_objs w2) k); [|cbn; congruence]. destruct (nth_error (w_objs w2) g); [|cbn; congruence]. destruct (o_cells _); [|cbn; congruence]. destruct (new_val w2 rows) as [c w3] eqn:N3.
    assert (L3 : w_objs w3 = w_objs w2) by (injection N3 as _ <-; reflexivity).
    match goal with |- context [get_c true g ?w] => set (w4 := w) end. assert (L4 : length (w_objs w4) = length (w_objs w2)) by (cbn; rewrite set_nth_length; congruence).
    destruct (get_c true g w4) as [w5 r5] eqn:G5. destruct (get_c_objs _ _ _ _ _ G5) as [L5 _]. destruct r5; [|cbn; congruence]. destruct (get_c false g w5) as [w6 r6] eqn:G6. destruct (get_c_objs _ _ _ _ _ G6) as [L6 _]. destruct r6; [|cbn; congruence].
    destruct (nth_error (w_objs w6) k); cbn; rewrite ?set_nth_length; congruence. }
  rewrite (family_none _ _ _ _ Ln). clear Ln. destruct (joined_owns t (OResample k g rows) _ _ _ O) as [own0 O0].
  assert (FK : forall o og, nth_error (w_objs w) k = Some o -> nth_error (w_objs w) g = Some og -> exists f f', nth_error (joined t (OResample k g rows) fams) k = Some f /\ nth_error (joined t (OResample k g rows) fams) g = Some f' /\ (t <> PVal -> f' = f)).
  { intros o og Ek Eg. destruct (owns_fam _ _ _ _ _ _ O0 Ek) as [f A]. destruct (owns_fam _ _ _ _ _ _ O0 Eg) as [f' B]. exists f, f'. split; [exact A|]. split; [exact B|]. intros N. destruct (owns_fam _ _ _ _ _ _ O Ek) as [a Fa]. destruct (owns_fam _ _ _ _ _ _ O Eg) as [b Fb]. destruct (joined_eq t k g rows fams a b N Fa Fb) as [A' B']. congruence. }
  set (fams1 := joined t (OResample k g rows) fams) in *. clearbody fams1. clear O. cbn [step]. unfold step_resample.
  destruct (get_c true g w) as [w1 r1] eqn:G1. destruct (get_c false g w1) as [w2 r2] eqn:G2.
  destruct (get_c_objs _ _ _ _ _ G1) as [L1 _]. destruct (get_c_objs _ _ _ _ _ G2) as [L2 _].
  destruct (get_c_owns t _ _ _ _ _ _ _ O0 G1) as (own1 & O1 & K1 & _). destruct (get_c_owns t _ _ _ _ _ _ _ O1 G2) as (own2 & O2 & K2 & _).
  destruct (nth_error (w_objs w2) k) as [o|] eqn:Ek; [|eauto]. destruct (nth_error (w_objs w2) g) as [og|] eqn:Eg; [|eauto]. destruct (o_cells o) as [c0|] eqn:Ec0; [|eauto].
  assert (V : exists f f', nth_error fams1 k = Some f /\ nth_error fams1 g = Some f' /\ (t <> PVal -> f' = f)).
  { destruct (nth_error (w_objs w) k) eqn:A; [destruct (nth_error (w_objs w) g) eqn:B; [eapply FK; eauto|]|]; exfalso; apply nth_error_None in A || apply nth_error_None in B.
    - assert (g < length (w_objs w2))%nat by (apply nth_error_Some; congruence). lia.
    - assert (k < length (w_objs w2))%nat by (apply nth_error_Some; congruence). lia. }
  destruct V as (f & f' & Ff & Ff' & Eff).
  destruct (new_val w2 rows) as [c w3] eqn:N3. destruct (owns_new_val _ _ _ _ _ _ _ f N3 O2) as (own3 & O3 & K3 & R3). assert (B3 : w_objs w3 = w_objs w2) by (injection N3 as _ <-; reflexivity).
  match goal with |- context [get_c true g ?w] => set (w4 := w) end.
  assert (O4 : owns t w4 fams1 own3).
  { apply (owns_set t w3 fams1 own3 k f); [exact O3|exact Ff|]. intros b Ib. apply refs_bind_lim in Ib. destruct Ib as [[-> ->]|Ib]; [apply (owns_refs PLim w3 fams1 own3 g og f); [exact O3|congruence|rewrite Ff'; f_equal; apply Eff; discriminate|cbn; auto]|].
    apply refs_bind_lim in Ib. destruct Ib as [[-> ->]|Ib]; [apply (owns_refs PLim w3 fams1 own3 g og f); [exact O3|congruence|rewrite Ff'; f_equal; apply Eff; discriminate|cbn; auto]|].
    apply refs_with_cells in Ib. destruct Ib as [[-> ->]|[N Ib]]; [auto|]. apply (owns_refs t w3 fams1 own3 k o f); [exact O3|congruence|exact Ff|exact Ib]. }
  destruct (get_c true g w4) as [w5 r5] eqn:G5. destruct (get_c_owns t _ _ _ _ _ _ _ O4 G5) as (own5 & O5 & K5 & R5). destruct r5 as [vx|]; [|eauto].
  destruct (get_c false g w5) as [w6 r6] eqn:G6. destruct (get_c_owns t _ _ _ _ _ _ _ O5 G6) as (own6 & O6 & K6 & R6). destruct r6 as [vy|]; [|eauto].
  destruct (nth_error (w_objs w6) k) as [o6|] eqn:Ek6; [|eauto]. exists own6. apply (owns_set t w6 fams1 own6 k f); [exact O6|exact Ff|]. intros b Ib.
  apply refs_with_cached in Ib. destruct Ib as [[-> ->]|Ib]; [apply R6; [reflexivity|reflexivity|]; rewrite Ff'; f_equal; apply Eff; discriminate|].
  apply refs_with_cached in Ib. destruct Ib as [[-> ->]|Ib]; [apply K6; apply R5; [reflexivity|reflexivity|]; rewrite Ff'; f_equal; apply Eff; discriminate|].
  apply (owns_refs t w6 fams1 own6 k o6 f); auto.
Qed.
Lemma step_owns t p w fams own : owns t w fams own -> exists own', owns t (fst (step p w)) (family_step t p w fams) own'.
Proof.
  destruct p; [apply step_new_owns| | | |apply step_sub_owns| | | | | |apply step_resample_owns]; intros O.
  all: match goal with |- context [family_step ?t ?p ?w ?fams] => pose proof (family_none t p w fams) as F0; pose proof (family_one t p w fams) as F1; rewrite joined_other in F0, F1 by discriminate end.
  all: cbn [step] in *.
  - destruct (nth_error (w_objs w) k) as [o|] eqn:Ek; [|cbn [fst] in *; rewrite F0 by reflexivity; eauto]. destruct (owns_fam _ _ _ _ _ _ O Ek) as [f Ff].
    set (n := match source t (OWith k rows) with Some k => nth k fams (length (w_objs w)) | None => length (w_objs w) end) in *.
    destruct (new_val w rows) as [c w1] eqn:N1. destruct (owns_new_val _ _ _ _ _ _ _ n N1 O) as (own1 & O1 & K1 & R1). assert (B1 : w_objs w1 = w_objs w) by (injection N1 as _ <-; reflexivity).
    cbn [fst] in *. rewrite F1 by (cbn [add_o w_objs]; rewrite B1, app_length; cbn; lia). exists own1. apply owns_add; [exact O1|]. intros b Ib. destruct t; cbn [refs o_xl o_yl o_x o_y o_cells app] in Ib.
    + unfold n. cbn [source]. rewrite (nth_error_nth _ _ _ Ff). apply K1. apply (owns_refs PLim w fams own k o f); auto.
    + destruct Ib.
    + destruct Ib as [<-|[]]. auto.
  - destruct (nth_error (w_objs w) k) as [o|] eqn:Ek; [|cbn [fst] in *; rewrite F0 by reflexivity; eauto]. destruct (owns_fam _ _ _ _ _ _ O Ek) as [f Ff].
    destruct (o_cells o); [|cbn [fst] in *; rewrite F0 by reflexivity; eauto].
    cbn [fst] in *. rewrite F1 by (cbn [add_o w_objs]; rewrite app_length; cbn; lia). exists own. apply owns_add; [exact O|]. intros b Ib. destruct t; cbn [refs bare o_xl o_yl o_x o_y o_cells app] in Ib; try destruct Ib as [].
    + cbn [source]. rewrite (nth_error_nth _ _ _ Ff). subst. apply (owns_refs PLim w fams own k o f); auto. cbn; auto.
    + cbn [source]. rewrite (nth_error_nth _ _ _ Ff). apply (owns_refs PLim w fams own k o f); auto. cbn [refs In]. tauto.
  - destruct (nth_error (w_objs w) k) as [o|] eqn:Ek; [|cbn [fst] in *; rewrite F0 by reflexivity; eauto].
    set (n := length (w_objs w)) in *. replace (source t (OCopy k)) with (@None nat) in F1 by (destruct t; reflexivity).
    destruct (new_lim w (lim_at w (o_xl o))) as [bx w1] eqn:N1. destruct (owns_new_lim _ _ _ _ _ _ _ n N1 O) as (own1 & O1 & K1 & R1). assert (B1 : w_objs w1 = w_objs w) by (injection N1 as _ <-; reflexivity).
    destruct (new_lim w1 (lim_at w (o_yl o))) as [by_ w2] eqn:N2. destruct (owns_new_lim _ _ _ _ _ _ _ n N2 O1) as (own2 & O2 & K2 & R2). assert (B2 : w_objs w2 = w_objs w) by (injection N2 as _ <-; exact B1).
    destruct (o_cells o) as [c0|].
    + destruct (new_val w2 (val_at w c0)) as [c w3] eqn:N3. destruct (owns_new_val _ _ _ _ _ _ _ n N3 O2) as (own3 & O3 & K3 & R3). assert (B3 : w_objs w3 = w_objs w) by (injection N3 as _ <-; exact B2).
      cbn [fst] in *. rewrite F1 by (cbn [add_o w_objs]; rewrite B3, app_length; cbn; unfold n; lia). exists own3. apply owns_add; [exact O3|]. intros b Ib. destruct t; cbn [refs bare o_xl o_yl o_x o_y o_cells app] in Ib.
      * destruct Ib as [<-|[<-|[]]]; apply K3; [apply K2|]; auto.
      * destruct Ib.
      * destruct Ib as [<-|[]]. auto.
    + cbn [fst] in *. rewrite F1 by (cbn [add_o w_objs]; rewrite B2, app_length; cbn; unfold n; lia). exists own2. apply owns_add; [exact O2|]. intros b Ib. destruct t; cbn [refs bare o_xl o_yl o_x o_y o_cells app] in Ib.
      * destruct Ib as [<-|[<-|[]]]; [apply K2|]; auto.
      * destruct Ib.
      * destruct Ib.
  - destruct (get_c x k w) as [w1 r] eqn:G. destruct (get_c_owns t _ _ _ _ _ _ _ O G) as (own1 & O1 & _). cbn [fst] in *. rewrite F0 by apply (get_c_objs _ _ _ _ _ G). eauto.
  - destruct (nth_error (w_objs w) k) as [o|] eqn:Ek; [|cbn [fst] in *; rewrite F0 by reflexivity; eauto]. destruct (owns_fam _ _ _ _ _ _ O Ek) as [f Ff].
    destruct (parse_limits l) as [l'|]; [|cbn [fst] in *; rewrite F0 by reflexivity; eauto]. destruct (req2 _ _); [cbn [fst] in *; rewrite F0 by reflexivity; eauto|].
    destruct (new_lim w l') as [b1 w1] eqn:N1. destruct (owns_new_lim _ _ _ _ _ _ _ f N1 O) as (own1 & O1 & K1 & R1). assert (B1 : w_objs w1 = w_objs w) by (injection N1 as _ <-; reflexivity).
    cbn [fst] in *. rewrite F0 by (cbn [set_o w_objs]; now rewrite set_nth_length, B1). exists own1. apply (owns_set t w1 fams own1 k f); [exact O1|exact Ff|]. intros b Ib. apply refs_with_lim in Ib. destruct Ib as [[-> ->]|Ib]; [auto|]. apply K1. apply (owns_refs t w fams own k o f); auto.
  - destruct (nth_error (w_objs w) k) as [o|] eqn:Ek; [|cbn [fst] in *; rewrite F0 by reflexivity; eauto]. destruct (owns_fam _ _ _ _ _ _ O Ek) as [f Ff].
    destruct (o_cells o) as [c0|]; [|cbn [fst] in *; rewrite F0 by reflexivity; eauto]. destruct (new_val w rows) as [c w1] eqn:N1. destruct (owns_new_val _ _ _ _ _ _ _ f N1 O) as (own1 & O1 & K1 & R1). assert (B1 : w_objs w1 = w_objs w) by (injection N1 as _ <-; reflexivity).
    cbn [fst] in *. rewrite F0 by (cbn [set_o w_objs]; now rewrite set_nth_length, B1). exists own1. apply (owns_set t w1 fams own1 k f); [exact O1|exact Ff|]. intros b Ib. apply refs_with_cells in Ib. destruct Ib as [[-> ->]|[_ Ib]]; [auto|]. apply K1. apply (owns_refs t w fams own k o f); auto.
  - destruct (nth_error (w_objs w) k) as [o|] eqn:Ek; [|cbn [fst] in *; rewrite F0 by reflexivity; eauto].
    destruct (o_cells o) as [c0|]; [|cbn [fst] in *; rewrite F0 by reflexivity; eauto]. destruct (nth_error (nth r (snd c0) []) c); [|cbn [fst] in *; rewrite F0 by reflexivity; eauto].
    cbn [fst] in *. rewrite F0 by reflexivity. exists own. apply (owns_inplace t w); [exact O|reflexivity|apply change_val_objs].
  - destruct (nth_error (w_objs w) k) as [o|] eqn:Ek; [|cbn [fst] in *; rewrite F0 by reflexivity; eauto].
    assert (Q : forall w', w_objs w' = w_objs w -> (forall t, hl t w' = hl t w) -> owns t w' fams own) by (intros w' A B; apply (owns_inplace t w); auto).
    destruct (shift_axis_objs true o dx w) as [A1 A2]. destruct (shift_axis_objs false o dy (shift_axis true o dx w)) as [B1 B2].
    assert (C1 : w_objs (shift_axis false o dy (shift_axis true o dx w)) = w_objs w) by congruence. assert (C2 : forall t, hl t (shift_axis false o dy (shift_axis true o dx w)) = hl t w) by (intros t'; congruence).
    destruct dz as [d|], (o_cells o) as [c0|]; cbn [fst] in *.
    + destruct (change_val_objs (oplus d) (fst c0) (concat (snd c0)) (shift_axis false o dy (shift_axis true o dx w))) as [D1 D2]. rewrite F0 by congruence. exists own. apply Q; [congruence|]. intros t'. now rewrite D2.
    + rewrite F0 by reflexivity. eauto.
    + rewrite F0 by congruence. exists own. apply Q; auto.
    + rewrite F0 by congruence. exists own. apply Q; auto.
Qed.
Lemma run_owns t h : exists own, owns t (run h) (families t h) own.
Proof.
  induction h as [|p h IH] using rev_ind.
  - exists []. split; [destruct t; reflexivity|]. split; [reflexivity|]. intros j o b E. destruct j; discriminate.
  - destruct IH as [own O]. rewrite run_snoc, families_snoc. apply (step_owns t p _ _ _ O).
Qed.
