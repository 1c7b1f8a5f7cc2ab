(** C87: Cameras written to and read from JSON. *)
From Coq Require Import String.
From Verif Require Import Base BaseLemmas XReal HelpersModel CameraModel CameraSpec CameraStateProofs CameraJsonModel CameraJsonProofs.
Notation length := List.length.
Open Scope R_scope.

(** ** Specification *)
(** the elements of the camera vector that belong to an attribute *)
Definition elements (k : key) (v : list xr) : list xr :=
  match k with
  | Kxyz => firstn 3 v | Kviewdir => firstn 3 (skipn 3 v) | Kimgsz => firstn 2 (skipn 6 v) | Kf => firstn 2 (skipn 8 v)
  | Kc => firstn 2 (skipn 10 v) | Kk => firstn 6 (skipn 12 v) | Kp => firstn 2 (skipn 18 v) | _ => []
  end.
(** a camera (of any history) whose image size is w by h pixels *)
Definition camera_of_size (c : jcam) (w h : Z) : Prop := length (j_vec c) = 20%nat /\ elements Kimgsz (j_vec c) = [Fin (IZR w); Fin (IZR h)].
Definition all_NaN (l : list xr) : Prop := Forall (fun x => x = NaN) l.

Lemma forallb_nan l : forallb is_nan l = true <-> all_NaN l.
Proof. rewrite forallb_forall. unfold all_NaN. rewrite Forall_forall. split; intros H x I; specialize (H x I); destruct x; try reflexivity; discriminate. Qed.
Lemma map_item l : map item_float (map INum l) = l.
Proof. rewrite map_map. cbn. apply map_id. Qed.
Lemma read_arr p l : read_value p (JArr (map INum l)) = Ok (if forallb is_nan l then VNone else VArr l).
Proof. unfold read_value. cbn [np_float bind]. rewrite map_item. reflexivity. Qed.
Lemma jfmt_arr l n d : length l = n -> (n <> 0)%nat -> jfmt (VArr l) (Z.of_nat n) d = Ok (Some l).
Proof.
  intros L N. unfold jfmt, format_list, as_arg. replace (Z.of_nat n =? 0)%Z with false by (symmetry; apply Z.eqb_neq; lia). rewrite L, !Z.ltb_irrefl. reflexivity.
Qed.
Lemma jset_arr i n d l v : length l = n -> (n <> 0)%nat -> jset i n d (VArr l) v = Ok (splice i l v).
Proof. intros L N. apply jset_ok; [now apply jfmt_arr|exact L]. Qed.
(** an array that is read back is set, also if it is all nan *)
Lemma jset_read i n d l v : length l = n -> (n <> 0)%nat -> jset i n d (if forallb is_nan l then VNone else VArr l) v = Ok (splice i l v).
Proof.
  intros L N. destruct (forallb is_nan l) eqn:Q; [|now apply jset_arr]. rewrite jset_none. do 2 f_equal. apply forallb_nan in Q. subst n. clear N. induction Q as [|x l -> Q IH]; [reflexivity|]. cbn. now rewrite IH.
Qed.
Lemma jimgsz_ints v a b : firstn 2 (skipn 6 v) = ints a b -> jimgsz v = ints a b.
Proof. intros E. unfold jimgsz. rewrite E. cbn [ints map astype_int]. now rewrite !Rtrunc_IZR. Qed.
Lemma vec_parts (v : list xr) : length v = 20%nat -> v = elements Kxyz v ++ elements Kviewdir v ++ elements Kimgsz v ++ elements Kf v ++ elements Kc v ++ elements Kk v ++ elements Kp v.
Proof.
  intros H. do 20 (destruct v as [|? v]; [discriminate H|]). destruct v; [|discriminate H]. reflexivity.
Qed.
Lemma part_lengths (v : list xr) : length v = 20%nat -> length (elements Kxyz v) = 3%nat /\ length (elements Kviewdir v) = 3%nat /\ length (elements Kf v) = 2%nat /\ length (elements Kc v) = 2%nat /\ length (elements Kk v) = 6%nat /\ length (elements Kp v) = 2%nat.
Proof. intros H. unfold elements. rewrite !firstn_length, !skipn_length, H. repeat split. Qed.

(** ** Round trip *)
(** A camera written with the default attributes and read back has the same parameters (nan and infinities included), except that: an offset of the principal point that is all nan becomes zero, a focal length that is all nan cannot be read, and the sensor size and the elevation corrections are lost (findings). *)
Theorem camera_json_round_trip : forall p c w h, camera_of_size c w h ->
  exists d, to_doc c default_attributes = Ok d /\
  (all_NaN (elements Kf (j_vec c)) -> from_json p d [] = Err ValueError) /\
  (~ all_NaN (elements Kf (j_vec c)) -> exists c', from_json p d [] = Ok c' /\ j_orig c' = j_vec c' /\ j_sensorsz c' = None /\ j_correction c' = VBool false /\
    (~ all_NaN (elements Kc (j_vec c)) -> j_vec c' = j_vec c) /\
    (all_NaN (elements Kc (j_vec c)) -> j_vec c' = firstn 10 (j_vec c) ++ [Fin 0; Fin 0] ++ skipn 12 (j_vec c))).
Proof.
  intros p c w h [L I]. destruct (part_lengths _ L) as (L1 & L2 & L3 & L4 & L5 & L6). set (v := j_vec c) in *.
  assert (IM : jimgsz v = ints w h) by (now apply jimgsz_ints).
  eexists. split; [cbn [to_doc default_attributes getattr bind]; reflexivity|].
  change (jslice 0 3 c) with (elements Kxyz v). change (jslice 3 3 c) with (elements Kviewdir v). change (jslice 8 2 c) with (elements Kf v). change (jslice 10 2 c) with (elements Kc v).
  change (jslice 12 6 c) with (elements Kk v). change (jslice 18 2 c) with (elements Kp v). fold v. rewrite IM.
  match goal with |- (_ -> from_json _ ?D _ = _) /\ _ => assert (RD : read_doc p D = Ok [(Kxyz, if forallb is_nan (elements Kxyz v) then VNone else VArr (elements Kxyz v)); (Kviewdir, if forallb is_nan (elements Kviewdir v) then VNone else VArr (elements Kviewdir v));
    (Kimgsz, VArr (ints w h)); (Kf, if forallb is_nan (elements Kf v) then VNone else VArr (elements Kf v)); (Kc, if forallb is_nan (elements Kc v) then VNone else VArr (elements Kc v));
    (Kk, if forallb is_nan (elements Kk v) then VNone else VArr (elements Kk v)); (Kp, if forallb is_nan (elements Kp v) then VNone else VArr (elements Kp v))]) end.
  { cbn [read_doc to_native]. rewrite !read_arr. cbn [bind]. reflexivity. }
  unfold from_json. rewrite RD. cbn [bind app map fst existsb is_other orb]. clear RD.
  match goal with |- (_ -> construct_j (lookup ?LL) _ = _) /\ _ => set (a := lookup LL) end.
  assert (Gx : a Kxyz = Some (if forallb is_nan (elements Kxyz v) then VNone else VArr (elements Kxyz v))) by reflexivity.
  assert (Gv : a Kviewdir = Some (if forallb is_nan (elements Kviewdir v) then VNone else VArr (elements Kviewdir v))) by reflexivity.
  assert (Gi : a Kimgsz = Some (VArr (ints w h))) by reflexivity.
  assert (Gf : a Kf = Some (if forallb is_nan (elements Kf v) then VNone else VArr (elements Kf v))) by reflexivity.
  assert (Gc : a Kc = Some (if forallb is_nan (elements Kc v) then VNone else VArr (elements Kc v))) by reflexivity.
  assert (Gk : a Kk = Some (if forallb is_nan (elements Kk v) then VNone else VArr (elements Kk v))) by reflexivity.
  assert (Gp : a Kp = Some (if forallb is_nan (elements Kp v) then VNone else VArr (elements Kp v))) by reflexivity.
  assert (Gs : a Ksensorsz = None) by reflexivity. assert (Gm : a Kfmm = None) by reflexivity. assert (Gn : a Kcmm = None) by reflexivity. assert (Go : a Kcorrection = None) by reflexivity.
  clearbody a. split.
  - intros N. apply forallb_nan in N. rewrite N in Gf. unfold construct_j. rewrite Gi. cbv zeta. rewrite Gf, Gc, Gs, Gm, Gn, Gx, Gv. cbn [or_default is_none negb orb andb]. rewrite andb_false_r. cbv iota.
    rewrite (jset_read 0 3) by (assumption || discriminate). cbn [bind]. rewrite (jset_read 3 3) by (assumption || discriminate). cbn [bind].
    rewrite (jset_imgsz_ok _ w h) by reflexivity. cbn [bind]. reflexivity.
  - intros N. assert (Nf : forallb is_nan (elements Kf v) = false) by (destruct (forallb is_nan (elements Kf v)) eqn:Q; [apply forallb_nan in Q; contradiction|reflexivity]). rewrite Nf in Gf.
    destruct (forallb is_nan (elements Kc v)) eqn:Nc.
    + rewrite (construct_ok a (VArr (ints w h)) (elements Kxyz v) (elements Kviewdir v) w h (elements Kk v) (elements Kp v) VNone None (VArr (elements Kf v)) (elements Kf v) VNone [Fin 0; Fin 0]);
        rewrite ?Gx, ?Gv, ?Gi, ?Gf, ?Gc, ?Gk, ?Gp, ?Gs, ?Gm, ?Gn, ?Go; cbn [or_default is_none jset_sensorsz]; try reflexivity; try assumption; try (intros; apply jset_read; (assumption || discriminate)); try (intros; apply jset_arr; (assumption || discriminate)).
      eexists. split; [reflexivity|]. cbn [j_orig j_vec j_sensorsz j_correction jcorrection]. repeat split; try reflexivity.
      * intros Q. exfalso. apply Q. now apply forallb_nan.
      * intros _. change (ints w h) with ([Fin (IZR w); Fin (IZR h)]). rewrite <- I. unfold elements. clear -L. do 20 (destruct v as [|? v]; [discriminate L|]). destruct v; [|discriminate L]. reflexivity.
    + rewrite (construct_ok a (VArr (ints w h)) (elements Kxyz v) (elements Kviewdir v) w h (elements Kk v) (elements Kp v) VNone None (VArr (elements Kf v)) (elements Kf v) (VArr (elements Kc v)) (elements Kc v));
        rewrite ?Gx, ?Gv, ?Gi, ?Gf, ?Gc, ?Gk, ?Gp, ?Gs, ?Gm, ?Gn, ?Go; cbn [or_default is_none jset_sensorsz]; try reflexivity; try assumption; try (intros; apply jset_read; (assumption || discriminate)); try (intros; apply jset_arr; (assumption || discriminate)).
      eexists. split; [reflexivity|]. cbn [j_orig j_vec j_sensorsz j_correction jcorrection]. repeat split; try reflexivity.
      * intros _. change (ints w h) with ([Fin (IZR w); Fin (IZR h)]). rewrite <- I. symmetry. now apply vec_parts.
      * intros Q. apply forallb_nan in Q. congruence.
Qed.
Print Assumptions camera_json_round_trip.

(** ** Selected attributes *)
(** a camera with finite parameters, as constructed with or without a sensor size and elevation corrections *)
Definition ordinary (c : jcam) (w h : Z) : Prop :=
  camera_of_size c w h /\ w <> 0%Z /\ h <> 0%Z /\ (exists v, j_vec c = map Fin v) /\
  (j_sensorsz c = None \/ exists a b, j_sensorsz c = Some [Fin a; Fin b] /\ a <> 0 /\ b <> 0) /\
  (j_correction c = VBool false \/ exists r k, j_correction c = VDict r k).

(** the value of an attribute after writing and reading it *)
Definition reread (p : string -> option xr) (c : jcam) (k : key) : result pyval := let* x := getattr c k in read_value p (to_native x).
Lemma reread_all p c A : (forall k, In k A -> exists x, reread p c k = Ok x) ->
  exists d l, to_doc c A = Ok d /\ read_doc p d = Ok l /\ map fst l = A /\
    forall k, lookup l k = if in_dec key_eq_dec k A then match reread p c k with Ok x => Some x | Err _ => None end else None.
Proof.
  induction A as [|k A IH]; intros H.
  - exists [], []. repeat split.
  - destruct IH as (d & l & Ed & El & Em & Ek); [intros; apply H; now right|]. destruct (H k (or_introl eq_refl)) as [x Ex]. unfold reread in Ex.
    destruct (getattr c k) as [y|e] eqn:Ey; [|discriminate Ex]. cbn [bind] in Ex. exists ((k, to_native y) :: d), ((k, x) :: l). cbn [to_doc]. rewrite Ey. cbn [bind]. rewrite Ed. cbn [bind read_doc]. rewrite Ex. cbn [bind]. rewrite El. cbn [bind map fst]. rewrite Em. repeat split.
    intros k'. cbn [lookup]. rewrite Ek. destruct (in_dec key_eq_dec k' (k :: A)) as [I|I]; destruct (in_dec key_eq_dec k' A) as [J|J].
    + destruct (H k' I) as [z ->]. reflexivity.
    + destruct I as [<-|I]; [|contradiction]. destruct (key_eq_dec k k); [|contradiction]. unfold reread. rewrite Ey. cbn [bind]. now rewrite Ex.
    + exfalso. apply I. now right.
    + destruct (key_eq_dec k k') as [<-|]; [exfalso; apply I; now left|reflexivity].
Qed.
Lemma to_doc_ok p c A : (forall k, In k A -> exists x, getattr c k = Ok x) -> exists d, to_doc c A = Ok d /\
  ((exists k, In k A /\ exists x, getattr c k = Ok x /\ to_native x = JObj) -> (forall k, In k A -> exists x, reread p c k = Ok x \/ reread p c k = Err TypeError) -> read_doc p d = Err TypeError).
Proof.
  induction A as [|k A IH]; intros H.
  - exists []. split; [reflexivity|]. intros (k & [] & _).
  - destruct IH as (d & Ed & Er); [intros; apply H; now right|]. destruct (H k (or_introl eq_refl)) as [y Ey]. exists ((k, to_native y) :: d). cbn [to_doc]. rewrite Ey. cbn [bind]. rewrite Ed. cbn [bind]. split; [reflexivity|].
    intros (k' & I & x & Ex & Ox) R. cbn [read_doc]. destruct (R k (or_introl eq_refl)) as [z Z]. unfold reread in Z. rewrite Ey in Z. cbn [bind] in Z.
    destruct I as [<-|I].
    + rewrite Ey in Ex. injection Ex as <-. rewrite Ox. reflexivity.
    + destruct Z as [-> | ->]; [|reflexivity]. cbn [bind]. rewrite Er; [reflexivity| |intros; apply R; now right]. exists k'. split; [exact I|]. exists x. split; assumption.
Qed.
Lemma fin_not_nan (v : list R) : v <> [] -> forallb is_nan (map Fin v) = false.
Proof. destruct v; [congruence|reflexivity]. Qed.
Lemma xdiv_fin x y : y <> 0 -> xdiv (Fin x) (Fin y) = Fin (x / y).
Proof. intros N. cbn [xdiv]. now rewrite (proj2 (Reqb_false _ _)). Qed.

(** Any attributes can be written. [written k]: the file has a value for the attribute k.  The camera that is read has the values of the attributes written, and the defaults of those not written; the focal length and the principal point may be written in pixels or, with the sensor size, in millimetres.  Reading raises for combinations that the constructor refuses, and always if elevation corrections are written (finding). *)
Theorem camera_json_attributes : forall p c w h A, ordinary c w h -> (forall n, ~ In (Kother n) A) ->
  exists d, to_doc c A = Ok d /\
  let written k := In k A /\ (k = Ksensorsz \/ k = Kfmm \/ k = Kcmm -> j_sensorsz c <> None) in
  let unreadable := In Kcorrection A /\ j_correction c <> VBool false in
  let refused := (written Kfmm \/ written Kcmm) /\ ~ written Ksensorsz \/ written Kf /\ written Kfmm \/ written Kc /\ written Kcmm \/ ~ written Kf /\ ~ written Kfmm in
  (unreadable -> from_json p d [] = Err TypeError) /\
  (~ unreadable -> ~ In Kimgsz A -> from_json p d [] = Err TypeError) /\
  (~ unreadable -> In Kimgsz A -> refused -> from_json p d [] = Err ValueError) /\
  (~ unreadable -> In Kimgsz A -> ~ refused -> exists c', from_json p d [] = Ok c' /\ length (j_vec c') = 20%nat /\ j_orig c' = j_vec c' /\
    elements Kimgsz (j_vec c') = elements Kimgsz (j_vec c) /\ elements Kf (j_vec c') = elements Kf (j_vec c) /\
    (forall k, In k [Kxyz; Kviewdir; Kk; Kp] -> (In k A -> elements k (j_vec c') = elements k (j_vec c)) /\ (~ In k A -> Forall (eq (Fin 0)) (elements k (j_vec c')))) /\
    (written Kc \/ written Kcmm -> elements Kc (j_vec c') = elements Kc (j_vec c)) /\ (~ written Kc -> ~ written Kcmm -> Forall (eq (Fin 0)) (elements Kc (j_vec c'))) /\
    (In Ksensorsz A -> j_sensorsz c' = j_sensorsz c) /\ (~ In Ksensorsz A -> j_sensorsz c' = None) /\ (forall r k, j_correction c' <> VDict r k)).
Proof.
  intros p c w h A ([L I] & Nw & Nh & (fv & Ev) & HS & HC) NO.
  assert (Lf : length fv = 20%nat) by (rewrite Ev, map_length in L; exact L).
  destruct (part_lengths _ L) as (L1 & L2 & L3 & L4 & L5 & L6). set (v := j_vec c) in *.
  assert (IM : jimgsz v = ints w h) by (now apply jimgsz_ints).
  assert (NN : forall k, In k [Kxyz; Kviewdir; Kf; Kc; Kk; Kp] -> forallb is_nan (elements k v) = false).
  { intros k Ik. rewrite Ev. clear -Ik Lf. do 20 (destruct fv as [|? fv]; [discriminate Lf|]). destruct fv; [|discriminate Lf]. cbn [In] in Ik. intuition (subst; reflexivity). }
  assert (G : forall k, In k [Kxyz; Kviewdir; Kf; Kc; Kk; Kp] -> getattr c k = Ok (VArr (elements k v))) by (intros k Ik; cbn [In] in Ik; intuition (subst; reflexivity)).
  assert (RV : forall k, In k [Kxyz; Kviewdir; Kf; Kc; Kk; Kp] -> reread p c k = Ok (VArr (elements k v))).
  { intros k Ik. unfold reread. rewrite G by exact Ik. cbn [bind to_native]. rewrite read_arr, NN by exact Ik. reflexivity. }
  assert (RI : reread p c Kimgsz = Ok (VArr (ints w h))).
  { unfold reread. cbn [getattr bind]. fold v. rewrite IM. cbn [to_native]. rewrite read_arr. reflexivity. }
  destruct (elements Kf v) as [|f0 [|f1 [|]]] eqn:Ef; try discriminate L3. destruct (elements Kc v) as [|c0 [|c1 [|]]] eqn:Ec; try discriminate L4.
  assert (FF : exists x0 x1, f0 = Fin x0 /\ f1 = Fin x1).
  { rewrite Ev in Ef. clear -Ef Lf. do 20 (destruct fv as [|? fv]; [discriminate Lf|]). cbn in Ef. injection Ef as <- <-. eauto. }
  assert (FC : exists x0 x1, c0 = Fin x0 /\ c1 = Fin x1).
  { rewrite Ev in Ec. clear -Ec Lf. do 20 (destruct fv as [|? fv]; [discriminate Lf|]). cbn in Ec. injection Ec as <- <-. eauto. }
  destruct FF as (x0 & x1 & -> & ->). destruct FC as (y0 & y1 & -> & ->).
  assert (Nw' : IZR w <> 0) by (intros Q; apply Nw; now apply eq_IZR). assert (Nh' : IZR h <> 0) by (intros Q; apply Nh; now apply eq_IZR).
  (* attributes in millimetres *)
  assert (MM : forall k e0 e1, (k = Kfmm /\ e0 = x0 /\ e1 = x1) \/ (k = Kcmm /\ e0 = y0 /\ e1 = y1) ->
    (j_sensorsz c = None -> reread p c k = Ok VNone) /\ (forall a b, j_sensorsz c = Some [Fin a; Fin b] -> reread p c k = Ok (VArr [Fin (e0 * a / IZR w); Fin (e1 * b / IZR h)]))).
  { intros k e0 e1 Q. assert (GK : getattr c k = jmm [Fin e0; Fin e1] c) by (destruct Q as [(-> & -> & ->)|(-> & -> & ->)]; cbn [getattr]; [rewrite <- Ef|rewrite <- Ec]; reflexivity).
    unfold reread. rewrite GK. unfold jmm. split; [intros -> ; reflexivity|]. intros a b ->. unfold xzip. cbn [length Nat.eqb bind map2 xmul]. fold v. rewrite IM. unfold ints. cbn [length Nat.eqb bind map2]. rewrite !xdiv_fin by assumption. cbn [to_native]. rewrite read_arr. reflexivity. }
  assert (SS : (j_sensorsz c = None -> reread p c Ksensorsz = Ok VNone) /\ (forall a b, j_sensorsz c = Some [Fin a; Fin b] -> reread p c Ksensorsz = Ok (VArr [Fin a; Fin b]))).
  { unfold reread. cbn [getattr bind]. split; [intros -> ; reflexivity|]. intros a b ->. cbn [to_native]. now rewrite read_arr. }
  assert (GA : forall k, In k A -> exists x, getattr c k = Ok x).
  { intros k Ik. destruct k; cbn [getattr]; try (eexists; reflexivity); try (exfalso; exact (NO _ Ik)).
    - unfold jmm. destruct HS as [->|(a & b & -> & _)]; [eauto|]. unfold jslice, xzip. fold v. change (firstn 2 (skipn 8 v)) with (elements Kf v). rewrite Ef, IM. cbn [length Nat.eqb bind map2 ints]. eauto.
    - unfold jmm. destruct HS as [->|(a & b & -> & _)]; [eauto|]. unfold jslice, xzip. fold v. change (firstn 2 (skipn 10 v)) with (elements Kc v). rewrite Ec, IM. cbn [length Nat.eqb bind map2 ints]. eauto. }
  assert (RA : forall k, In k A -> k <> Kcorrection -> exists x, reread p c k = Ok x).
  { intros k Ik Nk. destruct k; try (eexists; apply RV; cbn; tauto); try (exfalso; exact (NO _ Ik)); try (now exfalso; apply Nk).
    - eauto.
    - destruct SS as [S1 S2], HS as [S0|(a & b & S0 & _)]; eauto.
    - destruct (MM Kfmm x0 x1) as [S1 S2]; [tauto|]. destruct HS as [S0|(a & b & S0 & _)]; eauto.
    - destruct (MM Kcmm y0 y1) as [S1 S2]; [tauto|]. destruct HS as [S0|(a & b & S0 & _)]; eauto. }
  destruct (to_doc_ok p c A GA) as (d & Ed & Er). exists d. split; [exact Ed|]. intros written unreadable refused. split; [|].
  { intros [U1 U2]. unfold from_json. rewrite Er; [reflexivity| |].
    - exists Kcorrection. split; [exact U1|]. exists (j_correction c). split; [reflexivity|]. destruct HC as [Q|(r & k & ->)]; [contradiction|reflexivity].
    - intros k Ik. destruct (key_eq_dec k Kcorrection) as [->|N].
      + unfold reread. cbn [getattr bind]. destruct HC as [->|(r & k & ->)]; [|exists VNone; right; reflexivity]. eexists. left. reflexivity.
      + destruct (RA k Ik N) as [x Hx]. eauto. }
  assert (RDY : ~ unreadable -> exists l, read_doc p d = Ok l /\ map fst l = A /\ forall k, lookup l k = if in_dec key_eq_dec k A then match reread p c k with Ok x => Some x | Err _ => None end else None).
  { intros U. destruct (reread_all p c A) as (d' & l & Ed' & El & Em & Ek).
    - intros k Ik. destruct (key_eq_dec k Kcorrection) as [->|N]; [|now apply RA]. assert (Q : j_correction c = VBool false) by (destruct HC as [Q|(r & k & Q)]; [exact Q|exfalso; apply U; split; [exact Ik|rewrite Q; discriminate]]). unfold reread. cbn [getattr bind]. rewrite Q. eexists. reflexivity.
    - rewrite Ed in Ed'. injection Ed' as <-. eauto. }
  assert (NOX : existsb is_other A = false).
  { destruct (existsb is_other A) eqn:Q; [|reflexivity]. apply existsb_exists in Q as (k & Ik & Qk). destruct k; try discriminate Qk. exfalso. exact (NO _ Ik). }
  assert (FJ : ~ unreadable -> exists a, from_json p d [] = construct_j a false /\ forall k, a k = if in_dec key_eq_dec k A then match reread p c k with Ok x => Some x | Err _ => None end else None).
  { intros U. destruct (RDY U) as (l & El & Em & Ek). exists (lookup l). split; [|exact Ek]. unfold from_json. rewrite El. cbn [bind]. rewrite !app_nil_r, Em, NOX. reflexivity. }
  clear RDY Er GA RA. split.
  { intros U NI. destruct (FJ U) as (a & -> & Ha). unfold construct_j. rewrite Ha. destruct (in_dec key_eq_dec Kimgsz A); [contradiction|reflexivity]. }
  assert (GEN : ~ unreadable -> In Kimgsz A -> exists a, from_json p d [] = construct_j a false /\ a Kimgsz = Some (VArr (ints w h)) /\
    (forall k i n, In (k, i, n) [(Kxyz, 0%nat, 3%nat); (Kviewdir, 3%nat, 3%nat); (Kk, 12%nat, 6%nat); (Kp, 18%nat, 2%nat)] -> exists e, length e = n /\ (In k A -> e = elements k v) /\ (~ In k A -> e = repeat (Fin 0) n) /\ forall u, jset i n (Some (Fin 0)) (or_default (a k) (VArr (repeat (Fin 0) n))) u = Ok (splice i e u)) /\
    or_default (a Kf) VNone = (if in_dec key_eq_dec Kf A then VArr [Fin x0; Fin x1] else VNone) /\ or_default (a Kc) VNone = (if in_dec key_eq_dec Kc A then VArr [Fin y0; Fin y1] else VNone) /\
    (forall r k, jcorrection (or_default (a Kcorrection) (VBool false)) <> VDict r k) /\
    (j_sensorsz c = None -> a Ksensorsz = (if in_dec key_eq_dec Ksensorsz A then Some VNone else None) /\ or_default (a Ksensorsz) VNone = VNone /\ or_default (a Kfmm) VNone = VNone /\ or_default (a Kcmm) VNone = VNone) /\
    (forall s t, j_sensorsz c = Some [Fin s; Fin t] -> or_default (a Ksensorsz) VNone = (if in_dec key_eq_dec Ksensorsz A then VArr [Fin s; Fin t] else VNone) /\
      or_default (a Kfmm) VNone = (if in_dec key_eq_dec Kfmm A then VArr [Fin (x0 * s / IZR w); Fin (x1 * t / IZR h)] else VNone) /\
      or_default (a Kcmm) VNone = (if in_dec key_eq_dec Kcmm A then VArr [Fin (y0 * s / IZR w); Fin (y1 * t / IZR h)] else VNone))).
  { intros U II. destruct (FJ U) as (a & Ea & Ha). exists a. split; [exact Ea|]. split.
    { rewrite Ha, RI. destruct (in_dec key_eq_dec Kimgsz A); [reflexivity|contradiction]. }
    split.
    { intros k i n Ik. assert (Ik' : In k [Kxyz; Kviewdir; Kf; Kc; Kk; Kp] /\ length (elements k v) = n /\ n <> 0%nat) by (cbn [In] in Ik |- *; intuition congruence).
      destruct Ik' as (I1 & I2 & I3). rewrite Ha, RV by exact I1. destruct (in_dec key_eq_dec k A) as [J|J]; cbn [or_default].
      - exists (elements k v). repeat split; try assumption; [intros Q; contradiction|]. intros u. now apply jset_arr.
      - exists (repeat (Fin 0) n). split; [apply repeat_length|]. repeat split; [intros Q; contradiction|]. intros u. apply jset_arr; [apply repeat_length|exact I3]. }
    split. { rewrite Ha, RV by (cbn; tauto). rewrite Ef. destruct (in_dec key_eq_dec Kf A); reflexivity. }
    split. { rewrite Ha, RV by (cbn; tauto). rewrite Ec. destruct (in_dec key_eq_dec Kc A); reflexivity. }
    split. { intros r k. rewrite Ha. destruct (in_dec key_eq_dec Kcorrection A) as [J|J]; cbn [or_default jcorrection]; [|discriminate]. assert (Q : j_correction c = VBool false) by (destruct HC as [Q|(r' & k' & Q)]; [exact Q|exfalso; apply U; split; [exact J|rewrite Q; discriminate]]). unfold reread. cbn [getattr bind]. rewrite Q. discriminate. }
    split.
    - intros S0. rewrite !Ha, (proj1 SS S0), (proj1 (MM Kfmm x0 x1 ltac:(tauto)) S0), (proj1 (MM Kcmm y0 y1 ltac:(tauto)) S0).
      destruct (in_dec key_eq_dec Ksensorsz A), (in_dec key_eq_dec Kfmm A), (in_dec key_eq_dec Kcmm A); repeat split; reflexivity.
    - intros s t S0. rewrite !Ha, (proj2 SS s t S0), (proj2 (MM Kfmm x0 x1 ltac:(tauto)) s t S0), (proj2 (MM Kcmm y0 y1 ltac:(tauto)) s t S0).
      destruct (in_dec key_eq_dec Ksensorsz A), (in_dec key_eq_dec Kfmm A), (in_dec key_eq_dec Kcmm A); repeat split; reflexivity. }
  clear FJ MM SS RV RI G NN. split.
  { intros U II RF. destruct (GEN U II) as (a & -> & Hi & HV & Hf & Hc & _ & SN & SY). clear GEN. unfold construct_j. rewrite Hi. cbv zeta. rewrite Hf, Hc.
    destruct (HV Kxyz 0%nat 3%nat ltac:(clear; cbn; tauto)) as (e1 & _ & _ & _ & H1). destruct (HV Kviewdir 3%nat 3%nat ltac:(clear; cbn; tauto)) as (e2 & _ & _ & _ & H2).
    destruct HS as [S0|(sa & sb & S0 & Na & Nb)].
    - destruct (SN S0) as (_ & -> & -> & ->). assert (NF : ~ In Kf A) by (unfold refused, written in RF; rewrite S0 in RF; intuition congruence).
      destruct (in_dec key_eq_dec Kf A); [contradiction|]. cbn [is_none negb orb andb]. rewrite andb_false_r. rewrite H1. cbn [bind]. rewrite H2. cbn [bind]. rewrite (jset_imgsz_ok _ w h) by reflexivity. reflexivity.
    - destruct (SY sa sb S0) as (-> & -> & ->). assert (WS : forall k, In k A <-> written k) by (intros k; unfold written; rewrite S0; split; [intros Q; split; [exact Q|intros _; discriminate]|tauto]).
      unfold refused in RF. rewrite <- !WS in RF.
      destruct (in_dec key_eq_dec Kf A), (in_dec key_eq_dec Kc A), (in_dec key_eq_dec Kfmm A), (in_dec key_eq_dec Kcmm A), (in_dec key_eq_dec Ksensorsz A); cbn [is_none negb orb andb]; try reflexivity; try (exfalso; tauto);
      rewrite H1; cbn [bind]; rewrite H2; cbn [bind]; rewrite (jset_imgsz_ok _ w h) by reflexivity; reflexivity. }
  intros U II RF. destruct (GEN U II) as (a & -> & Hi & HV & Hf & Hc & HO & SN & SY). clear GEN.
  destruct (HV Kxyz 0%nat 3%nat ltac:(clear; cbn; tauto)) as (e1 & M1 & A1 & B1 & H1). destruct (HV Kviewdir 3%nat 3%nat ltac:(clear; cbn; tauto)) as (e2 & M2 & A2 & B2 & H2).
  destruct (HV Kk 12%nat 6%nat ltac:(clear; cbn; tauto)) as (e3 & M3 & A3 & B3 & H3). destruct (HV Kp 18%nat 2%nat ltac:(clear; cbn; tauto)) as (e4 & M4 & A4 & B4 & H4). clear HV.
  assert (DC : forall k, {In k A} + {~ In k A}) by (intros; apply (in_dec key_eq_dec)).
  (* the rest, given what the constructor sets *)
  assert (FIN : forall s wc, construct_j a false = Ok (mkjcam (e1 ++ e2 ++ ints w h ++ [Fin x0; Fin x1] ++ wc ++ e3 ++ e4) (e1 ++ e2 ++ ints w h ++ [Fin x0; Fin x1] ++ wc ++ e3 ++ e4) s (jcorrection (or_default (a Kcorrection) (VBool false)))) ->
    length wc = 2%nat -> (written Kc \/ written Kcmm -> wc = [Fin y0; Fin y1]) -> (~ written Kc -> ~ written Kcmm -> wc = [Fin 0; Fin 0]) -> (In Ksensorsz A -> s = j_sensorsz c) -> (~ In Ksensorsz A -> s = None) ->
    exists c', construct_j a false = Ok c' /\ length (j_vec c') = 20%nat /\ j_orig c' = j_vec c' /\
    elements Kimgsz (j_vec c') = elements Kimgsz v /\ elements Kf (j_vec c') = [Fin x0; Fin x1] /\
    (forall k, In k [Kxyz; Kviewdir; Kk; Kp] -> (In k A -> elements k (j_vec c') = elements k v) /\ (~ In k A -> Forall (eq (Fin 0)) (elements k (j_vec c')))) /\
    (written Kc \/ written Kcmm -> elements Kc (j_vec c') = [Fin y0; Fin y1]) /\ (~ written Kc -> ~ written Kcmm -> Forall (eq (Fin 0)) (elements Kc (j_vec c'))) /\
    (In Ksensorsz A -> j_sensorsz c' = j_sensorsz c) /\ (~ In Ksensorsz A -> j_sensorsz c' = None) /\ (forall r k, j_correction c' <> VDict r k)).
  { intros s wc E Lwc Wc1 Wc2 Ws1 Ws2. eexists. split; [exact E|]. cbn [j_vec j_orig j_sensorsz j_correction].
    set (u := e1 ++ e2 ++ ints w h ++ [Fin x0; Fin x1] ++ wc ++ e3 ++ e4).
    assert (X : length u = 20%nat /\ elements Kxyz u = e1 /\ elements Kviewdir u = e2 /\ elements Kimgsz u = ints w h /\ elements Kf u = [Fin x0; Fin x1] /\ elements Kc u = wc /\ elements Kk u = e3 /\ elements Kp u = e4).
    { unfold u. clear -M1 M2 M3 M4 Lwc. repeat match goal with H : length ?l = _ |- _ => is_var l; destruct l as [|? l]; cbn [length] in H; [discriminate H|injection H as H] end.
      repeat match goal with H : length ?l = 0%nat |- _ => destruct l; [clear H|discriminate H] end. repeat split; reflexivity. }
    clearbody u. destruct X as (X0 & X1 & X2 & X3 & X4 & X5 & X6 & X7). split; [exact X0|]. split; [reflexivity|]. split; [rewrite X3; symmetry; exact I|]. split; [exact X4|]. split.
    { intros k Ik. assert (Z : forall n, Forall (eq (Fin 0)) (repeat (Fin 0) n)) by (induction n; cbn [repeat]; constructor; auto).
      cbn [In] in Ik. destruct Ik as [<-|[<-|[<-|[<-|[]]]]]; [rewrite X1|rewrite X2|rewrite X6|rewrite X7]; split; intros Q; auto; [rewrite B1|rewrite B2|rewrite B3|rewrite B4]; auto. }
    split; [intros Q; rewrite X5; auto|]. split; [intros Q1 Q2; rewrite X5, (Wc2 Q1 Q2); repeat constructor|]. split; [exact Ws1|]. split; [exact Ws2|]. exact HO. }
  destruct HS as [S0|(sa & sb & S0 & Na & Nb)].
  - destruct (SN S0) as (_ & Hs & Hfm & Hcm). clear SN SY. assert (NF : In Kf A) by (clear -S0 RF DC; destruct (DC Kf); [assumption|exfalso; apply RF; unfold refused, written; rewrite S0; right; right; right; split; intros []; auto; tauto]).
    destruct (in_dec key_eq_dec Kf A) as [_|]; [|contradiction]. destruct (in_dec key_eq_dec Kc A) as [JC|JC].
    + apply (FIN None [Fin y0; Fin y1]); try reflexivity; unfold written; try rewrite S0; try (clear -JC S0; tauto); try (clear -JC S0; intuition congruence).
      apply (construct_ok a (VArr (ints w h)) e1 e2 w h e3 e4 VNone None (VArr [Fin x0; Fin x1]) _ (VArr [Fin y0; Fin y1]) _); try assumption; try reflexivity; rewrite ?Hfm, ?Hcm; cbn [is_none]; try assumption; intros; apply jset_arr; (reflexivity || discriminate).
    + apply (FIN None [Fin 0; Fin 0]); try reflexivity; unfold written; try rewrite S0; try (clear -JC S0; tauto); try (clear -JC S0; intuition congruence).
      apply (construct_ok a (VArr (ints w h)) e1 e2 w h e3 e4 VNone None (VArr [Fin x0; Fin x1]) _ VNone _); try assumption; try reflexivity; rewrite ?Hfm, ?Hcm; cbn [is_none]; try assumption; intros; apply jset_arr; (reflexivity || discriminate).
  - destruct (SY sa sb S0) as (Hs & Hfm & Hcm). clear SN SY. assert (WS : forall k, In k A <-> written k) by (intros k; unfold written; rewrite S0; split; [intros Q; split; [exact Q|intros _; discriminate]|tauto]).
    unfold refused in RF. rewrite <- !WS in RF.
    assert (PX : forall e0 e1, forall u, firstn 2 (skipn 6 u) = ints w h -> jmm_to_px (VArr [Fin (e0 * sa / IZR w); Fin (e1 * sb / IZR h)]) u (Some [Fin sa; Fin sb]) = Ok [Fin e0; Fin e1]).
    { intros e0 e1' u Eu. unfold jmm_to_px. rewrite (jfmt_arr _ 2) by (reflexivity || discriminate). cbn [bind]. unfold xzip. rewrite (jimgsz_ints _ _ _ Eu). cbn [ints length Nat.eqb bind map2 xmul]. rewrite !xdiv_fin by assumption. do 3 f_equal; [|f_equal]; f_equal; field; auto. }
    clear U HO. destruct (in_dec key_eq_dec Kf A) as [JF|JF], (in_dec key_eq_dec Kc A) as [JC|JC], (in_dec key_eq_dec Kfmm A) as [JFM|JFM], (in_dec key_eq_dec Kcmm A) as [JCM|JCM], (in_dec key_eq_dec Ksensorsz A) as [JS|JS]; try (exfalso; clear -RF JF JC JFM JCM JS; tauto);
    (apply (FIN (if in_dec key_eq_dec Ksensorsz A then Some [Fin sa; Fin sb] else None) (if DC Kc then [Fin y0; Fin y1] else if DC Kcmm then [Fin y0; Fin y1] else [Fin 0; Fin 0])); rewrite <- ?WS;
      destruct (in_dec key_eq_dec Ksensorsz A); try contradiction; destruct (DC Kc); try contradiction; destruct (DC Kcmm); try contradiction; try reflexivity; try (clear -JF JC JFM JCM JS; tauto); try (intros; symmetry; assumption));
    (apply (construct_ok a (VArr (ints w h)) e1 e2 w h e3 e4 (or_default (a Ksensorsz) VNone) _ (VArr [Fin x0; Fin x1]) _ (if DC Kc then VArr [Fin y0; Fin y1] else if DC Kcmm then VArr [Fin y0; Fin y1] else VNone) _);
      destruct (DC Kc); try contradiction; destruct (DC Kcmm); try contradiction; try assumption; try reflexivity; rewrite ?Hfm, ?Hcm, ?Hs, ?Hf, ?Hc; cbn [is_none]; try reflexivity;
      try (split; [reflexivity|]; split; [reflexivity|]; eexists; split; [apply PX|reflexivity]); try (intros; apply jset_arr; (reflexivity || discriminate))).
Qed.
Print Assumptions camera_json_attributes.

(** ** Other files *)
(** A file with finite numbers for any arguments of the constructor is read as the camera constructed with these arguments (C16), and raises iff the constructor does. *)
Definition given_array (k : key) (x : option (list R)) : doc := match x with Some l => [(k, JArr (map INum (map Fin l)))] | None => [] end.
Definition args_doc (a : cam_args) : doc :=
  given_array Kimgsz (Some (a_imgsz a)) ++ given_array Kf (a_f a) ++ given_array Kc (a_c a) ++ given_array Ksensorsz (a_sensorsz a) ++ given_array Kfmm (a_fmm a) ++ given_array Kcmm (a_cmm a) ++
  given_array Kk (Some (a_k a)) ++ given_array Kp (Some (a_p a)) ++ given_array Kxyz (Some (a_xyz a)) ++ given_array Kviewdir (Some (a_viewdir a)).
Definition as_jcam (c : cam) : jcam := mkjcam (map Fin (vec c)) (map Fin (orig c)) (option_map (map Fin) (sensorsz c)) (VBool false).

Lemma jfmt_pad l n : (0 < n)%nat -> jfmt (VArr (map Fin l)) (Z.of_nat n) (Some (Fin 0)) = Ok (Some (map Fin (pad n 0 l))).
Proof.
  intros N. unfold jfmt, format_list, as_arg. replace (Z.of_nat n =? 0)%Z with false by (symmetry; apply Z.eqb_neq; lia). rewrite map_length. unfold pad.
  destruct (Z.of_nat n <? Z.of_nat (length l))%Z eqn:Q1.
  - apply Z.ltb_lt in Q1. cbn [bind]. unfold py_upto. replace (Z.of_nat n <? 0)%Z with false by (symmetry; apply Z.ltb_ge; lia). rewrite Nat2Z.id, firstn_app. replace (n - length l)%nat with 0%nat by lia. cbn [firstn]. now rewrite app_nil_r, firstn_map.
  - apply Z.ltb_ge in Q1. destruct (Z.of_nat (length l) <? Z.of_nat n)%Z eqn:Q2.
    + apply Z.ltb_lt in Q2. cbn [bind]. do 2 f_equal. rewrite firstn_app, firstn_all2 by lia. rewrite map_app. f_equal. replace (Z.to_nat (Z.of_nat n - Z.of_nat (length l))) with (n - length l)%nat by lia.
      clear. assert (H : (n - length l <= n)%nat) by lia. revert H. generalize (n - length l)%nat as k. intros k. revert n. induction k as [|k IH]; intros n H; [reflexivity|]. destruct n as [|n]; [lia|]. cbn [repeat firstn map]. f_equal. apply IH. lia.
    + apply Z.ltb_ge in Q2. cbn [bind]. assert (E : n = length l) by lia. subst n. rewrite firstn_app, firstn_all, Nat.sub_diag. cbn [firstn]. now rewrite app_nil_r.
Qed.
Lemma jfmt_pair l : l <> [] -> jfmt (VArr (map Fin l)) 2 None = Ok (Some (map Fin (pair_of l))).
Proof.
  intros N. destruct l as [|x [|y [|z l]]]; [congruence|reflexivity|reflexivity|]. unfold jfmt, format_list, as_arg. cbn [Z.eqb]. rewrite map_length.
  replace (2 <? Z.of_nat (length (x :: y :: z :: l)))%Z with true by (symmetry; apply Z.ltb_lt; cbn [length]; lia). reflexivity.
Qed.
Lemma integral_pair l : l <> [] -> Forall integral (pair_of l) -> exists m n, pair_of l = [IZR m; IZR n].
Proof. intros N F. pose proof (pair_of_length l N) as Q. destruct (pair_of l) as [|x [|y [|]]]; try discriminate Q. inversion_clear F as [|? ? [m ->] F']. inversion_clear F' as [|? ? [n ->] _]. eauto. Qed.
Lemma read_fin p l : read_value p (JArr (map INum (map Fin l))) = Ok (if forallb is_nan (map Fin l) then VNone else VArr (map Fin l)).
Proof. apply read_arr. Qed.
Definition arg_val (x : option (list R)) : option pyval := option_map (fun l => VArr (map Fin l)) x.
Definition arg_list (k : key) (x : option (list R)) : list (key * pyval) := match x with Some l => [(k, VArr (map Fin l))] | None => [] end.
Lemma read_given p k x r : nonempty x -> read_doc p (given_array k x ++ r) = let* l := read_doc p r in Ok (arg_list k x ++ l).
Proof.
  intros N. destruct x as [l|]; [|cbn; destruct (read_doc p r); reflexivity]. cbn [given_array app read_doc arg_list]. rewrite read_fin, fin_not_nan by (intros ->; now apply N). reflexivity.
Qed.
Definition all_args (a : cam_args) : list (key * pyval) :=
  arg_list Kimgsz (Some (a_imgsz a)) ++ arg_list Kf (a_f a) ++ arg_list Kc (a_c a) ++ arg_list Ksensorsz (a_sensorsz a) ++ arg_list Kfmm (a_fmm a) ++ arg_list Kcmm (a_cmm a) ++
  arg_list Kk (Some (a_k a)) ++ arg_list Kp (Some (a_p a)) ++ arg_list Kxyz (Some (a_xyz a)) ++ arg_list Kviewdir (Some (a_viewdir a)).
Lemma jmm_fin w s a b v : length s = 2%nat -> (forall x, In x s -> x <> 0) -> length w = 2%nat -> firstn 2 (skipn 6 v) = ints a b ->
  forall x, jfmt x 2 None = Ok (Some (map Fin w)) -> jmm_to_px x v (Some (map Fin s)) = Ok (map Fin (map2 Rdiv (map2 Rmult w [IZR a; IZR b]) s)).
Proof.
  intros Ls Ns Lw Ev x Ex. unfold jmm_to_px. rewrite Ex. cbn [bind]. unfold xzip. rewrite (jimgsz_ints _ _ _ Ev). destruct w as [|w0 [|w1 [|]]]; try discriminate Lw. destruct s as [|s0 [|s1 [|]]]; try discriminate Ls.
  cbn [map ints length Nat.eqb bind map2 xmul]. rewrite !xdiv_fin by (apply Ns; cbn; tauto). reflexivity.
Qed.
Theorem camera_json_construct : forall p a,
  a_imgsz a <> [] -> nonempty (a_f a) -> nonempty (a_c a) -> nonempty (a_fmm a) -> nonempty (a_cmm a) -> nonempty (a_sensorsz a) -> a_k a <> [] -> a_p a <> [] -> a_xyz a <> [] -> a_viewdir a <> [] ->
  (forall s x, a_sensorsz a = Some s -> In x s -> x <> 0) -> a_correction a = None ->
  from_json p (args_doc a) [] = match construct a with Ok c => Ok (as_jcam c) | Err e => Err e end.
Proof.
  intros p a Ni Nf Nc Nfm Ncm Ns Nk Np Nx Nv Z0 NC. unfold from_json.
  assert (SN : forall l : list R, l <> [] -> nonempty (Some l)) by (intros l H Q; injection Q as ->; now apply H).
  assert (RD : read_doc p (args_doc a) = Ok (all_args a)).
  { unfold args_doc, all_args. rewrite !read_given by auto. rewrite <- (app_nil_r (given_array Kviewdir _)), read_given by auto. cbn [read_doc bind]. now rewrite app_nil_r. }
  rewrite RD. cbn [bind]. rewrite !app_nil_r. clear RD.
  assert (EO : existsb is_other (map fst (all_args a)) = false) by (unfold all_args; destruct (a_f a), (a_c a), (a_sensorsz a), (a_fmm a), (a_cmm a); reflexivity). rewrite EO. clear EO.
  assert (LK : lookup (all_args a) Kimgsz = Some (VArr (map Fin (a_imgsz a))) /\ lookup (all_args a) Kf = arg_val (a_f a) /\ lookup (all_args a) Kc = arg_val (a_c a) /\ lookup (all_args a) Ksensorsz = arg_val (a_sensorsz a) /\ lookup (all_args a) Kfmm = arg_val (a_fmm a) /\
    lookup (all_args a) Kcmm = arg_val (a_cmm a) /\ lookup (all_args a) Kk = Some (VArr (map Fin (a_k a))) /\ lookup (all_args a) Kp = Some (VArr (map Fin (a_p a))) /\ lookup (all_args a) Kxyz = Some (VArr (map Fin (a_xyz a))) /\ lookup (all_args a) Kviewdir = Some (VArr (map Fin (a_viewdir a))) /\ lookup (all_args a) Kcorrection = None).
  { unfold all_args. destruct (a_f a), (a_c a), (a_sensorsz a), (a_fmm a), (a_cmm a); repeat split; reflexivity. }
  destruct LK as (Gi & Gf & Gc & Gs & Gm & Gn & Gk & Gp & Gx & Gv & Go). set (A := lookup (all_args a)) in *. clearbody A.
  assert (JX : forall v, jset 0 3 (Some (Fin 0)) (or_default (A Kxyz) (VArr (repeat (Fin 0) 3))) v = Ok (splice 0 (map Fin (pad 3 0 (a_xyz a))) v)) by (intros; rewrite Gx; apply jset_ok; [apply jfmt_pad; lia|now rewrite map_length, pad_length]).
  assert (JV : forall v, jset 3 3 (Some (Fin 0)) (or_default (A Kviewdir) (VArr (repeat (Fin 0) 3))) v = Ok (splice 3 (map Fin (pad 3 0 (a_viewdir a))) v)) by (intros; rewrite Gv; apply jset_ok; [apply jfmt_pad; lia|now rewrite map_length, pad_length]).
  assert (JK : forall v, jset 12 6 (Some (Fin 0)) (or_default (A Kk) (VArr (repeat (Fin 0) 6))) v = Ok (splice 12 (map Fin (pad 6 0 (a_k a))) v)) by (intros; rewrite Gk; apply jset_ok; [apply jfmt_pad; lia|now rewrite map_length, pad_length]).
  assert (JP : forall v, jset 18 2 (Some (Fin 0)) (or_default (A Kp) (VArr (repeat (Fin 0) 2))) v = Ok (splice 18 (map Fin (pad 2 0 (a_p a))) v)) by (intros; rewrite Gp; apply jset_ok; [apply jfmt_pad; lia|now rewrite map_length, pad_length]).
  destruct (construct_spec a Ni Nf Nfm Ncm Ns) as [CR CO].
  assert (IN : forall x : option (list R), is_none (or_default (arg_val x) VNone) = match x with Some _ => false | None => true end) by (intros []; reflexivity).
  destruct (Classical_Prop.classic (rejected a)) as [RJ|RJ].
  - rewrite (CR RJ). unfold construct_j. rewrite Gi. cbv zeta. rewrite Gf, Gc, Gs, Gm, Gn, !IN.
    unfold rejected in RJ.
    destruct (a_fmm a) as [fm|] eqn:Efm, (a_cmm a) as [cm|] eqn:Ecm, (a_sensorsz a) as [s|] eqn:Es, (a_f a) as [f|] eqn:Ef, (a_c a) as [cc|] eqn:Ec; cbn [negb orb andb]; try reflexivity;
      rewrite JX; cbn [bind]; rewrite JV; cbn [bind];
      (destruct (Forall_dec integral (fun x => match Req_EM_T x (IZR (Rtrunc x)) with left E => left (ex_intro _ _ E) | right N => right (fun H => N (eq_sym (Rtrunc_integral x H))) end) (pair_of (a_imgsz a))) as [FI|FI];
       [destruct (integral_pair _ Ni FI) as (m & n & Emn); rewrite (jset_imgsz_ok _ m n) by (rewrite jfmt_pair by exact Ni; rewrite Emn; reflexivity); cbn [bind]; try (exfalso; clear -RJ FI; intuition congruence); try reflexivity; try (cbn [or_default arg_val option_map]; unfold jset_sensorsz; rewrite jfmt_pair by (intros ->; now apply Ns); reflexivity)|
        match goal with |- bind (jset_imgsz ?X ?V) _ = _ => assert (BI : jset_imgsz X V = Err ValueError) end;
        [unfold jset_imgsz; rewrite jfmt_pair by exact Ni; cbn [bind]; clear -FI Ni; pose proof (pair_of_length _ Ni) as LL; destruct (pair_of (a_imgsz a)) as [|x [|y [|]]]; try discriminate LL; cbn [map mapM py_int bind map2 forallb]; destruct (Reqb (IZR (Rtrunc x)) x) eqn:Qx; destruct (Reqb (IZR (Rtrunc y)) y) eqn:Qy; try reflexivity; exfalso; apply FI; apply Reqb_true in Qx; apply Reqb_true in Qy; repeat constructor; [exists (Rtrunc x)|exists (Rtrunc y)]; congruence
        |rewrite BI; reflexivity]]).
  - destruct (CO RJ) as (c & Ecc & Wc & Oc & Corr & Scc & Cx & Cv & Ci & _ & Ck & Cp & Cf & Cc & Cc0 & Cfm & Ccm). rewrite Ecc.
    assert (FI : Forall integral (pair_of (a_imgsz a))) by (destruct (Forall_dec integral (fun x => match Req_EM_T x (IZR (Rtrunc x)) with left E => left (ex_intro _ _ E) | right N => right (fun H => N (eq_sym (Rtrunc_integral x H))) end) (pair_of (a_imgsz a))) as [FI|FI]; [exact FI|exfalso; apply RJ; unfold rejected; tauto]).
    destruct (integral_pair _ Ni FI) as (m & n & Emn).
    assert (FMi : jfmt (VArr (map Fin (a_imgsz a))) 2 None = Ok (Some (ints m n))) by (rewrite jfmt_pair by exact Ni; rewrite Emn; reflexivity).
    assert (ES : jset_sensorsz (or_default (A Ksensorsz) VNone) = Ok (option_map (map Fin) (sensorsz c))).
    { rewrite Gs, Scc. destruct (a_sensorsz a) as [s|]; [|reflexivity]. cbn [or_default arg_val option_map]. unfold jset_sensorsz. apply jfmt_pair. intros ->. now apply Ns. }
    assert (SP : forall s, a_sensorsz a = Some s -> s <> [] /\ length (pair_of s) = 2%nat /\ (forall x, In x (pair_of s) -> x <> 0) /\ option_map (map Fin) (sensorsz c) = Some (map Fin (pair_of s))).
    { intros s Es. assert (s <> []) by (intros ->; apply Ns; exact Es). split; [assumption|]. split; [now apply pair_of_length|]. split; [|now rewrite Scc, Es]. intros x Ix. apply (Z0 s x Es). destruct s as [|u [|u' s]]; cbn in Ix |- *; tauto. }
    assert (EF : exists f, (let fmm := or_default (A Kfmm) VNone in
      if is_none fmm then or_default (A Kf) VNone = f else is_none (or_default (A Ksensorsz) VNone) = false /\ is_none (or_default (A Kf) VNone) = true /\
      exists w, (forall v, firstn 2 (skipn 6 v) = ints m n -> jmm_to_px fmm v (option_map (map Fin) (sensorsz c)) = Ok w) /\ f = VArr w) /\ is_none f = false /\ (forall v, jset 8 2 None f v = Ok (splice 8 (map Fin (cget Foc (vec c))) v))).
    { cbv zeta. rewrite Gm, Gf, Gs, !IN. unfold rejected in RJ. destruct (a_fmm a) as [fm|] eqn:Efm.
      - destruct (a_sensorsz a) as [s|] eqn:Es; [|exfalso; apply RJ; left; split; [left; discriminate|reflexivity]]. destruct (SP s eq_refl) as (S1 & S2 & S3 & S4). assert (N1 : fm <> []) by (intros ->; now apply Nfm).
        eexists. split; [split; [reflexivity|]; split; [destruct (a_f a); [exfalso; apply RJ; right; left; split; discriminate|reflexivity]|]; eexists; split; [|reflexivity]|].
        + intros v Hv. rewrite S4. apply jmm_fin with (w := pair_of fm) (a := m) (b := n); try assumption; [now apply pair_of_length|now apply jfmt_pair].
        + split; [reflexivity|]. intros v. rewrite (Cfm fm s eq_refl eq_refl), <- Emn. apply jset_arr; [|discriminate]. rewrite map_length, !map2_length, S2, Emn, (pair_of_length fm N1). reflexivity.
      - destruct (a_f a) as [f|] eqn:Ef; [|exfalso; apply RJ; tauto]. assert (N1 : f <> []) by (intros ->; now apply Nf). eexists. split; [reflexivity|]. split; [reflexivity|]. intros v. rewrite (Cf f eq_refl). apply jset_ok; [now apply jfmt_pair|]. rewrite map_length. now apply pair_of_length. }
    assert (EC : exists cv, (let cmm := or_default (A Kcmm) VNone in
      if is_none cmm then or_default (A Kc) VNone = cv else is_none (or_default (A Ksensorsz) VNone) = false /\ is_none (or_default (A Kc) VNone) = true /\
      exists w, (forall v, firstn 2 (skipn 6 v) = ints m n -> jmm_to_px cmm v (option_map (map Fin) (sensorsz c)) = Ok w) /\ cv = VArr w) /\ (forall v, jset 10 2 (Some (Fin 0)) (if is_none cv then VArr (repeat (Fin 0) 2) else cv) v = Ok (splice 10 (map Fin (cget Cen (vec c))) v))).
    { cbv zeta. rewrite Gn, Gc, Gs, !IN. unfold rejected in RJ. destruct (a_cmm a) as [cm|] eqn:Ecm.
      - destruct (a_sensorsz a) as [s|] eqn:Es; [|exfalso; apply RJ; left; split; [right; discriminate|reflexivity]]. destruct (SP s eq_refl) as (S1 & S2 & S3 & S4). assert (N1 : cm <> []) by (intros ->; now apply Ncm).
        eexists. split; [split; [reflexivity|]; split; [destruct (a_c a); [exfalso; apply RJ; right; right; left; split; discriminate|reflexivity]|]; eexists; split; [|reflexivity]|].
        + intros v Hv. rewrite S4. apply jmm_fin with (w := pair_of cm) (a := m) (b := n); try assumption; [now apply pair_of_length|now apply jfmt_pair].
        + cbn [is_none]. intros v. rewrite (Ccm cm s eq_refl eq_refl), <- Emn. apply jset_arr; [|discriminate]. rewrite map_length, !map2_length, S2, Emn, (pair_of_length cm N1). reflexivity.
      - destruct (a_c a) as [cc|] eqn:Ec.
        + eexists. split; [reflexivity|]. cbn [or_default arg_val option_map is_none]. intros v. rewrite (Cc cc eq_refl). apply jset_ok; [apply jfmt_pad; lia|now rewrite map_length, pad_length].
        + eexists. split; [reflexivity|]. cbn [or_default arg_val option_map is_none]. intros v. rewrite (Cc0 eq_refl eq_refl). reflexivity. }
    destruct EF as (f & F1 & F2 & F3). destruct EC as (cv & C1 & C2). destruct Wc as [Lc _].
    assert (PL : length (cget Foc (vec c)) = 2%nat /\ length (cget Cen (vec c)) = 2%nat) by (unfold cget; rewrite !firstn_length, !skipn_length, Lc; split; reflexivity). destruct PL as [PL1 PL2].
    rewrite (construct_ok A _ (map Fin (pad 3 0 (a_xyz a))) (map Fin (pad 3 0 (a_viewdir a))) m n (map Fin (pad 6 0 (a_k a))) (map Fin (pad 2 0 (a_p a))) (or_default (A Ksensorsz) VNone) (option_map (map Fin) (sensorsz c)) f (map Fin (cget Foc (vec c))) cv (map Fin (cget Cen (vec c))) Gi FMi JX);
      try assumption; try reflexivity; try (rewrite map_length; (apply pad_length || assumption)).
    rewrite Go. cbn [or_default jcorrection]. unfold as_jcam. rewrite Oc. change (ints m n) with (map Fin [IZR m; IZR n]). rewrite <- Emn, <- Ci, <- Cx, <- Cv, <- Ck, <- Cp, <- !map_app.
    replace (cget Xyz (vec c) ++ cget Viewdir (vec c) ++ cget Imgsz (vec c) ++ cget Foc (vec c) ++ cget Cen (vec c) ++ cget Krad (vec c) ++ cget Ptan (vec c)) with (vec c); [reflexivity|].
    clear -Lc. generalize dependent (vec c). intros v H. do 20 (destruct v as [|? v]; [discriminate H|]). destruct v; [|discriminate H]. reflexivity.
Qed.
Print Assumptions camera_json_construct.
Example camera_json_construct_ex : exists c, from_json (fun _ => None) [(Kimgsz, JArr [INum (Fin 4); INum (Fin 2)]); (Kf, JNum (Fin 50)); (Kxyz, JArr [INum (Fin 7)])] [] = Ok c /\ elements Kxyz (j_vec c) = [Fin 7; Fin 0; Fin 0] /\ elements Kf (j_vec c) = [Fin 50; Fin 50].
Proof.
  eexists. split; [|split].
  - unfold from_json. cbn [read_doc read_value np_float bind all_nan is_nan map item_float forallb andb app fst existsb is_other orb].
    apply (construct_ok _ (VArr (ints 4 2)) [Fin 7; Fin 0; Fin 0] (repeat (Fin 0) 3) 4 2 (repeat (Fin 0) 6) (repeat (Fin 0) 2) VNone None (VNum (Fin 50)) [Fin 50; Fin 50] VNone [Fin 0; Fin 0]); reflexivity.
  - reflexivity.
  - reflexivity.
Qed.

(** Arguments override the values in the file, which then only have to be readable. *)
Lemma construct_ext a b o : (forall k, a k = b k) -> construct_j a o = construct_j b o.
Proof. intros E. unfold construct_j. now rewrite !E. Qed.
Definition named (kw : list (key * pyval)) (k : key) : bool := existsb (fun e => if key_eq_dec (fst e) k then true else false) kw.
Lemma lookup_app {A} (l m : list (key * A)) k : lookup (l ++ m) k = match lookup m k with Some x => Some x | None => lookup l k end.
Proof. induction l as [|[k' x] l IH]; cbn [app lookup]; [destruct (lookup m k); reflexivity|]. rewrite IH. destruct (lookup m k); [reflexivity|]. destruct (lookup l k); reflexivity. Qed.
Lemma named_lookup kw k : named kw k = true <-> lookup kw k <> None.
Proof.
  induction kw as [|[k' x] kw IH]; cbn [named existsb lookup fst]; [split; [discriminate|congruence]|]. fold (named kw k). destruct (lookup kw k) eqn:Q.
  - rewrite (proj2 IH) by discriminate. rewrite orb_true_r. split; [discriminate|reflexivity].
  - assert (N : named kw k = false) by (destruct (named kw k); [exfalso; now apply IH|reflexivity]). rewrite N, orb_false_r. destruct (key_eq_dec k' k); split; congruence.
Qed.
Lemma lookup_filter kw (l : list (key * pyval)) k : named kw k = false -> lookup (filter (fun e => negb (named kw (fst e))) l) k = lookup l k.
Proof.
  intros N. induction l as [|[k' x] l IH]; [reflexivity|]. cbn [filter fst lookup]. destruct (named kw k') eqn:Q; cbn [negb lookup]; rewrite IH; [|reflexivity]. destruct (lookup l k); [reflexivity|]. destruct (key_eq_dec k' k) as [->|]; [congruence|reflexivity].
Qed.
Lemma read_filter p kw d l : read_doc p d = Ok l -> read_doc p (filter (fun e => negb (named kw (fst e))) d) = Ok (filter (fun e => negb (named kw (fst e))) l).
Proof.
  revert l. induction d as [|[k x] d IH]; intros l E; cbn [read_doc] in E; [injection E as <-; reflexivity|]. destruct (read_value p x) as [y|] eqn:Ey; [|discriminate E]. cbn [bind] in E. destruct (read_doc p d) as [l'|] eqn:El; [|discriminate E]. cbn [bind] in E. injection E as <-.
  cbn [filter fst]. destruct (named kw k); cbn [negb]; [now apply IH|]. cbn [read_doc]. rewrite Ey. cbn [bind]. rewrite (IH l' eq_refl). reflexivity.
Qed.
Theorem camera_json_override : forall p d kwargs, (forall x, In x (map snd d) -> exists v, np_float p x = Ok v) ->
  from_json p d kwargs = from_json p (filter (fun e => negb (named kwargs (fst e))) d) kwargs.
Proof.
  intros p d kw H. assert (R : exists l, read_doc p d = Ok l).
  { induction d as [|[k x] d IH]; [eexists; reflexivity|]. destruct IH as [l El]; [intros; apply H; now right|]. destruct (H x (or_introl eq_refl)) as [v Ev]. cbn [read_doc]. unfold read_value. rewrite Ev. cbn [bind]. rewrite El. eexists. reflexivity. }
  destruct R as [l El]. unfold from_json. rewrite El, (read_filter _ _ _ _ El). cbn [bind].
  assert (O : existsb is_other (map fst (filter (fun e => negb (named kw (fst e))) l ++ kw)) = existsb is_other (map fst (l ++ kw))).
  { rewrite !map_app, !existsb_app. destruct (existsb is_other (map fst kw)) eqn:Q; [now rewrite !orb_true_r|]. rewrite !orb_false_r. clear El. induction l as [|[k x] l IH]; [reflexivity|]. cbn [filter fst map existsb]. destruct (named kw k) eqn:N; cbn [negb map fst existsb]; rewrite IH; [|reflexivity].
    destruct (is_other k) eqn:K; [|reflexivity]. exfalso. unfold named in N. apply existsb_exists in N as (e & Ie & Ee). destruct (key_eq_dec (fst e) k) as [<-|]; [|discriminate Ee]. assert (X : existsb is_other (map fst kw) = true) by (apply existsb_exists; exists (fst e); split; [now apply in_map|exact K]). congruence. }
  rewrite O. apply construct_ext. intros k. rewrite !lookup_app. destruct (lookup kw k) eqn:Q; [reflexivity|]. symmetry. apply lookup_filter. destruct (named kw k) eqn:N; [|reflexivity]. apply named_lookup in N. contradiction.
Qed.
Print Assumptions camera_json_override.

(** Findings: null (or an empty array) does not stand for the default of k, p, xyz and viewdir, but for nan; elevation corrections can be written but not read, even if they are overridden. *)
Theorem camera_json_null_refuted : forall p, exists c, from_json p [(Kimgsz, JArr [INum (Fin 4); INum (Fin 2)]); (Kf, JNum (Fin 50)); (Kk, JNull); (Kxyz, JArr [])] [] = Ok c /\
  all_NaN (elements Kk (j_vec c)) /\ all_NaN (elements Kxyz (j_vec c)).
Proof.
  intros p. eexists. split; [|split].
  - unfold from_json. cbn [read_doc read_value np_float bind all_nan is_nan map item_float forallb andb app fst existsb is_other orb].
    apply (construct_ok _ (VArr (ints 4 2)) (repeat NaN 3) (repeat (Fin 0) 3) 4 2 (repeat NaN 6) (repeat (Fin 0) 2) VNone None (VNum (Fin 50)) [Fin 50; Fin 50] VNone [Fin 0; Fin 0]); reflexivity.
  - repeat constructor.
  - repeat constructor.
Qed.
Print Assumptions camera_json_null_refuted.
Definition corrected := mkjcam ([Fin 1; Fin 2; Fin 3; Fin 0; Fin 0; Fin 0; Fin 4; Fin 2; Fin 50; Fin 50] ++ repeat (Fin 0) 10) [] (Some [Fin 24; Fin 12]) (VDict (Fin 6378100) (Fin (13 / 100))).
Theorem camera_json_correction_refuted : forall p, exists d, ordinary corrected 4 2 /\ to_doc corrected (default_attributes ++ [Kcorrection]) = Ok d /\ from_json p d [(Kcorrection, VBool true)] = Err TypeError.
Proof.
  intros p. eexists. split; [|split].
  - split; [split; reflexivity|]. split; [discriminate|]. split; [discriminate|]. split; [exists ([1; 2; 3; 0; 0; 0; 4; 2; 50; 50] ++ repeat 0 10); reflexivity|]. split; [right; exists 24, 12; split; [reflexivity|split; lra]|right; eexists; eexists; reflexivity].
  - reflexivity.
  - reflexivity.
Qed.
Print Assumptions camera_json_correction_refuted.
(** Elevation corrections: True stands for the equatorial radius of the Earth and a refraction of 0.13; without the argument there are none. *)
Theorem camera_correction_default : forall a others c, construct_j a others = Ok c ->
  (a Kcorrection = Some (VBool true) -> j_correction c = VDict (Fin 6378100) (Fin (13 / 100))) /\ (a Kcorrection = None -> j_correction c = VBool false) /\
  (forall r k, a Kcorrection = Some (VDict r k) -> j_correction c = VDict r k).
Proof.
  intros a others c H. assert (E : j_correction c = jcorrection (or_default (a Kcorrection) (VBool false))).
  { unfold construct_j in H. destruct others; [discriminate|]. destruct (a Kimgsz); [|discriminate]. cbv zeta in H.
    repeat match type of H with
    | (if ?b then _ else _) = Ok _ => destruct b; [discriminate|]
    | bind ?x _ = Ok _ => destruct x; cbn [bind] in H; [|discriminate]
    end. injection H as <-. reflexivity. }
  rewrite E. split; [intros ->; reflexivity|split; [intros ->; reflexivity|intros r k ->; reflexivity]].
Qed.
Print Assumptions camera_correction_default.
(** non-vacuity of camera_json_attributes: attributes in millimetres that are not refused *)
Example camera_json_attributes_ex : let A := [Kxyz; Kimgsz; Kfmm; Ksensorsz; Kcmm; Kk] in ordinary corrected 4 2 /\ (forall n, ~ In (Kother n) A) /\ In Ksensorsz A /\ ~ In Kf A /\ ~ In Kc A /\ In Kfmm A.
Proof.
  split; [|cbn; intuition discriminate].
  split; [split; reflexivity|]. split; [discriminate|]. split; [discriminate|]. split; [exists ([1; 2; 3; 0; 0; 0; 4; 2; 50; 50] ++ repeat 0 10); reflexivity|]. split; [right; exists 24, 12; split; [reflexivity|split; lra]|right; eexists; eexists; reflexivity].
Qed.
