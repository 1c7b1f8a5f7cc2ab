(** C107: calibration files in XML: OpenCV.from_xml, examples. *)
From Coq Require Import String Ascii.
From Verif Require Import Base HelpersModel CameraModel ConvertModel SvgModel SvgDocModel CalibModel BaseLemmas RegexProofs P_CalibXml.
Notation length := List.length.
Open Scope char_scope.

(** ** Specification *)
(** characters of numbers: digits, signs, the point and a small e *)
Definition of_number (c : ascii) : Prop := In c (list_ascii_of_string "0123456789+-.e").
(** a text with these numbers, and other characters between them *)
Inductive spelled : text -> list text -> Prop :=
| spelled_end s : (forall c, In c s -> ~ of_number c) -> spelled s []
| spelled_cons s t r l : (forall c, In c s -> ~ of_number c) -> t <> [] -> (forall c, In c t -> of_number c) -> match r with [] => True | c :: _ => ~ of_number c end -> spelled r l -> spelled (s ++ t ++ r) (t :: l).
(** the first <data> child of an element with that tag, below the root, in document order *)
Definition first_data (tag : string) (root d : xelt) : Prop :=
  exists before e after b a, tl (xiter root) = before ++ e :: after /\ xtag e = T tag /\ xkids e = b ++ d :: a /\ xtag d = T "data" /\
    (forall x, In x b -> xtag x <> T "data") /\ (forall x y, In x before -> xtag x = T tag -> In y (xkids x) -> xtag y <> T "data").
Definition no_data (tag : string) (root : xelt) : Prop := forall x y, In x (tl (xiter root)) -> xtag x = T tag -> In y (xkids x) -> xtag y <> T "data".

Lemma numchar_true c : numchar c = true <-> of_number c.
Proof. destruct c as [[|] [|] [|] [|] [|] [|] [|] [|]]; (split; [intros H; first [discriminate H | cbn; tauto] | intros H; first [reflexivity | exfalso; cbn in H; repeat (destruct H as [H|H]; [discriminate H|]); exact H]]). Qed.
Lemma numchar_false c : ~ of_number c -> numchar c = false.
Proof. intros H. destruct (numchar c) eqn:E; [apply numchar_true in E; tauto | reflexivity]. Qed.

Lemma plus_first p t r : t <> [] -> forallb p t = true -> match r with [] => True | c :: _ => p c = false end -> rmatch [Plus true p] (t ++ r) = Some ([t], r).
Proof.
  intros N F R0. cbn [rmatch]. rewrite (span_app _ _ _ F R0). cbn [fst]. destruct t as [|c t]; [congruence|]. cbn [length].
  apply try_down_first with (n := length t); [lia | | intros; lia].
  unfold group. cbn [app firstn skipn option_map fst snd]. rewrite firstn_app, skipn_app, firstn_all, skipn_all, Nat.sub_diag. cbn. now rewrite app_nil_r.
Qed.
Lemma find_numbers t l : spelled t l -> concat (refindall [Plus true numchar] t) = l.
Proof.
  assert (L : lit_first [Plus true numchar]) by exact I.
  assert (J : forall s r, (forall c, In c s -> ~ of_number c) -> refindall [Plus true numchar] (s ++ r) = refindall [Plus true numchar] r).
  { intros s r H. apply find_skip. intros x y -> N. destruct y as [|c y]; [congruence|]. cbn [rmatch app]. cbn [span]. rewrite (numchar_false c); [reflexivity|]. apply H. apply in_or_app. right. now left. }
  induction 1 as [s H|s t r l H N H' R0 Hs IH].
  - rewrite <- (app_nil_r s), (J s [] H). reflexivity.
  - rewrite (J s _ H). rewrite (find_some _ L _ [t] r); [cbn [concat app]; now rewrite IH|]. apply plus_first; [exact N | apply forallb_forall; intros; now apply numchar_true, H'|].
    destruct r; [exact I | now apply numchar_false].
Qed.
Lemma numbers_spelled rf t l : spelled t l -> numbers rf t = mapM rf l.
Proof. intros H. unfold numbers. now rewrite (find_numbers _ _ H). Qed.

Lemma spelled_nothing l : spelled [] l -> l = [].
Proof.
  intros H. remember [] as t eqn:E. destruct H as [s H|s t' r l H N H' R0 Hr]; [reflexivity|]. exfalso. apply N. destruct s; [|discriminate E]. destruct t'; [reflexivity | discriminate E].
Qed.
Lemma find_data_first tag root d : first_data tag root d -> exists l, find_data tag root = d :: l.
Proof.
  intros (before & e & after & b & a & E & Ht & K & Hd & Hb & Hbefore). unfold find_data. rewrite E, filter_app, map_app, concat_app. cbn [filter]. rewrite Ht, teqb_refl. cbn [map concat].
  rewrite K, filter_app. cbn [filter]. rewrite Hd, teqb_refl.
  assert (E1 : concat (map (fun e0 => filter (fun d0 => teqb (xtag d0) (T "data")) (xkids e0)) (filter (fun e0 => teqb (xtag e0) (T tag)) before)) = []).
  { clear -Hbefore. induction before as [|x l IH]; [reflexivity|]. cbn [filter]. destruct (teqb (xtag x) (T tag)) eqn:Ex.
    - cbn [map concat]. apply teqb_true in Ex. rewrite IH by (intros; eapply Hbefore; eauto; now right). rewrite app_nil_r.
      assert (Q : forall y, In y (xkids x) -> xtag y <> T "data") by (intros y Hy; apply (Hbefore x y); [now left | exact Ex | exact Hy]).
      induction (xkids x) as [|y k IHk]; [reflexivity|]. cbn [filter]. rewrite (teqb_neq _ _ (Q y (or_introl eq_refl))). apply IHk. intros; apply Q; now right.
    - apply IH. intros; eapply Hbefore; eauto; now right. }
  assert (E2 : filter (fun d0 => teqb (xtag d0) (T "data")) b = []).
  { clear -Hb. induction b as [|x l IH]; [reflexivity|]. cbn [filter]. rewrite (teqb_neq _ _ (Hb x (or_introl eq_refl))). apply IH. intros; apply Hb; now right. }
  rewrite E1, E2. cbn [app]. eauto.
Qed.
Lemma find_data_none tag root : no_data tag root -> find_data tag root = [].
Proof.
  unfold no_data, find_data. induction (tl (xiter root)) as [|x l IH]; intros H; [reflexivity|]. cbn [filter]. destruct (teqb (xtag x) (T tag)) eqn:Ex.
  - cbn [map concat]. apply teqb_true in Ex. rewrite IH by (intros; eapply H; eauto; now right). rewrite app_nil_r.
    assert (Q : forall y, In y (xkids x) -> xtag y <> T "data") by (intros y Hy; apply (H x y); [now left | exact Ex | exact Hy]).
    induction (xkids x) as [|y k IHk]; [reflexivity|]. cbn [filter]. rewrite (teqb_neq _ _ (Q y (or_introl eq_refl))). apply IHk. intros; apply Q; now right.
  - apply IH. intros; eapply H; eauto; now right.
Qed.

(** ** OpenCV *)
(** what the file gives for the distortion coefficients *)
Definition coefficients (rf : text -> result R) (root : xelt) (k : list R) : Prop :=
  (no_data "distortion_coefficients" root /\ k = []) \/
  (exists d, first_data "distortion_coefficients" root d /\ ((xtext d = [] /\ k = []) \/ (exists l, spelled (xtext d) l /\ l <> [] /\ mapM rf l = Ok k))).
Theorem opencv_xml rf root d l fx m01 cx m10 fy cy m20 m21 m22 k sz :
  first_data "camera_matrix" root d -> spelled (xtext d) l -> mapM rf l = Ok [fx; m01; cx; m10; fy; cy; m20; m21; m22] -> coefficients rf root k ->
  exists v, cv_from_xml rf root sz = Ok v /\ cv_imgsz v = sz /\ cv_fx v = fx /\ cv_fy v = fy /\ cv_cx v = cx /\ cv_cy v = cy /\
    [cv_k1 v; cv_k2 v; cv_p1 v; cv_p2 v; cv_k3 v; cv_k4 v; cv_k5 v; cv_k6 v; cv_s1 v; cv_s2 v; cv_s3 v; cv_s4 v] = firstn 12 (k ++ repeat 0%R 12).
Proof.
  intros Hd Hs Hm Hk. exists (cv_from_arrays [[fx; m01; cx]; [m10; fy; cy]; [m20; m21; m22]] k sz). split.
  - unfold cv_from_xml. destruct (find_data_first _ _ _ Hd) as [l' ->]. cbn [first_text]. destruct (xtext d) as [|ch tx] eqn:E.
    { apply spelled_nothing in Hs as ->. discriminate Hm. }
    rewrite <- E in *. rewrite (numbers_spelled _ _ _ Hs), Hm. cbn [bind reshape33].
    destruct Hk as [[Hn ->]|(dd & Hdd & Hk)].
    + rewrite (find_data_none _ _ Hn). reflexivity.
    + destruct (find_data_first _ _ _ Hdd) as [l2 ->]. cbn [first_text]. destruct Hk as [[E2 ->]|(lt & Hl & Nl & Hkm)].
      * rewrite E2. reflexivity.
      * destruct (xtext dd) as [|c2 t2] eqn:E2.
        { apply spelled_nothing in Hl. contradiction. }
        rewrite <- E2 in *. rewrite (numbers_spelled _ _ _ Hl), Hkm. reflexivity.
  - unfold cv_from_arrays. cbn [cv_imgsz cv_fx cv_fy cv_cx cv_cy nth cv_k1 cv_k2 cv_k3 cv_k4 cv_k5 cv_k6 cv_p1 cv_p2 cv_s1 cv_s2 cv_s3 cv_s4]. repeat (split; [reflexivity|]).
    do 12 (destruct k as [|? k]; [reflexivity|]). reflexivity.
Qed.
Print Assumptions opencv_xml.

(** Files without a camera matrix, or whose first one does not have nine numbers *)
Theorem opencv_xml_errors rf root sz :
  (no_data "camera_matrix" root -> cv_from_xml rf root sz = Err ValueError) /\
  (forall d, first_data "camera_matrix" root d -> xtext d = [] -> cv_from_xml rf root sz = Err ValueError) /\
  (forall d l x, first_data "camera_matrix" root d -> spelled (xtext d) l -> mapM rf l = Ok x -> length x <> 9%nat -> cv_from_xml rf root sz = Err ValueError).
Proof.
  unfold cv_from_xml. split; [|split].
  - intros H. now rewrite (find_data_none _ _ H).
  - intros d H E. destruct (find_data_first _ _ _ H) as [l' ->]. cbn [first_text]. now rewrite E.
  - intros d l x H Hs Hm Hx. destruct (find_data_first _ _ _ H) as [l' ->]. cbn [first_text]. destruct (xtext d) as [|ch tx] eqn:E; [reflexivity|]. rewrite (numbers_spelled _ _ _ Hs), Hm. cbn [bind].
    replace (reshape33 x) with (@Err (list (list R)) ValueError); [reflexivity|]. do 10 (destruct x as [|? x]; [first [reflexivity | destruct Hx; reflexivity]|]). reflexivity.
Qed.
Print Assumptions opencv_xml_errors.

(** Numbers written with a capital E are read as two numbers, without any error *)
Theorem opencv_xml_exponent_refuted rf : rf (T "1") = Ok 1%R -> rf (T "1.5") = Ok (15 / 10)%R -> rf (T "-3") = Ok (-3)%R -> forall sz,
  let leaf tag t := XElt (T tag) [] (T t) [] [] in
  let root := XElt (T "opencv_storage") [] [] [XElt (T "camera_matrix") [] [] [leaf "data"%string "1 1 1 1 1 1 1 1 1"%string] []; XElt (T "distortion_coefficients") [] [] [leaf "data"%string "1.5E-3"%string] []] [] in
  exists v, cv_from_xml rf root sz = Ok v /\ cv_k1 v = (15 / 10)%R /\ cv_k2 v = (-3)%R.
Proof.
  intros H1 H2 H3 sz leaf root. exists (cv_from_arrays [[1; 1; 1]; [1; 1; 1]; [1; 1; 1]]%R [(15 / 10); -3]%R sz). split; [|split; reflexivity].
  unfold cv_from_xml. change (first_text (find_data "camera_matrix" root)) with (Some (T "1 1 1 1 1 1 1 1 1")). change (first_text (find_data "distortion_coefficients" root)) with (Some (T "1.5E-3")).
  unfold numbers. replace (concat (refindall [Plus true numchar] (T "1 1 1 1 1 1 1 1 1"))) with (repeat (T "1") 9) by (vm_compute; reflexivity).
  replace (concat (refindall [Plus true numchar] (T "1.5E-3"))) with [T "1.5"; T "-3"] by (vm_compute; reflexivity).
  cbn [repeat mapM]. rewrite H1, H2, H3. reflexivity.
Qed.
Print Assumptions opencv_xml_exponent_refuted.

(** Reading back a camera's arrays: texts of its numbers, separated by blanks *)
Fixpoint blank_separated (l : list text) : text := match l with [] => [] | t :: r => " " :: t ++ blank_separated r end.
Lemma blank_spelled l : (forall t, In t l -> t <> [] /\ forall c, In c t -> of_number c) -> spelled (blank_separated l) l.
Proof.
  induction l as [|t l IH]; intros H; cbn [blank_separated].
  - apply spelled_end. intros c [].
  - change (" " :: t ++ blank_separated l) with ([" "] ++ t ++ blank_separated l). destruct (H t (or_introl eq_refl)) as [N Hc]. apply spelled_cons; [|exact N | exact Hc | | apply IH; intros; apply H; now right].
    + intros c [<-|[]] C. cbn in C. repeat (destruct C as [C|C]; [discriminate C|]). exact C.
    + destruct l; [exact I|]. cbn [blank_separated]. intros C. cbn in C. repeat (destruct C as [C|C]; [discriminate C|]). exact C.
Qed.
Definition opencv_document (show : R -> text) (v : opencv) : xelt :=
  let data l := XElt (T "data") [] (blank_separated (map show l)) [] [] in
  XElt (T "opencv_storage") [] [] [XElt (T "camera_matrix") [] [] [data (concat (cv_matrix v))] []; XElt (T "distortion_coefficients") [] [] [data (cv_coeffs v)] []] [].
Theorem opencv_xml_round_trip rf show v : (forall x, rf (show x) = Ok x) -> (forall x, show x <> [] /\ forall c, In c (show x) -> of_number c) ->
  cv_from_xml rf (opencv_document show v) (cv_imgsz v) = Ok v.
Proof.
  intros H1 H2.
  assert (M : forall l, mapM rf (map show l) = Ok l) by (induction l as [|x l IH]; [reflexivity|]; cbn [map mapM]; rewrite H1; cbn [bind]; rewrite IH; reflexivity).
  assert (Sp : forall l, spelled (blank_separated (map show l)) (map show l)) by (intros l; apply blank_spelled; intros t Ht; apply in_map_iff in Ht as (x & <- & _); apply H2).
  unfold cv_from_xml.
  replace (first_text (find_data "camera_matrix" (opencv_document show v))) with (Some (blank_separated (map show (concat (cv_matrix v))))) by (destruct v; reflexivity).
  rewrite (numbers_spelled _ _ _ (Sp _)), M. cbn [bind].
  replace (first_text (find_data "distortion_coefficients" (opencv_document show v))) with (Some (blank_separated (map show (cv_coeffs v)))) by (destruct v; reflexivity).
  rewrite (numbers_spelled _ _ _ (Sp _)), M. destruct v; reflexivity.
Qed.
Print Assumptions opencv_xml_round_trip.

(** ** Examples *)
Definition rf_ex (t : text) : result R :=
  if teqb t (T "4288") then Ok 4288%R else if teqb t (T "2848") then Ok 2848%R else if teqb t (T "3570") then Ok 3570%R else if teqb t (T "3") then Ok 3%R else if teqb t (T "0.1") then Ok (1 / 10)%R else Err ValueError.
Definition leaf (tag t : string) : xelt := XElt (T tag) [] (T t) [] [].
Definition agisoft_ex : xelt := XElt (T "calibration") [] [] [leaf "projection" "frame"; leaf "width" "4288"; leaf "height" "2848"; leaf "f" "3570"; leaf "cx" "3"; leaf "cy" ""; leaf "k1" "0.1"; leaf "date" "2020-05-06"] [].
Lemma trunc_IZR z : Rtrunc (IZR z) = z.
Proof. unfold Rtrunc. destruct (Rltb (IZR z) 0). apply Rceil_IZR. apply Rfloor_IZR. Qed.
Example agisoft_read : ag_from_xml rf_ex agisoft_ex = Ok (mk_ag (4288, 2848)%Z 3570 3 0 (1 / 10) 0 0 0 0 0 0 0).
Proof.
  assert (E : forall w h, ag_from_xml rf_ex agisoft_ex = Ok (mk_ag (Rtrunc 4288, Rtrunc 2848) 3570 3 0 (1 / 10) 0 0 0 0 0 0 0) -> Rtrunc 4288 = w -> Rtrunc 2848 = h -> ag_from_xml rf_ex agisoft_ex = Ok (mk_ag (w, h) 3570 3 0 (1 / 10) 0 0 0 0 0 0 0)) by (intros w h H <- <-; exact H).
  apply E; [reflexivity | apply trunc_IZR | apply trunc_IZR].
Qed.
(** a <calibration> element without children is taken for missing; other projections are refused; a missing width is a KeyError, a missing f a TypeError *)
Example agisoft_fail : ag_from_xml rf_ex (XElt (T "document") [] [] [XElt (T "calibration") [] [] [] []; agisoft_ex] []) = Err ValueError /\
  ag_from_xml rf_ex (XElt (T "calibration") [] [] [leaf "projection" "fisheye"] []) = Err ValueError /\
  ag_from_xml rf_ex (XElt (T "calibration") [] [] [leaf "height" "2848"] []) = Err KeyError /\
  ag_from_xml rf_ex (XElt (T "calibration") [] [] [leaf "width" "4288"; leaf "height" "2848"] []) = Err TypeError.
Proof. repeat split; reflexivity. Qed.
Example spelled_ex : spelled (T " 3.57e+03 0.
 -1;") (map T ["3.57e+03"; "0."; "-1"]%string).
Proof.
  change (T " 3.57e+03 0.
 -1;") with ([" "] ++ T "3.57e+03" ++ ([" "] ++ T "0." ++ (["010"; " "] ++ T "-1" ++ [";"]))).
  repeat apply spelled_cons; try discriminate; try (intros c Hc; cbn in Hc; cbn; intuition congruence); try (cbn; intros C; repeat (destruct C as [C|C]; [discriminate C|]); exact C).
  apply spelled_end. intros c [<-|[]] C. cbn in C. repeat (destruct C as [C|C]; [discriminate C|]). exact C.
Qed.
