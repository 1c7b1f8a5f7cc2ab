(** Property C50: transforms of SVG elements. *)
From Coq Require Import String Ascii.
From Verif Require Import Base SvgModel SvgProofs P_Svg.
Open Scope R_scope.

(** ** Specification: transform functions (https://www.w3.org/TR/SVG11/coords.html#TransformAttribute) *)
Inductive tfunc := TranslateX (x : R) | Translate (x y : R) | ScaleXY (s : R) | Scale (x y : R) | Matrix (a b c d e f : R).
Definition tname (f : tfunc) : string := match f with TranslateX _ | Translate _ _ => "translate" | ScaleXY _ | Scale _ _ => "scale" | Matrix _ _ _ _ _ _ => "matrix" end.
Definition targs (f : tfunc) : list R := match f with TranslateX x => [x] | Translate x y => [x; y] | ScaleXY s => [s] | Scale x y => [x; y] | Matrix a b c d e f => [a; b; c; d; e; f] end.
Definition tmap (t : tfunc) (p : rpt) : rpt :=
  let (x, y) := p in
  match t with
  | TranslateX dx => (x + dx, y)
  | Translate dx dy => (x + dx, y + dy)
  | ScaleXY s => (s * x, s * y)
  | Scale sx sy => (sx * x, sy * y)
  | Matrix a b c d e f => (a * x + c * y + e, b * x + d * y + f)
  end.
(** A text of a transform: separators, name(numbers), separators, ... *)
Definition separators (s : text) : Prop := Forall (fun c => letter c = false) s.
Inductive tf_text (num : text -> R) : text -> list tfunc -> Prop :=
| tf_end s : separators s -> tf_text num s []
| tf_func s f args ts l fs : separators s -> Forall (fun c => c <> ")"%char) args -> spells args ts -> map num ts = targs f -> tf_text num l fs ->
    tf_text num (s ++ T (tname f) ++ "("%char :: args ++ ")"%char :: l) (f :: fs).
(** The order of the SVG specification: the last function is applied first. *)
Definition svg_map (fs : list tfunc) (p : rpt) : rpt := fold_right tmap p fs.
(* ---------------------------------------------------------------- *)

Lemma func_seps s l : separators s -> findall m_func (s ++ l) = findall m_func l.
Proof. induction 1 as [|c s Hc Hs IH]; [reflexivity|]. cbn [app]. rewrite findall_none; [exact IH|]. unfold m_func. cbn [span]. now rewrite Hc. Qed.
Lemma func_match name args l : name <> [] -> Forall (fun c => letter c = true) name -> Forall (fun c => c <> ")"%char) args ->
  m_func (name ++ "("%char :: args ++ ")"%char :: l) = Some ((name, args), l).
Proof.
  intros N F A. unfold m_func. rewrite (span_app letter name ("("%char :: args ++ ")"%char :: l)) by (auto; reflexivity). destruct name as [|x name]; [contradiction|].
  rewrite (span_app (fun c => negb (Ascii.eqb c ")")) args (")"%char :: l)); [reflexivity| |reflexivity]. eapply Forall_impl; [|exact A]. intros c Hc. cbn. apply eqb_neq in Hc. now rewrite Hc.
Qed.
Lemma tname_letters f : T (tname f) <> [] /\ Forall (fun c => letter c = true) (T (tname f)).
Proof. destruct f; (split; [discriminate|repeat constructor]). Qed.
Section Num.
Context (num : text -> R).
Lemma apply_spec f args ts xy : spells args ts -> map num ts = targs f -> apply_func num (T (tname f), args) xy = Ok (map (tmap f) xy).
Proof.
  intros S E. unfold apply_func. cbn [fst snd]. rewrite (spells_findall _ _ S), E. unfold T. rewrite string_of_list_ascii_of_string.
  destruct f; cbn [tname targs]; cbn -[Rplus Rmult]; apply (f_equal (@Ok _)); unfold translate, scale, matrix; apply map_ext; intros [px py]; cbn [fst snd tmap]; f_equal; ring.
Qed.
(** All functions are applied, in the order in which they are written. *)
Theorem transform_in_written_order tf fs xy : tf_text num tf fs -> transform num tf xy = Ok (map (fun p => fold_left (fun p f => tmap f p) fs p) xy).
Proof.
  intros H. revert xy. unfold transform. induction H as [s S|s f args ts l fs S A Sp E H IH]; intros xy.
  - rewrite <- (app_nil_r s), func_seps by exact S. cbn. now rewrite map_id.
  - rewrite func_seps by exact S. destruct (tname_letters f) as [N F]. rewrite (findall_some m_func _ _ _ func_consumes (func_match _ args l N F A)). cbn [foldM]. rewrite (apply_spec f args ts xy Sp E). cbn [bind].
    rewrite IH, map_map. apply (f_equal (@Ok _)), map_ext. reflexivity.
Qed.
(** This is the SVG meaning of the text if the functions commute, as when there is only one, only translations, or only scales; it is not in general. *)
Lemma commute_order fs p : (forall f g q, In f fs -> In g fs -> tmap f (tmap g q) = tmap g (tmap f q)) -> fold_left (fun p f => tmap f p) fs p = svg_map fs p.
Proof.
  revert p. induction fs as [|f fs IH]; intros p C; [reflexivity|]. cbn [fold_left]. rewrite IH by (intros; apply C; now right). clear IH. unfold svg_map. cbn [fold_right].
  assert (G : forall gs, incl gs fs -> fold_right tmap (tmap f p) gs = tmap f (fold_right tmap p gs)).
  { induction gs as [|g gs IH]; intros I; [reflexivity|]. cbn [fold_right]. rewrite IH by (intros x Hx; apply I; now right). apply C; [right; apply I; now left|now left]. }
  apply G, incl_refl.
Qed.
Theorem transform_standard_when_commuting tf fs xy : tf_text num tf fs -> (forall f g q, In f fs -> In g fs -> tmap f (tmap g q) = tmap g (tmap f q)) ->
  transform num tf xy = Ok (map (svg_map fs) xy).
Proof. intros H C. rewrite (transform_in_written_order tf fs xy H). apply (f_equal (@Ok _)), map_ext. intros p. now apply commute_order. Qed.
Definition is_translation (f : tfunc) : Prop := match f with TranslateX _ | Translate _ _ => True | _ => False end.
Definition is_scale (f : tfunc) : Prop := match f with ScaleXY _ | Scale _ _ => True | _ => False end.
Corollary transform_standard_translations tf fs xy : tf_text num tf fs -> Forall is_translation fs \/ Forall is_scale fs \/ (length fs <= 1)%nat -> transform num tf xy = Ok (map (svg_map fs) xy).
Proof.
  intros H K. apply transform_standard_when_commuting; [exact H|]. intros f g [x y] Hf Hg. destruct K as [K|[K|K]].
  - rewrite Forall_forall in K. specialize (K f Hf) as Kf. specialize (K g Hg) as Kg. destruct f, g; cbn in Kf, Kg; try contradiction; cbn [tmap]; f_equal; ring.
  - rewrite Forall_forall in K. specialize (K f Hf) as Kf. specialize (K g Hg) as Kg. destruct f, g; cbn in Kf, Kg; try contradiction; cbn [tmap]; f_equal; ring.
  - destruct fs as [|a [|b fs]]; [contradiction| |cbn in K; lia]. destruct Hf as [<-|[]], Hg as [<-|[]]. reflexivity.
Qed.
Lemma transform_after tf fs l xy : tf_text num tf fs -> transform num (tf ++ l) xy = transform num l (map (fun p => fold_left (fun p f => tmap f p) fs p) xy).
Proof.
  intros H. revert xy. unfold transform. induction H as [s S|s f args ts l' fs S A Sp E H IH]; intros xy.
  - rewrite func_seps by exact S. cbn. now rewrite map_id.
  - rewrite <- app_assoc, func_seps by exact S. destruct (tname_letters f) as [N F]. rewrite <- app_assoc. cbn [app]. rewrite <- app_assoc. cbn [app].
    rewrite (findall_some m_func _ _ _ func_consumes (func_match _ args (l' ++ l) N F A)). cbn [foldM]. rewrite (apply_spec f args ts xy Sp E). cbn [bind]. rewrite IH, map_map. reflexivity.
Qed.
(** Other functions of SVG (rotate, skewX, skewY) are refused, after any number of supported ones. *)
Theorem transform_unsupported tf fs name args l xy : tf_text num tf fs -> name <> [] -> Forall (fun c => letter c = true) name -> Forall (fun c => c <> ")"%char) args ->
  ~ In (string_of_list_ascii name) ["translate"; "scale"; "matrix"; "xy"; "closed"; "bbox"; "transform"]%string ->
  transform num (tf ++ name ++ "("%char :: args ++ ")"%char :: l) xy = Err ValueError.
Proof.
  intros H N F A NI. rewrite (transform_after tf fs _ xy H). generalize (map (fun p => fold_left (fun p f => tmap f p) fs p) xy). clear xy. intros xy. unfold transform.
  rewrite (findall_some m_func _ _ _ func_consumes (func_match name args l N F A)). cbn [foldM]. unfold apply_func. cbn [fst snd].
  assert (K : forall s, In s ["translate"; "scale"; "matrix"; "xy"; "closed"; "bbox"; "transform"]%string -> String.eqb (string_of_list_ascii name) s = false) by (intros s Hs; apply String.eqb_neq; intros E; apply NI; rewrite E; exact Hs).
  cbn [existsb]. rewrite !K by (cbn; tauto). reflexivity.
Qed.
(** Supported functions with a wrong number of parameters are refused. *)
Theorem transform_wrong_count tf fs name args ts l xy : tf_text num tf fs -> Forall (fun c => c <> ")"%char) args -> spells args ts ->
  (In name ["translate"; "scale"]%string /\ length ts <> 1%nat /\ length ts <> 2%nat \/ name = "matrix"%string /\ length ts <> 6%nat) ->
  transform num (tf ++ T name ++ "("%char :: args ++ ")"%char :: l) xy = Err TypeError.
Proof.
  intros H A Sp K. rewrite (transform_after tf fs _ xy H). generalize (map (fun p => fold_left (fun p f => tmap f p) fs p) xy). clear xy. intros xy. unfold transform.
  assert (NF : T name <> [] /\ Forall (fun c => letter c = true) (T name)) by (destruct K as [[[<-|[<-|[]]] _]|[-> _]]; (split; [discriminate|repeat constructor])). destruct NF as [N F].
  rewrite (findall_some m_func _ _ _ func_consumes (func_match (T name) args l N F A)). cbn [foldM]. unfold apply_func. cbn [fst snd]. rewrite (spells_findall _ _ Sp). unfold T. rewrite string_of_list_ascii_of_string.
  assert (L : length (map num ts) = length ts) by apply map_length. revert L. generalize (map num ts). intros v L.
  destruct K as [[[<-|[<-|[]]] [K1 K2]]|[-> K]]; cbn.
  - destruct v as [|a [|b [|c v]]]; cbn in L; try reflexivity; lia.
  - destruct v as [|a [|b [|c v]]]; cbn in L; try reflexivity; lia.
  - destruct v as [|a [|b [|c [|d [|e [|g [|h v]]]]]]]; cbn in L; try reflexivity; lia.
Qed.
End Num.
Print Assumptions transform_in_written_order.

(** ** Decimal integers as real numbers *)
Definition num_R (t : text) : R := IZR (num_Z t).
Lemma digits_number t : digits t -> number t.
Proof. intros D. exists [], t, []. split; [now left|]. split; [now left|]. split; [now left|]. now rewrite app_nil_r. Qed.
Ltac spell_ := repeat first [apply spells_nil | apply spells_junk; [repeat split; discriminate|]
  | match goal with |- spells (?c :: ?l) _ => change (c :: l) with ([c] ++ l); apply spells_num; [apply digits_number; split; [discriminate|repeat constructor]|first [exact I|apply stop_char; solve [reflexivity|discriminate]]|] end].
Example transform_text_ex : tf_text num_R (T "translate(1,2)scale(2)") [Translate 1 2; ScaleXY 2].
Proof.
  change (T "translate(1,2)scale(2)") with ([] ++ T (tname (Translate 1 2)) ++ "("%char :: T "1,2" ++ ")"%char :: ([] ++ T (tname (ScaleXY 2)) ++ "("%char :: T "2" ++ ")"%char :: [])).
  apply tf_func with (ts := [T "1"; T "2"]); [constructor|repeat constructor; discriminate|cbn; spell_|reflexivity|].
  apply tf_func with (ts := [T "2"]); [constructor|repeat constructor; discriminate|cbn; spell_|reflexivity|]. apply tf_end. constructor.
Qed.
(** A translation followed by a scale: the text has its SVG meaning for some point only if the scale is 1 or the translation 0, and then for all. *)
Theorem transform_order_refuted num tf a b s xy : tf_text num tf [Translate a b; ScaleXY s] -> xy <> [] ->
  transform num tf xy = Ok (map (fun p => (s * (fst p + a), s * (snd p + b))) xy) /\ map (svg_map [Translate a b; ScaleXY s]) xy = map (fun p => (s * fst p + a, s * snd p + b)) xy /\
  (transform num tf xy = Ok (map (svg_map [Translate a b; ScaleXY s]) xy) <-> s = 1 \/ a = 0 /\ b = 0).
Proof.
  intros H N. rewrite (transform_in_written_order num tf _ xy H).
  assert (E1 : map (fun p => fold_left (fun p f => tmap f p) [Translate a b; ScaleXY s] p) xy = map (fun p => (s * (fst p + a), s * (snd p + b))) xy) by (apply map_ext; intros [x y]; reflexivity).
  assert (E2 : map (svg_map [Translate a b; ScaleXY s]) xy = map (fun p => (s * fst p + a, s * snd p + b)) xy) by (apply map_ext; intros [x y]; reflexivity).
  rewrite E1, E2. split; [reflexivity|]. split; [reflexivity|]. split.
  - intros Q. assert (Q' : map (fun p => (s * (fst p + a), s * (snd p + b))) xy = map (fun p => (s * fst p + a, s * snd p + b)) xy) by congruence. destruct xy as [|[x y] xy]; [contradiction|]. cbn [map fst snd] in Q'.
    assert (Q1 : s * (x + a) = s * x + a) by congruence. assert (Q2 : s * (y + b) = s * y + b) by congruence.
    destruct (Req_dec s 1) as [->|Ns]; [left; reflexivity|right]. split; (apply Rmult_eq_reg_l with (s - 1); [lra|intros Z; apply Ns; lra]).
  - intros [->|[-> ->]]; apply (f_equal (@Ok _)), map_ext; intros [x y]; cbn [fst snd]; f_equal; ring.
Qed.
Print Assumptions transform_order_refuted.
(** The doctest of the code: SVG says that the point is scaled before it is translated. *)
Example transform_order_ex : transform num_R (T "translate(1,2)scale(2)") [(1, 2)] = Ok [(4, 8)] /\ svg_map [Translate 1 2; ScaleXY 2] (1, 2) = (3, 6).
Proof.
  rewrite (transform_in_written_order num_R _ _ [(1, 2)] transform_text_ex). split; [apply (f_equal (@Ok _)); cbn [map fold_left tmap]; repeat f_equal; lra|unfold svg_map; cbn [fold_right tmap]; f_equal; lra].
Qed.
(** A space before the parenthesis, allowed in SVG, makes a function be ignored without an error. *)
Theorem transform_space_refuted num xy : transform num (T "translate (1,2)") xy = Ok xy.
Proof. reflexivity. Qed.
