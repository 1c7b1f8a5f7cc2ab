(** Property C102, second part: annotations written are read back. *)
From Coq Require Import String Ascii.
From Verif Require Import Base BaseLemmas SvgModel SvgProofs P_Svg P_Svg2 P_Svg3 SvgDocModel SvgDocProofs P_SvgDoc.
Notation length := List.length.
Open Scope char_scope.

(** ** Namespaces *)
Definition plain (k : text) : Prop := k <> [] /\ Forall (fun c => name_char c = true /\ c <> ":") k.
Lemma name_char_plain c : name_char c = true -> c <> "{" /\ c <> "}" /\ c <> "010".
Proof. intros H. destruct c as [[] [] [] [] [] [] [] []]; try discriminate H; repeat split; discriminate. Qed.
Lemma strip_none : forall n t, Forall (fun c => c <> "{") t -> (length t <= n)%nat -> strip_braces_ n t = t.
Proof.
  induction n as [|n IH]; intros t F L; [destruct t; [reflexivity|cbn in L; lia]|]. destruct t as [|c t]; [reflexivity|]. inversion F as [|? ? H F']; subst. cbn [strip_braces_]. destruct (Ascii.eqb_spec c "{"); [contradiction|]. rewrite IH by (assumption || (cbn in L; lia)). reflexivity.
Qed.
Lemma strip_value t : Forall (fun c => c <> "{") t -> strip_braces t = t.
Proof. intros F. apply strip_none; [exact F|reflexivity]. Qed.
Lemma last_brace_none k : Forall (fun c => c <> "}") k -> last_brace k = None.
Proof. induction 1 as [|c k H F IH]; [reflexivity|]. cbn [last_brace]. destruct (Ascii.eqb c "010"); [reflexivity|]. rewrite IH. destruct (Ascii.eqb_spec c "}"); [contradiction|reflexivity]. Qed.
Lemma last_brace_some u k : Forall (fun c => c <> "010") u -> Forall (fun c => c <> "}") k -> last_brace (u ++ "}" :: k) = Some k.
Proof.
  intros U K. induction U as [|c u H U IH]; cbn [app last_brace].
  - change (Ascii.eqb "}" "010") with false. cbv iota. rewrite last_brace_none by exact K. reflexivity.
  - destruct (Ascii.eqb_spec c "010"); [contradiction|]. rewrite IH. reflexivity.
Qed.
Lemma plain_no k : plain k -> Forall (fun c => c <> "{") k /\ Forall (fun c => c <> "}") k.
Proof. intros [_ F]. split; (eapply Forall_impl; [|exact F]); intros c [H _]; apply name_char_plain in H; tauto. Qed.
Lemma strip_qualified u k : u <> [] -> Forall (fun c => c <> "010") u -> plain k -> strip_braces (qualified u k) = k.
Proof.
  intros NE U P. destruct (plain_no k P) as [P1 P2]. unfold qualified. destruct u as [|c u]; [contradiction|]. unfold strip_braces. cbn [length strip_braces_]. change (Ascii.eqb "{" "{") with true. cbv iota. rewrite (last_brace_some (c :: u) k U P2). apply strip_none; [exact P1|]. rewrite app_length. cbn [length]. lia.
Qed.
Lemma split_plain k : plain k -> split_name k = (None, k).
Proof.
  intros [_ F]. unfold split_name. rewrite <- (app_nil_r k) at 1. rewrite span_app; [reflexivity| |exact I]. eapply Forall_impl; [|exact F]. intros c [_ H]. destruct (Ascii.eqb_spec c ":"); [contradiction|reflexivity].
Qed.
Lemma split_xlink k : split_name (T "xlink:" ++ k) = (Some (T "xlink"), k).
Proof. reflexivity. Qed.
(** the attributes as the code names them: without namespaces *)
Inductive attr_name : text -> text -> Prop :=
| name_plain k : plain k -> k <> T "xmlns" -> attr_name k k
| name_xlink k : plain k -> attr_name (T "xlink:" ++ k) k.
Fixpoint simple (e : xelt) (e' : elt) : Prop :=
  match e, e' with
  | XElt tag attrs _ kids _, Elt tag' attrs' kids' =>
    plain tag /\ T tag' = tag /\ Forall2 (fun kv kv' => attr_name (fst kv) (T (fst kv')) /\ snd kv' = snd kv /\ Forall (fun c => c <> "{") (snd kv)) attrs attrs' /\ NoDup (map fst attrs') /\
    (fix all l l' := match l, l' with [], [] => True | c :: r, c' :: r' => simple c c' /\ all r r' | _, _ => False end) kids kids'
  end.
Lemma teqb_refl k : teqb k k = true. Proof. destruct (teqb_spec k k); congruence. Qed.
Lemma declared_none k k' v : attr_name k k' -> declared (k, v) = None.
Proof.
  intros H. unfold declared. cbn [fst]. destruct H as [k P N|k P].
  - destruct (teqb_spec k (T "xmlns")); [contradiction|]. rewrite split_plain by exact P. reflexivity.
  - reflexivity.
Qed.
Lemma qname_attr env k k' : attr_name k k' -> lookup (T "xlink") env = Some xlink_ns -> exists q, qname env false k = Some q /\ strip_braces q = k'.
Proof.
  intros H X. unfold qname. destruct H as [k P N|k P].
  - rewrite split_plain by exact P. exists k. split; [reflexivity|]. apply strip_value, plain_no, P.
  - rewrite split_xlink, X. eexists. split; [reflexivity|]. apply strip_qualified; [discriminate|repeat constructor; discriminate|exact P].
Qed.
Lemma put_new k v d : ~ In k (map fst d) -> put k v d = d ++ [(k, v)].
Proof. induction d as [|[k' v'] d IH]; intros N; [reflexivity|]. cbn [put]. destruct (teqb_spec k k') as [->|]; [exfalso; apply N; left; reflexivity|]. rewrite IH by (intros H; apply N; right; exact H). reflexivity. Qed.
Lemma update_new d' : forall d, NoDup (map fst (d ++ d')) -> update d d' = d ++ d'.
Proof.
  unfold update. induction d' as [|[k v] d' IH]; intros d ND; cbn [fold_left]; [rewrite app_nil_r; reflexivity|]. cbn [fst snd]. rewrite put_new.
  - rewrite IH; [rewrite <- app_assoc; reflexivity|]. rewrite <- app_assoc. exact ND.
  - rewrite map_app in ND. cbn [map fst] in ND. apply NoDup_remove_2 in ND. intros H. apply ND. apply in_or_app. left. exact H.
Qed.
Definition resolve_kids (env : list (text * text)) : list xelt -> option (list xelt) := fix go l := match l with [] => Some [] | c :: r => match resolve env c, go r with Some c, Some r => Some (c :: r) | _, _ => None end end.
Lemma resolve_eq env tag attrs txt kids tail : resolve env (XElt tag attrs txt kids tail) =
  (let env := concat (map (fun kv => match declared kv with Some d => [d] | None => [] end) attrs) ++ env in
    match qname env true tag,
          omap (fun kv => option_map (fun k => (k, snd kv)) (qname env false (fst kv))) (filter (fun kv => match declared kv with Some _ => false | None => true end) attrs),
          resolve_kids env kids with
    | Some tag, Some attrs, Some kids => Some (XElt tag attrs txt kids tail)
    | _, _, _ => None
    end).
Proof. reflexivity. Qed.
Lemma string_T s : string_of_list_ascii (T s) = s. Proof. apply string_of_list_ascii_of_string. Qed.
Lemma T_inj s s' : T s = T s' -> s = s'. Proof. intros E. rewrite <- (string_T s), E. apply string_T. Qed.
Definition stripped_attrs (attrs : list (text * text)) : list (text * text) := map (fun kv => (strip_braces (fst kv), strip_braces (snd kv))) attrs.
Lemma attrs_resolved env attrs attrs' : lookup (T "xlink") env = Some xlink_ns ->
  Forall2 (fun kv kv' => attr_name (fst kv) (T (fst kv')) /\ snd kv' = snd kv /\ Forall (fun c => c <> "{") (snd kv)) attrs attrs' -> NoDup (map fst attrs') ->
  concat (map (fun kv => match declared kv with Some d => [d] | None => [] end) attrs) = [] /\
  exists qs, omap (fun kv => option_map (fun k => (k, snd kv)) (qname env false (fst kv))) (filter (fun kv => match declared kv with Some _ => false | None => true end) attrs) = Some qs /\
    map (fun kv => (string_of_list_ascii (fst kv), snd kv)) (update [] (stripped_attrs qs)) = attrs'.
Proof.
  intros X F ND. assert (G : concat (map (fun kv => match declared kv with Some d => [d] | None => [] end) attrs) = [] /\
    exists qs, omap (fun kv => option_map (fun k => (k, snd kv)) (qname env false (fst kv))) (filter (fun kv => match declared kv with Some _ => false | None => true end) attrs) = Some qs /\ stripped_attrs qs = map (fun kv => (T (fst kv), snd kv)) attrs').
  { clear ND. induction F as [|[k v] [k' v'] attrs attrs' (A & B & C) F (IH1 & qs & IH2 & IH3)]; [split; [reflexivity|exists []; split; reflexivity]|]. cbn [fst snd] in *. subst v'. cbn [map concat filter]. rewrite (declared_none k _ v A). split; [exact IH1|].
    destruct (qname_attr env k _ A X) as (q & Q1 & Q2). cbn [omap fst snd]. rewrite Q1. cbn [option_map]. rewrite IH2. eexists. split; [reflexivity|]. cbn [stripped_attrs map fst snd]. fold (stripped_attrs qs). rewrite Q2, IH3, (strip_value v C). reflexivity. }
  destruct G as (G1 & qs & G2 & G3). split; [exact G1|]. exists qs. split; [exact G2|]. rewrite G3, update_new.
  - cbn [app]. rewrite map_map. cbn [fst snd]. rewrite <- (map_id attrs') at 2. apply map_ext. intros [k v]. cbn [fst snd]. rewrite string_T. reflexivity.
  - cbn [app]. rewrite map_map. cbn [fst]. clear - ND. induction attrs' as [|[k v] l IH]; [constructor|]. cbn [map fst] in *. inversion ND as [|? ? N ND']; subst. constructor; [|apply IH, ND']. intros I. apply in_map_iff in I as ([k2 v2] & E & I). cbn [fst] in E. apply T_inj in E. subst. apply N. change k with (fst (k, v2)). apply in_map. exact I.
Qed.
Lemma resolve_simple env : lookup [] env = Some svg_ns -> lookup (T "xlink") env = Some xlink_ns -> forall e e', simple e e' -> exists q, resolve env e = Some q /\ to_elt (strip_ns q) = e'.
Proof.
  intros D X. induction e as [tag attrs txt kids tail IH] using xelt_ind'. intros [tag' attrs' kids'] (PT & ET & FA & ND & FK). rewrite resolve_eq. cbv zeta. destruct (attrs_resolved env attrs attrs' X FA ND) as (A0 & qs & A1 & A2). rewrite A0. cbn [app].
  assert (QT : qname env true tag = Some (qualified svg_ns tag)) by (unfold qname; rewrite split_plain by exact PT; rewrite D; reflexivity). rewrite QT, A1.
  assert (K : exists ks, resolve_kids env kids = Some ks /\ map to_elt (map strip_ns ks) = kids').
  { clear - IH FK. revert kids' FK. induction IH as [|c l HC IH IHl]; intros [|c' l'] FK; try contradiction; [exists []; split; reflexivity|]. destruct FK as [F1 F2]. destruct (HC c' F1) as (q & Q1 & Q2). destruct (IHl l' F2) as (ks & K1 & K2). change (resolve_kids env (c :: l)) with (match resolve env c, resolve_kids env l with Some c, Some r => Some (c :: r) | _, _ => None end). rewrite Q1, K1. eexists. split; [reflexivity|]. cbn [map]. rewrite Q2, K2. reflexivity. }
  destruct K as (ks & K1 & K2). rewrite K1. eexists. split; [reflexivity|]. cbn [strip_ns to_elt]. fold (stripped_attrs qs). rewrite A2, K2. rewrite strip_qualified by (discriminate || (repeat constructor; discriminate) || exact PT). rewrite <- ET, string_T. reflexivity.
Qed.

(** ** Documents of the constructors *)
Definition root (attrs : list (text * text)) (kids : list xelt) (e : xelt) : Prop := exists txt tail, e = XElt (T "svg") (attrs ++ [(T "xmlns", svg_ns); (T "xmlns:xlink", xlink_ns)]) txt kids tail.
Definition simple_attrs (attrs : list (text * text)) (attrs' : list (string * text)) : Prop :=
  Forall2 (fun kv kv' => attr_name (fst kv) (T (fst kv')) /\ snd kv' = snd kv /\ Forall (fun c => c <> "{") (snd kv)) attrs attrs' /\ NoDup (map fst attrs').
Lemma concat_app_map {A B} (f : A -> list B) l l' : concat (map f (l ++ l')) = concat (map f l) ++ concat (map f l').
Proof. rewrite map_app, concat_app. reflexivity. Qed.
Lemma resolve_root attrs kids e attrs' kids' : root attrs kids e -> simple_attrs attrs attrs' -> Forall2 simple kids kids' -> exists q, resolve xml_env e = Some q /\ to_elt (strip_ns q) = Elt "svg" attrs' kids'.
Proof.
  intros (txt & tail & ->) [FA ND] FK. rewrite resolve_eq. cbv zeta.
  set (env := concat (map (fun kv => match declared kv with Some d => [d] | None => [] end) (attrs ++ [(T "xmlns", svg_ns); (T "xmlns:xlink", xlink_ns)])) ++ xml_env).
  assert (EE : env = [([], svg_ns); (T "xlink", xlink_ns)] ++ xml_env).
  { unfold env. rewrite concat_app_map. assert (Z : concat (map (fun kv => match declared kv with Some d => [d] | None => [] end) attrs) = []); [|rewrite Z; reflexivity].
    clear - FA. induction FA as [|[k v] [k' v'] l l' (A & _) F IH]; [reflexivity|]. cbn [map concat fst] in *. rewrite (declared_none _ _ v A). exact IH. }
  assert (D : lookup [] env = Some svg_ns) by (rewrite EE; reflexivity). assert (X : lookup (T "xlink") env = Some xlink_ns) by (rewrite EE; reflexivity). clearbody env. clear EE.
  destruct (attrs_resolved env attrs attrs' X FA ND) as (_ & qs & A1 & A2). rewrite filter_app. change (filter (fun kv : text * text => match declared kv with Some _ => false | None => true end) [(T "xmlns", svg_ns); (T "xmlns:xlink", xlink_ns)]) with (@nil (text * text)). rewrite app_nil_r, A1.
  assert (QT : qname env true (T "svg") = Some (qualified svg_ns (T "svg"))) by (unfold qname; change (split_name (T "svg")) with (@None text, T "svg"); rewrite D; reflexivity). rewrite QT.
  assert (K : exists ks, resolve_kids env kids = Some ks /\ map to_elt (map strip_ns ks) = kids').
  { clear - FK D X. induction FK as [|c c' l l' HC F (ks & K1 & K2)]; [exists []; split; reflexivity|]. destruct (resolve_simple env D X c c' HC) as (q & Q1 & Q2). change (resolve_kids env (c :: l)) with (match resolve env c, resolve_kids env l with Some c, Some r => Some (c :: r) | _, _ => None end). rewrite Q1, K1. eexists. split; [reflexivity|]. cbn [map]. rewrite Q2, K2. reflexivity. }
  destruct K as (ks & K1 & K2). rewrite K1. eexists. split; [reflexivity|]. cbn [strip_ns to_elt]. fold (stripped_attrs qs). rewrite A2, K2.
  rewrite strip_qualified; [reflexivity|discriminate|repeat constructor; discriminate|split; [discriminate|repeat constructor; discriminate]].
Qed.
Lemma same_simple e : forall e2 e', same e e2 -> simple e e' -> simple e2 e'.
Proof.
  induction e as [tag attrs txt kids tail IH] using xelt_ind'. intros e2 [tag' attrs' kids'] S' (PT & ET & FA & ND & FK). inversion S' as [? ? ? txt' ? kids2 ? tail' S1 S2 F]; subst. split; [exact PT|split; [reflexivity|split; [exact FA|split; [exact ND|]]]].
  clear - IH F FK. revert kids2 kids' F FK. induction IH as [|c l HC IH IHl]; intros kids2 kids' F FK; inversion F as [|? c2 ? l2 F1 F2]; subst; destruct kids' as [|c' l']; try contradiction; [exact I|]. destruct FK as [K1 K2]. split; [exact (HC c2 c' F1 K1)|exact (IHl l2 l' F2 K2)].
Qed.
Lemma same_root attrs kids e e2 : root attrs kids e -> same e e2 -> exists kids2, root attrs kids2 e2 /\ Forall2 same kids kids2.
Proof. intros (txt & tail & ->) S'. inversion S' as [? ? ? txt' ? kids2 ? tail' S1 S2 F]; subst. exists kids2. split; [exists txt', tail'; reflexivity|exact F]. Qed.
Lemma not_svg x : ~ In "svg"%string (tags (to_elt x)) -> filter (fun e => teqb (xtag e) (T "svg")) (xiter x) = [].
Proof.
  induction x as [tag attrs txt kids tail IH] using xelt_ind'. cbn [to_elt tags xiter]. intros N. cbn [filter xtag]. destruct (teqb_spec tag (T "svg")) as [->|NE]; [exfalso; apply N; left; reflexivity|].
  assert (N2 : ~ In "svg"%string (concat (map tags (map to_elt kids)))) by (intros H; apply N; right; exact H). clear N NE. induction IH as [|c l HC IH IHl]; [reflexivity|]. cbn [map concat] in *. rewrite filter_app. rewrite HC by (intros H; apply N2, in_or_app; left; exact H). rewrite IHl by (intros H; apply N2, in_or_app; right; exact H). reflexivity.
Qed.
Lemma image_tags x : In "image"%string (tags (to_elt x)) -> existsb (fun e => teqb (xtag e) (T "image")) (xiter x) = true.
Proof.
  induction x as [tag attrs txt kids tail IH] using xelt_ind'. cbn [to_elt tags xiter existsb xtag]. intros [E|H].
  - assert (tag = T "image") as -> by (rewrite <- (list_ascii_of_string_of_list_ascii tag), E; reflexivity). reflexivity.
  - apply orb_true_iff. right. induction IH as [|c l HC IH IHl]; [contradiction|]. cbn [map concat] in H. cbn [map concat]. rewrite existsb_app. apply orb_true_iff. apply in_app_or in H as [H|H]; [left; apply HC, H|right; apply IHl, H].
Qed.
(** A document of the constructors, written with any indentation, is read as its elements. *)
Lemma read_written num key imgsz i e attrs kids attrs' kids' : root attrs kids e -> wf e -> Forall (fun c => space c = true) (xtail e) -> blank_tab i -> simple_attrs attrs attrs' -> Forall2 simple kids kids' ->
  ~ In "svg"%string (concat (map tags kids')) -> In "image"%string (concat (map tags kids')) -> read_text num key imgsz (write e i) = read num key imgsz (Elt "svg" attrs' kids').
Proof.
  intros RT W XT BT SA SK NS IM. destruct (write_content e i W XT BT) as (e2 & P & S'). destruct (same_root attrs kids e e2 RT S') as (kids2 & R2 & F2).
  assert (SK2 : Forall2 simple kids2 kids') by (clear - F2 SK; revert kids' SK; induction F2 as [|c c2 l l2 H F IH]; intros kids' SK; inversion SK as [|? c' ? l' S1 S2]; subst; constructor; [exact (same_simple c c2 c' H S1)|apply IH; assumption]).
  destruct (resolve_root attrs kids2 e2 attrs' kids' R2 SA SK2) as (q & Q1 & Q2). unfold read_text. rewrite P, Q1. destruct (strip_ns q) as [tag qa qt qk ql] eqn:EQ. cbn [to_elt] in Q2. injection Q2 as E1 E2 E3.
  assert (tag = T "svg") as -> by (rewrite <- (list_ascii_of_string_of_list_ascii tag), E1; reflexivity).
  assert (FS : filter (fun e => teqb (xtag e) (T "svg")) (xiter (XElt (T "svg") qa qt qk ql)) = [XElt (T "svg") qa qt qk ql]).
  { cbn [xiter filter xtag]. rewrite teqb_refl. f_equal. rewrite <- E3 in NS. clear - NS. induction qk as [|c l IH]; [reflexivity|]. cbn [map concat] in *. rewrite filter_app, not_svg by (intros H; apply NS, in_or_app; left; exact H). apply IH. intros H. apply NS, in_or_app. right. exact H. }
  rewrite FS. assert (EX : existsb (fun e => teqb (xtag e) (T "image")) (xiter (XElt (T "svg") qa qt qk ql)) = true).
  { cbn [xiter existsb]. apply orb_true_iff. right. rewrite <- E3 in IM. clear - IM. induction qk as [|c l IH]; [contradiction|]. cbn [map concat] in *. rewrite existsb_app. apply orb_true_iff. apply in_app_or in IM as [H|H]; [left; apply image_tags, H|right; apply IH, H]. }
  rewrite EX. assert (FI : exists x l, filter (fun e => teqb (xtag e) (T "image")) (xiter (XElt (T "svg") qa qt qk ql)) = x :: l).
  { apply existsb_exists in EX as (x & I & E). destruct (filter (fun e => teqb (xtag e) (T "image")) (xiter (XElt (T "svg") qa qt qk ql))) as [|y l] eqn:F; [|eexists _, _; reflexivity]. assert (In x []) as [] by (rewrite <- F; apply filter_In; split; assumption). }
  destruct FI as (x & l & ->). assert (TE : to_elt (XElt (T "svg") qa qt qk ql) = Elt "svg" attrs' kids') by (cbn [to_elt]; rewrite E2, E3; reflexivity). rewrite TE. destruct imgsz; reflexivity.
Qed.

(** ** Annotations *)
Section Annotations.
(** Numbers (Python's int and float) of which [emb] is the value: printed as decimal numbers that read as the same value; numbers that are equal have the same value. *)
Context {N : Type} (show : N -> text) (eqb : N -> N -> bool) (emb : N -> R) (num : text -> R).
Context (num_show : forall x, num (show x) = emb x) (show_number : forall x, number (show x)) (eqb_emb : forall x y, eqb x y = true -> emb x = emb y) (num_zero : num (T "0") = 0%R).
Notation pt := (N * N)%type.
Definition value_of (p : pt) : rpt := (emb (fst p), emb (snd p)).
Lemma coords_value xy rest : stop rest -> spells rest [] -> coords num (xy_to_points show xy ++ rest) = flat (map value_of xy).
Proof.
  intros St S'. unfold coords. rewrite (spells_findall _ _ (spells_points show show_number xy rest [] St S')), app_nil_r. clear St S'. induction xy as [|[x y] xy IH]; [reflexivity|]. unfold flat in *. cbn [map concat fst snd app value_of]. rewrite !num_show, IH. reflexivity.
Qed.
Lemma path_value p ps z : from_path num Rplus (blocks (path_blocks show p ps z)) = Ok (map value_of (p :: ps) ++ if z then [value_of p] else []).
Proof.
  assert (Sp : no_cmd [" "]) by (constructor; [reflexivity|constructor]).
  assert (Se : forall b : bool, no_cmd (if b then [" "] else [])) by (intros []; [exact Sp|constructor]).
  rewrite from_path_blocks.
  - assert (Cp : forall b : bool, coords num (" " :: show_pt show p ++ if b then [" "] else []) = flat [value_of p]).
    { intros b. rewrite coords_lead. change (show_pt show p) with (xy_to_points show [p]). apply (coords_value [p]); [apply stop_end|apply spells_end]. }
    assert (Cl : forall b : bool, coords num (" " :: xy_to_points show ps ++ if b then [" "] else []) = flat (map value_of ps)) by (intros b; rewrite coords_lead; apply coords_value; [apply stop_end|apply spells_end]).
    unfold path_blocks. cbn [foldM fst snd]. destruct ps as [|q ps].
    + rewrite (Cp z), command_M. cbn [bind app]. destruct z; reflexivity.
    + rewrite (Cp true), command_M. cbn [bind app foldM fst snd]. rewrite (Cl z), command_L. cbn [bind app]. destruct z; cbn [foldM fst snd command first_ bind app map]; [reflexivity|now rewrite app_nil_r].
  - split.
    + unfold path_blocks. constructor; [split; [reflexivity|]; cbn [snd]; constructor; [reflexivity|]; apply Forall_app; split; [apply pt_no_cmd, show_number|destruct ps; [apply (Se z)|exact Sp]]|].
      apply Forall_app. split; [destruct ps; constructor; [|constructor]; split; [reflexivity|]; cbn [snd]; constructor; [reflexivity|]; apply Forall_app; split; [apply points_no_cmd, show_number|apply Se]|]. destruct z; [constructor; [split; [reflexivity|constructor]|constructor]|constructor].
    + intros b r E. unfold path_blocks in E. destruct z; [change [("Z", [])] with ([("Z", [] : text)]) in E; rewrite app_comm_cons in E; apply app_inj_tail in E as [<- _]|rewrite app_nil_r in E].
      * constructor; [discriminate|]. destruct ps; constructor; [discriminate|constructor].
      * destruct ps as [|q ps]; [destruct r as [|? [|? ?]]; [constructor|discriminate E|discriminate E]|]. destruct r as [|? [|? [|? ?]]]; [constructor| |discriminate E|discriminate E]. injection E as <- _. constructor; [discriminate|constructor].
  - intros c r E. unfold path_blocks in E. destruct z; [rewrite app_comm_cons in E; apply app_inj_tail in E as [_ E]; injection E as <-; reflexivity|]. rewrite app_nil_r in E. destruct ps as [|q ps]; [destruct r as [|? [|? ?]]; [|discriminate E|discriminate E]; injection E as _ E; discriminate E|].
    destruct r as [|? [|? [|? ?]]]; [discriminate E| |discriminate E|discriminate E]. injection E as _ _ E. discriminate E.
Qed.
Lemma path_values xy : (2 <= length xy)%nat -> from_path num Rplus (to_path eqb show xy) = Ok (map value_of xy).
Proof.
  intros L. destruct (ends_cases xy) as [->|[(p & ->)|(p & m & q & ->)]]; [cbn in L; lia|cbn in L; lia|]. unfold to_path. destruct (closed eqb (p :: m ++ [q])) eqn:C.
  - rewrite removelast_ends, <- (path_blocks_text show p m true), path_value. apply (f_equal (@Ok _)). change (map value_of (p :: m ++ [q])) with (value_of p :: map value_of (m ++ [q])). rewrite map_app. cbn [map app]. f_equal. f_equal. f_equal.
    assert (EQ : eqb_pt eqb p q = true).
    { destruct m as [|a m]; [exact C|]. unfold closed in C. cbn [app] in C. change (p :: a :: m ++ [q]) with ((p :: a :: m) ++ [q]) in C. rewrite rev_app_distr in C. exact C. }
    unfold eqb_pt in EQ. apply andb_true_iff in EQ as [E1 E2]. unfold value_of. rewrite (eqb_emb _ _ E1), (eqb_emb _ _ E2). reflexivity.
  - rewrite <- (path_blocks_text show p (m ++ [q]) false), path_value. now rewrite app_nil_r.
Qed.
(** Annotations: lines of points in groups, all with names *)
Inductive ann := ALine (name : text) (xy : list pt) | AGroup (name : text) (l : list ann).
(** as built by the constructors: path(xy, id=name), g( *l, id=name) *)
Fixpoint build (a : ann) : xelt :=
  match a with
  | ALine name xy => path_el (to_path eqb show xy) [(T "id", name)]
  | AGroup name l => g_el (map build l) [(T "id", name)]
  end.
Definition document (w h : N) (href : text) (l : list ann) : xelt := svg_el (image_el (show w) (show h) href [] :: map build l) [].
(** the points of annotations with the names on the way to them *)
Fixpoint ann_points (a : ann) : list (list string * list rpt) :=
  match a with
  | ALine name xy => [([string_of_list_ascii name], map value_of xy)]
  | AGroup name l => under (string_of_list_ascii name) (concat (map ann_points l))
  end.
Definition good_text (t : text) : Prop := Forall (fun c => printable c /\ c <> "{") t.
Fixpoint good (a : ann) : Prop :=
  match a with
  | ALine name xy => name <> [] /\ good_text name /\ (2 <= length xy)%nat
  | AGroup name l => name <> [] /\ good_text name /\ (fix all l := match l with [] => True | c :: r => good c /\ all r end) l
  end.
Lemma good_all l : (fix all l := match l with [] => True | c :: r => good c /\ all r end) l <-> Forall good l.
Proof. induction l as [|c r IH]; [split; constructor|]. rewrite IH. split; [intros [A B]; constructor; assumption|intros H; inversion H; split; assumption]. Qed.
Lemma ann_ind' (P : ann -> Prop) : (forall name xy, P (ALine name xy)) -> (forall name l, Forall P l -> P (AGroup name l)) -> forall a, P a.
Proof. intros H1 H2. fix IH 1. intros [name xy|name l]; [apply H1|apply H2]. induction l as [|c r IHr]; constructor; [apply IH|exact IHr]. Qed.
Fixpoint elt_of (a : ann) : elt :=
  match a with
  | ALine name xy => Elt "path" [("d", to_path eqb show xy); ("id", name)]%string []
  | AGroup name l => Elt "g" [("id"%string, name)] (map elt_of l)
  end.
(** texts *)
Lemma char_good p : (forall c, p c = true -> printable c /\ c <> "{") -> forall t, Forall (fun c => p c = true) t -> good_text t.
Proof. intros H t F. eapply Forall_impl; [|exact F]. intros c K. apply H, K. Qed.
Lemma digit_good c : digit c = true -> printable c /\ c <> "{".
Proof. intros H. unfold printable. destruct c as [[] [] [] [] [] [] [] []]; try discriminate H; split; try discriminate; cbn; lia. Qed.
Lemma one_good (c : ascii) : (32 <= code c <= 126)%nat -> c <> "{" -> good_text [c].
Proof. intros H K. constructor; [split; assumption|constructor]. Qed.
Lemma number_good t : number t -> good_text t.
Proof.
  assert (S' : forall s, optsign s -> good_text s).
  { intros s [->|(c & Hc & ->)]; [constructor|]. unfold sign in Hc. rewrite orb_true_iff, !eqb_eq in Hc. destruct Hc as [->| ->]; (apply one_good; [cbn; lia|discriminate]). }
  intros (s & m & e & Hs & Hm & He & ->). unfold good_text. rewrite !Forall_app. split; [apply S', Hs|]. split.
  - destruct Hm as [[_ F]|(a & b & Ha & [_ Fb] & ->)]; [exact (char_good digit digit_good _ F)|]. apply Forall_app. split; [destruct Ha as [->|[_ Fa]]; [constructor|exact (char_good digit digit_good _ Fa)]|]. constructor; [split; [unfold printable; cbn; lia|discriminate]|exact (char_good digit digit_good _ Fb)].
  - destruct He as [->|(c & s' & d & Hc & Hs' & [_ Fd] & ->)]; [constructor|]. constructor; [destruct Hc as [->| ->]; (split; [unfold printable; cbn; lia|discriminate])|]. apply Forall_app. split; [apply S', Hs'|exact (char_good digit digit_good _ Fd)].
Qed.
Lemma join_good l : Forall good_text l -> good_text (join [" "] l).
Proof.
  induction 1 as [|t l H F IH]; [constructor|]. destruct l as [|u l]; [exact H|]. change (join [" "] (t :: u :: l)) with (t ++ [" "] ++ join [" "] (u :: l)). apply Forall_app. split; [exact H|]. apply Forall_app. split; [apply one_good; [cbn; lia|discriminate]|exact IH].
Qed.
Lemma path_good xy : good_text (to_path eqb show xy).
Proof.
  unfold to_path. apply join_good. apply Forall_app. split; [|destruct (closed eqb xy); [constructor; [apply one_good; [cbn; lia|discriminate]|constructor]|constructor]].
  apply Forall_forall. intros t I. apply in_map_iff in I as ([k p] & <- & _). unfold path_command. cbn [fst snd]. apply Forall_app. split; [destruct k as [|[|k]]; [| |constructor]; (constructor; [split; [unfold printable; cbn; lia|discriminate]|apply one_good; [cbn; lia|discriminate]])|].
  unfold show_pt. apply Forall_app. split; [apply number_good, show_number|]. apply Forall_app. split; [apply one_good; [cbn; lia|discriminate]|apply number_good, show_number].
Qed.
Lemma good_printable t : good_text t -> Forall printable t. Proof. intros H. eapply Forall_impl; [|exact H]. intros c [A _]. exact A. Qed.
Lemma good_braces t : good_text t -> Forall (fun c => c <> "{") t. Proof. intros H. eapply Forall_impl; [|exact H]. intros c [_ A]. exact A. Qed.
Ltac plain_name := split; [discriminate|repeat constructor; discriminate].
Ltac is_name := split; [discriminate|repeat constructor].
Lemma build_wf a : good a -> wf (build a).
Proof.
  induction a as [name xy|name l IH] using ann_ind'; intros G.
  - destruct G as (_ & GN & _). change (wf (XElt (T "path") [(T "d", to_path eqb show xy); (T "id", name)] [] [] [])). split; [is_name|]. split; [constructor; [split; [is_name|apply good_printable, path_good]|constructor; [split; [is_name|apply good_printable, GN]|constructor]]|]. split; [|split; [constructor|exact I]].
    cbn [map fst]. constructor; [intros [E|[]]; discriminate E|constructor; [intros []|constructor]].
  - destruct G as (_ & GN & GA). rewrite good_all in GA. cbn [build g_el]. split; [is_name|]. split; [constructor; [split; [is_name|apply good_printable, GN]|constructor]|]. split; [constructor; [intros []|constructor]|]. split; [constructor|]. apply wf_kids. clear - IH GA. induction IH as [|c r HC IH IHr]; [constructor|]. inversion GA; subst. constructor; [apply HC; assumption|apply IHr; assumption].
Qed.
Lemma build_simple a : good a -> simple (build a) (elt_of a).
Proof.
  induction a as [name xy|name l IH] using ann_ind'; intros G.
  - destruct G as (_ & GN & _). change (simple (XElt (T "path") [(T "d", to_path eqb show xy); (T "id", name)] [] [] []) (Elt "path" [("d", to_path eqb show xy); ("id", name)]%string [])). split; [plain_name|]. split; [reflexivity|]. split; [|split; [|exact I]].
    + constructor; [split; [apply name_plain; [plain_name|discriminate]|split; [reflexivity|apply good_braces, path_good]]|]. constructor; [split; [apply name_plain; [plain_name|discriminate]|split; [reflexivity|apply good_braces, GN]]|constructor].
    + cbn [map fst]. constructor; [intros [E|[]]; discriminate E|constructor; [intros []|constructor]].
  - destruct G as (_ & GN & GA). rewrite good_all in GA. cbn [build g_el elt_of]. split; [plain_name|]. split; [reflexivity|]. split; [constructor; [split; [apply name_plain; [plain_name|discriminate]|split; [reflexivity|apply good_braces, GN]]|constructor]|]. split; [constructor; [intros []|constructor]|].
    clear - IH GA. induction IH as [|c r HC IH IHr]; [exact I|]. inversion GA; subst. cbn [map]. split; [apply HC; assumption|apply IHr; assumption].
Qed.
Lemma elt_of_tags a : Forall (fun t => t = "path"%string \/ t = "g"%string) (tags (elt_of a)).
Proof.
  induction a as [name xy|name l IH] using ann_ind'; cbn [elt_of tags].
  - constructor; [left; reflexivity|constructor].
  - constructor; [right; reflexivity|]. rewrite map_map. induction IH as [|c r HC IH IHr]; [constructor|]. cbn [map concat]. apply Forall_app. split; assumption.
Qed.
Lemma build_no_image a : filter (fun e => teqb (xtag e) (T "image")) (xiter (build a)) = [].
Proof.
  induction a as [name xy|name l IH] using ann_ind'; [reflexivity|]. cbn [build g_el xiter filter xtag]. change (teqb (T "g") (T "image")) with false. cbv iota. induction IH as [|c r HC IH IHr]; [reflexivity|]. cbn [map concat]. rewrite filter_app, HC. exact IHr.
Qed.
(** what is drawn *)
Definition agrees (x : list string * list rpt) (d : list string * drawing) : Prop := fst d = fst x /\ placed num (snd d) = Ok (snd x) /\ snd (fst (snd d)) <> "image"%string.
Lemma ename_id tag attrs ch name : find (fun p => String.eqb (fst p) "id") attrs = Some ("id"%string, name) -> name <> [] -> ename (Some "id"%string) (Elt tag attrs ch) = string_of_list_ascii name.
Proof. intros F NE. unfold ename. rewrite F. destruct (string_dec (string_of_list_ascii name) EmptyString) as [E|]; [|reflexivity]. destruct name; [contradiction|discriminate E]. Qed.
Lemma transform_none xy : transform num [] xy = Ok xy. Proof. reflexivity. Qed.
Lemma ann_drawn a : good a -> Forall2 agrees (ann_points a) (under (ename (Some "id"%string) (elt_of a)) (drawn (Some "id"%string) [] (elt_of a))).
Proof.
  induction a as [name xy|name l IH] using ann_ind'; intros G.
  - destruct G as (NE & _ & L). cbn [elt_of]. rewrite (ename_id _ _ _ name) by (reflexivity || exact NE). cbn [drawn]. change (has_points "path") with true. cbv iota. cbn [under map fst snd ann_points]. constructor; [|constructor]. split; [reflexivity|]. split; [|discriminate]. cbn [snd placed]. change (from_element num "path" [("d"%string, to_path eqb show xy); ("id"%string, name)]) with (from_path num Rplus (to_path eqb show xy)). rewrite path_values by exact L. cbn [bind]. apply transform_none.
  - destruct G as (NE & _ & GA). rewrite good_all in GA. cbn [elt_of]. rewrite (ename_id _ _ _ name) by (reflexivity || exact NE). cbn [drawn ann_points]. change (has_points "g") with false. change (is_group "g") with true. cbv iota. change (@nil ascii ++ own [("id"%string, name)]) with (@nil ascii).
    assert (F : Forall2 agrees (concat (map ann_points l)) (concat (map (fun c => under (ename (Some "id"%string) c) (drawn (Some "id"%string) [] c)) (map elt_of l)))).
    { clear - IH GA. induction IH as [|c r HC IH IHr]; [constructor|]. inversion GA; subst. cbn [map concat]. apply Forall2_app; [apply HC; assumption|apply IHr; assumption]. }
    revert F. generalize (concat (map ann_points l)) (concat (map (fun c => under (ename (Some "id"%string) c) (drawn (Some "id"%string) [] c)) (map elt_of l))). intros l1 l2 F. induction F as [|x d l1 l2 (A & B & C) F IHF]; [constructor|]. cbn [under map]. constructor; [split; [cbn [fst]; rewrite A; reflexivity|split; [exact B|exact C]]|exact IHF].
Qed.
Lemma agrees_at path l1 l2 : Forall2 agrees l1 l2 -> Forall2 (fun xy d => placed num d = Ok xy) (at_ path l1) (at_ path l2).
Proof. induction 1 as [|[p xy] [p' d] l1 l2 (A & B & _) F IH]; [constructor|]. cbn [fst snd] in *. subst p'. unfold at_ in *. cbn [filter fst]. destruct (list_eq_dec string_dec p path); [cbn [map snd]; constructor; assumption|exact IH]. Qed.
Lemma see_agrees l1 l2 img : Forall2 agrees l1 l2 -> fold_left (see num) l2 img = img.
Proof. induction 1 as [|x [p [[tf tag] attrs]] l1 l2 (A & B & C) F IH]; [reflexivity|]. cbn [fold_left]. rewrite <- IH at 2. f_equal. unfold see. cbn [fst snd] in *. destruct (String.eqb_spec tag "image"); [contradiction|reflexivity]. Qed.
Definition image_elt (w h : N) (href : text) : elt := Elt "image" ([("height", show h); ("width", show w)]%string ++ match href with [] => [] | _ => [("href"%string, href)] end) [].
(** Annotations of an image, written as a document with any indentation of blanks and read with their names, are the same points under the same names, in image coordinates of the size asked for. *)
Theorem annotations_round_trip : forall w h href l i imgsz, (0 < emb w)%R -> (0 < emb h)%R -> good_text href -> Forall good l -> blank_tab i ->
  let (nx, ny) := match imgsz with Some s => s | None => (emb w, emb h) end in
  exists v, read_text num (Some "id"%string) imgsz (write (document w h href l) i) = Ok v /\
    forall path, path <> ["image"%string] -> at_ path (leaves v) = map (map (fun p => (fst p * (nx / emb w), snd p * (ny / emb h))%R)) (at_ path (concat (map ann_points l))).
Proof.
  intros w h href l i imgsz PW PH GH GA BT.
  assert (SN : forall x, exists c t, show x = c :: t) by (intros x; pose proof (number_nonempty _ (show_number x)); destruct (show x) as [|c t]; [contradiction|eexists _, _; reflexivity]).
  set (im := image_el (show w) (show h) href []).
  assert (IM : im = XElt (T "image") ([(T "height", show h); (T "width", show w)] ++ match href with [] => [] | _ => [(T "xlink:href", href)] end) [] [] []) by (unfold im, image_el; destruct href; reflexivity).
  assert (RT : root [(T "height", show h); (T "width", show w)] (im :: map build l) (document w h href l)).
  { unfold document. fold im. unfold svg_el. cbn [lookup map concat]. rewrite filter_app.
    assert (Z : filter (fun e => teqb (xtag e) (T "image")) (concat (map xiter (map build l))) = []) by (clear; induction l as [|a r IH]; [reflexivity|]; cbn [map concat]; rewrite filter_app, build_no_image; exact IH). rewrite Z, app_nil_r.
    assert (Z2 : filter (fun e => teqb (xtag e) (T "image")) (xiter im) = [im]) by (rewrite IM; reflexivity). rewrite Z2. cbn [rev app].
    assert (L1 : lookup (T "width") (xattrs im) = Some (show w)) by (rewrite IM; reflexivity). assert (L2 : lookup (T "height") (xattrs im) = Some (show h)) by (rewrite IM; reflexivity). rewrite L1, L2.
    destruct (SN w) as (c & t & ->), (SN h) as (c' & t' & ->). exists [], []. reflexivity. }
  assert (WF : wf (document w h href l)).
  { destruct RT as (txt & tail & E). assert (txt = [] /\ tail = []) as [-> ->] by (split; injection E; intros; congruence). rewrite E. split; [is_name|]. split; [|split; [|split; [constructor|]]].
    - constructor; [split; [is_name|apply good_printable, number_good, show_number]|]. constructor; [split; [is_name|apply good_printable, number_good, show_number]|]. constructor; [split; [is_name|repeat (constructor; [unfold printable; cbn; lia|]); constructor]|]. constructor; [split; [is_name|repeat (constructor; [unfold printable; cbn; lia|]); constructor]|constructor].
    - cbn [map fst app]. repeat (constructor; [intros K; repeat destruct K as [K|K]; discriminate K || destruct K|]). constructor.
    - rewrite wf_kids. constructor.
      + rewrite IM. split; [is_name|]. split; [|split; [|split; [constructor|exact I]]].
        * constructor; [split; [is_name|apply good_printable, number_good, show_number]|]. constructor; [split; [is_name|apply good_printable, number_good, show_number]|]. destruct href as [|c t]; constructor; [split; [is_name|apply good_printable, GH]|constructor].
        * destruct href; cbn [map fst app]; repeat (constructor; [intros K; repeat destruct K as [K|K]; discriminate K || destruct K|]); constructor.
      + apply Forall_map. eapply Forall_impl; [|exact GA]. apply build_wf. }
  assert (XT : Forall (fun c => space c = true) (xtail (document w h href l))) by constructor.
  assert (SA : simple_attrs [(T "height", show h); (T "width", show w)] [("height", show h); ("width", show w)]%string).
  { split; [constructor; [split; [apply name_plain; [plain_name|discriminate]|split; [reflexivity|apply good_braces, number_good, show_number]]|]; constructor; [split; [apply name_plain; [plain_name|discriminate]|split; [reflexivity|apply good_braces, number_good, show_number]]|constructor]|]. constructor; [intros [E|[]]; discriminate E|constructor; [intros []|constructor]]. }
  assert (SK : Forall2 simple (im :: map build l) (image_elt w h href :: map elt_of l)).
  { constructor.
    - rewrite IM. unfold image_elt. split; [plain_name|]. split; [reflexivity|]. split; [|split; [|exact I]].
      + constructor; [split; [apply name_plain; [plain_name|discriminate]|split; [reflexivity|apply good_braces, number_good, show_number]]|]. constructor; [split; [apply name_plain; [plain_name|discriminate]|split; [reflexivity|apply good_braces, number_good, show_number]]|].
        destruct href as [|c t]; constructor; [split; [exact (name_xlink (T "href") ltac:(plain_name))|split; [reflexivity|apply good_braces, GH]]|constructor].
      + destruct href; cbn [map fst app]; repeat (constructor; [intros K; repeat destruct K as [K|K]; discriminate K || destruct K|]); constructor.
    - clear - GA show_number. induction GA as [|a r G F IH]; [constructor|]. cbn [map]. constructor; [apply build_simple, G|exact IH]. }
  assert (NS : ~ In "svg"%string (concat (map tags (image_elt w h href :: map elt_of l)))).
  { cbn [map concat]. intros K. apply in_app_or in K as [[K|K]|K]; [discriminate K|destruct K|]. clear - K. induction l as [|a r IH]; [contradiction|]. cbn [map concat] in K. apply in_app_or in K as [K|K]; [|exact (IH K)]. pose proof (elt_of_tags a) as F. rewrite Forall_forall in F. destruct (F _ K) as [E|E]; discriminate E. }
  assert (II : In "image"%string (concat (map tags (image_elt w h href :: map elt_of l)))) by (left; reflexivity).
  rewrite (read_written num (Some "id"%string) imgsz i _ _ _ _ _ RT WF XT BT SA SK NS II). set (e := Elt "svg" [("height", show h); ("width", show w)]%string (image_elt w h href :: map elt_of l)).
  set (iattrs := [("height", show h); ("width", show w)]%string ++ match href with [] => [] | _ => [("href"%string, href)] end).
  assert (DR : drawn (Some "id"%string) [] e = (["image"%string], ([], "image"%string, iattrs)) :: concat (map (fun c => under (ename (Some "id"%string) c) (drawn (Some "id"%string) [] c)) (map elt_of l))).
  { unfold e. cbn [drawn]. change (has_points "svg") with false. change (is_group "svg") with true. cbv iota. change (@nil ascii ++ own [("height", show h); ("width", show w)]%string) with (@nil ascii). cbn [map concat]. unfold image_elt. fold iattrs. cbn [drawn]. change (has_points "image") with true. cbv iota. cbn [under map fst snd app].
    assert (EN : ename (Some "id"%string) (Elt "image" iattrs []) = "image"%string) by (unfold iattrs; destruct href; reflexivity). rewrite EN. assert (OW : own iattrs = []) by (unfold iattrs; destruct href; reflexivity). rewrite OW. reflexivity. }
  assert (FD : Forall2 agrees (concat (map ann_points l)) (concat (map (fun c => under (ename (Some "id"%string) c) (drawn (Some "id"%string) [] c)) (map elt_of l)))).
  { clear - GA num_show show_number eqb_emb. induction GA as [|a r G F IH]; [constructor|]. cbn [map concat]. apply Forall2_app; [apply ann_drawn, G|exact IH]. }
  assert (FI : from_element num "image" iattrs = Ok (rect Rplus (emb w) (emb h) 0%R 0%R)).
  { rewrite <- (num_show w), <- (num_show h), <- num_zero. unfold iattrs. destruct href; reflexivity. }
  assert (BB : rbbox (rect Rplus (emb w) (emb h) 0%R 0%R) = Some (0, 0, emb w, emb h)%R) by (apply rect_bbox_R; lra).
  assert (LI : last_image num (Some "id"%string) e = Some ((0, 0, emb w, emb h), (0, 0, emb w, emb h))%R).
  { unfold last_image. rewrite DR. cbn [fold_left]. assert (SE : see num None (["image"%string], ([], "image"%string, iattrs)) = Some ((0, 0, emb w, emb h), (0, 0, emb w, emb h))%R) by (unfold see; cbn [snd]; change (String.eqb "image" "image") with true; cbv iota; rewrite FI, transform_none, BB; reflexivity). rewrite SE. exact (see_agrees _ _ _ FD). }
  destruct (match imgsz with Some s => s | None => (emb w, emb h) end) as [nx ny] eqn:EZ.
  destruct (read_elements num (Some "id"%string) imgsz e) as (v & RV & AT).
  - rewrite DR. constructor; [eexists; cbn [snd placed]; rewrite FI; cbn [bind]; apply transform_none|]. clear - FD. induction FD as [|x d l1 l2 (A & B & C) F IH]; [constructor|]. constructor; [exists (snd x); exact B|exact IH].
  - rewrite LI. cbn [positive_image]. split; lra.
  - intros _. right. left. reflexivity.
  - exists v. split; [exact RV|]. intros path NP. specialize (AT path). rewrite DR, LI in AT. unfold at_ at 2 in AT. cbn [filter fst] in AT. destruct (list_eq_dec string_dec ["image"%string] path) as [E|_]; [congruence|]. fold (at_ path (concat (map (fun c => under (ename (Some "id"%string) c) (drawn (Some "id"%string) [] c)) (map elt_of l)))) in AT.
    pose proof (agrees_at path _ _ FD) as AG. revert AT AG. generalize (at_ path (leaves v)) (at_ path (concat (map ann_points l))) (at_ path (concat (map (fun c => under (ename (Some "id"%string) c) (drawn (Some "id"%string) [] c)) (map elt_of l)))). intros L1 L2 L3 AT AG.
    revert L2 AG. induction AT as [|xy d L1 L3 (xy0 & P & ->) AT IH]; intros L2 AG; inversion AG as [|xy1 ? L2' ? Q AG']; subst; [reflexivity|]. cbn [map]. f_equal; [|apply IH, AG']. rewrite P in Q. injection Q as <-. apply map_ext. intros [x y]. unfold to_image. rewrite EZ. cbn [fst snd]. f_equal; ring.
Qed.
End Annotations.
Print Assumptions annotations_round_trip.

(** ** Attributes of the constructors *)
Lemma lookup_put k k' v d : lookup k (put k' v d) = if teqb k k' then Some v else lookup k d.
Proof.
  induction d as [|[a b] d IH]; cbn [put lookup]; [destruct (teqb k k'); reflexivity|]. destruct (teqb_spec k' a) as [->|NE]; cbn [lookup].
  - destruct (teqb_spec k a) as [->|]; [reflexivity|reflexivity].
  - destruct (teqb_spec k a) as [->|]; [destruct (teqb_spec a k') as [->|]; [contradiction|reflexivity]|exact IH].
Qed.
Lemma lookup_update k d' : forall d, NoDup (map fst d') -> lookup k (update d d') = match lookup k d' with Some v => Some v | None => lookup k d end.
Proof.
  unfold update. induction d' as [|[a b] d' IH]; intros d ND; [reflexivity|]. inversion ND as [|? ? NI ND']; subst. cbn [fold_left fst snd lookup]. rewrite IH by exact ND'. rewrite lookup_put. destruct (teqb_spec k a) as [->|]; [|reflexivity].
  assert (Z : lookup a d' = None); [|rewrite Z; reflexivity]. clear - NI. induction d' as [|[x y] d' IH]; [reflexivity|]. cbn [lookup]. destruct (teqb_spec a x) as [->|]; [exfalso; apply NI; left; reflexivity|]. apply IH. intros H. apply NI. right. exact H.
Qed.
(** the last image of a document *)
Definition last_xelt (tag : text) (l : list xelt) (e : xelt) : Prop := exists pre post, l = pre ++ e :: post /\ xtag e = tag /\ forall e', In e' post -> xtag e' <> tag.
(** An svg element has the attributes given; if neither width nor height are given, those of the last image, if it has both. *)
Theorem svg_attributes : forall children attrib k, NoDup (map fst attrib) -> k <> T "xmlns" -> k <> T "xmlns:xlink" ->
  let got := lookup k (xattrs (svg_el children attrib)) in
  xkids (svg_el children attrib) = children /\ (forall v, lookup k attrib = Some v -> got = Some v) /\
  (lookup k attrib = None -> k <> T "width" -> k <> T "height" -> got = None) /\
  (lookup (T "width") attrib <> None \/ lookup (T "height") attrib <> None -> got = lookup k attrib) /\
  (lookup (T "width") attrib = None -> lookup (T "height") attrib = None -> k = T "width" \/ k = T "height" ->
    forall im w h, last_xelt (T "image") (concat (map xiter children)) im -> lookup (T "width") (xattrs im) = Some w -> lookup (T "height") (xattrs im) = Some h -> w <> [] -> h <> [] -> got = lookup k (xattrs im)).
Proof.
  intros children attrib k ND N1 N2 got. set (chosen := match lookup (T "width") attrib, lookup (T "height") attrib, rev (filter (fun e => teqb (xtag e) (T "image")) (concat (map xiter children))) with
                | None, None, im :: _ =>
                  match lookup (T "width") (xattrs im), lookup (T "height") (xattrs im) with
                  | Some ((_ :: _) as w), Some ((_ :: _) as h) => update [(T "height", h); (T "width", w)] attrib
                  | _, _ => attrib
                  end
                | _, _, _ => attrib
                end).
  assert (GE : got = lookup k chosen).
  { unfold got, svg_el. fold chosen. cbn [xattrs]. rewrite lookup_update by (cbn; constructor; [intros [E|[]]; discriminate E|constructor; [intros []|constructor]]). cbn [lookup]. destruct (teqb_spec k (T "xmlns")); [contradiction|]. destruct (teqb_spec k (T "xmlns:xlink")); [contradiction|]. reflexivity. }
  assert (CC : chosen = attrib \/ exists w h, chosen = update [(T "height", h); (T "width", w)] attrib /\ lookup (T "width") attrib = None /\ lookup (T "height") attrib = None).
  { unfold chosen. destruct (lookup (T "width") attrib); [left; reflexivity|]. destruct (lookup (T "height") attrib); [left; reflexivity|]. destruct (rev _) as [|im r]; [left; reflexivity|]. destruct (lookup (T "width") (xattrs im)) as [[|]|]; try (left; reflexivity). destruct (lookup (T "height") (xattrs im)) as [[|]|]; try (left; reflexivity). right. eexists _, _. split; [reflexivity|split; reflexivity]. }
  split; [reflexivity|]. split; [|split; [|split]].
  - intros v E. rewrite GE. destruct CC as [->|(w & h & -> & _)]; [exact E|]. rewrite lookup_update by exact ND. rewrite E. reflexivity.
  - intros E W H. rewrite GE. destruct CC as [->|(w & h & -> & _)]; [exact E|]. rewrite lookup_update by exact ND. rewrite E. cbn [lookup]. destruct (teqb_spec k (T "height")); [contradiction|]. destruct (teqb_spec k (T "width")); [contradiction|]. reflexivity.
  - intros G. rewrite GE. destruct CC as [->|(w & h & _ & A & B)]; [reflexivity|]. destruct G as [G|G]; contradiction.
  - intros W H K im w h (pre & post & E & TI & NP) LW LH NW NH. rewrite GE. unfold chosen. rewrite W, H, E, filter_app. cbn [filter]. rewrite TI, teqb_refl.
    assert (Z : filter (fun e => teqb (xtag e) (T "image")) post = []).
    { clear - NP. induction post as [|e post IH]; [reflexivity|]. cbn [filter]. destruct (teqb_spec (xtag e) (T "image")) as [X|]; [exfalso; exact (NP e (or_introl eq_refl) X)|]. apply IH. intros e' I. apply NP. right. exact I. }
    rewrite Z, rev_app_distr. cbn [rev app]. rewrite LW, LH. destruct w as [|c w]; [contradiction|]. destruct h as [|d h]; [contradiction|]. rewrite lookup_update by exact ND. destruct K as [-> | ->]; [rewrite W, LW|rewrite H, LH]; reflexivity.
Qed.
Print Assumptions svg_attributes.
(** Finding: braces and what is between them are removed not only from names but also from values, so that e.g. names of annotations change when they are read, and can become equal. *)
Theorem braces_refuted : forall a b c, Forall (fun x => x <> "{") a -> Forall (fun x => x <> "010") b -> Forall (fun x => x <> "{" /\ x <> "}") c -> strip_braces (a ++ "{" :: b ++ "}" :: c) = a ++ c.
Proof.
  intros a b c A B C. unfold strip_braces. induction A as [|x a X A IH]; cbn [app length strip_braces_].
  - change (Ascii.eqb "{" "{") with true. cbv iota. rewrite last_brace_some; [|exact B|eapply Forall_impl; [|exact C]; intros y [_ Y]; exact Y]. apply strip_none; [eapply Forall_impl; [|exact C]; intros y [Y _]; exact Y|]. rewrite app_length. cbn [length]. lia.
  - destruct (Ascii.eqb_spec x "{"); [contradiction|]. rewrite IH. reflexivity.
Qed.
Print Assumptions braces_refuted.
(** integers, and a document of a horizon in a group *)
Definition ex_anns : list (@ann Z) := [AGroup (T "horizon") [ALine (T "left") [(0, 1); (2, 3)]%Z; ALine (T "right") [(4, 5); (6, 7); (4, 5)]%Z]; ALine (T "coast") [(1, 1); (-2, 2)]%Z].
Example annotations_ex : exists v, read_text num_R (Some "id"%string) None (write (document show_Z Z.eqb 12%Z 8%Z (T "a&b.jpg") ex_anns) (Spaces 4)) = Ok v /\ at_ ["horizon"; "right"]%string (leaves v) = [[(4, 5); (6, 7); (4, 5)]]%R.
Proof.
  destruct (annotations_round_trip show_Z Z.eqb IZR num_R (fun x => f_equal IZR (num_show_Z x)) show_Z_number (fun x y E => f_equal IZR (proj1 (Z.eqb_eq x y) E)) eq_refl 12%Z 8%Z (T "a&b.jpg") ex_anns (Spaces 4) None) as (v & E & A).
  - lra.
  - lra.
  - repeat (constructor; [split; [unfold printable; cbn; lia|discriminate]|]); constructor.
  - repeat (constructor || split || discriminate); cbn; lia.
  - repeat constructor.
  - exists v. split; [exact E|]. rewrite (A ["horizon"; "right"]%string) by discriminate. cbn. repeat (f_equal; try lra).
Qed.
Example write_ex : write (document show_Z Z.eqb 12%Z 8%Z (T "a&b.jpg") [ALine (T "coast") [(1, 1); (-2, 2)]%Z]) NoIndent =
  T "<svg height=""8"" width=""12"" xmlns=""http://www.w3.org/2000/svg"" xmlns:xlink=""http://www.w3.org/1999/xlink""><image height=""8"" width=""12"" xlink:href=""a&amp;b.jpg"" /><path d=""M 1,1 L -2,2"" id=""coast"" /></svg>".
Proof. reflexivity. Qed.

(** Errors of read: what is not XML with known prefixes is a parse error; a document without exactly one svg element, and an image size for a document without image, are refused with ValueError. *)
Definition named (tag : string) (e : xelt) : Prop := xtag e = T tag.
Definition count_named (tag : string) (l : list xelt) (n : nat) : Prop := exists found, length found = n /\ (forall e, In e found -> named tag e) /\ exists others, (forall e, In e others -> ~ named tag e) /\ Permutation.Permutation l (found ++ others).
Lemma count_filter tag l n : count_named tag l n -> length (filter (fun e => teqb (xtag e) (T tag)) l) = n.
Proof.
  intros (fd & <- & F & ot & O & P). assert (PF : Permutation.Permutation (filter (fun e => teqb (xtag e) (T tag)) l) (filter (fun e => teqb (xtag e) (T tag)) (fd ++ ot))).
  { clear F O. induction P; cbn [filter]; [constructor| | |eauto using Permutation.perm_trans]; repeat match goal with |- context [if ?b then _ else _] => destruct b end; auto using Permutation.perm_skip, Permutation.perm_swap. }
  rewrite (Permutation.Permutation_length PF), filter_app, app_length. clear P PF.
  replace (filter (fun e => teqb (xtag e) (T tag)) ot) with (@nil xelt).
  - rewrite Nat.add_0_r. induction fd as [|x fd IH]; [reflexivity|]. cbn [filter]. destruct (teqb_spec (xtag x) (T tag)) as [_|N]; [cbn [length]; f_equal; apply IH; intros e I; apply F; right; exact I|exfalso; exact (N (F x (or_introl eq_refl)))].
  - induction ot as [|x ot IH]; [reflexivity|]. cbn [filter]. destruct (teqb_spec (xtag x) (T tag)) as [N|_]; [exfalso; exact (O x (or_introl eq_refl) N)|]. apply IH. intros e I; apply O; right; exact I.
Qed.
Theorem read_errors : forall num key imgsz l,
  (parse_xml l = None -> read_text num key imgsz l = Err OtherError) /\
  (forall e, parse_xml l = Some e -> resolve xml_env e = None -> read_text num key imgsz l = Err OtherError) /\
  (forall e e' n, parse_xml l = Some e -> resolve xml_env e = Some e' -> count_named "svg" (xiter (strip_ns e')) n ->
    (n <> 1%nat -> read_text num key imgsz l = Err ValueError) /\
    (imgsz <> None -> count_named "image" (xiter (strip_ns e')) 0 -> read_text num key imgsz l = Err ValueError)).
Proof.
  intros num0 key imgsz l. unfold read_text. split; [intros ->; reflexivity|]. split; [intros e -> ->; reflexivity|]. intros e e' n -> -> C. apply count_filter in C. cbv zeta. split.
  - intros N. destruct (filter _ _) as [|a [|b r]]; [reflexivity|cbn in C; congruence|reflexivity].
  - intros NI CI. apply count_filter in CI. destruct (filter (fun e => teqb (xtag e) (T "svg")) _) as [|a [|b r]]; [reflexivity| |reflexivity]. destruct imgsz as [s|]; [|congruence]. destruct (filter (fun e => teqb (xtag e) (T "image")) _) as [|c r]; [reflexivity|discriminate CI].
Qed.
Print Assumptions read_errors.
Example read_errors_ex : read_text (fun _ => 0%R) None None (T "<g/>") = Err ValueError /\ read_text (fun _ => 0%R) None (Some (1, 1)%R) (T "<svg><g/></svg>") = Err ValueError /\ read_text (fun _ => 0%R) None None (T "<svg>") = Err OtherError.
Proof. repeat split; vm_compute; reflexivity. Qed.
