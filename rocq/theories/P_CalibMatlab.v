(** C108: reports of the Matlab calibration toolbox (Matlab.from_report). *)
From Coq Require Import String Ascii.
From Verif Require Import Base BaseLemmas HelpersModel CameraModel ConvertModel SvgModel SvgDocModel CalibModel RegexProofs P_CalibXml P_CalibXml2 CalibMatlabProofs.
Notation length := List.length.
Open Scope char_scope.

Lemma tail_semi n l g rest : matched (Star true dot :: tail_pattern n) l g rest -> exists p q, l = p ++ ";" :: q.
Proof.
  revert l g; induction n as [|n IH]; intros l g; change (tail_pattern 0) with [Lit (T " ];")] || change (tail_pattern (S n)) with (Lit (T " ; ") :: Star true dot :: tail_pattern n); cbn [matched].
  - intros (a & l' & g' & -> & _ & _ & l2 & -> & _). exists (a ++ T " ]"), l2. now rewrite <- app_assoc.
  - intros (a & l' & g' & -> & _ & _ & l2 & -> & H). exists (a ++ [" "]), (" " :: l2). now rewrite <- app_assoc.
Qed.
Lemma scalar_line key l : key_ok key -> line_ok l -> refindall (ml_pattern key 1) (written l) = map (fun v => [v]) (scalars_in key l).
Proof.
  intros K L. change (ml_pattern key 1) with (Lit (key ++ T " = " ++ []) :: [Star true dot; Lit [";"]]).
  assert (M : forall u post, ~ In nl u -> ~ In nl post -> ~ In ";" post -> rmatch (Lit (key ++ T " = " ++ []) :: [Star true dot; Lit [";"]]) (key ++ T " = " ++ u ++ ";" :: post) = Some ([u], post)).
  { intros u post H1 H2 H3. cbn [rmatch]. change (T " = " ++ []) with (T " = "). rewrite (app_assoc key (T " = ")), strip_prefix_app. now apply scalar_match. }
  destruct l as [name v c|name vs c|t]; cbn [written scalars_in line_ok] in *.
  - destruct L as ((L1 & _) & (L2 & L3 & L4) & L5 & L6). change (v ++ [";"] ++ c) with (v ++ ";" :: c). rewrite (statement _ _ _ K scalar_semi _ _ _ L1 L3 L5).
    + rewrite (M _ _ L4 L6 L5). destruct (ends_with key name); reflexivity.
    + intros g rest. rewrite (M _ _ L4 L6 L5). now intros [= <- <-].
  - destruct L as ((L1 & _) & (_ & L2) & L5 & L6). set (u := T "[ " ++ semicolons vs ++ T " ]").
    replace (name ++ T " = [ " ++ semicolons vs ++ T " ];" ++ c) with (name ++ T " = " ++ u ++ ";" :: c) by (unfold u; rewrite <- !app_assoc; reflexivity).
    assert (U : forall ch, ch <> " " /\ ch <> ";" -> ch <> "[" -> ch <> "]" -> (forall v, In v vs -> ~ In ch v) -> ~ In ch u).
    { intros ch N1 N2 N3 H C. unfold u in C. rewrite !in_app_iff in C. destruct C as [C|[C|C]]; [cbn in C; intuition congruence | revert C; now apply semicolons_no | cbn in C; intuition congruence]. }
    assert (L3 : ~ In "=" u) by (apply U; [split | | | intros v Hv; destruct (L2 v Hv) as (? & ? & ?)]; try discriminate; assumption).
    assert (L4 : ~ In nl u) by (apply U; [split | | | intros v Hv; destruct (L2 v Hv) as (? & ? & ?)]; try discriminate; assumption).
    rewrite (statement _ _ _ K scalar_semi _ _ _ L1 L3 L5).
    + rewrite (M _ _ L4 L6 L5). destruct (ends_with key name); reflexivity.
    + intros g rest. rewrite (M _ _ L4 L6 L5). now intros [= <- <-].
  - destruct L as (_ & [H|H]); [now apply (nothing _ _ _ scalar_semi) | now apply (nothing_eq _ _ _ scalar_semi)].
Qed.
Lemma vector_line key n l : key_ok key -> line_ok l -> refindall (ml_pattern key (S (S n))) (written l) = vectors_in key (S (S n)) l.
Proof.
  intros K L. replace (ml_pattern key (S (S n))) with (Lit (key ++ T " = " ++ T "[ ") :: Star true dot :: tail_pattern (S n)) by reflexivity. set (r := Star true dot :: tail_pattern (S n)).
  pose proof (tail_semi (S n)) as TS. fold r in TS.
  destruct l as [name v c|name vs c|t]; cbn [written vectors_in line_ok] in *.
  - destruct L as ((L1 & _) & (L2 & L3 & L4) & L5 & L6). change (v ++ [";"] ++ c) with (v ++ ";" :: c).
    assert (M : rmatch (Lit (key ++ T " = " ++ T "[ ") :: r) (key ++ T " = " ++ v ++ ";" :: c) = None).
    { destruct (rmatch _ _) as [[g rest]|] eqn:E; [|reflexivity]. exfalso. apply rmatch_matched in E. cbn [matched] in E. destruct E as (l & E & E2). rewrite <- app_assoc in E. apply app_inv_head in E. change (T " = " ++ T "[ ") with (T " = [ ") in E.
      change (T " = " ++ v ++ ";" :: c) with (T " = " ++ (v ++ ";" :: c)) in E. change (T " = [ " ++ l) with (T " = " ++ (T "[ " ++ l)) in E. apply app_inv_head in E.
      unfold r in E2. change (tail_pattern (S n)) with (Lit (T " ; ") :: Star true dot :: tail_pattern n) in E2. cbn [matched] in E2. destruct E2 as (a & l' & g' & -> & _ & _ & l2 & -> & E2).
      change (exists (a : text) l' g', l2 = a ++ l' /\ forallb dot a = true /\ g' = a :: g' /\ matched (tail_pattern n) l' g' rest) with (exists (a : text) l' g', l2 = a ++ l' /\ forallb dot a = true /\ g' = a :: g' /\ matched (tail_pattern n) l' g' rest) in E2.
      assert (H : exists p q, l2 = p ++ ";" :: q) by (apply (tail_semi n l2 g' rest); exact E2). destruct H as (p & q & ->).
      replace (T "[ " ++ a ++ T " ; " ++ p ++ ";" :: q) with ((T "[ " ++ a ++ T " ; " ++ p) ++ ";" :: q) in E by (rewrite <- !app_assoc; reflexivity). apply before_last in E as [z ->]; [|exact L5].
      apply L2. rewrite !in_app_iff. left. right. right. left. cbn. tauto. }
    rewrite (statement _ _ _ K TS _ _ _ L1 L3 L5); rewrite M; [destruct (ends_with key name); reflexivity | discriminate].
  - destruct L as ((L1 & _) & (L0 & L2) & L5 & L6). set (u := T "[ " ++ semicolons vs ++ T " ]").
    replace (name ++ T " = [ " ++ semicolons vs ++ T " ];" ++ c) with (name ++ T " = " ++ u ++ ";" :: c) by (unfold u; rewrite <- !app_assoc; reflexivity).
    assert (L3 : ~ In "=" u). { intros C. unfold u in C. rewrite !in_app_iff in C. destruct C as [C|[C|C]]; [cbn in C; intuition congruence | revert C; apply semicolons_no; [split; discriminate | intros v Hv; apply (L2 v Hv)] | cbn in C; intuition congruence]. }
    assert (M : rmatch (Lit (key ++ T " = " ++ T "[ ") :: r) (key ++ T " = " ++ u ++ ";" :: c) = if (S (S n) <=? length vs)%nat then Some (groups (S (S n)) vs, c) else None).
    { replace (key ++ T " = " ++ u ++ ";" :: c) with ((key ++ T " = " ++ T "[ ") ++ semicolons vs ++ T " ];" ++ c) by (unfold u; rewrite <- !app_assoc; reflexivity).
      change (rmatch (Lit (key ++ T " = " ++ T "[ ") :: r) ((key ++ T " = " ++ T "[ ") ++ semicolons vs ++ T " ];" ++ c)) with
        (match strip_prefix (key ++ T " = " ++ T "[ ") ((key ++ T " = " ++ T "[ ") ++ semicolons vs ++ T " ];" ++ c) with Some l => rmatch r l | None => None end).
      rewrite strip_prefix_app. apply vector_match; [exact L0 | intros v Hv; split; apply (L2 v Hv) | exact L5 | exact L6]. }
    rewrite (statement _ _ _ K TS _ _ _ L1 L3 L5).
    + rewrite M. destruct (ends_with key name); [|reflexivity]. destruct (S (S n) <=? length vs)%nat; reflexivity.
    + intros g rest. rewrite M. destruct (S (S n) <=? length vs)%nat; [now intros [= <- <-] | discriminate].
  - destruct L as (_ & [H|H]); [now apply (nothing _ _ _ TS) | now apply (nothing_eq _ _ _ TS)].
Qed.
Lemma pattern_in_line key n : key_ok key -> Forall in_line (ml_pattern key n).
Proof.
  intros (_ & _ & _ & K & _). assert (A1 : forall t, ~ In nl t -> ~ In nl (key ++ t)) by (intros t Ht C; apply in_app_or in C as [C|C]; auto).
  assert (A2 : forall m, Forall in_line (more_groups m)) by (induction m as [|m IH]; cbn [more_groups]; repeat constructor; [cbn; intuition discriminate | exact IH]).
  assert (A3 : Forall in_line (Lit (key ++ T " = [ ") :: Star true dot :: more_groups (n - 1) ++ [Lit (T " ];")])).
  { constructor; [apply A1; cbn; intuition discriminate|]. constructor; [reflexivity|]. apply Forall_app. split; [apply A2|]. constructor; [cbn; intuition discriminate | constructor]. }
  unfold ml_pattern. destruct n as [|[|n]]; [exact A3 | | exact A3].
  constructor; [apply A1; cbn; intuition discriminate|]. constructor; [reflexivity|]. constructor; [cbn; intuition discriminate | constructor].
Qed.
Lemma pattern_first key n : key_ok key -> lit_first (ml_pattern key n).
Proof. intros (K & _). destruct key; [congruence|]. destruct n as [|[|n]]; exact I. Qed.
Lemma scalars_report key ls : key_ok key -> Forall line_ok ls -> concat (refindall (ml_pattern key 1) (report ls)) = concat (map (scalars_in key) ls).
Proof.
  intros K L. unfold report. replace (map (fun l => written l ++ [nl]) ls) with (map (fun t => t ++ [nl]) (map written ls)) by (now rewrite map_map). rewrite (find_lines _ (pattern_first key 1 K) (pattern_in_line key 1 K)), map_map.
  induction L as [|l ls Hl L IH]; [reflexivity|]. cbn [map concat]. rewrite (scalar_line _ _ K Hl), concat_app, IH. f_equal. induction (scalars_in key l) as [|v q IHq]; [reflexivity|]. cbn. now rewrite IHq.
Qed.
Lemma vectors_report key n ls : key_ok key -> Forall line_ok ls -> refindall (ml_pattern key (S (S n))) (report ls) = concat (map (vectors_in key (S (S n))) ls).
Proof.
  intros K L. unfold report. replace (map (fun l => written l ++ [nl]) ls) with (map (fun t => t ++ [nl]) (map written ls)) by (now rewrite map_map). rewrite (find_lines _ (pattern_first key _ K) (pattern_in_line key _ K)), map_map.
  induction L as [|l ls Hl L IH]; [reflexivity|]. cbn [map concat]. now rewrite (vector_line _ _ _ K Hl), IH.
Qed.

(** ** Specification *)
(** a statement about the variable: its name ends with the key *)
Definition about (k : string) (l : line) : Prop := match l with Scalar name _ _ | Vector name _ _ => exists p, name = p ++ T k | Other _ => False end.
(** the only statement about a variable gives it that value *)
Definition only_scalar (ls : list line) (k : string) (v : text) : Prop :=
  exists before name c after, ls = before ++ Scalar name v c :: after /\ about k (Scalar name v c) /\ forall l, In l before \/ In l after -> ~ about k l.
(** the first statement about a variable that gives it a vector gives it these values *)
Definition first_vector (ls : list line) (k : string) (vs : list text) : Prop :=
  exists before name c after, ls = before ++ Vector name vs c :: after /\ about k (Vector name vs c) /\ forall n' vs' c', In (Vector n' vs' c') before -> ~ about k (Vector n' vs' c').
(** the numbers are read, and divided by 3 if they are error bounds *)
Definition numbers_of (rf : text -> result R) (sigmas : bool) (vs : list text) (xs : list R) : Prop :=
  exists ys, mapM rf vs = Ok ys /\ xs = map (fun y => if sigmas then (y / 3)%R else y) ys.

Lemma about_ends k name : ends_with (T k) name = true <-> exists p, name = p ++ T k. Proof. apply ends_with_true. Qed.
Lemma scalars_about k l : ~ about k l -> scalars_in (T k) l = [].
Proof. destruct l as [name v c|name vs c|t]; cbn; intros H; try reflexivity; destruct (ends_with (T k) name) eqn:E; try reflexivity; apply about_ends in E; contradiction. Qed.
Lemma scalars_about_list k ls : (forall l, In l ls -> ~ about k l) -> concat (map (scalars_in (T k)) ls) = [].
Proof. induction ls as [|l ls IH]; intros H; [reflexivity|]. cbn [map concat]. rewrite (scalars_about _ _ (H l (or_introl eq_refl))), IH; [reflexivity|]. intros; apply H; now right. Qed.
Lemma numbers_mapM rf sigmas vs xs : numbers_of rf sigmas vs xs -> mapM (fun x => let* v := rf x in Ok (v * (if sigmas then 1 / 3 else 1))%R) vs = Ok xs.
Proof.
  intros (ys & H & ->). revert ys H; induction vs as [|v vs IH]; intros ys H; cbn [mapM] in *; [injection H as <-; reflexivity|].
  destruct (rf v) as [y|]; [|discriminate]. cbn [bind] in *. destruct (mapM rf vs) as [ys'|]; [|discriminate]. cbn [bind] in H. injection H as <-. rewrite (IH _ eq_refl). cbn [bind map]. do 2 f_equal. destruct sigmas; field.
Qed.
Lemma parse_scalar rf ls sigmas k v x : key_ok (T k) -> Forall line_ok ls -> only_scalar ls k v -> numbers_of rf sigmas [v] [x] -> ml_parse rf (report ls) sigmas k 1 = Ok [x].
Proof.
  intros K L (before & name & c & after & -> & A1 & A2) N. unfold ml_parse. change (1 <? 1)%nat with false. cbn iota. rewrite (scalars_report _ _ K L).
  rewrite map_app, concat_app. cbn [map concat]. rewrite !scalars_about_list by (intros; apply A2; auto). cbn [scalars_in app]. assert (E : ends_with (T k) name = true) by (apply about_ends; exact A1). rewrite E. cbn [app bind]. exact (numbers_mapM _ _ _ _ N).
Qed.
Lemma parse_vector rf ls sigmas k n vs xs : key_ok (T k) -> Forall line_ok ls -> first_vector ls k vs -> length vs = S (S n) -> numbers_of rf sigmas vs xs -> ml_parse rf (report ls) sigmas k (S (S n)) = Ok xs.
Proof.
  intros K L (before & name & c & after & -> & A1 & A2) Ln N. unfold ml_parse. change (1 <? S (S n))%nat with true. cbn iota. rewrite (vectors_report _ _ _ K L).
  rewrite map_app, concat_app. cbn [map concat]. replace (concat (map (vectors_in (T k) (S (S n))) before)) with (@nil (list text)).
  2:{ symmetry. clear -A2. induction before as [|l q IH]; [reflexivity|]. cbn [map concat]. rewrite IH by (intros; apply A2; now right). rewrite app_nil_r. destruct l as [| nm w cc|]; try reflexivity. cbn [vectors_in].
      destruct (ends_with (T k) nm) eqn:E; [|reflexivity]. exfalso. apply (A2 nm w cc); [now left | now apply about_ends]. }
  cbn [vectors_in app]. assert (E : ends_with (T k) name = true) by (apply about_ends; exact A1). rewrite E, Ln, Nat.leb_refl. cbn [andb app bind]. unfold groups. rewrite Ln, Nat.sub_diag.
  destruct vs as [|v0 vs]; [discriminate Ln|]. cbn [firstn skipn]. change (semicolons [v0]) with v0. exact (numbers_mapM _ _ _ _ N).
Qed.
Lemma word_key k : k <> ""%string -> forallb (fun c => negb (Ascii.eqb c " " || Ascii.eqb c "=" || Ascii.eqb c nl || Ascii.eqb c ";")%bool) (T k) = true -> key_ok (T k).
Proof.
  intros N H. assert (Q : forall c, In c (T k) -> c <> " " /\ c <> "=" /\ c <> nl /\ c <> ";").
  { intros c Hc. apply (proj1 (forallb_forall _ _) H) in Hc. repeat split; intros ->; discriminate Hc. }
  split; [destruct k; [congruence | discriminate]|]. repeat split; intros C; apply Q in C; intuition congruence.
Qed.

(** The parameters of a report: lines with a statement each, comments after them, other lines *)
Theorem matlab_report rf ls (sigmas : bool) tx ty nx ny tf f1 f2 tc c1 c2 tk kc ta alpha : Forall line_ok ls ->
  let key s := if sigmas then (s ++ "_error")%string else s in
  (sigmas = false -> only_scalar ls "nx" tx /\ rf tx = Ok nx /\ only_scalar ls "ny" ty /\ rf ty = Ok ny) ->
  first_vector ls (key "fc"%string) tf -> length tf = 2%nat -> numbers_of rf sigmas tf [f1; f2] ->
  first_vector ls (key "cc"%string) tc -> length tc = 2%nat -> numbers_of rf sigmas tc [c1; c2] ->
  first_vector ls (key "kc"%string) tk -> length tk = 5%nat -> numbers_of rf sigmas tk kc ->
  only_scalar ls (key "alpha_c"%string) ta -> numbers_of rf sigmas [ta] [alpha] ->
  exists m, ml_from_report rf (report ls) sigmas = Ok m /\
    ml_imgsz m = (if sigmas then (0, 0)%Z else (Rtrunc nx, Rtrunc ny)) /\ ml_fc m = (f1, f2) /\ ml_cc m = (c1, c2) /\ ml_kc m = kc /\ ml_alpha m = alpha.
Proof.
  intros L key Hs F1 F2 F3 C1 C2 C3 K1 K2 K3 A1 A2.
  exists (mk_ml (if sigmas then (0, 0)%Z else (Rtrunc nx, Rtrunc ny)) (f1, f2) (c1, c2) kc alpha). split; [|repeat split].
  assert (KO : key_ok (T (key "fc"%string)) /\ key_ok (T (key "cc"%string)) /\ key_ok (T (key "kc"%string)) /\ key_ok (T (key "alpha_c"%string)) /\ key_ok (T "nx") /\ key_ok (T "ny")) by (unfold key; destruct sigmas; repeat split; apply word_key; first [discriminate | reflexivity]).
  destruct KO as (O1 & O2 & O3 & O4 & O5 & O6).
  unfold ml_from_report.
  replace (if sigmas then "fc_error"%string else "fc"%string) with (key "fc"%string) by (unfold key; destruct sigmas; reflexivity). replace (if sigmas then "cc_error"%string else "cc"%string) with (key "cc"%string) by (unfold key; destruct sigmas; reflexivity).
  replace (if sigmas then "kc_error"%string else "kc"%string) with (key "kc"%string) by (unfold key; destruct sigmas; reflexivity). replace (if sigmas then "alpha_c_error"%string else "alpha_c"%string) with (key "alpha_c"%string) by (unfold key; destruct sigmas; reflexivity).
  assert (Sz : (if sigmas then Ok (0, 0)%Z else let* x := ml_parse rf (report ls) sigmas "nx" 1 in let* n := head x in let* y := ml_parse rf (report ls) sigmas "ny" 1 in let* n' := head y in Ok (Rtrunc n, Rtrunc n')) = Ok (if sigmas then (0, 0)%Z else (Rtrunc nx, Rtrunc ny))).
  { destruct sigmas; [reflexivity|]. destruct (Hs eq_refl) as (X1 & X2 & Y1 & Y2). rewrite (parse_scalar rf ls false "nx" tx nx O5 L X1), (parse_scalar rf ls false "ny" ty ny O6 L Y1).
    - reflexivity.
    - exists [ny]. cbn [mapM]. rewrite Y2. auto.
    - exists [nx]. cbn [mapM]. rewrite X2. auto. }
  rewrite Sz. cbn [bind].
  rewrite (parse_vector rf ls sigmas _ 0 _ _ O1 L F1 F2 F3). cbn [bind]. rewrite (parse_vector rf ls sigmas _ 0 _ _ O2 L C1 C2 C3). cbn [bind].
  rewrite (parse_vector rf ls sigmas _ 3 _ _ O3 L K1 K2 K3). cbn [bind]. rewrite (parse_scalar rf ls sigmas _ _ _ O4 L A1 A2). reflexivity.
Qed.
Print Assumptions matlab_report.

(** A variable without statement is an IndexError *)
Theorem matlab_report_missing rf ls k n sigmas : Forall line_ok ls -> In k ["nx"; "ny"; "fc"; "cc"; "kc"; "alpha_c"; "fc_error"; "cc_error"; "kc_error"; "alpha_c_error"]%string -> (forall l, In l ls -> ~ about k l) ->
  (let* x := ml_parse rf (report ls) sigmas k 1 in head x) = Err IndexError /\ ml_parse rf (report ls) sigmas k (S (S n)) = Err IndexError.
Proof.
  intros L Hk H. assert (K : key_ok (T k)) by (repeat (destruct Hk as [<-|Hk]; [apply word_key; first [discriminate | reflexivity]|]); destruct Hk). split.
  - unfold ml_parse. change (1 <? 1)%nat with false. cbn iota. rewrite (scalars_report _ _ K L), (scalars_about_list _ _ H). reflexivity.
  - unfold ml_parse. change (1 <? S (S n))%nat with true. cbn iota. rewrite (vectors_report _ _ _ K L). replace (concat (map (vectors_in (T k) (S (S n))) ls)) with (@nil (list text)); [reflexivity|].
    symmetry. clear -H. induction ls as [|l q IH]; [reflexivity|]. cbn [map concat]. rewrite IH by (intros; apply H; now right). rewrite app_nil_r. destruct l as [| nm w cc|]; try reflexivity. cbn [vectors_in].
    destruct (ends_with (T k) nm) eqn:E; [|reflexivity]. exfalso. apply (H (Vector nm w cc)); [now left | now apply about_ends].
Qed.
Print Assumptions matlab_report_missing.

(** Names need only end with the key: a statement about another variable, or one that is commented out, is read if it comes first *)
Theorem matlab_report_name_refuted rf name a b c d : In name [T "est_fc"; T "%fc"] -> value_ok a -> value_ok b -> value_ok c -> value_ok d ->
  ml_parse rf (report [Vector name [a; b] []; Vector (T "fc") [c; d] []]) false "fc" 2 = (let* x := rf a in let* y := rf b in Ok [x * 1; y * 1])%R.
Proof.
  intros Hn Ha Hb Hc Hd. assert (K : key_ok (T "fc")) by (apply word_key; [discriminate | reflexivity]).
  assert (L : Forall line_ok [Vector name [a; b] []; Vector (T "fc") [c; d] []]).
  { constructor; [|constructor; [|constructor]]; (split; [|split; [split; [discriminate|] | split; intros []]]).
    - destruct Hn as [<-|[<-|[]]]; split; cbn; intuition discriminate.
    - intros v [<-|[<-|[]]]; assumption.
    - split; cbn; intuition discriminate.
    - intros v [<-|[<-|[]]]; assumption. }
  unfold ml_parse. change (1 <? 2)%nat with true. cbn iota. rewrite (vectors_report _ _ _ K L). cbn [map concat vectors_in length].
  assert (E : ends_with (T "fc") name = true) by (destruct Hn as [<-|[<-|[]]]; reflexivity). rewrite E. cbn [andb Nat.leb app bind groups length Nat.sub firstn skipn semicolons join mapM].
  destruct (rf a); [|reflexivity]. cbn [bind]. destruct (rf b); reflexivity.
Qed.
Print Assumptions matlab_report_name_refuted.
(** Two statements on a line: the value reaches to the last semicolon *)
Theorem matlab_report_line_refuted rf : ml_parse rf (T "nx = 4288; ny = 2848;") false "nx" 1 = (let* x := rf (T "4288; ny = 2848") in Ok [x * 1])%R.
Proof.
  unfold ml_parse. change (1 <? 1)%nat with false. cbn iota. replace (refindall (ml_pattern (T "nx") 1) (T "nx = 4288; ny = 2848;")) with [[T "4288; ny = 2848"]] by (vm_compute; reflexivity).
  cbn [concat app bind mapM]. destruct (rf (T "4288; ny = 2848")); reflexivity.
Qed.
Print Assumptions matlab_report_line_refuted.

(** ** Example *)
Definition report_ex : list line :=
  [Other (T "%-- Focal length: 2 values; pixels"); Vector (T "fc") [T "1"; T "2"] []; Other []; Vector (T "cc") [T "3"; T "4"] (T " % principal point, cc = [ x"); Scalar (T "alpha_c") (T "0") [];
   Vector (T "kc") [T "5"; T "6"; T "7"; T "8"; T "9"] []; Scalar (T "nx") (T "4") []; Scalar (T "ny") (T "3") []; Vector (T "est_fc") [T "1"; T "1"] []].
Definition digit_reader (t : text) : result R := match t with [c] => if digit c then Ok (IZR (Z.of_nat (code c - 48))) else Err ValueError | _ => Err ValueError end.
Example report_ex_text : report [nth 1 report_ex (Other []); nth 4 report_ex (Other [])] = T "fc = [ 1 ; 2 ];
alpha_c = 0;
".
Proof. reflexivity. Qed.
Example report_line_ok : Forall line_ok report_ex.
Proof.
  assert (D : forall c, c <> ";" -> c <> "=" -> c <> nl -> value_ok [c]) by (intros c H1 H2 H3; split; [|split]; intros [C|[]]; congruence).
  constructor.
  2:{ repeat apply Forall_cons; try apply Forall_nil; cbn [line_ok]; try (split; [intros [] | left; intros []]).
      all: split; [split; cbn; intuition discriminate|]; split; [|split; cbn; intuition discriminate].
      all: try (apply D; discriminate). all: split; [discriminate|]; intros v Hv; cbn in Hv; repeat (destruct Hv as [<-|Hv]; [apply D; discriminate|]); destruct Hv. }
  split; [cbn; intuition discriminate|]. right. intros (a & b & E). assert (C : In "=" (T "%-- Focal length: 2 values; pixels")) by (rewrite E; rewrite !in_app_iff; right; left; cbn; tauto). cbn in C. intuition discriminate.
Qed.
Lemma about_dec_ex k l : about k l -> match l with Scalar name _ _ | Vector name _ _ => ends_with (T k) name = true | Other _ => False end.
Proof. destruct l; cbn; intros H; [now apply about_ends | now apply about_ends | exact H]. Qed.
Example report_read : exists m, ml_from_report digit_reader (report report_ex) false = Ok m /\ ml_imgsz m = (4, 3)%Z /\ ml_fc m = (1, 2)%R /\ ml_cc m = (3, 4)%R /\ ml_kc m = [5; 6; 7; 8; 9]%R /\ ml_alpha m = 0%R.
Proof.
  assert (Dg : forall z, (0 <= z <= 9)%Z -> digit_reader [ascii_of_nat (48 + Z.to_nat z)] = Ok (IZR z)).
  { intros z Hz. assert (z = 0 \/ z = 1 \/ z = 2 \/ z = 3 \/ z = 4 \/ z = 5 \/ z = 6 \/ z = 7 \/ z = 8 \/ z = 9)%Z as Q by lia. destruct Q as [->|[->|[->|[->|[->|[->|[->|[->|[->| ->]]]]]]]]]; reflexivity. }
  destruct (matlab_report digit_reader report_ex false (T "4") (T "3") 4 3 [T "1"; T "2"] 1 2 [T "3"; T "4"] 3 4 [T "5"; T "6"; T "7"; T "8"; T "9"] [5; 6; 7; 8; 9]%R (T "0") 0 report_line_ok) as (m & H1 & H2 & H3).
  - intros _. split; [|split; [reflexivity|split; [|reflexivity]]].
    + exists (firstn 6 report_ex), (T "nx"), [], (skipn 7 report_ex). split; [reflexivity|]. split; [exists []; reflexivity|].
      intros l Hl C. apply about_dec_ex in C. destruct Hl as [Hl|Hl]; cbn in Hl; repeat (destruct Hl as [<-|Hl]; [try discriminate C; try exact C|]); destruct Hl.
    + exists (firstn 7 report_ex), (T "ny"), [], (skipn 8 report_ex). split; [reflexivity|]. split; [exists []; reflexivity|].
      intros l Hl C. apply about_dec_ex in C. destruct Hl as [Hl|Hl]; cbn in Hl; repeat (destruct Hl as [<-|Hl]; [try discriminate C; try exact C|]); destruct Hl.
  - exists (firstn 1 report_ex), (T "fc"), [], (skipn 2 report_ex). split; [reflexivity|]. split; [exists []; reflexivity|]. intros n' vs' c' [E|[]]. discriminate E.
  - reflexivity.
  - eexists. split; [reflexivity|]. reflexivity.
  - exists (firstn 3 report_ex), (T "cc"), (T " % principal point, cc = [ x"), (skipn 4 report_ex). split; [reflexivity|]. split; [exists []; reflexivity|]. intros n' vs' c' Hl C. apply about_dec_ex in C. cbn in Hl. repeat (destruct Hl as [E|Hl]; [try discriminate E; injection E as <- <- <-; discriminate C|]). destruct Hl.
  - reflexivity.
  - eexists. split; [reflexivity|]. reflexivity.
  - exists (firstn 5 report_ex), (T "kc"), [], (skipn 6 report_ex). split; [reflexivity|]. split; [exists []; reflexivity|]. intros n' vs' c' Hl C. apply about_dec_ex in C. cbn in Hl. repeat (destruct Hl as [E|Hl]; [try discriminate E; injection E as <- <- <-; discriminate C|]). destruct Hl.
  - reflexivity.
  - eexists. split; [reflexivity|]. reflexivity.
  - exists (firstn 4 report_ex), (T "alpha_c"), [], (skipn 5 report_ex). split; [reflexivity|]. split; [exists []; reflexivity|].
    intros l Hl C. apply about_dec_ex in C. destruct Hl as [Hl|Hl]; cbn in Hl; repeat (destruct Hl as [<-|Hl]; [try discriminate C; try exact C|]); destruct Hl.
  - eexists. split; [reflexivity|]. reflexivity.
  - exists m. split; [exact H1|]. split; [rewrite H2; rewrite !trunc_IZR; reflexivity | exact H3].
Qed.
