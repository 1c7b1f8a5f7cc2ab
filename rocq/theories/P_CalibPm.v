(** C109: PhotoModeler calibration reports (PhotoModeler.from_report). *)
From Coq Require Import String Ascii.
From Verif Require Import Base BaseLemmas HelpersModel CameraModel ConvertModel SvgModel SvgDocModel CalibModel RegexProofs P_CalibXml P_CalibXml2 CalibMatlabProofs CalibPmProofs.
Notation length := List.length.
Open Scope char_scope.

Lemma once_only c0 P' k a b i t : ~ In c0 P' -> (exists c, In c k /\ space c = false) -> blanks i -> ~ contains (c0 :: P') t -> a ++ k ++ b = i ++ (c0 :: P') ++ t -> ~ contains (c0 :: P') b.
Proof.
  intros N (c & Hc & Sc) Bi Ct E (x & y & ->). replace (a ++ k ++ x ++ (c0 :: P') ++ y) with ((a ++ k ++ x) ++ (c0 :: P') ++ y) in E by (now rewrite <- !app_assoc).
  assert (Q : forall l, i <> (a ++ k ++ x) ++ l). { intros l ->. unfold blanks in Bi. rewrite forallb_forall in Bi. rewrite (Bi c) in Sc; [discriminate|]. rewrite !in_app_iff. auto. }
  symmetry in E. apply app_split in E as [(l & E1 & E2)|(l & E1 & E2)]; [exact (Q l E1)|].
  destruct l as [|d l]; [apply (Q []); rewrite app_nil_r in *; now symmetry|]. cbn [app] in E2. injection E2 as <- E2. apply app_split in E2 as [(l2 & -> & E2)|(l2 & -> & E2)].
  - destruct l2 as [|e l2]; cbn [app] in E2.
    + apply Ct. exists [], y. cbn [app]. now symmetry.
    + injection E2 as <- _. apply N. apply in_or_app. right. now left.
  - apply Ct. exists l2, y. exact E2.
Qed.
Lemma plain_starts P ls : (P = T "Value: " \/ P = T "Deviation: ") -> Forall plain ls -> ~ head_starts P ls.
Proof.
  intros HP F. induction F as [|l ls (_ & H1 & H2) F IH]; cbn [head_starts]; [tauto|]. intros [B|[_ B]]; [|auto]. apply begins_contains in B. destruct HP as [-> | ->]; contradiction.
Qed.
Definition rest_lines (secs : list section_) (footer : list text) : list text := concat (map section_lines secs) ++ footer.
Lemma rest_starts P secs footer : (P = T "Value: " \/ P = T "Deviation: ") -> Forall section_ok secs -> Forall plain footer -> ~ head_starts P (rest_lines secs footer).
Proof.
  intros HP F FF. destruct F as [|s secs ((_ & H1 & H2) & B & _) F]; [now apply plain_starts|]. cbn [rest_lines map concat section_lines app head_starts]. intros [C|[C _]]; [|contradiction]. apply begins_contains in C. destruct HP as [-> | ->]; contradiction.
Qed.
Lemma section_one s : section_ok s -> Forall one_line (section_lines s).
Proof.
  intros ((H1 & _) & _ & _ & H2 & _ & _ & D). unfold section_lines. constructor; [exact H1|]. constructor; [exact H2|]. destruct (s_dev s) as [[[[i n] v] u]|]; [|constructor]. constructor; [apply D | constructor].
Qed.
Lemma rest_one secs footer : Forall section_ok secs -> Forall plain footer -> Forall one_line (rest_lines secs footer).
Proof.
  intros F FF. unfold rest_lines. apply Forall_app. split; [|apply Forall_impl with (2 := FF); now intros l (H & _)]. induction F as [|s secs Hs F IH]; [constructor|]. cbn [map concat]. apply Forall_app. split; [now apply section_one | exact IH].
Qed.
Definition V_ := T "Value: ". Definition D_ := T "Deviation: ".

(** plain lines before something *)
Lemma plain_lines sg k ls rest : label_ok k -> Forall plain ls -> Forall one_line rest -> ~ head_starts V_ rest -> ~ head_starts D_ rest ->
  match rest with [] => True | l' :: r => ~ contains D_ l' /\ ~ head_starts D_ r end ->
  refindall (pm_pattern sg k) (lines_text (ls ++ rest)) = refindall (pm_pattern sg k) (lines_text rest).
Proof.
  intros K F Fr H1 H2 H3. induction F as [|l ls (N1 & N2 & N3) F IH]; [reflexivity|]. cbn [app]. rewrite lines_cons, <- IH.
  assert (FA : Forall one_line (ls ++ rest)) by (apply Forall_app; split; [apply Forall_impl with (2 := F); now intros x (H & _) | exact Fr]).
  assert (HS : forall P, (P = V_ \/ P = D_) -> ~ head_starts P rest -> ~ head_starts P (ls ++ rest)).
  { intros P HP HR. clear -F HP HR. induction F as [|x ls (_ & H1 & H2) F IH]; [exact HR|]. cbn [app head_starts]. intros [B|[_ B]]; [|auto]. apply begins_contains in B. destruct HP as [-> | ->]; contradiction. }
  assert (Cs : forall P a b, ~ contains P l -> l = a ++ k ++ b -> ~ contains P b) by (intros P a b C -> (x & y & ->); apply C; exists (a ++ k ++ x), y; now rewrite <- !app_assoc).
  destruct sg; [apply skip_dev | apply skip_value]; try assumption.
  - intros a b E. split; [now apply (Cs _ a) | split; [apply HS; auto|]]. destruct F as [|x ls (_ & _ & X3) F]; [exact H3|]. cbn [app]. split; [exact X3|].
    clear -F H2. induction F as [|x ls (_ & X1 & X2) F IH]; [exact H2|]. cbn [app head_starts]. intros [B|[_ B]]; [|auto]. apply begins_contains in B. contradiction.
  - intros a b E. split; [now apply (Cs _ a) | apply HS; auto].
Qed.
Lemma rest_next secs footer : Forall section_ok secs -> Forall plain footer -> match rest_lines secs footer with [] => True | l' :: r => ~ contains D_ l' /\ ~ head_starts D_ r end.
Proof.
  intros F FF. destruct F as [|s secs ((_ & _ & H2) & _ & Bi & _ & _ & (_ & _ & P2) & _) F].
  - unfold rest_lines. cbn [map concat app]. destruct FF as [|l r (_ & _ & H) FF]; [exact I|]. split; [exact H | apply plain_starts; auto].
  - cbn [rest_lines map concat section_lines app]. split; [exact H2|]. cbn [app head_starts]. intros [B|[B _]].
    + destruct B as (w & z & E & Bw). unfold value_line in E. (* "Value: " where "Deviation: " should be *)
      assert (Q : forall a b, forallb space a = true -> forallb space b = true -> forall x y, a ++ "V" :: x = b ++ "D" :: y -> False).
      { induction a as [|c a IH]; intros b Ha Hb x y Eq; destruct b as [|d b]; cbn [app] in Eq.
        - injection Eq as Eq _; discriminate Eq.
        - injection Eq as <- _. discriminate Hb.
        - injection Eq as -> _. discriminate Ha.
        - injection Eq as _ Eq. cbn in Ha, Hb. apply andb_prop in Ha as [_ Ha]. apply andb_prop in Hb as [_ Hb]. exact (IH b Ha Hb x y Eq). }
      exact (Q _ _ Bi Bw _ _ E).
    + unfold blanks, value_line in B. rewrite forallb_app in B. apply andb_prop in B as [_ B]. discriminate B.
Qed.
Lemma nothing_left sg k footer : label_ok k -> Forall plain footer -> refindall (pm_pattern sg k) (lines_text footer) = [].
Proof.
  intros K F. rewrite <- (app_nil_r footer). rewrite plain_lines; try assumption; [reflexivity | constructor | intros [] | intros [] | exact I].
Qed.

(** ** A section without the label, or without a deviation *)
Lemma rest_cons s secs footer : rest_lines (s :: secs) footer = s_heading s :: value_line s :: match s_dev s with Some d => [dev_line d] | None => [] end ++ rest_lines secs footer.
Proof. unfold rest_lines. cbn [map concat section_lines]. cbn [app]. now rewrite <- app_assoc. Qed.
Lemma other_word c0 P' i P1 t : space c0 = false -> ~ In c0 P1 -> blanks i -> ~ contains (c0 :: P') t -> ~ contains (c0 :: P') (i ++ P1 ++ t).
Proof.
  intros S0 N Bi Ct (x & y & E). rewrite app_assoc in E. symmetry in E. apply app_split in E as [(l & E1 & E2)|(l & E1 & E2)].
  - apply Ct. exists l, y. exact E2.
  - destruct l as [|c l]; cbn [app] in E2; [apply Ct; exists [], y; now symmetry|]. injection E2 as <- _.
    assert (C : In c0 (i ++ P1)) by (rewrite E1; apply in_or_app; right; now left). apply in_app_or in C as [C|C]; [|contradiction]. unfold blanks in Bi. rewrite forallb_forall in Bi. rewrite (Bi _ C) in S0. discriminate.
Qed.
Lemma value_not_dev s : section_ok s -> ~ contains D_ (value_line s).
Proof. intros (_ & _ & Bi & _ & _ & (_ & _ & P3) & _). unfold value_line. apply other_word; [reflexivity | cbn; intuition discriminate | exact Bi | exact P3]. Qed.
Lemma section_skip_value k s secs footer : label_ok k -> section_ok s -> Forall section_ok secs -> Forall plain footer -> ~ contains k (s_heading s) ->
  refindall (pm_pattern false k) (lines_text (rest_lines (s :: secs) footer)) = refindall (pm_pattern false k) (lines_text (rest_lines secs footer)).
Proof.
  intros K Hs F FF N. pose proof (section_one _ Hs) as O. pose proof (rest_one _ _ F FF) as Or. pose proof (rest_starts V_ _ _ (or_introl eq_refl) F FF) as RS. rewrite rest_cons.
  destruct Hs as ((H1 & H2 & H3) & Bh & Bi & Nv & Nu & (P1 & P2 & P3) & D). unfold section_lines in O. inversion O as [|? ? O1 O2]; subst. inversion O2 as [|? ? O3 O4]; subst.
  set (dl := match s_dev s with Some d => [dev_line d] | None => [] end) in *.
  assert (OA : Forall one_line (dl ++ rest_lines secs footer)) by (apply Forall_app; auto).
  rewrite lines_cons. rewrite skip_value; [|exact K | exact O1 | constructor; assumption | intros a b E; exfalso; apply N; exists a, b; exact E].
  assert (DS : ~ head_starts V_ (dl ++ rest_lines secs footer)).
  { unfold dl. destruct (s_dev s) as [[[[i n] v] u]|]; [|exact RS]. destruct D as (Bd & Nd & _ & _ & (_ & Q1 & _)). cbn [app head_starts]. intros [B|[B _]].
    - apply begins_contains in B. revert B. unfold dev_line. apply other_word; [reflexivity | cbn; intuition discriminate | exact Bd | exact Q1].
    - unfold blanks, dev_line in B. rewrite forallb_app in B. apply andb_prop in B as [_ B]. discriminate B. }
  rewrite lines_cons, skip_value; [|exact K | exact Nv | exact OA|].
  2:{ intros a b E. split; [|exact DS]. symmetry in E. unfold value_line in E. eapply (once_only "V"); [|apply K | exact Bi | exact P2 | exact E]. cbn. intuition discriminate. }
  unfold dl. destruct (s_dev s) as [[[[i n] v] u]|]; [|reflexivity]. destruct D as (Bd & Nd & _ & _ & (Q0 & Q1 & Q2)). cbn [app]. rewrite lines_cons, skip_value; [reflexivity | exact K | exact Nd | exact Or|].
  intros a b E. split; [|exact RS]. intros (x & y & ->). refine (other_word "V" (T "alue: ") i (T "Deviation: ") (n ++ T ": " ++ v ++ u) eq_refl _ Bd Q1 _); [cbn; intuition discriminate|].
  exists (a ++ k ++ x), y. unfold dev_line in E. rewrite E. now rewrite <- !app_assoc.
Qed.
Lemma section_skip_dev k s secs footer : label_ok k -> section_ok s -> Forall section_ok secs -> Forall plain footer -> ~ contains k (value_line s) -> (~ contains k (s_heading s) \/ s_dev s = None) ->
  refindall (pm_pattern true k) (lines_text (rest_lines (s :: secs) footer)) = refindall (pm_pattern true k) (lines_text (rest_lines secs footer)).
Proof.
  intros K Hs F FF NV N. pose proof (section_one _ Hs) as O. pose proof (rest_one _ _ F FF) as Or. pose proof (rest_starts D_ _ _ (or_intror eq_refl) F FF) as RS. pose proof (rest_next _ _ F FF) as RN. pose proof (rest_next _ _ (Forall_cons s Hs F) FF) as SN. pose proof (value_not_dev _ Hs) as VD.
  rewrite rest_cons in *. destruct Hs as ((H1 & H2 & H3) & Bh & Bi & Nv & Nu & (P1 & P2 & P3) & D). unfold section_lines in O. inversion O as [|? ? O1 O2]; subst. inversion O2 as [|? ? O3 O4]; subst. destruct SN as [_ SN].
  set (dl := match s_dev s with Some d => [dev_line d] | None => [] end) in *.
  assert (OA : Forall one_line (dl ++ rest_lines secs footer)) by (apply Forall_app; auto).
  rewrite lines_cons. rewrite skip_dev; [|exact K | exact O1 | constructor; assumption|].
  2:{ intros a b E. destruct N as [N|N]; [exfalso; apply N; exists a, b; exact E|]. unfold dl in *. rewrite N in *. cbn [app] in *. split; [|split; [exact SN|split; [exact VD | exact RS]]]. intros (x & y & ->). apply H3. rewrite E. exists (a ++ k ++ x), y. now rewrite <- !app_assoc. }
  rewrite lines_cons, skip_dev; [|exact K | exact Nv | exact OA | intros a b E; exfalso; apply NV; exists a, b; exact E].
  unfold dl. destruct (s_dev s) as [[[[i n] v] u]|]; [|reflexivity]. destruct D as (Bd & Nd & _ & _ & (Q0 & Q1 & Q2)). cbn [app]. rewrite lines_cons, skip_dev; [reflexivity | exact K | exact Nd | exact Or|].
  intros a b E. split; [|split; [exact RS | exact RN]]. symmetry in E. unfold dev_line in E. eapply (once_only "D"); [|apply K | exact Bd | exact Q2 | exact E]. cbn. intuition discriminate.
Qed.

(** ** Specification *)
(** the number of a label: the value in the first section whose heading has the label in it; for deviations, in the first of these that has a deviation *)
Definition has_number (sigmas : bool) (k : string) (s : section_) : Prop := contains (T k) (s_heading s) /\ (sigmas = true -> s_dev s <> None).
Definition number_in (sigmas : bool) (s : section_) (t : text) : Prop := if sigmas then exists i name u, s_dev s = Some (i, name, t, u) else t = s_value s.
Definition first_number (sigmas : bool) (secs : list section_) (k : string) (t : text) : Prop :=
  exists before s after, secs = before ++ s :: after /\ has_number sigmas k s /\ number_in sigmas s t /\ forall s', In s' before -> ~ has_number sigmas k s'.
(** the number read, or 0 *)
Definition reads (rf : text -> result R) (sigmas : bool) (secs : list section_) (k : string) (x : R) : Prop :=
  (exists t, first_number sigmas secs k t /\ rf t = Ok x) \/ ((forall s, In s secs -> ~ has_number sigmas k s) /\ x = 0%R).

Lemma value_read rf header secs footer sigmas k x : label_ok (T k) -> Forall plain header -> Forall section_ok secs -> Forall plain footer -> (forall s, In s secs -> ~ contains (T k) (value_line s)) ->
  reads rf sigmas secs k x -> pm_value rf (pm_report header secs footer) sigmas k = Ok x.
Proof.
  intros K FH F FF NV Rd. unfold pm_value, pm_report. fold (rest_lines secs footer).
  rewrite plain_lines; [|exact K | exact FH | now apply rest_one | apply rest_starts; auto | apply rest_starts; auto | now apply rest_next].
  assert (SK : forall s l, section_ok s -> Forall section_ok l -> ~ contains (T k) (value_line s) -> ~ has_number sigmas k s -> refindall (pm_pattern sigmas (T k)) (lines_text (rest_lines (s :: l) footer)) = refindall (pm_pattern sigmas (T k)) (lines_text (rest_lines l footer))).
  { intros s l Hs Hl NVs N. destruct sigmas.
    - apply section_skip_dev; try assumption. destruct (s_dev s) eqn:E; [left | now right]. intros C. apply N. split; [exact C | congruence].
    - apply section_skip_value; try assumption. intros C. apply N. split; [exact C | discriminate]. }
  assert (E : match concat (refindall (pm_pattern sigmas (T k)) (lines_text (rest_lines secs footer))) with v :: _ => rf v | [] => Ok 0%R end = Ok x); [|exact E].
  destruct Rd as [(t & (before & s & after & -> & Hs & Ht & Hb) & Hr)|(Hn & ->)].
  - revert F NV Hb. induction before as [|b before IH]; intros F NV Hb; cbn [app] in *.
    + inversion F as [|? ? Hok F']; subst. rewrite rest_cons, lines_cons. destruct Hs as (Hc & Hd). pose proof Hok as ((H1 & _) & _).
      assert (Q : exists q, refindall (pm_pattern sigmas (T k)) (s_heading s ++ nl :: lines_text (value_line s :: match s_dev s with Some d => [dev_line d] | None => [] end ++ rest_lines after footer)) = [t] :: q).
      { rewrite lines_cons. destruct sigmas; cbn [number_in] in Ht.
        - destruct Ht as (i & name & u & Ed). rewrite Ed. cbn [app]. rewrite lines_cons. eapply hit; [exact K | exact H1 | exact Hc|]. intros b Nb. exact (match_dev (T k) b s _ _ Nb Hok Ed).
        - subst t. eapply hit; [exact K | exact H1 | exact Hc|]. intros b Nb. exact (match_value (T k) b s _ Nb Hok). }
      destruct Q as [q ->]. cbn [concat app]. exact Hr.
    + inversion F as [|? ? Hok F']; subst. rewrite (SK _ _ Hok F' (NV b (or_introl eq_refl)) (Hb b (or_introl eq_refl))). apply IH; [exact F' | intros; apply NV; now right | intros; apply Hb; now right].
  - replace (refindall (pm_pattern sigmas (T k)) (lines_text (rest_lines secs footer))) with (@nil (list text)); [reflexivity|]. symmetry. revert NV Hn. induction F as [|s secs Hs F IH]; intros NV Hn; [now apply nothing_left|].
    rewrite (SK _ _ Hs F (NV s (or_introl eq_refl)) (Hn s (or_introl eq_refl))). apply IH; intros; [apply NV | apply Hn]; now right.
Qed.

(** Reading a report: lines before and after that have nothing to do with values and deviations, and sections *)
Definition labels : list string := ["Focal Length"; "Xp"; "Yp"; "Fw"; "Fh"; "K1"; "K2"; "K3"; "P1"; "P2"]%string.
Theorem photomodeler_report rf header secs footer sz sigmas focal xp yp fw fh k1 k2 k3 p1 p2 :
  Forall plain header -> Forall section_ok secs -> Forall plain footer ->
  (forall s k, In s secs -> In k labels -> ~ contains (T k) (value_line s)) ->
  reads rf sigmas secs "Focal Length" focal -> reads rf sigmas secs "Xp" xp -> reads rf sigmas secs "Yp" yp -> reads rf sigmas secs "Fw" fw -> reads rf sigmas secs "Fh" fh ->
  reads rf sigmas secs "K1" k1 -> reads rf sigmas secs "K2" k2 -> reads rf sigmas secs "K3" k3 -> reads rf sigmas secs "P1" p1 -> reads rf sigmas secs "P2" p2 ->
  exists m, pm_from_report rf (pm_report header secs footer) sz sigmas = Ok m /\ pm_imgsz m = sz /\ pm_focal m = focal /\ pm_xp m = xp /\ pm_yp m = yp /\ pm_fw m = fw /\ pm_fh m = fh /\
    pm_k1 m = k1 /\ pm_k2 m = k2 /\ pm_k3 m = k3 /\ pm_p1 m = p1 /\ pm_p2 m = p2.
Proof.
  intros FH F FF NV R1 R2 R3 R4 R5 R6 R7 R8 R9 R10. exists (mk_pm sz focal xp yp fw fh k1 k2 k3 p1 p2). split; [|repeat split].
  assert (V : forall k x, In k labels -> reads rf sigmas secs k x -> pm_value rf (pm_report header secs footer) sigmas k = Ok x).
  { intros k x Hk Hr. apply value_read; try assumption; [|intros s Hs; now apply NV].
    cbn in Hk. repeat (destruct Hk as [<-|Hk]; [split; [eexists; split; [left; reflexivity | reflexivity] | intros C; cbn in C; intuition discriminate]|]). destruct Hk. }
  unfold pm_from_report. rewrite (V "Focal Length"%string _ ltac:(cbn; tauto) R1). cbn [bind]. rewrite (V "Xp"%string _ ltac:(cbn; tauto) R2). cbn [bind]. rewrite (V "Yp"%string _ ltac:(cbn; tauto) R3). cbn [bind]. rewrite (V "Fw"%string _ ltac:(cbn; tauto) R4). cbn [bind]. rewrite (V "Fh"%string _ ltac:(cbn; tauto) R5). cbn [bind].
  rewrite (V "K1"%string _ ltac:(cbn; tauto) R6). cbn [bind]. rewrite (V "K2"%string _ ltac:(cbn; tauto) R7). cbn [bind]. rewrite (V "K3"%string _ ltac:(cbn; tauto) R8). cbn [bind]. rewrite (V "P1"%string _ ltac:(cbn; tauto) R9). cbn [bind]. rewrite (V "P2"%string _ ltac:(cbn; tauto) R10). reflexivity.
Qed.
Print Assumptions photomodeler_report.

(** The labels are searched in the whole heading: "K1" is also found in the heading "Camera K10", and its value read.  Numbers with a capital E are cut off before it. *)
Theorem photomodeler_heading_refuted rf : pm_value rf (T "Camera K10
  Value: 5
K1 - radial distortion 1
  Value: 1
") false "K1" = rf (T "5") /\ pm_value rf (T "K1 - radial distortion 1
  Value: 1.5E-004
") false "K1" = rf (T "1.5").
Proof.
  split.
  - unfold pm_value. match goal with |- match ?x with _ => _ end = _ => replace x with [T "5"; T "1"] by (vm_compute; reflexivity) end. reflexivity.
  - unfold pm_value. match goal with |- match ?x with _ => _ end = _ => replace x with [T "1.5"] by (vm_compute; reflexivity) end. reflexivity.
Qed.
Print Assumptions photomodeler_heading_refuted.

(** ** Example *)
Definition header_ex : list text := [T "Status Report Tree"; []; T "   Camera1: NIKON D300 [28.00]"].
Definition s_focal : section_ := mksec (T "   Focal Length") (T "     ") (T "4") (T " mm") (Some (T "     ", T "Focal", T "1", T " mm")).
Definition s_k1 : section_ := mksec (T "   K1 - radial distortion 1") (T "     ") (T "2") [] None.
Example report_pm : pm_report header_ex [s_focal; s_k1] [[]; T "Quality"] = T "Status Report Tree

   Camera1: NIKON D300 [28.00]
   Focal Length
     Value: 4 mm
     Deviation: Focal: 1 mm
   K1 - radial distortion 1
     Value: 2

Quality
".
Proof. reflexivity. Qed.
(** a decision procedure for the conditions of the example *)
Fixpoint containsb (t l : text) : bool := match strip_prefix t l with Some _ => true | None => match l with [] => false | _ :: r => containsb t r end end.
Lemma containsb_true t l : containsb t l = true <-> contains t l.
Proof.
  split.
  - induction l as [|c l IH]; cbn [containsb]; destruct (strip_prefix t _) as [r|] eqn:E; intros H; try discriminate.
    + apply strip_prefix_some in E. exists [], r. exact E.
    + apply strip_prefix_some in E. exists [], r. exact E.
    + destruct (IH H) as (a & b & ->). exists (c :: a), b. reflexivity.
  - intros (a & b & ->). induction a as [|c a IH]; cbn [app].
    + destruct (t ++ b) as [|d r] eqn:E; cbn [containsb]; rewrite <- E, strip_prefix_app; reflexivity.
    + cbn [containsb]. destruct (strip_prefix t _); [reflexivity | exact IH].
Qed.
Lemma containsb_false t l : containsb t l = false -> ~ contains t l.
Proof. intros H C. apply containsb_true in C. congruence. Qed.
Lemma line_dec l : forallb dot l = true -> one_line l. Proof. apply dots. Qed.
Lemma plain_dec l : (forallb dot l && negb (containsb V_ l) && negb (containsb D_ l))%bool = true -> plain l.
Proof. intros H. apply andb_prop in H as [H H3]. apply andb_prop in H as [H1 H2]. split; [now apply dots|]. split; apply containsb_false; now apply negb_true_iff. Qed.
Lemma number_dec v u : (negb (match v with [] => true | _ => false end) && forallb numchar v && match u with [] => true | c :: _ => negb (numchar c) end)%bool = true -> number_then v u.
Proof.
  intros H. apply andb_prop in H as [H H3]. apply andb_prop in H as [H1 H2]. split; [destruct v; discriminate|]. split; [intros c Hc; apply numchar_true; now apply (proj1 (forallb_forall _ _) H2)|].
  destruct u as [|c u]; [exact I|]. intros C. apply numchar_true in C. rewrite C in H3. discriminate.
Qed.
Example sections_ok : Forall plain header_ex /\ Forall section_ok [s_focal; s_k1] /\ Forall plain [[]; T "Quality"] /\ (forall s k, In s [s_focal; s_k1] -> In k labels -> ~ contains (T k) (value_line s)).
Proof.
  split; [repeat constructor; apply plain_dec; reflexivity|]. split; [|split; [repeat constructor; apply plain_dec; reflexivity|]].
  - constructor; [|constructor; [|constructor]].
    + split; [apply plain_dec; reflexivity|]. split; [discriminate|]. split; [reflexivity|]. split; [apply line_dec; reflexivity|]. split; [apply number_dec; reflexivity|]. split; [apply plain_dec; reflexivity|].
      cbn [s_dev s_focal]. split; [reflexivity|]. split; [apply line_dec; reflexivity|]. split; [apply number_dec; reflexivity|]. split; [cbn; intuition discriminate | apply plain_dec; reflexivity].
    + split; [apply plain_dec; reflexivity|]. split; [discriminate|]. split; [reflexivity|]. split; [apply line_dec; reflexivity|]. split; [apply number_dec; reflexivity|]. split; [apply plain_dec; reflexivity | exact I].
  - intros s k [<-|[<-|[]]] Hk; cbn in Hk; repeat (destruct Hk as [<-|Hk]; [apply containsb_false; reflexivity|]); destruct Hk.
Qed.
Definition rf_pm (t : text) : result R := match t with ["1"] => Ok 1%R | ["2"] => Ok 2%R | ["4"] => Ok 4%R | _ => Err ValueError end.
Example reads_ex : reads rf_pm false [s_focal; s_k1] "K1" 2 /\ reads rf_pm true [s_focal; s_k1] "Focal Length" 1 /\ reads rf_pm true [s_focal; s_k1] "K1" 0 /\ reads rf_pm false [s_focal; s_k1] "P2" 0.
Proof.
  split; [|split; [|split]].
  - left. exists (T "2"). split; [|reflexivity]. exists [s_focal], s_k1, []. split; [reflexivity|]. split; [split; [now apply containsb_true | discriminate]|]. split; [reflexivity|]. intros s' [<-|[]] [C _]. apply containsb_true in C. discriminate C.
  - left. exists (T "1"). split; [|reflexivity]. exists [], s_focal, [s_k1]. split; [reflexivity|]. split; [split; [now apply containsb_true | discriminate]|]. split; [do 3 eexists; reflexivity|]. intros s' [].
  - right. split; [|reflexivity]. intros s [<-|[<-|[]]] [C D]; [apply containsb_true in C; discriminate C | now apply D].
  - right. split; [|reflexivity]. intros s [<-|[<-|[]]] [C D]; apply containsb_true in C; discriminate C.
Qed.
