(** C109: proofs about PhotoModeler calibration reports. *)
From Coq Require Import String Ascii.
From Verif Require Import Base HelpersModel CameraModel ConvertModel SvgModel SvgDocModel CalibModel RegexProofs P_CalibXml P_CalibXml2 CalibMatlabProofs.
Notation length := List.length.
Open Scope char_scope.

(** ** Specification: lines *)
Definition lines_text (ls : list text) : text := concat (map (fun l => l ++ [nl]) ls).
(** spaces (and tabs, ...) *)
Definition blanks (t : text) : Prop := forallb space t = true.
Definition one_line (t : text) : Prop := ~ In nl t.
Definition plain (l : text) : Prop := one_line l /\ ~ contains (T "Value: ") l /\ ~ contains (T "Deviation: ") l.

(** A section: a heading, the line of its value, and maybe the line of its deviation.  The number is followed by another character than those of numbers, or nothing. *)
Record section_ := mksec { s_heading : text; s_indent : text; s_value : text; s_unit : text; s_dev : option (text * text * text * text) }.
Definition value_line (s : section_) : text := s_indent s ++ T "Value: " ++ s_value s ++ s_unit s.
Definition dev_line (d : text * text * text * text) : text := let '(i, name, v, u) := d in i ++ T "Deviation: " ++ name ++ T ": " ++ v ++ u.
Definition section_lines (s : section_) : list text := s_heading s :: value_line s :: match s_dev s with Some d => [dev_line d] | None => [] end.
Definition number_then (v u : text) : Prop := v <> [] /\ (forall c, In c v -> of_number c) /\ match u with [] => True | c :: _ => ~ of_number c end.
Definition section_ok (s : section_) : Prop :=
  plain (s_heading s) /\ ~ blanks (s_heading s) /\
  blanks (s_indent s) /\ one_line (value_line s) /\ number_then (s_value s) (s_unit s) /\ plain (s_value s ++ s_unit s) /\
  match s_dev s with
  | Some (i, name, v, u) => blanks i /\ one_line (dev_line (i, name, v, u)) /\ number_then v u /\ ~ In ":" u /\ plain (name ++ T ": " ++ v ++ u)
  | None => True
  end.
Definition pm_report (header : list text) (secs : list section_) (footer : list text) : text :=
  lines_text (header ++ concat (map section_lines secs) ++ footer).
Definition label_ok (k : text) : Prop := (exists c, In c k /\ space c = false) /\ one_line k.

(** ** Lines *)
Definition begins (P l : text) : Prop := exists w z, l = w ++ P ++ z /\ blanks w.
Fixpoint head_starts (P : text) (ls : list text) : Prop := match ls with [] => False | l :: r => begins P l \/ (blanks l /\ head_starts P r) end.
Lemma begins_contains P l : begins P l -> contains P l.
Proof. intros (w & z & E & _). exists w, z. exact E. Qed.
Lemma nl_space : space nl = true. Proof. reflexivity. Qed.
Lemma blanks_app a b : blanks (a ++ b) <-> blanks a /\ blanks b.
Proof. unfold blanks. rewrite forallb_app, andb_true_iff. tauto. Qed.

(** a piece of text that starts in a line *)
Lemma cut_line (a b l R0 : text) : one_line a -> a ++ b = l ++ nl :: R0 -> exists l2, l = a ++ l2 /\ b = l2 ++ nl :: R0.
Proof.
  intros N. revert l; induction a as [|c a IH]; intros l E; cbn [app] in *; [exists l; auto|]. destruct l as [|d l]; cbn [app] in E; injection E as -> E.
  - destruct N. now left.
  - destruct (IH ltac:(intros C; apply N; now right) l E) as (l2 & -> & ->). exists l2. auto.
Qed.
(** blanks may go over the end of the line *)
Lemma cut_blanks w P z l R0 : blanks w -> one_line P -> one_line l -> w ++ P ++ z = l ++ nl :: R0 -> (exists z', l = w ++ P ++ z') \/ (blanks l /\ exists w', blanks w' /\ R0 = w' ++ P ++ z).
Proof.
  intros B NP. revert l; induction w as [|c w IH]; intros l N E; cbn [app] in *.
  - apply cut_line in E as (l2 & -> & _); [|exact NP]. left. exists l2. reflexivity.
  - destruct l as [|d l]; cbn [app] in E; injection E as -> E.
    + right. split; [reflexivity|]. exists w. cbn in B. split; [exact B | now rewrite E].
    + unfold blanks in B. cbn [forallb] in B. apply andb_prop in B as [B1 B2]. destruct (IH B2 l ltac:(intros C; apply N; now right) E) as [[z' ->]|[B3 H]]; [left; exists z'; reflexivity|].
      right. split; [unfold blanks; cbn [forallb]; now rewrite B1, B3 | exact H].
Qed.
Lemma lines_cons l ls : lines_text (l :: ls) = l ++ nl :: lines_text ls.
Proof. unfold lines_text. cbn [map concat]. now rewrite <- app_assoc. Qed.
Lemma starts_lines P ls w z : (exists c, In c P /\ space c = false) -> one_line P -> Forall one_line ls -> blanks w -> lines_text ls = w ++ P ++ z -> head_starts P ls.
Proof.
  intros C NP F. revert w; induction F as [|l ls Hl F IH]; intros w B E.
  - exfalso. destruct C as (c & Hc & _). apply (f_equal (@length ascii)) in E. cbn in E. rewrite !app_length in E. destruct P; [destruct Hc | cbn in E; lia].
  - rewrite lines_cons in E. symmetry in E. destruct (cut_blanks _ _ _ _ _ B NP Hl E) as [[z' ->]|(Bl & w' & B' & E')]; cbn [head_starts].
    + left. exists w, z'. auto.
    + right. split; [exact Bl | exact (IH w' B' E')].
Qed.

(** ** Where no match starts *)
Lemma value_first k : label_ok k -> forall r, lit_first (Lit k :: r).
Proof. intros ((c & Hc & _) & _) r. destruct k; [destruct Hc | exact I]. Qed.
Lemma dots a : forallb dot a = true -> one_line a.
Proof. intros H C. apply (proj1 (forallb_forall _ _) H) in C. discriminate C. Qed.

Lemma skip_value k l ls : label_ok k -> one_line l -> Forall one_line ls -> (forall a b, l = a ++ k ++ b -> ~ contains (T "Value: ") b /\ ~ head_starts (T "Value: ") ls) ->
  refindall (pm_pattern false k) (l ++ nl :: lines_text ls) = refindall (pm_pattern false k) (lines_text ls).
Proof.
  intros K Nl F H. assert (VC : exists c, In c (T "Value: ") /\ space c = false) by (exists "V"; split; [now left | reflexivity]). assert (VN : one_line (T "Value: ")) by (intros C; cbn in C; intuition discriminate).
  replace (l ++ nl :: lines_text ls) with ((l ++ [nl]) ++ lines_text ls) by (now rewrite <- app_assoc). apply (find_skip _ ).
  intros x y E Ny. destruct (rmatch (pm_pattern false k) (y ++ lines_text ls)) as [[g rest]|] eqn:M; [|reflexivity]. exfalso.
  apply rmatch_matched in M. cbn [pm_pattern matched] in M. destruct M as (l1 & E1 & d & l2 & g1 & -> & D & _ & w & l3 & g2 & -> & W & _ & l4 & -> & _).
  destruct y as [|c y _] using rev_ind; [congruence|]. rewrite app_assoc in E. apply app_inj_tail in E as [-> <-]. rewrite <- app_assoc in E1. cbn [app] in E1. symmetry in E1.
  apply cut_line in E1 as (q & -> & E1); [|apply K]. apply cut_line in E1 as (q2 & -> & E1); [|now apply dots].
  destruct (H x (d ++ q2) eq_refl) as (H1 & H2). assert (Nq : one_line q2) by (intros C; apply Nl; rewrite !in_app_iff; auto).
  destruct (cut_blanks _ _ _ _ _ W VN Nq E1) as [[z' ->]|(_ & w' & B' & E')].
  - apply H1. exists (d ++ w), z'. now rewrite <- app_assoc.
  - apply H2. eapply starts_lines; eauto.
Qed.
Lemma skip_dev k l ls : label_ok k -> one_line l -> Forall one_line ls -> (forall a b, l = a ++ k ++ b -> ~ contains (T "Deviation: ") b /\ ~ head_starts (T "Deviation: ") ls /\
    match ls with [] => True | l' :: r => ~ contains (T "Deviation: ") l' /\ ~ head_starts (T "Deviation: ") r end) ->
  refindall (pm_pattern true k) (l ++ nl :: lines_text ls) = refindall (pm_pattern true k) (lines_text ls).
Proof.
  intros K Nl F H. assert (VC : exists c, In c (T "Deviation: ") /\ space c = false) by (exists "D"; split; [now left | reflexivity]). assert (VN : one_line (T "Deviation: ")) by (intros C; cbn in C; intuition discriminate).
  replace (l ++ nl :: lines_text ls) with ((l ++ [nl]) ++ lines_text ls) by (now rewrite <- app_assoc). apply (find_skip _ ).
  intros x y E Ny. destruct (rmatch (pm_pattern true k) (y ++ lines_text ls)) as [[g rest]|] eqn:M; [|reflexivity]. exfalso.
  apply rmatch_matched in M. cbn [pm_pattern matched] in M. destruct M as (l1 & E1 & d & l2 & g1 & -> & D & _ & sp & l3 & -> & Sp & e & l4 & g3 & -> & De & _ & w & l5 & g4 & -> & W & _ & l6 & -> & _).
  destruct y as [|c y _] using rev_ind; [congruence|]. rewrite app_assoc in E. apply app_inj_tail in E as [-> <-]. rewrite <- app_assoc in E1. cbn [app] in E1. symmetry in E1.
  apply cut_line in E1 as (q & -> & E1); [|apply K]. apply cut_line in E1 as (q2 & -> & E1); [|now apply dots]. destruct (H x (d ++ q2) eq_refl) as (H1 & H2 & H3).
  assert (Nq : one_line q2) by (intros C; apply Nl; rewrite !in_app_iff; auto).
  destruct q2 as [|c2 q2]; cbn [app] in E1; injection E1 as -> E1.
  - (* the blank is the end of the line *)
    destruct ls as [|l' r]; [change (lines_text []) with (@nil ascii) in E1; apply (f_equal (@length ascii)) in E1; rewrite !app_length in E1; cbn in E1; lia|]. destruct H3 as [H3 H4]. inversion F as [|? ? Hl' F']; subst. rewrite lines_cons in E1.
    apply cut_line in E1 as (q3 & -> & E1); [|now apply dots]. assert (Nq3 : one_line q3) by (intros C; apply Hl'; rewrite !in_app_iff; auto).
    destruct (cut_blanks _ _ _ _ _ W VN Nq3 E1) as [[z' ->]|(_ & w' & B' & E')].
    + apply H3. exists (e ++ w), z'. now rewrite <- app_assoc.
    + apply H4. eapply starts_lines; eauto.
  - apply cut_line in E1 as (q3 & -> & E1); [|now apply dots]. assert (Nq3 : one_line q3) by (intros C; apply Nq; right; rewrite !in_app_iff; auto).
    destruct (cut_blanks _ _ _ _ _ W VN Nq3 E1) as [[z' ->]|(_ & w' & B' & E')].
    + apply H1. exists (d ++ c2 :: e ++ w), z'. rewrite <- !app_assoc. cbn [app]. now rewrite <- app_assoc.
    + apply H2. eapply starts_lines; eauto.
Qed.

(** ** Where a match starts *)
Lemma star_max gr p r a l g rest : forallb p a = true -> match l with [] => True | c :: _ => p c = false end -> rmatch r l = Some (g, rest) -> rmatch (Star gr p :: r) (a ++ l) = Some (if gr then a :: g else g, rest).
Proof.
  intros F L M. change (rmatch (Star gr p :: r) (a ++ l)) with (try_down (fun n => group gr (firstn n (a ++ l)) (rmatch r (skipn n (a ++ l)))) (length (fst (span p (a ++ l))))).
  rewrite (span_app _ _ _ F L). cbn [fst]. apply try_down_first with (n := length a); [lia | | intros; lia]. rewrite skipn_app_len, firstn_app_len, M. reflexivity.
Qed.
Lemma lit_match t r l : rmatch (Lit t :: r) (t ++ l) = rmatch r l.
Proof. change (rmatch (Lit t :: r) (t ++ l)) with (match strip_prefix t (t ++ l) with Some l => rmatch r l | None => None end). now rewrite strip_prefix_app. Qed.
Lemma of_line a : one_line a -> forallb dot a = true.
Proof. intros H. apply forallb_forall. intros c Hc. unfold dot. destruct (Ascii.eqb_spec c nl) as [->|]; [contradiction | reflexivity]. Qed.
Lemma hit r k R0 g rest l : label_ok k -> one_line l -> contains k l -> (forall b, one_line b -> rmatch (Lit k :: r) (k ++ b ++ nl :: R0) = Some (g, rest)) -> exists q, refindall (Lit k :: r) (l ++ nl :: R0) = g :: q.
Proof.
  intros K Nl (a & b & ->) H. revert Nl. induction a as [|c a IH]; intros Nl.
  - cbn [app]. rewrite <- app_assoc. assert (Nb : one_line b) by (intros C; apply Nl; cbn [app]; rewrite in_app_iff; auto). rewrite (find_some _ (value_first k K r) _ _ _ (H b Nb)). eauto.
  - destruct (strip_prefix k (((c :: a) ++ k ++ b) ++ nl :: R0)) as [y|] eqn:E.
    + apply strip_prefix_some in E. pose proof E as E'. symmetry in E. apply cut_line in E as (b' & E1 & E2); [|apply K]. rewrite E', E2. assert (Nb : one_line b') by (intros C; apply Nl; rewrite E1; rewrite in_app_iff; auto).
      rewrite (find_some _ (value_first k K r) _ _ _ (H b' Nb)). eauto.
    + cbn [app]. rewrite find_none; [apply IH; intros C; apply Nl; now right|]. change (rmatch (Lit k :: r) (c :: (a ++ k ++ b) ++ nl :: R0)) with (match strip_prefix k (((c :: a) ++ k ++ b) ++ nl :: R0) with Some l => rmatch r l | None => None end). now rewrite E.
Qed.
Lemma number_line v u R0 : number_then v u -> rmatch [Plus true numchar] (v ++ u ++ nl :: R0) = Some ([v], u ++ nl :: R0).
Proof.
  intros (N & F & U). apply plus_first; [exact N | apply forallb_forall; intros c Hc; now apply numchar_true, F|]. destruct u as [|c u]; [reflexivity | now apply numchar_false].
Qed.
Lemma match_value k b s R0 : one_line b -> section_ok s -> rmatch (pm_pattern false k) (k ++ b ++ nl :: value_line s ++ nl :: R0) = Some ([s_value s], s_unit s ++ nl :: R0).
Proof.
  intros Nb (_ & _ & Bi & Nv & Nu & _). cbn [pm_pattern]. rewrite lit_match. apply (star_max false dot); [now apply of_line | reflexivity|].
  unfold value_line. replace (nl :: (s_indent s ++ T "Value: " ++ s_value s ++ s_unit s) ++ nl :: R0) with ((nl :: s_indent s) ++ T "Value: " ++ s_value s ++ s_unit s ++ nl :: R0) by (cbn [app]; now rewrite <- !app_assoc).
  apply (star_max false space); [cbn [forallb]; now rewrite Bi | reflexivity|]. rewrite lit_match. now apply number_line.
Qed.
Lemma match_dev k b s d R0 : one_line b -> section_ok s -> s_dev s = Some d -> let '(i, name, v, u) := d in rmatch (pm_pattern true k) (k ++ b ++ nl :: value_line s ++ nl :: dev_line d ++ nl :: R0) = Some ([v], u ++ nl :: R0).
Proof.
  intros Nb (_ & _ & Bi & Nv & Nu & _ & D) E. destruct d as [[[i name] v] u]. rewrite E in D. destruct D as (Bd & Nd & Vd & Cu & _). cbn [pm_pattern]. rewrite lit_match. apply (star_max false dot); [now apply of_line | reflexivity|].
  match goal with |- rmatch (Chr space :: ?r) (nl :: ?l) = _ => change (rmatch r l = Some ([v], u ++ nl :: R0)) end.
  apply (star_max false dot); [now apply of_line | reflexivity|].
  unfold dev_line. replace (nl :: (i ++ T "Deviation: " ++ name ++ T ": " ++ v ++ u) ++ nl :: R0) with ((nl :: i) ++ T "Deviation: " ++ name ++ T ": " ++ v ++ u ++ nl :: R0) by (cbn [app]; now rewrite <- !app_assoc).
  apply (star_max false space); [cbn [forallb]; now rewrite Bd | reflexivity|]. rewrite lit_match.
  assert (Nn : one_line (name ++ T ": " ++ v ++ u)) by (intros C; apply Nd; unfold dev_line; rewrite in_app_iff, in_app_iff; auto).
  match goal with |- rmatch (Star false dot :: ?r) ?l = _ => change (try_down (fun n => group false (firstn n l) (rmatch r (skipn n l))) (length (fst (span dot l))) = Some ([v], u ++ nl :: R0)) end.
  replace (name ++ T ": " ++ v ++ u ++ nl :: R0) with ((name ++ T ": " ++ v ++ u) ++ nl :: R0) by (now rewrite <- !app_assoc). rewrite (span_app _ _ (nl :: R0) (of_line _ Nn) eq_refl). cbn [fst].
  apply try_down_first with (n := length name).
  - rewrite app_length. lia.
  - rewrite <- app_assoc, skipn_app_len. rewrite <- app_assoc, lit_match, <- app_assoc, (number_line _ _ _ Vd). reflexivity.
  - intros n [L1 L2]. unfold group.
    match goal with |- option_map _ (rmatch (Lit ?t :: ?r) ?l) = None => change (option_map (fun x => (fst x, snd x)) (match strip_prefix t l with Some l9 => rmatch r l9 | None => None end) = None) end.
    rewrite strip_prefix_none; [reflexivity|]. intros z C.
    assert (Q : skipn n ((name ++ T ": " ++ v ++ u) ++ nl :: R0) = skipn (n - length name - 1) (" " :: v ++ u ++ nl :: R0)).
    { replace n with (length name + S (n - length name - 1))%nat at 1 by lia. rewrite <- app_assoc. rewrite skipn_app, skipn_all2 by lia. replace (length name + S (n - length name - 1) - length name)%nat with (S (n - length name - 1)) by lia. cbn [app skipn]. now rewrite <- !app_assoc. }
    rewrite Q in C. set (m := (n - length name - 1)%nat) in *. assert (Lm : (m < length (" " :: v ++ u ++ [nl]))%nat) by (unfold m; rewrite app_length in L2; cbn [length]; rewrite !app_length in *; cbn in *; lia).
    replace (" " :: v ++ u ++ nl :: R0) with ((" " :: v ++ u ++ [nl]) ++ R0) in C by (cbn [app]; now rewrite <- !app_assoc). rewrite skipn_app in C. replace (m - length (" " :: v ++ u ++ [nl]))%nat with 0%nat in C by lia. cbn [skipn] in C.
    assert (I : In ":" (skipn m (" " :: v ++ u ++ [nl]))).
    { destruct (skipn m (" " :: v ++ u ++ [nl])) as [|c q] eqn:Eq; [apply (f_equal (@length ascii)) in Eq; rewrite skipn_length in Eq; cbn [length] in Eq, Lm; lia|]. cbn [app] in C. injection C as -> _. now left. }
    apply skipn_in in I. destruct I as [I|I]; [discriminate I|]. rewrite !in_app_iff in I. destruct I as [I|[I|I]]; [|auto|].
    + destruct Vd as (_ & Vd & _). apply Vd in I. cbn in I. repeat (destruct I as [I|I]; [discriminate I|]). exact I.
    + destruct I as [I|[]]. discriminate I.
Qed.
