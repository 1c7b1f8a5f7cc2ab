(** Property C102: SVG documents written are read back. *)
From Coq Require Import String Ascii.
From Verif Require Import Base BaseLemmas SvgModel SvgProofs P_Svg P_Svg2 P_Svg3 SvgDocModel SvgDocProofs.
Notation length := List.length.
Open Scope char_scope.

(** ** Writing keeps the content *)
(** The same elements with the same attributes, and the same texts, except for texts that are blank in both. *)
Inductive same : xelt -> xelt -> Prop :=
  same_intro tag attrs txt txt' kids kids' tail tail' : same_text txt txt' -> same_text tail tail' -> Forall2 same kids kids' -> same (XElt tag attrs txt kids tail) (XElt tag attrs txt' kids' tail')
with same_text : text -> text -> Prop :=
| same_eq t : same_text t t
| same_blank t t' : Forall (fun c => space c = true) t -> Forall (fun c => space c = true) t' -> same_text t t'.
Definition blank_tab (i : indent) : Prop := Forall (fun c => c = " " \/ c = "009") (tab i).
Lemma blank_spec t : blank t = true <-> Forall (fun c => space c = true) t.
Proof. unfold blank. rewrite forallb_forall, Forall_forall. reflexivity. Qed.
Lemma blank_times i n : blank_tab i -> Forall (fun c => c = "010" \/ c = " " \/ c = "009") (sep i ++ times n (tab i)).
Proof.
  intros B. apply Forall_app. split; [destruct i; [constructor|constructor; [left; reflexivity|constructor]|constructor; [left; reflexivity|constructor]]|].
  unfold times. induction n as [|n IH]; [constructor|]. cbn [repeat concat]. apply Forall_app. split; [|exact IH]. eapply Forall_impl; [|exact B]. intros c H. right. exact H.
Qed.
Lemma blank_space t : Forall (fun c => c = "010" \/ c = " " \/ c = "009") t -> Forall (fun c => space c = true) t.
Proof. intros H. eapply Forall_impl; [|exact H]. intros c [-> | [-> | ->]]; reflexivity. Qed.
Lemma blank_ok t : Forall (fun c => c = "010" \/ c = " " \/ c = "009") t -> Forall (fun c => printable c \/ c = "010" \/ c = "009") t.
Proof. intros H. eapply Forall_impl; [|exact H]. intros c [-> | [-> | ->]]; [right; left; reflexivity|left; unfold printable; cbn; lia|right; right; reflexivity]. Qed.
(** the children of an element, as _indent_etree goes through them *)
Definition indent_kids (i : indent) (level : nat) : list xelt -> list xelt := fix go l := match l with [] => [] | c :: r => indent_etree i level (match r with [] => true | _ => false end) c :: go r end.
Lemma indent_eq i level lst tag attrs txt k kids tail : indent_etree i level lst (XElt tag attrs txt (k :: kids) tail) =
  (let txt := if blank txt then sep i ++ times (level + 1) (tab i) else txt in
   let tail := if blank tail then sep i ++ times level (tab i) else tail in
   let tail := if blank tail then sep i ++ times (level - 1) (tab i) else tail in
   XElt tag attrs txt (indent_kids i (S level) (k :: kids)) (match level with O => [] | _ => tail end)).
Proof. reflexivity. Qed.
Lemma indent_content i : blank_tab i -> forall e level lst, wf e -> (level = 0%nat -> Forall (fun c => space c = true) (xtail e)) -> wf (indent_etree i level lst e) /\ same e (indent_etree i level lst e) /\ (level = 0%nat -> xtail (indent_etree i level lst e) = []).
Proof.
  intros BT. induction e as [tag attrs txt kids tail IH] using xelt_ind'. intros level lst (WT & WA & ND & WX & WK) R0. rewrite wf_kids in WK. apply Forall_app in WX as [WX WL]. cbn [xtail] in R0.
  destruct kids as [|k kids].
  - cbn [indent_etree xtail]. assert (G : exists t, match level with O => [] | _ => if blank tail then sep i ++ times (level - if lst then 1 else 0) (tab i) else tail end = t /\ Forall (fun c => printable c \/ c = "010" \/ c = "009") t /\ same_text tail t).
    { eexists. split; [reflexivity|]. destruct level as [|l]; [split; [constructor|apply same_blank; [apply R0; reflexivity|constructor]]|]. destruct (blank tail) eqn:B; [|split; [exact WL|constructor]]. split; [apply blank_ok, blank_times, BT|]. apply same_blank; [apply blank_spec, B|apply blank_space, blank_times, BT]. }
    destruct G as (t & E & W & S'). rewrite E. split; [split; [exact WT|split; [exact WA|split; [exact ND|split; [apply Forall_app; split; assumption|exact I]]]]|]. split; [constructor; [constructor|exact S'|constructor]|]. intros ->. symmetry. exact E.
  - rewrite indent_eq. cbv zeta.
    assert (GT : exists t, (if blank txt then sep i ++ times (level + 1) (tab i) else txt) = t /\ Forall (fun c => printable c \/ c = "010" \/ c = "009") t /\ same_text txt t).
    { eexists. split; [reflexivity|]. destruct (blank txt) eqn:B; [|split; [exact WX|constructor]]. split; [apply blank_ok, blank_times, BT|]. apply same_blank; [apply blank_spec, B|apply blank_space, blank_times, BT]. }
    destruct GT as (t & -> & W1 & S1).
    assert (GL : exists t, match level with O => [] | _ => if blank (if blank tail then sep i ++ times level (tab i) else tail) then sep i ++ times (level - 1) (tab i) else if blank tail then sep i ++ times level (tab i) else tail end = t /\ Forall (fun c => printable c \/ c = "010" \/ c = "009") t /\ same_text tail t /\ (level = 0%nat -> t = [])).
    { eexists. split; [reflexivity|]. destruct level as [|l]; [split; [constructor|split; [apply same_blank; [apply R0; reflexivity|constructor]|reflexivity]]|]. destruct (blank tail) eqn:B.
      - assert (B2 : blank (sep i ++ times (S l) (tab i)) = true) by (apply blank_spec, blank_space, blank_times, BT). rewrite B2. split; [apply blank_ok, blank_times, BT|]. split; [apply same_blank; [apply blank_spec, B|apply blank_space, blank_times, BT]|discriminate].
      - rewrite B. split; [exact WL|split; [constructor|discriminate]]. }
    destruct GL as (t2 & E2 & W2 & S2 & Z2). rewrite E2.
    assert (K : Forall wf (indent_kids i (S level) (k :: kids)) /\ Forall2 same (k :: kids) (indent_kids i (S level) (k :: kids))).
    { revert IH WK. generalize (k :: kids). clear - BT. intros l IH WK. induction l as [|c l IHl]; [split; constructor|]. inversion IH as [|? ? HC IH']; subst. inversion WK as [|? ? WC WK']; subst. change (indent_kids i (S level) (c :: l)) with (indent_etree i (S level) (match l with [] => true | _ => false end) c :: indent_kids i (S level) l).
      destruct (IHl IH' WK') as [A B]. destruct (HC (S level) (match l with [] => true | _ => false end) WC ltac:(discriminate)) as (C1 & C2 & _). split; constructor; assumption. }
    destruct K as [K1 K2]. split; [split; [exact WT|split; [exact WA|split; [exact ND|split; [apply Forall_app; split; assumption|apply wf_kids, K1]]]]|]. split; [constructor; assumption|]. cbn [xtail]. exact Z2.
Qed.
(** Whatever the indentation, the document that is written parses to the same elements, attributes and texts; only blank texts differ. *)
Theorem write_content : forall e i, wf e -> Forall (fun c => space c = true) (xtail e) -> blank_tab i -> exists e', parse_xml (write e i) = Some e' /\ same e e'.
Proof.
  intros e i W R BT. destruct (indent_content i BT e 0 false W (fun _ => R)) as (W' & S' & T'). eexists. split; [apply parse_xml_to_string; [exact W'|apply T'; reflexivity]|exact S'].
Qed.
Print Assumptions write_content.

(** ** Layout *)
(** a new line, indented by n levels *)
Definition newline (i : indent) (n : nat) : text := match i with NoIndent => [] | _ => "010" :: times n (tab i) end.
Definition leaf (e : xelt) : bool := match xkids e with [] => true | _ => false end.
Definition open_tag (e : xelt) : text := "<" :: xtag e ++ concat (map show_attr (xattrs e)).
Fixpoint laid_out (i : indent) (level : nat) (e : xelt) : text :=
  match e with
  | XElt tag _ _ kids _ =>
    open_tag e ++
    match kids with
    | [] => T " />"
    | _ => ">" :: newline i (level + 1) ++
           (fix go l := match l with
                        | [] => []
                        | [c] => laid_out i (level + 1) c ++ newline i level
                        | c :: r => laid_out i (level + 1) c ++ newline i (if leaf c then level + 1 else level) ++ go r
                        end) kids ++ T "</" ++ tag ++ [">"]
    end
  end.
Fixpoint no_text (e : xelt) : Prop := match e with XElt _ _ txt kids tail => txt = [] /\ tail = [] /\ (fix all l := match l with [] => True | c :: r => no_text c /\ all r end) kids end.
Lemma escaped_blank t : Forall (fun c => c = "010" \/ c = " " \/ c = "009") t -> escaped escape t = t.
Proof. intros H. unfold escaped. induction H as [|c t H F IH]; [reflexivity|]. cbn [map concat]. rewrite IH. destruct H as [-> | [-> | ->]]; reflexivity. Qed.
Lemma newline_eq i n : sep i ++ times n (tab i) = newline i n.
Proof. destruct i; cbn [sep tab newline]; [|reflexivity|reflexivity]. unfold times. induction n as [|n IH]; [reflexivity|exact IH]. Qed.
Lemma escaped_newline i n : blank_tab i -> escaped escape (newline i n) = newline i n.
Proof. intros B. rewrite <- newline_eq. apply escaped_blank, blank_times, B. Qed.
Lemma blank_newline i n : blank_tab i -> blank (newline i n) = true.
Proof. intros B. rewrite <- newline_eq. apply blank_spec, blank_space, blank_times, B. Qed.
Lemma no_text_kids kids : (fix all l := match l with [] => True | c :: r => no_text c /\ all r end) kids <-> Forall no_text kids.
Proof. induction kids as [|c r IH]; [split; constructor|]. rewrite IH. split; [intros [A B]; constructor; assumption|intros H; inversion H; split; assumption]. Qed.
Definition laid_kids (i : indent) (level : nat) : list xelt -> text :=
  fix go l := match l with [] => [] | [c] => laid_out i (level + 1) c ++ newline i level | c :: r => laid_out i (level + 1) c ++ newline i (if leaf c then level + 1 else level) ++ go r end.
Lemma layout_kids i level l : Forall (fun c => forall lst : bool, to_string (indent_etree i (S level) lst c) = laid_out i (S level) c ++ newline i (if leaf c then (S level - if lst then 1 else 0) else level)) l ->
  concat (map to_string (indent_kids i (S level) l)) = laid_kids i level l.
Proof.
  induction 1 as [|c l HC IH IHl]; [reflexivity|]. change (indent_kids i (S level) (c :: l)) with (indent_etree i (S level) (match l with [] => true | _ => false end) c :: indent_kids i (S level) l). cbn [map concat]. rewrite IHl, HC.
  cbn [laid_kids]. replace (level + 1)%nat with (S level) by lia. destruct l as [|d l].
  - cbn [laid_kids]. rewrite app_nil_r. f_equal. replace (S level - 1)%nat with level by lia. destruct (leaf c); reflexivity.
  - replace (S level - 0)%nat with (S level) by lia. rewrite <- app_assoc. reflexivity.
Qed.
Lemma layout_step i : blank_tab i -> forall e level lst, no_text e ->
  to_string (indent_etree i level lst e) = laid_out i level e ++ match level with O => [] | S l => newline i (if leaf e then (level - if lst then 1 else 0) else l) end.
Proof.
  intros BT. induction e as [tag attrs txt kids tail IH] using xelt_ind'. intros level lst (-> & -> & NK). rewrite no_text_kids in NK. destruct kids as [|k kids].
  - cbn [indent_etree leaf xkids]. cbn [blank forallb]. cbn [to_string laid_out open_tag xtag xattrs map concat app]. unfold open_tag. cbn [xtag xattrs app]. rewrite <- !app_assoc. do 2 f_equal. destruct level as [|l]; [reflexivity|]. cbn [app]. rewrite newline_eq, escaped_newline by exact BT. reflexivity.
  - rewrite indent_eq. cbn [blank forallb leaf xkids]. cbv zeta. rewrite !newline_eq, blank_newline by exact BT.
    assert (K : concat (map to_string (indent_kids i (S level) (k :: kids))) = laid_kids i level (k :: kids)).
    { apply layout_kids. rewrite Forall_forall in *. intros c HC lst'. exact (IH c HC (S level) lst' (NK c HC)). }
    assert (TL : escaped escape match level with O => [] | _ => newline i (level - 1) end = match level with O => [] | S l => newline i l end) by (destruct level as [|l]; [reflexivity|]; replace (S l - 1)%nat with l by lia; apply escaped_newline, BT).
    destruct (newline i (level + 1)) as [|n0 nl] eqn:EN; cbn [to_string].
    + assert (NK2 : exists c l, indent_kids i (S level) (k :: kids) = c :: l) by (eexists _, _; reflexivity). destruct NK2 as (c' & l' & EK). rewrite EK in K |- *. cbv iota. rewrite K.
      change (laid_out i level (XElt tag attrs [] (k :: kids) [])) with (open_tag (XElt tag attrs [] (k :: kids) []) ++ ">" :: newline i (level + 1) ++ laid_kids i level (k :: kids) ++ T "</" ++ tag ++ [">"]). rewrite EN. rewrite TL. unfold open_tag. cbn [xtag xattrs]. change (escaped escape []) with (@nil ascii). repeat (rewrite <- ?app_assoc; cbn [app]). reflexivity.
    + rewrite K.
      change (laid_out i level (XElt tag attrs [] (k :: kids) [])) with (open_tag (XElt tag attrs [] (k :: kids) []) ++ ">" :: newline i (level + 1) ++ laid_kids i level (k :: kids) ++ T "</" ++ tag ++ [">"]). rewrite EN. rewrite <- EN. rewrite escaped_newline by exact BT. rewrite TL. unfold open_tag. cbn [xtag xattrs]. repeat (rewrite <- ?app_assoc; cbn [app]). reflexivity.
Qed.
(** Elements begin on a new line, children one level deeper than their parent, unless they follow a sibling that has children itself; the end of an element is below its start. *)
Theorem write_layout : forall e i, blank_tab i -> no_text e -> write e i = laid_out i 0 e.
Proof. intros e i BT N. unfold write. rewrite (layout_step i BT e 0 false N), app_nil_r. reflexivity. Qed.
Print Assumptions write_layout.
(** Finding: so that the element that follows a group is not indented below the first one but to the left of it: at the first level, not at all. *)
Theorem write_sibling_refuted : write (svg_el [g_el [path_el (T "M 0,0 L 1,1") []] []; path_el (T "M 2,2 L 3,3") []] []) (Spaces 2) =
  T "<svg xmlns=""http://www.w3.org/2000/svg"" xmlns:xlink=""http://www.w3.org/1999/xlink"">
  <g>
    <path d=""M 0,0 L 1,1"" />
  </g>
<path d=""M 2,2 L 3,3"" />
</svg>".
Proof. reflexivity. Qed.
Definition ex_text : xelt := XElt (T "g") [(T "id", T "a<b")] (T "x > 1") [XElt (T "title") [] (T " a & b ") [] []; XElt (T "path") [] [] [] (T "  ")] [].
Example content_ex : wf ex_text /\ Forall (fun c => space c = true) (xtail ex_text) /\ blank_tab (Tab ["009"]) /\ write ex_text (Spaces 1) = T "<g id=""a&lt;b"">x &gt; 1<title> a &amp; b </title>
 <path />
</g>".
Proof.
  assert (P : forall s, forallb (fun c => (32 <=? code c)%nat && (code c <=? 126)%nat)%bool s = true -> Forall printable s).
  { intros s H. rewrite forallb_forall in H. apply Forall_forall. intros c I. specialize (H c I). apply andb_true_iff in H as [A B]. apply Nat.leb_le in A, B. split; assumption. }
  assert (Q : forall s, forallb (fun c => (32 <=? code c)%nat && (code c <=? 126)%nat)%bool s = true -> Forall (fun c => printable c \/ c = "010" \/ c = "009") s) by (intros s H; apply P in H; eapply Forall_impl; [|exact H]; intros c K; left; exact K).
  split; [|split; [constructor|split; [constructor; [right; reflexivity|constructor]|reflexivity]]].
  split; [split; [discriminate|repeat constructor]|]. split; [constructor; [split; [split; [discriminate|repeat constructor]|apply P; reflexivity]|constructor]|]. split; [constructor; [intros []|constructor]|]. split; [apply Q; reflexivity|].
  split; [|split; [|exact I]]; (split; [split; [discriminate|repeat constructor]|]; split; [constructor|]; split; [constructor|]; split; [apply Q; reflexivity|exact I]).
Qed.
