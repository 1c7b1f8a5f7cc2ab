(** Lemmas for P_SvgDoc: XML written is parsed back. *)
From Coq Require Import String Ascii.
From Verif Require Import Base SvgModel SvgDocModel.
Notation length := List.length.
Open Scope char_scope.

Lemma xelt_ind' (P : xelt -> Prop) : (forall tag attrs txt kids tail, Forall P kids -> P (XElt tag attrs txt kids tail)) -> forall e, P e.
Proof. intros H. fix IH 1. intros [tag attrs txt kids tail]. apply H. induction kids as [|c ch IHc]; constructor; [apply IH|exact IHc]. Qed.
Lemma teqb_spec a b : reflect (a = b) (teqb a b).
Proof. unfold teqb. destruct (list_eq_dec ascii_dec a b); constructor; assumption. Qed.

(** ** Escapes *)
Lemma unescape_other c r : c <> "&" -> unescape (c :: r) = option_map (cons c) (unescape r).
Proof. intros N. destruct c as [[] [] [] [] [] [] [] []]; try reflexivity. contradiction. Qed.
Lemma unescape_escape t : unescape (escaped escape t) = Some t.
Proof.
  unfold escaped. induction t as [|c t IH]; [reflexivity|]. cbn [map concat]. unfold escape at 1.
  destruct (Ascii.eqb_spec c "&") as [->|N1]; [change (unescape (T "&amp;" ++ concat (map escape t))) with (option_map (cons "&") (unescape (concat (map escape t)))); rewrite IH; reflexivity|].
  destruct (Ascii.eqb_spec c "<") as [->|N2]; [change (unescape (T "&lt;" ++ concat (map escape t))) with (option_map (cons "<") (unescape (concat (map escape t)))); rewrite IH; reflexivity|].
  destruct (Ascii.eqb_spec c ">") as [->|N3]; [change (unescape (T "&gt;" ++ concat (map escape t))) with (option_map (cons ">") (unescape (concat (map escape t)))); rewrite IH; reflexivity|].
  cbn [app]. rewrite unescape_other by exact N1. rewrite IH. reflexivity.
Qed.
Lemma unescape_attrib t : unescape (escaped escape_attrib t) = Some t.
Proof.
  unfold escaped. induction t as [|c t IH]; [reflexivity|]. cbn [map concat]. unfold escape_attrib at 1.
  destruct (Ascii.eqb_spec c quote) as [->|N0]; [change (unescape (T "&quot;" ++ concat (map escape_attrib t))) with (option_map (cons quote) (unescape (concat (map escape_attrib t)))); rewrite IH; reflexivity|]. unfold escape.
  destruct (Ascii.eqb_spec c "&") as [->|N1]; [change (unescape (T "&amp;" ++ concat (map escape_attrib t))) with (option_map (cons "&") (unescape (concat (map escape_attrib t)))); rewrite IH; reflexivity|].
  destruct (Ascii.eqb_spec c "<") as [->|N2]; [change (unescape (T "&lt;" ++ concat (map escape_attrib t))) with (option_map (cons "<") (unescape (concat (map escape_attrib t)))); rewrite IH; reflexivity|].
  destruct (Ascii.eqb_spec c ">") as [->|N3]; [change (unescape (T "&gt;" ++ concat (map escape_attrib t))) with (option_map (cons ">") (unescape (concat (map escape_attrib t)))); rewrite IH; reflexivity|].
  cbn [app]. rewrite unescape_other by exact N1. rewrite IH. reflexivity.
Qed.
Lemma escape_no_lt t : Forall (fun c => negb (Ascii.eqb c "<") = true) (escaped escape t).
Proof.
  unfold escaped. induction t as [|c t IH]; [constructor|]. cbn [map concat]. apply Forall_app. split; [|exact IH]. unfold escape.
  destruct (Ascii.eqb c "&"); [repeat constructor|]. destruct (Ascii.eqb c "<") eqn:E; [repeat constructor|]. destruct (Ascii.eqb c ">"); [repeat constructor|]. constructor; [rewrite E; reflexivity|constructor].
Qed.
Lemma attrib_no_quote t : Forall (fun c => negb (Ascii.eqb c quote || Ascii.eqb c "<")%bool = true) (escaped escape_attrib t).
Proof.
  unfold escaped. induction t as [|c t IH]; [constructor|]. cbn [map concat]. apply Forall_app. split; [|exact IH]. unfold escape_attrib, escape. destruct (Ascii.eqb c quote) eqn:Q; [repeat constructor|].
  destruct (Ascii.eqb c "&"); [repeat constructor|]. destruct (Ascii.eqb c "<") eqn:E; [repeat constructor|]. destruct (Ascii.eqb c ">"); [repeat constructor|]. constructor; [rewrite Q, E; reflexivity|constructor].
Qed.
Lemma span_app (p : ascii -> bool) a b : Forall (fun c => p c = true) a -> match b with [] => True | c :: _ => p c = false end -> span p (a ++ b) = (a, b).
Proof.
  intros F. induction F as [|c a H F IH]; intros B; cbn [app].
  - destruct b as [|c b]; [reflexivity|]. cbn [span]. rewrite B. reflexivity.
  - cbn [span]. rewrite H, IH by exact B. reflexivity.
Qed.

(** ** Well-formed documents *)
Definition xml_name (k : text) : Prop := k <> [] /\ Forall (fun c => name_char c = true) k.
Definition printable (c : ascii) : Prop := (32 <= code c <= 126)%nat.
Fixpoint wf (e : xelt) : Prop :=
  match e with
  | XElt tag attrs txt kids tail =>
    xml_name tag /\ Forall (fun kv => xml_name (fst kv) /\ Forall printable (snd kv)) attrs /\ NoDup (map fst attrs) /\
    Forall (fun c => printable c \/ c = "010" \/ c = "009") (txt ++ tail) /\ (fix all l := match l with [] => True | c :: r => wf c /\ all r end) kids
  end.
Lemma wf_kids kids : (fix all l := match l with [] => True | c :: r => wf c /\ all r end) kids <-> Forall wf kids.
Proof. induction kids as [|c r IH]; [split; constructor|]. rewrite IH. split; [intros [A B]; constructor; assumption|intros H; inversion H; split; assumption]. Qed.

Lemma p_attrs_step n k v r : xml_name k -> p_attrs (S n) (show_attr (k, v) ++ r) =
  match p_attrs n r with Some (kvs, r) => if existsb (fun kv => teqb k (fst kv)) kvs then None else Some ((k, v) :: kvs, r) | None => None end.
Proof.
  intros [Ne F]. unfold show_attr. cbn [fst snd app p_attrs].
  assert (NS : match k with [] => True | c :: _ => xml_space c = false end).
  { destruct k as [|c k]; [exact I|]. inversion F as [|? ? H _]; subst. destruct c as [[] [] [] [] [] [] [] []]; try discriminate H; reflexivity. }
  assert (S1 : span xml_space (" " :: k ++ "=" :: quote :: escaped escape_attrib v ++ [quote]) = ([" "], k ++ "=" :: quote :: escaped escape_attrib v ++ [quote])).
  { change (" " :: k ++ "=" :: quote :: escaped escape_attrib v ++ [quote]) with ([" "] ++ k ++ "=" :: quote :: escaped escape_attrib v ++ [quote]). apply span_app; [repeat constructor|]. destruct k as [|c k]; [contradiction|exact NS]. }
  rewrite <- app_assoc. cbn [app]. rewrite <- app_assoc. cbn [app].
  assert (S1' : span xml_space (" " :: k ++ "=" :: quote :: escaped escape_attrib v ++ quote :: r) = ([" "], k ++ "=" :: quote :: escaped escape_attrib v ++ quote :: r)).
  { change (" " :: k ++ "=" :: quote :: escaped escape_attrib v ++ quote :: r) with ([" "] ++ k ++ "=" :: quote :: escaped escape_attrib v ++ quote :: r). apply span_app; [repeat constructor|]. destruct k as [|c k']; [contradiction|exact NS]. }
  rewrite S1'. cbv iota beta. rewrite (span_app name_char k) by (exact F || reflexivity). destruct k as [|c0 k0]; [contradiction|]. cbv iota beta. change (Ascii.eqb quote quote) with true. cbv iota.
  rewrite (span_app _ (escaped escape_attrib v) (quote :: r)) by (apply attrib_no_quote || reflexivity). cbv iota beta. change (Ascii.eqb quote quote) with true. cbv iota. rewrite unescape_attrib. destruct (p_attrs n r) as [[kvs r']|]; reflexivity.
Qed.
Lemma p_attrs_all attrs : forall n rest rest', Forall (fun kv => xml_name (fst kv) /\ Forall printable (snd kv)) attrs -> NoDup (map fst attrs) -> (length attrs < n)%nat ->
  (rest' = rest /\ (exists r, rest = ">" :: r) \/ rest = " " :: rest' /\ exists r, rest' = "/" :: r) -> p_attrs n (concat (map show_attr attrs) ++ rest) = Some (attrs, rest').
Proof.
  induction attrs as [|[k v] attrs IH]; intros n rest rest' W ND L R; (destruct n as [|n]; [cbn in L; lia|]).
  - cbn [map concat app]. destruct R as [[-> [r ->]]|[-> [r ->]]]; reflexivity.
  - cbn [map concat]. inversion W as [|? ? [WK _] W']; subst. inversion ND as [|? ? NI ND']; subst. rewrite <- app_assoc, p_attrs_step by exact WK. rewrite (IH n rest rest' W' ND') by (cbn [length] in L; lia || exact R).
    assert (E : existsb (fun kv => teqb k (fst kv)) attrs = false).
    { apply not_true_iff_false. intros T. apply existsb_exists in T as ([k' v'] & I & E). cbn [fst] in E. destruct (teqb_spec k k') as [->|]; [|discriminate]. apply NI. change k' with (fst (k', v')). apply in_map. exact I. }
    rewrite E. reflexivity.
Qed.
Lemma attrs_length attrs : (length attrs <= length (concat (map show_attr attrs)))%nat.
Proof. induction attrs as [|kv attrs IH]; [reflexivity|]. cbn [map concat length]. rewrite app_length. unfold show_attr at 1. cbn [length]. lia. Qed.
Lemma p_text_spec t rest : match rest with [] => True | c :: _ => c = "<" end -> p_text (escaped escape t ++ rest) = Some (t, rest).
Proof. intros R. unfold p_text. rewrite span_app; [rewrite unescape_escape; reflexivity|apply escape_no_lt|]. destruct rest as [|c r]; [exact I|]. rewrite R. reflexivity. Qed.

Definition notail (e : xelt) : xelt := match e with XElt tag attrs txt kids _ => XElt tag attrs txt kids [] end.
Definition xtail (e : xelt) : text := match e with XElt _ _ _ _ t => t end.
Lemma to_string_tail e : to_string e = to_string (notail e) ++ escaped escape (xtail e).
Proof. destruct e as [tag attrs txt kids tail]. cbn [to_string notail xtail]. change (escaped escape []) with (@nil ascii). rewrite app_nil_r. cbn [app]. rewrite <- !app_assoc. reflexivity. Qed.
Lemma to_string_start e : wf e -> exists c l, to_string e = "<" :: c :: l /\ name_char c = true.
Proof. destruct e as [[|c tag] attrs txt kids tail]; intros [[Ne F] _]; [contradiction|]. inversion F; subst. cbn [to_string app]. eexists _, _. split; [reflexivity|assumption]. Qed.
Lemma p_elts_cons n c l : name_char c = true -> p_elts (S n) ("<" :: c :: l) =
  match p_elt n ("<" :: c :: l) with
  | Some (XElt tag attrs txt kids _, l) => match p_text l with Some (tail, l) => match p_elts n l with Some (es, l) => Some (XElt tag attrs txt kids tail :: es, l) | None => None end | None => None end
  | None => None
  end.
Proof. intros H. destruct c as [[] [] [] [] [] [] [] []]; try discriminate H; reflexivity. Qed.
Lemma p_elt_open n tag l : xml_name tag -> match l with [] => True | c :: _ => name_char c = false end -> p_elt (S n) ("<" :: tag ++ l) =
  match p_attrs (length l) l with
  | Some (attrs, "/" :: ">" :: l) => Some (XElt tag attrs [] [] [], l)
  | Some (attrs, ">" :: l) =>
    match p_text l with
    | Some (txt, l) =>
      match p_elts n l with
      | Some (kids, "<" :: "/" :: l) =>
        match span name_char l with
        | (tag', ">" :: l) => if teqb tag tag' then Some (XElt tag attrs txt kids [], l) else None
        | _ => None
        end
      | _ => None
      end
    | None => None
    end
  | _ => None
  end.
Proof. intros [Ne F] L. cbn [p_elt]. rewrite (span_app name_char tag l F L). destruct tag as [|c t]; [contradiction|]. reflexivity. Qed.
Lemma parse_to_string e : wf e -> forall n rest, (length (to_string (notail e)) <= n)%nat -> p_elt n (to_string (notail e) ++ rest) = Some (notail e, rest).
Proof.
  induction e as [tag attrs txt kids tail IH] using xelt_ind'. intros [WT [WA [ND [_ WK]]]] n rest L. rewrite wf_kids in WK. cbn [notail] in *.
  assert (ST : match concat (map show_attr attrs) ++ (match txt, kids with [], [] => T " />" | _, _ => ">" :: escaped escape txt ++ concat (map to_string kids) ++ T "</" ++ tag ++ [">"] end) ++ [] ++ rest with [] => True | c :: _ => name_char c = false end).
  { destruct attrs as [|kv attrs]; [|reflexivity]. cbn [map concat app]. destruct txt; [destruct kids|]; reflexivity. }
  destruct n as [|n]; [cbn in L; lia|]. cbn [to_string]. cbn [to_string] in L. change (escaped escape []) with (@nil ascii) in L |- *. rewrite app_nil_r in L.
  rewrite app_nil_r. cbn [app] in ST. cbn [app length] in L |- *. rewrite <- !app_assoc. rewrite p_elt_open by (exact WT || exact ST).
  rewrite !app_length in L.
  assert (NE : forall X Y, (match txt, kids with [], [] => X | _, _ => Y end : text) = Y \/ txt = [] /\ kids = []) by (intros X Y; destruct txt; [destruct kids; [right; split; reflexivity|left; reflexivity]|left; reflexivity]).
  destruct (NE (T " />") (">" :: escaped escape txt ++ concat (map to_string kids) ++ T "</" ++ tag ++ [">"])) as [E|[-> ->]].
  - rewrite E in *. rewrite (p_attrs_all attrs _ _ ((">" :: escaped escape txt ++ concat (map to_string kids) ++ T "</" ++ tag ++ [">"]) ++ rest)); [|exact WA|exact ND| |left; split; [reflexivity|eexists; reflexivity]].
    2:{ rewrite app_length. pose proof (attrs_length attrs). cbn [app length]. lia. }
    cbn [app]. rewrite <- app_assoc. rewrite p_text_spec.
    2:{ destruct kids as [|c kids]; [reflexivity|]. inversion WK as [|? ? WC _]; subst. destruct (to_string_start c WC) as (x & l & EQ & _). cbn [map concat]. rewrite EQ. reflexivity. }
    assert (B : forall l : list xelt, Forall (fun e => wf e -> forall n rest, (length (to_string (notail e)) <= n)%nat -> p_elt n (to_string (notail e) ++ rest) = Some (notail e, rest)) l -> Forall wf l -> forall n rest,
        (length (concat (map to_string l)) < n)%nat -> p_elts n (concat (map to_string l) ++ "<" :: "/" :: rest) = Some (l, "<" :: "/" :: rest)).
    { clear. induction l as [|c l IHl]; intros FA W n rest L; (destruct n as [|n]; [lia|]); [reflexivity|].
      inversion FA as [|? ? HC FA']; subst. inversion W as [|? ? WC W']; subst. cbn [map concat] in *. rewrite app_length, to_string_tail, app_length in L. rewrite to_string_tail, <- !app_assoc.
      assert (WN : wf (notail c)). { destruct c as [a b t k tl]. destruct WC as (A1 & A2 & A3 & A4 & A5). split; [exact A1|split; [exact A2|split; [exact A3|split; [|exact A5]]]]. rewrite app_nil_r. apply Forall_app in A4 as [A4 _]. exact A4. }
      destruct (to_string_start _ WN) as (x & r & EQ & NC). rewrite EQ in *. cbn [app]. rewrite p_elts_cons by exact NC.
      change ("<" :: x :: r ++ escaped escape (xtail c) ++ concat (map to_string l) ++ "<" :: "/" :: rest) with (("<" :: x :: r) ++ escaped escape (xtail c) ++ concat (map to_string l) ++ "<" :: "/" :: rest).
      rewrite HC by (exact WC || (cbn [length] in *; lia)). destruct c as [a b t k tl]. cbn [notail xtail] in *. rewrite p_text_spec.
      2:{ destruct l as [|d l]; [reflexivity|]. inversion W' as [|? ? WD _]; subst. destruct (to_string_start d WD) as (y & z & EQ' & _). cbn [map concat]. rewrite EQ'. reflexivity. }
      rewrite IHl by (assumption || (cbn [length] in *; lia)). reflexivity. }
    rewrite <- !app_assoc. change (T "</" ++ tag ++ [">"] ++ rest) with ("<" :: "/" :: tag ++ ">" :: rest). rewrite B; [|exact IH|exact WK|].
    2:{ cbn [length] in L. rewrite !app_length in L. cbn [T list_ascii_of_string length] in L. lia. }
    destruct WT as [_ FT]. rewrite (span_app name_char tag (">" :: rest)) by (exact FT || reflexivity). destruct (teqb_spec tag tag); [reflexivity|contradiction].
  - rewrite (p_attrs_all attrs _ _ ("/" :: ">" :: rest)); [reflexivity|exact WA|exact ND| |right; split; [reflexivity|eexists; reflexivity]]. rewrite app_length. pose proof (attrs_length attrs). cbn [T list_ascii_of_string app length]. lia.
Qed.
Lemma parse_xml_to_string e : wf e -> xtail e = [] -> parse_xml (to_string e) = Some e.
Proof.
  intros W E. unfold parse_xml. assert (N : notail e = e) by (destruct e; cbn in *; subst; reflexivity). pose proof (parse_to_string e W (length (to_string e)) []) as P. rewrite N, app_nil_r in P. rewrite P by reflexivity. reflexivity.
Qed.
