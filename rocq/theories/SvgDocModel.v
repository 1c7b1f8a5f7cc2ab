(** Model of SVG documents: element constructors, indentation, writing and reading of XML (src/glimpse/svg.py:29-39, 104-120, 219-409).
    Texts are lists of ASCII characters.  xml.etree.ElementTree is modelled for documents of elements, attributes and text
    (no declarations, comments, CDATA or processing instructions): tostring with its escapes, the parser with its namespaces.
    Missing (None) texts and tails are empty texts, which are written the same way. *)
From Coq Require Import String Ascii.
From Verif Require Import Base SvgModel.
Notation length := List.length.
Open Scope char_scope.

Inductive xelt := XElt (tag : text) (attrs : list (text * text)) (txt : text) (kids : list xelt) (tail : text).
Definition xtag (e : xelt) : text := match e with XElt t _ _ _ _ => t end.
Definition xattrs (e : xelt) : list (text * text) := match e with XElt _ a _ _ _ => a end.
Definition xkids (e : xelt) : list xelt := match e with XElt _ _ _ k _ => k end.
Definition teqb (a b : text) : bool := if list_eq_dec ascii_dec a b then true else false.
Fixpoint lookup (k : text) (d : list (text * text)) : option text := match d with [] => None | (k', v) :: r => if teqb k k' then Some v else lookup k r end.
(** d[k] = v *)
Fixpoint put (k v : text) (d : list (text * text)) : list (text * text) :=
  match d with [] => [(k, v)] | (k', v') :: r => if teqb k k' then (k', v) :: r else (k', v') :: put k v r end.
(** {**d, **d'} *)
Definition update (d d' : list (text * text)) : list (text * text) := fold_left (fun d kv => put (fst kv) (snd kv) d) d' d.
(** e.iter(): the element and its descendants in document order *)
Fixpoint xiter (e : xelt) : list xelt := match e with XElt _ _ _ k _ => e :: concat (map xiter k) end.

(** ** Constructors *)
Definition svg_ns : text := T "http://www.w3.org/2000/svg".
Definition xlink_ns : text := T "http://www.w3.org/1999/xlink".
(** svg, svg.py:219-257 *)
Definition svg_el (children : list xelt) (attrib : list (text * text)) : xelt :=
  let images := filter (fun e => teqb (xtag e) (T "image")) (concat (map xiter children)) in
  let attrib := match lookup (T "width") attrib, lookup (T "height") attrib, rev images with
                | None, None, im :: _ =>
                  match lookup (T "width") (xattrs im), lookup (T "height") (xattrs im) with
                  | Some ((_ :: _) as w), Some ((_ :: _) as h) => update [(T "height", h); (T "width", w)] attrib
                  | _, _ => attrib
                  end
                | _, _, _ => attrib
                end in
  XElt (T "svg") (update attrib [(T "xmlns", svg_ns); (T "xmlns:xlink", xlink_ns)]) [] children [].
(** g, svg.py:260-284 *)
Definition g_el (children : list xelt) (attrib : list (text * text)) : xelt := XElt (T "g") attrib [] children [].
(** image, svg.py:287-313: [width] and [height] as str prints them *)
Definition image_el (width height : text) (href : text) (attrib : list (text * text)) : xelt :=
  let optional := match href with [] => [] | _ => [(T "xlink:href", href)] end in
  XElt (T "image") (update (update [(T "height", height); (T "width", width)] optional) attrib) [] [] [].
(** path, svg.py:316-341: [d] is the text given, or that of Points.to_element *)
Definition path_el (d : text) (attrib : list (text * text)) : xelt := XElt (T "path") (update [(T "d", d)] attrib) [] [] [].

(** ** Indentation *)
(** str.strip: ASCII whitespace *)
Definition space (c : ascii) : bool := (between "009" "013" c || between "028" " " c)%bool.
Definition blank (t : text) : bool := forallb space t.
Inductive indent := NoIndent | Spaces (n : Z) | Tab (s : text).
Definition sep (i : indent) : text := match i with NoIndent => [] | _ => ["010"] end.
Definition tab (i : indent) : text := match i with NoIndent => [] | Spaces n => repeat " " (Z.to_nat n) | Tab s => s end.
Definition times (n : nat) (t : text) : text := concat (repeat t n).
(** _indent_etree, svg.py:344-364 *)
Fixpoint indent_etree (i : indent) (level : nat) (lst : bool) (e : xelt) : xelt :=
  match e with
  | XElt tag attrs txt kids tail =>
    match kids with
    | [] => XElt tag attrs txt [] (match level with O => [] | _ => if blank tail then sep i ++ times (level - if lst then 1 else 0) (tab i) else tail end)
    | _ =>
      let txt := if blank txt then sep i ++ times (level + 1) (tab i) else txt in
      let tail := if blank tail then sep i ++ times level (tab i) else tail in
      let kids := (fix go l := match l with [] => [] | c :: r => indent_etree i (S level) (match r with [] => true | _ => false end) c :: go r end) kids in
      let tail := if blank tail then sep i ++ times (level - 1) (tab i) else tail in
      XElt tag attrs txt kids (match level with O => [] | _ => tail end)
    end
  end.

(** ** Writing: ElementTree.tostring(encoding="unicode") *)
Definition escape (c : ascii) : text :=
  if Ascii.eqb c "&" then T "&amp;" else if Ascii.eqb c "<" then T "&lt;" else if Ascii.eqb c ">" then T "&gt;" else [c].
Definition quote : ascii := """".
(** Control characters in attributes, which ElementTree also escapes (differently in different versions of Python), are not modelled. *)
Definition escape_attrib (c : ascii) : text := if Ascii.eqb c quote then T "&quot;" else escape c.
Definition escaped (f : ascii -> text) (t : text) : text := concat (map f t).
Definition show_attr (kv : text * text) : text := " " :: fst kv ++ "=" :: quote :: escaped escape_attrib (snd kv) ++ [quote].
Fixpoint to_string (e : xelt) : text :=
  match e with
  | XElt tag attrs txt kids tail =>
    "<" :: tag ++ concat (map show_attr attrs) ++
    (match txt, kids with
     | [], [] => T " />"
     | _, _ => ">" :: escaped escape txt ++ concat (map to_string kids) ++ T "</" ++ tag ++ [">"]
     end) ++ escaped escape tail
  end.
(** write without path, svg.py:367-370, 373-409; the element itself is not changed (it is copied) *)
Definition write (e : xelt) (i : indent) : text := to_string (indent_etree i 0 false e).

(** ** Reading: ElementTree.parse *)
Definition name_char (c : ascii) : bool := (letter c || digit c || Ascii.eqb c ":" || Ascii.eqb c "_" || Ascii.eqb c "-" || Ascii.eqb c ".")%bool.
Definition xml_space (c : ascii) : bool := (Ascii.eqb c " " || Ascii.eqb c "009" || Ascii.eqb c "010" || Ascii.eqb c "013")%bool.
Fixpoint unescape (t : text) : option text :=
  match t with
  | [] => Some []
  | "&" :: r =>
    match r with
    | "a" :: "m" :: "p" :: ";" :: r' => option_map (cons "&") (unescape r')
    | "l" :: "t" :: ";" :: r' => option_map (cons "<") (unescape r')
    | "g" :: "t" :: ";" :: r' => option_map (cons ">") (unescape r')
    | "q" :: "u" :: "o" :: "t" :: ";" :: r' => option_map (cons quote) (unescape r')
    | _ => None
    end
  | c :: r => option_map (cons c) (unescape r)
  end.
Fixpoint p_attrs (n : nat) (l : text) : option (list (text * text) * text) :=
  match n with
  | O => None
  | S n =>
    match span xml_space l with
    | ([], _) => Some ([], l)
    | (_, l) =>
      match span name_char l with
      | ([], _) => Some ([], l)
      | (k, "=" :: q :: r) =>
        if Ascii.eqb q quote then
          match span (fun c => negb (Ascii.eqb c quote || Ascii.eqb c "<")%bool) r with
          | (v, q' :: r) =>
            if Ascii.eqb q' quote then
              match unescape v, p_attrs n r with
              | Some v, Some (kvs, r) => if existsb (fun kv => teqb k (fst kv)) kvs then None else Some ((k, v) :: kvs, r)
              | _, _ => None
              end
            else None
          | _ => None
          end
        else None
      | _ => None
      end
    end
  end.
Definition p_text (l : text) : option (text * text) := let (t, r) := span (fun c => negb (Ascii.eqb c "<")) l in match unescape t with Some t => Some (t, r) | None => None end.
(** an element, without its tail; and the elements, with their tails, up to an end tag *)
Fixpoint p_elt (n : nat) (l : text) : option (xelt * text) :=
  match n with
  | O => None
  | S n =>
    match l with
    | "<" :: l =>
      match span name_char l with
      | ([], _) => None
      | (tag, l) =>
        match p_attrs (length l) l with
        | Some (attrs, "/" :: ">" :: l) => Some (XElt tag attrs [] [] [], l)
        | Some (attrs, ">" :: l) =>
          match p_text l with
          | Some (txt, l) =>
            match p_elts n l with
            | Some (kids, "<" :: "/" :: l) =>
              match span name_char l with
              | (tag', ">" :: l) => if teqb tag tag' then Some (XElt tag attrs txt kids [], l) else None
              | _ => None
              end
            | _ => None
            end
          | None => None
          end
        | _ => None
        end
      end
    | _ => None
    end
  end
with p_elts (n : nat) (l : text) : option (list xelt * text) :=
  match n with
  | O => None
  | S n =>
    match l with
    | "<" :: "/" :: _ => Some ([], l)
    | _ =>
      match p_elt n l with
      | Some (XElt tag attrs txt kids _, l) =>
        match p_text l with
        | Some (tail, l) => match p_elts n l with Some (es, l) => Some (XElt tag attrs txt kids tail :: es, l) | None => None end
        | None => None
        end
      | None => None
      end
    end
  end.
Definition parse_xml (l : text) : option xelt :=
  match p_elt (length l) l with Some (e, r) => if forallb xml_space r then Some e else None | None => None end.
(** Namespaces: declarations are removed, names become "{uri}name"; a prefix that is not declared is an error *)
Definition split_name (k : text) : option text * text :=
  match span (fun c => negb (Ascii.eqb c ":")) k with (p, _ :: r) => (Some p, r) | (_, []) => (None, k) end.
Definition qualified (uri name : text) : text := match uri with [] => name | _ => "{" :: uri ++ "}" :: name end.
Definition qname (env : list (text * text)) (default : bool) (k : text) : option text :=
  match split_name k with
  | (None, k) => Some (if default then match lookup [] env with Some u => qualified u k | None => k end else k)
  | (Some p, k) => option_map (fun u => qualified u k) (lookup p env)
  end.
Definition declared (kv : text * text) : option (text * text) :=
  if teqb (fst kv) (T "xmlns") then Some ([], snd kv) else match split_name (fst kv) with (Some p, k) => if teqb p (T "xmlns") then Some (k, snd kv) else None | _ => None end.
Fixpoint omap {A B} (f : A -> option B) (l : list A) : option (list B) :=
  match l with [] => Some [] | x :: r => match f x, omap f r with Some y, Some ys => Some (y :: ys) | _, _ => None end end.
Fixpoint resolve (env : list (text * text)) (e : xelt) : option xelt :=
  match e with
  | XElt tag attrs txt kids tail =>
    let env := concat (map (fun kv => match declared kv with Some d => [d] | None => [] end) attrs) ++ env in
    match qname env true tag,
          omap (fun kv => option_map (fun k => (k, snd kv)) (qname env false (fst kv))) (filter (fun kv => match declared kv with Some _ => false | None => true end) attrs),
          (fix go l := match l with [] => Some [] | c :: r => match resolve env c, go r with Some c, Some r => Some (c :: r) | _, _ => None end end) kids with
    | Some tag, Some attrs, Some kids => Some (XElt tag attrs txt kids tail)
    | _, _, _ => None
    end
  end.
Definition xml_env : list (text * text) := [(T "xml", T "http://www.w3.org/XML/1998/namespace")].
(** The regular expression of svg.py:31: from the first opening to the last closing brace of a line; what follows the last closing brace *)
Fixpoint last_brace (l : text) : option text :=
  match l with [] => None | c :: r => if Ascii.eqb c "010" then None else match last_brace r with Some x => Some x | None => if Ascii.eqb c "}" then Some r else None end end.
Fixpoint strip_braces_ (n : nat) (l : text) : text :=
  match n, l with
  | S n, c :: r => if Ascii.eqb c "{" then match last_brace r with Some rest => strip_braces_ n rest | None => c :: strip_braces_ n r end else c :: strip_braces_ n r
  | _, _ => []
  end.
Definition strip_braces (l : text) : text := strip_braces_ (length l) l.
(** _strip_etree_namespaces, svg.py:29-39: keys and values; later keys that become equal replace the earlier value *)
Fixpoint strip_ns (e : xelt) : xelt :=
  match e with XElt tag attrs txt kids tail => XElt (strip_braces tag) (update [] (map (fun kv => (strip_braces (fst kv), strip_braces (snd kv))) attrs)) txt (map strip_ns kids) tail end.
(** the elements as the model of read sees them *)
Fixpoint to_elt (e : xelt) : elt :=
  match e with XElt tag attrs _ kids _ => Elt (string_of_list_ascii tag) (map (fun kv => (string_of_list_ascii (fst kv), snd kv)) attrs) (map to_elt kids) end.
(** svg.py:104-120, 146-173: errors of the parser are OtherError (ParseError) *)
Definition read_text (num : text -> R) (key : option string) (imgsz : option (R * R)) (l : text) : result value :=
  match parse_xml l with
  | None => Err OtherError
  | Some e =>
    match resolve xml_env e with
    | None => Err OtherError
    | Some e =>
      let all := xiter (strip_ns e) in
      match filter (fun e => teqb (xtag e) (T "svg")) all with
      | [svg] =>
        let images := filter (fun e => teqb (xtag e) (T "image")) all in
        match imgsz, images with
        | Some _, [] => Err ValueError
        | _, _ => read num key (if existsb (fun e => teqb (xtag e) (T "image")) (xiter svg) then imgsz else None) (to_elt svg)
        end
      | _ => Err ValueError
      end
    end
  end.
