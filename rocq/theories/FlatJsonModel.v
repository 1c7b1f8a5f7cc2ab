(** Model of write_json (src/glimpse/helpers.py:265-305) with default separators.
    Texts are lists of ASCII characters.  json.dumps is modelled for objects, arrays, strings of printable ASCII characters, and other values by their texts. *)
From Coq Require Import String Ascii.
From Verif Require Import Base SvgModel SvgDocModel.
Notation length := List.length.
Open Scope char_scope.

Inductive json := JAtom (t : text) | JStr (s : text) | JList (l : list json) | JObj (l : list (text * json)).
Definition esc (c : ascii) : text := if (Ascii.eqb c quote || Ascii.eqb c "\")%bool then ["\"; c] else [c].
Definition show_str (s : text) : text := quote :: concat (map esc s) ++ [quote].
(** json.dumps: a line for each item if there is an indent (a number of spaces; none for negative numbers) *)
Definition line (indent : option Z) (level : nat) : text := match indent with None => [] | Some n => "010" :: times level (repeat " " (Z.to_nat n)) end.
Definition comma (indent : option Z) (level : nat) : text := match indent with None => [","; " "] | Some _ => "," :: line indent level end.
Fixpoint dumps (indent : option Z) (level : nat) (v : json) : text :=
  match v with
  | JAtom t => t
  | JStr s => show_str s
  | JList [] => ["["; "]"]
  | JList l => "[" :: line indent (S level) ++ join (comma indent (S level)) (map (dumps indent (S level)) l) ++ line indent level ++ ["]"]
  | JObj [] => ["{"; "}"]
  | JObj l => "{" :: line indent (S level) ++ join (comma indent (S level)) (map (fun kv => show_str (fst kv) ++ [":"; " "] ++ dumps indent (S level) (snd kv)) l) ++ line indent level ++ ["}"]
  end.
(** The regular expression of helpers.py:298: opening brackets and blanks, other characters than closing brackets and opening braces, closing brackets and blanks.
    As [^\]\{]* also matches brackets and blanks, there is a match exactly if a closing bracket comes before an opening brace; further closing brackets are part of it. *)
Fixpoint closings (n : nat) (l : text) : text * text :=
  match n with
  | O => ([], l)
  | S n => match span space l with (w, "]" :: r) => let (a, b) := closings n r in (w ++ "]" :: a, b) | _ => ([], l) end
  end.
Definition m_array (l : text) : option (text * text) :=
  match l with
  | "[" :: r => match span (fun c => negb (Ascii.eqb c "]" || Ascii.eqb c "{")%bool) r with
                | (a, "]" :: b) => let (c, d) := closings (length b) b in Some ("[" :: a ++ "]" :: c, d)
                | _ => None
                end
  | _ => None
  end.
(** helpers.py:295-296: blanks are removed, then each "," becomes ", " *)
Definition flat_char (c : ascii) : text := if space c then [] else if Ascii.eqb c "," then [","; " "] else [c].
Definition flatten (m : text) : text := concat (map flat_char m).
(** re.sub *)
Fixpoint sub_ (n : nat) (l : text) : text :=
  match n, l with
  | S n, c :: r => match m_array l with Some (m, rest) => flatten m ++ sub_ n rest | None => c :: sub_ n r end
  | _, _ => []
  end.
Definition sub (l : text) : text := sub_ (length l) l.
(** write_json without path *)
Definition write_json (v : json) (flat_arrays : bool) (indent : option Z) : result text :=
  let txt := dumps indent 0 v in
  if flat_arrays then match indent with None => Err TypeError | Some n => Ok (if (0 <=? n)%Z then sub txt else txt) end else Ok txt.
