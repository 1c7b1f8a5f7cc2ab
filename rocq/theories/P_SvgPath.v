(** Property C49: the vertices of a path are those of the SVG grammar, for every path with one closed subpath. *)
From Coq Require Import String Ascii.
From Verif Require Import Base SvgModel SvgProofs P_Svg.
Open Scope char_scope.

(** ** Specification: SVG path commands (https://www.w3.org/TR/SVG11/paths.html#PathData) *)
Inductive kind := MoveTo | LineTo | CurveTo | SmoothCurveTo | QuadTo | SmoothQuadTo | ArcTo.
(** number of parameters before the end point *)
Definition controls (k : kind) : nat := match k with MoveTo | LineTo | SmoothQuadTo => 0 | CurveTo => 4 | SmoothCurveTo | QuadTo => 2 | ArcTo => 5 end.
Definition kind_letter (k : kind) (rel : bool) : ascii :=
  match k, rel with
  | MoveTo, false => "M" | LineTo, false => "L" | CurveTo, false => "C" | SmoothCurveTo, false => "S" | QuadTo, false => "Q" | SmoothQuadTo, false => "T" | ArcTo, false => "A"
  | MoveTo, true => "m" | LineTo, true => "l" | CurveTo, true => "c" | SmoothCurveTo, true => "s" | QuadTo, true => "q" | SmoothQuadTo, true => "t" | ArcTo, true => "a"
  end.
Section Spec.
Context {N : Type} (num : text -> N) (add : N -> N -> N).
Notation pt := (N * N)%type.
Inductive pcmd :=
| Seg (k : kind) (rel : bool) (args : list (list N * pt))
| Hor (rel : bool) (xs : list N)
| Ver (rel : bool) (ys : list N)
| Close (rel : bool).
Definition letter_of (c : pcmd) : ascii :=
  match c with
  | Seg k rel _ => kind_letter k rel
  | Hor rel _ => if rel then "h" else "H"
  | Ver rel _ => if rel then "v" else "V"
  | Close rel => if rel then "z" else "Z"
  end.
Definition params_of (c : pcmd) : list N :=
  match c with
  | Seg _ _ args => concat (map (fun a => fst a ++ [fst (snd a); snd (snd a)]) args)
  | Hor _ xs => xs
  | Ver _ ys => ys
  | Close _ => []
  end.
Definition right_controls (c : pcmd) : Prop := match c with Seg k _ args => Forall (fun a => length (fst a) = controls k) args | _ => True end.
Definition is_move (c : pcmd) : bool := match c with Seg MoveTo _ _ => true | _ => false end.
Definition is_close (c : pcmd) : bool := match c with Close _ => true | _ => false end.

(** the vertices drawn from the current point *)
Fixpoint steps {A} (f : pt -> A -> pt) (cur : pt) (l : list A) : list pt := match l with [] => [] | a :: r => f cur a :: steps f (f cur a) r end.
Definition to_pt (rel : bool) (cur p : pt) : pt := if rel then (add (fst cur) (fst p), add (snd cur) (snd p)) else p.
Definition to_x (rel : bool) (cur : pt) (x : N) : pt := (if rel then add (fst cur) x else x, snd cur).
Definition to_y (rel : bool) (cur : pt) (y : N) : pt := (fst cur, if rel then add (snd cur) y else y).
Definition draw (start cur : pt) (c : pcmd) : list pt :=
  match c with
  | Seg _ rel args => steps (to_pt rel) cur (map snd args)
  | Hor rel xs => steps (to_x rel) cur xs
  | Ver rel ys => steps (to_y rel) cur ys
  | Close _ => [start]
  end.
(** [start] is the start of the current subpath: a moveTo begins a new one *)
Fixpoint trace (start cur : pt) (cmds : list pcmd) : list pt :=
  match cmds with
  | [] => []
  | c :: r => let v := draw start cur c in v ++ trace (if is_move c then hd start v else start) (last v cur) r
  end.
(** a path begins with a moveTo, whose first point is absolute *)
Definition path_points (rel : bool) (p : pt) (ps : list pt) (cmds : list pcmd) : list pt :=
  let v := p :: steps (to_pt rel) p ps in v ++ trace p (last v p) cmds.
(** the letter of a command followed by a text of its parameters *)
Definition written (c : pcmd) (b : ascii * text) : Prop :=
  fst b = letter_of c /\ no_cmd (snd b) /\ (exists ts, spells (snd b) ts /\ map num ts = params_of c).
(** something follows every letter, except a closePath at the end *)
Fixpoint separated (cmds : list pcmd) (bs : list (ascii * text)) : Prop :=
  match cmds, bs with
  | [c], [b] => snd b <> [] \/ is_close c = true
  | c :: cmds, b :: bs => snd b <> [] /\ separated cmds bs
  | _, _ => True
  end.
(* ---------------------------------------------------------------- *)

Lemma vertices_args k (args : list (list N * pt)) : Forall (fun a => length (fst a) = k) args ->
  vertices (k + 2) (concat (map (fun a => fst a ++ [fst (snd a); snd (snd a)]) args)) = map snd args.
Proof.
  unfold vertices. induction 1 as [|[a [x y]] args L F IH]; [cbn; destruct (k + 2)%nat; reflexivity|]. cbn [map concat fst snd]. rewrite chunks_cons; [|lia|rewrite app_length; cbn in *; lia]. cbn [map concat]. rewrite rev_app_distr. cbn [rev app]. rewrite IH. reflexivity.
Qed.
Lemma last_snoc (xy : list pt) p : last_ (xy ++ [p]) = Ok p. Proof. unfold last_. now rewrite rev_app_distr. Qed.
Lemma foldM_steps {A} (f : list pt -> A -> result (list pt)) g l : (forall xy p a, f (xy ++ [p]) a = Ok (xy ++ [p] ++ [g p a])) -> forall xy p, foldM f l (xy ++ [p]) = Ok (xy ++ [p] ++ steps g p l).
Proof.
  intros H. induction l as [|a l IH]; intros xy p; cbn [foldM steps]; [now rewrite app_nil_r|]. rewrite H. cbn [bind]. rewrite app_assoc, IH, <- app_assoc. reflexivity.
Qed.
Lemma next_step rel xy p q : next add rel (xy ++ [p]) q = Ok (xy ++ [p] ++ [to_pt rel p q]).
Proof. unfold next, to_pt. destruct rel; [rewrite last_snoc; cbn [bind]|]; now rewrite <- app_assoc. Qed.
Lemma first_step xy p q : match xy ++ [p] with [] => Ok [q] | _ => next add true (xy ++ [p]) q end = Ok (xy ++ [p] ++ [to_pt true p q]).
Proof. rewrite <- (next_step true xy p q). destruct xy; reflexivity. Qed.
Lemma command_draw c xy p start : right_controls c -> hd_error (xy ++ [p]) = Some start -> command add [letter_of c] (params_of c) (xy ++ [p]) = Ok (xy ++ [p] ++ draw start p c).
Proof.
  intros R E. destruct c as [k rel args|rel xs|rel ys|rel]; cbn [letter_of params_of draw right_controls] in *.
  - pose proof (vertices_args _ _ R) as V. destruct k, rel; cbn [kind_letter command controls Nat.add] in *; rewrite V; (apply foldM_steps; intros; first [apply (next_step false)|apply (next_step true)|apply first_step]).
  - destruct rel; cbn [command]; apply foldM_steps; intros; rewrite last_snoc; cbn [bind]; now rewrite <- app_assoc.
  - destruct rel; cbn [command]; apply foldM_steps; intros; rewrite last_snoc; cbn [bind]; now rewrite <- app_assoc.
  - assert (F : first_ (xy ++ [p]) = Ok start) by (destruct xy; cbn in *; congruence). destruct rel; cbn [command]; rewrite F; cbn [bind]; now rewrite <- app_assoc.
Qed.
Lemma snoc_last (xy : list pt) p v : exists xy', xy ++ [p] ++ v = xy' ++ [last v p].
Proof. destruct v as [|q v] using rev_ind; [exists xy; reflexivity|]. exists (xy ++ [p] ++ v). rewrite last_last, <- !app_assoc. reflexivity. Qed.
(** Commands without a new subpath, or without closePath *)
Lemma trace_commands cmds bs : Forall2 written cmds bs -> Forall right_controls cmds -> forall xy p start first,
  hd_error (xy ++ [p]) = Some first -> (forall pre post, cmds = pre ++ post -> existsb is_close post = true -> start = first /\ existsb is_move pre = false) ->
  foldM (fun xy b => command add [fst b] (coords num (snd b)) xy) bs (xy ++ [p]) = Ok (xy ++ [p] ++ trace start p cmds).
Proof.
  induction 1 as [|c b cmds bs (L & _ & ts & S & Em) W IH]; intros R xy p start first E H; cbn [foldM trace]; [now rewrite app_nil_r|].
  inversion R as [|? ? Rc R']; subst. unfold coords. rewrite (spells_findall _ _ S), Em, L.
  assert (D : draw first p c = draw start p c). { destruct c; try reflexivity. destruct (H [] (Close rel :: cmds) eq_refl eq_refl) as [-> _]. reflexivity. }
  rewrite (command_draw c xy p first Rc E), D. cbn [bind]. destruct (snoc_last xy p (draw start p c)) as (xy' & Ex). rewrite Ex.
  rewrite (IH R' xy' _ (if is_move c then hd start (draw start p c) else start) first).
  - rewrite app_assoc, <- Ex, <- !app_assoc. reflexivity.
  - rewrite <- Ex. destruct xy; cbn in *; exact E.
  - intros pre post -> K. destruct (H (c :: pre) post eq_refl K) as [-> M]. cbn [existsb] in M. apply orb_false_iff in M as [-> M]. auto.
Qed.
Lemma separated_good cmds bs : Forall2 written cmds bs -> separated cmds bs -> good_blocks bs /\ forall c r, bs = r ++ [(c, [])] -> is_z c = true.
Proof.
  intros W S. assert (LZ : forall c, is_close c = true -> is_z (letter_of c) = true) by (intros [? ? ?|? ?|? ?|[]]; discriminate || reflexivity).
  assert (LC : forall c, cmd_char (letter_of c) = true) by (intros [[] [] ?|[] ?|[] ?|[]]; reflexivity).
  split; [split|].
  - clear S. induction W as [|c b cmds bs (L & Nc & _) W IH]; constructor; [|exact IH]. rewrite L. split; [apply LC|exact Nc].
  - induction W as [|c b cmds bs (L & Nc & _) W IH]; intros b' r E; [destruct r; discriminate|]. destruct r as [|b0 r]; [constructor|]. injection E as -> ->. destruct cmds as [|c' cmds]; [inversion W; destruct r; discriminate|].
    destruct S as [S1 S2]. constructor; [exact S1|]. eapply IH; [exact S2|reflexivity].
  - induction W as [|c b cmds bs (L & Nc & _) W IH]; intros x r E; [destruct r; discriminate|]. destruct r as [|b0 r].
    + injection E as -> ->. inversion W; subst. cbn in S. destruct S as [S|S]; [contradiction|]. cbn in L. subst x. now apply LZ.
    + injection E as -> ->. destruct cmds as [|c' cmds]; [inversion W; destruct r; discriminate|]. destruct S as [_ S2]. eapply IH; [exact S2|reflexivity].
Qed.

(** The vertices read from a path that begins with a moveTo, however its numbers are spelled and separated, are those of the SVG specification:
    upper case letters absolute, lower case relative, control points dropped, closePath back to the start - if no closePath follows a second moveTo. *)
Theorem path_vertices rel p args cs1 cs2 bs :
  let cmds := Seg MoveTo rel (([], p) :: args) :: cs1 ++ cs2 in
  Forall2 written cmds bs -> separated cmds bs -> Forall right_controls cmds ->
  existsb is_move cs1 = false -> existsb is_close cs2 = false ->
  from_path num add (blocks bs) = Ok (path_points rel p (map snd args) (cs1 ++ cs2)).
Proof.
  intros cmds W S R M C. destruct (separated_good _ _ W S) as [G Z]. rewrite (from_path_blocks num add bs G Z). unfold cmds in W, R. inversion W as [|? b ? bs' (L & _ & ts & Sp & Em) W']; subst. inversion R as [|? ? Rc R']; subst.
  cbn [foldM]. unfold coords at 1. rewrite (spells_findall _ _ Sp), Em, L. unfold path_points.
  assert (E : command add [letter_of (Seg MoveTo rel (([], p) :: args))] (params_of (Seg MoveTo rel (([], p) :: args))) [] = Ok ([p] ++ steps (to_pt rel) p (map snd args))).
  { cbn [letter_of params_of]. cbn [right_controls] in Rc. pose proof (vertices_args _ _ Rc) as V. cbn [controls Nat.add] in V. destruct rel; cbn [kind_letter command]; rewrite V; cbn [map snd foldM next bind app].
    - apply (foldM_steps _ (to_pt true) (map snd args)) with (xy := []). intros. apply first_step.
    - apply (foldM_steps _ (to_pt false) (map snd args)) with (xy := []). intros. apply (next_step false). }
  rewrite E. cbn [bind]. destruct (snoc_last [] p (steps (to_pt rel) p (map snd args))) as (xy' & Ex). cbn [app] in *. rewrite Ex.
  assert (El : last (p :: steps (to_pt rel) p (map snd args)) p = last (steps (to_pt rel) p (map snd args)) p) by (destruct (steps (to_pt rel) p (map snd args)); reflexivity).
  rewrite (trace_commands _ _ W' R' xy' _ p p).
  - rewrite app_assoc, <- Ex, El. reflexivity.
  - rewrite <- Ex. reflexivity.
  - intros pre post Ep K. split; [reflexivity|]. clear - Ep K M C. revert pre Ep. induction cs1 as [|c cs1 IH]; intros pre Ep.
    + cbn [app] in Ep. subst cs2. rewrite existsb_app, K, orb_true_r in C. discriminate.
    + cbn [existsb] in M. apply orb_false_iff in M as [Mc M]. destruct pre as [|c' pre]; [reflexivity|]. injection Ep as <- Ep. cbn [existsb]. rewrite Mc. now apply IH.
Qed.
(** The vertices if a closePath always returns to the first point of the whole path. *)
Fixpoint trace_first (first cur : pt) (cmds : list pcmd) : list pt :=
  match cmds with [] => [] | c :: r => let v := draw first cur c in v ++ trace_first first (last v cur) r end.
Definition path_points_first (rel : bool) (p : pt) (ps : list pt) (cmds : list pcmd) : list pt :=
  let v := p :: steps (to_pt rel) p ps in v ++ trace_first p (last v p) cmds.
Lemma trace_first_commands cmds bs : Forall2 written cmds bs -> Forall right_controls cmds -> forall xy p first,
  hd_error (xy ++ [p]) = Some first ->
  foldM (fun xy b => command add [fst b] (coords num (snd b)) xy) bs (xy ++ [p]) = Ok (xy ++ [p] ++ trace_first first p cmds).
Proof.
  induction 1 as [|c b cmds bs (L & _ & ts & S & Em) W IH]; intros R xy p first E; cbn [foldM trace_first]; [now rewrite app_nil_r|].
  inversion R as [|? ? Rc R']; subst. unfold coords. rewrite (spells_findall _ _ S), Em, L.
  rewrite (command_draw c xy p first Rc E). cbn [bind]. destruct (snoc_last xy p (draw first p c)) as (xy' & Ex). rewrite Ex.
  rewrite (IH R' xy' _ first).
  - rewrite app_assoc, <- Ex, <- !app_assoc. reflexivity.
  - rewrite <- Ex. destruct xy; cbn in *; exact E.
Qed.
(** However many subpaths a path has, every closePath is read as a line to the first point of the whole path. *)
Theorem path_vertices_first rel p args cs bs :
  let cmds := Seg MoveTo rel (([], p) :: args) :: cs in
  Forall2 written cmds bs -> separated cmds bs -> Forall right_controls cmds ->
  from_path num add (blocks bs) = Ok (path_points_first rel p (map snd args) cs).
Proof.
  intros cmds W S R. destruct (separated_good _ _ W S) as [G Z]. rewrite (from_path_blocks num add bs G Z). unfold cmds in W, R. inversion W as [|? b ? bs' (L & _ & ts & Sp & Em) W']; subst. inversion R as [|? ? Rc R']; subst.
  cbn [foldM]. unfold coords at 1. rewrite (spells_findall _ _ Sp), Em, L. unfold path_points_first.
  assert (E : command add [letter_of (Seg MoveTo rel (([], p) :: args))] (params_of (Seg MoveTo rel (([], p) :: args))) [] = Ok ([p] ++ steps (to_pt rel) p (map snd args))).
  { cbn [letter_of params_of]. cbn [right_controls] in Rc. pose proof (vertices_args _ _ Rc) as V. cbn [controls Nat.add] in V. destruct rel; cbn [kind_letter command]; rewrite V; cbn [map snd foldM next bind app].
    - apply (foldM_steps _ (to_pt true) (map snd args)) with (xy := []). intros. apply first_step.
    - apply (foldM_steps _ (to_pt false) (map snd args)) with (xy := []). intros. apply (next_step false). }
  rewrite E. cbn [bind]. destruct (snoc_last [] p (steps (to_pt rel) p (map snd args))) as (xy' & Ex). cbn [app] in *. rewrite Ex.
  assert (El : last (p :: steps (to_pt rel) p (map snd args)) p = last (steps (to_pt rel) p (map snd args)) p) by (destruct (steps (to_pt rel) p (map snd args)); reflexivity).
  rewrite (trace_first_commands _ _ W' R' xy' _ p).
  - rewrite app_assoc, <- Ex, El. reflexivity.
  - rewrite <- Ex. reflexivity.
Qed.
Lemma trace_prefix a : existsb is_move a = false -> forall first cur, exists w X, forall b, trace_first first cur (a ++ b) = w ++ trace_first first X b /\ trace first cur (a ++ b) = w ++ trace first X b.
Proof.
  induction a as [|c a IH]; intros M first cur; [exists [], cur; split; reflexivity|]. cbn [existsb] in M. apply orb_false_iff in M as [Mc M].
  destruct (IH M first (last (draw first cur c) cur)) as (w & X & H). exists (draw first cur c ++ w), X. intros b. destruct (H b) as [H1 H2]. cbn [app trace_first trace]. rewrite Mc, H1, H2, <- !app_assoc. split; reflexivity.
Qed.
Lemma trace_same cmds : existsb is_move cmds = false -> forall first cur, trace_first first cur cmds = trace first cur cmds.
Proof. intros M first cur. destruct (trace_prefix cmds M first cur) as (w & X & H). destruct (H []) as [H1 H2]. rewrite app_nil_r in *. now rewrite H1, H2. Qed.
Lemma trace_only cmds : existsb is_move cmds = false -> existsb is_close cmds = true -> forall first start cur, trace_first first cur cmds = trace start cur cmds -> start = first.
Proof.
  induction cmds as [|c cmds IH]; intros M C first start cur E; [discriminate|]. cbn [existsb] in C, M. apply orb_false_iff in M as [Mc M]. cbn [trace_first trace] in E. rewrite Mc in E.
  destruct (is_close c) eqn:Cc; cbn [orb] in C.
  - destruct c; try discriminate Cc. cbn in E. now injection E as ->.
  - assert (D : draw first cur c = draw start cur c) by (destruct c; [reflexivity..|discriminate Cc]). rewrite D in E. apply app_inv_head in E. eapply IH; eauto.
Qed.
(** A path of two subpaths, the second closed, is read as SVG defines it only if both start at the same point. *)
Theorem path_two_subpaths_refuted rel p args q args2 cs1 cs2 bs :
  let cs := cs1 ++ Seg MoveTo false (([], q) :: args2) :: cs2 in
  let cmds := Seg MoveTo rel (([], p) :: args) :: cs in
  Forall2 written cmds bs -> separated cmds bs -> Forall right_controls cmds ->
  existsb is_move cs1 = false -> existsb is_move cs2 = false -> existsb is_close cs2 = true ->
  from_path num add (blocks bs) = Ok (path_points rel p (map snd args) cs) <-> q = p.
Proof.
  intros cs cmds W S R M1 M2 C. rewrite (path_vertices_first _ _ _ _ _ W S R). unfold path_points_first, path_points. fold cs.
  set (v := p :: steps (to_pt rel) p (map snd args)). destruct (trace_prefix cs1 M1 p (last v p)) as (w & X & H). destruct (H (Seg MoveTo false (([], q) :: args2) :: cs2)) as [H1 H2]. fold cs in H1, H2. rewrite H1, H2.
  cbn [trace_first trace is_move]. cbn [draw map snd steps to_pt hd]. split.
  - intros E. assert (E' : v ++ w ++ (q :: steps (to_pt false) q (map snd args2)) ++ trace_first p (last (q :: steps (to_pt false) q (map snd args2)) X) cs2 = v ++ w ++ (q :: steps (to_pt false) q (map snd args2)) ++ trace q (last (q :: steps (to_pt false) q (map snd args2)) X) cs2) by congruence.
    do 3 apply app_inv_head in E'. eapply trace_only; eauto.
  - intros ->. rewrite (trace_same cs2 M2). reflexivity.
Qed.
End Spec.
Print Assumptions path_vertices.
Print Assumptions path_vertices_first.
Print Assumptions path_two_subpaths_refuted.

(** ** Example, and paths that are read wrongly *)
Lemma number_digits t : digits t -> number t.
Proof. intros D. exists [], t, []. split; [now left|]. split; [now left|]. split; [now left|]. now rewrite app_nil_r. Qed.
Ltac spell :=
  repeat match goal with
  | |- spells [] [] => constructor
  | |- spells (?c :: ?l) (?t :: _) => first [apply spells_junk; [repeat split; discriminate|]|match t with [?a] => change (c :: l) with ([a] ++ l); apply spells_num; [apply number_digits; split; [discriminate|repeat constructor]|first [exact I|apply stop_char; solve [reflexivity|discriminate]]|] end]
  | |- spells (?c :: ?l) [] => apply spells_junk; [repeat split; discriminate|]
  end.
Definition ex_cmds : list (@pcmd Z) :=
  [Seg MoveTo true [([], (0, 0)); ([], (5, 5))]; Seg CurveTo false [([0; 0; 1; 1], (2, 2))]; Hor true [1; 3]; Ver false [7]; Close true; Seg LineTo false [([], (9, 9))]; Seg MoveTo false [([], (1, 1))]]%Z.
Definition ex_blocks : list (ascii * text) :=
  [("m", T " 0,0 5 5"); ("C", T "0,0,1,1,2,2 "); ("h", T "1 3 "); ("V", T " 7"); ("z", T " "); ("L", T "9,9 "); ("M", T " 1,1")].
Example path_vertices_ex : blocks ex_blocks = T "m 0,0 5 5C0,0,1,1,2,2 h1 3 V 7z L9,9 M 1,1" /\ Forall2 (written num_Z) ex_cmds ex_blocks /\ separated ex_cmds ex_blocks /\ Forall right_controls ex_cmds /\ from_path num_Z Z.add (blocks ex_blocks) = Ok [(0, 0); (5, 5); (2, 2); (3, 2); (6, 2); (6, 7); (0, 0); (9, 9); (1, 1)]%Z.
Proof.
  split; [reflexivity|]. split; [|split; [cbn; repeat split; try discriminate; left; discriminate|split; [repeat constructor|reflexivity]]].
  constructor; [split; [reflexivity|]; split; [repeat constructor|]; exists [["0"]; ["0"]; ["5"]; ["5"]]; split; [cbn; spell|reflexivity]|].
  constructor; [split; [reflexivity|]; split; [repeat constructor|]; exists [["0"]; ["0"]; ["1"]; ["1"]; ["2"]; ["2"]]; split; [cbn; spell|reflexivity]|].
  constructor; [split; [reflexivity|]; split; [repeat constructor|]; exists [["1"]; ["3"]]; split; [cbn; spell|reflexivity]|].
  constructor; [split; [reflexivity|]; split; [repeat constructor|]; exists [["7"]]; split; [cbn; spell|reflexivity]|].
  constructor; [split; [reflexivity|]; split; [repeat constructor|]; exists []; split; [cbn; spell|reflexivity]|].
  constructor; [split; [reflexivity|]; split; [repeat constructor|]; exists [["9"]; ["9"]]; split; [cbn; spell|reflexivity]|].
  constructor; [split; [reflexivity|]; split; [repeat constructor|]; exists [["1"]; ["1"]]; split; [cbn; spell|reflexivity]|constructor].
Qed.
(** A closed second subpath is closed at the first point of the first: the last vertex should be (5, 5). *)
Example path_two_subpaths_ex : blocks [("M", T " 0,0 "); ("z", T " "); ("M", T " 5,5 "); ("z", T "")] = T "M 0,0 z M 5,5 z" /\
  (let cmds := [Seg MoveTo false [([], (0, 0))]; Close true; Seg MoveTo false [([], (5, 5))]; Close true]%Z in let bs := [("M", T " 0,0 "); ("z", T " "); ("M", T " 5,5 "); ("z", T "")] in
   Forall2 (written num_Z) cmds bs /\ separated cmds bs /\ Forall right_controls cmds).
Proof.
  split; [reflexivity|]. cbn [T list_ascii_of_string]. split; [|split; [cbn; repeat split; try discriminate; right; reflexivity|repeat constructor]].
  constructor; [split; [reflexivity|]; split; [repeat constructor|]; exists [["0"]; ["0"]]; split; [cbn; spell|reflexivity]|].
  constructor; [split; [reflexivity|]; split; [repeat constructor|]; exists []; split; [cbn; spell|reflexivity]|].
  constructor; [split; [reflexivity|]; split; [repeat constructor|]; exists [["5"]; ["5"]]; split; [cbn; spell|reflexivity]|].
  constructor; [split; [reflexivity|]; split; [repeat constructor|]; exists []; split; [cbn; spell|reflexivity]|constructor].
Qed.
Theorem path_second_subpath_refuted :
  from_path num_Z Z.add (T "M 0,0 L 1,0 1,1 z M 5,5 L 6,5 6,6 z") = Ok [(0, 0); (1, 0); (1, 1); (0, 0); (5, 5); (6, 5); (6, 6); (0, 0)]%Z /\
  path_points Z.add false (0, 0)%Z [] [Seg LineTo false [([], (1, 0)); ([], (1, 1))]; Close true; Seg MoveTo false [([], (5, 5))]; Seg LineTo false [([], (6, 5)); ([], (6, 6))]; Close true]%Z =
    [(0, 0); (1, 0); (1, 1); (0, 0); (5, 5); (6, 5); (6, 6); (5, 5)]%Z.
Proof. split; reflexivity. Qed.
(** Any path of at least two commands that begins with a space loses its first points silently, or fails: every command gets the parameters of the one before it. *)
Theorem path_leading_space_refuted {N} (num : text -> N) add x y l : cmd_char x = true -> no_cmd l -> l <> [] -> cmd_char y = true ->
  from_path num add (" " :: x :: l ++ [y]) = (let* xy := command add [x] [] [] in command add [y] (coords num l) xy).
Proof.
  intros X L Ne Y. unfold from_path.
  rewrite (findall_none (m_run cmd_char)) by reflexivity. rewrite (findall_some (m_run (fun c => negb (cmd_char c))) (" " :: x :: l ++ [y]) [" "] (x :: l ++ [y]) (run_consumes _)).
  - assert (G : good_blocks [(x, l); (y, [])]).
    { split; [constructor; [split; assumption|constructor; [split; [exact Y|constructor]|constructor]]|]. intros b r E. destruct r as [|? [|? [|? ?]]]; [constructor| |discriminate E|discriminate E]. injection E as <- _. constructor; [exact Ne|constructor]. }
    pose proof (blocks_cmds _ G) as Ec. pose proof (blocks_seqs _ G) as Es. cbn [blocks app] in Ec, Es. rewrite Ec, Es. cbn [map fst snd filter]. destruct l as [|a l]; [contradiction|]. cbn [map].
    assert (C0 : coords num [" "] = []) by reflexivity. rewrite C0. destruct (ends_with_z [[x]; [y]]); cbn [app combine foldM fst snd]; destruct (command add [x] [] []) as [xy|]; cbn [bind]; try reflexivity; destruct (command add [y] (coords num (a :: l)) xy); reflexivity.
  - unfold m_run. cbn [span]. change (cmd_char " ") with false. rewrite X. reflexivity.
Qed.
Example path_leading_space_ex : from_path num_Z Z.add (T " M 0,0 L 1,1") = Ok [(0, 0)]%Z /\ from_path num_Z Z.add (T "M 0,0 L 1,1") = Ok [(0, 0); (1, 1)]%Z.
Proof. split; reflexivity. Qed.
(** Command letters with nothing between them, as after a closePath, are refused, unless nothing but letters follows. *)
Lemma blocks_app bs t : (exists x u, t = x :: u /\ cmd_char x = true) -> Forall (fun b => cmd_char (fst b) = true /\ no_cmd (snd b) /\ snd b <> []) bs ->
  findall (m_run cmd_char) (blocks bs ++ t) = map (fun b => [fst b]) bs ++ findall (m_run cmd_char) t /\
  findall (m_run (fun c => negb (cmd_char c))) (blocks bs ++ t) = map snd bs ++ findall (m_run (fun c => negb (cmd_char c))) t.
Proof.
  intros (x0 & u0 & -> & X0). induction 1 as [|[c s] bs (Hc & Hs & Ne) F [IH1 IH2]]; [split; reflexivity|]. cbn [fst snd] in *. cbn [blocks map fst snd app]. rewrite <- app_assoc. split.
  - rewrite (findall_some _ (c :: s ++ blocks bs ++ x0 :: u0) [c] (s ++ blocks bs ++ x0 :: u0) (run_consumes _)).
    + rewrite cmds_junk by exact Hs. now rewrite IH1.
    + apply run_cmd; [exact Hc|]. destruct s as [|x s]; [contradiction|]. inversion Hs; assumption.
  - rewrite findall_none by (unfold m_run; cbn [span]; rewrite Hc; reflexivity).
    rewrite (findall_some _ (s ++ blocks bs ++ x0 :: u0) s (blocks bs ++ x0 :: u0) (run_consumes _)); [now rewrite IH2|].
    unfold m_run. rewrite span_app; [destruct s; [contradiction|reflexivity]| |].
    + eapply Forall_impl; [|exact Hs]. intros y Hy. cbn in Hy. now rewrite Hy.
    + destruct bs as [|[c' s'] l]; cbn [blocks app]; [now rewrite X0|]. inversion F as [|? ? [Hc' _] _]; subst. cbn in Hc'. now rewrite Hc'.
Qed.
Lemma seqs_some u : Exists (fun c => cmd_char c = false) u -> findall (m_run (fun c => negb (cmd_char c))) u <> [].
Proof.
  induction u as [|c u IH]; intros E; [inversion E|]. destruct (cmd_char c) eqn:C.
  - rewrite findall_none by (unfold m_run; cbn [span]; rewrite C; reflexivity). apply IH. inversion E; subst; [congruence|assumption].
  - destruct (span (fun c => negb (cmd_char c)) u) as [a b] eqn:S. rewrite (findall_some _ (c :: u) (c :: a) b (run_consumes _)); [discriminate|]. unfold m_run. cbn [span]. now rewrite C, S.
Qed.
Theorem path_adjacent_refuted {N} (num : text -> N) add bs x y u : Forall (fun b => cmd_char (fst b) = true /\ no_cmd (snd b) /\ snd b <> []) bs ->
  cmd_char x = true -> cmd_char y = true -> Exists (fun c => cmd_char c = false) u -> exists e, from_path num add (blocks bs ++ x :: y :: u) = Err e.
Proof.
  intros F X Y E. unfold from_path. destruct (blocks_app bs (x :: y :: u) (ex_intro _ x (ex_intro _ (y :: u) (conj eq_refl X))) F) as [-> ->].
  destruct (span cmd_char u) as [a b] eqn:S. rewrite (findall_some (m_run cmd_char) (x :: y :: u) (x :: y :: a) b (run_consumes _)) by (unfold m_run; cbn [span]; now rewrite X, Y, S).
  assert (Q : findall (m_run (fun c => negb (cmd_char c))) (x :: y :: u) <> []) by (apply seqs_some; now do 2 right).
  destruct (findall (m_run (fun c => negb (cmd_char c))) (x :: y :: u)) as [|s1 ss]; [contradiction|]. clear Q. rewrite map_app. cbn [map].
  set (cs := map (fun b0 : ascii * text => [fst b0]) bs). set (ps := map (coords num) (map snd bs)). assert (L : length cs = length ps) by (unfold cs, ps; now rewrite !map_length).
  assert (G : forall more rest, exists e, foldM (fun xy cp => command add (fst cp) (snd cp) xy) (combine (cs ++ (x :: y :: a) :: rest) (ps ++ coords num s1 :: more)) [] = Err e).
  { intros more rest. rewrite (combine_app_eq _ _ _ _ L), foldM_app. destruct (foldM _ (combine cs ps) []) as [xy|e]; cbn [bind combine foldM fst snd]; [|now exists e].
    assert (B : command add (x :: y :: a) (coords num s1) xy = Err ValueError) by (clear; destruct x as [[] [] [] [] [] [] [] []]; reflexivity). rewrite B. now exists ValueError. }
  destruct (ends_with_z _); [rewrite <- app_assoc; cbn [app]|]; apply G.
Qed.
Print Assumptions path_adjacent_refuted.
Example path_adjacent_ex : blocks [("M", T "0,0"); ("L", T "1,0 1,1")] ++ "Z" :: "M" :: T "5,5L6,6" = T "M0,0L1,0 1,1ZM5,5L6,6" /\ from_path num_Z Z.add (T "M0,0L1,0 1,1ZM5,5L6,6") = Err ValueError /\ from_path num_Z Z.add (T "M0,0L1,0 1,1Z M5,5L6,6") = Ok [(0, 0); (1, 0); (1, 1); (0, 0); (5, 5); (6, 6)]%Z.
Proof. repeat split; reflexivity. Qed.
