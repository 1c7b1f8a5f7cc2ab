(** C103: write_json with flat arrays changes only whitespace outside strings, for the values the library writes. *)
From Coq Require Import String Ascii.
From Verif Require Import Base SvgModel SvgDocModel FlatJsonModel FlatJsonProofs.
Notation length := List.length.
Open Scope char_scope.

(** The same text as without flat arrays, up to whitespace outside strings *)
Theorem flat_same : forall (v : json) (n : Z), good false v = true -> exists t t',
  write_json v false (Some n) = Ok t /\ write_json v true (Some n) = Ok t' /\ norm Out t' = norm Out t.
Proof.
  intros v n G. unfold write_json. exists (dumps (Some n) 0%nat v). destruct (0 <=? n)%Z eqn:E.
  - eexists. split; [reflexivity |]. split; [reflexivity |]. apply flat_norm. exact G.
  - eexists. split; [reflexivity |]. split; reflexivity.
Qed.
(** Arrays of numbers and words are written as without indent, everything else as with it *)
Theorem flat_layout : forall (v : json) (n : Z), simple v = true -> (0 <= n)%Z -> write_json v true (Some n) = Ok (dumps_flat n 0%nat v).
Proof.
  intros v n G H. unfold write_json. rewrite (proj2 (Z.leb_le 0 n) H). f_equal.
  pose proof (dumps_lays n v 0%nat [] G I) as L. change (sub []) with (@nil ascii) in L. rewrite !app_nil_r in L. exact L.
Qed.
(** FINDING: strings in arrays lose their blanks, and get one after each comma *)
Theorem flat_strings_refuted : ~ (forall v n t t', write_json v false (Some n) = Ok t -> write_json v true (Some n) = Ok t' -> norm Out t' = norm Out t).
Proof. intros H. specialize (H (JList [JStr (T "a b")]) 2%Z _ _ eq_refl eq_refl). vm_compute in H. discriminate. Qed.
Theorem flat_strings : forall s : text, forallb (fun c => negb (Ascii.eqb c "[" || Ascii.eqb c "]" || Ascii.eqb c "{")%bool) s = true ->
  write_json (JList [JStr s]) true (Some 0%Z) = Ok ("[" :: flatten (show_str s) ++ ["]"]).
Proof.
  intros s H. unfold write_json. change (0 <=? 0)%Z with true. cbv iota. f_equal.
  change (dumps (Some 0%Z) 0%nat (JList [JStr s])) with ("[" :: "010" :: show_str s ++ "010" :: ["]"]).
  change ("[" :: "010" :: show_str s ++ "010" :: ["]"]) with ("[" :: (["010"] ++ show_str s ++ ["010"; "]"])).
  replace ("[" :: ["010"] ++ show_str s ++ ["010"; "]"]) with ("[" :: (["010"] ++ show_str s ++ ["010"]) ++ "]" :: []) by (rewrite <- !app_assoc; reflexivity).
  rewrite sub_array; [| | exact I].
  - change ("[" :: (["010"] ++ show_str s ++ ["010"]) ++ ["]"]) with (["["] ++ (["010"] ++ show_str s ++ ["010"]) ++ ["]"]). rewrite !flatten_app.
    change (sub []) with (@nil ascii). rewrite app_nil_r. change (flatten ["010"]) with (@nil ascii). rewrite app_nil_r. reflexivity.
  - rewrite !forallb_app. cbn [forallb]. change (inner "010") with true. rewrite andb_true_r. cbn [andb]. unfold show_str. cbn [forallb]. rewrite forallb_app. cbn [forallb]. change (inner quote) with true.
    rewrite !andb_true_r. cbn [andb]. induction s; [reflexivity |]. cbn [forallb] in H. apply andb_prop in H. destruct H as [H1 H2]. cbn [map concat]. rewrite forallb_app, (IHs H2), andb_true_r.
    assert (X : inner a = true) by (unfold inner; destruct (Ascii.eqb a "]"); [rewrite !orb_true_r in H1; discriminate |]; destruct (Ascii.eqb a "{"); [rewrite !orb_true_r in H1; discriminate | reflexivity]).
    unfold esc. destruct (Ascii.eqb a quote || Ascii.eqb a "\")%bool; cbn [forallb]; rewrite X; reflexivity.
Qed.
(** FINDING: arrays of arrays are not flattened to a line *)
Theorem flat_nested_refuted : ~ (forall l n t, write_json (JList l) true (Some n) = Ok t -> (0 <= n)%Z -> ~ List.In "010" t).
Proof.
  intros H. specialize (H [JList [JAtom (T "1")]; JList [JAtom (T "2")]] 2%Z _ eq_refl ltac:(lia)). apply H. vm_compute.
  repeat (first [left; reflexivity | right]).
Qed.
(** FINDING: an indent is required *)
Theorem flat_indent_refuted : forall v, write_json v true None = Err TypeError.
Proof. reflexivity. Qed.
(** Without flat arrays the text is that of json.dumps, and so it is with negative indents *)
Theorem flat_negative : forall v n, (n < 0)%Z -> write_json v true (Some n) = write_json v false (Some n).
Proof. intros v n H. unfold write_json. destruct (0 <=? n)%Z eqn:E; [apply Z.leb_le in E; lia | reflexivity]. Qed.
Print Assumptions flat_same.
Print Assumptions flat_layout.
Print Assumptions flat_strings.

(** A camera *)
Definition camera : json := JObj [(T "xyz", JList [JAtom (T "0.0"); JAtom (T "-1.5")]); (T "name [1", JStr (T "a, b")); (T "k", JList []); (T "l", JList [JObj [(T "m", JList [JStr (T "NaN")])]])].
Definition camera' : json := JObj [(T "xyz", JList [JAtom (T "0.0"); JAtom (T "-1.5")]); (T "name", JStr (T "a, b"))].
Example flat_same_ex : good false (JObj [(T "xyz", JList [JAtom (T "0.0"); JAtom (T "-1.5")]); (T "l", JList [JObj [(T "m", JList [JStr (T "NaN")])]])]) = true /\ good false camera = false.
Proof. split; reflexivity. Qed.
Example flat_layout_ex : simple camera' = true /\ write_json camera' true (Some 1%Z) = Ok (["{"; "010"] ++ T " ""xyz"": [0.0, -1.5]," ++ ["010"] ++ T " ""name"": ""a, b""" ++ ["010"; "}"]).
Proof. split; reflexivity. Qed.
Example flat_strings_ex : write_json (JList [JStr (T "a b,c")]) true (Some 0%Z) = Ok (T "[""ab, c""]").
Proof. reflexivity. Qed.
