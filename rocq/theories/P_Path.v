(** C99: names of files. *)
From Coq Require Import String Ascii.
From Verif Require Import Base BaseLemmas PathModel.
Notation length := List.length.

(** ** Specification *)
Definition without (c : ascii) (s : str) : Prop := ~ In c s.
(** b is the last component of the path *)
Definition last_component (path b : str) : Prop := without slash b /\ (path = b \/ exists dir, path = dir ++ slash :: b).
(** r is b without its last extensions: at most n (if given), and less only if no more are left *)
Definition stripped (n : option nat) (b r : str) : Prop :=
  exists exts, b = r ++ concat (map (cons dot) exts) /\ (forall e, In e exts -> without dot e) /\
  match n with None => without dot r | Some n => (length exts = n \/ (length exts < n)%nat /\ without dot r) end.

Lemma before_split c s : (without c s /\ before c s = s) \/ exists r, s = before c s ++ c :: r /\ without c (before c s).
Proof.
  induction s as [|x s IH]; [left; split; [intros []|reflexivity]|]. cbn [before]. destruct (Ascii.eqb_spec x c) as [->|N].
  - right. exists s. split; [reflexivity|intros []].
  - destruct IH as [[W E]|(r & E & W)].
    + left. split; [intros [A|A]; [congruence|exact (W A)]|f_equal; exact E].
    + right. exists r. split; [cbn; f_equal; exact E|intros [A|A]; [congruence|exact (W A)]].
Qed.
Lemma before_app c s r : without c s -> before c (s ++ c :: r) = s.
Proof. induction s as [|x s IH]; intros W; cbn; [rewrite Ascii.eqb_refl; reflexivity|]. destruct (Ascii.eqb_spec x c) as [->|N]; [destruct W; left; reflexivity|]. f_equal. apply IH. intros A. apply W. right. exact A. Qed.
Lemma before_none c s : without c s -> before c s = s.
Proof. induction s as [|x s IH]; intros W; cbn; [reflexivity|]. destruct (Ascii.eqb_spec x c) as [->|N]; [destruct W; left; reflexivity|]. f_equal. apply IH. intros A. apply W. right. exact A. Qed.
Lemma basename_spec path : last_component path (basename path).
Proof.
  unfold last_component, basename. destruct (before_split slash (rev path)) as [[W E]|(r & E & W)].
  - rewrite E, rev_involutive. split; [intros A; apply W; apply in_rev in A; exact A|left; reflexivity].
  - split; [intros A; apply W; apply in_rev in A; exact A|right]. exists (rev r). rewrite <- (rev_involutive path), E at 1. rewrite rev_app_distr. cbn [rev]. rewrite <- app_assoc. reflexivity.
Qed.
Lemma last_component_unique path b : last_component path b -> basename path = b.
Proof.
  intros [W H]. unfold basename. assert (W' : without slash (rev b)) by (intros A; apply W; apply in_rev; exact A). destruct H as [->|(dir & ->)].
  - rewrite before_none by exact W'. apply rev_involutive.
  - rewrite rev_app_distr. cbn [rev]. rewrite <- app_assoc. cbn [app]. rewrite before_app by exact W'. apply rev_involutive.
Qed.

Lemma split_dots_last m : forall s cur, without dot cur -> exists exts, rev cur ++ s = concat (map (fun e => e ++ [dot]) exts) ++ last (split_dots m cur s) [] /\ (forall e, In e exts -> without dot e)
  /\ match m with None => without dot (last (split_dots m cur s) []) | Some n => (length exts = n \/ (length exts < n)%nat /\ without dot (last (split_dots m cur s) [])) end.
Proof.
  intros s. revert m. induction s as [|c s IH]; intros m cur W; cbn [split_dots].
  - exists []. cbn [map concat last app]. rewrite app_nil_r. split; [reflexivity|]. split; [intros e []|]. assert (W' : without dot (rev cur)) by (intros A; apply W, in_rev; exact A). destruct m as [[|n]|]; [left; reflexivity|right; split; [cbn; lia|exact W']|exact W'].
  - assert (W' : without dot (rev cur)) by (intros A; apply W, in_rev; exact A). assert (NE : forall m c s, split_dots m c s <> []) by (intros m0 c0 s0; revert m0 c0; induction s0 as [|x s0 IHs]; intros m0 c0; cbn; [discriminate|]; destruct (Ascii.eqb x dot); [destruct m0 as [[|?]|]; discriminate|apply IHs]).
    destruct (Ascii.eqb_spec c dot) as [->|N].
    + assert (LC : forall (a : str) l, l <> [] -> last (a :: l) [] = last l []) by (intros a [|? ?] H; [destruct (H eq_refl)|reflexivity]).
      destruct m as [[|n]|].
      * exists []. cbn [map concat last app]. split; [reflexivity|]. split; [intros e []|left; reflexivity].
      * destruct (IH (Some n) [] (fun A => A)) as (exts & E & We & L). exists (rev cur :: exts). rewrite LC by apply NE. cbn [map concat]. cbn [rev app] in E. split; [rewrite E at 1; rewrite <- !app_assoc; reflexivity|]. split; [intros e [<-|I]; [exact W'|apply We; exact I]|]. cbn [length]. destruct L as [L|[L1 L2]]; [left; lia|right; split; [lia|exact L2]].
      * destruct (IH None [] (fun A => A)) as (exts & E & We & L). exists (rev cur :: exts). rewrite LC by apply NE. cbn [map concat]. cbn [rev app] in E. split; [rewrite E at 1; rewrite <- !app_assoc; reflexivity|]. split; [intros e [<-|I]; [exact W'|apply We; exact I]|exact L].
    + assert (WC : without dot (c :: cur)) by (intros [A|A]; [congruence|exact (W A)]). destruct (IH m (c :: cur) WC) as (exts & E & We & L). exists exts. split; [|split; [exact We|exact L]]. rewrite <- E. cbn [rev]. rewrite <- app_assoc. reflexivity.
Qed.
Lemma strip_stripped m b : stripped m b (rev (last (split_dots m [] (rev b)) [])).
Proof.
  destruct (split_dots_last m (rev b) [] (fun A => A)) as (exts & E & We & L). cbn [rev app] in E. set (r := last (split_dots m [] (rev b)) []) in *.
  exists (rev (map (@rev ascii) exts)). split; [|split].
  - rewrite <- (rev_involutive b), E at 1. rewrite rev_app_distr. f_equal. clear. induction exts as [|e l IH]; [reflexivity|]. cbn [map concat]. rewrite rev_app_distr, IH. cbn [rev]. rewrite map_app, concat_app. cbn [map concat]. rewrite app_nil_r, rev_app_distr. reflexivity.
  - intros e I A. apply in_rev in I. apply in_map_iff in I as (u & <- & I). apply (We u I). apply in_rev. exact A.
  - assert (WR : without dot r -> without dot (rev r)) by (intros W A; apply W, in_rev; exact A). rewrite rev_length, map_length. destruct m as [n|]; [destruct L as [L|[L1 L2]]; [left; exact L|right; split; [exact L1|apply WR; exact L2]]|apply WR; exact L].
Qed.

(** The result is the last component of the path, of which all extensions (True or a negative number), none (False or 0) or at most n are removed. *)
Theorem strip_path_spec : forall path extensions, exists b, last_component path b /\
  match extensions with
  | EBool true => stripped None b (strip_path path extensions)
  | EBool false => strip_path path extensions = b
  | EInt n => stripped (if (n <? 0)%Z then None else Some (Z.to_nat n)) b (strip_path path extensions)
  end.
Proof.
  intros path ex. exists (basename path). split; [apply basename_spec|]. unfold strip_path. destruct ex as [[|]|n].
  - apply strip_stripped.
  - reflexivity.
  - destruct (Z.eqb_spec n 0) as [->|N]; [|apply strip_stripped]. change (0 <? 0)%Z with false. cbn [Z.to_nat]. exists []. split; [cbn; rewrite app_nil_r; reflexivity|]. split; [intros e []|left; reflexivity].
Qed.
Print Assumptions strip_path_spec.
(** and both are determined by the path *)
Theorem strip_path_unique : forall path b r, last_component path b -> stripped None b r -> strip_path path (EBool true) = r.
Proof.
  intros path b r LC (exts & E & We & W). destruct (strip_path_spec path (EBool true)) as (b' & LC' & (exts' & E' & We' & W')).
  assert (b' = b) as -> by (rewrite <- (last_component_unique path b LC); symmetry; apply last_component_unique; exact LC').
  rewrite E in E'. clear - E' W W'. generalize dependent (strip_path path (EBool true)). intros r' E' W'.
  assert (H : forall (r r' : str) l l', without dot r -> without dot r' -> r ++ concat (map (cons dot) l) = r' ++ concat (map (cons dot) l') -> r = r').
  { clear. induction r as [|x r IH]; intros [|y r'] l l' W W' E; [reflexivity| | |].
    - destruct l as [|e l]; [discriminate E|]. cbn in E. injection E as E _. exfalso. apply W'. left. congruence.
    - destruct l' as [|e l']; [discriminate E|]. cbn in E. injection E as E _. exfalso. apply W. left. congruence.
    - cbn in E. injection E as -> E. f_equal. apply (IH r' l l'); [intros A; apply W; right; exact A|intros A; apply W'; right; exact A|exact E]. }
  symmetry. apply (H r r' exts exts' W W' E').
Qed.
Print Assumptions strip_path_unique.
Example strip_path_ex : strip_path (list_ascii_of_string "foo/bar.ext.ext2") (EBool true) = list_ascii_of_string "bar" /\ strip_path (list_ascii_of_string "foo/bar.ext.ext2") (EInt 1) = list_ascii_of_string "bar.ext" /\ strip_path (list_ascii_of_string "foo/bar.ext.ext2") (EBool false) = list_ascii_of_string "bar.ext.ext2".
Proof. repeat split. Qed.

(** ** The names of the images of a matcher *)
Lemma str_eqb_spec a b : reflect (a = b) (str_eqb a b).
Proof.
  revert b. induction a as [|x a IH]; intros [|y b]; cbn; try (constructor; congruence). destruct (Ascii.eqb_spec x y) as [->|N]; cbn [andb]; [|constructor; congruence]. destruct (IH b) as [->|N]; constructor; congruence.
Qed.
Lemma distinct_spec l : distinct l = true <-> NoDup l.
Proof.
  induction l as [|a l IH]; cbn; [split; [constructor|reflexivity]|]. rewrite andb_true_iff, negb_true_iff, IH. split.
  - intros [A B]. constructor; [|exact B]. intros I. apply not_true_iff_false in A. apply A. apply existsb_exists. exists a. split; [exact I|]. destruct (str_eqb_spec a a); congruence.
  - intros H. inversion H; subst. split; [|assumption]. apply not_true_iff_false. intros T. apply existsb_exists in T as (x & I & E). destruct (str_eqb_spec a x) as [<-|]; [contradiction|discriminate].
Qed.
(** The names are accepted exactly if they differ; then the names of the files of two images differ. *)
Theorem image_names : forall paths,
  let named names := length names = length paths /\ forall i p, nth_error paths i = Some p -> exists b r, nth_error names i = Some r /\ last_component p b /\ stripped None b r in
  exists names, named names /\ (NoDup names -> image_basenames paths = Ok names /\ forall suffix, NoDup (map (fun n => n ++ suffix) names)) /\ (~ NoDup names -> image_basenames paths = Err ValueError).
Proof.
  intros paths named. exists (map (fun p => strip_path p (EBool true)) paths). split; [split|split].
  - apply map_length.
  - intros i p E. destruct (strip_path_spec p (EBool true)) as (b & L & S'). exists b, (strip_path p (EBool true)). split; [rewrite nth_error_map, E; reflexivity|]. split; assumption.
  - intros ND. split.
    + unfold image_basenames. cbv zeta. rewrite (proj2 (distinct_spec _) ND). reflexivity.
    + intros suffix. revert ND. generalize (map (fun p => strip_path p (EBool true)) paths). intros l ND. induction ND as [|a l N ND IH]; cbn; [constructor|]. constructor; [|exact IH]. intros I. apply in_map_iff in I as (x & E & I). apply app_inv_tail in E. subst x. contradiction.
  - intros ND. unfold image_basenames. cbv zeta. destruct (distinct _) eqn:E; [|reflexivity]. apply distinct_spec in E. contradiction.
Qed.
Print Assumptions image_names.
(** Finding: as everything after the first dot is removed, images with different names in the same directory are refused. *)
Lemma dot_parts b : exists exts, dot :: b = concat (map (cons dot) exts) /\ (forall e, In e exts -> without dot e).
Proof.
  assert (G : forall b, exists e0 exts, b = e0 ++ concat (map (cons dot) exts) /\ without dot e0 /\ (forall e, In e exts -> without dot e)).
  { intros b0. induction b0 as [|c b0 IH].
    - exists [], []. split; [reflexivity|]. split; [intros A; exact A|intros e []].
    - destruct IH as (e0 & exts & -> & W0 & W). destruct (Ascii.eqb_spec c dot) as [->|N].
      + exists [], (e0 :: exts). split; [reflexivity|]. split; [intros A; exact A|]. intros e [<-|I]; auto.
      + exists (c :: e0), exts. split; [reflexivity|]. split; [intros [Q|Q]; [congruence|exact (W0 Q)]|exact W]. }
  destruct (G b) as (e0 & exts & -> & W0 & W). exists (e0 :: exts). split; [reflexivity|]. intros e [<-|I]; auto.
Qed.
(** Names that agree up to a first dot of both are refused, whatever follows it. *)
Theorem image_names_dots_refuted : forall paths i j p q s bp bq, nth_error paths i = Some p -> nth_error paths j = Some q -> i <> j ->
  last_component p (s ++ dot :: bp) -> last_component q (s ++ dot :: bq) -> without dot s -> image_basenames paths = Err ValueError.
Proof.
  intros paths i j p q s bp bq Ep Eq N Lp Lq W.
  assert (St : forall b, stripped None (s ++ dot :: b) s) by (intros b; destruct (dot_parts b) as (exts & E & We); exists exts; rewrite E; auto).
  destruct (image_names paths) as (names & (_ & H) & _ & R). apply R. intros ND.
  destruct (H i p Ep) as (b & r & E1 & L1 & S1). destruct (H j q Eq) as (b' & r' & E2 & L2 & S2).
  assert (Er : r = s). { rewrite <- (strip_path_unique p b r L1 S1). apply (strip_path_unique p _ _ Lp), St. }
  assert (Er' : r' = s). { rewrite <- (strip_path_unique q b' r' L2 S2). apply (strip_path_unique q _ _ Lq), St. }
  subst r r'. apply N. apply (proj1 (NoDup_nth_error names) ND); [apply nth_error_Some; congruence|congruence].
Qed.
Print Assumptions image_names_dots_refuted.
Example image_names_dots_ex : image_basenames [list_ascii_of_string "d/2010.05.01.jpg"; list_ascii_of_string "d/2010.05.02.jpg"] = Err ValueError.
Proof. reflexivity. Qed.

(** ** The extension that decides on the format of a file *)
Theorem file_extension : forall path b, last_component path b ->
  (without dot b -> splitext1 path = []) /\
  (forall root ext, b = root ++ dot :: ext -> without dot ext -> (exists c, In c root /\ c <> dot) -> splitext1 path = dot :: ext) /\
  (forall root ext, b = root ++ dot :: ext -> without dot ext -> (forall c, In c root -> c = dot) -> splitext1 path = []).
Proof.
  intros path b LC. unfold splitext1. rewrite (last_component_unique path b LC). cbv zeta. split; [|split].
  - intros W. destruct (existsb (Ascii.eqb dot) b) eqn:E; [|reflexivity]. apply existsb_exists in E as (x & I & X). apply Ascii.eqb_eq in X. subst x. destruct (W I).
  - intros root ext -> W (c & I & N). assert (W' : without dot (rev ext)) by (intros A; apply W, in_rev; exact A).
    rewrite rev_app_distr. cbn [rev]. rewrite <- app_assoc. cbn [app]. rewrite before_app by exact W'.
    assert (SK : skipn (S (length (rev ext))) (rev ext ++ dot :: rev root) = rev root) by (rewrite skipn_app, skipn_all2 by lia; replace (S (length (rev ext)) - length (rev ext))%nat with 1%nat by lia; reflexivity).
    rewrite SK, !rev_involutive. assert (E1 : existsb (Ascii.eqb dot) (root ++ dot :: ext) = true) by (apply existsb_exists; exists dot; split; [apply in_or_app; right; left; reflexivity|apply Ascii.eqb_refl]). rewrite E1.
    assert (E2 : forallb (Ascii.eqb dot) root = false) by (apply not_true_iff_false; intros T; rewrite forallb_forall in T; specialize (T c I); apply Ascii.eqb_eq in T; congruence). rewrite E2. reflexivity.
  - intros root ext -> W A. assert (W' : without dot (rev ext)) by (intros X; apply W, in_rev; exact X).
    rewrite rev_app_distr. cbn [rev]. rewrite <- app_assoc. cbn [app]. rewrite before_app by exact W'.
    assert (SK : skipn (S (length (rev ext))) (rev ext ++ dot :: rev root) = rev root) by (rewrite skipn_app, skipn_all2 by lia; replace (S (length (rev ext)) - length (rev ext))%nat with 1%nat by lia; reflexivity).
    rewrite SK, !rev_involutive. assert (E2 : forallb (Ascii.eqb dot) root = true) by (apply forallb_forall; intros c I; apply Ascii.eqb_eq; symmetry; apply A; exact I). rewrite E2, andb_false_r. reflexivity.
Qed.
Print Assumptions file_extension.
Example file_extension_ex : splitext1 (list_ascii_of_string "a.b/c.d.TIF") = list_ascii_of_string ".TIF" /\ splitext1 (list_ascii_of_string "a.b/.tif") = [].
Proof. split; reflexivity. Qed.
