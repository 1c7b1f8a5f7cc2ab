(** C108: proofs about Matlab calibration reports. *)
From Coq Require Import String Ascii.
From Verif Require Import Base HelpersModel CameraModel ConvertModel SvgModel SvgDocModel CalibModel RegexProofs P_CalibXml.
Notation length := List.length.
Open Scope char_scope.

(** ** Specification: the lines of a report *)
Inductive line :=
| Scalar (name v comment : text)          (* name = v;comment *)
| Vector (name : text) (vs : list text) (comment : text) (* name = [ v1 ; v2 ];comment *)
| Other (t : text).
Definition semicolons (vs : list text) : text := join (T " ; ") vs.
Definition written (l : line) : text :=
  match l with
  | Scalar name v c => name ++ T " = " ++ v ++ [";"] ++ c
  | Vector name vs c => name ++ T " = [ " ++ semicolons vs ++ T " ];" ++ c
  | Other t => t
  end.
Definition report (ls : list line) : text := concat (map (fun l => written l ++ [nl]) ls).
Definition contains (t l : text) : Prop := exists a b, l = a ++ t ++ b.
Definition value_ok (v : text) : Prop := ~ In ";" v /\ ~ In "=" v /\ ~ In nl v.
Definition line_ok (l : line) : Prop :=
  match l with
  | Scalar name v c => (~ In " " name /\ ~ In nl name) /\ value_ok v /\ ~ In ";" c /\ ~ In nl c
  | Vector name vs c => (~ In " " name /\ ~ In nl name) /\ (vs <> [] /\ forall v, In v vs -> value_ok v) /\ ~ In ";" c /\ ~ In nl c
  | Other t => ~ In nl t /\ (~ In ";" t \/ ~ contains (T " = ") t)
  end.
Definition key_ok (k : text) : Prop := k <> [] /\ ~ In " " k /\ ~ In "=" k /\ ~ In nl k /\ ~ In ";" k.
Definition ends_with (k name : text) : bool := teqb (skipn (length name - length k) name) k.

(** what the patterns find in a line *)
Definition scalars_in (k : text) (l : line) : list text :=
  match l with
  | Scalar name v _ => if ends_with k name then [v] else []
  | Vector name vs _ => if ends_with k name then [T "[ " ++ semicolons vs ++ T " ]"] else []
  | Other _ => []
  end.
(** n values of a vector: if it has more, the first ones stay together *)
Definition groups (n : nat) (vs : list text) : list text := let m := (length vs - n)%nat in semicolons (firstn (S m) vs) :: skipn (S m) vs.
Definition vectors_in (k : text) (n : nat) (l : line) : list (list text) :=
  match l with Vector name vs _ => if (ends_with k name && (n <=? length vs)%nat)%bool then [groups n vs] else [] | _ => [] end.

Lemma ends_with_true k name : ends_with k name = true <-> exists p, name = p ++ k.
Proof.
  unfold ends_with. rewrite teqb_true. split.
  - intros H. exists (firstn (length name - length k) name). rewrite <- H at 2. now rewrite firstn_skipn.
  - intros [p ->]. rewrite app_length. replace (length p + length k - length k)%nat with (length p) by lia. rewrite skipn_app, skipn_all, Nat.sub_diag. reflexivity.
Qed.

(** ** Characters *)
Lemma split_first (c : ascii) a b x y : ~ In c a -> ~ In c b -> a ++ c :: x = b ++ c :: y -> a = b /\ x = y.
Proof.
  revert b; induction a as [|d a IH]; intros [|e b] Ha Hb E; cbn in E.
  - injection E as ->. auto.
  - injection E as E1 E2. destruct Hb. left. congruence.
  - injection E as E1 E2. destruct Ha. left. congruence.
  - injection E as E1 E2. destruct (IH b) as [-> ->]; [intros ?; apply Ha; now right | intros ?; apply Hb; now right | exact E2 | subst; auto].
Qed.
Lemma app_split {A} (l1 l2 l3 l4 : list A) : l1 ++ l2 = l3 ++ l4 -> (exists l, l1 = l3 ++ l /\ l4 = l ++ l2) \/ (exists l, l3 = l1 ++ l /\ l2 = l ++ l4).
Proof.
  revert l3; induction l1 as [|x l1 IH]; intros l3 E; cbn in *.
  - right. exists l3. auto.
  - destruct l3 as [|y l3]; cbn in *; [left; exists (x :: l1); auto|]. injection E as -> E. destruct (IH _ E) as [(l & -> & ->)|(l & -> & ->)]; [left | right]; exists l; auto.
Qed.
Lemma eq_position name w x key z : ~ In " " name -> key <> [] -> ~ In " " key -> ~ In "=" key ->
  name ++ T " = " ++ w = x ++ key ++ T " = " ++ z -> (name = x ++ key /\ w = z) \/ exists w0, w = w0 ++ key ++ T " = " ++ z.
Proof.
  intros N K0 K1 K2 E. apply app_split in E as [(l & -> & E)|(l & -> & E)].
  - left. change (T " = " ++ z) with (" " :: T "= " ++ z) in E. change (T " = " ++ w) with (" " :: T "= " ++ w) in E. apply split_first in E as [-> E].
    + split; [reflexivity|]. now injection E.
    + exact K1.
    + intros C. apply N. apply in_or_app. now right.
  - right. destruct key as [|k0 key]; [congruence|]. change (T " = " ++ w) with (" " :: "=" :: " " :: w) in E.
    destruct l as [|c1 l]; cbn [app] in E; [injection E as E _; destruct K1; left; congruence|]. injection E as <- E.
    destruct l as [|c2 l]; cbn [app] in E; [injection E as E _; destruct K2; left; congruence|]. injection E as <- E.
    destruct l as [|c3 l]; cbn [app] in E; [injection E as E _; destruct K1; left; congruence|]. injection E as <- E. exists l. exact E.
Qed.
Lemma before_last (c : ascii) u post p rest : ~ In c post -> u ++ c :: post = p ++ c :: rest -> exists q, u = p ++ q.
Proof.
  intros N E. apply app_split in E as [(l & -> & E)|(l & -> & E)]; [eauto|]. destruct l as [|d l]; [exists []; now rewrite !app_nil_r|].
  exfalso. apply N. cbn [app] in E. injection E as _ ->. apply in_or_app. right. now left.
Qed.

(** ** A pattern: key, " = ", more text, then things that include a semicolon *)
Section Pattern.
Variables (key ex : text) (r : list ritem).
Hypothesis K : key_ok key.
Hypothesis ends_semi : forall l g rest, matched r l g rest -> exists p q, l = p ++ ";" :: q.
Notation pat := (Lit (key ++ T " = " ++ ex) :: r).
Lemma pat_first : lit_first pat.
Proof. destruct K as (N & _). destruct key; [congruence | exact I]. Qed.
Lemma pat_some y g rest : rmatch pat y = Some (g, rest) -> exists p q, y = key ++ T " = " ++ p ++ ";" :: q.
Proof.
  intros H. apply rmatch_matched in H. cbn [matched] in H. destruct H as (l & -> & H). destruct (ends_semi _ _ _ H) as (p & q & ->). exists (ex ++ p), q. now rewrite <- !app_assoc.
Qed.
Lemma nothing t : ~ In ";" t -> refindall pat t = [].
Proof.
  intros N. rewrite <- (app_nil_r t). rewrite find_skip; [reflexivity|]. intros x y -> _. rewrite app_nil_r. destruct (rmatch pat y) as [[g rest]|] eqn:E; [|reflexivity].
  exfalso. apply pat_some in E as (p & q & ->). apply N. rewrite !in_app_iff. right. right. right. right. now left.
Qed.
Lemma nothing_eq t : ~ contains (T " = ") t -> refindall pat t = [].
Proof.
  intros N. rewrite <- (app_nil_r t). rewrite find_skip; [reflexivity|]. intros x y -> _. rewrite app_nil_r. destruct (rmatch pat y) as [[g rest]|] eqn:E; [|reflexivity].
  exfalso. apply pat_some in E as (p & q & ->). apply N. exists (x ++ key), (p ++ ";" :: q). now rewrite <- !app_assoc.
Qed.
Lemma only_name name u post x y : ~ In " " name -> ~ In "=" u -> ~ In ";" post -> name ++ T " = " ++ u ++ ";" :: post = x ++ y -> name <> x ++ key -> rmatch pat y = None.
Proof.
  intros Hn Hu Hp E D. destruct (rmatch pat y) as [[g rest]|] eqn:M; [|reflexivity]. exfalso. apply pat_some in M as (p & q & ->).
  destruct K as (K0 & K1 & K2 & _). apply eq_position in E as [[E _]|[w0 E]]; try assumption; [congruence|].
  replace (w0 ++ key ++ T " = " ++ p ++ ";" :: q) with ((w0 ++ key ++ T " = " ++ p) ++ ";" :: q) in E by (now rewrite <- !app_assoc).
  apply before_last in E as [z ->]; [|exact Hp]. apply Hu. rewrite !in_app_iff. left. right. right. left. cbn. tauto.
Qed.
(** one statement *)
Lemma statement name u post : ~ In " " name -> ~ In "=" u -> ~ In ";" post ->
  (forall g rest, rmatch pat (key ++ T " = " ++ u ++ ";" :: post) = Some (g, rest) -> ~ In ";" rest) ->
  refindall pat (name ++ T " = " ++ u ++ ";" :: post) =
    if ends_with key name then match rmatch pat (key ++ T " = " ++ u ++ ";" :: post) with Some (g, _) => [g] | None => [] end else [].
Proof.
  intros Hn Hu Hp Hr. destruct (ends_with key name) eqn:E.
  - apply ends_with_true in E as [p ->]. rewrite <- app_assoc. rewrite find_skip.
    2:{ intros x y -> Ny. eapply only_name with (name := (x ++ y) ++ key) (u := u) (post := post) (x := x); try assumption; [now rewrite <- !app_assoc|].
        intros C. rewrite <- app_assoc in C. apply app_inv_head in C. apply (f_equal (@length ascii)) in C. rewrite app_length in C. destruct y; [congruence | cbn in C; lia]. }
    destruct (rmatch pat (key ++ T " = " ++ u ++ ";" :: post)) as [[g rest]|] eqn:M.
    + rewrite (find_some _ pat_first _ _ _ M). f_equal. apply nothing. eapply Hr. reflexivity.
    + rewrite <- (app_nil_r (key ++ T " = " ++ u ++ ";" :: post)). rewrite find_skip; [reflexivity|]. intros x y Exy Ny. rewrite app_nil_r. destruct x as [|x0 x]; [cbn in Exy; now rewrite <- Exy|].
      apply only_name with (name := key) (u := u) (post := post) (x := x0 :: x); try assumption; [apply K|]. intros C. apply (f_equal (@length ascii)) in C. rewrite app_length in C. cbn in C. lia.
  - rewrite <- (app_nil_r (name ++ T " = " ++ u ++ ";" :: post)). rewrite find_skip; [reflexivity|]. intros x y Exy Ny. rewrite app_nil_r. apply only_name with (name := name) (u := u) (post := post) (x := x); try assumption.
    intros ->. assert (ends_with key (x ++ key) = true) by (apply ends_with_true; eauto). congruence.
Qed.
End Pattern.

(** ** One value *)
Lemma span_dot a : ~ In nl a -> fst (span dot a) = a.
Proof. intros H. rewrite <- (app_nil_r a) at 1. rewrite span_app; [reflexivity | | exact I]. apply forallb_forall. intros c Hc. unfold dot. destruct (Ascii.eqb_spec c nl) as [->|]; [contradiction | reflexivity]. Qed.
Lemma scalar_semi l g rest : matched [Star true dot; Lit [";"]] l g rest -> exists p q, l = p ++ ";" :: q.
Proof. cbn [matched]. intros (a & l' & g' & -> & _ & _ & l2 & -> & _). exists a, l2. reflexivity. Qed.
Lemma skipn_app_len {A} (a b : list A) : skipn (length a) (a ++ b) = b.
Proof. now rewrite skipn_app, skipn_all, Nat.sub_diag. Qed.
Lemma firstn_app_len {A} (a b : list A) : firstn (length a) (a ++ b) = a.
Proof. rewrite firstn_app, firstn_all, Nat.sub_diag. cbn. apply app_nil_r. Qed.
Lemma skipn_in {A} k (l : list A) x : In x (skipn k l) -> In x l.
Proof. intros H. rewrite <- (firstn_skipn k l). apply in_or_app. now right. Qed.
Lemma scalar_match u post : ~ In nl u -> ~ In nl post -> ~ In ";" post -> rmatch [Star true dot; Lit [";"]] (u ++ ";" :: post) = Some ([u], post).
Proof.
  intros Hu Hn Hp. cbn [rmatch]. rewrite span_dot.
  2:{ intros C. apply in_app_or in C as [C|[C|C]]; [auto | discriminate C | auto]. }
  apply try_down_first with (n := length u).
  - rewrite app_length. lia.
  - rewrite skipn_app_len, firstn_app_len. reflexivity.
  - intros k [H1 H2]. replace k with (length u + S (k - length u - 1))%nat by lia. rewrite skipn_app, skipn_all2 by lia. replace (length u + S (k - length u - 1) - length u)%nat with (S (k - length u - 1)) by lia.
    cbn [app skipn]. rewrite strip_prefix_none; [reflexivity|]. intros z C. apply Hp. apply (skipn_in (k - length u - 1)). rewrite C. now left.
Qed.

(** ** Several values *)
Lemma semicolons_cons v w vs : semicolons (v :: w :: vs) = v ++ T " ; " ++ semicolons (w :: vs).
Proof. reflexivity. Qed.
Lemma semicolons_no c vs : (c <> " " /\ c <> ";") -> (forall v, In v vs -> ~ In c v) -> ~ In c (semicolons vs).
Proof.
  intros [N1 N2] H. induction vs as [|v [|w vs] IH]; [intros [] | apply H; now left|]. rewrite semicolons_cons. intros C. rewrite !in_app_iff in C. destruct C as [C|[C|C]].
  - apply (H v); [now left | exact C].
  - cbn in C. intuition congruence.
  - apply IH; [intros; apply H; now right | exact C].
Qed.
(** where " ; " can stand *)
Lemma separators_at vs post a b : vs <> [] -> (forall v, In v vs -> ~ In ";" v) -> ~ In ";" post -> semicolons vs ++ T " ];" ++ post = a ++ T " ; " ++ b ->
  exists j, (0 < j < length vs)%nat /\ a = semicolons (firstn j vs) /\ b = semicolons (skipn j vs) ++ T " ];" ++ post.
Proof.
  intros N H Hp. revert a. induction vs as [|v vs IH]; [congruence|]. intros a E. destruct vs as [|w vs].
  - exfalso. cbn [semicolons join] in E. replace (v ++ T " ];" ++ post) with ((v ++ T " ]") ++ ";" :: post) in E by (now rewrite <- app_assoc). replace (a ++ T " ; " ++ b) with ((a ++ [" "]) ++ ";" :: " " :: b) in E by (now rewrite <- app_assoc).
    assert (Hv : ~ In ";" v) by (apply H; now left). destruct (before_last ";" (v ++ T " ]") post (a ++ [" "]) (" " :: b) Hp E) as [q Q].
    assert (Ha : ~ In ";" (a ++ [" "])). { intros C. assert (In ";" (v ++ T " ]")) by (rewrite Q; apply in_or_app; now left). apply in_app_or in H0 as [H0|H0]; [auto | cbn in H0; intuition discriminate]. }
    apply split_first in E as [E _]; [|intros C; apply in_app_or in C as [C|C]; [auto | cbn in C; intuition discriminate] | exact Ha].
    change (T " ]") with ([" "] ++ ["]"]) in E. rewrite app_assoc in E. apply app_inj_tail in E as [_ E]. discriminate E.
  - rewrite semicolons_cons in E. assert (Hv : ~ In ";" v) by (apply H; now left). set (X := semicolons (w :: vs)) in *.
    replace ((v ++ T " ; " ++ X) ++ T " ];" ++ post) with ((v ++ [" "]) ++ ";" :: " " :: X ++ T " ];" ++ post) in E by (now rewrite <- !app_assoc). replace (a ++ T " ; " ++ b) with ((a ++ [" "]) ++ ";" :: " " :: b) in E by (now rewrite <- app_assoc).
    assert (Hv' : ~ In ";" (v ++ [" "])) by (intros C; apply in_app_or in C as [C|[C|[]]]; [auto | discriminate C]).
    destruct (in_dec ascii_dec ";" (a ++ [" "])) as [Ia|Ia].
    + apply app_split in E as [(l & E1 & E2)|(l & E1 & E2)]; [exfalso; apply Hv'; rewrite E1; apply in_or_app; now left|].
      destruct l as [|c l]; [rewrite app_nil_r in E1; rewrite E1 in Ia; contradiction|]. cbn [app] in E2. injection E2 as <- E2.
      (* a ++ " " = v ++ " ;" ++ l *)
      destruct l as [|c l]; [exfalso; replace ((v ++ [" "]) ++ [";"]) with ((v ++ [" "]) ++ [";"]) in E1 by reflexivity; apply app_inj_tail in E1 as [_ E1]; discriminate E1|].
      cbn [app] in E2. injection E2 as <- E2.
      destruct l as [|c l _] using rev_ind.
      * cbn [app] in E2. (* X ++ ... starts with ";" *) exfalso. destruct w as [|w0 w].
        -- unfold X in E2. destruct vs; cbn in E2; discriminate E2.
        -- unfold X in E2. assert (~ In ";" (w0 :: w)) by (apply H; right; now left). destruct vs; cbn in E2; injection E2 as E2 _; apply H0; left; exact E2.
      * assert (Ea : a = v ++ T " ; " ++ l /\ c = " "). { change (" " :: l ++ [c]) with ((" " :: l) ++ [c]) in E1. rewrite app_comm_cons, app_assoc in E1. apply app_inj_tail in E1 as [-> ->]. split; [|reflexivity]. rewrite <- app_assoc. reflexivity. }
        destruct Ea as [-> ->]. rewrite <- app_assoc in E2. cbn [app] in E2. destruct (IH ltac:(discriminate) ltac:(intros; apply H; now right) l) as (j & J1 & J2 & J3).
        { exact E2. }
        exists (S j). split; [cbn [length] in *; lia|]. split; [|exact J3]. rewrite J2. destruct j; [lia|]. cbn [firstn]. now rewrite semicolons_cons.
    + apply split_first in E as [E1 E2]; [|exact Hv' | exact Ia]. apply app_inj_tail in E1 as [-> _]. injection E2 as <-. exists 1%nat. split; [cbn; lia|]. split; reflexivity.
Qed.
Lemma semi_prev vs p c q : (forall v, In v vs -> ~ In ";" v) -> semicolons vs = p ++ c :: ";" :: q -> c = " ".
Proof.
  intros H. revert p; induction vs as [|v vs IH]; intros p E; [destruct p; discriminate E|]. assert (Hv : ~ In ";" v) by (apply H; now left). destruct vs as [|w vs].
  - exfalso. apply Hv. cbn [semicolons join] in E. rewrite E. apply in_or_app. right. right. now left.
  - rewrite semicolons_cons in E. assert (E' : (v ++ [" "]) ++ ";" :: " " :: semicolons (w :: vs) = (p ++ [c]) ++ ";" :: q) by (rewrite <- !app_assoc; exact E).
    assert (Hv' : ~ In ";" (v ++ [" "])) by (intros C; apply in_app_or in C as [C|[C|[]]]; [auto | discriminate C]).
    destruct (in_dec ascii_dec ";" (p ++ [c])) as [Ip|Ip].
    + apply app_split in E' as [(l & E1 & E2)|(l & E1 & E2)]; [exfalso; apply Hv'; rewrite E1; apply in_or_app; now left|].
      destruct l as [|d l]; [rewrite app_nil_r in E1; rewrite E1 in Ip; contradiction|]. cbn [app] in E2. injection E2 as <- E2.
      destruct l as [|d l]; [discriminate E2|]. cbn [app] in E2. injection E2 as <- E2.
      destruct l as [|d l _] using rev_ind.
      * exfalso. cbn [app] in E2. destruct w as [|w0 w]; [destruct vs; cbn in E2; discriminate E2|]. assert (Hw : ~ In ";" (w0 :: w)) by (apply H; right; now left). apply Hw. left. destruct vs; cbn in E2; injection E2 as E2 _; exact E2.
      * assert (d = c). { change (";" :: " " :: l ++ [d]) with ((";" :: " " :: l) ++ [d]) in E1. rewrite app_assoc in E1. apply app_inj_tail in E1 as [_ E1]. congruence. }
        subst d. apply (IH ltac:(intros; apply H; now right) l). rewrite E2, <- app_assoc. reflexivity.
    + apply split_first in E' as [E1 _]; [|exact Hv' | exact Ip]. apply app_inj_tail in E1 as [_ E1]. congruence.
Qed.
Definition tail_pattern (n : nat) : list ritem := more_groups n ++ [Lit (T " ];")].
Lemma last_bracket vs post z k : vs <> [] -> (forall v, In v vs -> ~ In ";" v) -> ~ In ";" post -> skipn k (semicolons vs ++ T " ];" ++ post) = T " ];" ++ z -> k = length (semicolons vs) /\ z = post.
Proof.
  intros N H Hp E. set (J := semicolons vs) in *. assert (L : J ++ T " ];" ++ post = firstn k (J ++ T " ];" ++ post) ++ T " ];" ++ z) by (rewrite <- E; now rewrite firstn_skipn).
  set (f := firstn k (J ++ T " ];" ++ post)) in *.
  assert (Lk : k = length f \/ (length (J ++ T " ];" ++ post) <= k)%nat) by (unfold f; rewrite firstn_length; lia).
  destruct Lk as [Lk|Lk]; [|rewrite skipn_all2 in E by exact Lk; discriminate E]. clearbody f. clear E. subst k.
  assert (L' := L). replace (J ++ T " ];" ++ post) with ((J ++ T " ]") ++ ";" :: post) in L' by (now rewrite <- app_assoc). replace (f ++ T " ];" ++ z) with ((f ++ T " ]") ++ ";" :: z) in L' by (now rewrite <- app_assoc).
  destruct (before_last _ _ _ _ _ Hp L') as [q Q]. destruct q as [|c q].
  - rewrite app_nil_r in Q. apply app_inv_tail in Q. rewrite <- Q in L. apply app_inv_head in L. apply app_inv_head in L. subst. auto.
  - exfalso. rewrite Q in L'. rewrite <- app_assoc in L'. apply app_inv_head in L'. cbn [app] in L'. injection L' as -> L'.
    change (T " ]") with ([" "] ++ ["]"]) in Q. rewrite !app_assoc in Q.
    destruct q as [|c q _] using rev_ind; [apply app_inj_tail in Q as [_ Q]; discriminate Q|]. change (";" :: q ++ [c]) with ((";" :: q) ++ [c]) in Q. rewrite !app_assoc in Q. apply app_inj_tail in Q as [Q _].
    destruct q as [|c2 q _] using rev_ind; [apply app_inj_tail in Q as [_ Q]; discriminate Q|]. change (";" :: q ++ [c2]) with ((";" :: q) ++ [c2]) in Q. rewrite !app_assoc in Q. apply app_inj_tail in Q as [Q _].
    rewrite <- app_assoc in Q. cbn [app] in Q. apply (semi_prev vs _ _ _ H) in Q. discriminate Q.
Qed.
Lemma length_skip {A} (l : list A) k a b : l = a ++ b -> skipn k l = b -> (k <= length l)%nat -> k = length a.
Proof. intros -> E L. apply (f_equal (@length A)) in E. rewrite skipn_length, app_length in *. lia. Qed.
Lemma semicolons_in_nl vs post : (forall v, In v vs -> ~ In nl v) -> ~ In nl post -> ~ In nl (semicolons vs ++ T " ];" ++ post).
Proof. intros H Hp C. rewrite !in_app_iff in C. destruct C as [C|[C|C]]; [|cbn in C; intuition discriminate | auto]. revert C. apply semicolons_no; [split; discriminate | exact H]. Qed.
(** the pattern (.* ) ; ... ; (.* ) ]; with n + 1 groups *)
Lemma vector_match n vs post : vs <> [] -> (forall v, In v vs -> ~ In ";" v /\ ~ In nl v) -> ~ In ";" post -> ~ In nl post ->
  rmatch (Star true dot :: tail_pattern n) (semicolons vs ++ T " ];" ++ post) = if (S n <=? length vs)%nat then Some (groups (S n) vs, post) else None.
Proof.
  revert vs; induction n as [|n IH]; intros vs N H Hp Hn.
  all: assert (Hs : forall v, In v vs -> ~ In ";" v) by (intros; now apply H); assert (Hl : ~ In nl (semicolons vs ++ T " ];" ++ post)) by (apply semicolons_in_nl; [intros; now apply H | exact Hn]).
  - assert (length vs >= 1)%nat by (destruct vs; [congruence | cbn; lia]). destruct (1 <=? length vs)%nat eqn:E; [|apply Nat.leb_gt in E; lia].
    change (tail_pattern 0) with [Lit (T " ];")]. cbn [rmatch]. rewrite span_dot by exact Hl. apply try_down_first with (n := length (semicolons vs)).
    + rewrite app_length. lia.
    + rewrite skipn_app_len, firstn_app_len, strip_prefix_app. unfold group, groups. cbn [option_map fst snd]. do 2 f_equal. rewrite firstn_all2 by lia. rewrite skipn_all2 by lia. reflexivity.
    + intros k [H1 H2]. unfold group. rewrite strip_prefix_none; [reflexivity|]. intros z C. apply last_bracket in C as [C _]; [lia | exact N | exact Hs | exact Hp].
  - change (rmatch (Star true dot :: tail_pattern (S n)) (semicolons vs ++ T " ];" ++ post)) with
      (try_down (fun k => group true (firstn k (semicolons vs ++ T " ];" ++ post)) (match strip_prefix (T " ; ") (skipn k (semicolons vs ++ T " ];" ++ post)) with Some l => rmatch (Star true dot :: tail_pattern n) l | None => None end)) (length (fst (span dot (semicolons vs ++ T " ];" ++ post))))).
    rewrite span_dot by exact Hl.
    assert (K : forall k l, (k <= length (semicolons vs ++ T " ];" ++ post))%nat -> strip_prefix (T " ; ") (skipn k (semicolons vs ++ T " ];" ++ post)) = Some l ->
      exists j, (0 < j < length vs)%nat /\ k = length (semicolons (firstn j vs)) /\ firstn k (semicolons vs ++ T " ];" ++ post) = semicolons (firstn j vs) /\ l = semicolons (skipn j vs) ++ T " ];" ++ post).
    { intros k l L C. apply strip_prefix_some in C. destruct (separators_at vs post (firstn k (semicolons vs ++ T " ];" ++ post)) l N Hs Hp) as (j & J1 & J2 & J3); [rewrite <- C; now rewrite firstn_skipn|].
      exists j. split; [exact J1|]. split; [|split; assumption]. rewrite <- J2, firstn_length. lia. }
    assert (R1 : forall j, (0 < j < length vs)%nat -> rmatch (Star true dot :: tail_pattern n) (semicolons (skipn j vs) ++ T " ];" ++ post) = if (S n <=? length vs - j)%nat then Some (groups (S n) (skipn j vs), post) else None).
    { intros j J. rewrite IH; [now rewrite skipn_length | | intros v Hv; apply H; eapply skipn_in; eauto | exact Hp | exact Hn]. intros C. apply (f_equal (@length text)) in C. rewrite skipn_length in C. cbn in C. lia. }
    destruct (S (S n) <=? length vs)%nat eqn:E; [apply Nat.leb_le in E | apply Nat.leb_gt in E].
    + set (j := (length vs - S n)%nat).
      assert (S1 : semicolons vs = semicolons (firstn j vs) ++ T " ; " ++ semicolons (skipn j vs)).
      { assert (J : (0 < j < length vs)%nat) by (unfold j; lia). clearbody j. clear -J. revert j J; induction vs as [|v vs IHv]; intros j J; [cbn in J; lia|]. destruct vs as [|w vs]; [cbn in J; lia|]. rewrite semicolons_cons. destruct j as [|[|j]]; [lia | reflexivity|].
        rewrite (IHv (S j)) by (cbn in *; lia). cbn [firstn skipn]. rewrite semicolons_cons. now rewrite <- !app_assoc. }
      apply try_down_first with (n := length (semicolons (firstn j vs))).
      * rewrite S1, !app_length. lia.
      * rewrite S1 at 1 2. rewrite <- app_assoc. rewrite firstn_app_len, skipn_app_len. rewrite <- app_assoc, strip_prefix_app. rewrite R1 by (unfold j; lia).
        destruct (S n <=? length vs - j)%nat eqn:E2; [|apply Nat.leb_gt in E2; unfold j in E2; lia]. unfold group, groups. cbn [option_map fst snd]. rewrite skipn_length.
        replace (length vs - j - S n)%nat with 0%nat by (unfold j; lia). replace (S (length vs - S (S n))) with j by (unfold j; lia).
        do 2 f_equal. f_equal.
        assert (J3 : skipn j vs <> []) by (intros C; apply (f_equal (@length text)) in C; rewrite skipn_length in C; cbn in C; unfold j in C; lia). destruct (skipn j vs); [congruence | reflexivity].
      * intros k [H1 H2]. unfold group. destruct (strip_prefix _ _) as [l|] eqn:E3; [|reflexivity]. apply K in E3 as (i & I1 & I2 & I3 & ->); [|exact H2]. rewrite R1 by exact I1.
        destruct (S n <=? length vs - i)%nat eqn:E4; [|reflexivity]. apply Nat.leb_le in E4. exfalso.
        assert (M : (length (semicolons (firstn i vs)) <= length (semicolons (firstn j vs)))%nat).
        { assert (Lij : (i <= j)%nat) by (unfold j; lia). clearbody j. clear -Lij. revert j vs Lij; induction i as [|i IHi]; intros j vs Lij; [cbn; lia|]. destruct j as [|j]; [lia|]. destruct vs as [|v vs]; [cbn; lia|]. specialize (IHi j vs ltac:(lia)). cbn [firstn].
          destruct (firstn i vs) as [|x l1] eqn:F1.
          - change (semicolons [v]) with v. destruct (firstn j vs) as [|y l2]; [reflexivity|]. rewrite semicolons_cons, app_length. lia.
          - destruct (firstn j vs) as [|y l2] eqn:F2; [destruct i; [discriminate F1|]; destruct vs; [discriminate F1|]; destruct j; [lia | discriminate F2]|]. rewrite !semicolons_cons, !app_length. lia. }
        lia.
    + apply try_down_none. intros k Lk. unfold group. destruct (strip_prefix _ _) as [l|] eqn:E3; [|reflexivity]. apply K in E3 as (i & I1 & I2 & I3 & ->); [|exact Lk]. rewrite R1 by exact I1.
      destruct (S n <=? length vs - i)%nat eqn:E4; [apply Nat.leb_le in E4; lia | reflexivity].
Qed.
