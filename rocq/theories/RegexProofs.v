(** Lemmas about the regular expressions of CalibModel. *)
From Coq Require Import String Ascii.
From Verif Require Import Base HelpersModel CameraModel ConvertModel SvgModel SvgDocModel CalibModel.
Notation length := List.length.
Open Scope char_scope.

Lemma strip_prefix_some t l r : strip_prefix t l = Some r <-> l = t ++ r.
Proof.
  revert l; induction t as [|c t IH]; intros l; cbn.
  - split; [intros [= ->]; reflexivity | intros ->; reflexivity].
  - destruct l as [|d l]; [split; discriminate|]. destruct (Ascii.eqb_spec c d) as [->|N].
    + rewrite IH. split; [intros ->; reflexivity | intros [= ->]; reflexivity].
    + split; [discriminate | intros [= E _]; congruence].
Qed.
Lemma strip_prefix_app t l : strip_prefix t (t ++ l) = Some l. Proof. now apply strip_prefix_some. Qed.
Lemma strip_prefix_none t l : (forall r, l <> t ++ r) -> strip_prefix t l = None.
Proof. intros H. destruct (strip_prefix t l) as [r|] eqn:E; [|reflexivity]. apply strip_prefix_some in E. now destruct (H r). Qed.

Lemma span_spec p l : l = fst (span p l) ++ snd (span p l) /\ forallb p (fst (span p l)) = true /\ match snd (span p l) with c :: _ => p c = false | [] => True end.
Proof.
  induction l as [|c l IH]; cbn; [auto|]. destruct (p c) eqn:E.
  - destruct (span p l) as [a b] eqn:F. cbn in *. destruct IH as (H1 & H2 & H3). rewrite <- H1, E, H2. auto.
  - cbn. auto.
Qed.
Lemma span_app p a l : forallb p a = true -> match l with c :: _ => p c = false | [] => True end -> span p (a ++ l) = (a, l).
Proof.
  intros H1 H2. induction a as [|c a IH]; cbn in *.
  - destruct l as [|c l]; cbn; [reflexivity|]. now rewrite H2.
  - apply andb_prop in H1 as [H1 H3]. rewrite H1, (IH H3). reflexivity.
Qed.
Lemma span_len p l : (length (fst (span p l)) <= length l)%nat.
Proof. destruct (span_spec p l) as (H & _). rewrite H at 2. rewrite app_length. lia. Qed.
Lemma span_firstn p l n : (n <= length (fst (span p l)))%nat -> forallb p (firstn n l) = true.
Proof.
  intros H. destruct (span_spec p l) as (H1 & H2 & _). rewrite H1, firstn_app. replace (n - length (fst (span p l)))%nat with 0%nat by lia.
  cbn [firstn]. rewrite app_nil_r. apply forallb_forall. intros x Hx. apply (proj1 (forallb_forall _ _) H2).
  rewrite <- (firstn_skipn n). apply in_or_app. now left.
Qed.

Lemma try_down_first {A} (f : nat -> option A) n m a : (n <= m)%nat -> f n = Some a -> (forall k, (n < k <= m)%nat -> f k = None) -> try_down f m = Some a.
Proof.
  intros L F N. induction m as [|m IH]; cbn.
  - replace n with 0%nat in F by lia. now rewrite F.
  - destruct (Nat.eq_dec n (S m)) as [->|D]; [now rewrite F|]. rewrite (N (S m)) by lia. apply IH; [lia | intros; apply N; lia].
Qed.
Lemma try_down_some {A} (f : nat -> option A) m a : try_down f m = Some a -> exists n, (n <= m)%nat /\ f n = Some a /\ (forall k, (n < k <= m)%nat -> f k = None).
Proof.
  induction m as [|m IH]; cbn; intros H.
  - destruct (f 0%nat) eqn:E; [|discriminate]. exists 0%nat. repeat split; [lia | congruence | intros; lia].
  - destruct (f (S m)) eqn:E.
    + exists (S m). repeat split; [lia | congruence | intros; lia].
    + destruct (IH H) as (n & H1 & H2 & H3). exists n. repeat split; [lia | exact H2|]. intros k Hk. destruct (Nat.eq_dec k (S m)) as [->|]; [exact E | apply H3; lia].
Qed.
Lemma try_down_none {A} (f : nat -> option A) m : (forall k, (k <= m)%nat -> f k = None) -> try_down f m = None.
Proof. intros H. destruct (try_down f m) eqn:E; [|reflexivity]. apply try_down_some in E as (n & H1 & H2 & _). rewrite H in H2 by lia. discriminate. Qed.
Lemma try_down_ext {A B} (h : A -> B) (f : nat -> option A) (f' : nat -> option B) m : (forall k, (k <= m)%nat -> f' k = option_map h (f k)) -> try_down f' m = option_map h (try_down f m).
Proof.
  induction m as [|m IH]; cbn; intros H.
  - rewrite H by lia. destruct (f 0%nat); reflexivity.
  - rewrite H by lia. destruct (f (S m)); [reflexivity|]. apply IH. intros. apply H. lia.
Qed.

(** ** What a match is *)
Fixpoint matched (r : list ritem) (l : text) (g : list text) (rest : text) : Prop :=
  match r with
  | [] => l = rest /\ g = []
  | Lit t :: r => exists l', l = t ++ l' /\ matched r l' g rest
  | Chr p :: r => exists c l', l = c :: l' /\ p c = true /\ matched r l' g rest
  | Star gr p :: r => exists a l' g', l = a ++ l' /\ forallb p a = true /\ g = (if gr then a :: g' else g') /\ matched r l' g' rest
  | Plus gr p :: r => exists a l' g', l = a ++ l' /\ a <> [] /\ forallb p a = true /\ g = (if gr then a :: g' else g') /\ matched r l' g' rest
  end.
Lemma rmatch_matched r l g rest : rmatch r l = Some (g, rest) -> matched r l g rest.
Proof.
  revert l g rest; induction r as [|[t|p|gr p|gr p] r IH]; intros l g rest; cbn [rmatch matched].
  - now intros [= <- <-].
  - destruct (strip_prefix t l) as [l'|] eqn:E; [|discriminate]. intros H. apply strip_prefix_some in E. eauto.
  - destruct l as [|c l']; [discriminate|]. destruct (p c) eqn:E; [|discriminate]. intros H. eauto 6.
  - intros H. apply try_down_some in H as (n & L & H & _). unfold group in H. destruct (rmatch r (skipn n l)) as [[g' r']|] eqn:E; [|discriminate]. cbn in H. injection H as <- <-.
    exists (firstn n l), (skipn n l), g'. repeat split; [now rewrite firstn_skipn | now apply span_firstn | now apply IH].
  - destruct (length (fst (span p l))) as [|m] eqn:F; [discriminate|]. intros H. apply try_down_some in H as (n & L & H & _). unfold group in H.
    destruct (rmatch r (skipn (S n) l)) as [[g' r']|] eqn:E; [|discriminate]. cbn [option_map fst snd] in H. injection H as <- <-.
    exists (firstn (S n) l), (skipn (S n) l), g'. pose proof (span_len p l). repeat split; [now rewrite firstn_skipn | | apply span_firstn; lia | now apply IH].
    intros C. apply (f_equal (@length ascii)) in C. rewrite firstn_length in C. cbn [length] in C. lia.
Qed.
Lemma rmatch_length r l g rest : rmatch r l = Some (g, rest) -> (length rest <= length l)%nat.
Proof.
  intros H. apply rmatch_matched in H. revert l g H; induction r as [|[t|p|gr p|gr p] r IH]; intros l g; cbn [matched].
  - intros [-> _]. lia.
  - intros (l' & -> & H). apply IH in H. rewrite app_length. lia.
  - intros (c & l' & -> & _ & H). apply IH in H. cbn. lia.
  - intros (a & l' & g' & -> & _ & _ & H). apply IH in H. rewrite app_length. lia.
  - intros (a & l' & g' & -> & _ & _ & _ & H). apply IH in H. rewrite app_length. lia.
Qed.

(** ** Patterns within a line *)
Definition in_line (i : ritem) : Prop := match i with Lit t => ~ In nl t | Chr p | Star _ p | Plus _ p => p nl = false end.
Lemma strip_prefix_line t a b : ~ In nl t -> strip_prefix t (a ++ nl :: b) = option_map (fun x => x ++ nl :: b) (strip_prefix t a).
Proof.
  revert a; induction t as [|c t IH]; intros a H; cbn; [reflexivity|]. destruct a as [|d a]; cbn.
  - destruct (Ascii.eqb_spec c nl) as [E|_]; [destruct H; now left | reflexivity].
  - destruct (Ascii.eqb c d); [|reflexivity]. apply IH. intros C. apply H. now right.
Qed.
Lemma span_line p a b : p nl = false -> fst (span p (a ++ nl :: b)) = fst (span p a).
Proof.
  intros H. induction a as [|c a IH]; cbn; [now rewrite H|]. destruct (p c); [|reflexivity].
  destruct (span p (a ++ nl :: b)), (span p a). cbn in *. congruence.
Qed.
Lemma rmatch_line r a b : Forall in_line r -> rmatch r (a ++ nl :: b) = option_map (fun x => (fst x, snd x ++ nl :: b)) (rmatch r a).
Proof.
  intros F. revert a; induction F as [|i r Hi F IH]; intros a; [reflexivity|]. destruct i as [t|p|gr p|gr p]; cbn [rmatch in_line] in *.
  - rewrite (strip_prefix_line _ _ _ Hi). destruct (strip_prefix t a) as [a'|]; cbn; [apply IH | reflexivity].
  - destruct a as [|c a]; cbn [app]; [now rewrite Hi|]. destruct (p c); [apply IH | reflexivity].
  - rewrite (span_line _ _ _ Hi). apply try_down_ext. intros k Hk. pose proof (span_len p a). unfold group.
    rewrite firstn_app, skipn_app. replace (k - length a)%nat with 0%nat by lia. cbn [firstn skipn]. rewrite app_nil_r, IH.
    destruct (rmatch r (skipn k a)) as [[? ?]|]; cbn; destruct gr; reflexivity.
  - rewrite (span_line _ _ _ Hi). destruct (length (fst (span p a))) as [|m] eqn:F'; [reflexivity|]. apply try_down_ext. intros k Hk. pose proof (span_len p a). unfold group.
    rewrite firstn_app, skipn_app. replace (S k - length a)%nat with 0%nat by lia. change (firstn 0 (nl :: b)) with (@nil ascii). change (skipn 0 (nl :: b)) with (nl :: b). rewrite app_nil_r, IH.
    destruct (rmatch r (skipn (S k) a)) as [[? ?]|]; cbn [option_map fst snd]; destruct gr; reflexivity.
Qed.
(** patterns that start with a literal *)
Definition lit_first (r : list ritem) : Prop := match r with Lit (_ :: _) :: _ => True | Plus _ _ :: _ => True | _ => False end.
Lemma rmatch_shorter r l g rest : lit_first r -> rmatch r l = Some (g, rest) -> (length rest < length l)%nat.
Proof.
  intros L H. destruct r as [|[[|c t]|p|gr p|gr p] r]; try destruct L; apply rmatch_matched in H; cbn [matched] in H.
  - destruct H as (l' & -> & H). assert (length rest <= length l')%nat. { clear -H. revert l' g H; induction r as [|[t|p|gr p|gr p] r IH]; intros l g; cbn [matched].
      - intros [-> _]. lia.
      - intros (l' & -> & H). apply IH in H. rewrite app_length. lia.
      - intros (d & l' & -> & _ & H). apply IH in H. cbn. lia.
      - intros (a & l' & g' & -> & _ & _ & H). apply IH in H. rewrite app_length. lia.
      - intros (a & l' & g' & -> & _ & _ & _ & H). apply IH in H. rewrite app_length. lia. }
    cbn [app length]. rewrite app_length. lia.
  - destruct H as (a & l' & g' & -> & N & _ & _ & H). assert (length rest <= length l')%nat. { clear -H. revert l' g' H; induction r as [|[t|p|gr p|gr p] r IH]; intros l g; cbn [matched].
      - intros [-> _]. lia.
      - intros (l' & -> & H). apply IH in H. rewrite app_length. lia.
      - intros (d & l' & -> & _ & H). apply IH in H. cbn. lia.
      - intros (a & l' & g' & -> & _ & _ & H). apply IH in H. rewrite app_length. lia.
      - intros (a & l' & g' & -> & _ & _ & _ & H). apply IH in H. rewrite app_length. lia. }
    rewrite app_length. destruct a; [congruence | cbn; lia].
Qed.

(** enough fuel *)
Section Fuel.
Variables (A : Type) (m : text -> option (A * text)).
Hypothesis shorter : forall l a rest, m l = Some (a, rest) -> (length rest < length l)%nat.
Lemma findall_fuel n l : (length l <= n)%nat -> findall_ m n l = findall m l.
Proof.
  unfold findall. revert l. assert (K : forall n n' l, (length l <= n)%nat -> (length l <= n')%nat -> findall_ m n l = findall_ m n' l).
  { induction n0 as [|n0 IH]; intros n' l H H'.
    - destruct l; [|cbn in H; lia]. destruct n'; reflexivity.
    - destruct n' as [|n']; [destruct l; [reflexivity | cbn in H'; lia]|]. destruct l as [|c l]; [reflexivity|]. cbn [findall_].
      destruct (m (c :: l)) as [[a rest]|] eqn:E.
      + f_equal. specialize (shorter _ _ _ E). cbn in *. apply IH; lia.
      + cbn in *. apply IH; lia. }
  intros l H. apply K; lia.
Qed.
Lemma findall_some l a rest : m l = Some (a, rest) -> findall m l = a :: findall m rest.
Proof.
  intros H. pose proof (shorter _ _ _ H) as L. destruct l as [|c l]; [cbn in L; lia|]. unfold findall at 1. cbn [length findall_]. rewrite H. f_equal. apply findall_fuel. cbn in L. lia.
Qed.
Lemma findall_none c l : m (c :: l) = None -> findall m (c :: l) = findall m l.
Proof. intros H. unfold findall at 1. cbn [length findall_]. rewrite H. reflexivity. Qed.
End Fuel.

Section Line.
Variable r : list ritem.
Hypothesis first : lit_first r.
Lemma find_some l g rest : rmatch r l = Some (g, rest) -> refindall r l = g :: refindall r rest.
Proof. apply findall_some. intros. eapply rmatch_shorter; eauto. Qed.
Lemma find_none c l : rmatch r (c :: l) = None -> refindall r (c :: l) = refindall r l.
Proof. apply findall_none. Qed.
(** no match starts in [a] *)
Lemma find_skip a l : (forall x y, a = x ++ y -> y <> [] -> rmatch r (y ++ l) = None) -> refindall r (a ++ l) = refindall r l.
Proof.
  induction a as [|c a IH]; intros H; [reflexivity|]. cbn [app]. rewrite find_none.
  - apply IH. intros x y E N. apply (H (c :: x) y); [now rewrite E | exact N].
  - apply (H [] (c :: a)); [reflexivity | discriminate].
Qed.
Hypothesis line : Forall in_line r.
Lemma nl_none l : rmatch r (nl :: l) = None.
Proof.
  change (nl :: l) with ([] ++ nl :: l). rewrite (rmatch_line _ _ _ line). destruct (rmatch r []) as [[g rest]|] eqn:E; [|reflexivity].
  apply (rmatch_shorter _ _ _ _ first) in E. cbn in E. lia.
Qed.
Lemma find_line a b : refindall r (a ++ nl :: b) = refindall r a ++ refindall r b.
Proof.
  remember (length a) as n eqn:N. revert a N; induction n as [n IH] using lt_wf_ind; intros a ->. destruct a as [|c a].
  - cbn [app]. rewrite (find_none _ _ (nl_none b)). reflexivity.
  - destruct (rmatch r (c :: a)) as [[g rest]|] eqn:E.
    + rewrite (find_some _ _ _ E). pose proof (rmatch_line r (c :: a) b line) as H. rewrite E in H. cbn [option_map fst snd] in H.
      rewrite (find_some _ _ _ H). cbn [app]. f_equal. apply (IH (length rest)); [|reflexivity]. eapply rmatch_shorter; eauto.
    + rewrite (find_none _ _ E). pose proof (rmatch_line r (c :: a) b line) as H. rewrite E in H. cbn [option_map] in H. cbn [app] in *. rewrite (find_none _ _ H). apply (IH (length a)); [cbn; lia | reflexivity].
Qed.
Lemma find_lines ls : refindall r (concat (map (fun l => l ++ [nl]) ls)) = concat (map (refindall r) ls).
Proof. induction ls as [|l ls IH]; [reflexivity|]. cbn [map concat]. rewrite <- app_assoc. cbn [app]. rewrite find_line, IH. reflexivity. Qed.
End Line.
