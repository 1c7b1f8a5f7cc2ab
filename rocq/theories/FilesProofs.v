(** Proofs about FilesModel. *)
From Coq Require Import String Ascii Lia.
From Verif Require Import Base FilesModel.
Notation length := List.length.

Lemma put_same p x s : put p x s p = Some x.
Proof. unfold put, path_eqb. destruct (list_eq_dec string_dec p p); congruence. Qed.
Lemma put_other p q x s : q <> p -> put p x s q = s q.
Proof. intros N. unfold put, path_eqb. destruct (list_eq_dec string_dec q p); congruence. Qed.

(** a file system: everything is in a directory *)
Definition tree (s : fs) : Prop := s [] = Some Dir /\ forall x p, s (x :: p) <> None -> s p = Some Dir.
(** [q] contains [p] *)
Definition above (q p : path) : Prop := exists l, l <> [] /\ p = l ++ q.
(** only [p] and missing directories above it can have changed *)
Definition elsewhere (p : path) (s s' : fs) : Prop := forall q, q <> p -> s' q = s q \/ s q = None /\ s' q = Some Dir /\ above q p.

Lemma last_cons {A} (l : list A) : forall a d, last (a :: l) d = last l a.
Proof. induction l as [|b l IH]; intros a d; [reflexivity|]. change (last (a :: b :: l) d) with (last (b :: l) d). now rewrite !IH. Qed.
Lemma final_app (s : fs) t t' : final s (t ++ t') = final (final s t) t'.
Proof. unfold final. revert s. induction t; intros s; [reflexivity|]. cbn [app]. rewrite !last_cons. apply IHt. Qed.
Lemma final_in (s : fs) t : final s t = s \/ In (final s t) t.
Proof. unfold final. revert s. induction t as [|a t IH]; intros s; [now left|]. right. rewrite last_cons. destruct (IH a) as [->|]; [now left | now right]. Qed.

Definition made (p : path) (s s' : fs) : Prop := forall q, s' q = s q \/ s q = None /\ s' q = Some Dir /\ exists l, p = l ++ q.
Lemma put_dir_tree p s : tree s -> s p = None -> s (tl p) = Some Dir -> tree (put p Dir s).
Proof. intros [R T] N D. split.
  - rewrite put_other; [exact R|]. intros <-. congruence.
  - intros x q H. destruct (list_eq_dec string_dec q p) as [->|E].
    + apply put_same.
    + rewrite put_other by exact E. destruct (list_eq_dec string_dec (x :: q) p) as [<-|E']; [exact D|]. rewrite put_other in H by exact E'. eapply T; eassumption. Qed.
Lemma put_file_tree p b s : tree s -> (s p = None \/ exists c, s p = Some (File c)) -> s (tl p) = Some Dir -> p <> [] -> tree (put p (File b) s).
Proof. intros [R T] F D N. split.
  - rewrite put_other; [exact R|congruence].
  - intros x q H. destruct (list_eq_dec string_dec (x :: q) p) as [<-|E'].
    + rewrite put_other; [exact D|]. intros E. apply (f_equal (@List.length string)) in E. cbn in E. lia.
    + rewrite put_other in H by exact E'. pose proof (T _ _ H) as G. destruct (list_eq_dec string_dec q p) as [->|E]; [|now rewrite put_other].
      destruct F as [F|[c F]]; congruence. Qed.

Lemma mkdir_spec p : forall s, tree s ->
  (forall s', In s' (fst (mkdir p s)) -> tree s' /\ made p s s') /\
  (snd (mkdir p s) = Done tt -> final s (fst (mkdir p s)) p = Some Dir).
Proof.
  induction p as [|x p IH]; intros s T; cbn [mkdir].
  - split; [intros s' []|]. intros _. apply T.
  - destruct (s (x :: p)) as [[|b]|] eqn:E.
    + split; [intros s' []|]. intros _. exact E.
    + split; [intros s' []|]. cbn. discriminate.
    + destruct (s p) as [[|b]|] eqn:D.
      * split; [|intros _; apply put_same]. intros s' [<-|[]]. split; [apply put_dir_tree; assumption|].
        intros q. destruct (list_eq_dec string_dec q (x :: p)) as [->|N]; [right | left; now apply put_other].
        split; [exact E|]. split; [apply put_same|]. now exists [].
      * split; [intros s' []|]. cbn. discriminate.
      * specialize (IH s T). destruct (mkdir p s) as [t r]. cbn [fst snd] in IH. destruct IH as [A B]. destruct r as [[]|e]; cbn [fst snd].
        2: { split; [|discriminate]. intros s' H. destruct (A _ H) as [T' M]. split; [exact T'|]. intros q. destruct (M q) as [|[? [? [l ->]]]]; [now left|]. right. split; [assumption|]. split; [assumption|]. now exists (x :: l). }
        specialize (B eq_refl). assert (G : tree (final s t) /\ made p s (final s t)). { destruct (final_in s t) as [->|H]; [|now apply A]. split; [exact T|]. intros q. now left. }
        destruct G as [T' M]. assert (E' : final s t (x :: p) = None). { destruct (M (x :: p)) as [G|[_ [_ [l G]]]]; [congruence|]. apply (f_equal (@List.length string)) in G. rewrite app_length in G. cbn in G. lia. }
        split.
        -- intros s' H. apply in_app_or in H. destruct H as [H|[<-|[]]].
           ++ destruct (A _ H) as [T'' M']. split; [exact T''|]. intros q. destruct (M' q) as [|[? [? [l ->]]]]; [now left|]. right. split; [assumption|]. split; [assumption|]. now exists (x :: l).
           ++ split; [now apply put_dir_tree|]. intros q. destruct (list_eq_dec string_dec q (x :: p)) as [->|N].
              ** right. split; [exact E|]. split; [apply put_same|]. now exists [].
              ** rewrite put_other by exact N. destruct (M q) as [|[? [? [l ->]]]]; [now left|]. right. split; [assumption|]. split; [assumption|]. now exists (x :: l).
        -- intros _. rewrite final_app. apply put_same.
Qed.
Lemma mkdir_done p : forall s, tree s -> (forall q l b, p = l ++ q -> s q <> Some (File b)) -> snd (mkdir p s) = Done tt.
Proof.
  induction p as [|x p IH]; intros s T F; cbn [mkdir]; [reflexivity|].
  destruct (s (x :: p)) as [[|b]|] eqn:E; [reflexivity | exfalso; now apply (F (x :: p) [] b) |].
  destruct (s p) as [[|b]|] eqn:D; [reflexivity | exfalso; now apply (F p [x] b) |].
  assert (G : snd (mkdir p s) = Done tt) by (apply IH; [exact T|]; intros q l b ->; now apply (F q (x :: l) b)).
  destruct (mkdir p s) as [t r]. cbn in G. subst r. reflexivity.
Qed.
Lemma mkdir_there p s : s p = Some Dir -> mkdir p s = ([], Done tt).
Proof. destruct p; [reflexivity|]. intros E. cbn [mkdir]. now rewrite E. Qed.

Lemma writing_in p : forall b w s s', In s' (writing p w b s) -> exists u r, b = u ++ r /\ s' = put p (File (w ++ u)) s.
Proof. induction b as [|c b IH]; intros w s s' H; [destruct H|]. cbn [writing] in H. destruct H as [<-|H].
  - now exists [c], b.
  - destruct (IH _ _ _ H) as [u [r [-> ->]]]. exists (c :: u), r. split; [reflexivity|]. now rewrite <- app_assoc. Qed.
Lemma writing_final p : forall b w s d, d p = Some (File w) -> final d (writing p w b s) p = Some (File (w ++ b)).
Proof. induction b as [|c b IH]; intros w s d D; cbn [writing].
  - now rewrite app_nil_r.
  - change (?x :: ?y) with ([x] ++ y). change (put p (File (w ++ [c])) s :: writing p (w ++ [c]) b s) with ([put p (File (w ++ [c])) s] ++ writing p (w ++ [c]) b s). rewrite final_app.
    rewrite IH by apply put_same. now rewrite <- app_assoc. Qed.
Lemma store_spec p b s : tree s ->
  (forall s', In s' (fst (store p b s)) -> tree s' /\ (forall q, q <> p -> s' q = s q) /\ exists w r, b = w ++ r /\ s' p = Some (File w)) /\
  (snd (store p b s) = Done tt -> final s (fst (store p b s)) p = Some (File b) /\ exists s', In s' (fst (store p b s)) /\ s' p = Some (File [])).
Proof.
  intros T. unfold store, open_write. destruct (s p) as [[|c]|] eqn:E; [split; [intros s' []|discriminate]| |];
  (destruct (s (tl p)) as [[|c']|] eqn:D; [|split; [intros s' []|discriminate]..]);
  (assert (N : p <> []) by (intros ->; destruct T; congruence); cbn [fst snd]; split;
   [ intros s' [<-|H];
     [ split; [apply put_file_tree; try assumption; eauto | split; [intros; now apply put_other | exists [], b; split; [reflexivity | apply put_same]]]
     | apply writing_in in H; destruct H as [u [r [-> ->]]]; cbn [app]; split; [apply put_file_tree; try assumption; eauto | split; [intros; now apply put_other | exists u, r; split; [reflexivity | apply put_same]]] ]
   | intros _; split;
     [ change (put p (File []) s :: writing p [] b s) with ([put p (File []) s] ++ writing p [] b s); rewrite final_app; apply writing_final; apply put_same
     | exists (put p (File []) s); split; [now left | apply put_same] ] ]).
Qed.
Lemma store_done p b s : s p <> Some Dir -> s (tl p) = Some Dir -> snd (store p b s) = Done tt.
Proof. intros N D. unfold store, open_write. destruct (s p) as [[|c]|]; [congruence | rewrite D; reflexivity ..]. Qed.

(** making the directories, then writing *)
Definition save (p : path) (b : bytes) (s : fs) := and_then s (mkdir (tl p) s) (store p b).
Lemma made_elsewhere p s s' : made (tl p) s s' -> s' p = s p \/ p = [].
Proof. intros M. destruct p as [|x p]; [now right|]. left. destruct (M (x :: p)) as [|[_ [_ [l G]]]]; [assumption|]. cbn [tl] in G. apply (f_equal (@List.length string)) in G. rewrite app_length in G. cbn in G. lia. Qed.
Lemma made_above p s s' : p <> [] -> made (tl p) s s' -> elsewhere p s s'.
Proof. intros N M q Q. destruct p as [|x p]; [congruence|]. destruct (M q) as [|[? [? [l E]]]]; [now left|]. cbn [tl] in E. right. split; [assumption|]. split; [assumption|]. exists (x :: l). split; [discriminate|]. now rewrite E. Qed.
Lemma save_spec p b s : tree s ->
  (forall s', In s' (fst (save p b s)) -> tree s' /\ elsewhere p s s' /\ (s' p = s p \/ exists w r, b = w ++ r /\ s' p = Some (File w))) /\
  (snd (save p b s) = Done tt -> final s (fst (save p b s)) p = Some (File b) /\ exists s', In s' (fst (save p b s)) /\ s' p = Some (File [])).
Proof.
  intros T. unfold save, and_then. destruct p as [|x p].
  - cbn [tl mkdir]. cbn [final last]. unfold store, open_write. rewrite (proj1 T). cbn. split; [intros s' [] | discriminate].
  - cbn [tl]. set (P := x :: p). pose proof (mkdir_spec p s T) as [A B]. destruct (mkdir p s) as [t r]. cbn [fst snd] in *.
    assert (C : forall s', In s' t -> tree s' /\ elsewhere P s s' /\ s' P = s P).
    { intros s' H. destruct (A _ H) as [T' M]. split; [exact T'|]. split; [apply made_above; [discriminate | exact M]|]. destruct (made_elsewhere P s s' M) as [|]; [assumption|discriminate]. }
    destruct r as [[]|e]; [|split; [intros s' H; destruct (C _ H) as [? [? ?]]; tauto|discriminate]].
    assert (G : tree (final s t) /\ elsewhere P s (final s t) /\ final s t P = s P).
    { destruct (final_in s t) as [->|H]; [|now apply C]. split; [exact T|]. split; [intros q _; now left|reflexivity]. }
    destruct G as [T' [EL SP]]. pose proof (store_spec P b (final s t) T') as [D F]. destruct (store P b (final s t)) as [t' r']. cbn [fst snd] in *. split.
    + intros s' H. apply in_app_or in H. destruct H as [H|H]; [destruct (C _ H) as [? [? ?]]; tauto|].
      destruct (D _ H) as [T'' [O W]]. split; [exact T''|]. split; [|now right]. intros q Q. rewrite (O q Q). now apply EL.
    + intros ->. destruct (F eq_refl) as [F1 [s' [F2 F3]]]. rewrite final_app. split; [exact F1|]. exists s'. split; [apply in_or_app; now right|exact F3].
Qed.
Lemma save_done p b s : tree s -> s p <> Some Dir -> (forall q c, above q p -> s q <> Some (File c)) -> snd (save p b s) = Done tt.
Proof.
  intros T N F. unfold save, and_then. assert (G : snd (mkdir (tl p) s) = Done tt).
  { apply mkdir_done; [exact T|]. intros q l c E. destruct p as [|x p]; [cbn in E; symmetry in E; apply app_eq_nil in E; destruct E as [_ ->]; rewrite (proj1 T); discriminate|].
    cbn in E. subst p. apply F. exists (x :: l). split; [discriminate|reflexivity]. }
  pose proof (mkdir_spec (tl p) s T) as [A B]. destruct (mkdir (tl p) s) as [t r]. cbn [fst snd] in *. subst r. specialize (B eq_refl).
  assert (H : snd (store p b (final s t)) = Done tt).
  { apply store_done; [|exact B]. destruct (final_in s t) as [->|H]; [exact N|]. destruct (A _ H) as [_ M]. destruct (made_elsewhere p s _ M) as [->| ->]; [exact N|]. now destruct T. }
  destruct (store p b (final s t)) as [t' r']. exact H.
Qed.
(** nothing is written if the file cannot be opened *)
Lemma save_file p b s old : tree s -> s p = Some (File old) -> snd (save p b s) = Done tt.
Proof. intros T E. apply save_done; [exact T|congruence|]. intros q c [l [L ->]]. assert (D : forall l q, s (l ++ q) <> None -> l <> [] -> s q = Some Dir).
  { clear -T. induction l as [|x l IH]; intros q H N; [congruence|]. cbn in H. destruct T as [_ T]. pose proof (T _ _ H) as G. destruct l; [exact G|]. apply IH; congruence. }
  rewrite (D l q); [discriminate|congruence|exact L]. Qed.
