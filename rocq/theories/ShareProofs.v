(** Who owns which buffer (ShareModel.v). *)
From Coq Require Import Lia.
From Verif Require Import Base BaseLemmas HelpersModel GridModel GetitemModel ShareModel.
Open Scope R_scope.

Inductive part := PLim | PCrd | PVal.
(** ** Families: which objects were made of which. *)
Definition source (t : part) (p : op) : option nat :=
  match t, p with
  | PLim, OWith k _ | PLim, OGrid k => Some k
  | PCrd, OSub k _ _ | PVal, OSub k _ _ => Some k
  | _, _ => None
  end.
Definition joined (t : part) (p : op) (fams : list nat) : list nat :=
  match t, p with
  | PLim, OResample k g _ | PCrd, OResample k g _ =>
    match nth_error fams k, nth_error fams g with
    | Some a, Some b => map (fun f => if (f =? a)%nat then b else f) fams
    | _, _ => fams
    end
  | _, _ => fams
  end.
Definition family_step (t : part) (p : op) (w : world) (fams : list nat) : list nat :=
  let fams := joined t p fams in
  if (length (w_objs w) <? length (w_objs (fst (step p w))))%nat
  then fams ++ [match source t p with Some k => nth k fams (length (w_objs w)) | None => length (w_objs w) end] else fams.
Definition families (t : part) (h : list op) : list nat := snd (fold_left (fun s p => (fst (step p (fst s)), family_step t p (fst s) (snd s))) h (start, [])).
Definition together (t : part) (h : list op) (i j : nat) : Prop := nth_error (families t h) i = nth_error (families t h) j.

Lemma families_fst t h : forall s, fst (fold_left (fun s p => (fst (step p (fst s)), family_step t p (fst s) (snd s))) h s) = fold_left (fun w p => fst (step p w)) h (fst s).
Proof. induction h as [|p h IH]; intros s; [reflexivity|]. cbn [fold_left]. rewrite IH. reflexivity. Qed.
Lemma families_snoc t h p : families t (h ++ [p]) = family_step t p (run h) (families t h).
Proof. unfold families, run. rewrite fold_left_app. cbn [fold_left snd]. f_equal. apply families_fst. Qed.
Lemma run_snoc h p : run (h ++ [p]) = fst (step p (run h)).
Proof. unfold run. now rewrite fold_left_app. Qed.

(** ** Ownership *)
Definition hl (t : part) (w : world) : nat := match t with PLim => length (w_lims w) | PCrd => length (w_crds w) | PVal => length (w_vals w) end.
Definition refs (t : part) (o : robj) : list nat :=
  match t with
  | PLim => [o_xl o; o_yl o]
  | PCrd => match o_x o with Some v => [v_buf v] | None => [] end ++ match o_y o with Some v => [v_buf v] | None => [] end
  | PVal => match o_cells o with Some c => [fst c] | None => [] end
  end.
Definition owns (t : part) (w : world) (fams own : list nat) : Prop :=
  length own = hl t w /\ length fams = length (w_objs w) /\
  forall j o b, nth_error (w_objs w) j = Some o -> In b (refs t o) -> exists f, nth_error fams j = Some f /\ nth_error own b = Some f.
Definition keeps_own (own own' : list nat) : Prop := forall b f, nth_error own b = Some f -> nth_error own' b = Some f.
Lemma keeps_refl own : keeps_own own own. Proof. intros b f E. exact E. Qed.
Lemma keeps_trans a b c : keeps_own a b -> keeps_own b c -> keeps_own a c. Proof. unfold keeps_own. auto. Qed.

Lemma owns_more t w w' fams own f : owns t w fams own -> w_objs w' = w_objs w -> (hl t w <= hl t w')%nat ->
  exists own', owns t w' fams own' /\ keeps_own own own' /\ forall b, (hl t w <= b < hl t w')%nat -> nth_error own' b = Some f.
Proof.
  intros (L & F & H) EO HL. exists (own ++ repeat f (hl t w' - hl t w)). assert (K : keeps_own own (own ++ repeat f (hl t w' - hl t w))).
  { intros b g E. rewrite nth_error_app1; [exact E|]. apply nth_error_Some. congruence. }
  split; [|split; [exact K|]].
  - split; [rewrite app_length, repeat_length; lia|]. split; [congruence|]. intros j o b Ej Ib. rewrite EO in Ej. destruct (H j o b Ej Ib) as (g & A & B). exists g. auto.
  - intros b B. rewrite nth_error_app2 by lia. apply nth_error_repeat. lia.
Qed.
Lemma owns_set t w fams own k f o : owns t w fams own -> nth_error fams k = Some f -> (forall b, In b (refs t o) -> nth_error own b = Some f) -> owns t (set_o w k o) fams own.
Proof.
  intros (L & F & H) Ek Ho. split; [exact L|]. split; [cbn [set_o w_objs]; now rewrite set_nth_length|]. intros j o' b Ej Ib. cbn [set_o w_objs] in Ej. destruct (Nat.eq_dec k j) as [<-|N].
  - exists f. split; [exact Ek|]. apply Ho. rewrite nth_error_set_nth_eq in Ej; [injection Ej as <-; exact Ib|]. rewrite <- F. apply nth_error_Some. congruence.
  - rewrite nth_error_set_nth_neq in Ej by exact N. apply (H j o' b Ej Ib).
Qed.
Lemma owns_add t w fams own f o : owns t w fams own -> (forall b, In b (refs t o) -> nth_error own b = Some f) -> owns t (add_o w o) (fams ++ [f]) own.
Proof.
  intros (L & F & H) Ho. split; [exact L|]. split; [cbn [add_o w_objs]; rewrite !app_length; cbn; lia|]. intros j o' b Ej Ib. cbn [add_o w_objs] in Ej.
  destruct (Nat.lt_ge_cases j (length (w_objs w))) as [C|C].
  - rewrite nth_error_app1 in Ej by exact C. destruct (H j o' b Ej Ib) as (g & A & B). exists g. split; [rewrite nth_error_app1 by lia; exact A|exact B].
  - rewrite nth_error_app2 in Ej by exact C. destruct (j - length (w_objs w))%nat as [|n] eqn:D; [|destruct n; discriminate]. injection Ej as <-. exists f. split; [|auto]. rewrite nth_error_app2 by lia. replace (j - length fams)%nat with 0%nat by lia. reflexivity.
Qed.
Lemma owns_map t w fams own g : owns t w fams own -> owns t w (map g fams) (map g own).
Proof.
  intros (L & F & H). split; [now rewrite map_length|]. split; [now rewrite map_length|]. intros j o b Ej Ib. destruct (H j o b Ej Ib) as (f & A & B). exists (g f). rewrite !nth_error_map, A, B. auto.
Qed.
Lemma owns_fam t w fams own k o : owns t w fams own -> nth_error (w_objs w) k = Some o -> exists f, nth_error fams k = Some f.
Proof. intros (L & F & H) E. destruct (nth_error fams k) eqn:D; [eauto|]. apply nth_error_None in D. assert (k < length (w_objs w))%nat by (apply nth_error_Some; congruence). lia. Qed.

Lemma get_c_owns t x k w w' r fams own : owns t w fams own -> get_c x k w = (w', r) ->
  exists own', owns t w' fams own' /\ keeps_own own own' /\ (forall v f, r = Ok v -> t = PCrd -> nth_error fams k = Some f -> nth_error own' (v_buf v) = Some f).
Proof.
  intros O E. unfold get_c in E. destruct (nth_error (w_objs w) k) as [o|] eqn:Ek; [|injection E as <- <-; exists own; split; [exact O|split; [apply keeps_refl|discriminate]]].
  pose proof O as (_ & _ & H). destruct (owns_fam _ _ _ _ _ _ O Ek) as [f Ff].
  destruct (cached x o) as [v|] eqn:Ec.
  - injection E as <- <-. exists own. split; [exact O|]. split; [apply keeps_refl|]. intros v' f' Q -> F'. injection Q as <-. destruct (H k o (v_buf v) Ek) as (f0 & A & B); [|congruence].
    unfold cached in Ec. cbn [refs]. destruct x; rewrite Ec; apply in_or_app; [left|right]; now left.
  - destruct (centers (o_axis x w o)) as [l|e]; [|injection E as <- <-; exists own; split; [exact O|split; [apply keeps_refl|discriminate]]].
    cbn [new_crd] in E. injection E as <- <-. set (w1 := mkworld (w_lims w) (w_crds w ++ [l]) (w_vals w) (w_objs w)).
    destruct (owns_more t w w1 fams own f O eq_refl) as (own' & O' & K & Fr); [destruct t; cbn [hl w1 w_lims w_crds w_vals]; rewrite ?app_length; cbn; lia|].
    exists own'. split; [|split; [exact K|]].
    + apply (owns_set t w1 fams own' k f); [exact O'|exact Ff|]. intros b Ib. destruct t.
      * destruct (H k o b Ek) as (g & A & B); [destruct x; exact Ib|]. rewrite Ff in A. injection A as <-. auto.
      * assert (Q : b = length (w_crds w) \/ In b (refs PCrd o)).
        { cbn [refs] in *. destruct x; cbn [with_cached o_x o_y v_buf] in Ib; apply in_app_or in Ib; destruct Ib as [Ib|Ib]; try (destruct Ib as [<-|[]]; now left); right; apply in_or_app; auto. }
        destruct Q as [->|Q]; [apply Fr; cbn; rewrite app_length; cbn; lia|]. destruct (H k o b Ek Q) as (g & A & B). rewrite Ff in A. injection A as <-. auto.
      * destruct (H k o b Ek) as (g & A & B); [destruct x; exact Ib|]. rewrite Ff in A. injection A as <-. auto.
    + intros v f' Q -> F'. injection Q as <-. cbn [v_buf]. rewrite Ff in F'. injection F' as <-. apply Fr. cbn. rewrite app_length. cbn. lia.
Qed.
Lemma get_c_objs x k w w' r : get_c x k w = (w', r) -> length (w_objs w') = length (w_objs w) /\ forall j, j <> k -> nth_error (w_objs w') j = nth_error (w_objs w) j.
Proof.
  unfold get_c. destruct (nth_error (w_objs w) k) as [o|]; [|intros E; injection E as <- <-; auto]. destruct (cached x o); [intros E; injection E as <- <-; auto|]. destruct (centers _); [|intros E; injection E as <- <-; auto].
  cbn. intros E. injection E as <- <-. cbn. split; [apply set_nth_length|]. intros j N. now apply nth_error_set_nth_neq, not_eq_sym.
Qed.
