(** Runs of build_matches with workers. *)
From Coq Require Import String Sorting.Sorted.
From Verif Require Import Base BaseLemmas MatcherModel P_Matcher MatcherProofs P_Matcher2 PoolModel PoolProofs.
Open Scope nat_scope.
Notation length := List.length.

Section Match.
Context {K M : Type} (a : match_args M) (make : K -> K -> M) (name : Z -> Z -> string) (kfiles : list (file K)) (threads : bool) (rows : list (list Z)).
Context (k : Z -> K) (fs0 : string -> file M) (ks0 : list (option K)).
Notation n := (length rows).
Notation zn := Z.of_nat.
Notation row i := (nth i rows []).
Definition avl (l : list (option K)) (x : nat) : Prop := nth x l None = Some (k (zn x)) \/ (nth x l None = None /\ nth x kfiles Missing = Written (k (zn x))).
Context (Hrow : forall i j, In j (row i) -> (zn i < j < zn n)%Z) (Hread : forall i j, In j (row i) -> readable a name fs0 (zn i) j) (Hnd : forall i, NoDup (row i)).
Context (Hnames : ma_path a = true -> forall i j i' j', In j (row i) -> In j' (row i') -> name (zn i) j = name (zn i') j' -> i = i' /\ j = j').
Context (Hav : forall x, x < n -> avl ks0 x) (Hl0 : length ks0 = n).
Notation mstep := (match_step a make name kfiles threads).
Notation at_ := (match_at K M).
Notation shared := (match_shared K M).

Definition cont (i : nat) (j : Z) : M := content a make name k fs0 (zn i) j.
Definition res (i : nat) (js : list Z) : list M := if ma_clear_matches a then [] else map (fun j => convert a (cont i j)) js.
Lemma res_snoc i js j : res i (js ++ [j]) = found a (cont i j) (res i js).
Proof. unfold res, found. destruct (ma_clear_matches a); [reflexivity|]. now rewrite map_app. Qed.
(** pairs of the task that are not done *)
Definition pend (p : at_) : list Z :=
  match p with
  | TestI js | ReadI js | SetI _ js | Loop js _ => js
  | ReadJ j js _ | SetJ j _ js _ | TestOut j js _ | ReadOut j js _ | GetI j js _ | GetJ j _ js _ | OpenOut j _ js _ | CloseOut j _ js _ => j :: js
  | Enter _ | Clearing _ | Leave _ | End_ _ => []
  end.
Definition write_it (i : nat) (j : Z) : Prop := (ma_path a && negb (ma_overwrite a) && exists_ (fs0 (name (zn i) j)))%bool = false.
Definition know (i : nat) (p : at_) (dn : list Z) : Prop :=
  match p with
  | TestI _ => dn = []
  | ReadI _ => dn = [] /\ nth i kfiles Missing = Written (k (zn i))
  | SetI x _ => dn = [] /\ x = k (zn i)
  | Loop _ acc | TestOut _ _ acc => acc = res i dn
  | ReadJ j _ acc => acc = res i dn /\ nth (Z.to_nat j) kfiles Missing = Written (k j)
  | SetJ j x _ acc => x = k j /\ acc = res i dn
  | ReadOut j _ acc => acc = res i dn /\ ma_path a = true /\ ma_overwrite a = false /\ exists m, fs0 (name (zn i) j) = Written m
  | GetI j _ acc => acc = res i dn /\ write_it i j
  | GetJ j x _ acc => x = k (zn i) /\ acc = res i dn /\ write_it i j
  | OpenOut j m _ acc | CloseOut j m _ acc => m = cont i j /\ acc = res i dn /\ ma_path a = true
  | Enter acc | Clearing acc | Leave acc => acc = res i dn /\ ma_clear_keypoints a = true
  | End_ r => r = Ok (res i dn)
  end.
Definition unc (p : at_) : bool := match p with Leave _ | End_ _ => false | _ => true end.
Definition hasi (p : at_) : bool := match p with TestI _ | ReadI _ | SetI _ _ | Leave _ | End_ _ => false | _ => true end.
Definition hasj (p : at_) : option Z := match p with TestOut j _ _ | GetI j _ _ | GetJ j _ _ _ => Some j | _ => None end.
Definition crit (p : at_) : bool := match p with Clearing _ | Leave _ => true | _ => false end.
Definition fin (i : nat) (V : list (option K)) : Prop := nth i V None = if ma_clear_keypoints a then None else Some (k (zn i)).
Definition needs (i : nat) (p : at_) (V : list (option K)) : Prop :=
  (unc p = true -> forall x, i <= x < n -> avl V x) /\ (hasi p = true -> nth i V None = Some (k (zn i))) /\
  (forall j, hasj p = Some j -> nth (Z.to_nat j) V None = Some (k j)) /\ (unc p = false -> fin i V).
Definition upd (e : option (nat * option K)) (l : list (option K)) : list (option K) := match e with None => l | Some (x, v) => set_kp (zn x) v l end.
Arguments upd : simpl never.
Lemma upd_length e l : length (upd e l) = length l. Proof. destruct e as [[x v]|]; [apply set_length|reflexivity]. Qed.
Lemma nth_upd x v l y : x < length l -> nth y (upd (Some (x, v)) l) None = if y =? x then v else nth y l None.
Proof.
  intros H. unfold upd, set_kp. rewrite <- !nth_default_eq. unfold nth_default. rewrite mapi_nth. destruct (nth_error l y) eqn:E; cbn [option_map].
  - destruct (Nat.eqb_spec y x) as [->|N]; [now rewrite Z.eqb_refl|]. destruct (Z.eqb_spec (zn y) (zn x)); [lia|reflexivity].
  - apply nth_error_None in E. destruct (Nat.eqb_spec y x); [lia|reflexivity].
Qed.
(** effects of steps of other tasks *)
Definition other_ok (e : option (nat * option K)) (i : nat) (u : bool) : Prop :=
  match e with
  | None => True
  | Some (x, v) => x < n /\ (u = true -> v = Some (k (zn x)) \/ (v = None /\ x < i)) /\ (u = false -> (ma_clear_keypoints a = false /\ v = Some (k (zn x))) \/ i < x)
  end.
Lemma avl_upd x v V y : x < length V -> avl V y -> v = Some (k (zn x)) \/ (v = None /\ x < y) -> avl (upd (Some (x, v)) V) y.
Proof. intros Hx Ha Hv. unfold avl. rewrite nth_upd by exact Hx. destruct (Nat.eqb_spec y x) as [->|N]; [|exact Ha]. destruct Hv as [->|[_ Lt]]; [now left|lia]. Qed.
Lemma fin_other e i V : length V = n -> other_ok e i false -> fin i V -> fin i (upd e V).
Proof.
  intros Hl. destruct e as [[x v]|]; [|auto]. intros (Hx & _ & H) F. specialize (H eq_refl). unfold fin in *. rewrite nth_upd by lia. destruct (Nat.eqb_spec i x) as [->|N]; [|exact F]. destruct H as [[-> ->]|Lt]; [reflexivity|lia].
Qed.
Lemma needs_other e i p V : length V = n -> other_ok e i (unc p) -> (forall j, hasj p = Some j -> (zn i < j)%Z) -> needs i p V -> needs i p (upd e V).
Proof.
  intros Hl Ho Hj (N1 & N2 & N3 & N4). assert (unc_i : hasi p = true -> unc p = true) by (destruct p; cbn; congruence). assert (unc_j : forall j, hasj p = Some j -> unc p = true) by (intros j; destruct p; cbn; congruence).
  destruct e as [[x v]|]; [|repeat split; auto]. pose proof Ho as (Hx & H1 & H2). split; [|split; [|split]].
  - intros U y Hy. apply avl_upd; [lia|now apply N1|]. destruct (H1 U) as [|[? ?]]; [now left|right; split; [assumption|lia]].
  - intros U. rewrite nth_upd by lia. destruct (Nat.eqb_spec i x) as [->|]; [|now apply N2]. destruct (H1 (unc_i U)) as [|[? ?]]; [assumption|lia].
  - intros j Ej. rewrite nth_upd by lia. specialize (Hj j Ej). destruct (Nat.eqb_spec (Z.to_nat j) x) as [<-|]; [|now apply N3]. destruct (H1 (unc_j j Ej)) as [Q|[? ?]]; [|lia]. rewrite Q. now rewrite Z2Nat.id by lia.
  - intros U. apply fin_other; [exact Hl| |now apply N4]. now rewrite U in Ho.
Qed.
(** what the files of the pairs should be *)
Definition out (i : nat) (j : Z) : file M := if ma_path a then Written (cont i j) else fs0 (name (zn i) j).
Definition want_at (p : at_) (i : nat) (j : Z) : file M :=
  if zmem j (pend p) then match p with CloseOut j' _ _ _ => if (j =? j')%Z then Partial else fs0 (name (zn i) j) | _ => fs0 (name (zn i) j) end else out i j.
Definition want (x : status at_ (list M)) (i : nat) (j : Z) : file M := match x with Todo => fs0 (name (zn i) j) | Running _ p => want_at p i j | Finished _ => out i j end.
(** one step *)
Definition effect_ok (e : option (nat * option K)) (i : nat) (p : at_) : Prop :=
  match e with None => True | Some (x, v) => x < n /\ (v = Some (k (zn x)) /\ i <= x /\ unc p = true \/ v = None /\ x = i /\ exists acc, p = Clearing acc) end.
Record local (i : nat) (p : at_) (g : shared) (l : list (option K)) (p' : at_) (g' : shared) (l' : list (option K)) : Prop := {
  lc_done : exists dn, row i = dn ++ pend p' /\ know i p' dn;
  lc_needs : needs i p' (visible threads g' l');
  lc_files : forall j, In j (row i) -> msh_files g' (name (zn i) j) = want_at p' i j;
  lc_other : forall f, ma_path a = false \/ (forall j, In j (row i) -> f <> name (zn i) j) -> msh_files g' f = msh_files g f;
  lc_effect : exists e, effect_ok e i p /\ (if threads then msh_keypoints g' = upd e (msh_keypoints g) /\ l' = l else msh_keypoints g' = msh_keypoints g /\ l' = upd e l);
  lc_turn : msh_turn g' = match p with Leave _ => S (msh_turn g) | _ => msh_turn g end;
  lc_crit : crit p' = true -> crit p = true \/ msh_turn g = i;
  lc_end : forall r, p' = End_ r -> (exists acc, p = Leave acc) \/ ma_clear_keypoints a = false;
  lc_not_end : forall r, p <> End_ r;
  lc_leave : forall acc, p = Leave acc -> exists r, p' = End_ r }.
Lemma zmem_cons j j' js : zmem j (j' :: js) = ((j =? j')%Z || zmem j js)%bool. Proof. reflexivity. Qed.
Lemma local_step i p g l p' g' l' : i < n -> length l = n -> length (msh_keypoints g) = n -> (exists dn, row i = dn ++ pend p /\ know i p dn) -> needs i p (visible threads g l) ->
  (forall j, In j (row i) -> msh_files g (name (zn i) j) = want_at p i j) -> mstep i p g l = Some (p', g', l') -> local i p g l p' g' l'.
Proof.
  intros Hi Ll Lg (dn & Er & Kn) Nd Fl E.
  assert (Lv : length (visible threads g l) = n) by (unfold visible; destruct threads; assumption).
  assert (E0 : exists e, effect_ok e i p /\ (if threads then msh_keypoints g = upd e (msh_keypoints g) /\ l = l else msh_keypoints g = msh_keypoints g /\ l = upd e l)) by (exists None; split; [exact I|]; destruct threads; auto).
  assert (Hj : forall j js, pend p = j :: js -> In j (row i) /\ (zn i < j < zn n)%Z /\ ~ In j js /\ ~ In j dn).
  { intros j js Ep. rewrite Ep in Er. assert (I : In j (row i)) by (rewrite Er, in_app_iff; right; now left). split; [exact I|]. split; [now apply Hrow|]. pose proof (Hnd i) as ND. rewrite Er in ND. apply NoDup_remove_2 in ND. rewrite in_app_iff in ND. tauto. }
  assert (Loc : forall p1, p' = p1 -> g' = g -> l' = l -> forall dn', row i = dn' ++ pend p1 -> know i p1 dn' -> needs i p1 (visible threads g l) -> (forall j, In j (row i) -> want_at p i j = want_at p1 i j) ->
            (forall acc, p <> Leave acc) -> (crit p1 = true -> crit p = true \/ msh_turn g = i) -> (forall r, p1 = End_ r -> (exists acc, p = Leave acc) \/ ma_clear_keypoints a = false) -> (forall r, p <> End_ r) -> local i p g l p' g' l').
  { intros p1 -> -> -> dn' Q1 Q2 Q3 Q4 Q5 Q6 Q7 Q8. constructor; auto; [eauto|intros j I; rewrite Fl by exact I; now apply Q4| |intros acc Q; now contradiction (Q5 acc)]. destruct p; try reflexivity. now contradiction (Q5 acc). }
  assert (Set_ : forall x v, x < n -> (v = Some (k (zn x)) /\ i <= x /\ unc p = true \/ v = None /\ x = i /\ exists acc, p = Clearing acc) -> forall p1 g1 l1, assign threads (zn x) v g l = (g1, l1) -> p' = p1 -> g' = g1 -> l' = l1 ->
            row i = dn ++ pend p1 -> know i p1 dn -> needs i p1 (upd (Some (x, v)) (visible threads g l)) -> (forall j, In j (row i) -> want_at p i j = want_at p1 i j) ->
            (forall acc, p <> Leave acc) -> (crit p1 = true -> crit p = true \/ msh_turn g = i) -> (forall r, p1 <> End_ r) -> (forall r, p <> End_ r) -> local i p g l p' g' l').
  { intros x v Hx Hv p1 g1 l1 Ea -> -> -> Q1 Q2 Q3 Q4 Q5 Q6 Q7 Q8. unfold assign in Ea.
    assert (Ev : visible threads g1 l1 = upd (Some (x, v)) (visible threads g l) /\ msh_files g1 = msh_files g /\ msh_turn g1 = msh_turn g /\ (if threads then msh_keypoints g1 = upd (Some (x, v)) (msh_keypoints g) /\ l1 = l else msh_keypoints g1 = msh_keypoints g /\ l1 = upd (Some (x, v)) l)).
    { unfold visible. destruct threads; injection Ea as <- <-; cbn; auto. }
    destruct Ev as (Ev & Ef & Et & Ek). constructor; auto.
    - eauto.
    - now rewrite Ev.
    - intros j I. rewrite Ef, Fl by exact I. now apply Q4.
    - intros; now rewrite Ef.
    - exists (Some (x, v)). split; [split; assumption|exact Ek].
    - rewrite Et. destruct p; try reflexivity. now contradiction (Q5 acc).
    - intros r Q. now contradiction (Q7 r).
    - intros acc Q. now contradiction (Q5 acc). }
  destruct Nd as (N1 & N2 & N3 & N4).
  destruct p as [js|js|x js|js acc|j js acc|j x js acc|j js acc|j js acc|j js acc|j ki js acc|j m js acc|j m js acc|acc|acc|acc|r]; cbn [match_step] in E.
  - (* TestI *) cbn [know] in Kn. destruct (N1 eq_refl i ltac:(lia)) as [Q|[Q Q']]; rewrite Q in E; injection E as E1 E2 E3; symmetry in E1, E2, E3.
    + subst dn. apply (Loc _ E1 E2 E3 []); cbn; auto; try discriminate. { unfold res. destruct (ma_clear_matches a); reflexivity. } repeat split; auto; discriminate.
    + apply (Loc _ E1 E2 E3 dn); cbn; auto; try discriminate. repeat split; auto; discriminate.
  - (* ReadI *) destruct Kn as [-> Q]. rewrite Q in E. cbn [read_pickle] in E. injection E as E1 E2 E3; symmetry in E1, E2, E3.
    apply (Loc _ E1 E2 E3 []); cbn; auto; try discriminate. repeat split; auto; discriminate.
  - (* SetI *) destruct Kn as [-> ->]. destruct (assign threads (zn i) (Some (k (zn i))) g l) as [g1 l1] eqn:Ea. injection E as E1 E2 E3; symmetry in E1, E2, E3.
    refine (Set_ i (Some (k (zn i))) Hi _ _ _ _ Ea E1 E2 E3 Er _ _ _ _ _ _ _); cbn; auto; try discriminate.
    + unfold res. destruct (ma_clear_matches a); reflexivity.
    + split; [|split; [|split]]; try discriminate; cbn; intros _; [intros y Hy; apply avl_upd; [lia|now apply N1|now left]|]. rewrite (nth_upd i) by lia. now rewrite Nat.eqb_refl.
  - (* Loop *) cbn [know] in Kn. destruct js as [|j js].
    + destruct (ma_clear_keypoints a) eqn:Ec; injection E as E1 E2 E3; symmetry in E1, E2, E3.
      * apply (Loc _ E1 E2 E3 dn); cbn; auto; try discriminate. repeat split; auto; discriminate.
      * apply (Loc _ E1 E2 E3 dn); cbn; auto; try discriminate; [now rewrite Kn|]. repeat split; try discriminate. intros _. unfold fin. rewrite Ec. now apply N2.
    + destruct (Hj j js eq_refl) as (J1 & J2 & J3 & J4). destruct (N1 eq_refl (Z.to_nat j) ltac:(lia)) as [Q|[Q Q']]; rewrite Q in E; rewrite Z2Nat.id in * by lia; injection E as E1 E2 E3; symmetry in E1, E2, E3.
      * apply (Loc _ E1 E2 E3 dn); cbn; auto; try discriminate. repeat split; auto; try discriminate. cbn. intros j' [= <-]. exact Q.
      * apply (Loc _ E1 E2 E3 dn); cbn; auto; try discriminate. repeat split; auto; discriminate.
  - (* ReadJ *) destruct Kn as [-> Q]. rewrite Q in E. cbn [read_pickle] in E. injection E as E1 E2 E3; symmetry in E1, E2, E3.
    apply (Loc _ E1 E2 E3 dn); cbn; auto; try discriminate. repeat split; auto; discriminate.
  - (* SetJ *) destruct Kn as [-> ->]. destruct (Hj j js eq_refl) as (J1 & J2 & J3 & J4). destruct (assign threads j (Some (k j)) g l) as [g1 l1] eqn:Ea. injection E as E1 E2 E3; symmetry in E1, E2, E3.
    assert (Ej : zn (Z.to_nat j) = j) by (apply Z2Nat.id; lia). rewrite <- Ej in Ea at 1.
    refine (Set_ (Z.to_nat j) (Some (k j)) ltac:(lia) _ _ _ _ Ea E1 E2 E3 Er _ _ _ _ _ _ _); cbn; auto; try discriminate.
    + left. rewrite Ej. repeat split; auto. lia.
    + split; [|split; [|split]]; try discriminate; cbn; [intros _ y Hy; apply avl_upd; [lia|now apply N1|left; now rewrite Ej]| |].
      * intros _. rewrite (nth_upd (Z.to_nat j)) by lia. destruct (Nat.eqb_spec i (Z.to_nat j)); [lia|]. now apply N2.
      * intros j' [= <-]. rewrite (nth_upd (Z.to_nat j)) by lia. now rewrite Nat.eqb_refl.
  - (* TestOut *) cbn [know] in Kn. subst acc. destruct (Hj j js eq_refl) as (J1 & J2 & J3 & J4). specialize (Fl j J1) as Fj. unfold want_at in Fj. cbn [pend] in Fj. rewrite zmem_cons, Z.eqb_refl in Fj. cbn [orb] in Fj. rewrite Fj in E.
    destruct (ma_path a && negb (ma_overwrite a) && exists_ (fs0 (name (zn i) j)))%bool eqn:Eb.
    + apply andb_true_iff in Eb as [Eb Ex]. assert (Eb' := Eb). apply andb_true_iff in Eb as [Ep Eo]. apply negb_true_iff in Eo. pose proof (Hread i j J1 Ep Eo) as Rd. destruct (fs0 (name (zn i) j)) as [| |m] eqn:Ef; [discriminate|now contradiction Rd|].
      destruct (ma_clear_matches a) eqn:Ec; injection E as E1 E2 E3; symmetry in E1, E2, E3.
      * apply (Loc _ E1 E2 E3 (dn ++ [j])); cbn; auto; try discriminate; [now rewrite <- app_assoc|unfold res; now rewrite Ec|repeat split; auto; discriminate|].
        intros j' I. unfold want_at. cbn [pend]. rewrite zmem_cons. destruct (Z.eqb_spec j' j) as [->|N]; cbn [orb]; [|reflexivity]. rewrite (proj2 (zmem_false j js) J3). unfold out. rewrite Ep. unfold cont, content. now rewrite Eb', Ef.
      * apply (Loc _ E1 E2 E3 dn); cbn; auto; try discriminate; [repeat split; auto; eauto|]. repeat split; auto; discriminate.
    + injection E as E1 E2 E3; symmetry in E1, E2, E3. apply (Loc _ E1 E2 E3 dn); cbn; auto; try discriminate. repeat split; auto; discriminate.
  - (* ReadOut *) destruct Kn as (-> & Ep & Eo & m & Ef). destruct (Hj j js eq_refl) as (J1 & J2 & J3 & J4). specialize (Fl j J1) as Fj. unfold want_at in Fj. cbn [pend] in Fj. rewrite zmem_cons, Z.eqb_refl in Fj. cbn [orb] in Fj. rewrite Fj, Ef in E. cbn [read_pickle] in E. injection E as E1 E2 E3; symmetry in E1, E2, E3.
    assert (Cm : cont i j = m) by (unfold cont, content; now rewrite Ep, Eo, Ef).
    apply (Loc _ E1 E2 E3 (dn ++ [j])); cbn; auto; try discriminate; [now rewrite <- app_assoc|now rewrite res_snoc, Cm|repeat split; auto; discriminate|].
    intros j' I. unfold want_at. cbn [pend]. rewrite zmem_cons. destruct (Z.eqb_spec j' j) as [->|N]; cbn [orb]; [|reflexivity]. rewrite (proj2 (zmem_false j js) J3). unfold out. now rewrite Ep, Cm.
  - (* GetI *) destruct Kn as (-> & Wr). rewrite (N2 eq_refl) in E. injection E as E1 E2 E3; symmetry in E1, E2, E3. apply (Loc _ E1 E2 E3 dn); cbn; auto; try discriminate. repeat split; auto; discriminate.
  - (* GetJ *) destruct Kn as (-> & -> & Wr). destruct (Hj j js eq_refl) as (J1 & J2 & J3 & J4). rewrite (N3 j eq_refl) in E.
    assert (Cm : cont i j = make (k (zn i)) (k j)). { unfold cont, content, write_it in *. destruct (ma_path a && negb (ma_overwrite a))%bool; [|reflexivity]. cbn [andb] in Wr. destruct (fs0 (name (zn i) j)); [reflexivity|discriminate|discriminate]. }
    rewrite <- Cm in E. destruct (ma_path a) eqn:Ep; injection E as E1 E2 E3; symmetry in E1, E2, E3.
    + apply (Loc _ E1 E2 E3 dn); cbn; auto; try discriminate. repeat split; auto; discriminate.
    + apply (Loc _ E1 E2 E3 (dn ++ [j])); cbn; auto; try discriminate; [now rewrite <- app_assoc|now rewrite res_snoc|repeat split; auto; discriminate|].
      intros j' I. unfold want_at. cbn [pend]. rewrite zmem_cons. destruct (Z.eqb_spec j' j) as [->|N]; cbn [orb]; [|reflexivity]. rewrite (proj2 (zmem_false j js) J3). unfold out. now rewrite Ep.
  - (* OpenOut *) destruct Kn as (-> & -> & Ep). destruct (Hj j js eq_refl) as (J1 & J2 & J3 & J4). injection E as <- <- <-. constructor; cbn [msh_files msh_turn msh_keypoints put]; auto; try discriminate.
    + exists dn. cbn. auto.
    + unfold visible in *. cbn. repeat split; auto; discriminate.
    + intros j' I. unfold want_at. cbn [pend]. rewrite zmem_cons. destruct (Z.eqb_spec j' j) as [->|N]; cbn [orb]; [now rewrite String.eqb_refl|]. destruct (String.eqb_spec (name (zn i) j') (name (zn i) j)) as [Q|_]; [now destruct (Hnames Ep i j' i j I J1 Q)|].
      rewrite Fl by exact I. unfold want_at. cbn [pend]. rewrite zmem_cons. destruct (Z.eqb_spec j' j); [contradiction|]. reflexivity.
    + intros f [Q|Q]; [congruence|]. destruct (String.eqb_spec f (name (zn i) j)) as [->|]; [now contradiction (Q j J1)|reflexivity].
  - (* CloseOut *) destruct Kn as (-> & -> & Ep). destruct (Hj j js eq_refl) as (J1 & J2 & J3 & J4). injection E as <- <- <-. constructor; cbn [msh_files msh_turn msh_keypoints put]; auto; try discriminate.
    + exists (dn ++ [j]). cbn. rewrite <- app_assoc. split; [exact Er|]. now rewrite res_snoc.
    + unfold visible in *. cbn. repeat split; auto; discriminate.
    + intros j' I. unfold want_at. cbn [pend]. destruct (Z.eqb_spec j' j) as [->|N]; [rewrite (proj2 (zmem_false j js) J3), String.eqb_refl; unfold out; now rewrite Ep|]. destruct (String.eqb_spec (name (zn i) j') (name (zn i) j)) as [Q|_]; [now destruct (Hnames Ep i j' i j I J1 Q)|].
      rewrite Fl by exact I. unfold want_at. cbn [pend]. rewrite zmem_cons. destruct (Z.eqb_spec j' j); [contradiction|]. reflexivity.
    + intros f [Q|Q]; [congruence|]. destruct (String.eqb_spec f (name (zn i) j)) as [->|]; [now contradiction (Q j J1)|reflexivity].
  - (* Enter *) destruct Kn as (-> & Ec). destruct (Nat.eqb_spec (msh_turn g) i) as [Q|]; [|discriminate]. injection E as E1 E2 E3; symmetry in E1, E2, E3. apply (Loc _ E1 E2 E3 dn); cbn; auto; try discriminate. repeat split; auto; discriminate.
  - (* Clearing *) destruct Kn as (-> & Ec). destruct (assign threads (zn i) None g l) as [g1 l1] eqn:Ea. injection E as E1 E2 E3; symmetry in E1, E2, E3.
    refine (Set_ i None Hi _ _ _ _ Ea E1 E2 E3 Er _ _ _ _ _ _ _); cbn; auto; try discriminate; [right; eauto|]. split; [|split; [|split]]; try discriminate. intros _. unfold fin. rewrite Ec. rewrite (nth_upd i) by lia. now rewrite Nat.eqb_refl.
  - (* Leave *) destruct Kn as (-> & Ec). injection E as <- <- <-. constructor; cbn [msh_files msh_turn msh_keypoints]; auto; try discriminate.
    + exists dn. cbn. auto.
    + unfold visible in *. cbn. split; [|split; [|split]]; try discriminate. intros _. now apply N4.
    + intros r _. left. eauto.
    + eauto.
  - discriminate.
Qed.

(** ** The invariant *)
Notation mpool := (pool at_ shared (list (option K)) (list M)).
Notation pstep := (pool_step n (match_start rows) mstep match_end).
Notation psteps := (pool_steps n (match_start rows) mstep match_end).
Definition passed (x : status at_ (list M)) : bool := match x with Finished _ | Running _ (End_ _) => true | _ => false end.
Record inv (c : mpool) : Prop := {
  v_len : length (msh_keypoints (pl_shared c)) = n;
  v_lens : forall l, In l (pl_memory c) -> length l = n;
  v_main : threads = false -> msh_keypoints (pl_shared c) = ks0;
  v_next : forall w l, nth_error (pl_memory c) w = Some l -> forall x, pl_next c <= x < n -> avl (visible threads (pl_shared c) l) x;
  v_task : forall i w p, pl_task c i = Running w p -> (exists dn, row i = dn ++ pend p /\ know i p dn) /\ forall l, nth_error (pl_memory c) w = Some l -> needs i p (visible threads (pl_shared c) l);
  v_fin : forall i r, pl_task c i = Finished r -> r = Ok (res i (row i));
  v_settled : threads = true -> forall i r, pl_task c i = Finished r -> fin i (msh_keypoints (pl_shared c));
  v_turn : ma_clear_keypoints a = true -> (forall i, passed (pl_task c i) = true <-> i < msh_turn (pl_shared c)) /\ (forall i w p, pl_task c i = Running w p -> crit p = true -> i = msh_turn (pl_shared c));
  v_files : forall i j, In j (row i) -> msh_files (pl_shared c) (name (zn i) j) = want (pl_task c i) i j;
  v_other : forall f, ma_path a = false \/ (forall i j, In j (row i) -> f <> name (zn i) j) -> msh_files (pl_shared c) f = fs0 f }.
Lemma row_out i : n <= i -> row i = []. Proof. intros H. now apply nth_overflow. Qed.
Lemma inv_start np : inv (pool_start (mk_msh fs0 ks0 0) (repeat ks0 np)).
Proof.
  constructor; cbn; auto; try discriminate.
  - intros l I. apply repeat_spec in I. now subst.
  - intros w l E x Hx. apply nth_error_In, repeat_spec in E. subst l. unfold visible. cbn. destruct threads; apply Hav; lia.
  - intros _. split; [|discriminate]. intros i. split; [discriminate|lia].
Qed.
Lemma In_set_nth {A} w (x : A) l y : In y (set_nth w x l) -> y = x \/ In y l.
Proof. revert w. induction l as [|z l IH]; intros [|w]; cbn; auto; intros [<-|H]; auto. apply IH in H as [|]; auto. Qed.
Lemma others_ok c np i w p l p' g' l' : wf n np c -> inv c -> pl_task c i = Running w p -> nth_error (pl_memory c) w = Some l -> local i p (pl_shared c) l p' g' l' -> forall e, effect_ok e i p ->
  forall i', i' <> i -> pl_task c i' <> Todo -> other_ok e i' (match pl_task c i' with Running _ q => unc q | _ => false end).
Proof.
  intros W V E El Lc e He i' Ni Nt. destruct e as [[x v]|]; [|exact I]. destruct He as [Hx He]. split; [exact Hx|].
  assert (Np : passed (pl_task c i) = false) by (rewrite E; destruct p; try reflexivity; now contradiction (lc_not_end _ _ _ _ _ _ _ Lc r)).
  assert (Sm : ma_clear_keypoints a = true -> match pl_task c i' with Running _ q => unc q | _ => false end = false -> i' <= msh_turn (pl_shared c)).
  { intros Ec U. destruct (v_turn _ V Ec) as [T1 T2]. destruct (pl_task c i') as [|w' q|r] eqn:E'; [now contradiction Nt| |].
    - destruct q; try discriminate U; [rewrite (T2 _ _ _ E' eq_refl); lia|]. assert (i' < msh_turn (pl_shared c)) by (apply T1; now rewrite E'). lia.
    - assert (i' < msh_turn (pl_shared c)) by (apply T1; now rewrite E'). lia. }
  assert (Ge : ma_clear_keypoints a = true -> msh_turn (pl_shared c) <= i). { intros Ec. destruct (v_turn _ V Ec) as [T1 T2]. destruct (Nat.le_gt_cases (msh_turn (pl_shared c)) i) as [|Q]; [assumption|]. apply T1 in Q. congruence. }
  destruct He as [(-> & Hi & U)|(-> & -> & acc & ->)].
  - split; [now left|]. intros U'. destruct (ma_clear_keypoints a) eqn:Ec; [right|now left]. specialize (Sm eq_refl U'). specialize (Ge eq_refl). lia.
  - destruct (v_task _ V _ _ _ E) as ((dn & _ & _ & Ec) & _). destruct (v_turn _ V Ec) as [T1 T2]. pose proof (T2 _ _ _ E eq_refl) as Ti. split.
    + intros U'. right. split; [reflexivity|]. assert (~ i' < msh_turn (pl_shared c)); [|lia]. intros Q. apply T1 in Q. destruct (pl_task c i') as [|w' q|r]; try discriminate. destruct q; discriminate.
    + intros U'. right. specialize (Sm Ec U'). lia.
Qed.
Lemma inv_step np c c' : wf n np c -> inv c -> pstep c c' -> inv c'.
Proof.
  intros W V St. destruct St as [c w Id Lt | c i w p l p' g' l' E Ne El Es | c i w p r E Er].
  - (* Take *) assert (Q : pl_task c (pl_next c) = Todo) by (apply (wf_todo _ _ _ W); lia).
    constructor; cbn [pl_shared pl_memory pl_next pl_task].
    + exact (v_len _ V).
    + exact (v_lens _ V).
    + exact (v_main _ V).
    + intros w' l El x Hx. apply (v_next _ V w' l El). lia.
    + intros i w' p. destruct (Nat.eq_dec i (pl_next c)) as [->|N]; [rewrite set_task_eq; intros [= <- <-]|rewrite set_task_neq by exact N; apply (v_task _ V)].
      split; [exists []; cbn; auto|]. intros l El. split; [|split; [|split]]; try discriminate. intros _ x Hx. now apply (v_next _ V w l El).
    + intros i r. destruct (Nat.eq_dec i (pl_next c)) as [->|N]; [rewrite set_task_eq; discriminate|rewrite set_task_neq by exact N; apply (v_fin _ V)].
    + intros Ht i r. destruct (Nat.eq_dec i (pl_next c)) as [->|N]; [rewrite set_task_eq; discriminate|rewrite set_task_neq by exact N; apply (v_settled _ V Ht)].
    + intros Ec. destruct (v_turn _ V Ec) as [T1 T2]. split.
      * intros i. rewrite <- T1. destruct (Nat.eq_dec i (pl_next c)) as [->|N]; [rewrite set_task_eq, Q; reflexivity|now rewrite set_task_neq].
      * intros i w' p. destruct (Nat.eq_dec i (pl_next c)) as [->|N]; [rewrite set_task_eq; intros [= <- <-]; discriminate|rewrite set_task_neq by exact N; apply T2].
    + intros i j I. rewrite (v_files _ V) by exact I. destruct (Nat.eq_dec i (pl_next c)) as [->|N]; [|now rewrite set_task_neq]. rewrite set_task_eq, Q. cbn [want]. unfold want_at, match_start. cbn [pend].
      destruct (zmem j (row (pl_next c))) eqn:Z; [reflexivity|]. apply zmem_false in Z. contradiction.
    + exact (v_other _ V).
  - (* Run *) assert (Li : i < n) by (apply (wf_lt _ _ _ _ W); congruence). destruct (v_task _ V i w p E) as [Dn Nd].
    assert (Lc : local i p (pl_shared c) l p' g' l'). { apply local_step; auto; [apply (v_lens _ V); now apply nth_error_In in El|exact (v_len _ V)|]. intros j I. rewrite (v_files _ V) by exact I. now rewrite E. }
    destruct (lc_effect _ _ _ _ _ _ _ Lc) as (e & He & Hm). assert (Ot := others_ok c np i w p l p' g' l' W V E El Lc e He).
    assert (Oth : forall i' w' q, i' <> i -> pl_task c i' = Running w' q -> w' <> w) by (intros i' w' q N E' ->; apply N; eapply (wf_one _ _ _ W); eassumption).
    assert (Hw : w < length (pl_memory c)) by (apply nth_error_Some; congruence).
    assert (Ll : length l = n) by (apply (v_lens _ V); now apply nth_error_In in El).
    constructor; cbn [pl_shared pl_memory pl_next pl_task].
    + destruct threads; destruct Hm as [-> _]; rewrite ?upd_length; exact (v_len _ V).
    + intros l1 I. apply In_set_nth in I as [->|I]; [|now apply (v_lens _ V)]. destruct threads; destruct Hm as [_ ->]; rewrite ?upd_length; exact Ll.
    + intros Ht. rewrite Ht in Hm. destruct Hm as [-> _]. exact (v_main _ V Ht).
    + intros w1 l1 El1 x Hx.
      assert (Av : forall l2, length l2 = n -> avl l2 x -> avl (upd e l2) x).
      { intros l2 L2 A2. destruct e as [[y v]|]; [|exact A2]. destruct He as [Hy He]. apply avl_upd; [lia|exact A2|]. destruct He as [(-> & _)|(-> & -> & _)]; [now left|]. right. split; [reflexivity|]. assert (i < pl_next c); [|lia]. destruct (Nat.lt_ge_cases i (pl_next c)) as [|Q]; [assumption|]. apply (wf_todo _ _ _ W) in Q. congruence. }
      pose proof (v_next _ V w l El x Hx) as B0. pose proof (v_next _ V w1) as B1. pose proof (v_len _ V) as B2. clear - B0 B1 B2 Av Hm Hx El1 Hw Ll. unfold visible in *. destruct threads; destruct Hm as [H1 H2].
      * rewrite H1. now apply Av.
      * destruct (Nat.eq_dec w1 w) as [->|N].
        -- rewrite nth_error_set_nth_eq in El1 by exact Hw. injection El1 as <-. rewrite H2. now apply Av.
        -- rewrite nth_error_set_nth_neq in El1 by auto. now apply (B1 l1 El1 x).
    + intros i' w' q. destruct (Nat.eq_dec i' i) as [->|N].
      * rewrite set_task_eq. intros [= <- <-]. split; [exact (lc_done _ _ _ _ _ _ _ Lc)|]. intros l1 El1. rewrite nth_error_set_nth_eq in El1 by exact Hw. injection El1 as <-. exact (lc_needs _ _ _ _ _ _ _ Lc).
      * rewrite set_task_neq by exact N. intros E'. destruct (v_task _ V i' w' q E') as [D' N']. split; [exact D'|]. intros l1 El1. rewrite nth_error_set_nth_neq in El1 by (intros Q; now apply (Oth i' w' q N E')). specialize (N' l1 El1).
        specialize (Ot i' N ltac:(congruence)). rewrite E' in Ot. pose proof (v_len _ V) as B2. clear Es Nd Dn Lc V W Oth. unfold visible in *. destruct threads; destruct Hm as [H1 H2]; [rewrite H1|exact N'].
        apply needs_other; [exact B2|exact Ot| |exact N']. intros j Ej. destruct D' as (dn & Er' & _). apply Hrow. rewrite Er', in_app_iff. right. destruct q; try discriminate Ej; injection Ej as ->; now left.
    + intros i' r. destruct (Nat.eq_dec i' i) as [->|N]; [rewrite set_task_eq; discriminate|rewrite set_task_neq by exact N; apply (v_fin _ V)].
    + intros Ht i' r. destruct (Nat.eq_dec i' i) as [->|N]; [rewrite set_task_eq; discriminate|rewrite set_task_neq by exact N]. intros E'. specialize (Ot i' N ltac:(congruence)). rewrite E' in Ot. rewrite Ht in Hm. destruct Hm as [-> _]. apply fin_other; [exact (v_len _ V)|exact Ot|now apply (v_settled _ V Ht i' r)].
    + intros Ec. destruct (v_turn _ V Ec) as [T1 T2]. pose proof (lc_turn _ _ _ _ _ _ _ Lc) as Tu. pose proof (lc_end _ _ _ _ _ _ _ Lc) as Te. pose proof (lc_crit _ _ _ _ _ _ _ Lc) as Tc. pose proof (lc_not_end _ _ _ _ _ _ _ Lc) as Tn.
      assert (Np : ~ i < msh_turn (pl_shared c)). { intros Q. apply T1 in Q. rewrite E in Q. destruct p; try discriminate. }
      destruct (match p with Leave _ => true | _ => false end) eqn:Elv.
      * destruct p; try discriminate. destruct (lc_leave _ _ _ _ _ _ _ Lc acc eq_refl) as [r ->]. pose proof (T2 _ _ _ E eq_refl) as Ti. rewrite Tu. split.
        -- intros i'. destruct (Nat.eq_dec i' i) as [->|N]; [rewrite set_task_eq; cbn; split; [lia|auto]|]. rewrite set_task_neq by exact N. rewrite T1. lia.
        -- intros i' w' q. destruct (Nat.eq_dec i' i) as [->|N]; [rewrite set_task_eq; intros [= <- <-]; discriminate|]. rewrite set_task_neq by exact N. intros E' Cq. pose proof (T2 _ _ _ E' Cq). lia.
      * assert (Tu' : msh_turn g' = msh_turn (pl_shared c)) by (rewrite Tu; destruct p; try reflexivity; discriminate). rewrite Tu'. split.
        -- intros i'. destruct (Nat.eq_dec i' i) as [->|N]; [|rewrite set_task_neq by exact N; apply T1]. rewrite set_task_eq. split; [|intros Q; now apply Np in Q]. cbn. destruct p'; try discriminate. intros _. destruct (Te r eq_refl) as [[acc ->]|Q]; [discriminate|congruence].
        -- intros i' w' q. destruct (Nat.eq_dec i' i) as [->|N]; [|rewrite set_task_neq by exact N; apply T2]. rewrite set_task_eq. intros [= <- <-] Cq. destruct (Tc Cq) as [Q|Q]; [now apply (T2 i w p E)|auto].
    + intros i' j I. destruct (Nat.eq_dec i' i) as [->|N]; [rewrite set_task_eq; now apply (lc_files _ _ _ _ _ _ _ Lc)|]. rewrite set_task_neq by exact N. rewrite <- (v_files _ V) by exact I. apply (lc_other _ _ _ _ _ _ _ Lc).
      destruct (ma_path a) eqn:Ep; [right|now left]. intros j' I' Q. destruct (Hnames eq_refl i' j i j' I I' Q). contradiction.
    + intros f Hf. rewrite (lc_other _ _ _ _ _ _ _ Lc) by (destruct Hf as [|Q]; [now left|right; intros j; apply Q]). now apply (v_other _ V).
  - (* Finish *) destruct p; try discriminate. cbn in Er. injection Er as ->. destruct (v_task _ V i w _ E) as [(dn & Ed & Kn) Nd]. cbn in Ed, Kn. rewrite app_nil_r in Ed. subst dn.
    assert (Hw : w < length (pl_memory c)) by (rewrite (wf_np _ _ _ W); eapply (wf_run _ _ _ W); eassumption). destruct (nth_error (pl_memory c) w) as [l|] eqn:El; [|apply nth_error_None in El; lia].
    constructor; cbn [pl_shared pl_memory pl_next pl_task].
    + exact (v_len _ V).
    + exact (v_lens _ V).
    + exact (v_main _ V).
    + exact (v_next _ V).
    + intros i' w' q. destruct (Nat.eq_dec i' i) as [->|N]; [rewrite set_task_eq; discriminate|rewrite set_task_neq by exact N; apply (v_task _ V)].
    + intros i' r'. destruct (Nat.eq_dec i' i) as [->|N]; [rewrite set_task_eq; intros [= <-]; exact Kn|rewrite set_task_neq by exact N; apply (v_fin _ V)].
    + intros Ht i' r'. destruct (Nat.eq_dec i' i) as [->|N]; [rewrite set_task_eq; intros _|rewrite set_task_neq by exact N; apply (v_settled _ V Ht)]. specialize (Nd l eq_refl). unfold visible in Nd. rewrite Ht in Nd. now apply Nd.
    + intros Ec. destruct (v_turn _ V Ec) as [T1 T2]. split.
      * intros i'. rewrite <- T1. destruct (Nat.eq_dec i' i) as [->|N]; [rewrite set_task_eq, E; reflexivity|now rewrite set_task_neq].
      * intros i' w' q. destruct (Nat.eq_dec i' i) as [->|N]; [rewrite set_task_eq; discriminate|rewrite set_task_neq by exact N; apply T2].
    + intros i' j I. rewrite (v_files _ V) by exact I. destruct (Nat.eq_dec i' i) as [->|N]; [rewrite set_task_eq, E; reflexivity|now rewrite set_task_neq].
    + exact (v_other _ V).
Qed.
Lemma inv_steps np j c : psteps j (pool_start (mk_msh fs0 ks0 0) (repeat ks0 np)) c -> wf n np c /\ inv c.
Proof. apply steps_ind; [apply repeat_length|apply inv_start|apply inv_step]. Qed.
(** never stuck *)
Lemma match_go np c i w p : wf n np c -> pl_task c i = Running w p -> (forall acc, p = Enter acc -> msh_turn (pl_shared c) = i) -> can_go mstep match_end c i.
Proof.
  intros W E H. exists w, p. split; [exact E|]. assert (Hw : w < length (pl_memory c)) by (rewrite (wf_np _ _ _ W); eapply (wf_run _ _ _ W); eassumption). destruct (nth_error (pl_memory c) w) as [l|] eqn:El; [|apply nth_error_None in El; lia].
  destruct p; try (right; exists l; eexists; split; [reflexivity|]; reflexivity).
  - right. exists l. cbn [match_step]. destruct (assign threads (zn i) (Some k0) (pl_shared c) l) as [g1 l1]. eexists. split; reflexivity.
  - right. exists l. cbn [match_step]. destruct js; eexists; split; reflexivity.
  - right. exists l. cbn [match_step]. destruct (assign threads j (Some k0) (pl_shared c) l) as [g1 l1]. eexists. split; reflexivity.
  - right. exists l. cbn [match_step]. rewrite (H acc eq_refl), Nat.eqb_refl. eexists. split; reflexivity.
  - right. exists l. cbn [match_step]. destruct (assign threads (zn i) None (pl_shared c) l) as [g1 l1]. eexists. split; reflexivity.
  - left. discriminate.
Qed.
Lemma match_progress np c : wf n np c -> inv c -> 1 <= np -> (exists c', pstep c c') \/ (forall i, i < n -> pl_task c i = Finished (Ok (res i (row i)))).
Proof.
  intros W V Hn. destruct (progress n (match_start rows) mstep match_end np c W Hn) as [Q|Q].
  - intros i w p E. destruct (match p with Enter _ => negb (msh_turn (pl_shared c) =? i) | _ => false end) eqn:Eb.
    + destruct p; try discriminate. apply negb_true_iff, Nat.eqb_neq in Eb. destruct (v_task _ V i w _ E) as [(dn & _ & _ & Ec) _]. destruct (v_turn _ V Ec) as [T1 T2]. set (t := msh_turn (pl_shared c)) in *.
      assert (Ht : t < i). { assert (~ i < t); [|lia]. intros Q. apply T1 in Q. rewrite E in Q. discriminate. }
      assert (Nt : passed (pl_task c t) = false) by (destruct (passed (pl_task c t)) eqn:Q; [apply T1 in Q; lia|reflexivity]).
      exists t. destruct (pl_task c t) as [|w' q|r] eqn:Et; [|eapply match_go; [exact W|exact Et|reflexivity]|discriminate]. apply (wf_todo _ _ _ W) in Et. assert (Q : pl_task c i = Todo) by (apply (wf_todo _ _ _ W); lia). congruence.
    + exists i. eapply match_go; [exact W|exact E|]. intros acc ->. now apply negb_false_iff, Nat.eqb_eq in Eb.
  - now left.
  - right. intros i Hi. destruct (Q i Hi) as [r Er]. now rewrite <- (v_fin _ V i r Er).
Qed.
(** runs end *)
Definition mweight (i : nat) (p : at_) : nat :=
  let loop js := 4 + 8 * length js in
  match p with
  | TestI js => loop js + 3 | ReadI js => loop js + 2 | SetI _ js => loop js + 1 | Loop js _ => loop js
  | ReadJ _ js _ => loop js + 7 | SetJ _ _ js _ => loop js + 6 | TestOut _ js _ => loop js + 5 | ReadOut _ js _ => loop js + 1 | GetI _ js _ => loop js + 4 | GetJ _ _ js _ => loop js + 3 | OpenOut _ _ js _ => loop js + 2 | CloseOut _ _ js _ => loop js + 1
  | Enter _ => 3 | Clearing _ => 2 | Leave _ => 1 | End_ _ => 0
  end.
Lemma mweight_step i p g l p' g' l' : mstep i p g l = Some (p', g', l') -> mweight i p' < mweight i p.
Proof.
  destruct p as [js|js|x js|js acc|j js acc|j x js acc|j js acc|j js acc|j js acc|j ki js acc|j m js acc|j m js acc|acc|acc|acc|r]; cbn [match_step]; intros E.
  - injection E as <- _ _. destruct (nth i (visible threads g l) None); cbn; lia.
  - injection E as <- _ _. destruct (read_pickle (nth i kfiles Missing)); cbn; lia.
  - destruct (assign threads (zn i) (Some x) g l). injection E as <- _ _. cbn; lia.
  - destruct js as [|j js]; injection E as <- _ _; [destruct (ma_clear_keypoints a); cbn; lia|]. destruct (nth (Z.to_nat j) (visible threads g l) None); cbn; lia.
  - injection E as <- _ _. destruct (read_pickle (nth (Z.to_nat j) kfiles Missing)); cbn; lia.
  - destruct (assign threads j (Some x) g l). injection E as <- _ _. cbn; lia.
  - injection E as <- _ _. destruct (_ && _)%bool; [destruct (ma_clear_matches a)|]; cbn; lia.
  - injection E as <- _ _. destruct (read_pickle (msh_files g (name (zn i) j))); cbn; lia.
  - injection E as <- _ _. destruct (nth i (visible threads g l) None); cbn; lia.
  - injection E as <- _ _. destruct (nth (Z.to_nat j) (visible threads g l) None); [destruct (ma_path a)|]; cbn; lia.
  - injection E as <- _ _. cbn; lia.
  - injection E as <- _ _. cbn; lia.
  - destruct (msh_turn g =? i); [|discriminate]. injection E as <- _ _. cbn; lia.
  - destruct (assign threads (zn i) None g l). injection E as <- _ _. cbn; lia.
  - injection E as <- _ _. cbn; lia.
  - discriminate.
Qed.
Lemma sum_rows_from (rs : list (list Z)) : forall z, list_sum (map (fun i => 7 + 8 * length (nth (i - z) rs []) + 2) (seq z (length rs))) = 9 * length rs + 8 * length (concat rs).
Proof.
  induction rs as [|r rs IH]; intros z; [reflexivity|].
  change (7 + 8 * length (nth (z - z) (r :: rs) []) + 2 + list_sum (map (fun i => 7 + 8 * length (nth (i - z) (r :: rs) []) + 2) (seq (S z) (length rs))) = 9 * length (r :: rs) + 8 * length (concat (r :: rs))).
  rewrite Nat.sub_diag. cbn [nth concat]. rewrite app_length. rewrite <- (map_ext_in (fun i => 7 + 8 * length (nth (i - S z) rs []) + 2)); [rewrite IH; cbn [length]; lia|]. intros i I. apply in_seq in I. replace (i - z) with (S (i - S z)) by lia. reflexivity.
Qed.
Lemma sum_rows (rs : list (list Z)) : list_sum (map (fun i => 7 + 8 * length (nth i rs []) + 2) (seq 0 (length rs))) = 9 * length rs + 8 * length (concat rs).
Proof. rewrite <- (sum_rows_from rs 0). f_equal. apply map_ext. intros i. now rewrite Nat.sub_0_r. Qed.
Lemma match_bound np j c : psteps j (pool_start (mk_msh fs0 ks0 0) (repeat ks0 np)) c -> j <= 9 * n + 8 * length (concat rows).
Proof.
  intros H. pose proof (total_steps n (match_start rows) mstep match_end mweight np _ _ j c (repeat_length _ _) mweight_step H) as T.
  rewrite (total_const (match_start rows) mweight n (fun i => 7 + 8 * length (row i))) in T by (intros i _; unfold match_start, mweight; lia).
  enough (Q : list_sum (map (fun i => 7 + 8 * length (row i) + 2) (seq 0 n)) = 9 * n + 8 * length (concat rows)) by (rewrite Q in T; lia).
  apply sum_rows.
Qed.
End Match.
