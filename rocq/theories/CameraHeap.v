(** Camera objects as Python objects: the parameter vectors are arrays in a
    heap, referenced by the camera objects.  Used to state that copies and
    resets share no storage (camera.py:86, 120, 392-394, 407). *)
From Verif Require Import Base BaseLemmas HelpersModel CameraModel CameraSpec CameraStateProofs.
Open Scope R_scope.

Record obj := mkobj { vref : nat; oref : nat; o_sensorsz : option (list R); o_correction : option (R * R) }.
Record world := mkworld { heap : list (list R); objs : list obj }.

Definition deref (w : world) (o : obj) : cam :=
  mkcam (nth (vref o) (heap w) []) (nth (oref o) (heap w) []) (o_sensorsz o) (o_correction o).

Inductive action :=
| ANew (a : cam_args)             (* Camera(...) *)
| ACopy (i : nat)                 (* objs[i].copy() *)
| AReset (i : nat)                (* objs[i].reset() *)
| AOp (i : nat) (o : cam_op).     (* any other operation on objs[i] *)

(** [None]: the action raises (nothing changes) or names no object. *)
Definition act (a : action) (w : world) : option world :=
  match a with
  | ANew args =>
    match construct args with
    | Ok c => (* new _vector, then _original_vector = _vector.copy() *)
      let n := length (heap w) in
      Some (mkworld (heap w ++ [vec c; orig c]) (objs w ++ [mkobj n (S n) (sensorsz c) (correction c)]))
    | Err _ => None
    end
  | ACopy i =>
    match nth_error (objs w) i with
    | Some o => (* deepcopy of both arrays, then a copy of the copied _vector *)
      let n := length (heap w) in
      let v := nth (vref o) (heap w) [] in
      let ov := nth (oref o) (heap w) [] in
      Some (mkworld (heap w ++ [v; ov; v]) (objs w ++ [mkobj n (S (S n)) (o_sensorsz o) (o_correction o)]))
    | None => None
    end
  | AReset i =>
    match nth_error (objs w) i with
    | Some o => (* _vector = _original_vector.copy() *)
      let n := length (heap w) in
      Some (mkworld (heap w ++ [nth (oref o) (heap w) []])
              (set_nth i (mkobj n (oref o) (o_sensorsz o) (o_correction o)) (objs w)))
    | None => None
    end
  | AOp i op =>
    match op with
    | OReset => None    (* see AReset *)
    | _ =>
      match nth_error (objs w) i with
      | Some o => (* in-place writes to _vector *)
        match cam_step op (deref w o) with
        | Ok c => Some (mkworld (set_nth (vref o) (vec c) (heap w))
                         (set_nth i (mkobj (vref o) (oref o) (sensorsz c) (correction c)) (objs w)))
        | Err _ => None
        end
      | None => None
      end
    end
  end.

(** What each action should do to the list of cameras, as values. *)
Definition act_spec (a : action) (cs : list cam) : option (list cam) :=
  match a with
  | ANew args => match construct args with Ok c => Some (cs ++ [c]) | Err _ => None end
  | ACopy i => match nth_error cs i with Some c => Some (cs ++ [copy c]) | None => None end
  | AReset i => match nth_error cs i with Some c => Some (set_nth i (reset c) cs) | None => None end
  | AOp i OReset => None
  | AOp i op => match nth_error cs i with
                | Some c => match cam_step op c with Ok c' => Some (set_nth i c' cs) | Err _ => None end
                | None => None
                end
  end.

Definition refs (o : obj) : list nat := [vref o; oref o].
Definition all_refs (w : world) : list nat := concat (map refs (objs w)).
Definition separated (w : world) : Prop :=
  NoDup (all_refs w) /\ (forall r, In r (all_refs w) -> (r < length (heap w))%nat)
  /\ (forall o, In o (objs w) -> wf (deref w o)).
Definition cameras (w : world) : list cam := map (deref w) (objs w).

Lemma nth_app_old {A} (l m : list A) i d : (i < length l)%nat -> nth i (l ++ m) d = nth i l d.
Proof. intros; apply app_nth1; auto. Qed.

Lemma in_refs w o : In o (objs w) -> In (vref o) (all_refs w) /\ In (oref o) (all_refs w).
Proof.
  intros H. unfold all_refs. split; apply in_concat; exists (refs o); (split; [apply in_map; auto|cbn; auto]).
Qed.

Lemma deref_grow w m os o : (vref o < length (heap w))%nat -> (oref o < length (heap w))%nat ->
  deref (mkworld (heap w ++ m) os) o = deref w o.
Proof. intros H1 H2. unfold deref. cbn. rewrite !nth_app_old; auto. Qed.

Lemma map_deref_grow w m os : separated w -> map (deref (mkworld (heap w ++ m) os)) (objs w) = map (deref w) (objs w).
Proof.
  intros (_ & B & _). apply map_ext_in. intros o Ho. destruct (in_refs w o Ho). apply deref_grow; auto.
Qed.

Lemma nodup_app {A} (l m : list A) : NoDup l -> NoDup m -> (forall x, In x l -> ~ In x m) -> NoDup (l ++ m).
Proof.
  induction 1 as [|a l Ha Hl IH]; intros Hm Hd; cbn; auto. constructor.
  - intros Hin. apply in_app_or in Hin. destruct Hin; [auto|]. apply (Hd a); cbn; auto.
  - apply IH; auto. intros x Hx. apply Hd. cbn; auto.
Qed.

Lemma map_set_nth {A B} (f : A -> B) i x l : map f (set_nth i x l) = set_nth i (f x) (map f l).
Proof. revert i; induction l; destruct i; cbn; auto. f_equal; auto. Qed.
Lemma set_nth_ext {A} i (x : A) l m : length l = length m ->
  (forall j, j <> i -> nth_error l j = nth_error m j) -> set_nth i x l = set_nth i x m.
Proof.
  revert i m; induction l as [|a l IH]; intros i [|b m] HL H; cbn in HL; try discriminate; auto.
  destruct i; cbn.
  - f_equal. clear -H HL. assert (G : forall j, nth_error l j = nth_error m j) by (intros j; apply (H (S j)); lia).
    clear H. apply list_ext. auto.
  - f_equal.
    + specialize (H 0%nat ltac:(lia)). cbn in H. congruence.
    + apply IH; [lia|]. intros j Hj. apply (H (S j)). lia.
Qed.
Lemma in_set_nth {A} i (x : A) l y : In y (set_nth i x l) -> y = x \/ In y l.
Proof.
  revert i; induction l as [|a l IH]; intros [|i]; cbn; try tauto.
  - intros [<-|H]; auto.
  - intros [<-|H]; auto. destruct (IH i H); auto.
Qed.

(** replacing one object's vector reference by a fresh one *)
Lemma refs_set_nth_fresh w i o o' n : nth_error (objs w) i = Some o -> vref o' = n -> oref o' = oref o ->
  NoDup (all_refs w) -> ~ In n (all_refs w) ->
  NoDup (concat (map refs (set_nth i o' (objs w)))) /\
  (forall r, In r (concat (map refs (set_nth i o' (objs w)))) -> r = n \/ In r (all_refs w)).
Proof.
  unfold all_refs. intros Hi V O. revert i Hi. induction (objs w) as [|a l IH]; intros [|i] Hi Hn Hf; try discriminate.
  - cbn in Hi. injection Hi as ->. cbn in Hn, Hf |- *. rewrite V, O.
    inversion Hn as [|? ? H1 H2]; subst. inversion H2 as [|? ? H3 H4]; subst. split.
    + constructor; [|auto]. cbn. intros [E|E]; apply Hf; auto.
    + intros r [<-|[<-|H]]; auto.
  - cbn in Hi. cbn [set_nth map concat] in *.
    assert (Hn2 : NoDup (concat (map refs l))) by (inversion Hn as [|? ? _ H2]; inversion H2; auto).
    destruct (IH i Hi Hn2) as [A B].
    { intros Hin. apply Hf. apply in_or_app. auto. }
    split.
    + apply nodup_app; auto.
      * inversion Hn as [|? ? H1 H2]; subst. inversion H2 as [|? ? H3 H4]; subst.
        constructor; [|constructor; [intros []|constructor]]. cbn. intros [E|[]]. apply H1. cbn. auto.
      * intros x Hx Hin. apply B in Hin. destruct Hin as [->|Hin]; [apply Hf; apply in_or_app; auto|].
        inversion Hn as [|? ? H1 H2]; subst. inversion H2 as [|? ? H3 H4]; subst.
        cbn in Hx. destruct Hx as [<-|[<-|[]]]; [apply H1; cbn; auto|auto].
    + intros r Hr. apply in_app_or in Hr. destruct Hr as [Hr|Hr]; [right; apply in_or_app; auto|].
      destruct (B r Hr); auto. right. apply in_or_app; auto.
Qed.

Lemma refs_set_nth_same i o o' (l : list obj) : nth_error l i = Some o -> vref o' = vref o -> oref o' = oref o ->
  map refs (set_nth i o' l) = map refs l.
Proof.
  intros Hi V O. revert i Hi. induction l as [|a l IH]; intros [|i] Hi; try discriminate; cbn in *.
  - injection Hi as ->. unfold refs at 1 3. rewrite V, O. reflexivity.
  - f_equal. apply IH; auto.
Qed.

Lemma set_nth_id {A} i (x : A) l : nth_error l i = Some x -> set_nth i x l = l.
Proof. revert i; induction l; intros [|i] H; cbn in *; try discriminate; [congruence|f_equal; auto]. Qed.

(** distinct objects have distinct vector references *)
Lemma refs_distinct w i j o p : NoDup (all_refs w) -> nth_error (objs w) i = Some o -> nth_error (objs w) j = Some p ->
  (i <> j -> vref o <> vref p) /\ vref o <> oref p.
Proof.
  unfold all_refs. revert i j. induction (objs w) as [|a l IH]; intros [|i] [|j] Hn Hi Hj; try discriminate; cbn in Hn;
    inversion Hn as [|? ? H1 H2]; subst; inversion H2 as [|? ? H3 H4]; subst; cbn in Hi, Hj.
  - injection Hi as ->. injection Hj as ->. split; [congruence|]. intros E. apply H1. rewrite E. cbn; auto.
  - injection Hi as ->. split.
    + intros _ E. apply H1. rewrite E. cbn. right. apply in_concat. exists (refs p). split; [apply in_map; eapply nth_error_In; eauto|cbn; auto].
    + intros E. apply H1. rewrite E. cbn. right. apply in_concat. exists (refs p). split; [apply in_map; eapply nth_error_In; eauto|cbn; auto].
  - injection Hj as ->. split.
    + intros _ E. apply H1. rewrite <- E. cbn. right. apply in_concat. exists (refs o). split; [apply in_map; eapply nth_error_In; eauto|cbn; auto].
    + intros E. apply H3. rewrite <- E. apply in_concat. exists (refs o). split; [apply in_map; eapply nth_error_In; eauto|cbn; auto].
  - destruct (IH i j H4 Hi Hj) as [A B]. split; auto.
Qed.

Lemma nth_set_nth_other {A} i j (x : A) l d : i <> j -> nth j (set_nth i x l) d = nth j l d.
Proof. revert i j; induction l; intros [|i] [|j] H; cbn; auto; try lia. Qed.
Lemma nth_set_nth_same {A} i (x : A) l d : (i < length l)%nat -> nth i (set_nth i x l) d = x.
Proof. revert i; induction l; intros [|i] H; cbn in *; auto; try lia. apply IHl. lia. Qed.

Lemma construct_wf a c : construct a = Ok c -> wf c /\ orig c = vec c.
Proof.
  unfold construct. intros H.
  repeat match type of H with (if ?b then _ else _) = _ => destruct b; [discriminate|] end.
  set (c0 := mkcam (repeat 0 20) (repeat 0 20) None (a_correction a)) in H.
  assert (W0 : wf c0) by (split; reflexivity).
  destruct (set_xyz_spec (a_xyz a) c0 W0) as (c1 & E1 & S1). rewrite E1 in H. cbn [bind] in H.
  destruct (set_viewdir_spec (a_viewdir a) c1 ltac:(apply S1)) as (c2 & E2 & S2). rewrite E2 in H. cbn [bind] in H.
  destruct (set_imgsz (a_imgsz a) c2) as [c3|] eqn:E3; [|discriminate]. cbn [bind] in H.
  apply set_imgsz_inv in E3; [|apply S2]. destruct E3 as (_ & _ & S3).
  destruct (set_sensorsz (a_sensorsz a) c3) as [c4|] eqn:E4; [|discriminate]. cbn [bind] in H.
  assert (W4 : wf c4).
  { destruct S3 as [W3 _]. destruct (a_sensorsz a); cbn in E4; [rewrite fmt_pair in E4; cbn [bind] in E4|]; injection E4 as <-; exact W3. }
  match type of H with bind ?e _ = _ => destruct e as [[f|]|]; cbn [bind] in H; try discriminate end.
  destruct (set_f f c4) as [c5|] eqn:E5; [|discriminate]. cbn [bind] in H.
  apply set_f_inv in E5; auto. destruct E5 as [_ S5].
  match type of H with bind ?e _ = _ => destruct e as [cc|]; cbn [bind] in H; try discriminate end.
  destruct (set_c_spec cc c5 ltac:(apply S5)) as (c6 & E6 & S6). rewrite E6 in H. cbn [bind] in H.
  destruct (set_k_spec (a_k a) c6 ltac:(apply S6)) as (c7 & E7 & S7). rewrite E7 in H. cbn [bind] in H.
  destruct (set_p_spec (a_p a) c7 ltac:(apply S7)) as (c8 & E8 & S8). rewrite E8 in H. cbn [bind] in H.
  injection H as <-. cbn. split; [split; apply S8|reflexivity].
Qed.

(** Every action behaves as on independent values, and keeps the separation. *)
Theorem act_refines a w : separated w ->
  match act a w with
  | Some w' => separated w' /\ act_spec a (cameras w) = Some (cameras w')
  | None => act_spec a (cameras w) = None
  end.
Proof.
  intros S. pose proof S as (ND & BD & WF).
  assert (Hnth : forall i, nth_error (cameras w) i = option_map (deref w) (nth_error (objs w) i))
    by (intros; unfold cameras; apply nth_error_map).
  destruct a as [args|i|i|i op]; cbn [act act_spec].
  - destruct (construct args) as [c|] eqn:E; [|reflexivity].
    destruct (construct_wf args c E) as [Wc Ec].
    set (w' := mkworld _ _). set (n := length (heap w)).
    assert (Dn : deref w' (mkobj n (Datatypes.S n) (sensorsz c) (correction c)) = c).
    { unfold deref, w'. cbn. unfold n. rewrite !app_nth2 by lia. rewrite Nat.sub_diag.
      replace (Datatypes.S (length (heap w)) - length (heap w))%nat with 1%nat by lia. cbn. destruct c; reflexivity. }
    split.
    + split; [|split].
      * unfold all_refs, w'. cbn. rewrite map_app, concat_app. apply nodup_app; [exact ND| |].
        -- cbn. constructor; [cbn; intros [F|[]]; lia|constructor; [intros []|constructor]].
        -- intros x Hx. specialize (BD x Hx). cbn. fold n. intros [F|[F|[]]]; lia.
      * unfold all_refs, w'. cbn. rewrite map_app, concat_app, app_length. cbn. intros r Hr. apply in_app_or in Hr.
        destruct Hr as [Hr|Hr]; [specialize (BD r Hr); lia|]. cbn in Hr. destruct Hr as [<-|[<-|[]]]; lia.
      * intros o Ho. cbn in Ho. apply in_app_or in Ho. destruct Ho as [Ho|[<-|[]]].
        -- destruct (in_refs w o Ho). unfold w'. rewrite deref_grow; auto.
        -- fold n. rewrite Dn. exact Wc.
    + f_equal. unfold cameras at 2. cbn [objs w']. rewrite map_app. cbn [map]. fold n. rewrite Dn.
      f_equal. symmetry. unfold w'. apply map_deref_grow. exact S.
  - rewrite Hnth. destruct (nth_error (objs w) i) as [o|] eqn:Eo; [|reflexivity]. cbn [option_map].
    assert (Ho : In o (objs w)) by (eapply nth_error_In; eauto).
    set (w' := mkworld _ _). set (n := length (heap w)).
    assert (Dn : deref w' (mkobj n (Datatypes.S (Datatypes.S n)) (o_sensorsz o) (o_correction o)) = copy (deref w o)).
    { unfold deref, w', copy. cbn. unfold n. rewrite !app_nth2 by lia. rewrite Nat.sub_diag.
      replace (Datatypes.S (Datatypes.S (length (heap w))) - length (heap w))%nat with 2%nat by lia. reflexivity. }
    split.
    + split; [|split].
      * unfold all_refs, w'. cbn. rewrite map_app, concat_app. apply nodup_app; [exact ND| |].
        -- cbn. constructor; [cbn; intros [F|[]]; lia|constructor; [intros []|constructor]].
        -- intros x Hx. specialize (BD x Hx). cbn. fold n. intros [F|[F|[]]]; lia.
      * unfold all_refs, w'. cbn. rewrite map_app, concat_app, app_length. cbn. intros r Hr. apply in_app_or in Hr.
        destruct Hr as [Hr|Hr]; [specialize (BD r Hr); lia|]. cbn in Hr. destruct Hr as [<-|[<-|[]]]; lia.
      * intros o' Ho'. cbn in Ho'. apply in_app_or in Ho'. destruct Ho' as [Ho'|[<-|[]]].
        -- destruct (in_refs w o' Ho'). unfold w'. rewrite deref_grow; auto.
        -- fold n. rewrite Dn. destruct (WF o Ho) as [A B]. split; exact A.
    + f_equal. unfold cameras at 2. cbn [objs w']. rewrite map_app. cbn [map]. fold n. rewrite Dn.
      f_equal. symmetry. unfold w'. apply map_deref_grow. exact S.
  - rewrite Hnth. destruct (nth_error (objs w) i) as [o|] eqn:Eo; [|reflexivity]. cbn [option_map].
    assert (Ho : In o (objs w)) by (eapply nth_error_In; eauto).
    set (n := length (heap w)). set (o' := mkobj n (oref o) (o_sensorsz o) (o_correction o)).
    set (w' := mkworld _ _).
    destruct (in_refs w o Ho) as [Rv Ro].
    assert (Dn : deref w' o' = reset (deref w o)).
    { unfold deref, w', reset, o'. cbn. unfold n. rewrite app_nth2 by lia. rewrite Nat.sub_diag. cbn.
      rewrite nth_app_old by auto. reflexivity. }
    assert (Fn : ~ In n (all_refs w)) by (intros F; specialize (BD n F); unfold n in BD; lia).
    destruct (refs_set_nth_fresh w i o o' n Eo eq_refl eq_refl ND Fn) as [A B].
    split.
    + split; [exact A|]. split.
      * intros r Hr. apply B in Hr. cbn. rewrite app_length. cbn. destruct Hr as [->|Hr]; [unfold n; lia|].
        specialize (BD r Hr). lia.
      * intros p Hp. cbn in Hp. apply in_set_nth in Hp. destruct Hp as [->|Hp].
        -- rewrite Dn. destruct (WF o Ho) as [_ K]. split; exact K.
        -- destruct (in_refs w p Hp). unfold w'. rewrite deref_grow; auto.
    + f_equal. unfold cameras at 2. cbn [objs w']. rewrite map_set_nth, Dn. f_equal.
      symmetry. unfold w'. apply map_deref_grow. exact S.
  - rewrite Hnth.
    assert (K : forall (Hop : op <> OReset),
      match (match nth_error (objs w) i with
             | Some o => match cam_step op (deref w o) with
               | Ok c => Some (mkworld (set_nth (vref o) (vec c) (heap w))
                         (set_nth i (mkobj (vref o) (oref o) (sensorsz c) (correction c)) (objs w)))
               | Err _ => None end
             | None => None end) with
      | Some w' => separated w' /\ (match option_map (deref w) (nth_error (objs w) i) with
                | Some c => match cam_step op c with Ok c' => Some (set_nth i c' (cameras w)) | Err _ => None end
                | None => None end) = Some (cameras w')
      | None => (match option_map (deref w) (nth_error (objs w) i) with
                | Some c => match cam_step op c with Ok c' => Some (set_nth i c' (cameras w)) | Err _ => None end
                | None => None end) = None
      end).
    { intros Hop. destruct (nth_error (objs w) i) as [o|] eqn:Eo; [|reflexivity]. cbn [option_map].
      assert (Ho : In o (objs w)) by (eapply nth_error_In; eauto).
      destruct (cam_step op (deref w o)) as [c|] eqn:Es; [|reflexivity].
      destruct (cam_step_frame op (deref w o) c (WF o Ho) Es) as (Wc & Oc & Cc & _).
      destruct (in_refs w o Ho) as [Rv Ro]. pose proof (BD _ Rv) as Bv. pose proof (BD _ Ro) as Bo.
      set (o' := mkobj (vref o) (oref o) (sensorsz c) (correction c)). set (w' := mkworld _ _).
      assert (Doth : forall j p, j <> i -> nth_error (objs w) j = Some p -> deref w' p = deref w p).
      { intros j p Hj Hp. destruct (refs_distinct w i j o p ND Eo Hp) as [D1 D2].
        unfold deref, w'. cbn. rewrite !nth_set_nth_other; auto. }
      assert (Dn : deref w' o' = c).
      { unfold deref, w', o'. cbn. rewrite nth_set_nth_same by auto.
        destruct (refs_distinct w i i o o ND Eo Eo) as [_ D2].
        rewrite nth_set_nth_other by auto. cbn in Oc. rewrite <- Oc. destruct c; reflexivity. }
      split.
      - split; [|split].
        + unfold all_refs, w'. cbn. rewrite (refs_set_nth_same i o o'); auto.
        + unfold all_refs, w'. cbn. rewrite (refs_set_nth_same i o o') by auto. rewrite set_nth_length. exact BD.
        + intros p Hp. cbn in Hp. apply In_nth_error in Hp. destruct Hp as [j Hj].
          destruct (Nat.eq_dec j i) as [->|Nj].
          * rewrite nth_error_set_nth_eq in Hj by (apply nth_error_Some; congruence). injection Hj as <-. rewrite Dn. exact Wc.
          * rewrite nth_error_set_nth_neq in Hj by auto. rewrite (Doth j p Nj Hj). apply WF. eapply nth_error_In; eauto.
      - f_equal. unfold cameras. cbn [objs w']. rewrite map_set_nth, Dn. apply set_nth_ext.
        + rewrite !map_length. reflexivity.
        + intros j Hj. rewrite !nth_error_map. destruct (nth_error (objs w) j) as [p|] eqn:Ep; [|reflexivity]. cbn.
          rewrite (Doth j p Hj Ep). reflexivity. }
    destruct op; try (apply K; congruence). reflexivity.
Qed.

(** any program, starting with no objects *)
Fixpoint run_actions (l : list action) (w : world) : world :=
  match l with [] => w | a :: r => run_actions r (match act a w with Some w' => w' | None => w end) end.
Fixpoint run_spec (l : list action) (cs : list cam) : list cam :=
  match l with [] => cs | a :: r => run_spec r (match act_spec a cs with Some c => c | None => cs end) end.

Theorem run_refines l : cameras (run_actions l (mkworld [] [])) = run_spec l [].
Proof.
  assert (G : forall l w, separated w -> cameras (run_actions l w) = run_spec l (cameras w)).
  { clear l. induction l as [|a l IH]; intros w S; [reflexivity|]. cbn [run_actions run_spec].
    pose proof (act_refines a w S) as H. destruct (act a w) as [w'|].
    - destruct H as [S' ->]. apply IH; auto.
    - rewrite H. apply IH; auto. }
  apply (G l (mkworld [] [])). split; [constructor|]. split; [intros r []|intros o []].
Qed.
