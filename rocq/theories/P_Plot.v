(** Property C120: plots of reprojection errors. *)
From Coq Require Import String Sorting.Sorted.
From Verif Require Import Base BaseLemmas HelpersModel CameraModel ControlModel LinesModel ParamsModel ParamsProofs ParamsProofs2 ParamsProofs3 BuildModel RayModel LineModel ConvertModel PlotModel.
From Verif Require GetitemModel P_Getitem.
Open Scope R_scope.

(** ** Specification *)
(** The positions of n points that an index selects, in its order. *)
Definition selects (n : nat) (ix : pindex) (sel : list nat) : Prop :=
  match ix with
  | Whole => sel = seq 0 n
  | One _ => False
  | Several l => Forall2 (fun i k => (k < n)%nat /\ (i = Z.of_nat k \/ i = (Z.of_nat k - Z.of_nat n)%Z)) l sel
  | Mask m => length m = n /\ StronglySorted lt sel /\ forall k, In k sel <-> nth_error m k = Some true
  | Span a b s => let s := match s with Some s => s | None => 1%Z end in s <> 0%Z /\
      (forall j, (j < length sel)%nat -> Z.of_nat (nth j sel 0%nat) = (P_Getitem.slice_first (Z.of_nat n) a s + Z.of_nat j * s)%Z) /\
      forall k, (0 <= k)%Z -> let p := (P_Getitem.slice_first (Z.of_nat n) a s + k * s)%Z in (exists i, In i sel /\ Z.of_nat i = p) <-> (if 0 <? s then p < P_Getitem.slice_end (Z.of_nat n) b s else P_Getitem.slice_end (Z.of_nat n) b s < p)%Z
  end.
(** An arrow of matplotlib with angles = 'xy', scale_units = 'xy' and a scale: from (x, y) by (u / scale, v / scale). *)
Definition arrow_end (scale : R) (at_ by_ : vec2) : vec2 := (fst at_ + fst by_ / scale, snd at_ + snd by_ / scale).
(** The quiver of the points [sel]: none if there are none or it is hidden, else an arrow from each observed to its predicted point (none to nan) *)
Definition arrows (uv : list vec2) (pred : list (option vec2)) (sel : list nat) (args : color_args) (q : option quiver) : Prop :=
  match q with
  | None => sel = [] \/ args = Hide
  | Some q => sel <> [] /\ args <> Hide /\ length (q_at q) = length sel /\ length (q_by q) = length sel /\
      forall j i, nth_error sel j = Some i -> exists p, nth_error uv i = Some p /\ nth_error (q_at q) j = Some p /\
        match nth_error pred i with
        | Some (Some p') => exists d, nth_error (q_by q) j = Some (Some d) /\ arrow_end 1 p d = p'
        | _ => nth_error (q_by q) j = Some None
        end
  end.
(** The options of a quiver: those of the argument, else those of all quivers, else the defaults *)
Definition option_of (args : color_args) (kw : kwargs) (w : R) (k : string) : option pvalue :=
  match (match args with Args d => kget k d | Color v => if String.eqb k "color" then Some v else None | Hide => None end) with
  | Some v => Some v
  | None => match kget k kw with
            | Some v => Some v
            | None => if String.eqb k "scale" then Some (PNum 1) else if String.eqb k "width" then Some (PNum (w * (5 / 1000)))
                      else if (String.eqb k "scale_units" || String.eqb k "angles" || String.eqb k "units")%bool then Some (PText "xy") else None
            end
  end.
(* ---------------------------------------------------------------- *)

Lemma find_app {A} (f : A -> bool) a b : find f (a ++ b) = match find f a with Some x => Some x | None => find f b end.
Proof. induction a as [|x a IH]; [reflexivity|]. cbn [app find]. destruct (f x); [reflexivity|exact IH]. Qed.
Lemma kget_merge k a b : kget k (kmerge a b) = match kget k b with Some v => Some v | None => kget k a end.
Proof. unfold kget, kmerge. rewrite find_app. destruct (find _ b); reflexivity. Qed.
Lemma option_spec args kw w k : args <> Hide -> kget k (kmerge (quiver_defaults w kw) (as_args "color" args)) = option_of args kw w k.
Proof.
  intros N. rewrite kget_merge. unfold option_of. assert (E : kget k (as_args "color" args) = match args with Args d => kget k d | Color v => if String.eqb k "color" then Some v else None | Hide => None end).
  { destruct args as [|v|d]; [contradiction| |reflexivity]. unfold kget, as_args. cbn [find fst]. rewrite String.eqb_sym. destruct (String.eqb k "color"); reflexivity. }
  rewrite E. destruct (match args with Hide => None | _ => _ end); [reflexivity|]. unfold quiver_defaults. rewrite kget_merge. destruct (kget k kw); [reflexivity|].
  unfold kget. cbn [find fst snd]. rewrite !(String.eqb_sym _ k). destruct (String.eqb_spec k "scale"); [reflexivity|]. destruct (String.eqb_spec k "scale_units") as [->|]; [reflexivity|]. destruct (String.eqb_spec k "angles") as [->|]; [reflexivity|]. destruct (String.eqb_spec k "units") as [->|]; [reflexivity|].
  destruct (String.eqb k "width"); reflexivity.
Qed.
Lemma py_get_seq n i k : py_get (seq 0 n) i = Ok k <-> (k < n)%nat /\ (i = Z.of_nat k \/ i = (Z.of_nat k - Z.of_nat n)%Z).
Proof.
  unfold py_get, py_index. rewrite seq_length.
  assert (N : forall j, (j < n)%nat -> nth_error (seq 0 n) j = Some j) by (intros j H; rewrite nth_error_nth' with (d := 0%nat) by (rewrite seq_length; exact H); now rewrite seq_nth).
  destruct (i <? - Z.of_nat n)%Z eqn:E1; [cbn [bind]; split; [discriminate|intros [H1 H2]; exfalso; lia]|].
  destruct (i <? 0)%Z eqn:E2; cbn [bind].
  - assert (J : (Z.to_nat (Z.of_nat n + i) < n)%nat) by lia. rewrite (N _ J). split; [intros Q; injection Q as <-; lia|intros [H1 H2]; apply (f_equal (@Ok _)); lia].
  - destruct (i <? Z.of_nat n)%Z eqn:E3; cbn [bind]; [|split; [discriminate|intros [H1 H2]; exfalso; lia]].
    assert (J : (Z.to_nat i < n)%nat) by lia. rewrite (N _ J). split; [intros Q; injection Q as <-; lia|intros [H1 H2]; apply (f_equal (@Ok _)); lia].
Qed.
Lemma mask_positions m : forall s, StronglySorted lt (map fst (filter snd (combine (seq s (length m)) m))) /\ forall k, In k (map fst (filter snd (combine (seq s (length m)) m))) <-> (s <= k)%nat /\ nth_error m (k - s) = Some true.
Proof.
  induction m as [|b m IH]; intros s; cbn [length seq combine filter map snd fst].
  - split; [constructor|]. intros k. split; [intros []|]. intros [_ H]. destruct (k - s)%nat; discriminate.
  - destruct (IH (S s)) as [IS II].
    assert (E : forall k, (s < k)%nat -> nth_error (b :: m) (k - s) = nth_error m (k - S s)) by (intros k H; replace (k - s)%nat with (S (k - S s)) by lia; reflexivity).
    destruct b; cbn [map fst]; split.
    + constructor; [exact IS|]. apply Forall_forall. intros k Hk. apply II in Hk. lia.
    + intros k. split.
      * intros [<-|H]; [split; [lia|]; now rewrite Nat.sub_diag|]. apply II in H as [H1 H2]. split; [lia|]. rewrite E by lia. exact H2.
      * intros [H1 H2]. destruct (Nat.eq_dec s k) as [->|N]; [now left|right]. apply II. split; [lia|]. rewrite <- E by lia. exact H2.
    + exact IS.
    + intros k. rewrite II. split.
      * intros [H1 H2]. split; [lia|]. rewrite E by lia. exact H2.
      * intros [H1 H2]. destruct (Nat.eq_dec s k) as [->|N]; [rewrite Nat.sub_diag in H2; discriminate|]. split; [lia|]. rewrite <- E by lia. exact H2.
Qed.
Lemma mapM_Forall2 {A B} (f : A -> result B) l r : mapM f l = Ok r <-> Forall2 (fun a b => f a = Ok b) l r.
Proof.
  revert r. induction l as [|a l IH]; intros r; cbn [mapM].
  - split; [intros E; injection E as <-; constructor|intros H; inversion H; reflexivity].
  - destruct (f a) as [b|e] eqn:Ea; cbn [bind].
    + destruct (mapM f l) as [bs|e] eqn:El; cbn [bind].
      * split; [intros E; injection E as <-; constructor; [exact Ea|now apply IH]|]. intros H. inversion H as [|? b' ? r' H1 H2]; subst. apply IH in H2. congruence.
      * split; [discriminate|]. intros H. inversion H as [|? b' ? r' H1 H2]; subst. apply IH in H2. congruence.
    + split; [discriminate|]. intros H. inversion H as [|? b' ? r' H1 H2]; subst. congruence.
Qed.
Lemma chosen_spec n ix sel : chosen n ix = Ok sel -> selects n ix sel /\ forall k, In k sel -> (k < n)%nat.
Proof.
  destruct ix as [|i|l|m|a b s]; cbn [chosen selects].
  - intros E. injection E as <-. split; [reflexivity|]. intros k H. apply in_seq in H. lia.
  - destruct (py_get (seq 0 n) i); discriminate.
  - intros E. apply mapM_Forall2 in E. split.
    + induction E as [|i k l r H E IH]; constructor; [now apply py_get_seq|exact IH].
    + intros k H. induction E as [|i k' l r H' E IH]; [destruct H|]. destruct H as [<-|H]; [now apply py_get_seq in H'|now apply IH].
  - destruct (Nat.eqb_spec (length m) n) as [<-|]; [|discriminate]. intros E. injection E as <-. destruct (mask_positions m 0) as [S I].
    split; [split; [reflexivity|]; split; [exact S|]|].
    + intros k. rewrite I, Nat.sub_0_r. split; [now intros [_ H]|]. intros H. split; [lia|exact H].
    + intros k H. apply I in H as [_ H]. rewrite Nat.sub_0_r in H. apply nth_error_Some. congruence.
  - destruct (P_Getitem.getitem_slice (Z.of_nat n) a b s) as [Z0 Zn]; [lia|]. cbn zeta in Z0, Zn. set (s' := match s with Some s => s | None => 1%Z end) in *.
    destruct (Z.eq_dec s' 0) as [E0|N0]; [rewrite (Z0 E0); discriminate|]. destruct (Zn N0) as (ps & -> & H1 & H2 & H3). cbn [bind]. intros E. injection E as <-. split; [split; [exact N0|]; split|].
    + intros j Hj. rewrite map_length in Hj. rewrite <- H1 by exact Hj. rewrite (nth_indep _ 0%nat (Z.to_nat 0)) by (now rewrite map_length). rewrite map_nth. apply Z2Nat.id. apply H2, nth_In, Hj.
    + intros k Hk. cbn zeta. rewrite <- (H3 k Hk). split.
      * intros (i & Hi & <-). apply in_map_iff in Hi as (q & <- & Hq). rewrite Z2Nat.id; [exact Hq|]. now apply H2 in Hq.
      * intros Hp. eexists. split; [apply in_map, Hp|]. apply Z2Nat.id. now apply H2 in Hp.
    + intros k H. apply in_map_iff in H as (q & <- & Hq). apply H2 in Hq. lia.
Qed.
Lemma others_spec n idx : StronglySorted lt (others n idx) /\ forall k, In k (others n idx) <-> (k < n)%nat /\ ~ In k idx.
Proof.
  unfold others. split.
  - assert (G : forall f l, StronglySorted lt l -> StronglySorted lt (filter f l)).
    { intros f l H. induction H as [|x l H IH F]; [constructor|]. cbn [filter]. destruct (f x); [|exact IH]. constructor; [exact IH|]. rewrite Forall_forall in *. intros y Hy. apply filter_In in Hy as [Hy _]. now apply F. }
    apply G. generalize 0%nat. induction n as [|n IH]; intros s; cbn [seq]; constructor; [apply IH|]. apply Forall_forall. intros y Hy. apply in_seq in Hy. lia.
  - intros k. rewrite filter_In, in_seq, negb_true_iff. split; intros [H1 H2]; (split; [lia|]).
    + intros I. apply not_true_iff_false in H2. apply H2, existsb_exists. exists k. split; [exact I|apply Nat.eqb_refl].
    + apply not_true_iff_false. intros E. apply H2. apply existsb_exists in E as (j & Hj & Q). apply Nat.eqb_eq in Q. now subst.
Qed.
Lemma map2_nth_error {A B C} (f : A -> B -> C) a b i x y : nth_error a i = Some x -> nth_error b i = Some y -> nth_error (map2 f a b) i = Some (f x y).
Proof. revert b i. induction a as [|a0 a IH]; intros [|b0 b] [|i]; cbn; try discriminate; [intros H1 H2; injection H1 as <-; injection H2 as <-; reflexivity|apply IH]. Qed.
Lemma one_quiver_arrows uv pred d sel args : length pred = length uv -> (forall k, In k sel -> (k < length uv)%nat) ->
  arrows uv pred sel args (one_quiver uv (map2 (fun p q => option_map (fun p => (fst p - fst q, snd p - snd q)) p) pred uv) d sel args) /\
  (forall q, one_quiver uv (map2 (fun p q => option_map (fun p => (fst p - fst q, snd p - snd q)) p) pred uv) d sel args = Some q -> q_args q = kmerge d (as_args "color" args)).
Proof.
  intros L B. set (duv := map2 (fun p q => option_map (fun p => (fst p - fst q, snd p - snd q)) p) pred uv).
  assert (G : sel <> [] -> args <> Hide -> arrows uv pred sel args (Some (mk_quiver (pick (0, 0) uv sel) (pick None duv sel) (kmerge d (as_args "color" args))))).
  { intros N1 N2. unfold arrows, pick. cbn [q_at q_by]. split; [exact N1|]. split; [exact N2|]. split; [apply map_length|]. split; [apply map_length|].
    intros j i Hj. pose proof (B i (nth_error_In _ _ Hj)) as Li. rewrite !(map_nth_error _ _ _ Hj).
    destruct (nth_error uv i) as [p|] eqn:Eu; [|apply nth_error_None in Eu; lia]. destruct (nth_error pred i) as [p'|] eqn:Ep; [|apply nth_error_None in Ep; lia].
    exists p. split; [reflexivity|]. split; [now rewrite (nth_error_nth _ _ _ Eu)|].
    pose proof (map2_nth_error (fun p q => option_map (fun p => (fst p - fst q, snd p - snd q)) p) pred uv i p' p Ep Eu) as Q. fold duv in Q. rewrite (nth_error_nth _ _ _ Q).
    destruct p' as [[x' y']|]; [|reflexivity]. eexists. split; [reflexivity|]. unfold arrow_end. cbn [fst snd]. destruct p as [x y]. cbn [fst snd]. f_equal; field. }
  unfold one_quiver. destruct sel as [|i sel]; [split; [now left|discriminate]|]. destruct args as [|v|dd]; (split; [|try discriminate; intros q Q; injection Q as <-; reflexivity]).
  - now right.
  - apply G; discriminate.
  - apply G; discriminate.
Qed.
(** The points are split into those of the index, in its order, and all others, in their order; each is drawn by an arrow from its observed to its predicted point. *)
Definition shows_errors (uv : list vec2) (pred : list (option vec2)) (ix : pindex) (selected unselected : color_args) (w : R) (kw : kwargs) (e : errors_plot) : Prop :=
  exists sel unsel, selects (length uv) ix sel /\ StronglySorted lt unsel /\ (forall k, In k unsel <-> (k < length uv)%nat /\ ~ In k sel) /\
    arrows uv pred sel selected (ep_selected e) /\ arrows uv pred unsel unselected (ep_unselected e) /\
    (forall q k, ep_selected e = Some q -> kget k (q_args q) = option_of selected kw w k) /\ (forall q k, ep_unselected e = Some q -> kget k (q_args q) = option_of unselected kw w k).
Lemma plot_errors_spec uv pred ix selected unselected w kw e : length pred = length uv -> plot_errors uv pred ix selected unselected w kw = Ok e -> shows_errors uv pred ix selected unselected w kw e.
Proof.
  intros L. unfold plot_errors. destruct (chosen (length uv) ix) as [sel|] eqn:C; [|discriminate]. cbn [bind]. intros E. injection E as <-. apply chosen_spec in C as [S B]. destruct (others_spec (length uv) sel) as [O1 O2].
  assert (B' : forall k, In k (others (length uv) sel) -> (k < length uv)%nat) by (intros k H; now apply O2 in H).
  destruct (one_quiver_arrows uv pred (quiver_defaults w kw) sel selected L B) as [A1 K1]. destruct (one_quiver_arrows uv pred (quiver_defaults w kw) _ unselected L B') as [A2 K2].
  exists sel, (others (length uv) sel). cbn [ep_selected ep_unselected]. split; [exact S|]. split; [exact O1|]. split; [exact O2|]. split; [exact A1|]. split; [exact A2|]. split; intros q k Q.
  - rewrite (K1 q Q). apply option_spec. intros ->. unfold arrows in A1. rewrite Q in A1. destruct A1 as (_ & A1 & _). now apply A1.
  - rewrite (K2 q Q). apply option_spec. intros ->. unfold arrows in A2. rewrite Q in A2. destruct A2 as (_ & A2 & _). now apply A2.
Qed.
(** C120: plots of points *)
Theorem points_plot_errors p ix selected unselected kw figures e lim : length (p_uv p) = length (p_xyz p) -> points_plot p ix selected unselected kw figures = Ok (e, lim) ->
  exists pred, points_predicted p = Ok pred /\ shows_errors (p_uv p) pred ix selected unselected (ControlModel.width (p_cam p)) kw e /\
  lim = (if figures then None else Some ((0, ControlModel.width (p_cam p)), (height (p_cam p), 0))).
Proof.
  intros L. unfold points_plot. destruct (points_predicted p) as [pred|] eqn:Ep; [|discriminate]. cbn [bind]. destruct (plot_errors _ pred _ _ _ _ _) as [e'|] eqn:E; [|discriminate]. cbn [bind]. intros Q. injection Q as <- <-.
  exists pred. split; [reflexivity|]. split; [|destruct figures; reflexivity]. apply plot_errors_spec in E; [exact E|]. unfold points_observed. unfold points_predicted in Ep. destruct (_ && _)%bool; [discriminate|]. injection Ep as <-. now rewrite map_length.
Qed.
Print Assumptions points_plot_errors.

(** Which indices can be plotted: the default; integers from -n to n - 1; n booleans; slices whose step is not zero.  A single integer is refused, although
    it is an index (optimize.py:152 and 384: "Indices of points to plot"). *)
Theorem points_plot_index p ix selected unselected kw figures pred : points_predicted p = Ok pred -> let n := length (p_uv p) in
  match ix with
  | Whole => exists r, points_plot p ix selected unselected kw figures = Ok r
  | One i => points_plot p ix selected unselected kw figures = Err (if ((- Z.of_nat n <=? i) && (i <? Z.of_nat n))%Z then TypeError else IndexError)
  | Several l => (exists r, points_plot p ix selected unselected kw figures = Ok r) <-> forall i, In i l -> (- Z.of_nat n <= i < Z.of_nat n)%Z
  | Mask m => (exists r, points_plot p ix selected unselected kw figures = Ok r) <-> length m = n
  | Span _ _ s => (exists r, points_plot p ix selected unselected kw figures = Ok r) <-> s <> Some 0%Z
  end.
Proof.
  intros E n. unfold points_plot. rewrite E. cbn [bind]. unfold plot_errors, points_observed. fold n.
  assert (G : forall X : result (list nat), (exists r, (let* e := (let* idx := X in Ok (mk_errors (one_quiver (p_uv p) (map2 (fun p q => option_map (fun p => (fst p - fst q, snd p - snd q)) p) pred (p_uv p)) (quiver_defaults (ControlModel.width (p_cam p)) kw) (others n idx) unselected) (one_quiver (p_uv p) (map2 (fun p q => option_map (fun p => (fst p - fst q, snd p - snd q)) p) pred (p_uv p)) (quiver_defaults (ControlModel.width (p_cam p)) kw) idx selected))) in Ok (e, plot_limits figures (p_cam p))) = Ok r) <-> exists l, X = Ok l).
  { intros [l|e]; cbn [bind]; [|split; intros [x H]; discriminate]. split; intros _; eauto. }
  destruct ix as [|i|l|m|a b s]; cbn [chosen].
  - eexists. reflexivity.
  - clear G. unfold py_get, py_index. rewrite seq_length. fold n.
    assert (N : forall j, (j < n)%nat -> nth_error (seq 0 n) j = Some j) by (intros j H; rewrite nth_error_nth' with (d := 0%nat) by (rewrite seq_length; exact H); now rewrite seq_nth).
    destruct (Z.ltb_spec i (- Z.of_nat n)), (Z.leb_spec (- Z.of_nat n) i); try lia; [destruct (i <? Z.of_nat n)%Z; reflexivity|].
    destruct (Z.ltb_spec i 0), (Z.ltb_spec i (Z.of_nat n)); try lia; cbn [bind andb].
    + rewrite N by lia. reflexivity.
    + rewrite N by lia. reflexivity.
    + reflexivity.
  - rewrite G. clear G. split.
    + intros [r H] i I. apply mapM_Forall2 in H. induction H as [|x y l r H _ IH]; [destruct I|]. destruct I as [<-|I]; [apply py_get_seq in H; lia|now apply IH].
    + intros H. induction l as [|i l IH]; [eexists; reflexivity|]. destruct IH as [r Hr]; [intros j Hj; apply H; now right|].
      assert (I : (- Z.of_nat n <= i < Z.of_nat n)%Z) by (apply H; now left). assert (P : py_get (seq 0 n) i = Ok (Z.to_nat (if (i <? 0)%Z then i + Z.of_nat n else i)%Z)) by (apply py_get_seq; destruct (Z.ltb_spec i 0); lia).
      cbn [mapM]. rewrite P. cbn [bind]. rewrite Hr. cbn [bind]. eauto.
  - rewrite G. destruct (Nat.eqb_spec (length m) n); split; intros H; try (now destruct H); try contradiction; eauto.
  - rewrite G. destruct (P_Getitem.getitem_slice (Z.of_nat n) a b s) as [Z0 Zn]; [lia|]. cbn zeta in Z0, Zn. destruct s as [s|].
    + destruct (Z.eq_dec s 0) as [->|N0]; [rewrite (Z0 eq_refl); cbn [bind]; split; [intros [l H]; discriminate|intros H; now elim H]|]. destruct (Zn N0) as (ps & -> & _). cbn [bind]. split; [intros _ Q; apply N0; congruence|eauto].
    + destruct (Zn ltac:(discriminate)) as (ps & -> & _). cbn [bind]. split; [discriminate|eauto].
Qed.
Print Assumptions points_plot_index.

(** C120: plots of lines.  Points on the image lines against the points of the projected world lines nearest to them, and both sets of lines. *)
Definition shows_lines (l : list (list vec2)) (c : color_args) (d : option (list (list vec2 * kwargs))) : Prop :=
  match d with
  | None => c = Hide
  | Some d => c <> Hide /\ map fst d = l /\ forall x k, In x d -> kget k (snd x) = match c with Args a => kget k a | Color v => if String.eqb k "color" then Some v else None | Hide => None end
  end.
Lemma plot_lines_spec l c : shows_lines l c (plot_lines l c).
Proof.
  destruct c as [|v|a]; cbn; [reflexivity| |]; (split; [discriminate|]; split; [rewrite map_map; apply map_id|]); intros x k H; apply in_map_iff in H as (y & <- & _); [|reflexivity]. cbn [snd]. unfold kget. cbn [find fst]. rewrite String.eqb_sym. destruct (String.eqb k "color"); reflexivity.
Qed.
Theorem lines_plot_errors argsort c position directions density xyzs l ix selected unselected observed predicted kw figures d lim :
  lines_plot l (lines_project argsort c directions density xyzs) (lines_predict argsort c position directions density xyzs l) c ix selected unselected observed predicted kw figures = Ok (d, lim) ->
  exists puvs pred, lines_project argsort c directions density xyzs = Ok puvs /\ lines_predict argsort c position directions density xyzs l = Ok pred /\
    shows_errors (l_uv l) (map Some pred) ix selected unselected (ControlModel.width c) kw (ld_errors d) /\
    shows_lines (l_uvs l) observed (ld_observed d) /\ shows_lines puvs predicted (ld_predicted d) /\
    lim = (if figures then None else Some ((0, ControlModel.width c), (height c, 0))).
Proof.
  unfold lines_plot. destruct (lines_project argsort c directions density xyzs) as [puvs|] eqn:E1; [|discriminate]. cbn [bind].
  destruct (lines_predict argsort c position directions density xyzs l) as [pred|] eqn:E2; [|discriminate]. cbn [bind].
  destruct (plot_errors _ _ _ _ _ _ _) as [e|] eqn:E; [|discriminate]. cbn [bind]. intros Q. injection Q as <- <-. exists puvs, pred. split; [reflexivity|]. split; [reflexivity|]. cbn [ld_errors ld_observed ld_predicted].
  split; [|split; [apply plot_lines_spec|split; [apply plot_lines_spec|destruct figures; reflexivity]]]. apply plot_errors_spec in E; [exact E|]. rewrite map_length.
  unfold lines_predict in E2. destruct (directions && _)%bool; [discriminate|]. rewrite E1 in E2. cbn [bind] in E2. unfold lines_predicted in E2. destruct (concat puvs) as [|p r]; [discriminate|]. injection E2 as <-. apply map_length.
Qed.
Print Assumptions lines_plot_errors.

(** C120: plots of matches, in either of their cameras *)
Definition matches_sizes (m : matches) : Prop := exists n, (forall a b, m_uvs m = Some (a, b) -> length a = n /\ length b = n) /\ forall a b, m_xys m = Some (a, b) -> length a = n /\ length b = n.
Theorem matches_plot_errors m first ix selected unselected kw figures e lim : matches_sizes m -> matches_plot m first ix selected unselected kw figures = Ok (e, lim) ->
  exists uv pred, m_observed first m = Ok uv /\ m_predicted first m = Ok pred /\ shows_errors uv pred ix selected unselected (ControlModel.width (m_cam m first)) kw e /\
    lim = (if figures then None else Some ((0, ControlModel.width (m_cam m first)), (height (m_cam m first), 0))).
Proof.
  intros (n & S1 & S2) H. assert (H' : (let* uv := m_observed first m in let* pred := m_predicted first m in let* e := plot_errors uv pred ix selected unselected (ControlModel.width (m_cam m first)) kw in Ok (e, plot_limits figures (m_cam m first))) = Ok (e, lim)) by (unfold matches_plot in H; destruct (m_type m); try discriminate; exact H).
  assert (T : m_type m = Matches \/ m_type m = RotationMatches) by (unfold matches_plot in H; destruct (m_type m); try discriminate; auto). clear H.
  destruct (m_observed first m) as [uv|] eqn:Eo; [|discriminate]. cbn [bind] in H'. destruct (m_predicted first m) as [pred|] eqn:Ep; [|discriminate]. cbn [bind] in H'.
  destruct (plot_errors uv pred _ _ _ _ _) as [e'|] eqn:E; [|discriminate]. cbn [bind] in H'. injection H' as <- <-. exists uv, pred. split; [reflexivity|]. split; [reflexivity|]. split; [|destruct figures; reflexivity].
  apply plot_errors_spec in E; [exact E|].
  assert (Lo : length uv = n). { clear Ep E. unfold m_observed in Eo. destruct (m_uvs m) as [[a b]|] eqn:U; [|destruct T as [T|T]; rewrite T in Eo; discriminate]. destruct (S1 a b eq_refl). destruct T as [T|T]; rewrite T in Eo; injection Eo as <-; destruct first; assumption. }
  rewrite Lo. clear E Eo. unfold m_predicted in Ep. destruct T as [T|T]; rewrite T in Ep.
  - destruct (test_position _ _); [|discriminate]. cbn [bind] in Ep. destruct (m_uvs m) as [[a' b']|] eqn:U; [|discriminate]. destruct (S1 a' b' eq_refl). injection Ep as <-. rewrite map_length. destruct first; assumption.
  - destruct (test_position _ _); [|discriminate]. cbn [bind] in Ep. destruct (test_internals m); [|discriminate]. cbn [bind] in Ep. destruct (m_xys m) as [[a1 b1]|] eqn:U; [|discriminate]. destruct (S2 a1 b1 eq_refl). injection Ep as <-. rewrite !map_length. destruct first; assumption.
Qed.
Print Assumptions matches_plot_errors.
(** RotationMatchesXY and RotationMatchesXYZ mean to say that they cannot be plotted (NotImplementedError), but their method cannot even be called. *)
Theorem matches_plot_xy_refuted m first ix selected unselected kw figures : m_type m = RotationMatchesXY \/ m_type m = RotationMatchesXYZ ->
  matches_plot m first ix selected unselected kw figures = Err TypeError.
Proof. intros [T|T]; unfold matches_plot; rewrite T; reflexivity. Qed.
Print Assumptions matches_plot_xy_refuted.

(** ** Polynomials *)
(** The value of a polynomial, highest degree first *)
Fixpoint poly_at (params : list R) (x : R) : R := match params with [] => 0 | p :: r => p * x ^ length r + poly_at r x end.
(** The scatter of the points [sel]: their coordinates; the options of the call come before those of the argument. *)
Definition shows_points (xy : list vec2) (sel : list nat) (args : color_args) (kw : kwargs) (s : scatter) : Prop :=
  Forall2 (fun i p => nth_error xy i = Some p) sel (fst s) /\
  forall k, kget k (snd s) = match kget k kw with
                             | Some v => Some v
                             | None => match args with Args d => kget k d | Color v => if String.eqb k "c" then Some v else None | Hide => None end
                             end.
Lemma polyval_at params x : polyval params x = poly_at params x.
Proof.
  unfold polyval. assert (G : forall l b, fold_left (fun acc p => acc * x + p) l b = b * x ^ length l + poly_at l x).
  { induction l as [|p l IH]; intros b; cbn [fold_left length poly_at]; [cbn; ring|]. rewrite IH. cbn [pow]. ring. }
  rewrite G. ring.
Qed.
Lemma scatter_spec xy sel args kw : (forall k, In k sel -> (k < length xy)%nat) -> shows_points xy sel args kw (pick (0, 0) xy sel, kmerge (as_args "c" args) kw).
Proof.
  intros B. split; cbn [fst snd].
  - unfold pick. induction sel as [|i sel IH]; constructor.
    + apply nth_error_nth'. apply B. now left.
    + apply IH. intros k H. apply B. now right.
  - intros k. rewrite kget_merge. destruct (kget k kw); [reflexivity|]. destruct args as [|v|d]; [reflexivity| |reflexivity]. unfold kget, as_args. cbn [find fst]. rewrite String.eqb_sym. destruct (String.eqb k "c"); reflexivity.
Qed.
(** A plot succeeds only if there are both selected and unselected points and neither are hidden; then it shows both, and the values of the
    polynomial at all points. *)
Theorem poly_plot_shows xy fit params ix selected unselected predicted kw ps sel : match params with Some p => Ok p | None => fit ix end = Ok ps -> chosen (length xy) ix = Ok sel ->
  let unsel := filter (fun i => negb (existsb (Nat.eqb i) sel)) (seq 0 (length xy)) in
  (sel = [] \/ unsel = [] \/ selected = Hide \/ unselected = Hide -> poly_plot xy fit params ix selected unselected predicted kw = Err TypeError) /\
  (sel <> [] -> unsel <> [] -> selected <> Hide -> unselected <> Hide -> exists u s line, poly_plot xy fit params ix selected unselected predicted kw = Ok ([("unselected"%string, u); ("selected"%string, s)], line) /\
     selects (length xy) ix sel /\ shows_points xy sel selected kw s /\ shows_points xy unsel unselected kw u /\
     match line with
     | None => predicted = Hide
     | Some line => predicted <> Hide /\ fst line = map (fun p => (fst p, poly_at ps (fst p))) xy /\ snd line = match predicted with Args d => d | Color v => [("color"%string, v)] | Hide => [] end
     end).
Proof.
  intros Eps C unsel. unfold poly_plot. rewrite Eps. cbn [bind]. rewrite C. cbn [bind]. change (others (length xy) sel) with unsel. split.
  - intros H. unfold poly_step. destruct unsel as [|u us], unselected as [|v|d]; cbn [bind]; destruct sel as [|s ss], selected as [|v'|d']; cbn [bind]; try reflexivity; destruct H as [H|[H|[H|H]]]; discriminate.
  - intros N1 N2 N3 N4. apply chosen_spec in C as [S B]. destruct (others_spec (length xy) sel) as [_ O]. change (others (length xy) sel) with unsel in O.
    exists (pick (0, 0) xy unsel, kmerge (as_args "c" unselected) kw), (pick (0, 0) xy sel, kmerge (as_args "c" selected) kw), (match predicted with Hide => None | _ => Some (map (fun p => (fst p, polyval ps (fst p))) xy, as_args "color" predicted) end).
    split; [|split; [exact S|split; [now apply scatter_spec|split; [apply scatter_spec; intros k H; now apply O in H|]]]].
    + assert (P : forall idx args r l, idx <> [] -> args <> Hide -> poly_step xy kw (Some r) idx args l = Ok (Some (r ++ [(l, (pick (0, 0) xy idx, kmerge (as_args "c" args) kw))]))).
      { intros idx args r l A1 A2. unfold poly_step. destruct idx; [contradiction|]. destruct args; [contradiction| |]; reflexivity. }
      rewrite P by assumption. cbn [bind app]. rewrite P by assumption. reflexivity.
    + assert (M : map (fun p : vec2 => (fst p, polyval ps (fst p))) xy = map (fun p => (fst p, poly_at ps (fst p))) xy) by (apply map_ext; intros p; now rewrite polyval_at).
      destruct predicted as [|v|d]; [reflexivity| |]; cbn [fst snd as_args]; (split; [discriminate|]; split; [exact M|reflexivity]).
Qed.
Print Assumptions poly_plot_shows.
(** With the default index all points are selected, so that a plot always fails. *)
Theorem poly_plot_refuted xy fit params ps selected unselected predicted kw : match params with Some p => Ok p | None => fit Whole end = Ok ps -> poly_plot xy fit params Whole selected unselected predicted kw = Err TypeError.
Proof.
  intros E. destruct (poly_plot_shows xy fit params Whole selected unselected predicted kw ps (seq 0 (length xy)) E eq_refl) as [H _]. apply H. right. left.
  cut (forall k, ~ In k (filter (fun i => negb (existsb (Nat.eqb i) (seq 0 (length xy)))) (seq 0 (length xy)))); [destruct (filter _ _) as [|k r]; [reflexivity|intros N; elim (N k); now left]|].
  intros k I. apply filter_In in I as [I1 I2]. rewrite negb_true_iff in I2. apply not_true_iff_false in I2. apply I2, existsb_exists. exists k. split; [exact I1|apply Nat.eqb_refl].
Qed.
Print Assumptions poly_plot_refuted.

(** ** Converters *)
(** C120: for any scale but zero, every arrow starts at a point uv of the grid and ends at uv + residual. *)
Theorem converter_plot_arrows uv residuals kw s q : kget "scale" kw = Some (PNum s) \/ kget "scale" kw = None /\ s = 1 -> s <> 0 -> length residuals = length uv -> converter_plot uv residuals kw = Ok q ->
  q_at q = uv /\ length (q_by q) = length uv /\ kget "scale" (q_args q) = Some (PNum s) /\
  forall i p d, nth_error uv i = Some p -> nth_error residuals i = Some d -> exists b, nth_error (q_by q) i = Some (Some b) /\ arrow_end s p b = (fst p + fst d, snd p + snd d).
Proof.
  intros K N L. unfold converter_plot. assert (E : forall d, kget "scale" d = Some (PNum 1) -> kget "scale" (kmerge d kw) = Some (PNum s)) by (intros d Hd; rewrite kget_merge; destruct K as [K|[K ->]]; rewrite K; [reflexivity|exact Hd]).
  rewrite E by reflexivity. intros Q. injection Q as <-. cbn [q_at q_by q_args]. split; [reflexivity|]. split; [now rewrite map_length|]. split; [apply E; reflexivity|].
  intros i p d Hp Hd. eexists. split; [rewrite (map_nth_error _ _ _ Hd); reflexivity|]. unfold arrow_end. cbn [fst snd]. f_equal; field; exact N.
Qed.
Print Assumptions converter_plot_arrows.
(** For an outgoing distortion model of xcam the arrows are as documented: from a point in xcam to the same point in cam. *)
Theorem converter_plot_outgoing xunproject c uv kw s q : kget "scale" kw = Some (PNum s) \/ kget "scale" kw = None /\ s = 1 -> s <> 0 -> converter_plot uv (residuals_out xunproject c uv) kw = Ok q ->
  length (q_by q) = length uv /\ forall i p, nth_error uv i = Some p -> nth_error (q_at q) i = Some p /\ exists b, nth_error (q_by q) i = Some (Some b) /\ arrow_end s p b = xy_to_uv c (xunproject p).
Proof.
  intros K N H. assert (L : length (residuals_out xunproject c uv) = length uv) by apply map_length. destruct (converter_plot_arrows uv _ kw s q K N L H) as (H1 & H2 & _ & H3). split; [exact H2|]. intros i p Hp. split; [now rewrite H1|].
  destruct (H3 i p (sub2 (xy_to_uv c (xunproject p)) p) Hp) as (b & Hb & E); [apply map_nth_error with (f := fun p => sub2 (xy_to_uv c (xunproject p)) p); exact Hp|]. exists b. split; [exact Hb|]. rewrite E. unfold sub2. cbn [fst snd]. destruct (xy_to_uv c (xunproject p)) as [x y]. cbn [fst snd]. f_equal; ring.
Qed.
Print Assumptions converter_plot_outgoing.
(** "Quivers point from xcam image coordinates to cam image coordinates": for an incoming distortion model they start at a point of cam instead.  Whenever the
    inversion in cam is exact, an arrow starts at the image of the point in xcam only if it has no length. *)
Theorem converter_plot_incoming_refuted xproject c uv kw s q : kget "scale" kw = Some (PNum s) \/ kget "scale" kw = None /\ s = 1 -> s <> 0 -> converter_plot uv (residuals_in xproject c uv) kw = Ok q ->
  forall i p, nth_error uv i = Some p -> let xy := uv_to_xy c p in xy_to_uv c xy = p -> exists a b, nth_error (q_at q) i = Some a /\ nth_error (q_by q) i = Some (Some b) /\
    a = xy_to_uv c xy /\ (a = xproject xy <-> b = (0, 0)) /\ (arrow_end s a b = xy_to_uv c xy <-> b = (0, 0)).
Proof.
  intros K N H i p Hp xy X. assert (L : length (residuals_in xproject c uv) = length uv) by apply map_length. destruct (converter_plot_arrows uv _ kw s q K N L H) as (H1 & H2 & _ & H3).
  destruct (H3 i p (sub2 (xy_to_uv c xy) (xproject xy)) Hp) as (b & Hb & E); [apply map_nth_error with (f := fun p => sub2 (xy_to_uv c (uv_to_xy c p)) (xproject (uv_to_xy c p))); exact Hp|]. exists p, b. split; [now rewrite H1|]. split; [exact Hb|]. split; [now rewrite X|].
  unfold arrow_end in *. unfold sub2 in E. rewrite X in *. destruct p as [px py], b as [bx by_], (xproject xy) as [x y]. cbn [fst snd] in *. injection E as E1 E2.
  assert (B1 : bx = s * (px - x)) by (apply (Rmult_eq_reg_r (/ s)); [|now apply Rinv_neq_0_compat]; transitivity (px - x); [unfold Rdiv in E1; lra|field; exact N]).
  assert (B2 : by_ = s * (py - y)) by (apply (Rmult_eq_reg_r (/ s)); [|now apply Rinv_neq_0_compat]; transitivity (py - y); [unfold Rdiv in E2; lra|field; exact N]).
  split; split; intros Q; injection Q as Q1 Q2.
  - subst x y. f_equal; [rewrite B1|rewrite B2]; ring.
  - rewrite Q1 in B1. rewrite Q2 in B2. f_equal; [assert (Z : s * (px - x) = 0) by lra|assert (Z : s * (py - y) = 0) by lra]; apply Rmult_integral in Z as [Z|Z]; try contradiction; lra.
  - assert (Z1 : bx / s = 0) by lra. assert (Z2 : by_ / s = 0) by lra. unfold Rdiv in Z1, Z2. pose proof (Rinv_neq_0_compat s N). f_equal; [apply Rmult_integral in Z1 as [Z|Z]|apply Rmult_integral in Z2 as [Z|Z]]; try contradiction; exact Z.
  - subst bx by_. rewrite Q1, Q2. f_equal; field; exact N.
Qed.
Print Assumptions converter_plot_incoming_refuted.

(** ** Cameras *)
(** C120: Cameras.plot(params, cam) plots, in their order, the controls of that camera, with all cameras set to params, and then sets all cameras back. *)
Theorem cameras_plot_shows {P} (draw : control -> nat -> heap -> result P) m params camera kind h h' l : cameras_plot draw m params camera kind h = (h', Ok l) ->
  (forall o, h' o = h o) /\
  exists o h1, match camera with inl i => (0 <= i < Z.of_nat (length (m_cams m)) /\ nth_error (m_cams m) (Z.to_nat i) = Some o)%Z \/ (- Z.of_nat (length (m_cams m)) <= i < 0 /\ nth_error (m_cams m) (Z.to_nat (Z.of_nat (length (m_cams m)) + i)) = Some o)%Z | inr o' => o = o' end /\
    match params with None => h1 = h | Some p => set_cameras m p h = (h1, Ok tt) end /\
    exists cs, Forall2 (fun c p => draw c o h1 = Ok p) cs l /\
      (exists keep, cs = map snd (filter (fun kc => keep (fst kc)) (combine (seq 0 (length (m_controls m))) (m_controls m))) /\
        forall k c, nth_error (m_controls m) k = Some c -> (keep k = true <-> In o (ct_cams c))).
Proof.
  unfold cameras_plot. destruct (let* d := _ in _) as [u|]; [|discriminate]. clear u.
  set (sc := match params with None => (h, Ok tt) | Some p => set_cameras m p h end).
  assert (Esc : sc = match params with None => (h, Ok tt) | Some p => set_cameras m p h end) by reflexivity. clearbody sc. destruct sc as [h1 [[]|]]; [|discriminate].
  destruct (camera_of m camera) as [o|] eqn:Eo; [|discriminate]. cbn [bind]. destruct (mapM _ _) as [l'|] eqn:El; [|discriminate]. intros E. injection E as <- <-. split.
  - intros o'. destruct params as [p|]; [|now injection Esc as ->]. destruct (in_dec Nat.eq_dec o' (m_cams m)) as [I|N]; [now apply put_vectors_self|].
    rewrite put_vectors_other by assumption. pose proof (set_cameras_foreign m p h o' N) as Q. now rewrite <- Esc in Q.
  - exists o, h1. split; [|split; [destruct params; [now symmetry|now injection Esc]|]].
    + destruct camera as [i|o']; [|now injection Eo as <-]. cbn [camera_of] in Eo. unfold py_get, py_index in Eo.
      destruct (Z.ltb_spec i (- Z.of_nat (length (m_cams m)))); [discriminate|]. destruct (Z.ltb_spec i 0).
      * cbn [bind] in Eo. destruct (nth_error _ _) as [x|] eqn:En; [|discriminate]. injection Eo as ->. right. split; [lia|first [reflexivity|exact En]].
      * destruct (Z.ltb_spec i (Z.of_nat (length (m_cams m)))); [|discriminate]. cbn [bind] in Eo. destruct (nth_error _ _) as [x|] eqn:En; [|discriminate]. injection Eo as ->. left. split; [lia|first [reflexivity|exact En]].
    + exists (prune_controls (m_controls m) [o]). split; [now apply mapM_Forall2|].
      exists (fun k => match nth_error (m_controls m) k with Some c => existsb (fun o' => existsb (Nat.eqb o') [o]) (ct_cams c) | None => false end). split.
      * unfold prune_controls.
        assert (G : forall (f : control -> bool) l2 l1, filter f l2 = map snd (filter (fun kc => match nth_error (l1 ++ l2) (fst kc) with Some c => f c | None => false end) (combine (seq (length l1) (length l2)) l2))).
        { intros f. induction l2 as [|c l2 IH]; intros l1; [reflexivity|]. cbn [length seq combine filter fst]. rewrite nth_error_app2, Nat.sub_diag by lia. cbn [nth_error]. specialize (IH (l1 ++ [c])). rewrite <- app_assoc, app_length, Nat.add_1_r in IH. cbn [app] in IH.
          destruct (f c); cbn [map snd]; rewrite IH; reflexivity. }
        exact (G (fun c => existsb (fun o' => existsb (Nat.eqb o') [o]) (ct_cams c)) (m_controls m) []).
      * intros k c Hk. rewrite Hk. rewrite existsb_exists. split; [intros (o' & I & Q); apply existsb_exists in Q as (o2 & [<-|[]] & Q); apply Nat.eqb_eq in Q; now subst|]. intros I. exists o. split; [exact I|]. apply existsb_exists. exists o. split; [now left|apply Nat.eqb_refl].
Qed.
Print Assumptions cameras_plot_shows.
(** When a control cannot be plotted, the cameras are not set back. *)
Theorem cameras_plot_error_refuted {P} (draw : control -> nat -> heap -> result P) m p camera kind h h1 o c e : set_cameras m p h = (h1, Ok tt) -> index_differs kind = Ok false \/ (index_differs kind = Ok true /\ length (m_controls m) <= 1)%nat ->
  camera_of m camera = Ok o -> In c (m_controls m) -> In o (ct_cams c) -> draw c o h1 = Err e -> exists e', cameras_plot draw m (Some p) camera kind h = (h1, Err e').
Proof.
  intros S K Eo I Io D. unfold cameras_plot.
  assert (T : (let* d := index_differs kind in if (d && (1 <? length (m_controls m))%nat)%bool then Err ValueError else Ok tt) = Ok tt).
  { destruct K as [->|[-> L]]; cbn [bind andb]; [reflexivity|]. destruct (Nat.ltb_spec 1 (length (m_controls m))); [lia|reflexivity]. }
  rewrite T, S, Eo. cbn [bind]. assert (J : In c (prune_controls (m_controls m) [o])).
  { apply filter_In. split; [exact I|]. apply existsb_exists. exists o. split; [exact Io|]. apply existsb_exists. exists o. split; [now left|apply Nat.eqb_refl]. }
  assert (F : exists e', mapM (fun c => draw c o h1) (prune_controls (m_controls m) [o]) = Err e').
  { induction (prune_controls (m_controls m) [o]) as [|c' cs IH]; [destruct J|]. cbn [mapM]. destruct J as [->|J]; [rewrite D; eexists; reflexivity|]. destruct (draw c' o h1); [|eexists; reflexivity]. destruct (IH J) as [e' ->]. eexists. reflexivity. }
  destruct F as [e' ->]. eexists. reflexivity.
Qed.
Print Assumptions cameras_plot_error_refuted.
(** "Other values [of index] are only supported for a single control": arrays of two or more elements are not supported for a single control either. *)
Theorem cameras_plot_array_refuted {P} (draw : control -> nat -> heap -> result P) m params camera n h : (2 <= n)%nat -> cameras_plot draw m params camera (IsArray n) h = (h, Err ValueError).
Proof. intros N. unfold cameras_plot. destruct n as [|[|n]]; try lia. reflexivity. Qed.
Print Assumptions cameras_plot_array_refuted.

(** ** Examples *)
Definition plot_cam : cam := mkcam [0; 0; 0; 0; 0; 0; 100; 50; 40; 40; 0; 0; 0; 0; 0; 0; 0; 0; 0; 0] [] None None.
Example points_plot_ex : exists e lim, points_plot (mkpoints plot_cam [(1, 2); (3, 4); (5, 6)] [(0, 1, 0); (1, 1, 1); (0, 2, 1)] false [0; 0; 0] (100, 50)) (Several [-1; 0]%Z) (Color (PText "red")) Hide [("width"%string, PNum 2)] true = Ok (e, lim) /\
  option_map q_at (ep_selected e) = Some [(5, 6); (1, 2)] /\ ep_unselected e = None /\ lim = None.
Proof. unfold points_plot, points_predicted. cbn [p_directions andb bind]. eexists _, _. split; [reflexivity|]. repeat split. Qed.
Example poly_plot_ex : exists u s line, poly_plot [(0, 1); (1, 3); (2, 5)] (fun _ => Err ValueError) (Some [2; 1]) (Several [0; 2]%Z) (Color (PText "red")) (Color (PText "gray")) (Color (PText "red")) [] =
  Ok ([("unselected", u); ("selected", s)]%string, Some line) /\ fst s = [(0, 1); (2, 5)] /\ fst u = [(1, 3)] /\ map snd (fst line) = [1; 3; 5].
Proof. eexists _, _, _. split; [reflexivity|]. cbn [fst snd]. repeat split. cbn [map fst snd]. unfold polyval. cbn [fold_left]. repeat f_equal; ring. Qed.
Example converter_plot_ex : exists q, converter_plot [(1, 2)] [(3, 4)] [("scale"%string, PNum 2)] = Ok q /\ q_by q = [Some (2 * 3, 2 * 4)] /\ kget "color" (q_args q) = Some (PText "red").
Proof. eexists. split; [reflexivity|]. split; reflexivity. Qed.
Definition plot_control (cams : list nat) : control := mk_control cams [] (fun _ => Ok []).
Definition plot_model : model := mk_model [4; 7]%nat [plot_control [7]%nat; plot_control [4; 9]%nat; plot_control [7; 4]%nat] [] [] [] None [].
Example cameras_plot_ex : exists h', cameras_plot (fun c o _ => Ok (ct_cams c, o)) plot_model (Some []) (inl (-2)%Z) IsWhole (fun o => [INR o]) = (h', Ok [([4; 9]%nat, 4%nat); ([7; 4]%nat, 4%nat)]).
Proof. eexists. reflexivity. Qed.
Example cameras_plot_error_ex : exists h1 e, set_cameras plot_model [] (fun o => [INR o]) = (h1, Ok tt) /\ cameras_plot (fun c _ _ => if (length (ct_cams c) =? 2)%nat then Err (A := nat) TypeError else Ok 1%nat) plot_model (Some []) (inr 4%nat) IsWhole (fun o => [INR o]) = (h1, Err e).
Proof. eexists _, _. split; reflexivity. Qed.
