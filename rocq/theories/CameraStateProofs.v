(** Proofs about the camera state machine. *)
From Verif Require Import Base BaseLemmas HelpersModel CameraModel CameraSpec.
Open Scope R_scope.

Lemma pad_length n d x : length (pad n d x) = n.
Proof. unfold pad. rewrite firstn_length, app_length, repeat_length. lia. Qed.

Lemma fmt_pad x n d : (0 < n)%Z -> fmt x n (Some d) = Ok (pad (Z.to_nat n) d x).
Proof.
  intros Hn. unfold fmt, format_list, pad. destruct (n =? 0)%Z eqn:E0; [lia|].
  destruct (n <? Z.of_nat (length x))%Z eqn:E1.
  - cbn [bind]. unfold py_upto. destruct (n <? 0)%Z eqn:E2; [lia|].
    rewrite firstn_app. replace (Z.to_nat n - length x)%nat with 0%nat by lia. cbn. rewrite app_nil_r. reflexivity.
  - destruct (Z.of_nat (length x) <? n)%Z eqn:E2; cbn [bind].
    + f_equal. rewrite firstn_app, firstn_all2 by lia. f_equal.
      replace (repeat d (Z.to_nat n)) with (repeat d (Z.to_nat (n - Z.of_nat (length x)) + length x)) by (f_equal; lia).
      rewrite repeat_app, firstn_app.
      replace (Z.to_nat n - length x)%nat with (Z.to_nat (n - Z.of_nat (length x))) by lia.
      rewrite repeat_length, Nat.sub_diag, firstn_O, app_nil_r.
      rewrite firstn_all2; [reflexivity|rewrite repeat_length; lia].
    + f_equal. rewrite firstn_app, firstn_all2 by lia.
      replace (Z.to_nat n - length x)%nat with 0%nat by lia. rewrite firstn_O, app_nil_r. reflexivity.
Qed.

Lemma fmt_pair x : fmt x 2 None = Ok (pair_of x).
Proof.
  destruct x as [|a [|b [|e x]]]; [vm_compute; reflexivity| | |].
  - reflexivity.
  - reflexivity.
  - unfold fmt, format_list. cbn [bind]. change (2 =? 0)%Z with false. cbv iota.
    destruct (2 <? Z.of_nat (length (a :: b :: e :: x)))%Z eqn:E; [|apply Z.ltb_ge in E; cbn [length] in E; lia].
    cbn [bind]. reflexivity.
Qed.

(** ** slices and splices *)
Lemma splice_length {A} i (w v : list A) : (i + length w <= length v)%nat -> length (splice i w v) = length v.
Proof. intros H. unfold splice. rewrite !app_length, firstn_length, skipn_length. lia. Qed.

Lemma slice_splice_same {A} i (w v : list A) : (i + length w <= length v)%nat -> slice i (length w) (splice i w v) = w.
Proof.
  intros H. unfold slice, splice. rewrite skipn_app, firstn_length, Nat.min_l by lia.
  rewrite Nat.sub_diag. rewrite (skipn_all2 (firstn i v)) by (rewrite firstn_length; lia).
  cbn. rewrite firstn_app, Nat.sub_diag, firstn_O, firstn_all, app_nil_r. reflexivity.
Qed.
Lemma nth_error_splice {A} i (w v : list A) j : (i + length w <= length v)%nat ->
  nth_error (splice i w v) j =
    if (j <? i)%nat then nth_error v j
    else if (j <? i + length w)%nat then nth_error w (j - i) else nth_error v j.
Proof.
  intros H. unfold splice.
  destruct (Nat.ltb_spec j i).
  - rewrite nth_error_app1 by (rewrite firstn_length; lia).
    clear H. revert j v H0. induction i; intros j v Hj; [lia|]. destruct v; [destruct j; reflexivity|].
    destruct j; [reflexivity|]. cbn. apply IHi. lia.
  - rewrite nth_error_app2 by (rewrite firstn_length; lia). rewrite firstn_length, Nat.min_l by lia.
    destruct (Nat.ltb_spec j (i + length w)).
    + rewrite nth_error_app1 by lia. reflexivity.
    + rewrite nth_error_app2 by lia.
      assert (G : forall n (l : list A) m, nth_error (skipn n l) m = nth_error l (n + m)).
      { induction n; intros l m; [reflexivity|]. destruct l; [destruct m; reflexivity|]. cbn. apply IHn. }
      rewrite G. f_equal. lia.
Qed.
Lemma nth_error_slice {A} i n (v : list A) j :
  nth_error (slice i n v) j = if (j <? n)%nat then nth_error v (i + j) else None.
Proof.
  unfold slice. revert i v j.
  assert (G : forall n (l : list A) m, nth_error (skipn n l) m = nth_error l (n + m)).
  { induction n0; intros l m; [reflexivity|]. destruct l; [destruct m; reflexivity|]. cbn. apply IHn0. }
  assert (F : forall n (l : list A) m, nth_error (firstn n l) m = if (m <? n)%nat then nth_error l m else None).
  { induction n0; intros l m; [destruct m; reflexivity|]. destruct l; [cbn [firstn]; destruct m; cbn [nth_error]; match goal with |- context [if ?b then _ else _] => destruct b end; reflexivity|].
    destruct m; [reflexivity|]. cbn [firstn nth_error]. rewrite IHn0. reflexivity. }
  intros. rewrite F, G. reflexivity.
Qed.
Lemma list_ext {A} (l m : list A) : (forall j, nth_error l j = nth_error m j) -> l = m.
Proof.
  revert m. induction l as [|a l IH]; intros [|b m] H; auto.
  - specialize (H 0%nat). discriminate.
  - specialize (H 0%nat). discriminate.
  - pose proof (H 0%nat) as H0. cbn in H0. injection H0 as <-. f_equal. apply IH. intros j. apply (H (S j)).
Qed.
Lemma slice_splice_other {A} i (w v : list A) j n : (i + length w <= length v)%nat ->
  (j + n <= i \/ i + length w <= j)%nat -> slice j n (splice i w v) = slice j n v.
Proof.
  intros H H2. apply list_ext. intros m. rewrite !nth_error_slice.
  destruct (Nat.ltb_spec m n); [|reflexivity]. rewrite nth_error_splice by auto.
  destruct (Nat.ltb_spec (j + m) i); [reflexivity|]. destruct (Nat.ltb_spec (j + m) (i + length w)); [lia|reflexivity].
Qed.

(** ** set_slice *)
Definition cgetc (q : component) (c : cam) := slice (cpos q) (clen q) (vec c).

Lemma set_slice_spec q x c c' : wf c -> set_slice (cpos q) (clen q) x c = Ok c' ->
  exists w, x = Ok w /\ length w = clen q /\ wf c' /\ orig c' = orig c /\ sensorsz c' = sensorsz c
    /\ correction c' = correction c
    /\ cgetc q c' = w /\ (forall q', q' <> q -> cgetc q' c' = cgetc q' c).
Proof.
  intros [Hv Ho] H. unfold set_slice in H. destruct x as [w|]; [|discriminate]. cbn [bind] in H.
  destruct (Nat.eqb_spec (length w) (clen q)) as [E|E]; [|discriminate]. injection H as <-.
  assert (Hb : (cpos q + length w <= length (vec c))%nat) by (rewrite E, Hv; destruct q; cbn; lia).
  exists w. cbn. repeat split; auto.
  - cbn. rewrite splice_length; auto.
  - unfold cgetc. cbn. rewrite <- E. apply slice_splice_same; auto.
  - intros q' Hq. unfold cgetc. cbn. apply slice_splice_other; auto. rewrite E.
    destruct q, q'; cbn; try lia; congruence.
Qed.

Lemma set_slice_ok q w c : length w = clen q -> exists c', set_slice (cpos q) (clen q) (Ok w) c = Ok c'.
Proof. intros H. unfold set_slice. cbn [bind]. rewrite H, Nat.eqb_refl. eauto. Qed.

Definition setc (q : component) (w : list R) (c c' : cam) : Prop :=
  wf c' /\ orig c' = orig c /\ sensorsz c' = sensorsz c /\ correction c' = correction c
  /\ cgetc q c' = w /\ (forall q', q' <> q -> cgetc q' c' = cgetc q' c).

Lemma set_slice_setc q w c : wf c -> length w = clen q ->
  exists c', set_slice (cpos q) (clen q) (Ok w) c = Ok c' /\ setc q w c c'.
Proof.
  intros Hw Hl. destruct (set_slice_ok q w c Hl) as [c' E]. exists c'. split; auto.
  destruct (set_slice_spec q _ c c' Hw E) as (w' & Ew & _ & H). injection Ew as <-. unfold setc. tauto.
Qed.

Lemma set_xyz_spec x c : wf c -> exists c', set_xyz x c = Ok c' /\ setc Xyz (pad 3 0 x) c c'.
Proof. intros H. unfold set_xyz. rewrite fmt_pad by lia. apply (set_slice_setc Xyz); auto. apply pad_length. Qed.
Lemma set_viewdir_spec x c : wf c -> exists c', set_viewdir x c = Ok c' /\ setc Viewdir (pad 3 0 x) c c'.
Proof. intros H. unfold set_viewdir. rewrite fmt_pad by lia. apply (set_slice_setc Viewdir); auto. apply pad_length. Qed.
Lemma set_c_spec x c : wf c -> exists c', set_c x c = Ok c' /\ setc Cen (pad 2 0 x) c c'.
Proof. intros H. unfold set_c. rewrite fmt_pad by lia. apply (set_slice_setc Cen); auto. apply pad_length. Qed.
Lemma set_k_spec x c : wf c -> exists c', set_k x c = Ok c' /\ setc Krad (pad 6 0 x) c c'.
Proof. intros H. unfold set_k. rewrite fmt_pad by lia. apply (set_slice_setc Krad); auto. apply pad_length. Qed.
Lemma set_p_spec x c : wf c -> exists c', set_p x c = Ok c' /\ setc Ptan (pad 2 0 x) c c'.
Proof. intros H. unfold set_p. rewrite fmt_pad by lia. apply (set_slice_setc Ptan); auto. apply pad_length. Qed.
Lemma pair_of_length x : x <> [] -> length (pair_of x) = 2%nat.
Proof. destruct x as [|a [|b x]]; auto; congruence. Qed.
Lemma set_f_spec x c : wf c -> x <> [] -> exists c', set_f x c = Ok c' /\ setc Foc (pair_of x) c c'.
Proof. intros H Hx. unfold set_f. rewrite fmt_pair. apply (set_slice_setc Foc); auto. apply pair_of_length; auto. Qed.
Lemma set_f_nil c : set_f [] c = Err ValueError.
Proof. unfold set_f. rewrite fmt_pair. reflexivity. Qed.

Lemma Rtrunc_IZR n : Rtrunc (IZR n) = n.
Proof. unfold Rtrunc. destruct (Rltb (IZR n) 0); [apply Rceil_IZR|apply Rfloor_IZR]. Qed.
Lemma Rtrunc_integral x : integral x -> IZR (Rtrunc x) = x.
Proof. intros [n ->]. rewrite Rtrunc_IZR. reflexivity. Qed.

Lemma set_imgsz_spec x c : wf c -> x <> [] -> Forall integral (pair_of x) ->
  exists c', set_imgsz x c = Ok c' /\ setc Imgsz (pair_of x) c c'.
Proof.
  intros H Hx Hi. unfold set_imgsz. rewrite fmt_pair. cbn [bind].
  assert (E : map (fun r => IZR (Rtrunc r)) (pair_of x) = pair_of x).
  { clear -Hi. induction Hi as [|r l Hr Hl IH]; cbn; auto. rewrite IH, Rtrunc_integral; auto. }
  rewrite E. replace (forallb (fun b => b) (map2 Reqb (pair_of x) (pair_of x))) with true.
  - cbn [negb]. apply (set_slice_setc Imgsz); auto. apply pair_of_length; auto.
  - symmetry. apply forallb_forall. intros b Hb.
    assert (G : forall l : list R, In b (map2 Reqb l l) -> b = true).
    { induction l; cbn; [tauto|]. intros [<-|Hin]; auto. apply Reqb_true. reflexivity. }
    apply (G _ Hb).
Qed.
Lemma set_imgsz_bad x c : ~ Forall integral (pair_of x) -> set_imgsz x c = Err ValueError.
Proof.
  intros H. unfold set_imgsz. rewrite fmt_pair. cbn [bind].
  destruct (forallb (fun b => b) (map2 Reqb (map (fun r => IZR (Rtrunc r)) (pair_of x)) (pair_of x))) eqn:E; [|reflexivity].
  exfalso. apply H. clear -E. induction (pair_of x) as [|r l IH]; constructor.
  - cbn in E. apply andb_prop in E. destruct E as [E _]. apply Reqb_true in E. exists (Rtrunc r). auto.
  - apply IH. cbn in E. apply andb_prop in E. tauto.
Qed.
Lemma set_imgsz_nil c : set_imgsz [] c = Err ValueError.
Proof. unfold set_imgsz. rewrite fmt_pair. reflexivity. Qed.
Lemma integral_dec x : {integral x} + {~ integral x}.
Proof.
  destruct (Req_EM_T x (IZR (Rtrunc x))) as [E|E]; [left; exists (Rtrunc x); auto|].
  right. intros H. apply E. symmetry. apply Rtrunc_integral; auto.
Qed.
Lemma Forall_integral_dec l : {Forall integral l} + {~ Forall integral l}.
Proof. apply Forall_dec. apply integral_dec. Qed.

(** inverse form *)
Lemma set_imgsz_inv x c c' : wf c -> set_imgsz x c = Ok c' ->
  x <> [] /\ Forall integral (pair_of x) /\ setc Imgsz (pair_of x) c c'.
Proof.
  intros Hw H. destruct x as [|a x]; [rewrite set_imgsz_nil in H; discriminate|].
  destruct (Forall_integral_dec (pair_of (a :: x))) as [F|F]; [|rewrite set_imgsz_bad in H by auto; discriminate].
  destruct (set_imgsz_spec (a :: x) c Hw ltac:(congruence) F) as (c2 & E & S). rewrite E in H. injection H as <-.
  repeat split; auto; try congruence; apply S.
Qed.
Lemma set_f_inv x c c' : wf c -> set_f x c = Ok c' -> x <> [] /\ setc Foc (pair_of x) c c'.
Proof.
  intros Hw H. destruct x as [|a x]; [rewrite set_f_nil in H; discriminate|].
  destruct (set_f_spec (a :: x) c Hw ltac:(congruence)) as (c2 & E & S). rewrite E in H. injection H as <-.
  split; [congruence|auto].
Qed.
Lemma use_spec {P : cam -> Prop} (r : result cam) c' : (exists c2, r = Ok c2 /\ P c2) -> r = Ok c' -> P c'.
Proof. intros (c2 & E & H) E2. rewrite E in E2. injection E2 as <-. exact H. Qed.

Lemma setc_trans_frame q1 q2 w1 w2 c c1 c2 : setc q1 w1 c c1 -> setc q2 w2 c1 c2 ->
  forall q', q' <> q1 -> q' <> q2 -> cgetc q' c2 = cgetc q' c.
Proof. intros (_ & _ & _ & _ & _ & F1) (_ & _ & _ & _ & _ & F2) q' N1 N2. rewrite F2, F1; auto. Qed.

Lemma cget_cgetc q c : cget q (vec c) = cgetc q c.
Proof. reflexivity. Qed.

Definition frame (l : list component) (c c' : cam) : Prop :=
  wf c' /\ orig c' = orig c /\ correction c' = correction c /\ forall q, ~ In q l -> cgetc q c' = cgetc q c.

Lemma setc_frame q w c c' : setc q w c c' -> frame [q] c c'.
Proof.
  intros (H1 & H2 & H3 & H4 & H5 & H6). repeat split; auto; try apply H1.
  intros q' Hq. apply H6. intros ->. apply Hq. left; auto.
Qed.
Lemma frame_trans l1 l2 c c1 c2 : frame l1 c c1 -> frame l2 c1 c2 -> frame (l1 ++ l2) c c2.
Proof.
  intros (H1 & H2 & H3 & H4) (K1 & K2 & K3 & K4). split; auto. split; [congruence|]. split; [congruence|].
  intros q Hq. rewrite K4, H4; auto; intros Hin; apply Hq; apply in_or_app; auto.
Qed.
Lemma frame_incl l l' c c' : frame l c c' -> (forall q, In q l -> In q l') -> frame l' c c'.
Proof. intros (H1 & H2 & H3 & H4) Hi. repeat split; auto; try apply H1. Qed.

Lemma zip_op_length f a b r : zip_op f a b = Ok r -> length a = length b /\ r = map2 f a b.
Proof. unfold zip_op. destruct (Nat.eqb_spec (length a) (length b)); [|discriminate]. intros H. injection H as <-. auto. Qed.

Lemma resize_inv s f d c c' : wf c -> resize s f d c = Ok c' ->
  exists new c1 c2 fs cs,
    resize_target s f d c = Ok new /\ length new = 2%nat /\
    (forall z, In z (get_imgsz c) -> z <> 0%Z) /\
    setc Imgsz (map (fun r => IZR (Rround r)) new) c c1 /\
    fs = map2 Rmult (get_f c) (map2 Rdiv new (imgszR c)) /\ setc Foc fs c1 c2 /\
    cs = map2 Rmult (get_c c) (map2 Rdiv new (imgszR c)) /\ setc Cen cs c2 c'.
Proof.
  intros Hw H. unfold resize in H.
  destruct (resize_target s f d c) as [new|] eqn:Et; [|discriminate]. cbn [bind] in H.
  destruct (existsb (fun z => (z =? 0)%Z) (get_imgsz c)) eqn:Ez; [discriminate|].
  destruct (zip_op Rdiv new (imgszR c)) as [sc|] eqn:Es; [|discriminate]. cbn [bind] in H.
  apply zip_op_length in Es. destruct Es as [Ln ->].
  assert (Li : length (imgszR c) = 2%nat).
  { unfold imgszR, get_imgsz, slice. rewrite !map_length, firstn_length, skipn_length. destruct Hw. lia. }
  rewrite Li in Ln.
  assert (Hp : pair_of (map (fun r => IZR (Rround r)) new) = map (fun r => IZR (Rround r)) new).
  { destruct new as [|a [|b [|e n]]]; cbn in Ln; try lia; reflexivity. }
  assert (Hne : map (fun r => IZR (Rround r)) new <> []) by (destruct new; cbn in *; [lia|congruence]).
  destruct (set_imgsz_spec (map (fun r => IZR (Rround r)) new) c Hw Hne) as (c1 & E1 & S1).
  { rewrite Hp. apply Forall_forall. intros x Hx. apply in_map_iff in Hx. destruct Hx as (y & <- & _). eexists; reflexivity. }
  rewrite E1 in H. cbn [bind] in H. rewrite Hp in S1.
  assert (W1 : wf c1) by apply S1.
  assert (Ef : get_f c1 = get_f c) by (destruct S1 as (_&_&_&_&_&F1); apply (F1 Foc); congruence).
  rewrite Ef in H.
  assert (Lf : length (get_f c) = 2%nat).
  { unfold get_f, slice. rewrite firstn_length, skipn_length. destruct Hw. lia. }
  assert (Lc : length (get_c c) = 2%nat).
  { unfold get_c, slice. rewrite firstn_length, skipn_length. destruct Hw. lia. }
  assert (Lsc : length (map2 Rdiv new (imgszR c)) = 2%nat) by (rewrite map2_length; lia).
  unfold zip_op at 1 in H. rewrite Lf, Lsc in H. cbn [Nat.eqb bind] in H.
  set (fs := map2 Rmult (get_f c) (map2 Rdiv new (imgszR c))) in *.
  assert (Lfs : length fs = 2%nat) by (unfold fs; rewrite map2_length; lia).
  destruct (set_f fs c1) as [c2|] eqn:E2; [|discriminate]. cbn [bind] in H.
  apply set_f_inv in E2; auto. destruct E2 as [Hfs S2].
  assert (Hpf : pair_of fs = fs) by (destruct fs as [|a [|b [|e n]]]; cbn in Lfs; try lia; reflexivity).
  rewrite Hpf in S2.
  assert (Ec : get_c c2 = get_c c).
  { change (cgetc Cen c2 = cgetc Cen c). destruct S2 as (_&_&_&_&_&F2). rewrite F2 by congruence.
    destruct S1 as (_&_&_&_&_&F1). apply F1. congruence. }
  rewrite Ec in H. unfold zip_op in H. rewrite Lc, Lsc in H. cbn [Nat.eqb bind] in H.
  set (cs := map2 Rmult (get_c c) (map2 Rdiv new (imgszR c))) in *.
  assert (Lcs : length cs = 2%nat) by (unfold cs; rewrite map2_length; lia).
  pose proof (use_spec _ _ (set_c_spec cs c2 ltac:(apply S2)) H) as S3.
  assert (Hpc : pad 2 0 cs = cs) by (destruct cs as [|a [|b [|e n]]]; cbn in Lcs; try lia; reflexivity).
  rewrite Hpc in S3.
  exists new, c1, c2, fs, cs. split; [reflexivity|]. split; auto. split; [|auto 10].
  intros z Hz ->. assert (existsb (fun z => (z =? 0)%Z) (get_imgsz c) = true) by (apply existsb_exists; exists 0%Z; auto).
  congruence.
Qed.

Lemma set_nth_slice i j n v l : (i < j \/ j + n <= i)%nat -> slice j n (set_nth i v l) = @slice R j n l.
Proof.
  intros H. apply list_ext. intros m. rewrite !nth_error_slice. destruct (Nat.ltb_spec m n); [|reflexivity].
  apply nth_error_set_nth_neq. lia.
Qed.

Theorem cam_step_frame o c c' : wf c -> cam_step o c = Ok c' ->
  wf c' /\ orig c' = orig c /\ correction c' = correction c /\
  forall q, ~ In q (touches o) -> cget q (vec c') = cget q (vec c).
Proof.
  intros Hw H. change (frame (touches o) c c'). destruct o; cbn [cam_step touches] in *.
  - apply (use_spec _ _ (set_xyz_spec x c Hw)) in H. eapply setc_frame; eauto.
  - apply (use_spec _ _ (set_viewdir_spec x c Hw)) in H. eapply setc_frame; eauto.
  - apply set_imgsz_inv in H; auto. eapply setc_frame; apply H.
  - apply set_f_inv in H; auto. eapply setc_frame; apply H.
  - apply (use_spec _ _ (set_c_spec x c Hw)) in H. eapply setc_frame; eauto.
  - apply (use_spec _ _ (set_k_spec x c Hw)) in H. eapply setc_frame; eauto.
  - apply (use_spec _ _ (set_p_spec x c Hw)) in H. eapply setc_frame; eauto.
  - destruct x as [l|]; cbn in H.
    + rewrite fmt_pair in H. cbn [bind] in H. injection H as <-. repeat split; apply Hw.
    + injection H as <-. repeat split; apply Hw.
  - unfold set_fmm in H. destruct (mm_to_px x None c) as [w|]; [|discriminate]. cbn [bind] in H.
    apply set_f_inv in H; auto. eapply setc_frame; apply H.
  - unfold set_cmm in H. destruct (mm_to_px x (Some 0) c) as [w|]; [|discriminate]. cbn [bind] in H.
    apply (use_spec _ _ (set_c_spec w c Hw)) in H. eapply setc_frame; eauto.
  - destruct ((i <? 20) && negb (i =? 6) && negb (i =? 7))%nat eqn:E.
    + injection H as <-. split; [split; cbn; [rewrite set_nth_length|]; apply Hw|]. cbn [vec orig correction sensorsz]. split; [reflexivity|]. split; [reflexivity|].
      intros q Hq. unfold cgetc. cbn [vec]. apply set_nth_slice.
      apply andb_prop in E. destruct E as [E E7]. apply andb_prop in E. destruct E as [E20 E6].
      apply Nat.ltb_lt in E20. apply negb_true_iff in E6, E7. apply Nat.eqb_neq in E6, E7.
      destruct (Nat.ltb_spec i 3), (Nat.ltb_spec i 6), (Nat.ltb_spec i 8), (Nat.ltb_spec i 10),
        (Nat.ltb_spec i 12), (Nat.ltb_spec i 18), (Nat.ltb_spec i 20); try lia;
        destruct q; cbn [cpos clen In] in *; try lia; exfalso; tauto.
    + injection H as <-. repeat split; auto; apply Hw.
  - unfold idealize in H.
    destruct (set_k_spec (repeat 0 6) c Hw) as (c1 & E1 & S1). rewrite E1 in H. cbn [bind] in H.
    destruct (set_p_spec (repeat 0 2) c1 ltac:(apply S1)) as (c2 & E2 & S2). rewrite E2 in H. cbn [bind] in H.
    apply (use_spec _ _ (set_c_spec (repeat 0 2) c2 ltac:(apply S2))) in H.
    eapply frame_incl; [eapply frame_trans; [eapply setc_frame; exact S1|eapply frame_trans;
      [eapply setc_frame; exact S2|eapply setc_frame; exact H]]|].
    cbn. tauto.
  - apply resize_inv in H; auto. destruct H as (new & c1 & c2 & fs & cs & _ & _ & _ & S1 & _ & S2 & _ & S3).
    eapply frame_incl; [eapply frame_trans; [eapply setc_frame; exact S1|eapply frame_trans;
      [eapply setc_frame; exact S2|eapply setc_frame; exact S3]]|].
    cbn. tauto.
  - injection H as <-. unfold reset. split; [split; apply Hw|]. cbn. repeat split; auto.
    intros q Hq. exfalso. apply Hq. destruct q; cbn; tauto.
Qed.

Lemma cam_run_inv ops : forall c, wf c -> wf (cam_run ops c) /\ orig (cam_run ops c) = orig c /\ correction (cam_run ops c) = correction c.
Proof.
  induction ops as [|o ops IH]; intros c Hw; cbn; [auto|].
  fold (cam_run ops (cam_do c o)). unfold cam_do. destruct (cam_step o c) as [c1|] eqn:E.
  - destruct (cam_step_frame o c c1 Hw E) as (W & O & C & _). destruct (IH c1 W) as (A1 & A2 & A3).
    split; auto. split; congruence.
  - apply IH; auto.
Qed.

Theorem reset_restores c ops : wf c -> vec (reset (cam_run ops c)) = orig c.
Proof. intros H. cbn. apply cam_run_inv; auto. Qed.

Lemma pair_of_2 w : length w = 2%nat -> pair_of w = w.
Proof. intros H. destruct w as [|x [|y [|z w]]]; cbn in H; try lia. reflexivity. Qed.
Lemma pad_2 d w : length w = 2%nat -> pad 2 d w = w.
Proof. intros H. destruct w as [|x [|y [|z w]]]; cbn in H; try lia. reflexivity. Qed.

(** ** Constructor *)
Definition nonempty (x : option (list R)) : Prop := x <> Some [].

Definition rejected (a : cam_args) : Prop :=
  ((a_fmm a <> None \/ a_cmm a <> None) /\ a_sensorsz a = None)
  \/ (a_f a <> None /\ a_fmm a <> None)
  \/ (a_c a <> None /\ a_cmm a <> None)
  \/ (a_f a = None /\ a_fmm a = None)
  \/ ~ Forall integral (pair_of (a_imgsz a)).

Lemma imgszR_of c w : cgetc Imgsz c = w -> Forall integral w -> imgszR c = w.
Proof.
  intros E F. unfold imgszR, get_imgsz. change (slice 6 2 (vec c)) with (cgetc Imgsz c). rewrite E.
  rewrite map_map. clear E. induction F; cbn; auto. rewrite Rtrunc_integral, IHF; auto.
Qed.

Lemma mm_to_px_ok x d c s w : sensorsz c = Some s -> length s = 2%nat -> fmt x 2 d = Ok w -> length w = 2%nat ->
  length (imgszR c) = 2%nat ->
  mm_to_px x d c = Ok (map2 Rdiv (map2 Rmult w (imgszR c)) s).
Proof.
  intros Hs Ls Hf Lw Li. unfold mm_to_px. rewrite Hs, Hf. cbn [bind]. unfold zip_op.
  rewrite Lw, Li, Nat.eqb_refl. cbn [bind]. rewrite map2_length, Lw, Li, Ls. reflexivity.
Qed.

Theorem construct_spec a :
  a_imgsz a <> [] -> nonempty (a_f a) -> nonempty (a_fmm a) -> nonempty (a_cmm a) -> nonempty (a_sensorsz a) ->
  (rejected a -> construct a = Err ValueError) /\
  (~ rejected a -> exists c, construct a = Ok c /\ wf c /\ orig c = vec c
     /\ correction c = a_correction a /\ sensorsz c = option_map pair_of (a_sensorsz a)
     /\ cget Xyz (vec c) = pad 3 0 (a_xyz a) /\ cget Viewdir (vec c) = pad 3 0 (a_viewdir a)
     /\ cget Imgsz (vec c) = pair_of (a_imgsz a) /\ get_imgsz c = map Rtrunc (pair_of (a_imgsz a))
     /\ cget Krad (vec c) = pad 6 0 (a_k a) /\ cget Ptan (vec c) = pad 2 0 (a_p a)
     /\ (forall f, a_f a = Some f -> cget Foc (vec c) = pair_of f)
     /\ (forall x, a_c a = Some x -> cget Cen (vec c) = pad 2 0 x)
     /\ (a_c a = None -> a_cmm a = None -> cget Cen (vec c) = [0; 0])
     /\ (forall m s, a_fmm a = Some m -> a_sensorsz a = Some s ->
           cget Foc (vec c) = map2 Rdiv (map2 Rmult (pair_of m) (pair_of (a_imgsz a))) (pair_of s))
     /\ (forall m s, a_cmm a = Some m -> a_sensorsz a = Some s ->
           cget Cen (vec c) = map2 Rdiv (map2 Rmult (pair_of m) (pair_of (a_imgsz a))) (pair_of s))).
Proof.
  intros Hi Hf Hfm Hcm Hs.
  set (c0 := mkcam (repeat 0 20) (repeat 0 20) None (a_correction a)).
  assert (W0 : wf c0) by (split; reflexivity).
  assert (Hcon : construct a =
    if ((given (a_fmm a) || given (a_cmm a)) && negb (given (a_sensorsz a)))%bool then Err ValueError else
    if (given (a_f a) && given (a_fmm a))%bool then Err ValueError else
    if (given (a_c a) && given (a_cmm a))%bool then Err ValueError else
    (let* c := set_xyz (a_xyz a) c0 in
  let* c := set_viewdir (a_viewdir a) c in
  let* c := set_imgsz (a_imgsz a) c in
  let* c := set_sensorsz (a_sensorsz a) c in
  let* f := match a_fmm a with
            | Some m => let* v := mm_to_px m None c in Ok (Some v)
            | None => Ok (a_f a)
            end in
  match f with
  | None => Err ValueError
  | Some f =>
    let* c := set_f f c in
    let* cc := match a_cmm a with
               | Some m => mm_to_px m None c
               | None => Ok (match a_c a with Some x => x | None => [0; 0] end)
               end in
    let* c := set_c cc c in
    let* c := set_k (a_k a) c in
    let* c := set_p (a_p a) c in
    Ok (mkcam (vec c) (vec c) (sensorsz c) (correction c))
  end)) by reflexivity.
  rewrite Hcon. clear Hcon.
  destruct (set_xyz_spec (a_xyz a) c0 W0) as (c1 & -> & S1). cbn [bind].
  destruct (set_viewdir_spec (a_viewdir a) c1 ltac:(apply S1)) as (c2 & -> & S2). cbn [bind].
  split.
  - intros Hr. unfold rejected in Hr.
    destruct ((given (a_fmm a) || given (a_cmm a)) && negb (given (a_sensorsz a)))%bool eqn:E1; [reflexivity|].
    destruct (given (a_f a) && given (a_fmm a))%bool eqn:E2; [reflexivity|].
    destruct (given (a_c a) && given (a_cmm a))%bool eqn:E3; [reflexivity|].
    destruct (Forall_integral_dec (pair_of (a_imgsz a))) as [F|F]; [|rewrite set_imgsz_bad by auto; reflexivity].
    assert (Hnf : a_f a = None /\ a_fmm a = None).
    { destruct Hr as [[H1 H2]|[[H1 H2]|[[H1 H2]|[H1|H1]]]]; auto; [| | |contradiction];
        destruct (a_fmm a), (a_cmm a), (a_sensorsz a), (a_f a), (a_c a); cbn in *; try discriminate; try tauto; exfalso; intuition congruence. }
    destruct Hnf as [-> ->].
    destruct (set_imgsz_spec (a_imgsz a) c2 ltac:(apply S2) Hi F) as (c3 & -> & S3). cbn [bind].
    destruct (set_sensorsz (a_sensorsz a) c3) as [c4|e] eqn:E4; [reflexivity|].
    destruct (a_sensorsz a); cbn in E4; [rewrite fmt_pair in E4|]; discriminate.
  - intros Hr. unfold rejected in Hr.
    destruct ((given (a_fmm a) || given (a_cmm a)) && negb (given (a_sensorsz a)))%bool eqn:E1.
    { exfalso. apply Hr. left. destruct (a_fmm a), (a_cmm a), (a_sensorsz a); cbn in *; try discriminate; split; auto; left + right; congruence. }
    destruct (given (a_f a) && given (a_fmm a))%bool eqn:E2.
    { exfalso. apply Hr. right; left. destruct (a_fmm a), (a_f a); cbn in *; try discriminate; split; congruence. }
    destruct (given (a_c a) && given (a_cmm a))%bool eqn:E3.
    { exfalso. apply Hr. right; right; left. destruct (a_cmm a), (a_c a); cbn in *; try discriminate; split; congruence. }
    destruct (Forall_integral_dec (pair_of (a_imgsz a))) as [F|F]; [|exfalso; tauto].
    destruct (set_imgsz_spec (a_imgsz a) c2 ltac:(apply S2) Hi F) as (c3 & -> & S3). cbn [bind].
    assert (E4 : set_sensorsz (a_sensorsz a) c3 = Ok (mkcam (vec c3) (orig c3) (option_map pair_of (a_sensorsz a)) (correction c3))).
    { destruct (a_sensorsz a); cbn; [rewrite fmt_pair|]; reflexivity. }
    rewrite E4. cbn [bind]. set (c4 := mkcam _ _ _ _).
    assert (W4 : wf c4) by (destruct S3 as [W _]; split; apply W).
    assert (I4 : imgszR c4 = pair_of (a_imgsz a)) by (apply imgszR_of; auto; apply S3).
    (* f *)
    assert (Hf5 : exists fv, (match a_fmm a with
            | Some m => let* v := mm_to_px m None c4 in Ok (Some v)
            | None => Ok (a_f a) end) = Ok (Some fv) /\ fv <> [] /\
            (forall f, a_f a = Some f -> pair_of fv = pair_of f) /\
            (forall m s, a_fmm a = Some m -> a_sensorsz a = Some s ->
              pair_of fv = map2 Rdiv (map2 Rmult (pair_of m) (pair_of (a_imgsz a))) (pair_of s))).
    { destruct (a_fmm a) as [m|] eqn:Em.
      - destruct (a_sensorsz a) as [s|] eqn:Es; [|discriminate].
        destruct (a_f a); [discriminate|].
        assert (Hm : m <> []) by (intros ->; apply Hfm; auto).
        assert (Hss : s <> []) by (intros ->; apply Hs; auto).
        rewrite (mm_to_px_ok m None c4 (pair_of s) (pair_of m)); auto using pair_of_length, fmt_pair;
          [|rewrite I4; apply pair_of_length; auto].
        cbn [bind]. eexists; split; [reflexivity|]. rewrite I4.
        set (w := map2 Rdiv _ _). assert (Lw : length w = 2%nat)
          by (unfold w; rewrite !map2_length, !pair_of_length; auto).
        split; [destruct w; cbn in Lw; [lia|congruence]|]. split; [congruence|].
        intros m0 s0 Hm0 Hs0. injection Hm0 as <-. injection Hs0 as <-.
        rewrite pair_of_2 by exact Lw. reflexivity.
      - destruct (a_f a) as [f|] eqn:Ef.
        + exists f. repeat split; auto; try congruence. 
        + exfalso. apply Hr. right; right; right; left; auto. }
    destruct Hf5 as (fv & -> & Hfv & Hf5a & Hf5b). cbn [bind].
    destruct (set_f_spec fv c4 W4 Hfv) as (c5 & -> & S5). cbn [bind].
    assert (I5 : imgszR c5 = pair_of (a_imgsz a)).
    { apply imgszR_of; auto. destruct S5 as (_&_&_&_&_&F5). rewrite F5 by congruence. apply S3. }
    assert (Hc6 : exists cv, (match a_cmm a with
               | Some m => mm_to_px m None c5
               | None => Ok (match a_c a with Some x => x | None => [0; 0] end) end) = Ok cv /\
            (forall x, a_c a = Some x -> cv = x) /\
            (a_c a = None -> a_cmm a = None -> cv = [0; 0]) /\
            (forall m s, a_cmm a = Some m -> a_sensorsz a = Some s ->
              pad 2 0 cv = map2 Rdiv (map2 Rmult (pair_of m) (pair_of (a_imgsz a))) (pair_of s))).
    { destruct (a_cmm a) as [m|] eqn:Em.
      - destruct (a_sensorsz a) as [s|] eqn:Es; [|rewrite orb_true_r in E1; discriminate].
        destruct (a_c a); [discriminate|].
        assert (Hm : m <> []) by (intros ->; apply Hcm; auto).
        assert (Hss : s <> []) by (intros ->; apply Hs; auto).
        assert (Sc5 : sensorsz c5 = Some (pair_of s)) by (destruct S5 as (_&_&E5&_); rewrite E5; reflexivity).
        rewrite (mm_to_px_ok m None c5 (pair_of s) (pair_of m)); auto using pair_of_length, fmt_pair;
          [|rewrite I5; apply pair_of_length; auto].
        eexists; split; [reflexivity|]. rewrite I5.
        set (w := map2 Rdiv _ _). assert (Lw : length w = 2%nat)
          by (unfold w; rewrite !map2_length, !pair_of_length; auto).
        split; [congruence|]. split; [congruence|].
        intros m0 s0 Hm0 Hs0. injection Hm0 as <-. injection Hs0 as <-.
        rewrite pad_2 by exact Lw. reflexivity.
      - exists (match a_c a with Some x => x | None => [0; 0] end). split; [reflexivity|].
        split; [intros x ->; reflexivity|]. split; [intros -> _; reflexivity|congruence]. }
    destruct Hc6 as (cv & -> & Hc6a & Hc6b & Hc6c). cbn [bind].
    destruct (set_c_spec cv c5 ltac:(apply S5)) as (c6 & -> & S6). cbn [bind].
    destruct (set_k_spec (a_k a) c6 ltac:(apply S6)) as (c7 & -> & S7). cbn [bind].
    destruct (set_p_spec (a_p a) c7 ltac:(apply S7)) as (c8 & -> & S8). cbn [bind].
    eexists; split; [reflexivity|]. cbn [vec orig sensorsz correction].
    destruct S1 as (V1&O1&Z1&K1&G1&F1), S2 as (V2&O2&Z2&K2&G2&F2), S3 as (V3&O3&Z3&K3&G3&F3),
      S5 as (V5&O5&Z5&K5&G5&F5), S6 as (V6&O6&Z6&K6&G6&F6), S7 as (V7&O7&Z7&K7&G7&F7), S8 as (V8&O8&Z8&K8&G8&F8).
    assert (FF : forall q, q <> Foc -> cgetc q c5 = cgetc q c3) by (intros q Hq; rewrite F5 by auto; reflexivity).
    split; [split; apply V8|]. split; [reflexivity|].
    split; [rewrite K8, K7, K6, K5; cbn; rewrite K3, K2, K1; reflexivity|].
    split; [rewrite Z8, Z7, Z6, Z5; reflexivity|].
    rewrite !cget_cgetc.
    assert (GI : cgetc Imgsz c8 = pair_of (a_imgsz a))
      by (rewrite F8, F7, F6, FF by congruence; apply G3).
    split; [rewrite F8, F7, F6, FF, F3, F2 by congruence; apply G1|].
    split; [rewrite F8, F7, F6, FF, F3 by congruence; apply G2|].
    split; [exact GI|].
    split; [unfold get_imgsz; cbn [vec]; change (slice 6 2 (vec c8)) with (cgetc Imgsz c8); rewrite GI; reflexivity|].
    split; [rewrite F8 by congruence; apply G7|].
    split; [apply G8|].
    assert (GF : cgetc Foc c8 = pair_of fv) by (rewrite F8, F7, F6 by congruence; apply G5).
    assert (GC : cgetc Cen c8 = pad 2 0 cv) by (rewrite F8, F7 by congruence; apply G6).
    split; [intros f Ef; rewrite GF; auto|].
    split; [intros x Ex; rewrite GC, (Hc6a x Ex); reflexivity|].
    split; [intros A1 A2; rewrite GC, (Hc6b A1 A2); reflexivity|].
    split; [intros m s A1 A2; rewrite GF; auto|].
    intros m s A1 A2; rewrite GC; auto.
Qed.
