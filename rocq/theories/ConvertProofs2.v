(** Proofs: what optimize_cam and optimize_xcam change. *)
From Verif Require Import Base BaseLemmas HelpersModel XReal CameraModel CameraSpec RasterProofs ParamsModel ParamsSpec ParamsProofs ParamsProofs2 ParamsProofs3 ConvertModel ConvertProofs.
Open Scope R_scope.

Lemma flat_map_ext_in' {A B} (f g : A -> list B) l : (forall x, In x l -> f x = g x) -> flat_map f l = flat_map g l.
Proof. induction l as [|a l IH]; intros HH; [reflexivity|]. cbn. rewrite (HH a) by now left. rewrite IH by (intros; apply HH; now right). reflexivity. Qed.

Section Xcam.
Variables (X K : Type) (getx : K -> X -> list R) (setx : K -> list R -> X -> X).
Hypothesis key_dec : forall a b : K, {a = b} + {a <> b}.
Hypothesis get_set : forall k v x, length v = length (getx k x) -> getx k (setx k v x) = v.
Hypothesis get_other : forall k k' v x, k <> k' -> getx k' (setx k v x) = getx k' x.

(** Documented selections for attribute [k]: everything, nothing, or some distinct elements. *)
Definition good_sel (x : X) (k : K) (s : sel) : Prop :=
  match s with
  | STrue | SFalse | SNone => True
  | SList l => NoDup l /\ Forall (fun i => (0 <= i < Z.of_nat (length (getx k x)))%Z) l
  | SInt _ => False
  end.
Definition sel_entry (s : sel) (i : nat) : Prop := match s with STrue => True | SList l => In (Z.of_nat i) l | _ => False end.
Definition selected (params : list (K * sel)) (k : K) (i : nat) : Prop := exists s, In (k, s) params /\ sel_entry s i.

Lemma mapM_get_ok (v : list R) l : Forall (fun i => (0 <= i < Z.of_nat (length v))%Z) l ->
  mapM (py_get v) l = Ok (map (fun i => nth (Z.to_nat i) v 0) l).
Proof.
  intros F. apply mapM_all_ok. intros i Hi. rewrite Forall_forall in F. specialize (F i Hi). unfold py_get. rewrite py_index_in by assumption. cbn [bind].
  rewrite (nth_error_nth' v 0) by lia. reflexivity.
Qed.
Definition sel_positions (n : nat) (s : sel) : list Z :=
  match s with STrue => Zrange (Z.of_nat n) | SInt i => [i] | SList l => l | _ => [] end.
Definition pick (v : list R) (s : sel) : list R := map (fun i => nth (Z.to_nat i) v 0) (sel_positions (length v) s).
Lemma map_Zrange_id (v : list R) : map (fun i => nth (Z.to_nat i) v 0) (Zrange (Z.of_nat (length v))) = v.
Proof.
  unfold Zrange. rewrite Nat2Z.id, map_map. rewrite (map_ext _ (fun i => nth i v 0)) by (intros; now rewrite Nat2Z.id).
  induction v as [|a v IH]; [reflexivity|]. cbn [length seq map nth]. f_equal. rewrite <- seq_shift, map_map. exact IH.
Qed.
Lemma extend_pick x k s : good_sel x k s -> extend_values (getx k x) s = Ok (pick (getx k x) s).
Proof.
  destruct s as [| | | |l]; cbn [good_sel extend_values]; intros G; [|reflexivity|reflexivity|destruct G|].
  - f_equal. unfold pick. cbn [sel_positions]. now rewrite map_Zrange_id.
  - destruct G as [_ F]. rewrite mapM_get_ok by assumption. reflexivity.
Qed.
Lemma good_positions x k s : good_sel x k s -> NoDup (sel_positions (length (getx k x)) s) /\ Forall (fun i => (0 <= i < Z.of_nat (length (getx k x)))%Z) (sel_positions (length (getx k x)) s).
Proof.
  destruct s as [| | | |l]; cbn [good_sel sel_positions]; intros G; [|split; constructor|split; constructor|destruct G|exact G].
  split; [|apply Forall_forall; intros i Hi; now apply in_Zrange in Hi]. unfold Zrange. apply FinFun.Injective_map_NoDup; [intros a b E; lia|apply seq_NoDup].
Qed.
Lemma pick_length v s : length (pick v s) = length (sel_positions (length v) s).
Proof. unfold pick. now rewrite map_length. Qed.

(** one attribute *)
Lemma put_one x k s w : good_sel x k s -> length w = length (sel_positions (length (getx k x)) s) ->
  exists v', put_at (sel_positions (length (getx k x)) s) w (getx k x) = Ok v' /\ length v' = length (getx k x) /\ pick v' s = w /\
  forall i, ~ sel_entry s i -> nth i v' 0 = nth i (getx k x) 0.
Proof.
  intros G L. destruct (good_positions x k s G) as [N F]. destruct (put_at_spec _ w (getx k x) N F L) as (v' & E & Lv & V1 & V2). exists v'. split; [exact E|]. split; [exact Lv|]. split.
  - unfold pick. rewrite Lv. apply nth_ext with (d := 0) (d' := 0); [now rewrite map_length|]. intros n Hn. rewrite map_length in Hn.
    rewrite (nth_map_d _ _ n 0%Z 0 Hn). now rewrite (V1 n (nth n (sel_positions (length (getx k x)) s) 0%Z) 0) by now apply nth_error_nth'.
  - intros i Hi. destruct (in_dec Z.eq_dec (Z.of_nat i) (sel_positions (length (getx k x)) s)) as [I|NI].
    + destruct s as [| | | |l]; cbn in Hi, I; try tauto; try (now destruct G).
    + rewrite <- (Nat2Z.id i). apply V2; [lia|exact NI].
Qed.

Lemma apply_spec indices : forall x w, NoDup (map fst indices) -> (forall k s, In (k, s) indices -> good_sel x k s) ->
  length w = length (flat_map (fun ks => pick (getx (fst ks) x) (snd ks)) indices) ->
  exists x', apply_values getx setx indices w x = Ok x' /\ flat_map (fun ks => pick (getx (fst ks) x') (snd ks)) indices = w /\
  (forall k, length (getx k x') = length (getx k x)) /\ (forall k i, ~ selected indices k i -> nth i (getx k x') 0 = nth i (getx k x) 0).
Proof.
  induction indices as [|[k s] r IH]; intros x w N G L.
  - exists x. cbn in L |- *. destruct w; [|discriminate L]. repeat split.
  - inversion N as [|? ? NI N']; subst. cbn [flat_map fst snd] in L. rewrite app_length, pick_length in L.
    set (ps := sel_positions (length (getx k x)) s) in *.
    destruct (put_one x k s (firstn (length ps) w)) as (v' & E & Lv & Pk & Un); [apply G; now left|fold ps; rewrite firstn_length; lia|].
    cbn [apply_values]. fold ps in E. change (match s with STrue => Zrange (Z.of_nat (length (getx k x))) | SInt i => [i] | SList l => l | _ => [] end) with ps. rewrite E. cbn [bind].
    assert (Oth : forall k' s', In (k', s') r -> k' <> k) by (intros k' s' I ->; apply NI; apply in_map_iff; now exists (k, s')).
    assert (Sm : flat_map (fun ks => pick (getx (fst ks) (setx k v' x)) (snd ks)) r = flat_map (fun ks => pick (getx (fst ks) x) (snd ks)) r).
    { apply flat_map_ext_in'. intros [k' s'] I. cbn. rewrite get_other; [reflexivity|]. intros ->. now apply (Oth k' s'). }
    destruct (IH (setx k v' x) (skipn (length ps) w) N') as (x' & E' & Pk' & Len & Un').
    + intros k' s' I. specialize (G k' s' (or_intror I)). destruct s'; cbn in G |- *; auto. rewrite get_other; [exact G|]. intros ->. now apply (Oth k' (SList l)).
    + rewrite Sm, skipn_length. lia.
    + exists x'. split; [exact E'|]. assert (Lk : forall k', length (getx k' (setx k v' x)) = length (getx k' x)).
      { intros k'. destruct (key_dec k k') as [<-|NE]; [now rewrite get_set|now rewrite get_other]. }
      assert (Kk : forall i, nth i (getx k x') 0 = nth i v' 0).
      { intros i. rewrite Un'; [now rewrite get_set|]. intros (s' & I & _). now apply (Oth k s'). }
      split; [|split].
      * cbn [flat_map fst snd]. rewrite Pk'. rewrite <- (firstn_skipn (length ps) w) at 2. f_equal. rewrite <- Pk.
        assert (Ev : getx k x' = v'). { apply nth_ext with (d := 0) (d' := 0); [rewrite Len, Lk; auto|]. intros; apply Kk. }
        now rewrite Ev.
      * intros k'. now rewrite Len, Lk.
      * intros k' i NS. destruct (key_dec k k') as [<-|NE].
        -- rewrite Kk. apply Un. intros Se. apply NS. exists s. split; [now left|assumption].
        -- rewrite Un'; [now rewrite get_other|]. intros (s' & I & Se). apply NS. exists s'. split; [now right|assumption].
Qed.

Lemma start_spec indices x : (forall k s, In (k, s) indices -> good_sel x k s) -> start_values getx indices x = Ok (flat_map (fun ks => pick (getx (fst ks) x) (snd ks)) indices).
Proof.
  induction indices as [|[k s] r IH]; intros G; [reflexivity|]. cbn [start_values flat_map fst snd]. rewrite extend_pick by (apply G; now left). cbn [bind].
  rewrite IH by (intros; apply G; now right). reflexivity.
Qed.
Lemma good_len x x' k s : length (getx k x') = length (getx k x) -> good_sel x k s -> good_sel x' k s.
Proof. intros E. destruct s; cbn; auto. now rewrite E. Qed.

Theorem optimize_xcam_spec resid params solve x : NoDup (map fst params) -> (forall k s, In (k, s) params -> good_sel x k s) ->
  (forall f x0, length (solve f x0) = length x0) ->
  let indices := filter (fun ks => truthy (snd ks)) params in
  exists x0 x' f, start_values getx indices x = Ok x0 /\ optimize_xcam getx setx resid params solve x = Ok (x', Some x0) /\ start_values getx indices x' = Ok (solve f x0) /\ (forall w, length w = length x0 -> exists y, start_values getx indices y = Ok w /\ f w = resid y /\ forall k i, ~ selected params k i -> nth i (getx k y) 0 = nth i (getx k x) 0) /\ (forall k, length (getx k x') = length (getx k x)) /\ (forall k i, ~ selected params k i -> nth i (getx k x') 0 = nth i (getx k x) 0).
Proof.
  intros N G S indices. assert (Gi : forall k s, In (k, s) indices -> good_sel x k s) by (intros k s I; apply G; apply filter_In in I; tauto).
  assert (Ni : NoDup (map fst indices)).
  { unfold indices. clear - N. induction params as [|[k s] r IH]; [constructor|]. inversion N; subst. cbn. destruct (truthy s); [|now apply IH]. cbn. constructor; [|now apply IH].
    intros I. apply H1. apply in_map_iff in I. destruct I as ([k' s'] & E & I). apply in_map_iff. exists (k', s'). split; [exact E|]. apply filter_In in I. tauto. }
  assert (Si : forall k i, ~ selected params k i -> ~ selected indices k i) by (intros k i NS (s & I & Se); apply NS; exists s; apply filter_In in I; tauto).
  set (x0 := flat_map (fun ks => pick (getx (fst ks) x) (snd ks)) indices).
  set (f := fun v => match apply_values getx setx indices v x with Ok y => resid y | Err _ => [] end).
  destruct (apply_spec indices x (solve f x0) Ni Gi) as (x' & E & Pk & Len & Un); [now rewrite S|].
  exists x0, x', f. split; [now apply start_spec|]. split.
  - unfold optimize_xcam. fold indices. rewrite start_spec by assumption. cbn [bind]. fold x0. fold f. now rewrite E.
  - split; [rewrite start_spec; [now rewrite Pk|intros k s I; apply (good_len x); auto]|]. split; [|split; [exact Len|auto]].
    intros w Lw. destruct (apply_spec indices x w Ni Gi Lw) as (y & Ey & Py & Leny & Uny). exists y. split; [rewrite start_spec; [now rewrite Py|intros k s I; apply (good_len x); auto]|].
    split; [unfold f; now rewrite Ey|]. auto.
Qed.
End Xcam.

(** ** optimize_cam *)
Lemma mget_mput {A} (mask : list bool) : forall (w v : list A), length mask = length v -> length w = count_true mask -> mget mask (mput mask w v) = w.
Proof.
  induction mask as [|b mask IH]; intros w v L Lw; [destruct v; [|discriminate L]; destruct w; [reflexivity|discriminate Lw]|]. destruct v as [|x v]; [discriminate L|]. rewrite count_cons in Lw. destruct b.
  - destruct w as [|y w]; [cbn in Lw; lia|]. cbn. f_equal. apply IH; cbn in *; lia.
  - cbn. apply IH; cbn in *; lia.
Qed.
Lemma mput_off {A} (mask : list bool) (w v : list A) q d : length mask = length v -> length w = count_true mask -> (q < length v)%nat -> nth q mask false = false -> nth q (mput mask w v) d = nth q v d.
Proof. intros L Lw Lq O. rewrite mput_nth by assumption. unfold on. now rewrite O. Qed.

Theorem optimize_cam_spec resid params solve c mask b : parse_params params None = Ok (mask, b) -> length mask = 20%nat -> length (vec c) = 20%nat ->
  (forall f x0, length (solve f x0) = length x0) ->
  exists c' f, optimize_cam resid params solve c = Ok (c', Some (mget mask (vec c))) /\ mget mask (vec c') = solve f (mget mask (vec c)) /\ (forall w, f w = resid (with_vec c (mput mask w (vec c)))) /\ (forall q, nth q mask false = false -> nth q (vec c') 0 = nth q (vec c) 0) /\ length (vec c') = 20%nat /\ orig c' = orig c /\ sensorsz c' = sensorsz c /\ correction c' = correction c.
Proof.
  intros E Lm Lv S. unfold optimize_cam. rewrite E. cbn [bind]. set (f := fun x => resid (with_vec c (mput mask x (vec c)))).
  assert (L : length (solve f (mget mask (vec c))) = count_true mask) by (rewrite S; apply mget_length; lia).
  rewrite mask_assign_ok by assumption. cbn [bind]. eexists. exists f. split; [reflexivity|]. cbn [with_vec vec orig sensorsz correction].
  split; [apply mget_mput; [lia|assumption]|]. split; [reflexivity|]. split.
  - intros q O. destruct (Nat.lt_ge_cases q (length (vec c))) as [H|H]; [apply mput_off; auto; lia|]. rewrite !nth_overflow; [reflexivity|lia|rewrite mput_length; lia].
  - split; [now rewrite mput_length|auto].
Qed.
