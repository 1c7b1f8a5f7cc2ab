(** C65, for every dictionary: what Cameras.parse_params (optimize.py:1457-1521) selects and bounds, also for selections that are
    not documented (False, indices outside an attribute, repeated indices, bounds without a selection). *)
From Verif Require Import Base BaseLemmas XReal ParamsModel ParamsSpec ParamsProofs ParamsProofs2 ParamsProofs3.
Open Scope R_scope.

(** ** Specification *)
(** the indices named by a selection (False is taken as the index 0) *)
Definition indices (a : attr) (s : sel) : list Z :=
  match s with STrue => Zrange (attr_len a) | SFalse => [0%Z] | SNone => [] | SInt i => [i] | SList l => l end.
(** the element of the vector of 20 parameters: counted from the start of the attribute, and from the end of the vector if negative *)
Definition element (p : Z) : Z := if (p <? 0)%Z then (p + 20)%Z else p.
Definition elements (a : attr) (s : sel) : list Z := map (fun i => element (first a + i)) (indices a s).
Definition addressable (a : attr) (i : Z) : Prop := (-20 <= first a + i < 20)%Z.
(** the entry at position k of the dictionary applies its bounds to the elements of the last entry, up to itself, that selects any *)
Definition targets (params : list (attr * pval)) (k : nat) : option (list Z) :=
  fold_left (fun t kv => match elements (fst kv) (pval_sel (snd kv)) with [] => t | es => Some es end) (firstn (S k) params) None.
(** entry k gives bounds, and the n-th of them goes to element q *)
Definition bounds_to (params : list (attr * pval)) (k n : nat) (q : Z) : Prop :=
  exists a s lo hi es, nth_error params k = Some (a, PBounded s lo hi) /\ targets params k = Some es /\ nth_error es n = Some q.
(** accepted dictionaries: elements exist, and bounds have a target and are one or as many as its elements *)
Definition accepted (params : list (attr * pval)) : Prop :=
  (forall a v i, In (a, v) params -> In i (indices a (pval_sel v)) -> addressable a i) /\
  (forall k a s lo hi, nth_error params k = Some (a, PBounded s lo hi) ->
     exists es, targets params k = Some es /\ (length lo = 1%nat \/ length lo = length es) /\ (length hi = 1%nat \/ length hi = length es)).

(** ** Proof *)
Fixpoint last_hit (es : list Z) (q : Z) : option nat :=
  match es with
  | [] => None
  | e :: r => match last_hit r q with Some n => Some (S n) | None => if (e =? q)%Z then Some 0%nat else None end
  end.
Lemma last_hit_some es q n : last_hit es q = Some n -> nth_error es n = Some q /\ forall n', nth_error es n' = Some q -> (n' <= n)%nat.
Proof.
  revert n. induction es as [|e es IH]; intros n; [discriminate|]. cbn [last_hit]. destruct (last_hit es q) as [m|] eqn:L.
  - intros E. injection E as <-. destruct (IH m eq_refl) as [A B]. split; [exact A|]. intros [|n'] H; [lia|]. cbn in H. specialize (B _ H). lia.
  - destruct (e =? q)%Z eqn:Q; [|discriminate]. intros E. injection E as <-. apply Z.eqb_eq in Q. subst e. split; [reflexivity|].
    intros [|n'] H; [lia|]. exfalso. cbn in H. clear -L H. revert n' H. induction es as [|e es IH]; intros [|n'] H; try discriminate.
    + injection H as ->. cbn in L. destruct (last_hit es q); [discriminate|]. now rewrite Z.eqb_refl in L.
    + cbn in H. cbn [last_hit] in L. destruct (last_hit es q); [discriminate|]. now apply (IH eq_refl n').
Qed.
Lemma last_hit_none es q : last_hit es q = None -> ~ In q es.
Proof.
  induction es as [|e es IH]; [intros _ []|]. cbn [last_hit]. destruct (last_hit es q); [discriminate|]. destruct (e =? q)%Z eqn:Q; [discriminate|].
  intros _ [->|I]; [now rewrite Z.eqb_refl in Q|now apply IH].
Qed.
Lemma nth_as_error {A} (l : list A) n d : nth n l d = match nth_error l n with Some x => x | None => d end.
Proof. revert l. induction n as [|n IH]; intros [|x l]; cbn; auto. Qed.
Lemma put_at_ok {A} (ps : list Z) : forall (w v : list A), length w = length ps -> length v = 20%nat ->
  Forall (fun p => (-20 <= p < 20)%Z) ps ->
  exists v', put_at ps w v = Ok v' /\ length v' = 20%nat /\
    forall q d, (0 <= q < 20)%Z -> nth (Z.to_nat q) v' d = match last_hit (map element ps) q with Some n => nth n w d | None => nth (Z.to_nat q) v d end.
Proof.
  induction ps as [|p ps IH]; intros w v Lw Lv F.
  - exists v. destruct w; [|discriminate]. split; [reflexivity|]. now split.
  - destruct w as [|y w]; [discriminate|]. inversion F as [|p0 ps0 Fp Fps]; subst.
    assert (E : py_index v p = Ok (element p)).
    { unfold py_index, element. rewrite Lv. change (Z.of_nat 20) with 20%Z. destruct (p <? - (20))%Z eqn:A0; [apply Z.ltb_lt in A0; lia|]. destruct (p <? 0)%Z eqn:B.
      - f_equal. lia.
      - destruct (p <? 20)%Z eqn:C; [reflexivity|]. apply Z.ltb_ge in C. lia. }
    cbn [put_at]. rewrite E. cbn [bind].
    assert (Re : (0 <= element p < 20)%Z) by (unfold element; destruct (p <? 0)%Z eqn:B; [apply Z.ltb_lt in B|apply Z.ltb_ge in B]; lia).
    destruct (IH w (set_nth (Z.to_nat (element p)) y v)) as (v' & E' & L' & N'); [cbn in Lw; lia|now rewrite set_nth_length|exact Fps|].
    exists v'. split; [exact E'|]. split; [exact L'|]. intros q d Q. rewrite N' by assumption. cbn [map last_hit].
    destruct (last_hit (map element ps) q) as [n|]; [reflexivity|]. destruct (element p =? q)%Z eqn:Z1.
    + apply Z.eqb_eq in Z1. subst q. cbn [nth]. apply nth_error_nth. apply nth_error_set_nth_eq. lia.
    + apply Z.eqb_neq in Z1. rewrite !nth_as_error. now rewrite nth_error_set_nth_neq by lia.
Qed.
Lemma put_at_bad {A} (ps : list Z) : forall (w v : list A), length w = length ps -> length v = 20%nat ->
  forall v', put_at ps w v = Ok v' -> Forall (fun p => (-20 <= p < 20)%Z) ps.
Proof.
  induction ps as [|p ps IH]; intros w v Lw Lv v' E; [constructor|]. destruct w as [|y w]; [discriminate|]. cbn [put_at] in E.
  destruct (py_index v p) as [k|] eqn:P; [|discriminate]. cbn [bind] in E. constructor.
  - unfold py_index in P. rewrite Lv in P. change (Z.of_nat 20) with 20%Z in P. destruct (p <? - (20))%Z eqn:A0; [discriminate|]. apply Z.ltb_ge in A0.
    destruct (p <? 0)%Z eqn:B; [apply Z.ltb_lt in B; lia|]. destruct (p <? 20)%Z eqn:C; [apply Z.ltb_lt in C; lia|discriminate].
  - apply IH in E; [exact E|cbn in Lw; lia|now rewrite set_nth_length].
Qed.

Definition raw (a : attr) (s : sel) : list Z := map (fun i => (first a + i)%Z) (indices a s).
Lemma elements_raw a s : elements a s = map element (raw a s).
Proof. unfold elements, raw. now rewrite map_map. Qed.
Lemma positions_raw a s : positions_of a s = raw a s.
Proof. destruct s, a; reflexivity. Qed.
Lemma selects_raw a s : selects s = match raw a s with [] => false | _ => true end.
Proof.
  unfold selects, raw, indices. destruct s as [| | | |l]; cbn [map]; try reflexivity.
  - destruct a; reflexivity.
  - destruct l; reflexivity.
Qed.
(** the positions kept by the loop *)
Definition kept (params : list (attr * pval)) : option (list Z) :=
  fold_left (fun t kv => match raw (fst kv) (pval_sel (snd kv)) with [] => t | es => Some es end) params None.
Lemma kept_app params kv : kept (params ++ [kv]) = match raw (fst kv) (pval_sel (snd kv)) with [] => kept params | es => Some es end.
Proof. unfold kept. now rewrite fold_left_app. Qed.
Lemma kept_targets params : fold_left (fun t kv => match elements (fst kv) (pval_sel (snd kv)) with [] => t | es => Some es end) params None
  = option_map (map element) (kept params).
Proof.
  induction params as [|kv params IH] using rev_ind; [reflexivity|]. rewrite fold_left_app, kept_app, IH. cbn [fold_left]. rewrite elements_raw.
  destruct (raw (fst kv) (pval_sel (snd kv))); reflexivity.
Qed.
Lemma targets_last params kv : targets (params ++ [kv]) (length params) = option_map (map element) (kept (params ++ [kv])).
Proof. unfold targets. rewrite <- kept_targets. rewrite firstn_all2; [reflexivity|]. rewrite app_length. cbn. lia. Qed.
Lemma targets_before params kv k : (k < length params)%nat -> targets (params ++ [kv]) k = targets params k.
Proof. intros L. unfold targets. rewrite firstn_app. replace (S k - length params)%nat with 0%nat by lia. cbn [firstn]. now rewrite app_nil_r. Qed.
Lemma targets_nonempty params k es : targets params k = Some es -> es <> [].
Proof.
  unfold targets. generalize (firstn (S k) params). intros l. induction l as [|kv l IH] using rev_ind; [discriminate|]. rewrite fold_left_app. cbn [fold_left].
  destruct (elements (fst kv) (pval_sel (snd kv))); [exact IH|]. intros E. injection E as <-. discriminate.
Qed.
Lemma loop_app s params kv : parse_loop s (params ++ [kv]) = let* s := parse_loop s params in parse_step s kv.
Proof.
  revert s. induction params as [|x params IH]; intros s; cbn [app parse_loop].
  - cbn [bind]. destruct (parse_step s kv); reflexivity.
  - destruct (parse_step s x); cbn [bind]; [apply IH|reflexivity].
Qed.
Lemma accepted_app params kv : accepted (params ++ [kv]) <->
  accepted params /\ Forall (fun p => (-20 <= p < 20)%Z) (raw (fst kv) (pval_sel (snd kv))) /\
  match snd kv with PSel _ => True | PBounded _ lo hi =>
    exists ps, kept (params ++ [kv]) = Some ps /\ (length lo = 1%nat \/ length lo = length ps) /\ (length hi = 1%nat \/ length hi = length ps) end.
Proof.
  unfold accepted. split.
  - intros [A B]. split; [split|split].
    + intros a v i I. apply A, in_or_app. now left.
    + intros k a s lo hi E. assert (L : (k < length params)%nat) by (apply nth_error_Some; congruence).
      destruct (B k a s lo hi) as (es & T & R); [now rewrite nth_error_app1|]. rewrite targets_before in T by assumption. now exists es.
    + apply Forall_forall. intros p I. unfold raw in I. apply in_map_iff in I. destruct I as (i & <- & I). apply (A (fst kv) (snd kv)); [|exact I].
      apply in_or_app. right. left. now destruct kv.
    + destruct kv as [a [s|s lo hi]]; cbn [fst snd]; [exact I|].
      destruct (B (length params) a s lo hi) as (es & T & R). { rewrite nth_error_app2, Nat.sub_diag by lia. reflexivity. }
      rewrite targets_last in T. destruct (kept _) as [ps|]; [|discriminate]. injection T as <-. rewrite map_length in R. now exists ps.
  - intros ([A B] & F & C). split.
    + intros a v i I J. apply in_app_or in I. destruct I as [I|[->|[]]]; [now apply (A a v)|]. rewrite Forall_forall in F. apply F. unfold raw. cbn [fst snd].
      apply in_map_iff. now exists i.
    + intros k a s lo hi E. destruct (Nat.lt_ge_cases k (length params)) as [L|L].
      * rewrite nth_error_app1 in E by assumption. rewrite targets_before by assumption. now apply (B k a s).
      * rewrite nth_error_app2 in E by assumption. destruct (k - length params)%nat eqn:K; [|destruct n; discriminate]. injection E as ->.
        assert (k = length params) by lia. subst k. rewrite targets_last. cbn [snd] in C. destruct C as (ps & -> & R). exists (map element ps). rewrite map_length. now split.
Qed.

Definition s0 := mk_pstate (repeat false 20) (repeat (NaN, NaN) 20) None.
Definition Inv (params : list (attr * pval)) (s : pstate) : Prop :=
  length (ps_mask s) = 20%nat /\ length (ps_bounds s) = 20%nat /\ ps_positions s = kept params /\
  (match kept params with Some ps => Forall (fun p => (-20 <= p < 20)%Z) ps | None => True end) /\
  forall q, (0 <= q < 20)%Z ->
    (nth (Z.to_nat q) (ps_mask s) false = true <-> exists a v, In (a, v) params /\ In q (elements a (pval_sel v))) /\
    (((forall k n, ~ bounds_to params k n q) /\ nth (Z.to_nat q) (ps_bounds s) (NaN, NaN) = (NaN, NaN)) \/
     exists k n a s0 lo hi, nth_error params k = Some (a, PBounded s0 lo hi) /\ bounds_to params k n q /\
       (forall k' n', bounds_to params k' n' q -> (k' < k)%nat \/ (k' = k /\ n' <= n)%nat) /\
       nth (Z.to_nat q) (ps_bounds s) (NaN, NaN) = (bound_at lo n, bound_at hi n)).
Lemma bounds_to_before params kv k n q : (k < length params)%nat -> bounds_to (params ++ [kv]) k n q <-> bounds_to params k n q.
Proof.
  intros L. unfold bounds_to. split; intros (a & s & lo & hi & es & A & B & C); exists a, s, lo, hi, es.
  - rewrite nth_error_app1 in A by assumption. rewrite targets_before in B by assumption. auto.
  - rewrite nth_error_app1 by assumption. rewrite targets_before by assumption. auto.
Qed.
Lemma bounds_to_lt params k n q : bounds_to params k n q -> (k < length params)%nat.
Proof. intros (a & s & lo & hi & es & A & _). apply nth_error_Some. congruence. Qed.
Lemma expand_nth l n m : (0 < m)%nat -> (length l = 1%nat \/ length l = m) -> (n < m)%nat -> length (expand l m) = m /\ nth n (expand l m) NaN = bound_at l n.
Proof.
  intros P L N. unfold expand, bound_at. destruct l as [|x [|y l]]; cbn in L.
  - lia.
  - split; [apply repeat_length|]. destruct m; [lia|]. clear -N. revert n N. generalize (S m). intros k. induction k as [|k IH]; intros [|n] N; cbn; try lia; auto. apply IH. lia.
  - split; [cbn; lia|reflexivity].
Qed.
Lemma step_ok params s kv : Inv params s -> accepted (params ++ [kv]) -> exists s', parse_step s kv = Ok s' /\ Inv (params ++ [kv]) s'.
Proof.
  intros (Lm & Lb & Ep & Fp & Hq) Acc. apply accepted_app in Acc. destruct Acc as (_ & Fr & Bd). destruct kv as [a v]. cbn [fst snd] in *.
  unfold parse_step. rewrite (selects_raw a), positions_raw.
  set (ps := raw a (pval_sel v)) in *.
  assert (S1 : exists s1, (if match ps with [] => false | _ => true end then
        let* m := put_at ps (repeat true (length ps)) (ps_mask s) in Ok (mk_pstate m (ps_bounds s) (Some ps)) else Ok s) = Ok s1 /\
      length (ps_mask s1) = 20%nat /\ ps_bounds s1 = ps_bounds s /\ ps_positions s1 = kept (params ++ [(a, v)]) /\
      (forall q, (0 <= q < 20)%Z -> nth (Z.to_nat q) (ps_mask s1) false = true <-> nth (Z.to_nat q) (ps_mask s) false = true \/ In q (map element ps))).
  { rewrite kept_app. cbn [fst snd]. fold ps. destruct ps as [|p0 ps'] eqn:EP.
    - exists s. repeat split; auto. now intros [|[]].
    - rewrite <- EP in *. destruct (put_at_ok ps (repeat true (length ps)) (ps_mask s) (repeat_length _ _) Lm Fr) as (m & E & L & N).
      rewrite E. cbn [bind]. eexists. split; [reflexivity|]. cbn [ps_mask ps_bounds ps_positions]. split; [exact L|]. split; [reflexivity|]. split; [reflexivity|].
      intros q Q. rewrite N by assumption. destruct (last_hit (map element ps) q) as [n|] eqn:H.
      + destruct (last_hit_some _ _ _ H) as [H1 _]. assert (n < length ps)%nat. { rewrite <- (map_length element). apply nth_error_Some. congruence. }
        split; [intros _; right; now apply nth_error_In in H1|]. intros _. clear -H0. revert n H0. generalize (length ps). intros k. induction k as [|k IH]; intros [|n] L; cbn; try lia; auto. apply IH. lia.
      + apply last_hit_none in H. tauto. }
  destruct S1 as (s1 & -> & L1 & B1 & P1 & M1). cbn [bind].
  assert (Fk : match kept (params ++ [(a, v)]) with Some ps => Forall (fun p => (-20 <= p < 20)%Z) ps | None => True end).
  { rewrite kept_app. cbn [fst snd]. fold ps. destruct ps eqn:EP; [exact Fp|]. exact Fr. }
  assert (MM : forall q, (0 <= q < 20)%Z -> nth (Z.to_nat q) (ps_mask s1) false = true <-> exists a0 v0, In (a0, v0) (params ++ [(a, v)]) /\ In q (elements a0 (pval_sel v0))).
  { intros q Q. rewrite M1 by assumption. destruct (Hq q Q) as [H _]. rewrite H. clear H. split.
    - intros [(a0 & v0 & I & J)|J]; [exists a0, v0; split; [apply in_or_app; now left|exact J]|]. exists a, v. split; [apply in_or_app; right; now left|]. now rewrite elements_raw.
    - intros (a0 & v0 & I & J). apply in_app_or in I. destruct I as [I|[I|[]]]; [left; now exists a0, v0|]. injection I as -> ->. right. now rewrite elements_raw in J. }
  destruct v as [sl|sl lo hi].
  - exists s1. split; [reflexivity|]. split; [exact L1|]. split; [now rewrite B1|]. split; [exact P1|]. split; [exact Fk|]. intros q Q. split; [now apply MM|].
    rewrite B1. destruct (Hq q Q) as [_ H].
    assert (K : forall k n, bounds_to (params ++ [(a, PSel sl)]) k n q -> (k < length params)%nat /\ bounds_to params k n q).
    { intros k n B. assert (H0 : (k < length params)%nat). { destruct (Nat.lt_ge_cases k (length params)) as [|G]; [assumption|]. destruct B as (a0 & s2 & l & h & es & A & _).
        rewrite nth_error_app2 in A by assumption. destruct (k - length params)%nat as [|[|]]; discriminate. }
      split; [assumption|]. now apply (proj1 (bounds_to_before params (a, PSel sl) k n q H0)). }
    destruct H as [[H1 H2]|(k & n & a0 & s2 & l & h & H1 & H2 & H3 & H4)].
    + left. split; [|exact H2]. intros k n B. apply K in B. now apply (H1 k n).
    + right. pose proof (bounds_to_lt _ _ _ _ H2). exists k, n, a0, s2, l, h. split; [now rewrite nth_error_app1|]. split; [now apply (proj2 (bounds_to_before params _ k n q ltac:(assumption)))|]. split; [|exact H4].
      intros k' n' B. apply K in B. now apply H3.
  - destruct Bd as (ts & Ek & Ll & Lh). rewrite P1, Ek. rewrite Ek in Fk.
    assert (NE : (0 < length ts)%nat).
    { pose proof (targets_last params (a, PBounded sl lo hi)) as T. rewrite Ek in T. apply targets_nonempty in T. destruct ts; [now destruct T|cbn; lia]. }
    destruct (expand_nth lo 0 (length ts) NE Ll NE) as [El _]. destruct (expand_nth hi 0 (length ts) NE Lh NE) as [Eh _].
    rewrite El, Eh, Nat.eqb_refl. cbn [andb].
    destruct (put_at_ok ts (combine (expand lo (length ts)) (expand hi (length ts))) (ps_bounds s1)) as (b & E & L & N); [rewrite combine_length; lia|now rewrite B1|exact Fk|].
    rewrite E. cbn [bind]. eexists. split; [reflexivity|]. split; [exact L1|]. split; [exact L|]. split; [cbn [ps_positions]; rewrite <- Ek, <- P1; reflexivity|]. split; [now rewrite Ek|].
    cbn [ps_mask ps_bounds]. intros q Q. split; [now apply MM|]. rewrite N by assumption.
    set (new := (a, PBounded sl lo hi)) in *.
    assert (T : targets (params ++ [new]) (length params) = Some (map element ts)) by (rewrite targets_last, Ek; reflexivity).
    assert (Here : nth_error (params ++ [new]) (length params) = Some new) by (rewrite nth_error_app2, Nat.sub_diag by lia; reflexivity).
    assert (K : forall k n, bounds_to (params ++ [new]) k n q -> ((k < length params)%nat /\ bounds_to params k n q) \/ (k = length params /\ nth_error (map element ts) n = Some q)).
    { intros k n B. destruct (Nat.lt_ge_cases k (length params)) as [G|G].
      - left. split; [exact G|]. now apply (proj1 (bounds_to_before params new k n q G)).
      - right. pose proof (bounds_to_lt _ _ _ _ B) as G2. rewrite app_length in G2. cbn in G2. assert (k = length params) by lia. subst k. split; [reflexivity|].
        destruct B as (a0 & s2 & l & h & es & A & B & C). congruence. }
    destruct (last_hit (map element ts) q) as [n|] eqn:H.
    + right. destruct (last_hit_some _ _ _ H) as [H1 H2]. assert (Ln : (n < length ts)%nat) by (rewrite <- (map_length element); apply nth_error_Some; congruence).
      exists (length params), n, a, sl, lo, hi. split; [exact Here|]. split; [exists a, sl, lo, hi, (map element ts); auto|]. split.
      * intros k' n' B. apply K in B. destruct B as [[G _]|[-> G]]; [now left|right]. split; [reflexivity|]. now apply H2.
      * rewrite combine_nth by lia. destruct (expand_nth lo n (length ts) NE Ll Ln) as [_ ->]. destruct (expand_nth hi n (length ts) NE Lh Ln) as [_ ->]. reflexivity.
    + apply last_hit_none in H. rewrite B1. destruct (Hq q Q) as [_ HB].
      assert (K2 : forall k n, bounds_to (params ++ [new]) k n q -> bounds_to params k n q).
      { intros k n B. apply K in B. destruct B as [[_ B]|[_ B]]; [exact B|]. exfalso. apply H. now apply nth_error_In in B. }
      destruct HB as [[H1 H2]|(k & n & a0 & s2 & l & h & H1 & H2 & H3 & H4)].
      * left. split; [|exact H2]. intros k n B. now apply (H1 k n), K2.
      * right. pose proof (bounds_to_lt _ _ _ _ H2). exists k, n, a0, s2, l, h. split; [now rewrite nth_error_app1|]. split; [now apply (proj2 (bounds_to_before params _ k n q ltac:(assumption)))|]. split; [|exact H4].
        intros k' n' B. apply H3. now apply K2.
Qed.
Lemma loop_ok params : accepted params -> exists s, parse_loop s0 params = Ok s /\ Inv params s.
Proof.
  induction params as [|kv params IH] using rev_ind; intros A.
  - exists s0. split; [reflexivity|]. split; [reflexivity|]. split; [reflexivity|]. split; [reflexivity|]. split; [exact I|]. intros q Q.
    assert (R : forall {A} (x : A) n d, (n < 20)%nat -> nth n (repeat x 20) d = x). { intros T x n d L. do 20 (destruct n as [|n]; [reflexivity|]). lia. }
    split.
    + cbn [ps_mask s0]. rewrite R by lia. split; [discriminate|]. intros (a & v & [] & _).
    + left. split; [|cbn [ps_bounds s0]; apply R; lia]. intros k n B. apply bounds_to_lt in B. cbn in B. lia.
  - destruct IH as (s & E & I); [now apply accepted_app in A|]. rewrite loop_app, E. cbn [bind]. now apply step_ok.
Qed.
Lemma loop_accepted params s : parse_loop s0 params = Ok s -> accepted params.
Proof.
  revert s. induction params as [|kv params IH] using rev_ind; intros s E.
  - split; [intros a v i []|]. intros [|k]; discriminate.
  - rewrite loop_app in E. destruct (parse_loop s0 params) as [s1|] eqn:E1; [|discriminate]. cbn [bind] in E. specialize (IH _ eq_refl).
    destruct (loop_ok params IH) as (s2 & E2 & I). rewrite E1 in E2. injection E2 as <-. destruct I as (Lm & Lb & Ep & Fp & _).
    apply accepted_app. split; [exact IH|]. destruct kv as [a v]. cbn [fst snd] in *. unfold parse_step in E. rewrite (selects_raw a), positions_raw in E.
    rewrite kept_app. cbn [fst snd]. set (ps := raw a (pval_sel v)) in *.
    assert (F : Forall (fun p => (-20 <= p < 20)%Z) ps).
    { destruct ps as [|p0 ps'] eqn:EP; [constructor|]. rewrite <- EP in *. destruct (put_at ps (repeat true (length ps)) (ps_mask s1)) as [m|] eqn:Q; [|discriminate].
      now apply put_at_bad in Q; [|apply repeat_length|]. }
    split; [exact F|]. destruct v as [sl|sl lo hi]; [exact I|].
    assert (E' : exists st, ps_positions st = match ps with [] => kept params | es => Some es end /\
      match ps_positions st with None => Err OtherError | Some ps =>
       if ((length (expand lo (length ps)) =? length (expand hi (length ps))) && (length (expand lo (length ps)) =? length ps))%nat%bool
       then let* b := put_at ps (combine (expand lo (length ps)) (expand hi (length ps))) (ps_bounds st) in Ok (mk_pstate (ps_mask st) b (ps_positions st)) else Err ValueError end = Ok s).
    { destruct ps as [|p0 ps'] eqn:EP.
      - cbn [bind] in E. exists s1. now split.
      - rewrite <- EP in *. destruct (put_at ps (repeat true (length ps)) (ps_mask s1)) as [m|] eqn:Q; [|discriminate]. cbn [bind] in E. exists (mk_pstate m (ps_bounds s1) (Some ps)). split; [now rewrite EP|exact E]. }
    destruct E' as (st & PE & E'). destruct (ps_positions st) as [ts|]; [|discriminate]. exists ts. split; [destruct ps; [now symmetry|now symmetry]|].
    destruct (_ && _)%bool eqn:B in E'; [|discriminate]. apply andb_prop in B. destruct B as [B1 B2]. apply Nat.eqb_eq in B1, B2.
    assert (G : forall l, length (expand l (length ts)) = length ts -> length l = 1%nat \/ length l = length ts).
    { intros l. unfold expand. destruct l as [|x [|y l]]; auto. }
    split; apply G; lia.
Qed.

(** ** C65 *)
(** parse_params accepts exactly the dictionaries above; then parameter q of the camera vector is selected iff it is an element of some entry, and has the
    bounds given to it last (missing ones replaced by the defaults, then by infinity), or the default ones if no entry gives it bounds. *)
Theorem params_selection_exact params defaults : (forall d, defaults = Some d -> length d = 20%nat) ->
  (~ accepted params -> exists e, parse_params params defaults = Err e) /\
  (accepted params -> exists mask bounds, parse_params params defaults = Ok (mask, bounds) /\ length mask = 20%nat /\ length bounds = 20%nat /\
   forall q, (0 <= q < 20)%Z ->
    let dmin := match defaults with None => NInf | Some d => or_default (fst (nth (Z.to_nat q) d (NaN, NaN))) NInf end in
    let dmax := match defaults with None => PInf | Some d => or_default (snd (nth (Z.to_nat q) d (NaN, NaN))) PInf end in
    (nth (Z.to_nat q) mask false = true <-> exists a v, In (a, v) params /\ In q (elements a (pval_sel v))) /\
    (((forall k n, ~ bounds_to params k n q) /\ nth (Z.to_nat q) bounds (NaN, NaN) = (dmin, dmax)) \/
     exists k n a s lo hi, nth_error params k = Some (a, PBounded s lo hi) /\ bounds_to params k n q /\
       (forall k' n', bounds_to params k' n' q -> (k' < k)%nat \/ (k' = k /\ n' <= n)%nat) /\
       nth (Z.to_nat q) bounds (NaN, NaN) = (or_default (bound_at lo n) dmin, or_default (bound_at hi n) dmax))).
Proof.
  intros Ld. unfold parse_params. fold s0. split.
  - intros N. destruct (parse_loop s0 params) as [s|e] eqn:E; [|eexists; reflexivity]. apply loop_accepted in E. contradiction.
  - intros A. destruct (loop_ok params A) as (s & -> & Lm & Lb & _ & _ & H). cbn [bind]. do 2 eexists. split; [reflexivity|]. split; [exact Lm|].
    set (fl := map (fun x => fill_max (fill_min x (NInf, PInf)) (NInf, PInf))).
    assert (V : forall q, (0 <= q < 20)%Z -> nth (Z.to_nat q) (fl match defaults with Some d => map2 (fun x y => fill_max (fill_min x y) y) (ps_bounds s) d | None => ps_bounds s end) (NaN, NaN)
      = let b := nth (Z.to_nat q) (ps_bounds s) (NaN, NaN) in
        (or_default (fst b) (match defaults with None => NInf | Some d => or_default (fst (nth (Z.to_nat q) d (NaN, NaN))) NInf end),
         or_default (snd b) (match defaults with None => PInf | Some d => or_default (snd (nth (Z.to_nat q) d (NaN, NaN))) PInf end))).
    { intros q Q. destruct defaults as [d|].
      - specialize (Ld d eq_refl). unfold fl. rewrite (nth_map_d _ _ _ (NaN, NaN) (NaN, NaN)) by (rewrite map2_length; lia).
        rewrite (map2_nth _ _ _ _ (NaN, NaN) (NaN, NaN)) by lia. destruct (nth (Z.to_nat q) (ps_bounds s) (NaN, NaN)) as [[| | |] [| | |]], (nth (Z.to_nat q) d (NaN, NaN)) as [[| | |] [| | |]]; reflexivity.
      - unfold fl. rewrite (nth_map_d _ _ _ (NaN, NaN) (NaN, NaN)) by lia. destruct (nth (Z.to_nat q) (ps_bounds s) (NaN, NaN)) as [[| | |] [| | |]]; reflexivity. }
    split. { unfold fl. rewrite map_length. destruct defaults as [d|]; [|exact Lb]. rewrite map2_length, Lb, (Ld d eq_refl). reflexivity. }
    intros q Q. cbv zeta. destruct (H q Q) as [M B]. split; [exact M|]. rewrite V by assumption. cbv zeta.
    destruct B as [[B ->]|(k & n & a & s1 & lo & hi & B1 & B2 & B3 & ->)]; [left|right].
    + split; [exact B|]. reflexivity.
    + exists k, n, a, s1, lo, hi. split; [exact B1|]. split; [exact B2|]. split; [exact B3|]. reflexivity.
Qed.
Print Assumptions params_selection_exact.
(** {'k': False, 'f': 2, 'xyz': ([0, -1], 0, [1, 2]), 'p': (None, -1, 3)}: the first radial coefficient, the first center coordinate and (for xyz[-1]) the last
    tangential coefficient are selected; the bounds given for p replace those of xyz. *)
Example params_selection_exact_ex : let params := [(Ak, PSel SFalse); (Af, PSel (SInt 2)); (Axyz, PBounded (SList [0; -1]%Z) [Fin 0] [Fin 1; Fin 2]); (Ap, PBounded SNone [Fin (-1)] [Fin 3])] in
  accepted params /\ elements Ak SFalse = [12%Z] /\ elements Af (SInt 2) = [10%Z] /\ elements Axyz (SList [0; -1]%Z) = [0%Z; 19%Z] /\ bounds_to params 3 1 19.
Proof.
  cbv zeta. split; [|split; [reflexivity|split; [reflexivity|split; [reflexivity|]]]].
  - split.
    + intros a v i [E|[E|[E|[E|[]]]]]; injection E as <- <-; cbn [indices pval_sel In]; intros J; unfold addressable; repeat (destruct J as [<-|J]; [cbn; lia|]); destruct J.
    + intros [|[|[|[|k]]]] a s lo hi E; try discriminate; [| |destruct k; discriminate]; injection E as <- <- <- <-; eexists; (split; [reflexivity|]); cbn; lia.
  - exists Ap, SNone, [Fin (-1)], [Fin 3], [0%Z; 19%Z]. repeat split; reflexivity.
Qed.
