(** Property C75: Matches.filter keeps exactly the pairs that meet every limit; C73: Matches.resize. *)
From Coq Require Import Sorted Permutation Lia.
From Verif Require Import Base BaseLemmas HelpersModel CameraModel CameraSpec CameraStateProofs CameraProofs CameraProofs2 ControlModel P_Control P_Control2.
Open Scope R_scope.

(** ** Filter *)
(** [l'] are the elements of [l] at the positions with [P], in their order. *)
Definition chosen {A} (P : nat -> Prop) (l l' : list A) : Prop :=
  exists idx, StronglySorted lt idx /\ (forall i, In i idx <-> (i < length l)%nat /\ P i) /\ map Some l' = map (nth_error l) idx.
(** The limits of the documentation; a limit that is missing or zero does not apply. *)
Definition among_best (args : filter_args) (order : list nat) (i : nat) : Prop := forall k, n_best args = Some k -> k <> 0%nat -> In i (firstn k order).
Definition heavy (args : filter_args) (w : option (list R)) (i : nat) : Prop := forall lo, min_weight args = Some lo -> lo <> 0 -> exists ws x, w = Some ws /\ nth_error ws i = Some x /\ lo <= x.
Definition unit_of (args : filter_args) (m : matches) : R := if scaled args then width (m_cam m (ref_first args)) else 1.
Definition accurate (args : filter_args) (m : matches) (i : nat) : Prop := forall e, max_error args = Some e -> e <> 0 ->
  exists o p u v, m_observed (ref_first args) m = Ok o /\ m_predicted (ref_first args) m = Ok p /\ nth_error o i = Some u /\ nth_error p i = Some (Some v) /\ norm2 u v <= e * unit_of args m.
Definition close (args : filter_args) (m : matches) (i : nat) : Prop := forall d, max_distance args = Some d -> d <> 0 ->
  exists o q u v, m_observed (ref_first args) m = Ok o /\ m_observed (negb (ref_first args)) m = Ok q /\ nth_error o i = Some u /\ nth_error q i = Some v /\
    norm2 (times (ratio (m_cam m (ref_first args)) (m_cam m (negb (ref_first args)))) v) u <= d * unit_of args m.
Definition meets (args : filter_args) (order : list nat) (m : matches) (i : nat) : Prop := among_best args order i /\ heavy args (m_weights m) i /\ accurate args m i /\ close args m i.

(** masks *)
Definition bit (m : list bool) (i : nat) : bool := nth i m false.
Lemma bit_and a b i : bit (and_mask a b) i = (bit a i && bit b i)%bool.
Proof. unfold and_mask, bit. revert b i. induction a as [|x a IH]; intros [|y b] [|i]; cbn [map2 nth]; rewrite ?andb_false_r; auto. Qed.
Lemma bit_repeat n i : bit (repeat true n) i = true <-> (i < n)%nat.
Proof. unfold bit. revert i. induction n as [|n IH]; intros [|i]; cbn; try (split; [discriminate|lia]); [split; [lia|reflexivity]|rewrite IH; lia]. Qed.
Lemma bit_map {A} (f : A -> bool) l i : bit (map f l) i = true <-> exists x, nth_error l i = Some x /\ f x = true.
Proof.
  unfold bit. revert i. induction l as [|x l IH]; intros [|i]; cbn; try (split; [discriminate|intros (? & ? & _); discriminate]); [|apply IH]. split; [exists x; auto|intros (y & E & H); now injection E as ->].
Qed.
Lemma bit_map2 {A B} (f : A -> B -> bool) a b i : bit (map2 f a b) i = true <-> exists x y, nth_error a i = Some x /\ nth_error b i = Some y /\ f x y = true.
Proof.
  unfold bit. revert b i. induction a as [|x a IH]; intros [|y b] [|i]; cbn; try (split; [discriminate|intros (? & ? & ? & ? & _); discriminate]); [|apply IH]. split; [exists x, y; auto|intros (u & v & E & F & H); injection E as ->; now injection F as ->].
Qed.
Lemma bit_best k order n i : Permutation order (seq 0 n) -> bit (best_mask k order n) i = true <-> (i < n)%nat /\ In i (firstn k order).
Proof.
  intros P. unfold best_mask. rewrite bit_map. assert (N : NoDup order) by (apply (Permutation_NoDup (Permutation_sym P)), seq_NoDup).
  assert (D : forall j, In j order -> (existsb (Nat.eqb j) (skipn k order) = false <-> In j (firstn k order))).
  { intros j Hj. rewrite <- (firstn_skipn k order) in Hj, N. apply in_app_or in Hj. destruct (existsb (Nat.eqb j) (skipn k order)) eqn:E.
    - apply existsb_exists in E. destruct E as (j' & Hj' & E). apply Nat.eqb_eq in E. subst j'. split; [discriminate|]. intros F. exfalso. apply in_split in F. destruct F as (l1 & l2 & F). rewrite F in N. rewrite <- app_assoc in N. cbn in N. apply NoDup_remove_2 in N. apply N. rewrite app_assoc. apply in_or_app. now right.
    - split; [intros _|reflexivity]. destruct Hj as [Hj|Hj]; [exact Hj|]. exfalso. assert (T : existsb (Nat.eqb j) (skipn k order) = true) by (apply existsb_exists; exists j; split; [exact Hj|apply Nat.eqb_refl]). congruence. }
  assert (I : forall j, In j order <-> (j < n)%nat) by (intros j; rewrite (Permutation_in' eq_refl P), in_seq; lia). split.
  - intros (x & E & H). assert (L : (i < length (seq 0 n))%nat) by (apply nth_error_Some; congruence). rewrite seq_length in L. rewrite (nth_error_nth' _ 0%nat) in E by (now rewrite seq_length). rewrite seq_nth in E by exact L. injection E as <-. cbn in *. split; [exact L|]. apply negb_true_iff in H. apply D; [now apply I|exact H].
  - intros [L H]. exists i. rewrite (nth_error_nth' _ 0%nat) by (now rewrite seq_length). rewrite seq_nth by exact L. split; [reflexivity|]. apply negb_true_iff, D; [now apply I|exact H].
Qed.
Fixpoint trues (k : nat) (m : list bool) : list nat := match m with [] => [] | b :: r => if b then k :: trues (S k) r else trues (S k) r end.
Lemma trues_in m : forall k i, In i (trues k m) <-> (k <= i)%nat /\ bit m (i - k) = true.
Proof.
  unfold bit. induction m as [|b m IH]; intros k i; cbn [trues]; [split; [intros []|intros [_ H]; destruct (i - k)%nat; discriminate]|].
  assert (C : (k <= i)%nat /\ nth (i - k) (b :: m) false = true <-> (i = k /\ b = true) \/ ((S k <= i)%nat /\ nth (i - S k) m false = true)).
  { split.
    - intros [L H]. destruct (Nat.eq_dec i k) as [->|N]; [left; rewrite Nat.sub_diag in H; auto|right]. split; [lia|]. replace (i - k)%nat with (S (i - S k)) in H by lia. exact H.
    - intros [[-> ->]|[L H]]; [split; [lia|now rewrite Nat.sub_diag]|split; [lia|]]. replace (i - k)%nat with (S (i - S k)) by lia. exact H. }
  rewrite C, <- IH. destruct b; cbn [In]; [intuition|]. intuition discriminate.
Qed.
Lemma trues_sorted m : forall k, StronglySorted lt (trues k m).
Proof.
  induction m as [|b m IH]; intros k; cbn [trues]; [constructor|]. destruct b; [|apply IH]. constructor; [apply IH|]. apply Forall_forall. intros i Hi. apply trues_in in Hi. lia.
Qed.
Lemma keep_trues {A} (l : list A) : forall m pre, length m = length l -> map Some (keep m l) = map (nth_error (pre ++ l)) (trues (length pre) m).
Proof.
  induction l as [|x l IH]; intros [|b m] pre L; try discriminate; [reflexivity|]. injection L as L. specialize (IH m (pre ++ [x]) L). rewrite <- app_assoc, app_length, Nat.add_1_r in IH. cbn [app] in IH. unfold keep in *. cbn [combine filter fst trues]. destruct b; cbn [map snd]; rewrite IH; [|reflexivity]. f_equal. rewrite nth_error_app2 by lia. now rewrite Nat.sub_diag.
Qed.
Lemma keep_chosen {A} (P : nat -> Prop) m (l : list A) : length m = length l -> (forall i, bit m i = true <-> (i < length l)%nat /\ P i) -> chosen P l (keep m l).
Proof.
  intros L H. exists (trues 0 m). split; [apply trues_sorted|]. split; [intros i; rewrite trues_in, Nat.sub_0_r, H; intuition lia|apply (keep_trues l m [] L)].
Qed.
Lemma and_mask_length a b : length a = length b -> length (and_mask a b) = length a.
Proof. intros E. unfold and_mask. revert b E. induction a as [|x a IH]; intros [|y b] E; try discriminate; cbn; auto. Qed.
Lemma map2_length {A B C} (f : A -> B -> C) a : forall b, length a = length b -> length (map2 f a b) = length a.
Proof. induction a as [|x a IH]; intros [|y b] E; try discriminate; cbn; auto. Qed.

Lemma given_none x : given x = None <-> (forall v, x = Some v -> v = 0).
Proof. unfold given. destruct x as [v|]; [|split; [discriminate|reflexivity]]. destruct (Reqb_spec v 0); split; try discriminate; auto. - intros _ ? E. now injection E as <-. - intros H. exfalso. auto. Qed.
Lemma given_some x v : given x = Some v <-> x = Some v /\ v <> 0.
Proof. unfold given. destruct x as [u|]; [|split; [discriminate|intros [? _]; discriminate]]. destruct (Reqb_spec u 0) as [->|N]; split; try discriminate; [intros [E F]; now injection E as <-|intros E; injection E as <-; auto|intros [E _]; exact E]. Qed.

(** [Matches], or [RotationMatches] with camera coordinates of the same number of points (as [RotationMatches(cams, uvs)] makes), of two lists of image coordinates [ua] and [ub], with a weight for each pair or no weights. *)
Definition imaged (m : matches) (ua ub : list vec2) : Prop :=
  (m_type m = Matches \/ (m_type m = RotationMatches /\ exists xa xb, m_xys m = Some (xa, xb) /\ length xa = length ua /\ length xb = length ua)) /\
  m_uvs m = Some (ua, ub) /\ length ua = length ub /\ (forall ws, m_weights m = Some ws -> length ws = length ua).
Definition pairs (m : matches) (ua ub : list vec2) : Prop := m_type m = Matches /\ m_uvs m = Some (ua, ub) /\ length ua = length ub /\ (forall ws, m_weights m = Some ws -> length ws = length ua).
Lemma pairs_imaged m ua ub : pairs m ua ub -> imaged m ua ub.
Proof. intros (T & U & L & Lw). split; auto. Qed.
Lemma map_length_eq {A B} (f : A -> B) l n : length l = n -> length (map f l) = n. Proof. now rewrite map_length. Qed.
Lemma observed_imaged m ua ub first : imaged m ua ub -> m_observed first m = Ok (sel first (ua, ub)).
Proof. intros ([T|[T _]] & U & _); unfold m_observed; now rewrite T, U. Qed.
Lemma observed_pairs m ua ub first : pairs m ua ub -> m_observed first m = Ok (sel first (ua, ub)).
Proof. intros H. now apply observed_imaged, pairs_imaged. Qed.
Lemma predicted_length m ua ub first p : imaged m ua ub -> m_predicted first m = Ok p -> length p = length ua.
Proof.
  intros ([T|[T (xa & xb & X & La & Lb)]] & U & L & _); unfold m_predicted; rewrite T.
  - rewrite U. destruct (test_position _ _); [|discriminate]. cbn [bind]. intros E. injection E as <-. rewrite map_length. destruct first; cbn; auto.
  - rewrite X. destruct (test_position _ _); [|discriminate]. cbn [bind]. destruct (test_internals m); [|discriminate]. cbn [bind]. intros E. injection E as <-. rewrite !map_length. destruct first; cbn; auto.
Qed.
Lemma filter_mask args order m ua ub mask0 : imaged m ua ub -> Permutation order (seq 0 (length ua)) ->
  (let n := match n_best args with Some (S k) => Some (S k) | _ => None end in
   match m_weights m, n, given (min_weight args) with
               | None, None, None => Ok (repeat true (length ua))
               | None, _, _ => Err ValueError
               | Some w, _, _ =>
                 let mask := match n with Some k => best_mask k order (length ua) | None => repeat true (length ua) end in
                 Ok (match given (min_weight args) with Some lo => and_mask mask (map (fun x => Rleb lo x) w) | None => mask end)
               end) = Ok mask0 ->
  length mask0 = length ua /\ forall i, bit mask0 i = true <-> (i < length ua)%nat /\ among_best args order i /\ heavy args (m_weights m) i.
Proof.
  intros (T & U & L & Lw) Po. cbv zeta.
  assert (NB : forall n, (match n_best args with Some (S k) => Some (S k) | _ => None end = n) -> forall i, among_best args order i <-> match n with Some k => In i (firstn k order) | None => True end).
  { intros n <- i. unfold among_best. destruct (n_best args) as [[|k]|].
    - split; [auto|intros _ k E; injection E as <-; intros; contradiction].
    - split; [intros H; apply H; auto; discriminate|intros H k' E _; now injection E as <-].
    - split; [auto|discriminate]. }
  specialize (NB _ eq_refl).
  assert (HV : forall i, heavy args (m_weights m) i <-> match given (min_weight args) with Some lo => exists ws x, m_weights m = Some ws /\ nth_error ws i = Some x /\ lo <= x | None => True end).
  { intros i. unfold heavy. destruct (given (min_weight args)) as [lo|] eqn:G.
    - apply given_some in G. destruct G as [G N]. split; [intros H; apply H; auto|intros H lo' E _; rewrite G in E; injection E as <-; exact H].
    - rewrite given_none in G. split; [auto|]. intros _ lo E N. exfalso. apply N, G, E. }
  set (n := match n_best args with Some (S k) => Some (S k) | _ => None end) in *.
  destruct (m_weights m) as [w|].
  - intros E. injection E as <-. specialize (Lw w eq_refl).
    assert (B : forall M, M = match n with Some k => best_mask k order (length ua) | None => repeat true (length ua) end -> length M = length ua /\ forall i, bit M i = true <-> (i < length ua)%nat /\ among_best args order i).
    { intros M ->. destruct n as [k|].
      - split; [unfold best_mask; now rewrite map_length, seq_length|]. intros i. now rewrite bit_best, NB.
      - split; [apply repeat_length|]. intros i. rewrite bit_repeat, NB. intuition. }
    destruct (B _ eq_refl) as [B1 B2]. clear B. set (M := match n with Some k => _ | None => _ end) in *. destruct (given (min_weight args)) as [lo|] eqn:G.
    + split; [rewrite and_mask_length; [exact B1|rewrite map_length; congruence]|]. intros i. rewrite bit_and, andb_true_iff, B2, HV, bit_map. split.
      * intros ((A & B) & x & E & F). split; [exact A|]. split; [exact B|]. exists w, x. destruct (Rleb_spec lo x); [auto|discriminate].
      * intros (A & B & ws & x & E & F & H). injection E as <-. split; [auto|]. exists x. destruct (Rleb_spec lo x); [auto|lra].
    + split; [exact B1|]. intros i. rewrite B2, HV. intuition.
  - destruct n as [k|]; [discriminate|]. destruct (given (min_weight args)); [discriminate|]. intros E. injection E as <-. split; [apply repeat_length|]. intros i. rewrite bit_repeat, NB, HV. intuition.
Qed.

(** Matches.filter (also of RotationMatches) keeps exactly the pairs that meet every limit, in their order, and treats both cameras and the weights alike. *)
Theorem filter_keeps args order m ua ub m' : imaged m ua ub -> Permutation order (seq 0 (length ua)) -> m_filter args order m = Ok m' ->
  m_type m' = m_type m /\ m_a m' = m_a m /\ m_b m' = m_b m /\ m_xys m' = m_xys m /\ m_imgszs m' = m_imgszs m /\ m_internals m' = m_internals m /\
  (exists ua' ub', m_uvs m' = Some (ua', ub') /\ chosen (meets args order m) ua ua' /\ chosen (meets args order m) ub ub') /\
  match m_weights m, m_weights m' with Some w, Some w' => chosen (meets args order m) w w' | None, None => True | _, _ => False end.
Proof.
  intros Hp Po H. pose proof Hp as (T & U & L & Lw). unfold m_filter in H.
  assert (Q : match m_type m with Matches | RotationMatches => match m_uvs m with Some (u, _) => Ok (length u) | None => Err TypeError end | _ => match m_xys m with Some (x, _) => Ok (length x) | None => Err TypeError end end = Ok (length ua)) by (destruct T as [T|[T _]]; rewrite T, U; reflexivity).
  rewrite Q, U in H. cbn [bind] in H. clear Q.
  match type of H with (let* _ := ?X in _) = _ => destruct X as [mask0|] eqn:E0; [|discriminate] end. cbn [bind] in H.
  destruct (filter_mask args order m ua ub mask0 Hp Po E0) as [L0 B0].
  match type of H with (let* _ := ?X in _) = _ => destruct X as [mask1|] eqn:E1; [|discriminate] end. cbn [bind] in H.
  assert (K1 : length mask1 = length ua /\ forall i, bit mask1 i = true <-> (i < length ua)%nat /\ among_best args order i /\ heavy args (m_weights m) i /\ accurate args m i).
  { destruct (given (max_error args)) as [e|] eqn:G.
    - apply given_some in G. destruct G as [G N]. rewrite (observed_imaged m ua ub _ Hp) in E1. cbn [bind] in E1. destruct (m_predicted (ref_first args) m) as [p|] eqn:Pr; [|discriminate]. cbn [bind] in E1. injection E1 as <-. pose proof (predicted_length m ua ub _ p Hp Pr) as Lp.
      assert (Lo : length (sel (ref_first args) (ua, ub)) = length ua) by (destruct (ref_first args); cbn; auto).
      unfold refine. split; [rewrite and_mask_length; [exact L0|rewrite map2_length; congruence]|]. intros i. rewrite bit_and, andb_true_iff, B0, bit_map2. split.
      + intros ((A & B & C) & u & v & Eu & Ev & F). repeat split; auto. intros e' Ge _. rewrite G in Ge. injection Ge as <-. unfold near in F. destruct v as [v|]; [|discriminate]. exists (sel (ref_first args) (ua, ub)), p, u, v. rewrite (observed_imaged m ua ub _ Hp). repeat split; auto. unfold unit_of. destruct (Rleb_spec (norm2 u v) (e * (if scaled args then width (m_cam m (ref_first args)) else 1))); [assumption|discriminate].
      + intros (A & B & C & D). split; [auto|]. destruct (D e G N) as (o & p' & u & v & Eo & Ep & Eu & Ev & F). rewrite (observed_imaged m ua ub _ Hp) in Eo. injection Eo as <-. rewrite Pr in Ep. injection Ep as <-. exists u, (Some v). repeat split; auto. unfold near, unit_of in *. destruct (Rleb_spec (norm2 u v) (e * (if scaled args then width (m_cam m (ref_first args)) else 1))); [reflexivity|contradiction].
    - injection E1 as <-. split; [exact L0|]. intros i. rewrite B0. rewrite given_none in G. assert (accurate args m i) by (intros e Ge N; exfalso; apply N, G, Ge). intuition. }
  clear E0 E1 B0 L0 mask0. destruct K1 as [L1 B1].
  match type of H with (let* _ := ?X in _) = _ => destruct X as [mask2|] eqn:E2; [|discriminate] end. cbn [bind] in H.
  assert (K2 : length mask2 = length ua /\ forall i, bit mask2 i = true <-> (i < length ua)%nat /\ meets args order m i).
  { unfold meets. destruct (given (max_distance args)) as [d|] eqn:G.
    - apply given_some in G. destruct G as [G N]. destruct (existsb (fun b => b) mask1) eqn:Any.
      + rewrite !(observed_imaged m ua ub _ Hp) in E2. cbn [bind] in E2. injection E2 as <-.
        assert (Lo : forall f, length (sel f (ua, ub)) = length ua) by (intros []; cbn; auto).
        unfold refine. split; [rewrite and_mask_length; [exact L1|rewrite map2_length; congruence]|]. intros i. rewrite bit_and, andb_true_iff, B1, bit_map2. split.
        * intros ((A & B & C & D) & u & v & Eu & Ev & F). repeat split; auto. intros d' Gd _. rewrite G in Gd. injection Gd as <-. exists (sel (ref_first args) (ua, ub)), (sel (negb (ref_first args)) (ua, ub)), u, v. rewrite !(observed_imaged m ua ub _ Hp). repeat split; auto. unfold unit_of. match type of F with Rleb ?x ?y = true => destruct (Rleb_spec x y) as [Q|]; [exact Q|discriminate] end.
        * intros (A & B & C & D & Q). split; [auto|]. destruct (Q d G N) as (o & q & u & v & Eo & Eq & Eu & Ev & F). rewrite (observed_imaged m ua ub _ Hp) in Eo. rewrite (observed_imaged m ua ub _ Hp) in Eq. injection Eo as <-. injection Eq as <-. exists u, v. repeat split; auto. unfold unit_of in F. match goal with |- Rleb ?x ?y = true => destruct (Rleb_spec x y) as [_|Z]; [reflexivity|exfalso; apply Z; exact F] end.
      + injection E2 as <-. split; [exact L1|]. intros i. assert (Z : bit mask1 i = false). { clear -Any. unfold bit. revert i. induction mask1 as [|b m1 IH]; intros [|i]; try reflexivity; cbn in *; apply orb_false_iff in Any; [apply Any|apply IH, Any]. }
        split; [congruence|]. intros (A & B & C & D & _). assert (bit mask1 i = true) by (apply B1; auto). congruence.
    - injection E2 as <-. split; [exact L1|]. intros i. rewrite B1. rewrite given_none in G. assert (close args m i) by (intros d Gd N; exfalso; apply N, G, Gd). intuition. }
  clear E2 B1 L1 mask1. destruct K2 as [L2 B2]. injection H as <-. cbn [m_uvs m_weights m_type m_a m_b m_xys m_imgszs m_internals option_map fst snd]. do 6 (split; [reflexivity|]). split.
  - eexists; eexists. split; [reflexivity|]. split; apply keep_chosen; auto; [congruence|]. intros i. now rewrite B2, <- L.
  - destruct (m_weights m) as [w|]; cbn [option_map]; [|exact I]. specialize (Lw w eq_refl). apply keep_chosen; [congruence|]. intros i. now rewrite B2, <- Lw.
Qed.
Print Assumptions filter_keeps.
(** It fails exactly if weights are needed and missing, or errors are needed and the cameras are apart. *)
Theorem filter_fails args order m ua ub : pairs m ua ub ->
  (exists e, m_filter args order m = Err e) <->
  (m_weights m = None /\ ((exists k, n_best args = Some k /\ k <> 0%nat) \/ (exists lo, min_weight args = Some lo /\ lo <> 0))) \/
  ((exists e, max_error args = Some e /\ e <> 0) /\ differ (get_xyz (m_a m)) (get_xyz (m_b m)) = true).
Proof.
  intros Hp. pose proof Hp as (T & U & L & Lw). unfold m_filter. rewrite T, U. cbn [bind].
  assert (NB : (exists k, n_best args = Some k /\ k <> 0%nat) <-> match n_best args with Some (S k) => Some (S k) | _ => None end <> None) by (destruct (n_best args) as [[|k]|]; split; try congruence; try (intros (? & E & N); congruence); intros _; exists (S k); auto).
  assert (GV : forall x, (exists v, x = Some v /\ v <> 0) <-> given x <> None) by (intros x; split; [intros (v & H); apply given_some in H; congruence|]; destruct (given x) as [v|] eqn:G; [|congruence]; intros _; exists v; now apply given_some).
  rewrite NB, !GV. clear NB GV.
  assert (Pr : (exists p, m_predicted (ref_first args) m = Ok p) /\ differ (get_xyz (m_a m)) (get_xyz (m_b m)) = false \/ (exists e, m_predicted (ref_first args) m = Err e) /\ differ (get_xyz (m_a m)) (get_xyz (m_b m)) = true) by (unfold m_predicted, test_position; rewrite T, U; destruct (differ (get_xyz (m_a m)) (get_xyz (m_b m))); cbn [bind]; [right|left]; eauto).
  set (n := match n_best args with Some (S k) => Some (S k) | _ => None end). clearbody n.
  rewrite !(observed_pairs m ua ub _ Hp). cbn [bind].
  destruct (m_weights m) as [w|], n as [k|], (given (min_weight args)) as [lo|]; cbn [bind];
  (destruct (given (max_error args)) as [er|]; cbn [bind]);
  try (destruct Pr as [((p & Pe) & D)|((e & Pe) & D)]; rewrite Pe, D; cbn [bind]);
  try destruct (given (max_distance args)) as [d|]; try destruct (existsb (fun b => b) _); cbn [bind];
  (split; [intros (e0 & E); try discriminate E|intros [[Q1 Q2]|[Q1 Q2]]]);
  try (left; split; [reflexivity|]; solve [left; discriminate|right; discriminate]);
  try (right; split; [discriminate|reflexivity]); try discriminate; try contradiction; try (destruct Q2; contradiction); eauto.
Qed.

(** *** Only the best *)
(** [order] sorts by falling weight *)
Definition by_weight (w : list R) (order : list nat) : Prop := Permutation order (seq 0 (length w)) /\ StronglySorted (fun i j => nth j w 0 <= nth i w 0) order.
Lemma sorted_nodup idx : StronglySorted lt idx -> NoDup idx.
Proof. induction 1 as [|a l S IH F]; constructor; auto. intros Hi. rewrite Forall_forall in F. specialize (F a Hi). lia. Qed.
Lemma firstn_skipn_le {A} (Q : A -> A -> Prop) l k x y : StronglySorted Q l -> In x (firstn k l) -> In y (skipn k l) -> Q x y.
Proof.
  intros S. revert k. induction S as [|a l S IH F]; intros [|k] Hx Hy; try destruct Hx; cbn in *; [|apply (IH k); auto]. subst a. rewrite Forall_forall in F. apply F. rewrite <- (firstn_skipn k l). apply in_or_app. now right.
Qed.
Theorem filter_n_best m ua ub w order k first m' : pairs m ua ub -> m_weights m = Some w -> by_weight w order -> k <> 0%nat ->
  m_filter (mkfilter (Some k) None first None None false) order m = Ok m' ->
  exists w' ua', m_weights m' = Some w' /\ (exists ub', m_uvs m' = Some (ua', ub')) /\ length ua' = Nat.min k (length ua) /\ length w' = Nat.min k (length ua) /\
    exists kept, chosen (fun i => In i kept) ua ua' /\ chosen (fun i => In i kept) w w' /\ forall i j, In i kept -> (j < length ua)%nat -> ~ In j kept -> nth j w 0 <= nth i w 0.
Proof.
  intros Hp Hw [Po So] Hk H. pose proof Hp as (T & U & L & Lw). specialize (Lw w Hw). rewrite Lw in Po. destruct (filter_keeps _ _ _ _ _ _ (pairs_imaged _ _ _ Hp) Po H) as (_ & _ & _ & _ & _ & _ & (ua' & ub' & U' & C1 & _) & C2). rewrite Hw in C2. destruct (m_weights m') as [w'|]; [|contradiction].
  assert (M : forall i, meets (mkfilter (Some k) None first None None false) order m i <-> In i (firstn k order)).
  { intros i. unfold meets, among_best, heavy, accurate, close. cbn. split; [intros (A & _); apply A; auto|]. intros A. repeat split; try discriminate. intros k' E _. now injection E as <-. }
  assert (IO : forall i, In i (firstn k order) -> (i < length ua)%nat) by (intros i Hi; assert (Q : In i order) by (rewrite <- (firstn_skipn k order); apply in_or_app; now left); apply (Permutation_in _ Po) in Q; apply in_seq in Q; lia).
  assert (ND : NoDup (firstn k order)) by (assert (N : NoDup order) by (apply (Permutation_NoDup (Permutation_sym Po)), seq_NoDup); rewrite <- (firstn_skipn k order) in N; clear -N; induction (firstn k order) as [|a l IH]; [constructor|]; inversion N; subst; constructor; [intros Hi; apply H1, in_or_app; now left|auto]).
  assert (Ln : forall A (l l' : list A), length l = length ua -> chosen (meets (mkfilter (Some k) None first None None false) order m) l l' -> length l' = Nat.min k (length ua)).
  { intros A l l' El (idx & S & I & E). apply (f_equal (@length _)) in E. rewrite !map_length in E. rewrite E. transitivity (length (firstn k order)).
    - apply Permutation_length, NoDup_Permutation; [now apply sorted_nodup|exact ND|]. intros i. rewrite I, M, El. intuition.
    - rewrite firstn_length. f_equal. rewrite (Permutation_length Po), seq_length. reflexivity. }
  assert (Ch : forall A (l l' : list A), chosen (meets (mkfilter (Some k) None first None None false) order m) l l' -> chosen (fun i => In i (firstn k order)) l l').
  { intros A l l' (idx & S & I & E). exists idx. split; [exact S|]. split; [|exact E]. intros i. rewrite I, M. reflexivity. }
  exists w', ua'. split; [reflexivity|]. split; [eauto|]. split; [eapply Ln; eauto|]. split; [eapply Ln; [|exact C2]; auto|]. exists (firstn k order). split; [auto|]. split; [auto|].
  intros i j Hi Hj Nj. apply (firstn_skipn_le (fun i j : nat => nth j w 0 <= nth i w 0) order k i j); auto. assert (Q : In j order) by (apply (Permutation_in _ (Permutation_sym Po)), in_seq; lia). rewrite <- (firstn_skipn k order) in Q. apply in_app_or in Q. destruct Q; [contradiction|assumption].
Qed.
Print Assumptions filter_n_best.

(** Refuted for the other types: filtering RotationMatches drops image coordinates but not the camera coordinates used for predictions, which no longer correspond:
    what is observed are the pairs that meet the limits, what is predicted are all the pairs as before. *)
Theorem rotation_filter_refuted args order m ua ub m' p : imaged m ua ub -> m_type m = RotationMatches -> Permutation order (seq 0 (length ua)) -> m_filter args order m = Ok m' ->
  (forall first, m_predicted first m' = m_predicted first m) /\
  (exists oa ob, m_observed true m' = Ok oa /\ m_observed false m' = Ok ob /\ chosen (meets args order m) ua oa /\ chosen (meets args order m) ub ob) /\
  (m_predicted true m' = Ok p -> length p = length ua).
Proof.
  intros Hp T Po H. destruct (filter_keeps _ _ _ _ _ _ Hp Po H) as (T' & Ea & Eb & Ex & _ & Ei & (ua' & ub' & U' & C1 & C2) & _).
  assert (P : forall first, m_predicted first m' = m_predicted first m) by (intros first; unfold m_predicted, test_internals, m_cam; now rewrite T', T, Ea, Eb, Ex, Ei).
  split; [exact P|]. split; [exists ua', ub'; unfold m_observed; rewrite T', T, U'; auto|]. rewrite P. apply (predicted_length m ua ub). exact Hp.
Qed.
Print Assumptions rotation_filter_refuted.
(** Matches and RotationMatches of lists of image coordinates, or RotationMatches of lists of camera coordinates, meet the hypothesis of the theorems. *)
Theorem new_imaged t a b uvs xys w m : t = Matches \/ t = RotationMatches -> uvs = None \/ xys = None -> new_matches t false a b uvs xys w = Ok m ->
  exists ua ub, m_uvs m = Some (ua, ub) /\ ((forall ws, w = Some ws -> length ws = length ua) -> imaged m ua ub).
Proof.
  intros T N E. unfold new_matches in E. destruct T as [-> | ->].
  - destruct uvs as [[ua ub]|]; [|discriminate]. unfold test_matches in E. destruct (length ua =? length ub)%nat eqn:L; [|discriminate]. apply Nat.eqb_eq in L. cbn [bind] in E. destruct (test_position a b); [|discriminate]. cbn [bind] in E. injection E as <-.
    exists ua, ub. split; [reflexivity|]. intros Hw. split; [left; reflexivity|]. auto.
  - destruct uvs as [[ua ub]|], xys as [[xa xb]|]; try discriminate; [destruct N; discriminate|..]; unfold test_matches in E.
    + destruct (length ua =? length ub)%nat eqn:L; [|discriminate]. apply Nat.eqb_eq in L. cbn [bind] in E. injection E as <-. exists ua, ub. split; [reflexivity|]. intros Hw. split; [|auto]. right. split; [reflexivity|]. eexists; eexists. split; [reflexivity|]. rewrite !map_length. auto.
    + destruct (length (map (xy_to_uv a) xa) =? length (map (xy_to_uv b) xb))%nat eqn:L; [|discriminate]. apply Nat.eqb_eq in L. cbn [bind] in E. injection E as <-. eexists; eexists. split; [reflexivity|]. intros Hw. split; [|auto]. right. split; [reflexivity|]. exists xa, xb. split; [reflexivity|]. rewrite !map_length in *. auto.
Qed.
Print Assumptions new_imaged.
(** Keeping the best of two leaves one observed and two predicted coordinates. *)
Example rotation_filter_ex : exists (ca cb : cam) (ua ub : list vec2) (w : list R) m m',
  new_matches RotationMatches false ca cb (Some (ua, ub)) None (Some w) = Ok m /\ imaged m ua ub /\
  m_filter (mkfilter (Some 1%nat) None true None None false) [1%nat; 0%nat] m = Ok m' /\ by_weight w [1%nat; 0%nat] /\
  (exists o p, m_observed true m' = Ok o /\ m_predicted true m' = Ok p /\ length o = 1%nat /\ length p = 2%nat).
Proof.
  exists P_Camera.excam, excam2, [(3, 1); (2, 1)], [(5, 1); (2, 1)], [1; 2]. eexists. eexists. split; [reflexivity|]. split.
  { split; [right; split; [reflexivity|eexists; eexists; split; [reflexivity|split; reflexivity]]|]. split; [reflexivity|]. split; [reflexivity|]. intros ws E. injection E as <-. reflexivity. }
  split; [reflexivity|]. split.
  - split; [apply perm_swap|]. repeat constructor; cbn; lra.
  - eexists; eexists. split; [reflexivity|]. split; [|split; [reflexivity|]].
    + unfold m_predicted. cbn [m_type m_a m_b m_uvs m_xys m_weights m_imgszs m_internals]. rewrite (test_position_same P_Camera.excam excam2 eq_refl). cbn [bind]. rewrite test_internals_same by reflexivity. cbn [bind]. reflexivity.
    + reflexivity.
Qed.
(** Filtering RotationMatchesXY leaves the coordinates that are observed and predicted as they are, and drops weights. *)
Theorem rotation_xy_filter_refuted args order m m' p q : m_type m = RotationMatchesXY -> m_uvs m = Some p -> m_xys m = Some q -> m_filter args order m = Ok m' -> m_xys m' = Some q /\ forall first, m_observed first m' = m_observed first m /\ m_predicted first m' = m_predicted first m.
Proof.
  intros T U X H. unfold m_filter in H. rewrite T, X, U in H. destruct q as [x y]. cbn [bind] in H.
  repeat match type of H with (let* _ := ?Z in _) = _ => destruct Z; [|discriminate]; cbn [bind] in H end. injection H as <-. cbn [m_xys]. split; [reflexivity|]. intros first. unfold m_observed, m_predicted, test_internals. cbn [m_type m_a m_b m_uvs m_xys m_weights m_imgszs m_internals]. rewrite T, X. split; reflexivity.
Qed.

(** ** Resizing Matches *)
Inductive m_op := MCam (first : bool) (o : cam_op) | MResize (size : option (list R * bool * R)).
(** A failed operation on a camera changes nothing, a failed resize of the matches may have resized the first camera. *)
Definition m_do (m : matches) (o : m_op) : matches :=
  match o with
  | MCam true o => match cam_step o (m_a m) with Ok c => set_cams m c (m_b m) | Err _ => m end
  | MCam false o => match cam_step o (m_b m) with Ok c => set_cams m (m_a m) c | Err _ => m end
  | MResize s => fst (m_resize s m)
  end.
Inductive m_history : matches -> matches -> Prop :=
| mh_refl m : m_history m m
| mh_step m q o : m_history m q -> sized (m_a (m_do q o)) -> sized (m_b (m_do q o)) -> m_history m (m_do q o).
Definition nz (s : vec2) : Prop := fst s <> 0 /\ snd s <> 0.
Definition mtracks (a0 b0 : cam) (ua0 ub0 : list vec2) (m : matches) : Prop :=
  m_type m = Matches /\ sized (m_a m) /\ sized (m_b m) /\ exists sa sb, nz sa /\ nz sb /\ m_imgszs m = Some (sa, sb) /\
  m_uvs m = Some (map (times (fst sa / width a0, snd sa / height a0)) ua0, map (times (fst sb / width b0, snd sb / height b0)) ub0).
Lemma rescale_eq old new uv : nz old -> rescale old new uv = (map (mul2 (div2 new old)) uv, new).
Proof.
  intros [N1 N2]. unfold rescale. rewrite <- (rescale_any (div2 new old) uv). unfold any_scale. destruct old as [a b], new as [c d]. unfold div2. cbn [fst snd] in *. destruct (Reqb_spec (c / a) 1) as [E|]; [|reflexivity]. destruct (Reqb_spec (d / b) 1) as [F|]; [|reflexivity]. cbn. f_equal. f_equal; [apply (f_equal (fun x => x * a)) in E; field_simplify in E; auto; lra|apply (f_equal (fun x => x * b)) in F; field_simplify in F; auto; lra].
Qed.
Lemma rescale_times c0 c s (uv : list vec2) : sized c0 -> nz s -> map (mul2 (div2 (size2 c) s)) (map (times (fst s / width c0, snd s / height c0)) uv) = map (times (ratio c c0)) uv.
Proof.
  intros [W H] [N1 N2]. rewrite map_map. apply map_ext. intros [x y]. unfold mul2, div2, times, ratio, size2. cbn [fst snd]. f_equal; field; auto.
Qed.
Lemma mresize_tracks a0 b0 ua ub size q q' r : sized a0 -> sized b0 -> mtracks a0 b0 ua ub q -> m_resize size q = (q', r) -> sized (m_a q') -> sized (m_b q') ->
  mtracks a0 b0 ua ub q' /\ (r = Ok tt -> m_uvs q' = Some (map (times (ratio (m_a q') a0)) ua, map (times (ratio (m_b q') b0)) ub)).
Proof.
  intros A0 B0 (T & Sa & Sb & sa & sb & Na & Nb & I & U) E A B. unfold m_resize in E. destruct (resize_cam size (m_a q)) as [a|] eqn:Ra.
  2:{ injection E as <- <-. split; [|discriminate]. repeat split; auto; try apply Sa; try apply Sb. exists sa, sb. auto. }
  unfold set_cams in E. cbn [m_imgszs m_uvs m_type m_b m_xys m_weights m_internals] in E. rewrite I, U in E. rewrite (rescale_eq sa (size2 a) _ Na), (rescale_times a0 a sa ua A0 Na) in E. destruct (resize_cam size (m_b q)) as [b|] eqn:Rb.
  - rewrite (rescale_eq sb (size2 b) _ Nb), (rescale_times b0 b sb ub B0 Nb) in E. injection E as <- <-. cbn [m_a m_b m_uvs] in *. split; [|auto]. split; [exact T|]. split; [exact A|]. split; [exact B|]. exists (size2 a), (size2 b). repeat split; auto; try apply A; apply B.
  - injection E as <- <-. cbn [m_a m_b m_uvs] in *. split; [|discriminate]. split; [exact T|]. split; [exact A|]. split; [exact B|]. exists (size2 a), sb. repeat split; auto; try apply A; apply Nb.
Qed.
Lemma m_history_tracks a0 b0 ua ub m q : sized a0 -> sized b0 -> m_history m q -> mtracks a0 b0 ua ub m -> mtracks a0 b0 ua ub q.
Proof.
  intros A0 B0 H. induction H as [m|m q o H IH A B]; intros T0; [exact T0|]. specialize (IH T0). destruct o as [[] o|s]; cbn [m_do] in *.
  - destruct (cam_step o (m_a q)) as [c|]; [|exact IH]. destruct IH as (T & Sa & Sb & R). repeat split; auto; try apply A; apply B.
  - destruct (cam_step o (m_b q)) as [c|]; [|exact IH]. destruct IH as (T & Sa & Sb & R). repeat split; auto; try apply A; apply B.
  - destruct (m_resize s q) as [q' r] eqn:E. apply (mresize_tracks a0 b0 ua ub s q q' r A0 B0 IH E A B).
Qed.
(** Whatever was done to the cameras and the matches before, resizing makes the image coordinates those at construction times the ratio of the image sizes, of each camera. *)
Theorem matches_resize_ratio a0 b0 ua ub w m q size q' : new_matches Matches false a0 b0 (Some (ua, ub)) None w = Ok m -> sized a0 -> sized b0 -> m_history m q -> m_resize size q = (q', Ok tt) -> sized (m_a q') -> sized (m_b q') ->
  m_uvs q' = Some (map (times (ratio (m_a q') a0)) ua, map (times (ratio (m_b q') b0)) ub) /\ m_weights q' = w.
Proof.
  intros E A0 B0 H R A B. unfold new_matches in E. destruct (test_matches false (Some (ua, ub))); [|discriminate]. cbn [bind] in E. destruct (test_position a0 b0); [|discriminate]. cbn [bind] in E. injection E as <-.
  assert (T0 : mtracks a0 b0 ua ub (mkmatches Matches a0 b0 (Some (ua, ub)) None w (Some (size2 a0, size2 b0)) None)).
  { split; [reflexivity|]. split; [exact A0|]. split; [exact B0|]. exists (size2 a0), (size2 b0). split; [exact A0|]. split; [exact B0|]. split; [reflexivity|]. cbn [m_uvs size2 fst snd]. apply (f_equal (@Some _)). destruct A0 as [W1 H1], B0 as [W2 H2]. apply (f_equal2 pair); [rewrite <- (map_id ua) at 1|rewrite <- (map_id ub) at 1]; apply map_ext; intros [x y]; unfold times; cbn; f_equal; field; auto. }
  split; [apply (mresize_tracks a0 b0 ua ub size q q' (Ok tt) A0 B0 (m_history_tracks a0 b0 ua ub _ q A0 B0 H T0) R A B); reflexivity|].
  assert (Wt : forall s x, m_weights (fst (m_resize s x)) = m_weights x).
  { intros s x. unfold m_resize. destruct (resize_cam s (m_a x)); [|reflexivity]. cbn [set_cams m_imgszs m_uvs m_b]. destruct (m_imgszs x) as [[sa sb]|]; [|reflexivity]. destruct (m_uvs x) as [[u v]|]; [|reflexivity]. destruct (rescale sa _ u). cbn [m_b]. destruct (resize_cam s (m_b x)); [|reflexivity]. destruct (rescale sb _ v). reflexivity. }
  assert (Wh : forall x y, m_history x y -> m_weights y = m_weights x).
  { induction 1 as [|x y o Hx IH _ _]; [reflexivity|]. rewrite <- IH. destruct o as [[] o|s]; cbn [m_do]; [destruct (cam_step o (m_a y)); reflexivity|destruct (cam_step o (m_b y)); reflexivity|apply Wt]. }
  specialize (Wt size q). rewrite R in Wt. cbn [fst] in Wt. rewrite Wt. apply (Wh _ _ H).
Qed.
Print Assumptions matches_resize_ratio.
(** Refuted for RotationMatches, which inherits resize: it raises after it has resized the first camera. *)
Theorem rotation_resize_refuted m size a : m_type m = RotationMatches -> m_imgszs m = None -> resize_cam size (m_a m) = Ok a -> m_resize size m = (set_cams m a (m_b m), Err AttributeError).
Proof. intros T I E. unfold m_resize. rewrite E. cbn [set_cams m_imgszs]. rewrite I. reflexivity. Qed.
(** ... and it never has the image sizes. *)
Theorem rotation_no_imgszs t a b uvs xys w m : t <> Matches -> new_matches t false a b uvs xys w = Ok m -> m_imgszs m = None.
Proof.
  intros N E. unfold new_matches in E. destruct t; [contradiction|..]; destruct uvs as [[u v]|], xys as [[x y]|]; try discriminate; (destruct (test_matches _ _); [|discriminate]); injection E as <-; reflexivity.
Qed.

(** Non-vacuity *)
Example matches_filter_ex : exists m m', new_matches Matches false P_Camera.excam excam2 (Some ([(3, 1); (2, 1)], [(5, 1); (2, 1)])) None (Some [1; 2]) = Ok m /\
  pairs m [(3, 1); (2, 1)] [(5, 1); (2, 1)] /\ m_filter (mkfilter (Some 1%nat) None true None None false) [1%nat; 0%nat] m = Ok m' /\ m_uvs m' = Some ([(2, 1)], [(2, 1)]) /\ m_weights m' = Some [2].
Proof.
  eexists; eexists. split; [unfold new_matches, test_matches; cbn [length Nat.eqb bind]; rewrite (test_position_same P_Camera.excam excam2 eq_refl); reflexivity|]. split; [repeat split; intros ws E; injection E as <-; reflexivity|]. split; [|split]; reflexivity.
Qed.
