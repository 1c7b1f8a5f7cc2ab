(** The loop over rings. *)
From Verif Require Import Base BaseLemmas HelpersModel InterpModel InterpProofs ViewModel ViewProofs.
From Coq Require Import Sorting.Permutation Sorting.Sorted.
Open Scope R_scope.

Definition cmix (w : R) (p q : option R) : option R := if Reqb w 0 then p else olift2 (fun a b => a + (b - a) * w) p q.
Definition tw (a b : R) : R := Rmod (b - a) (2 * PI).

Lemma two_PI_pos : 0 < 2 * PI.
Proof. pose proof PI_RGT_0. lra. Qed.
Lemma Rmod_0_sym a b P : 0 < P -> Rmod (a - b) P = 0 -> Rmod (b - a) P = 0.
Proof.
  intros H E. destruct (Rmod_eq (a - b) P H) as [n En]. rewrite E in En. apply (Rmod_unique _ P 0 n H); [lra|]. lra.
Qed.
Lemma nth_map_in {A B} (f : A -> B) l k a b : (k < length l)%nat -> nth k (map f l) b = f (nth k l a).
Proof. intros H. rewrite (nth_indep _ b (f a)) by (rewrite map_length; exact H). apply map_nth. Qed.

Lemma interp_cells (heading : nat -> R) rp h : rp <> [] -> exists a b w, In a rp /\ In b rp /\ 0 <= w < 1
  /\ (forall c, In c rp -> tw (heading a) h <= tw (heading c) h) /\ (forall c, In c rp -> tw h (heading b) <= tw h (heading c))
  /\ forall m, interp_period (2 * PI) h (map heading rp) (map m rp) = cmix w (m a) (m b).
Proof.
  intros N. destruct (interp_period_mix (2 * PI) h (map heading rp) two_PI_pos) as (i & j & w & Li & Lj & W & Hi & Hj & H0 & V).
  { destruct rp; [congruence|discriminate]. }
  rewrite map_length in *. unfold from_, to_ in *.
  assert (NH : forall k, (k < length rp)%nat -> nth k (map heading rp) 0 = heading (nth k rp 0%nat)) by (intros; apply nth_map_in; auto).
  assert (F : forall c, In c rp -> tw (heading (nth i rp 0%nat)) h <= tw (heading c) h).
  { intros c Hc. destruct (In_nth _ _ 0%nat Hc) as (k & Lk & <-). specialize (Hi k Lk). rewrite !NH in Hi by auto. exact Hi. }
  assert (Val : forall m, interp_period (2 * PI) h (map heading rp) (map m rp) = cmix w (m (nth i rp 0%nat)) (m (nth j rp 0%nat))).
  { intros m. rewrite V. unfold mix, cmix. rewrite !(nth_map_in m rp _ 0%nat) by auto. reflexivity. }
  destruct (Req_dec w 0) as [Z|Z].
  - exists (nth i rp 0%nat), (nth i rp 0%nat), w. split; [apply nth_In; exact Li|]. split; [apply nth_In; exact Li|]. split; [exact W|]. split; [exact F|]. split.
    + intros c Hc. specialize (H0 Z). rewrite NH in H0 by exact Li. unfold tw.
      replace (Rmod (heading (nth i rp 0%nat) - h) (2 * PI)) with 0 by (symmetry; apply Rmod_0_sym; [apply two_PI_pos|exact H0]).
      apply Rmod_range, two_PI_pos.
    + intros m. rewrite Val. unfold cmix. replace (Reqb w 0) with true by (symmetry; apply Reqb_true; exact Z). reflexivity.
  - exists (nth i rp 0%nat), (nth j rp 0%nat), w. split; [apply nth_In; exact Li|]. split; [apply nth_In; exact Lj|]. split; [exact W|]. split; [exact F|]. split; [|exact Val].
    intros c Hc. destruct (In_nth _ _ 0%nat Hc) as (k & Lk & <-). specialize (Hj Z k Lk). rewrite !NH in Hj by auto. exact Hj.
Qed.

(** one step, as functions of the cell *)
Definition sees (e m : option R) : bool :=
  match e with None => false | Some v => match m with None => true | Some w => Rltb w v end end.
Definition Mi (heading : nat -> R) (rp : list nat) (m : nat -> option R) (k : nat) : option R :=
  interp_period (2 * PI) (heading k) (map heading rp) (map m rp).
Definition m' heading (elev : nat -> option R) rp m (k : nat) : option R :=
  if sees (elev k) (Mi heading rp m k) then elev k else Mi heading rp m k.
Fixpoint vloop (heading : nat -> R) (elev : nat -> option R) (rp : list nat) (m : nat -> option R) (rings : list (list nat)) : list (nat * bool) :=
  match rings with
  | [] => []
  | rix :: rest => map (fun k => (k, sees (elev k) (Mi heading rp m k))) rix ++ vloop heading elev rix (m' heading elev rp m) rest
  end.

Lemma map2_map {A B C D} (f : B -> C -> D) (g : A -> B) (h : A -> C) l : map2 f (map g l) (map h l) = map (fun a => f (g a) (h a)) l.
Proof. induction l; cbn; congruence. Qed.
Lemma combine_map {A B C} (g : A -> B) (h : A -> C) l : combine (map g l) (map h l) = map (fun a => (g a, h a)) l.
Proof. induction l; cbn; congruence. Qed.
Lemma combine_map_r {A B} (h : A -> B) l : combine l (map h l) = map (fun a => (a, h a)) l.
Proof. induction l; cbn; congruence. Qed.
Lemma count_le (p q : nat -> bool) l : (forall a, In a l -> q a = true -> p a = true) ->
  (count_true (map q l) <= count_true (map p l))%nat /\ (count_true (map p l) = count_true (map q l) -> forall a, In a l -> p a = q a).
Proof.
  unfold count_true. induction l as [|a l IH]; intros H; [split; [cbn; lia|intros _ a []]|].
  destruct IH as [I1 I2]; [intros; apply H; [right|]; auto|]. specialize (H a (or_introl eq_refl)). cbn [map filter].
  destruct (p a) eqn:Ep, (q a) eqn:Eq; cbn [length]; split; try lia; intros E; try (intros b [<-|Hb]; [congruence|apply I2; [lia|exact Hb]]); try lia.
Qed.
Lemma cmix_none w p q : cmix w p q = None -> p = None \/ q = None.
Proof. unfold cmix. destruct (Reqb w 0); [auto|]. destruct p, q; cbn; auto; discriminate. Qed.

Lemma view_loop_eq heading elev rings : forall rp m hn, rp <> [] -> (hn = false -> forall a, In a rp -> m a <> None) -> Forall (fun r => r <> []) rings ->
  view_loop heading elev (map heading rp) (map m rp) hn rings = vloop heading elev rp m rings.
Proof.
  induction rings as [|rix rest IH]; intros rp m hn N I F; [reflexivity|]. inversion F as [|? ? N' F']; subst. cbn [view_loop vloop].
  rewrite !map_map. fold (Mi heading rp m). rewrite map2_map.
  assert (NN : hn = false -> forall k, Mi heading rp m k <> None).
  { intros Hh k E. unfold Mi in E. destruct (interp_cells heading rp (heading k) N) as (a & b & w & Ha & Hb & _ & _ & _ & V). rewrite V in E.
    apply cmix_none in E. specialize (I Hh). destruct E as [E|E]; [apply (I a Ha E)|apply (I b Hb E)]. }
  destruct hn.
  - rewrite !map2_map, combine_map. rewrite map2_map.
    assert (Ev : forall k, gt_opt (elev k) (Mi heading rp m k) || isnan (Mi heading rp m k) && negb (isnan (elev k)) = sees (elev k) (Mi heading rp m k)).
    { intros k. destruct (elev k), (Mi heading rp m k); cbn; try reflexivity. rewrite orb_false_r. reflexivity. }
    rewrite (map_ext _ _ Ev). rewrite combine_map_r. f_equal.
    erewrite (map_ext _ (m' heading elev rp m)).
    2:{ intros k. unfold m'. rewrite Ev. cbn. destruct (sees _ _); reflexivity. }
    apply IH; auto. intros Hh. apply negb_false_iff, Nat.eqb_eq in Hh.
    destruct (count_le (fun k => isnan (Mi heading rp m k)) (fun k => isnan (Mi heading rp m k) && negb (isnan (elev k))) rix) as [_ C].
    { intros a _ H. apply andb_true_iff in H. tauto. }
    specialize (C Hh). intros a Ha. specialize (C a Ha). unfold m'. destruct (Mi heading rp m a) as [w|]; cbn in C.
    + destruct (elev a); cbn; [destruct (Rltb _ _)|]; discriminate.
    + destruct (elev a); cbn in *; discriminate.
  - rewrite combine_map, map2_map.
    assert (Ev : forall k, gt_opt (elev k) (Mi heading rp m k) = sees (elev k) (Mi heading rp m k)).
    { intros k. specialize (NN eq_refl k). destruct (elev k), (Mi heading rp m k); cbn; congruence. }
    rewrite (map_ext _ _ Ev). rewrite combine_map_r. f_equal.
    erewrite (map_ext _ (m' heading elev rp m)).
    2:{ intros k. unfold m'. rewrite Ev. cbn. destruct (sees _ _); reflexivity. }
    apply IH; auto. intros _ a _. unfold m'. specialize (NN eq_refl a). destruct (sees (elev a) (Mi heading rp m a)) eqn:E; [|exact NN].
    destruct (elev a); [discriminate|cbn in E; discriminate].
Qed.

Definition vrings heading elev rings :=
  match rings with [] => [] | rix :: rest => map (fun k => (k, negb (isnan (elev k)))) rix ++ vloop heading elev rix elev rest end.
Lemma view_rings_eq heading elev rings : Forall (fun r => r <> []) rings -> view_rings heading elev rings = vrings heading elev rings.
Proof.
  intros F. destruct rings as [|rix rest]; [reflexivity|]. inversion F; subst. cbn [view_rings vrings]. rewrite map_map, combine_map_r. f_equal.
  apply view_loop_eq; auto. intros H a Ha E. assert (existsb isnan (map elev rix) = true).
  { apply existsb_exists. exists (elev a). split; [apply in_map; exact Ha|rewrite E; reflexivity]. } congruence.
Qed.
Lemma vloop_keys heading elev rings : forall rp m, map fst (vloop heading elev rp m rings) = concat rings.
Proof. induction rings as [|r rings IH]; intros rp m; cbn; [reflexivity|]. rewrite map_app, IH, map_map, map_id. reflexivity. Qed.
Lemma vrings_keys heading elev rings : map fst (vrings heading elev rings) = concat rings.
Proof. destruct rings as [|r rings]; cbn; [reflexivity|]. rewrite map_app, vloop_keys, map_map, map_id. reflexivity. Qed.

(** A: a cell with a steeper line of sight than all before it is seen *)
Lemma cmix_le w p q u : 0 <= w < 1 -> cmix w p q = Some u -> exists v, (p = Some v \/ q = Some v) /\ u <= v.
Proof.
  intros W. unfold cmix. destruct (Reqb w 0); [intros ->; exists u; split; [auto|lra]|]. destruct p as [a|], q as [b|]; cbn; try discriminate.
  intros E. injection E as <-. destruct (Rle_dec a b); [exists b|exists a]; split; auto; nra.
Qed.
Lemma cmix_ge w p q v : 0 <= w < 1 -> (exists u, p = Some u /\ v <= u) -> (exists u, q = Some u /\ v <= u) -> exists u, cmix w p q = Some u /\ v <= u.
Proof.
  intros W (a & -> & Ha) (b & -> & Hb). unfold cmix. destruct (Reqb w 0); [eauto|]. cbn. eexists. split; [reflexivity|]. nra.
Qed.
Lemma vloop_above heading elev k v : elev k = Some v -> forall A rix B rp m (S : list nat), rp <> [] -> Forall (fun r => r <> []) A ->
  (forall a u, In a rp -> m a = Some u -> exists c y, In c S /\ elev c = Some y /\ u <= y) ->
  In k rix -> (forall c u, In c (S ++ concat A) -> elev c = Some u -> u < v) ->
  In (k, true) (vloop heading elev rp m (A ++ rix :: B)).
Proof.
  intros Ek A. induction A as [|r A IH]; intros rix B rp m S N F Bd Hk H.
  - cbn [app vloop]. apply in_or_app. left. apply in_map_iff. exists k. split; [|exact Hk]. f_equal. rewrite Ek. cbn.
    destruct (Mi heading rp m k) as [w|] eqn:E; [|reflexivity]. apply Rltb_true. unfold Mi in E.
    destruct (interp_cells heading rp (heading k) N) as (a & b & t & Ha & Hb & W & _ & _ & V). rewrite V in E.
    destruct (cmix_le _ _ _ _ W E) as (u & Hu & Lu).
    assert (exists c y, In c S /\ elev c = Some y /\ u <= y) as (c & y & Hc & Ey & Ly) by (destruct Hu as [Hu|Hu]; [eapply (Bd a)|eapply (Bd b)]; eauto).
    specialize (H c y). rewrite app_nil_r in H. specialize (H Hc Ey). lra.
  - inversion F as [|? ? N' F']; subst. cbn [app vloop]. apply in_or_app. right. apply (IH rix B r (m' heading elev rp m) (S ++ r)); auto.
    + intros a u Ha E. unfold m' in E. destruct (sees (elev a) (Mi heading rp m a)) eqn:Es.
      * exists a, u. split; [apply in_or_app; right; exact Ha|]. split; [exact E|lra].
      * unfold Mi in E. destruct (interp_cells heading rp (heading a) N) as (p & q & t & Hp & Hq & W & _ & _ & V). rewrite V in E.
        destruct (cmix_le _ _ _ _ W E) as (x & Hx & Lx).
        assert (exists c y, In c S /\ elev c = Some y /\ x <= y) as (c & y & Hc & Ey & Ly) by (destruct Hx as [Hx|Hx]; [eapply (Bd p)|eapply (Bd q)]; eauto).
        exists c, y. split; [apply in_or_app; left; exact Hc|]. split; [exact Ey|lra].
    + intros c u Hc. apply H. cbn [concat]. rewrite app_assoc. exact Hc.
Qed.
(** B: a cell whose line of sight is not steeper than those to its neighbours in the preceding ring is hidden *)
Lemma vloop_below heading elev k v : elev k = Some v -> forall A rp' rix B rp m, rp <> [] -> rp' <> [] -> Forall (fun r => r <> []) A ->
  (forall a u, In a rp -> elev a = Some u -> exists w, m a = Some w /\ u <= w) ->
  In k rix ->
  (A = [] /\ rp' = rp \/ exists A', A = A' ++ [rp']) ->
  (forall c, In c rp' -> (forall d, In d rp' -> tw (heading c) (heading k) <= tw (heading d) (heading k)) -> exists u, elev c = Some u /\ v <= u) ->
  (forall c, In c rp' -> (forall d, In d rp' -> tw (heading k) (heading c) <= tw (heading k) (heading d)) -> exists u, elev c = Some u /\ v <= u) ->
  In (k, false) (vloop heading elev rp m (A ++ rix :: B)).
Proof.
  intros Ek A. induction A as [|r A IH]; intros rp' rix B rp m N N' F Bd Hk HA Hb Ha.
  - destruct HA as [[_ ->]|[A' HA]]; [|destruct A'; discriminate].
    cbn [app vloop]. apply in_or_app. left. apply in_map_iff. exists k. split; [|exact Hk]. f_equal. rewrite Ek. cbn.
    destruct (interp_cells heading rp (heading k) N) as (a & b & t & Ia & Ib & W & Na & Nb & V). unfold Mi. rewrite V.
    destruct (Hb a Ia Na) as (ua & Ea & La). destruct (Ha b Ib Nb) as (ub & Eb & Lb).
    destruct (Bd a ua Ia Ea) as (wa & Ma & Lwa). destruct (Bd b ub Ib Eb) as (wb & Mb & Lwb).
    destruct (cmix_ge t (m a) (m b) v W) as (u & Eu & Lu); [exists wa; split; [exact Ma|lra]|exists wb; split; [exact Mb|lra]|].
    rewrite Eu. apply Rltb_false. exact Lu.
  - inversion F as [|? ? Nr F']; subst. cbn [app vloop]. apply in_or_app. right. apply (IH rp' rix B r (m' heading elev rp m)); auto.
    + intros a u Ia Ea. unfold m'. rewrite Ea. cbn. destruct (Mi heading rp m a) as [w|]; [|eexists; split; [reflexivity|lra]].
      destruct (Rltb_spec w u) as [L|L]; eexists; (split; [reflexivity|lra]).
    + destruct HA as [[HA _]|[A' HA]]; [discriminate|]. destruct A' as [|a' A'].
      * cbn in HA. injection HA as -> ->. left. auto.
      * cbn in HA. injection HA as -> ->. right. eauto.
Qed.
(** C: monotonicity *)
Lemma cmix_mono w p q p' q' : 0 <= w < 1 -> (exists a a', p = Some a /\ p' = Some a' /\ a <= a') -> (exists b b', q = Some b /\ q' = Some b' /\ b <= b') ->
  exists c c', cmix w p q = Some c /\ cmix w p' q' = Some c' /\ c <= c'.
Proof.
  intros W (a & a' & -> & -> & Ha) (b & b' & -> & -> & Hb). unfold cmix. destruct (Reqb w 0); [eauto 6|]. cbn.
  do 2 eexists. split; [reflexivity|]. split; [reflexivity|]. nra.
Qed.
Definition ole (p p' : option R) : Prop := exists a a', p = Some a /\ p' = Some a' /\ a <= a'.
Lemma vloop_mono heading e e' k : forall A rix B rp m n, rp <> [] -> Forall (fun r => r <> []) A ->
  (forall a, In a rp -> ole (m a) (n a)) -> (forall a, In a (concat A) -> ole (e a) (e' a)) -> ole (e' k) (e k) ->
  In k rix -> exists b b', In (k, b) (vloop heading e rp m (A ++ rix :: B)) /\ In (k, b') (vloop heading e' rp n (A ++ rix :: B)) /\ (b' = true -> b = true).
Proof.
  assert (MM : forall rp m n c, rp <> [] -> (forall a, In a rp -> ole (m a) (n a)) -> ole (Mi heading rp m c) (Mi heading rp n c)).
  { intros rp m n c N H. unfold Mi. destruct (interp_cells heading rp (heading c) N) as (a & b & t & Ia & Ib & W & _ & _ & V). rewrite !V. apply cmix_mono; auto. apply H; auto. apply H; auto. }
  intros A. induction A as [|r A IH]; intros rix B rp m n N F Hm He Hk Ik.
  - cbn [app vloop]. exists (sees (e k) (Mi heading rp m k)), (sees (e' k) (Mi heading rp n k)).
    split; [apply in_or_app; left; apply in_map_iff; exists k; auto|]. split; [apply in_or_app; left; apply in_map_iff; exists k; auto|].
    destruct (MM rp m n k N Hm) as (c & c' & -> & -> & L). destruct Hk as (y' & y & -> & -> & Ly). cbn. rewrite !Rltb_true. lra.
  - inversion F as [|? ? N' F']; subst. cbn [app vloop].
    destruct (IH rix B r (m' heading e rp m) (m' heading e' rp n)) as (b & b' & H1 & H2 & H3); auto.
    + intros a Ia. assert (Ea : ole (e a) (e' a)) by (apply He; cbn; apply in_or_app; auto). pose proof (MM rp m n a N Hm) as Mo.
      unfold m'. destruct Ea as (y & y' & -> & -> & Ly). destruct Mo as (c & c' & -> & -> & Lc). cbn.
      destruct (Rltb_spec c y), (Rltb_spec c' y'); do 2 eexists; (split; [reflexivity|]; split; [reflexivity|lra]).
    + intros a Ia. apply He. cbn. apply in_or_app. auto.
    + exists b, b'. split; [apply in_or_app; right; exact H1|]. split; [apply in_or_app; right; exact H2|exact H3].
Qed.
