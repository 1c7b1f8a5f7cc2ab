(** Property theorems about matching images in the computer's time zone: C115
    (src/glimpse/helpers.py pairwise_distance_datetimes, src/glimpse/track/tracker.py). *)
From Verif Require Import Base BaseLemmas HelpersModel NearestProofs TimeModel TimeSpec TimeProofs ZoneModel.
From Coq Require Import Sorting.Sorted.
Open Scope Z_scope.
Local Opaque Z.mul Z.div Z.modulo.

(** ** Specification *)
(** [off] has offset o (seconds) before second u0 of UTC time and o' from then on, within
    two days of local second t; offsets are at most a day, as is their difference *)
Definition one_change (off : Z -> Z) (t u0 o o' : Z) : Prop :=
  Z.abs o <= 86400 /\ Z.abs o' <= 86400 /\ Z.abs (o' - o) <= 86400 /\
  forall u, Z.abs (u - t) <= 172800 -> off u = if u <? u0 then o else o'.
(** the change seen from datetime t in microseconds *)
Definition changes (off : Z -> Z) (u0 o o' t : Z) : Prop := one_change off (t / 1000000) u0 o o'.

Lemma mktime_one off t u0 o o' : one_change off t u0 o o' -> mktime off t = if t <? u0 + Z.max o o' then t - o else t - o'.
Proof.
  intros (A & B & C & H). unfold mktime, local.
  assert (Ht : off t = if t <? u0 then o else o') by (apply H; lia).
  assert (Ho : off (t - o) = if t - o <? u0 then o else o') by (apply H; lia).
  assert (Ho' : off (t - o') = if t - o' <? u0 then o else o') by (apply H; lia).
  assert (Hb : off (t - o - 86400) = if t - o - 86400 <? u0 then o else o') by (apply H; lia).
  assert (Hb' : off (t - o' - 86400) = if t - o' - 86400 <? u0 then o else o') by (apply H; lia).
  clear H. rewrite Ht. replace (t + (if t <? u0 then o else o') - t) with (if t <? u0 then o else o') by lia.
  destruct (Z.ltb_spec t u0) as [L|L]; cbv zeta.
  - rewrite Ho. destruct (Z.ltb_spec (t - o) u0) as [L1|L1].
    + replace (t - o + o) with t by lia. rewrite Z.eqb_refl, Hb. destruct (Z.ltb_spec (t - o - 86400) u0); [|lia].
      replace (t - o - 86400 + o - (t - o - 86400)) with o by lia. rewrite Z.eqb_refl. destruct (Z.ltb_spec t (u0 + Z.max o o')); lia.
    + replace (t - o + o' - (t - o)) with o' by lia. rewrite Ho'. destruct (Z.eqb_spec (t - o + o') t) as [E|E].
      * rewrite Hb. destruct (Z.ltb_spec (t - o - 86400) u0) as [G|G].
        -- replace (t - o - 86400 + o - (t - o - 86400)) with o by lia. rewrite Z.eqb_refl. destruct (Z.ltb_spec t (u0 + Z.max o o')); lia.
        -- replace (t - o - 86400 + o' - (t - o - 86400)) with o by lia. rewrite Z.eqb_refl. destruct (Z.ltb_spec t (u0 + Z.max o o')); lia.
      * destruct (Z.ltb_spec (t - o') u0) as [G|G], (Z.ltb_spec t (u0 + Z.max o o')) as [K|K].
        -- destruct (Z.eqb_spec (t - o' + o) t); lia.
        -- destruct (Z.eqb_spec (t - o' + o) t); lia.
        -- destruct (Z.eqb_spec (t - o' + o') t); lia.
        -- destruct (Z.eqb_spec (t - o' + o') t); lia.
  - rewrite Ho'. destruct (Z.ltb_spec (t - o') u0) as [L1|L1].
    + replace (t - o' + o - (t - o')) with o by lia. rewrite Ho. destruct (Z.eqb_spec (t - o' + o) t) as [E|E].
      * rewrite Hb'. destruct (Z.ltb_spec (t - o' - 86400) u0) as [G|G]; [|lia].
        replace (t - o' - 86400 + o - (t - o' - 86400)) with o by lia. destruct (Z.eqb_spec o' o); [|lia]. destruct (Z.ltb_spec t (u0 + Z.max o o')); lia.
      * destruct (Z.ltb_spec (t - o) u0) as [G|G], (Z.ltb_spec t (u0 + Z.max o o')) as [K|K].
        -- destruct (Z.eqb_spec (t - o + o) t); lia.
        -- destruct (Z.eqb_spec (t - o + o) t); lia.
        -- destruct (Z.eqb_spec (t - o + o') t); lia.
        -- destruct (Z.eqb_spec (t - o + o') t); lia.
    + replace (t - o' + o') with t by lia. rewrite Z.eqb_refl, Hb'. destruct (Z.ltb_spec (t - o' - 86400) u0) as [G|G].
      * replace (t - o' - 86400 + o - (t - o' - 86400)) with o by lia. destruct (Z.eqb_spec o' o) as [E|E].
        -- destruct (Z.ltb_spec t (u0 + Z.max o o')); lia.
        -- rewrite Ho. destruct (Z.ltb_spec (t - o) u0) as [K|K].
           ++ destruct (Z.eqb_spec (t - o + o) t); [|lia]. destruct (Z.ltb_spec t (u0 + Z.max o o')); lia.
           ++ destruct (Z.eqb_spec (t - o + o') t); [lia|]. destruct (Z.ltb_spec t (u0 + Z.max o o')); lia.
      * replace (t - o' - 86400 + o' - (t - o' - 86400)) with o' by lia. rewrite Z.eqb_refl. destruct (Z.ltb_spec t (u0 + Z.max o o')); lia.
Qed.

(** C115: how a datetime is read when the clock changes once within two days: by the old
    offset before the later of the two local times of the change, else by the new one.
    With o = o' the clock does not change *)
Theorem zone_stamp : forall off t u0 o o', changes off u0 o o' t ->
  stamp off t = if t <? (u0 + Z.max o o') * 1000000 then t - o * 1000000 else t - o' * 1000000.
Proof.
  intros off t u0 o o' H. unfold stamp. rewrite (mktime_one _ _ _ _ _ H). pose proof (Z.div_mod t 1000000 ltac:(lia)) as D. pose proof (Z.mod_pos_bound t 1000000 ltac:(lia)) as M.
  destruct (Z.ltb_spec (t / 1000000) (u0 + Z.max o o')), (Z.ltb_spec t ((u0 + Z.max o o') * 1000000)); lia.
Qed.
Print Assumptions zone_stamp.

Lemma zone_match1_eq off d ts maxdt : zone_match1 (concat (pairwise_distance_datetimes off [d] ts)) maxdt = match1 (stamp off d) (map (stamp off) ts) maxdt.
Proof. unfold zone_match1, pairwise_distance_datetimes, match1. cbn [map concat]. rewrite app_nil_r, map_map. reflexivity. Qed.
Lemma mapM_ext {A B} (f g : A -> result B) l : (forall x, In x l -> f x = g x) -> mapM f l = mapM g l.
Proof. induction l as [|x l IH]; intros H; [reflexivity|]. cbn [mapM]. rewrite (H x) by (left; reflexivity). rewrite IH; [reflexivity|]. intros y Hy. apply H. right. exact Hy. Qed.
Lemma mapM_map {A B C} (f : B -> result C) (g : A -> B) l : mapM f (map g l) = mapM (fun x => f (g x)) l.
Proof. induction l as [|x l IH]; [reflexivity|]. cbn [map mapM]. rewrite IH. reflexivity. Qed.
Lemma zone_match_eq off obs ds maxdt : zone_match_datetimes off obs ds maxdt = match_datetimes (map (map (stamp off)) obs) (map (stamp off) ds) maxdt.
Proof.
  unfold zone_match_datetimes, match_datetimes. rewrite mapM_map. apply mapM_ext. intros d _. rewrite mapM_map. apply mapM_ext. intros ts _. apply zone_match1_eq.
Qed.

(** C115: in every time zone the match is the first image nearest by timestamp, if within maxdt *)
Theorem zone_match : forall off obs ds maxdt, Forall (fun ts => ts <> []) obs ->
  exists M, zone_match_datetimes off obs ds maxdt = Ok M /\ length M = length ds /\
  forall i d j ts, nth_error ds i = Some d -> nth_error obs j = Some ts ->
   exists row m, nth_error M i = Some row /\ length row = length obs /\ nth_error row j = Some m /\
    (forall k, m = Some k <-> nearest_at (stamp off d) (map (stamp off) ts) k /\ Z.abs (stamp off d - stamp off (nth k ts 0)) <= Z.abs maxdt) /\
    (m = None <-> forall t, In t ts -> Z.abs maxdt < Z.abs (stamp off d - stamp off t)).
Proof.
  intros off obs ds maxdt F. rewrite zone_match_eq.
  assert (F' : Forall (fun ts => ts <> []) (map (map (stamp off)) obs)).
  { apply Forall_forall. intros ts I. apply in_map_iff in I. destruct I as (ts0 & <- & I). rewrite Forall_forall in F. specialize (F _ I). destruct ts0; [congruence|discriminate]. }
  destruct (match_datetimes_ok _ (map (stamp off) ds) maxdt F') as (M & E & L & H). exists M. split; [exact E|]. rewrite map_length in L. split; [exact L|].
  intros i d j ts Hd Ht. destruct (H i (stamp off d) (map_nth_error _ _ _ Hd)) as (row & Er & Lr & Hr). rewrite map_length in Lr.
  destruct (Hr j (map (stamp off) ts) (map_nth_error _ _ _ Ht)) as (m & Em & E1). exists row, m. split; [exact Er|]. split; [exact Lr|]. split; [exact Em|].
  rewrite Forall_forall in F. assert (N : ts <> []) by (apply F, (nth_error_In _ _ Ht)).
  destruct (match1_spec (stamp off d) (map (stamp off) ts) maxdt) as (m' & E2 & P1 & P2); [destruct ts; [congruence|discriminate]|]. rewrite E1 in E2. injection E2 as <-. split.
  - intros k. rewrite (P1 k). split; intros [Q1 Q2]; (split; [exact Q1|]); destruct Q1 as (Lk & _); rewrite map_length in Lk.
    + rewrite (nth_indep _ 0 (stamp off 0)), map_nth in Q2 by (rewrite map_length; exact Lk). exact Q2.
    + rewrite (nth_indep _ 0 (stamp off 0)), map_nth by (rewrite map_length; exact Lk). exact Q2.
  - rewrite P2. split; intros Q t It.
    + apply Q, in_map, It.
    + apply in_map_iff in It. destruct It as (t0 & <- & I0). apply Q, I0.
Qed.
Print Assumptions zone_match.

Lemma dist_same off o d t : stamp off d = d - o -> stamp off t = t - o -> Z.abs (stamp off d - stamp off t) = Z.abs (d - t).
Proof. intros -> ->. f_equal. lia. Qed.
(** C115: when one offset applies to all datetimes involved, matching is by true differences *)
Theorem zone_constant : forall off o obs ds maxdt,
  (forall d, In d ds -> stamp off d = d - o) -> (forall ts t, In ts obs -> In t ts -> stamp off t = t - o) ->
  zone_match_datetimes off obs ds maxdt = match_datetimes obs ds maxdt /\
  zone_parse_datetimes off obs ds maxdt = parse_datetimes obs ds maxdt.
Proof.
  intros off o obs ds maxdt Hd Ht. split.
  - unfold zone_match_datetimes, match_datetimes. apply mapM_ext. intros d Id. apply mapM_ext. intros ts Is.
    unfold zone_match1, pairwise_distance_datetimes, match1. cbn [map concat]. rewrite app_nil_r.
    replace (map (fun y => Z.abs (stamp off d - stamp off y)) ts) with (map (fun t => Z.abs (d - t)) ts); [reflexivity|].
    apply map_ext_in. intros t It. symmetry. apply (dist_same off o); eauto.
  - unfold zone_parse_datetimes, parse_datetimes. destruct (negb (monotonic ds)); [reflexivity|]. cbv zeta.
    destruct (tracker_datetimes obs) as [all|e] eqn:Ea; [|reflexivity]. cbn [bind]. unfold pairwise_distance_datetimes. rewrite mapM_map.
    rewrite (mapM_ext _ (fun d => min_distance d all)); [reflexivity|]. intros d Id. unfold row_min, min_distance.
    replace (map (fun y => Z.abs (stamp off d - stamp off y)) all) with (map (fun t => Z.abs (d - t)) all); [reflexivity|].
    apply map_ext_in. intros t It. symmetry. apply (dist_same off o); [apply Hd, drop_dup_in, Id|].
    unfold tracker_datetimes in Ea. destruct obs as [|o1 obs]; [discriminate|]. injection Ea as <-. apply (proj1 (zunique_in _ _)) in It. apply (proj1 (in_concat (o1 :: obs) t)) in It. destruct It as (ts & I1 & I2). eauto.
Qed.
Print Assumptions zone_constant.

(** C115: whatever the time zone, differences are wrong by at most the range of offsets
    in force (range w): the match is within maxdt + w and within twice w of the nearest image,
    and without a match no image is within maxdt - w *)
Theorem zone_bound : forall off lo hi obs ds maxdt, Forall (fun ts => ts <> []) obs ->
  (forall d, In d ds -> lo <= d - stamp off d <= hi) -> (forall ts t, In ts obs -> In t ts -> lo <= t - stamp off t <= hi) ->
  exists M, zone_match_datetimes off obs ds maxdt = Ok M /\
  forall i d j ts row m, nth_error ds i = Some d -> nth_error obs j = Some ts -> nth_error M i = Some row -> nth_error row j = Some m ->
    (forall k, m = Some k -> (k < length ts)%nat /\ Z.abs (d - nth k ts 0) <= Z.abs maxdt + (hi - lo) /\
       forall t, In t ts -> Z.abs (d - nth k ts 0) <= Z.abs (d - t) + 2 * (hi - lo)) /\
    (m = None -> forall t, In t ts -> Z.abs maxdt - (hi - lo) < Z.abs (d - t)).
Proof.
  intros off lo hi obs ds maxdt F Hd Ht. destruct (zone_match off obs ds maxdt F) as (M & E & _ & H). exists M. split; [exact E|].
  intros i d j ts row m E1 E2 E3 E4. destruct (H i d j ts E1 E2) as (row' & m' & R1 & _ & R2 & P1 & P2). rewrite E3 in R1. injection R1 as <-. rewrite E4 in R2. injection R2 as <-.
  pose proof (Hd d (nth_error_In _ _ E1)) as Bd. assert (Bt : forall t, In t ts -> lo <= t - stamp off t <= hi) by (intros t It; apply (Ht ts t (nth_error_In _ _ E2) It)). split.
  - intros k Ek. apply P1 in Ek. destruct Ek as [(Lk & N & _) Q]. rewrite map_length in Lk. pose proof (Bt (nth k ts 0) (nth_In _ _ Lk)) as Bk. split; [exact Lk|]. split; [lia|].
    intros t It. specialize (N (stamp off t) (in_map _ _ _ It)). rewrite (nth_indep _ 0 (stamp off 0)), map_nth in N by (rewrite map_length; exact Lk). specialize (Bt t It). lia.
  - intros Em t It. specialize (proj1 P2 Em t It) as Q. specialize (Bt t It). lia.
Qed.
Print Assumptions zone_bound.

(** C115 finding: where clocks go forward by h seconds, every pair of images h apart with the
    first at a local time that is skipped is confused: asked for the second, exactly
    (maxdt = 0), the tracker takes the first, though the second has the requested datetime,
    and a requested time with no image counts as having one *)
Theorem zone_gap_refuted : forall off u0 o h t, 0 < h -> (u0 + o) * 1000000 <= t < (u0 + o + h) * 1000000 ->
  changes off u0 o (o + h) t -> changes off u0 o (o + h) (t + h * 1000000) ->
  zone_match_datetimes off [[t; t + h * 1000000]] [t + h * 1000000] 0 = Ok [[Some 0%nat]] /\
  match_datetimes [[t; t + h * 1000000]] [t + h * 1000000] 0 = Ok [[Some 1%nat]] /\
  zone_match_datetimes off [[t]] [t + h * 1000000] 0 = Ok [[Some 0%nat]] /\
  match_datetimes [[t]] [t + h * 1000000] 0 = Ok [[None]].
Proof.
  intros off u0 o h t Hh Ht C1 C2. assert (S1 : stamp off t = t - o * 1000000).
  { rewrite (zone_stamp _ _ _ _ _ C1). destruct (Z.ltb_spec t ((u0 + Z.max o (o + h)) * 1000000)); lia. }
  assert (S2 : stamp off (t + h * 1000000) = t - o * 1000000).
  { rewrite (zone_stamp _ _ _ _ _ C2). destruct (Z.ltb_spec (t + h * 1000000) ((u0 + Z.max o (o + h)) * 1000000)); lia. }
  rewrite !zone_match_eq. unfold match_datetimes, match1. cbn [map mapM]. rewrite S1, S2, !Z.sub_diag. cbn [map mapM bind Z.abs].
  split; [reflexivity|]. replace (t + h * 1000000 - t) with (h * 1000000) by lia. rewrite (Z.abs_eq (h * 1000000)) by lia. unfold argmin. cbn [argmin_from].
  split; [destruct (Z.ltb_spec 0 (h * 1000000)); [reflexivity|lia]|]. split; [reflexivity|]. cbn [bind nth]. destruct (Z.ltb_spec 0 (h * 1000000)); [reflexivity|lia].
Qed.
Print Assumptions zone_gap_refuted.

(** C115 finding: where clocks go back by h seconds, an image from before the repeated hour
    ends and a requested time from after are taken to be h further apart than they are: no
    match when maxdt is between their difference and h more *)
Theorem zone_fold_refuted : forall off u0 o h t d maxdt, 0 < h -> t < (u0 + o) * 1000000 <= d ->
  changes off u0 o (o - h) t -> changes off u0 o (o - h) d -> d - t <= maxdt < d - t + h * 1000000 ->
  zone_match_datetimes off [[t]] [d] maxdt = Ok [[None]] /\ match_datetimes [[t]] [d] maxdt = Ok [[Some 0%nat]].
Proof.
  intros off u0 o h t d maxdt Hh Ht C1 C2 Hm. assert (S1 : stamp off t = t - o * 1000000).
  { rewrite (zone_stamp _ _ _ _ _ C1). destruct (Z.ltb_spec t ((u0 + Z.max o (o - h)) * 1000000)); lia. }
  assert (S2 : stamp off d = d - (o - h) * 1000000).
  { rewrite (zone_stamp _ _ _ _ _ C2). destruct (Z.ltb_spec d ((u0 + Z.max o (o - h)) * 1000000)); lia. }
  rewrite zone_match_eq. unfold match_datetimes, match1. cbn [map mapM]. rewrite S1, S2. cbn [map mapM bind]. unfold argmin. cbn [argmin_from bind nth]. split.
  - destruct (Z.ltb_spec (Z.abs maxdt) (Z.abs (d - (o - h) * 1000000 - (t - o * 1000000)))); [reflexivity|lia].
  - destruct (Z.ltb_spec (Z.abs maxdt) (Z.abs (d - t))); [lia|reflexivity].
Qed.
Print Assumptions zone_fold_refuted.

(** New York, 2020: clocks go forward on March 8 at 07:00 UTC (from UTC-5 to UTC-4) and back on November 1 at 06:00 UTC *)
Definition new_york (u : Z) : Z := if u <? 1583650800 then -18000 else if u <? 1604210400 then -14400 else -18000.
(** 02:30 does not exist on March 8: read as 03:30 *)
Example new_york_gap : stamp new_york 1583634600000000 = stamp new_york 1583638200000000 /\
  changes new_york 1583650800 (-18000) (-18000 + 3600) 1583634600000000.
Proof.
  split; [vm_compute; reflexivity|]. replace (-18000 + 3600) with (-14400) by lia. unfold changes, one_change. replace (1583634600000000 / 1000000) with 1583634600 by reflexivity.
  repeat split; try lia. intros u Hu. unfold new_york. destruct (Z.ltb_spec u 1583650800); [reflexivity|]. destruct (Z.ltb_spec u 1604210400); lia.
Qed.
Example new_york_match : zone_match_datetimes new_york [[1583634600000000; 1583638200000000]] [1583638200000000] 0 = Ok [[Some 0%nat]].
Proof. vm_compute. reflexivity. Qed.
(** 01:59:59 and 02:00:00 on November 1, a second apart in naive time, count as an hour and a second *)
Example new_york_fold : stamp new_york 1604196000000000 - stamp new_york 1604195999000000 = 3601000000.
Proof. vm_compute. reflexivity. Qed.
Example utc_constant : forall t, stamp (fun _ => 0) t = t - 0.
Proof.
  intros t. rewrite (zone_stamp _ _ 0 0 0); [destruct (_ <? _); lia|]. unfold changes, one_change. repeat split; try lia. intros u _. destruct (_ <? _); reflexivity.
Qed.
