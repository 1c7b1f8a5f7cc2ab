(** Properties C68 (keypoints and their files) and C70 (match_keypoints). *)
From Coq Require Import String Sorting.Sorted.
From Verif Require Import Base BaseLemmas MatcherModel P_Matcher P_Matcher2.
Open Scope Z_scope.

Definition memory_of {K} (detected : list K) (memory : option (list (option K))) : list (option K) := match memory with Some ((_ :: _) as m) => m | _ => map (fun _ => None) detected end.
(** Keypoints of an image: those in memory, else those on file, else those detected. *)
Definition known {K} (detected : K) (mem : option K) (f : file K) : K := match mem, f with Some k, _ => k | None, Written k => k | None, _ => detected end.
(** Image i has detected keypoints d, keypoints m in memory and the file f *)
Definition image_state {K} (detected : list K) (memory : option (list (option K))) (files : list (file K)) (i : nat) (d : K) (m : option K) (f : file K) : Prop :=
  nth_error detected i = Some d /\ nth_error (memory_of detected memory) i = Some m /\ nth_error files i = Some f.

Lemma combine_nth_error {A B} : forall (l : list A) (l' : list B) i, nth_error (combine l l') i = match nth_error l i, nth_error l' i with Some x, Some y => Some (x, y) | _, _ => None end.
Proof. induction l as [|x l IH]; intros [|y l'] [|i]; cbn; auto. destruct (nth_error l i); reflexivity. Qed.
Lemma loop_ok {K} path overwrite clear : forall l : list (K * option K * file K),
  (forall d m f, In (d, m, f) l -> exists r, keypoints_step path overwrite clear d m f = Ok r) ->
  exists ks fs, keypoints_loop path overwrite clear l = (Ok ks, fs) /\ length ks = length l /\ length fs = length l /\
  forall i d m f, nth_error l i = Some (d, m, f) -> exists r, keypoints_step path overwrite clear d m f = Ok r /\ nth_error ks i = Some (fst r) /\ nth_error fs i = Some (snd r).
Proof.
  induction l as [|[[d m] f] l IH]; intros H; [exists [], []; repeat split; intros []; discriminate|]. destruct IH as (ks & fs & E & L1 & L2 & Hi); [intros; apply H; now right|]. destruct (H d m f (or_introl eq_refl)) as ([k f'] & Es).
  exists (k :: ks), (f' :: fs). cbn [keypoints_loop]. rewrite Es, E. cbn [bind length]. repeat split; try lia. intros [|i] d' m' f'' Hn; cbn in Hn.
  - injection Hn as <- <- <-. exists (k, f'). auto.
  - destruct (Hi i d' m' f'' Hn) as (r & A & B & C). exists r. auto.
Qed.
(** Without overwrite, and with no incomplete file to read: memory then holds the known keypoints of every image (unless cleared), missing
    files are written with them and existing files are left alone. *)
Theorem build_keypoints_result {K} (path clear : bool) (detected : list K) memory files :
  (clear = true -> path = true) -> length (memory_of detected memory) = length detected -> length files = length detected ->
  (path = true -> forall i d m, ~ image_state detected memory files i d m Partial) ->
  exists ks fs, build_keypoints path false clear detected memory files = (Ok ks, fs) /\ length ks = length detected /\ length fs = length detected /\
  forall i d m f, image_state detected memory files i d m f ->
    nth_error ks i = Some (if clear then None else Some (known d m (if path then f else Missing))) /\
    nth_error fs i = Some (match path, f with true, Missing => Written (known d m Missing) | _, _ => f end).
Proof.
  intros Hc Lm Lf NP. unfold build_keypoints. replace (clear && negb path)%bool with false; [|destruct clear; [rewrite (Hc eq_refl)|]; reflexivity].
  fold (memory_of detected memory). destruct (loop_ok path false clear (combine (combine detected (memory_of detected memory)) files)) as (ks & fs & E & L1 & L2 & H).
  - intros d m f I. apply In_nth_error in I as [i Ei]. rewrite !combine_nth_error in Ei. destruct (nth_error detected i) as [d'|] eqn:E1; [|discriminate]. destruct (nth_error (memory_of detected memory) i) as [m'|] eqn:E2; [|discriminate]. destruct (nth_error files i) as [f'|] eqn:E3; [|discriminate]. injection Ei as -> -> ->.
    unfold keypoints_step. destruct path; [|destruct m, f, clear; cbn; eauto]. destruct f; [destruct m, clear; cbn; eauto| |destruct m, clear; cbn; eauto]. exfalso. apply (NP eq_refl i d m). repeat split; assumption.
  - exists ks, fs. rewrite !combine_length, Lm, Lf, !Nat.min_id in L1, L2. split; [exact E|]. split; [exact L1|]. split; [exact L2|]. intros i d m f (E1 & E2 & E3).
    destruct (H i d m f) as (r & A & B & C); [now rewrite !combine_nth_error, E1, E2, E3|]. rewrite B, C. unfold keypoints_step in A.
    destruct path; [|destruct clear; [now specialize (Hc eq_refl)|]; destruct m, f; cbn in A; injection A as <-; cbn; auto].
    destruct f; [| exfalso; apply (NP eq_refl i d m); repeat split; assumption|]; destruct m, clear; cbn in A; injection A as <-; cbn; auto.
Qed.
(** Crash and resume: with nothing in memory, running again over the files left by an interrupted run (each missing or complete) gives the same keypoints and files as running once. *)
Theorem build_keypoints_resume {K} clear (detected : list K) files files' :
  length files = length detected -> length files' = length detected -> (forall i, nth_error files i <> Some Partial) ->
  (forall i d f, nth_error detected i = Some d -> nth_error files i = Some f -> nth_error files' i = Some f \/ nth_error files' i = Some (Written (known d None f))) ->
  build_keypoints true false clear detected None files' = build_keypoints true false clear detected None files.
Proof.
  intros L L' NP H. assert (Lm : length (memory_of detected None) = length detected) by (cbn; apply map_length).
  assert (NP' : forall i, nth_error files' i <> Some Partial).
  { intros i Q. destruct (nth_error detected i) as [d|] eqn:E; [|apply nth_error_None in E; assert (i < length files')%nat by (apply nth_error_Some; congruence); lia]. destruct (nth_error files i) as [f|] eqn:E'; [|apply nth_error_None in E'; assert (i < length files')%nat by (apply nth_error_Some; congruence); lia].
    destruct (H i d f E E') as [Q'|Q']; [apply (NP i); congruence|congruence]. }
  destruct (build_keypoints_result true clear detected None files) as (ks & fs & E & L1 & L2 & R); auto; [intros _ i d m (_ & _ & Q); now apply (NP i)|].
  destruct (build_keypoints_result true clear detected None files') as (ks' & fs' & E' & L1' & L2' & R'); auto; [intros _ i d m (_ & _ & Q); now apply (NP' i)|].
  rewrite E, E'.
  assert (Q : forall i, nth_error ks' i = nth_error ks i /\ nth_error fs' i = nth_error fs i).
  { intros i. destruct (nth_error detected i) as [d|] eqn:Ed.
    - assert (Li : (i < length detected)%nat) by (apply nth_error_Some; congruence). destruct (nth_error files i) as [f|] eqn:Ef; [|apply nth_error_None in Ef; lia].
      assert (Em : nth_error (memory_of detected None) i = Some None) by (cbn; rewrite nth_error_map, Ed; reflexivity).
      destruct (R i d None f) as [A B]; [repeat split; assumption|]. rewrite A, B. destruct (H i d f Ed Ef) as [Q|Q].
      + destruct (R' i d None f) as [A' B']; [repeat split; assumption|]. rewrite A', B'. auto.
      + destruct (R' i d None (Written (known d None f))) as [A' B']; [repeat split; assumption|]. rewrite A', B'. destruct f; [cbn; auto|exfalso; now apply (NP i)|cbn; auto].
    - apply nth_error_None in Ed. split; etransitivity; (apply nth_error_None || (symmetry; apply nth_error_None)); lia. }
  apply f_equal2; [apply (f_equal (@Ok _))|]; apply list_eq; intros i; apply Q.
Qed.
Print Assumptions build_keypoints_resume.
Example build_keypoints_ex : build_keypoints true false false [1; 2; 3] None [Missing; Written 20; Missing] = (Ok [Some 1; Some 20; Some 3], [Written 1; Written 20; Written 3])
  /\ build_keypoints true false false [1; 2; 3] None [Written 1; Written 20; Missing] = build_keypoints true false false [1; 2; 3] None [Missing; Written 20; Missing].
Proof. split; reflexivity. Qed.
(** An incomplete file, left by a crash while writing, makes the next run fail (unless keypoints are cleared: then it is kept as if complete). *)
Theorem build_keypoints_partial_file_refuted {K} (path overwrite clear : bool) (detected : list K) memory files :
  (clear = true -> path = true) -> length (memory_of detected memory) = length detected -> length files = length detected ->
  let unread i d := image_state detected memory files i d None Partial in
  ((path = true /\ clear = false /\ exists i d, unread i d) -> fst (build_keypoints path overwrite clear detected memory files) = Err ValueError) /\
  (~ (path = true /\ clear = false /\ exists i d, unread i d) -> exists ks, fst (build_keypoints path overwrite clear detected memory files) = Ok ks).
Proof.
  intros Hc Lm Lf unread. unfold build_keypoints. replace (clear && negb path)%bool with false; [|destruct clear; [rewrite (Hc eq_refl)|]; reflexivity].
  fold (memory_of detected memory). set (l := combine (combine detected (memory_of detected memory)) files).
  assert (I1 : forall i d m f, nth_error l i = Some (d, m, f) <-> image_state detected memory files i d m f).
  { intros i d m f. unfold l, image_state. rewrite !combine_nth_error. destruct (nth_error detected i), (nth_error (memory_of detected memory) i), (nth_error files i); (split; [intros Q; try discriminate; injection Q as -> -> ->; auto|intros (Q1 & Q2 & Q3); congruence]). }
  assert (St : forall (d : K) m f, (path = true /\ clear = false /\ m = None /\ f = Partial) /\ keypoints_step path overwrite clear d m f = Err ValueError \/ ~ (path = true /\ clear = false /\ m = None /\ f = Partial) /\ exists r, keypoints_step path overwrite clear d m f = Ok r).
  { intros d m f. unfold keypoints_step. destruct path, clear, m, f, overwrite; cbn; ((left; split; [tauto|reflexivity]) || (right; split; [intros (? & ? & ? & ?); discriminate|eauto])). }
  split.
  - intros (P & C & i & d & U). apply I1 in U. clear I1. revert i U. induction l as [|[[d' m'] f'] l' IH]; intros i U; [destruct i; discriminate|]. cbn [keypoints_loop]. destruct (St d' m' f') as [(_ & ->)|(N & r & ->)]; [reflexivity|]. destruct i as [|i]; cbn [nth_error] in U.
    + injection U as -> -> ->. exfalso. apply N. auto.
    + destruct r as [k f'']. specialize (IH i U). destruct (keypoints_loop path overwrite clear l') as [ks fs]. cbn in IH |- *. now rewrite IH.
  - intros N. destruct (loop_ok path overwrite clear l) as (ks & fs & E & _).
    + intros d m f I. apply In_nth_error in I as [i Ei]. destruct (St d m f) as [((P & C & -> & ->) & _)|(_ & R)]; [|exact R]. exfalso. apply N. split; [exact P|]. split; [exact C|]. exists i, d. now apply I1.
    + exists ks. now rewrite E.
Qed.
Example build_keypoints_partial_file_ex : build_keypoints true false false [1; 2; 3] None [Written 1; Partial; Missing] = (Err ValueError, [Written 1; Partial; Missing]) /\
  build_keypoints true false true [1; 2; 3] None [Written 1; Partial; Missing] = (Ok [None; None; None], [Written 1; Partial; Written 3]).
Proof. split; reflexivity. Qed.
(** What is left when a run fails on an incomplete file: the files of the images before it are as after a complete run, that file and those after it are as before.
    (What is in memory is not changed by a failing run.) *)
Lemma loop_failed {K} : forall (l : list (K * option K * file K)) e fs, keypoints_loop true false false l = (Err e, fs) ->
  exists j d, nth_error l j = Some (d, None, Partial) /\ (forall i d', (i < j)%nat -> nth_error l i <> Some (d', None, Partial)) /\ length fs = length l /\
  forall i d m f, nth_error l i = Some (d, m, f) -> nth_error fs i = Some (if (i <? j)%nat then match f with Missing => Written (known d m Missing) | _ => f end else f).
Proof.
  induction l as [|[[d m] f] l IH]; intros e fs E; [discriminate|]. cbn [keypoints_loop] in E. destruct (keypoints_step true false false d m f) as [[k f']|e0] eqn:Es.
  - destruct (keypoints_loop true false false l) as [ks fs0] eqn:El. destruct ks as [ks|e1]; [discriminate|]. cbn in E. injection E as <- <-. destruct (IH e1 fs0 eq_refl) as (j & d0 & A & B & C & D).
    exists (S j), d0. split; [exact A|]. split; [|split; [cbn; now rewrite C|]].
    + intros [|i] d' L Q; cbn in Q; [injection Q as -> -> ->; discriminate|]. apply (B i d'); [lia|exact Q].
    + intros [|i] d' m' f0 Q; cbn in Q.
      * injection Q as <- <- <-. cbn. destruct m, f; cbn in Es; try discriminate; injection Es as <- <-; reflexivity.
      * change (S i <? S j)%nat with (i <? j)%nat. now apply D.
  - injection E as <- <-. exists 0%nat, d. split; [destruct m, f; try discriminate; reflexivity|]. split; [intros i d' L; lia|]. split; [cbn; now rewrite map_length|].
    intros i d' m' f0 Q. change (i <? 0)%nat with false. cbv iota. change (f :: map snd l) with (map snd ((d, m, f) :: l)). rewrite nth_error_map, Q. reflexivity.
Qed.
Theorem build_keypoints_failed {K} (detected : list K) memory files e fs :
  length (memory_of detected memory) = length detected -> length files = length detected -> build_keypoints true false false detected memory files = (Err e, fs) ->
  let unread i d := image_state detected memory files i d None Partial in
  exists j d, unread j d /\ (forall i d', (i < j)%nat -> ~ unread i d') /\ length fs = length files /\
  forall i d m f, image_state detected memory files i d m f ->
    nth_error fs i = Some (if (i <? j)%nat then match f with Missing => Written (known d m Missing) | _ => f end else f).
Proof.
  intros Lm Lf E unread. unfold build_keypoints in E. cbn [andb negb] in E. fold (memory_of detected memory) in E. set (l := combine (combine detected (memory_of detected memory)) files) in *.
  assert (I1 : forall i d m f, nth_error l i = Some (d, m, f) <-> image_state detected memory files i d m f).
  { intros i d m f. unfold l, image_state. rewrite !combine_nth_error. destruct (nth_error detected i), (nth_error (memory_of detected memory) i), (nth_error files i); (split; [intros Q; try discriminate; injection Q as -> -> ->; auto|intros (Q1 & Q2 & Q3); congruence]). }
  destruct (loop_failed l e fs E) as (j & d & A & B & C & D). exists j, d. split; [now apply I1|]. split; [intros i d' L U; apply (B i d' L); now apply I1|].
  split; [rewrite C; unfold l; rewrite !combine_length, Lm, Lf, !Nat.min_id; reflexivity|]. intros i d0 m f U. apply (D i d0 m f). now apply I1.
Qed.
Print Assumptions build_keypoints_failed.
Example build_keypoints_failed_ex : build_keypoints true false false [1; 2; 3; 4] None [Missing; Written 20; Partial; Missing] = (Err ValueError, [Written 1; Written 20; Partial; Missing]).
Proof. reflexivity. Qed.
(** Documented: overwrite: "Whether to recompute and overwrite existing file or in-memory keypoints".  Keypoints on file but not in memory, or in memory but not yet on file, are kept. *)
Theorem build_keypoints_overwrite_refuted {K} (path clear : bool) (detected : list K) memory files :
  (clear = true -> path = true) -> length (memory_of detected memory) = length detected -> length files = length detected ->
  (path = true -> forall i d m, ~ image_state detected memory files i d m Partial) ->
  exists ks fs, build_keypoints path true clear detected memory files = (Ok ks, fs) /\ length ks = length detected /\ length fs = length detected /\
  forall i d m f, image_state detected memory files i d m f ->
    exists k, nth_error ks i = Some (if clear then None else Some k) /\ nth_error fs i = Some (if path then Written k else f) /\
      ((path = true -> forall old, (m = None /\ clear = false /\ f = Written old) \/ (m = Some old /\ f = Missing) -> k = old) /\
       (~ (path = true /\ exists old, (m = None /\ clear = false /\ f = Written old) \/ (m = Some old /\ f = Missing)) -> k = d)).
Proof.
  intros Hc Lm Lf NP. unfold build_keypoints. replace (clear && negb path)%bool with false; [|destruct clear; [rewrite (Hc eq_refl)|]; reflexivity].
  fold (memory_of detected memory). destruct (loop_ok path true clear (combine (combine detected (memory_of detected memory)) files)) as (ks & fs & E & L1 & L2 & H).
  - intros d m f I. apply In_nth_error in I as [i Ei]. rewrite !combine_nth_error in Ei. destruct (nth_error detected i) as [d'|] eqn:E1; [|discriminate]. destruct (nth_error (memory_of detected memory) i) as [m'|] eqn:E2; [|discriminate]. destruct (nth_error files i) as [f'|] eqn:E3; [|discriminate]. injection Ei as -> -> ->.
    unfold keypoints_step. destruct path; [|destruct m, f, clear; cbn; eauto]. destruct f; [destruct m, clear; cbn; eauto| |destruct m, clear; cbn; eauto]. exfalso. apply (NP eq_refl i d m). repeat split; assumption.
  - exists ks, fs. rewrite !combine_length, Lm, Lf, !Nat.min_id in L1, L2. split; [exact E|]. split; [exact L1|]. split; [exact L2|]. intros i d m f (E1 & E2 & E3).
    destruct (H i d m f) as (r & A & B & C); [now rewrite !combine_nth_error, E1, E2, E3|]. rewrite B, C. unfold keypoints_step in A.
    assert (G : forall k, (fst r = if clear then None else Some k) -> (snd r = if path then Written k else f) ->
      (path = true -> forall old, (m = None /\ clear = false /\ f = Written old) \/ (m = Some old /\ f = Missing) -> k = old) ->
      (~ (path = true /\ exists old, (m = None /\ clear = false /\ f = Written old) \/ (m = Some old /\ f = Missing)) -> k = d) -> 
      exists k, Some (fst r) = Some (if clear then None else Some k) /\ Some (snd r) = Some (if path then Written k else f) /\
      ((path = true -> forall old, (m = None /\ clear = false /\ f = Written old) \/ (m = Some old /\ f = Missing) -> k = old) /\
       (~ (path = true /\ exists old, (m = None /\ clear = false /\ f = Written old) \/ (m = Some old /\ f = Missing)) -> k = d))).
    { intros k -> -> G1 G2. exists k. auto. }
    destruct path; [|destruct clear; [now specialize (Hc eq_refl)|]; destruct m, f; cbn in A; injection A as <-; apply (G d); try reflexivity; intros; discriminate].
    destruct f as [| |w]; [| exfalso; apply (NP eq_refl i d m); repeat split; assumption|].
    + destruct m as [k|].
      * apply (G k); [destruct clear; cbn in A; injection A as <-; reflexivity..| |].
        -- intros _ old [(Q & _)|(Q & _)]; congruence.
        -- intros N. exfalso. apply N. split; [reflexivity|]. exists k. auto.
      * apply (G d); [destruct clear; cbn in A; injection A as <-; reflexivity..| |auto]. intros _ old [(_ & _ & Q)|(Q & _)]; discriminate.
    + destruct m as [k|].
      * apply (G d); [destruct clear; cbn in A; injection A as <-; reflexivity..| |auto]. intros _ old [(Q & _)|(_ & Q)]; discriminate.
      * destruct clear.
        -- apply (G d); [cbn in A; injection A as <-; reflexivity..| |auto]. intros _ old [(_ & Q & _)|(Q & _)]; discriminate.
        -- apply (G w); [cbn in A; injection A as <-; reflexivity..| |].
           ++ intros _ old [(_ & _ & Q)|(Q & _)]; [congruence|discriminate].
           ++ intros N. exfalso. apply N. split; [reflexivity|]. exists w. auto.
Qed.
Print Assumptions build_keypoints_overwrite_refuted.
Example build_keypoints_overwrite_ex : build_keypoints true true false [1] None [Written 20] = (Ok [Some 20], [Written 20]) /\ build_keypoints true true false [1] (Some [Some 20]) [Missing] = (Ok [Some 20], [Written 20]).
Proof. split; reflexivity. Qed.
(** They are recomputed if in memory with no path, or both in memory and on file. *)
Theorem build_keypoints_overwrite {K} (path : bool) (detected : list K) memory files :
  length (memory_of detected memory) = length detected -> length files = length detected ->
  (forall i d m f, image_state detected memory files i d m f -> m <> None /\ (path = true -> exists k, f = Written k)) ->
  build_keypoints path true false detected memory files = (Ok (map Some detected), if path then map Written detected else files).
Proof.
  intros Lm Lf H. unfold build_keypoints. cbn [andb]. fold (memory_of detected memory).
  assert (St : forall i d m f, image_state detected memory files i d m f -> keypoints_step path true false d m f = Ok (Some d, if path then Written d else f)).
  { intros i d m f S. destruct (H i d m f S) as [A B]. destruct m as [k|]; [|contradiction]. destruct path; [destruct (B eq_refl) as [k' ->]|]; reflexivity. }
  destruct (loop_ok path true false (combine (combine detected (memory_of detected memory)) files)) as (ks & fs & E & L1 & L2 & R).
  - intros d m f I. apply In_nth_error in I as [i Ei]. rewrite !combine_nth_error in Ei. destruct (nth_error detected i) as [d'|] eqn:E1; [|discriminate]. destruct (nth_error (memory_of detected memory) i) as [m'|] eqn:E2; [|discriminate]. destruct (nth_error files i) as [f'|] eqn:E3; [|discriminate]. injection Ei as -> -> ->. eexists. apply (St i). repeat split; assumption.
  - rewrite !combine_length, Lm, Lf, !Nat.min_id in L1, L2. rewrite E.
    assert (Q : forall i, nth_error ks i = nth_error (map Some detected) i /\ nth_error fs i = nth_error (if path then map Written detected else files) i).
    { intros i. destruct (nth_error detected i) as [d|] eqn:Ed.
      - assert (Li : (i < length detected)%nat) by (apply nth_error_Some; congruence). destruct (nth_error files i) as [f|] eqn:Ef; [|apply nth_error_None in Ef; lia]. destruct (nth_error (memory_of detected memory) i) as [m|] eqn:Em; [|apply nth_error_None in Em; lia].
        destruct (R i d m f) as (r & A & B & C); [now rewrite !combine_nth_error, Ed, Em, Ef|]. rewrite (St i) in A by (repeat split; assumption). injection A as <-. cbn in B, C. rewrite B, C, nth_error_map, Ed. split; [reflexivity|]. destruct path; [now rewrite nth_error_map, Ed|now rewrite Ef].
      - apply nth_error_None in Ed. split; etransitivity; (apply nth_error_None || (symmetry; apply nth_error_None)); rewrite ?map_length; try lia. destruct path; rewrite ?map_length; lia. }
    apply f_equal2; [apply (f_equal (@Ok _))|]; apply list_eq; intros i; apply Q.
Qed.

(* ---------------------------------------------------------------- *)
Open Scope R_scope.
(** Limit in effect: None and 0 mean none. *)
Definition limit (x : option R) (r : R) : Prop := x = Some r /\ r <> 0.
(** Match [m] (best neighbours of a keypoint) has the best neighbour (q, t). *)
Definition best_pair (m : list dmatch) (q t : nat) : Prop := exists d l, m = d :: l /\ dm_query d = q /\ dm_train d = t.
Definition ratio_is (m : list dmatch) (r : R) : Prop := exists d0 d1 l, m = d0 :: d1 :: l /\ dm_distance d1 <> 0 /\ r = dm_distance d0 / dm_distance d1.
(** The match is kept: mutual if asked for, and below the limits. *)
Definition kept_match (pa pb : list vec2) (ba : list (list dmatch)) (cross : bool) (max_ratio max_distance : option R) (m : list dmatch) : Prop :=
  (cross = true -> exists q t m', best_pair m q t /\ In m' ba /\ best_pair m' t q) /\
  (forall r, limit max_ratio r -> exists x, ratio_is m x /\ x < r) /\
  (forall d, limit max_distance d -> exists q t a b, best_pair m q t /\ nth_error pa q = Some a /\ nth_error pb t = Some b /\ dist2 a b < d).
(** Results of the descriptor matcher: enough neighbours, indices in range, and different second distances where ratios are needed. *)
Definition valid_matches (n : nat) (la lb : nat) (l : list (list dmatch)) : Prop :=
  forall m, In m l -> (n <= length m)%nat /\ (exists q t, best_pair m q t /\ (q < la)%nat /\ (t < lb)%nat) /\ (n = 2%nat -> exists r, ratio_is m r).

Lemma mfilter_ok {A} (f : A -> result bool) g l : (forall x, In x l -> f x = Ok (g x)) -> mfilter f l = Ok (filter g l).
Proof. induction l as [|x l IH]; intros H; cbn; [reflexivity|]. rewrite H by now left. cbn. rewrite IH by (intros; apply H; now right). reflexivity. Qed.
Lemma mmap_ok {A B} (f : A -> result B) g l : (forall x, In x l -> f x = Ok (g x)) -> mmap f l = Ok (map g l).
Proof. induction l as [|x l IH]; intros H; cbn; [reflexivity|]. rewrite H by now left. cbn. rewrite IH by (intros; apply H; now right). reflexivity. Qed.
Lemma filter_filter {A} (f g : A -> bool) l : filter g (filter f l) = filter (fun x => f x && g x)%bool l.
Proof. induction l as [|x l IH]; cbn; [reflexivity|]. destruct (f x); cbn; [destruct (g x); now rewrite IH|exact IH]. Qed.
Lemma select_map {A B} (f : A -> B) (g : A -> bool) l : map fst (filter snd (combine (map f l) (map g l))) = map f (filter g l).
Proof. induction l as [|x l IH]; cbn; [reflexivity|]. destruct (g x); cbn; now rewrite IH. Qed.
Lemma map2_map {A B C D} (h : B -> C -> D) (f : A -> B) (g : A -> C) l : map2 h (map f l) (map g l) = map (fun x => h (f x) (g x)) l.
Proof. induction l as [|x l IH]; cbn; [reflexivity|]. now rewrite IH. Qed.
Lemma set_limit x r : set_ x = Some r <-> limit x r.
Proof. unfold set_, limit, Reqb. destruct x as [y|]; [|split; [discriminate|intros [? _]; discriminate]]. destruct (Req_EM_T y 0); split; intros H; try discriminate; [destruct H as [[= ->] ?]; contradiction|injection H as <-; auto|destruct H as [[= ->] _]; reflexivity]. Qed.
Lemma set_none x : set_ x = None -> forall r, ~ limit x r. Proof. intros H r L. apply set_limit in L. congruence. Qed.
Lemma Rltb_lt x y : Rltb x y = true <-> x < y. Proof. unfold Rltb. destruct (Rlt_dec x y); split; try discriminate; try contradiction; auto. Qed.

Definition d0 : dmatch := mk_dm 0 0 0.
Definition q_of (m : list dmatch) : nat := dm_query (hd d0 m).
Definition t_of (m : list dmatch) : nat := dm_train (hd d0 m).
Definition r_of (m : list dmatch) : R := match m with x :: y :: _ => dm_distance x / dm_distance y | _ => 0 end.
(** The results are the coordinates (and ratios) of the kept matches, in order. *)
Lemma match_keypoints_both pa pb ab ba cross max_ratio max_distance (return_ratios : bool) :
  let n := if return_ratios then 2%nat else match set_ max_ratio with Some _ => 2%nat | None => 1%nat end in
  (n <= length pa)%nat -> (n <= length pb)%nat -> valid_matches n (length pa) (length pb) ab -> valid_matches n (length pb) (length pa) ba ->
  ((exists d, limit max_distance d) -> (forall m, In m ab -> ~ kept_match pa pb ba cross max_ratio None m) -> match_keypoints pa pb ab ba cross max_ratio max_distance return_ratios = Err IndexError) /\
  (((exists d, limit max_distance d) -> exists m, In m ab /\ kept_match pa pb ba cross max_ratio None m) ->
  exists keep uva uvb ratios, match_keypoints pa pb ab ba cross max_ratio max_distance return_ratios = Ok (uva, uvb, if return_ratios then Some ratios else None) /\
  (forall m, In m ab -> (keep m = true <-> kept_match pa pb ba cross max_ratio max_distance m)) /\
  Forall2 (fun m a => exists q t, best_pair m q t /\ nth_error pa q = Some a) (filter keep ab) uva /\
  Forall2 (fun m b => exists q t, best_pair m q t /\ nth_error pb t = Some b) (filter keep ab) uvb /\
  (return_ratios = true -> Forall2 ratio_is (filter keep ab) ratios)).
Proof.
  intros n Ha Hb Va Vb. unfold match_keypoints.
  replace (match set_ max_ratio with Some _ => 2%nat | None => if return_ratios then 2%nat else 1%nat end) with n by (unfold n; destruct (set_ max_ratio), return_ratios; reflexivity).
  destruct (Nat.leb_spec n (length pa)); [|lia]. destruct (Nat.leb_spec n (length pb)); [|lia]. cbn [andb].
  set (mutual := fun m => existsb (fun p => (fst p =? q_of m)%nat && (snd p =? t_of m)%nat)%bool (map (fun m => (t_of m, q_of m)) ba)).
  assert (Bp : forall m q t, best_pair m q t <-> m <> [] /\ q = q_of m /\ t = t_of m).
  { intros m q t. unfold best_pair, q_of, t_of. split; [intros (d & l & -> & <- & <-); cbn; repeat split; discriminate|]. intros (N & -> & ->). destruct m as [|d l]; [contradiction|]. exists d, l. auto. }
  assert (Ba : forall m, In m ab -> exists d l, m = d :: l /\ (q_of m < length pa)%nat /\ (t_of m < length pb)%nat). { intros m I. destruct (Va m I) as (_ & (q & t & B & Q & T) & _). pose proof B as (d & l & E & _). apply Bp in B as (_ & -> & ->). eauto. }
  assert (Bb : forall m, In m ba -> exists d l, m = d :: l). { intros m I. destruct (Vb m I) as (_ & (q & t & (d & l & E & _) & _) & _). eauto. }
  assert (Ra : n = 2%nat -> forall m, In m ab -> ratio m = Ok (r_of m) /\ ratio_is m (r_of m)).
  { intros En m I. destruct (Va m I) as (_ & _ & H'). destruct (H' En) as (r & d & d' & l & -> & Nz & Er). cbn [ratio r_of]. unfold Reqb. destruct (Req_EM_T (dm_distance d') 0); [contradiction|]. split; [reflexivity|]. exists d, d', l. auto. }
  assert (E1 : (if cross then let* pairs := mmap (fun m => let* d := best m in Ok (dm_train d, dm_query d)) ba in
                 mfilter (fun m => let* d := best m in Ok (existsb (fun p => (fst p =? dm_query d)%nat && (snd p =? dm_train d)%nat)%bool pairs)) ab else Ok ab) = Ok (filter (fun m => if cross then mutual m else true) ab)).
  { destruct cross; [|apply (f_equal (@Ok _)); symmetry; clear; induction ab as [|x l IH]; cbn; [reflexivity|now rewrite IH]]. rewrite (mmap_ok _ (fun m => (t_of m, q_of m))) by (intros m I; destruct (Bb m I) as (d & l & ->); reflexivity). cbn [bind]. apply mfilter_ok. intros m I. destruct (Ba m I) as (d & l & -> & _). reflexivity. }
  rewrite E1. cbn [bind]. clear E1. set (f1 := fun m : list dmatch => if cross then mutual m else true).
  set (f2 := fun m : list dmatch => match set_ max_ratio with Some r => Rltb (r_of m) r | None => true end).
  assert (E2 : match set_ max_ratio with Some r => mfilter (fun m => let* q := ratio m in Ok (Rltb q r)) (filter f1 ab) | None => Ok (filter f1 ab) end = Ok (filter (fun m => f1 m && f2 m)%bool ab)).
  { rewrite <- filter_filter. unfold f2. destruct (set_ max_ratio) as [r|] eqn:Es.
    - apply mfilter_ok. intros m I. apply filter_In in I as [I _]. destruct (Ra ltac:(unfold n; now destruct return_ratios) m I) as [-> _]. reflexivity.
    - apply (f_equal (@Ok _)). symmetry. clear. induction (filter f1 ab) as [|x l IH]; cbn; [reflexivity|now rewrite IH]. }
  rewrite E2. cbn [bind]. clear E2. set (ms := filter (fun m => f1 m && f2 m)%bool ab). assert (Ims : forall m, In m ms -> In m ab) by (intros m I; apply filter_In in I; apply I).
  rewrite (mmap_ok best (hd d0)) by (intros m I; destruct (Ba m (Ims m I)) as (d & l & -> & _); reflexivity). cbn [bind].
  set (za := (0, 0) : vec2). set (a_of := fun m => nth (q_of m) pa za). set (b_of := fun m => nth (t_of m) pb za).
  assert (Na : forall m, In m ab -> nth_error pa (q_of m) = Some (a_of m)) by (intros m I; destruct (Ba m I) as (_ & _ & _ & Q & _); now apply nth_error_nth').
  assert (Nb : forall m, In m ab -> nth_error pb (t_of m) = Some (b_of m)) by (intros m I; destruct (Ba m I) as (_ & _ & _ & _ & Q); now apply nth_error_nth').
  rewrite (mmap_ok _ (fun d => nth (dm_query d) pa za)). 2:{ intros d I. apply in_map_iff in I as (m & <- & I). fold (q_of m). now rewrite (Na m (Ims m I)). }
  cbn [bind]. rewrite (mmap_ok _ (fun d => nth (dm_train d) pb za)). 2:{ intros d I. apply in_map_iff in I as (m & <- & I). fold (t_of m). now rewrite (Nb m (Ims m I)). }
  cbn [bind]. rewrite !map_map. change (map (fun x => nth (dm_query (hd d0 x)) pa za) ms) with (map a_of ms). change (map (fun x => nth (dm_train (hd d0 x)) pb za) ms) with (map b_of ms).
  assert (E3 : (if return_ratios then let* q := mmap ratio ms in Ok (Some q) else Ok None) = Ok (if return_ratios then Some (map r_of ms) else None)).
  { destruct return_ratios; [|reflexivity]. rewrite (mmap_ok ratio r_of) by (intros m I; now apply (Ra eq_refl m (Ims m I))). reflexivity. }
  rewrite E3. cbn [bind]. clear E3.
  assert (Mu : forall m, In m ab -> (f1 m = true <-> (cross = true -> exists q t m', best_pair m q t /\ In m' ba /\ best_pair m' t q))).
  { intros m I. destruct (Ba m I) as (d & l & Em & _). unfold f1. destruct cross; [|split; [discriminate|reflexivity]]. unfold mutual. rewrite existsb_exists. split.
    - intros ((q' & t') & I' & E) _. apply in_map_iff in I' as (m' & [= <- <-] & I'). apply andb_prop in E as [E1 E2]. cbn in E1, E2. apply Nat.eqb_eq in E1, E2. exists (q_of m), (t_of m), m'. destruct (Bb m' I') as (d' & l' & Em'). split; [apply Bp; rewrite Em; repeat split; discriminate|]. split; [exact I'|]. apply Bp. rewrite Em' in *. repeat split; [discriminate|congruence|congruence].
    - intros H'. destruct (H' eq_refl) as (q & t & m' & B & I' & B'). apply Bp in B as (_ & -> & ->). apply Bp in B' as (_ & E1 & E2). exists (t_of m', q_of m'). split; [now apply (in_map (fun m => (t_of m, q_of m)))|]. cbn [fst snd]. rewrite <- E1, <- E2, !Nat.eqb_refl. reflexivity. }
  assert (Rt : forall m, In m ab -> (f2 m = true <-> forall r, limit max_ratio r -> exists x, ratio_is m x /\ x < r)).
  { intros m I. unfold f2. destruct (set_ max_ratio) as [r|] eqn:Es.
    - destruct (Ra ltac:(unfold n; now destruct return_ratios) m I) as [_ Ri]. rewrite Rltb_lt. split.
      + intros L r' Lr. apply set_limit in Lr. assert (r' = r) by congruence. subst. eauto.
      + intros H'. destruct (H' r) as (x & (u & v & l & Em & Nz & ->) & L); [now apply set_limit|]. rewrite Em. exact L.
    - split; [|reflexivity]. intros _ r Lr. now apply (set_none _ Es) in Lr. }
  assert (F2 : forall keep, (forall m, keep m = true -> True) -> Forall2 (fun m a => exists q t, best_pair m q t /\ nth_error pa q = Some a) (filter keep ms) (map a_of (filter keep ms)) /\ Forall2 (fun m b => exists q t, best_pair m q t /\ nth_error pb t = Some b) (filter keep ms) (map b_of (filter keep ms)) /\ (return_ratios = true -> Forall2 ratio_is (filter keep ms) (map r_of (filter keep ms)))).
  { intros keep _. assert (Il : forall m, In m (filter keep ms) -> In m ab) by (intros m I; apply filter_In in I; apply Ims, I). split; [|split].
    - induction (filter keep ms) as [|m l IH]; constructor; [|apply IH; intros; apply Il; now right]. exists (q_of m), (t_of m). assert (I : In m ab) by (apply Il; now left). destruct (Ba m I) as (d & l' & -> & _). split; [apply Bp; repeat split; discriminate|now apply Na].
    - induction (filter keep ms) as [|m l IH]; constructor; [|apply IH; intros; apply Il; now right]. exists (q_of m), (t_of m). assert (I : In m ab) by (apply Il; now left). destruct (Ba m I) as (d & l' & -> & _). split; [apply Bp; repeat split; discriminate|now apply Nb].
    - intros Er. induction (filter keep ms) as [|m l IH]; constructor; [|apply IH; intros; apply Il; now right]. apply Ra; [unfold n; now rewrite Er|apply Il; now left]. }
  split.
  { intros (d & Ld) NE. apply set_limit in Ld. rewrite Ld. replace ms with (@nil (list dmatch)); [reflexivity|]. symmetry. destruct ms as [|m l] eqn:Em; [reflexivity|]. exfalso. assert (Im : In m ms) by (rewrite Em; now left). apply (NE m (Ims m ltac:(rewrite Em in Im; exact Im))).
    pose proof Im as Im2. unfold ms in Im. apply filter_In in Im as [I F]. apply andb_prop in F as [G1 G2]. split; [now apply Mu|]. split; [now apply Rt|]. intros d' (Q & _). discriminate. }
  intros NE. destruct (set_ max_distance) as [d|] eqn:Ed.
  - set (f3 := fun m => Rltb (dist2 (a_of m) (b_of m)) d).
    assert (Ne : ms <> []). { destruct NE as (m & I & A & B & _); [exists d; now apply set_limit|]. intros Q. assert (Im : In m ms) by (apply filter_In; split; [exact I|]; apply andb_true_intro; split; [now apply Mu|now apply Rt]). rewrite Q in Im. contradiction. }
    assert (Nm : exists y l, map a_of ms = y :: l) by (destruct ms; [contradiction|cbn; eauto]). destruct Nm as (y & l & Ey). rewrite Ey. rewrite <- Ey. clear y l Ey.
    rewrite map2_map. change (map (fun x => Rltb (dist2 (a_of x) (b_of x)) d) ms) with (map f3 ms). rewrite !select_map. replace (option_map (fun l : list R => map fst (filter snd (combine l (map f3 ms)))) (if return_ratios then Some (map r_of ms) else None)) with (if return_ratios then Some (map r_of (filter f3 ms)) else None) by (destruct return_ratios; cbn [option_map]; [now rewrite select_map|reflexivity]).
    exists (fun m => (f1 m && f2 m) && f3 m)%bool, (map a_of (filter f3 ms)), (map b_of (filter f3 ms)), (map r_of (filter f3 ms)). split; [reflexivity|]. rewrite <- (filter_filter (fun m => f1 m && f2 m)%bool f3). fold ms. split; [|now apply F2].
    intros m I. unfold kept_match. rewrite !andb_true_iff, (Mu m I), (Rt m I). unfold f3. rewrite Rltb_lt. split.
    + intros [[A B] C]. split; [exact A|]. split; [exact B|]. intros d' Ld. apply set_limit in Ld. assert (d' = d) by congruence. subst d'. exists (q_of m), (t_of m), (a_of m), (b_of m). destruct (Ba m I) as (u & v & Em & _). split; [apply Bp; rewrite Em; repeat split; discriminate|]. auto.
    + intros (A & B & C). split; [auto|]. destruct (C d) as (q & t & a & b & Hbp & E1 & E2 & L); [now apply set_limit|]. apply Bp in Hbp as (_ & -> & ->). rewrite (Na m I) in E1. rewrite (Nb m I) in E2. injection E1 as <-. injection E2 as <-. exact L.
  - exists (fun m => f1 m && f2 m)%bool, (map a_of ms), (map b_of ms), (map r_of ms). split; [destruct return_ratios; reflexivity|]. fold ms. split.
    + intros m I. unfold kept_match. rewrite !andb_true_iff, (Mu m I), (Rt m I). split; [|tauto]. intros [A B]. split; [exact A|]. split; [exact B|]. intros d' Ld. now apply (set_none _ Ed) in Ld.
    + assert (Eq : filter (fun _ => true) ms = ms) by (clear; induction ms as [|x l IH]; cbn; [reflexivity|now rewrite IH]). pose proof (F2 (fun _ => true) (fun _ _ => I)) as G. rewrite Eq in G. exact G.
Qed.
Theorem match_keypoints_spec pa pb ab ba cross max_ratio max_distance (return_ratios : bool) :
  let n := if return_ratios then 2%nat else match set_ max_ratio with Some _ => 2%nat | None => 1%nat end in
  (n <= length pa)%nat -> (n <= length pb)%nat -> valid_matches n (length pa) (length pb) ab -> valid_matches n (length pb) (length pa) ba ->
  ((exists d, limit max_distance d) -> exists m, In m ab /\ kept_match pa pb ba cross max_ratio None m) ->
  exists keep uva uvb ratios, match_keypoints pa pb ab ba cross max_ratio max_distance return_ratios = Ok (uva, uvb, if return_ratios then Some ratios else None) /\
  (forall m, In m ab -> (keep m = true <-> kept_match pa pb ba cross max_ratio max_distance m)) /\
  Forall2 (fun m a => exists q t, best_pair m q t /\ nth_error pa q = Some a) (filter keep ab) uva /\
  Forall2 (fun m b => exists q t, best_pair m q t /\ nth_error pb t = Some b) (filter keep ab) uvb /\
  (return_ratios = true -> Forall2 ratio_is (filter keep ab) ratios).
Proof. cbv zeta. intros Ha Hb Va Vb. now apply match_keypoints_both. Qed.
Print Assumptions match_keypoints_spec.
(** Too few keypoints: no matches. *)
Theorem match_keypoints_few pa pb ab ba cross max_ratio max_distance return_ratios :
  (length pa = 0 \/ length pb = 0)%nat \/ ((exists r, limit max_ratio r) \/ return_ratios = true) /\ (length pa = 1 \/ length pb = 1)%nat ->
  match_keypoints pa pb ab ba cross max_ratio max_distance return_ratios = Ok ([], [], if return_ratios then Some [] else None).
Proof.
  intros H. unfold match_keypoints. assert (E : ((match set_ max_ratio with Some _ => 2 | None => if return_ratios then 2 else 1 end <=? length pa) && (match set_ max_ratio with Some _ => 2 | None => if return_ratios then 2 else 1 end <=? length pb))%nat%bool = false); [|now rewrite E].
  apply andb_false_iff. rewrite !Nat.leb_gt. destruct H as [H|(N & H)]; [destruct (set_ max_ratio), return_ratios; lia|].
  assert (E : match set_ max_ratio with Some _ => 2%nat | None => if return_ratios then 2%nat else 1%nat end = 2%nat); [|rewrite E; lia].
  destruct N as [(r & L)| ->]; [apply set_limit in L; now rewrite L|now destruct (set_ max_ratio)].
Qed.
(** The hypotheses can be met: two keypoints in each image, mutual matches. *)
Example match_keypoints_ex : valid_matches 2 2 2 [[mk_dm 0 1 1; mk_dm 0 0 2]; [mk_dm 1 0 1; mk_dm 1 1 4]] /\ exists m, In m [[mk_dm 0 1 1; mk_dm 0 0 2]; [mk_dm 1 0 1; mk_dm 1 1 4]] /\ kept_match [(0, 0); (1, 1)] [(0, 0); (1, 1)] [[mk_dm 0 1 1; mk_dm 0 0 4]; [mk_dm 1 0 1; mk_dm 1 1 2]] true (Some (1 / 3)) (Some 5) m.
Proof.
  split.
  - intros m [<-|[<-|[]]]; (split; [cbn; lia|]); split.
    1: exists 0%nat, 1%nat; split; [do 2 eexists; repeat split|lia]. 1: intros _; eexists; do 3 eexists; split; [reflexivity|]; cbn; split; [lra|reflexivity].
    1: exists 1%nat, 0%nat; split; [do 2 eexists; repeat split|lia]. 1: intros _; eexists; do 3 eexists; split; [reflexivity|]; cbn; split; [lra|reflexivity].
  - eexists. split; [right; left; reflexivity|]. split; [|split].
    + intros _. exists 1%nat, 0%nat. eexists. split; [do 2 eexists; repeat split|]. split; [left; reflexivity|]. do 2 eexists. repeat split.
    + intros r [[= <-] _]. eexists. split; [do 3 eexists; split; [reflexivity|]; cbn; split; [lra|reflexivity]|]. cbn. lra.
    + intros d [[= <-] _]. exists 1%nat, 0%nat, (1, 1), (0, 0). split; [do 2 eexists; repeat split|]. split; [reflexivity|]. split; [reflexivity|]. unfold dist2. cbn [fst snd]. replace ((1 - 0) ^ 2 + (1 - 0) ^ 2) with 2 by ring. apply Rlt_trans with (sqrt (2 * 2)); [apply sqrt_lt_1; lra|]. rewrite sqrt_square; lra.
Qed.
(** When a limit on the distance is given and no match is left before it is applied, the call fails. *)
Theorem match_keypoints_none_left_refuted pa pb ab ba cross max_ratio max_distance (return_ratios : bool) d :
  let n := if return_ratios then 2%nat else match set_ max_ratio with Some _ => 2%nat | None => 1%nat end in
  (n <= length pa)%nat -> (n <= length pb)%nat -> valid_matches n (length pa) (length pb) ab -> valid_matches n (length pb) (length pa) ba ->
  limit max_distance d -> (forall m, In m ab -> ~ kept_match pa pb ba cross max_ratio None m) ->
  match_keypoints pa pb ab ba cross max_ratio max_distance return_ratios = Err IndexError.
Proof. cbv zeta. intros Ha Hb Va Vb L N. apply match_keypoints_both; eauto. Qed.
Print Assumptions match_keypoints_none_left_refuted.
Example match_keypoints_none_left_ex : exists pa pb ab ba, valid_matches 1 (length pa) (length pb) ab /\ valid_matches 1 (length pb) (length pa) ba /\ (1 <= length pa)%nat /\ (1 <= length pb)%nat /\
  (forall m, In m ab -> ~ kept_match pa pb ba true None None m) /\ match_keypoints pa pb ab ba true None (Some 1) false = Err IndexError.
Proof.
  exists [(0, 0)], [(0, 0); (1, 1)], [[mk_dm 0 1 0]], [[mk_dm 0 0 0]]. unfold valid_matches.
  split; [|split; [|split; [cbn; lia|split; [cbn; lia|split]]]].
  - intros m [<-|[]]. split; [cbn; lia|]. split; [|discriminate]. exists 0%nat, 1%nat. split; [do 2 eexists; repeat split|]. cbn; lia.
  - intros m [<-|[]]. split; [cbn; lia|]. split; [|discriminate]. exists 0%nat, 0%nat. split; [do 2 eexists; repeat split|]. cbn; lia.
  - intros m [<-|[]] (C & _). destruct (C eq_refl) as (q & t & m' & (d & l & [= <- <-] & <- & <-) & [<-|[]] & (d' & l' & [= <- <-] & Q & _)). discriminate Q.
  - unfold match_keypoints, set_, Reqb. destruct (Req_EM_T 1 0); [lra|]. reflexivity.
Qed.
(** When the second best descriptor of a mutual match equals the first image's, ratios fail. *)
Theorem match_keypoints_same_descriptor_refuted pa pb ab ba cross max_ratio max_distance (return_ratios : bool) m d0 d1 l :
  return_ratios = true /\ (forall r, ~ limit max_ratio r) \/ (exists r, limit max_ratio r) ->
  (2 <= length pa)%nat -> (2 <= length pb)%nat ->
  (forall m, In m ab -> (2 <= length m)%nat /\ exists q t, best_pair m q t /\ (q < length pa)%nat /\ (t < length pb)%nat) ->
  (forall m, In m ba -> (2 <= length m)%nat) ->
  In m ab -> kept_match pa pb ba cross None None m -> m = d0 :: d1 :: l -> dm_distance d1 = 0 ->
  match_keypoints pa pb ab ba cross max_ratio max_distance return_ratios = Err ZeroDivisionError.
Proof.
  intros N Ha Hb Va Vb I (C & _) Em Z. unfold match_keypoints.
  replace (match set_ max_ratio with Some _ => 2%nat | None => if return_ratios then 2%nat else 1%nat end) with 2%nat.
  2:{ destruct N as [[-> _]|(r & L)]; [now destruct (set_ max_ratio)|]. apply set_limit in L. now rewrite L. }
  destruct (Nat.leb_spec 2 (length pa)); [|lia]. destruct (Nat.leb_spec 2 (length pb)); [|lia]. cbn [andb].
  set (mutual := fun m => existsb (fun p => (fst p =? q_of m)%nat && (snd p =? t_of m)%nat)%bool (map (fun m => (t_of m, q_of m)) ba)).
  assert (Ba : forall m, In m ab -> exists x y l, m = x :: y :: l) by (intros m' I'; destruct (Va m' I') as [L _]; destruct m' as [|x [|y l']]; cbn in L; try lia; eauto).
  assert (Bb : forall m, In m ba -> exists x l, m = x :: l) by (intros m' I'; specialize (Vb m' I'); destruct m' as [|x l']; cbn in Vb; try lia; eauto).
  assert (E1 : (if cross then let* pairs := mmap (fun m => let* d := best m in Ok (dm_train d, dm_query d)) ba in
                 mfilter (fun m => let* d := best m in Ok (existsb (fun p => (fst p =? dm_query d)%nat && (snd p =? dm_train d)%nat)%bool pairs)) ab else Ok ab) = Ok (filter (fun m => if cross then mutual m else true) ab)).
  { destruct cross; [|apply (f_equal (@Ok _)); symmetry; clear; induction ab as [|x l IH]; cbn; [reflexivity|now rewrite IH]]. rewrite (mmap_ok _ (fun m => (t_of m, q_of m))) by (intros m' I'; destruct (Bb m' I') as (d & l' & ->); reflexivity). cbn [bind]. apply mfilter_ok. intros m' I'. destruct (Ba m' I') as (x & y & l' & ->). reflexivity. }
  rewrite E1. cbn [bind]. clear E1. set (ms := filter (fun m : list dmatch => if cross then mutual m else true) ab).
  assert (Im : In m ms).
  { apply filter_In. split; [exact I|]. destruct cross; [|reflexivity]. destruct (C eq_refl) as (q & t & m' & (d & l' & E & <- & <-) & I' & (d' & l'' & E' & Q & T)). unfold mutual. apply existsb_exists. exists (t_of m', q_of m'). split; [now apply (in_map (fun m => (t_of m, q_of m)))|]. unfold q_of, t_of. rewrite E, E'. cbn [hd fst snd]. rewrite Q, T, !Nat.eqb_refl. reflexivity. }
  assert (Ims : forall m, In m ms -> In m ab) by (intros m' I'; apply filter_In in I'; apply I'). clearbody ms.
  assert (Rz : forall m, In m ms -> ratio m = Err ZeroDivisionError \/ exists r, ratio m = Ok r). { intros m' I'. destruct (Ba m' (Ims m' I')) as (x & y & l' & ->). cbn. destruct (Reqb _ _); eauto. }
  assert (Rm : ratio m = Err ZeroDivisionError) by (rewrite Em; cbn; unfold Reqb; destruct (Req_EM_T (dm_distance d1) 0); [reflexivity|contradiction]).
  assert (Mf : forall r, mfilter (fun m => let* q := ratio m in Ok (Rltb q r)) ms = Err ZeroDivisionError).
  { intros r. clear - Im Rz Rm. induction ms as [|x ms IH]; [destruct Im|]. cbn. destruct (Rz x (or_introl eq_refl)) as [->|(v & Ev)]; [reflexivity|]. rewrite Ev. cbn. destruct Im as [->|Im]; [congruence|]. rewrite IH; [reflexivity|exact Im|intros; apply Rz; now right]. }
  destruct (set_ max_ratio) as [r|] eqn:Es; [rewrite Mf; reflexivity|]. destruct N as [[-> _]|(r & L)]; [|apply set_limit in L; congruence]. cbn [bind].
  rewrite (mmap_ok best (hd (mk_dm 0 0 0))) by (intros m' I'; destruct (Ba m' (Ims m' I')) as (x & y & l' & ->); reflexivity). cbn [bind].
  assert (Q : forall m, In m ms -> (q_of m < length pa)%nat /\ (t_of m < length pb)%nat). { intros m' I'. destruct (Va m' (Ims m' I')) as (_ & q & t & (d & l' & -> & <- & <-) & Q & T). split; assumption. }
  rewrite (mmap_ok _ (fun d => @nth vec2 (dm_query d) pa (0, 0))). 2:{ intros d J. apply in_map_iff in J as (m' & <- & J). destruct (Q m' J) as [A _]. unfold q_of, P_Matcher4.d0 in A. now rewrite (@nth_error_nth' vec2 _ _ (0, 0) A). }
  cbn [bind]. rewrite (mmap_ok _ (fun d => @nth vec2 (dm_train d) pb (0, 0))). 2:{ intros d J. apply in_map_iff in J as (m' & <- & J). destruct (Q m' J) as [_ A]. unfold t_of, P_Matcher4.d0 in A. now rewrite (@nth_error_nth' vec2 _ _ (0, 0) A). }
  cbn [bind]. replace (mmap ratio ms) with (@Err (list R) ZeroDivisionError); [reflexivity|]. symmetry.
  clear - Im Rz Rm. induction ms as [|x ms IH]; [destruct Im|]. cbn. destruct (Rz x (or_introl eq_refl)) as [->|(v & Ev)]; [reflexivity|]. rewrite Ev. cbn. destruct Im as [->|Im]; [congruence|]. rewrite IH; [reflexivity|exact Im|intros; apply Rz; now right].
Qed.
Print Assumptions match_keypoints_same_descriptor_refuted.
Example match_keypoints_same_descriptor_ex : match_keypoints [(0, 0); (1, 1)] [(0, 0); (1, 1)] [[mk_dm 0 0 0; mk_dm 0 1 0]; [mk_dm 1 0 0; mk_dm 1 1 0]] [] false (Some (1 / 2)) None false = Err ZeroDivisionError.
Proof.
  apply match_keypoints_same_descriptor_refuted with (m := [mk_dm 0 0 0; mk_dm 0 1 0]) (d0 := mk_dm 0 0 0) (d1 := mk_dm 0 1 0) (l := []); try (cbn; lia); try reflexivity.
  - right. exists (1 / 2). split; [reflexivity|lra].
  - intros m [<-|[<-|[]]]; (split; [cbn; lia|]); [exists 0%nat, 0%nat|exists 1%nat, 0%nat]; (split; [do 2 eexists; repeat split|cbn; lia]).
  - now left.
  - repeat split; [discriminate|intros r [Q _]; discriminate|intros r [Q _]; discriminate].
Qed.
(** A limit of 0 is no limit. *)
Theorem match_keypoints_zero_refuted pa pb ab ba cross r : match_keypoints pa pb ab ba cross (Some 0) (Some 0) r = match_keypoints pa pb ab ba cross None None r.
Proof. unfold match_keypoints, set_, Reqb. destruct (Req_EM_T 0 0); [reflexivity|contradiction]. Qed.
