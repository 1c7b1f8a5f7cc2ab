(** Properties C53, C69: the results of build_matches and its files. *)
From Coq Require Import String Sorting.Sorted.
From Verif Require Import Base BaseLemmas MatcherModel P_Matcher MatcherProofs.
Open Scope Z_scope.

(** The pairs of images to match. *)
Definition selected (times : list Z) (maxdt : option Z) (sq imgs : option (list Z)) (i j : nat) : Prop :=
  (i < j < length times)%nat /\ requested times maxdt sq i j /\ (forall l, imgs = Some l -> In (Z.of_nat j) l).
Definition fname (name : Z -> Z -> string) (i j : nat) : string := name (Z.of_nat i) (Z.of_nat j).
(** Matches of a pair with keypoints ki, kj whose match file is [f]. *)
Definition pair_match {K M} (a : match_args M) (make : K -> K -> M) (f : file M) (ki kj : K) : M :=
  match f with Written m => if (ma_path a && negb (ma_overwrite a))%bool then m else make ki kj | _ => make ki kj end.
(** ... as stored: converted to the type asked for and filtered *)
Definition stored {M} (a : match_args M) (m : M) : M :=
  let m := match ma_type a with Some f => f m | None => m end in match ma_filter a with Some f => f m | None => m end.
(** A call that can be made: images in order, keypoints [ks] in memory or on file, file names of different pairs are different, and
    no match file is incomplete. *)
Record callable {K M} (a : match_args M) (name : Z -> Z -> string) (kfiles : list (file K)) (times : list Z) (maxdt : option Z) (sq imgs : option (list Z)) (ks : list K) (s : match_state K M) : Prop := {
  cl_order : StronglySorted Z.le times;
  cl_seq : sq <> Some [];
  cl_ks : length ks = length times;
  cl_mem : length (ms_keypoints s) = length times;
  cl_avail : forall i k, nth_error ks i = Some k -> nth_error (ms_keypoints s) i = Some (Some k) \/
               (nth_error (ms_keypoints s) i = Some None /\ nth_error kfiles i = Some (Written k) /\ ma_keypoints_path a = true);
  cl_names : ma_path a = true -> forall i j i' j', selected times maxdt sq imgs i j -> selected times maxdt sq imgs i' j' -> fname name i j = fname name i' j' -> i = i' /\ j = j';
  cl_complete : ma_path a = true -> ma_overwrite a = false -> forall i j, selected times maxdt sq imgs i j -> ms_files s (fname name i j) <> Partial }.

Lemma pairs_from_In rows : forall i p, In p (pairs_from i rows) <-> exists r js, nth_error rows r = Some js /\ fst p = i + Z.of_nat r /\ In (snd p) js.
Proof.
  induction rows as [|js rows IH]; intros i p; cbn [pairs_from].
  - split; [intros []|]. intros (r & js & E & _). destruct r; discriminate.
  - rewrite in_app_iff, in_map_iff, IH. split.
    + intros [(j & <- & I)|(r & js' & E & F & I)]; [exists 0%nat, js; cbn; repeat split; auto; lia|]. exists (S r), js'. cbn [nth_error]. repeat split; auto. lia.
    + intros ([|r] & js' & E & F & I); cbn [nth_error] in E.
      * injection E as ->. left. exists (snd p). split; [|exact I]. destruct p as [p1 p2]; cbn in *. f_equal. lia.
      * right. exists r, js'. repeat split; auto. lia.
Qed.
Lemma NoDup_app_intro {A} (l1 l2 : list A) : NoDup l1 -> NoDup l2 -> (forall x, In x l1 -> ~ In x l2) -> NoDup (l1 ++ l2).
Proof. induction 1 as [|x l N ND IH]; intros ND2 H; cbn; [exact ND2|]. constructor; [rewrite in_app_iff; intros [I|I]; [now apply N|now apply (H x (or_introl eq_refl))]|]. apply IH; [exact ND2|]. intros y I. apply H. now right. Qed.
Lemma sorted_NoDup l : StronglySorted Z.lt l -> NoDup l.
Proof. induction 1 as [|x l S IH F]; constructor; [|exact IH]. intros I. rewrite Forall_forall in F. apply F in I. lia. Qed.
Lemma map_NoDup {A B} (f : A -> B) l : (forall x y, In x l -> In y l -> f x = f y -> x = y) -> NoDup l -> NoDup (map f l).
Proof.
  intros H. induction 1 as [|x l N ND IH]; cbn; constructor; [|apply IH; intros; apply H; cbn; auto]. intros I. apply in_map_iff in I as (y & E & I). apply N. rewrite <- (H y x); cbn; auto.
Qed.
Lemma pairs_from_NoDup rows : (forall js, In js rows -> NoDup js) -> forall i, NoDup (pairs_from i rows).
Proof.
  induction rows as [|js rows IH]; intros H i; cbn [pairs_from]; [constructor|]. apply NoDup_app_intro.
  - apply map_NoDup; [congruence|]. apply H. now left.
  - apply IH. intros js' I. apply H. now right.
  - intros p I J. apply in_map_iff in I as (j & <- & I). apply pairs_from_ge in J. cbn in J. lia.
Qed.
Lemma selected_pairs times maxdt sq imgs rows : StronglySorted Z.le times -> matching_images times maxdt sq imgs = Ok rows ->
  NoDup (pairs_of rows) /\ length rows = length times /\ forall p, In p (pairs_of rows) <-> exists i j, p = (Z.of_nat i, Z.of_nat j) /\ selected times maxdt sq imgs i j.
Proof.
  intros S E. destruct (matching_pairs _ _ _ _ _ S E) as [L H]. rewrite pairs_of_from. split; [|split; [exact L|]].
  - apply pairs_from_NoDup. intros js I. apply In_nth_error in I as [i Ei]. apply sorted_NoDup. now apply (H i).
  - intros [p1 p2]. rewrite pairs_from_In. cbn [fst snd]. split.
    + intros (r & js & Er & -> & I). apply (proj2 (H r js Er)) in I as (k & -> & A & B & C). exists r, k. split; [reflexivity|]. repeat split; auto; lia.
    + intros (i & j & [= -> ->] & A & B & C). destruct (nth_error rows i) as [js|] eqn:Er; [|apply nth_error_None in Er; lia]. exists i, js. split; [exact Er|]. split; [lia|]. apply (proj2 (H i js Er)). exists j. auto.
Qed.
Lemma list_eq {A} (l l' : list A) : (forall i, nth_error l i = nth_error l' i) -> l = l'.
Proof.
  revert l'. induction l as [|x l IH]; intros [|y l'] H; auto; [specialize (H 0%nat); discriminate|specialize (H 0%nat); discriminate|]. f_equal; [specialize (H 0%nat); cbn in H; congruence|]. apply IH. intros i. apply (H (S i)).
Qed.
Lemma combine_map_r {A B} (f : A -> B) l : combine l (map f l) = map (fun x => (x, f x)) l.
Proof. induction l as [|x l IH]; cbn; [reflexivity|]. now rewrite IH. Qed.

Section Run.
Context {K M : Type} (a : match_args M) (make : K -> K -> M) (name : Z -> Z -> string) (kfiles : list (file K)).
Lemma run times maxdt sq imgs ks s : callable a name kfiles times maxdt sq imgs ks s -> (ma_clear_matches a = true -> ma_filter a = None /\ ma_path a = true) ->
  exists rows k s', matching_images times maxdt sq imgs = Ok rows /\ (forall i x, nth_error ks i = Some x -> k (Z.of_nat i) = Some x) /\
  (let val p := match k (fst p), k (snd p) with Some ki, Some kj => Some (pair_match a make (ms_files s (name (fst p) (snd p))) ki kj) | _, _ => None end in
   exists vals, map val (pairs_of rows) = map Some vals /\
  build_matches a make name kfiles times maxdt sq imgs s =
    ((if ma_clear_matches a then Ok None else match pairs_of rows with [] => Err ValueError | _ => Ok (Some (mk_coo (combine (pairs_of rows) (map (stored a) vals)) (zmax (map fst (pairs_of rows)) + 1, zmax (map snd (pairs_of rows)) + 1))) end), s') /\
  ms_keypoints s' = map (fun x => if ma_clear_keypoints a then None else Some x) ks /\
  (ma_path a = true -> forall p v, In p (pairs_of rows) -> val p = Some v -> ms_files s' (name (fst p) (snd p)) = Written v) /\
  (forall f, ma_path a = false \/ (forall i j, selected times maxdt sq imgs i j -> f <> fname name i j) -> ms_files s' f = ms_files s f)).
Proof.
  intros C CF. destruct (matching_pairs_total times maxdt sq imgs (cl_seq _ _ _ _ _ _ _ _ _ C)) as [rows Er]. destruct (selected_pairs _ _ _ _ _ (cl_order _ _ _ _ _ _ _ _ _ C) Er) as (ND & Lr & Sel).
  assert (Pre : build_matches a make name kfiles times maxdt sq imgs s = match match_images a make name kfiles 0 rows s with (Err e, s) => (Err e, s) | (Ok data, s) => if ma_clear_matches a then (Ok None, s) else (let* m := build_coo rows data in Ok (Some m), s) end).
  { unfold build_matches. destruct (ma_clear_matches a) eqn:Ec; cbn [andb]; [destruct (CF eq_refl) as [_ ->]; cbn [negb]|].
    all: replace (existsb _ (ms_keypoints s) && negb (ma_keypoints_path a))%bool with false; [rewrite Er; reflexivity|]; symmetry; apply andb_false_iff; destruct (ma_keypoints_path a) eqn:Ek; [right; reflexivity|left].
    all: destruct (existsb _ (ms_keypoints s)) eqn:Ex; [|reflexivity]; exfalso; apply existsb_exists in Ex as ([|] & I & F); [discriminate|]; apply In_nth_error in I as [i Ei].
    all: assert (Li : (i < length ks)%nat) by (rewrite (cl_ks _ _ _ _ _ _ _ _ _ C), <- (cl_mem _ _ _ _ _ _ _ _ _ C); apply nth_error_Some; congruence).
    all: destruct (nth_error ks i) as [x|] eqn:Ei'; [|apply nth_error_None in Ei'; lia]; destruct (cl_avail _ _ _ _ _ _ _ _ _ C i x Ei') as [Q|(_ & _ & Q)]; congruence. }
  destruct ks as [|k0 ks'] eqn:Eks.
  - assert (rows = []) by (pose proof (cl_ks _ _ _ _ _ _ _ _ _ C) as Q; cbn in Q; destruct rows; [reflexivity|cbn in Lr; lia]). subst rows.
    exists [], (fun _ => None), s. split; [exact Er|]. split; [intros i x; destruct i; discriminate|]. exists []. split; [reflexivity|]. rewrite Pre. cbn [match_images pairs_of].
    split. { unfold build_coo, pairs_of, mapi. cbn. destruct (ma_clear_matches a); reflexivity. }
    split. { pose proof (cl_mem _ _ _ _ _ _ _ _ _ C) as Q. rewrite <- (cl_ks _ _ _ _ _ _ _ _ _ C) in Q. destruct (ms_keypoints s); [reflexivity|discriminate]. }
    split; [intros _ p v []|auto].
  - rewrite <- Eks in *. set (k := fun j => nth (Z.to_nat j) ks k0). clear ks' Eks. set (n := length times).
    assert (Kn : forall i x, nth_error ks i = Some x -> k (Z.of_nat i) = x). { intros i x E. unfold k. rewrite Nat2Z.id. now apply nth_error_nth. }
    assert (Av : forall j, 0 <= j < Z.of_nat n -> avail kfiles k s j).
    { intros j Hj. destruct (nth_error ks (Z.to_nat j)) as [x|] eqn:E; [|apply nth_error_None in E; rewrite (cl_ks _ _ _ _ _ _ _ _ _ C) in E; fold n in E; lia].
      assert (Kj : k j = x) by (rewrite <- (Kn _ _ E); now rewrite Z2Nat.id by lia). unfold avail, mem_at. rewrite Kj. destruct (cl_avail _ _ _ _ _ _ _ _ _ C _ _ E) as [Q|(Q1 & Q2 & _)]; [left|right; split]; now apply nth_error_nth. }
    rewrite pairs_of_from in *.
    destruct (images_ok a make name kfiles n k rows 0 s) as (data & s' & E & D & L & Mm & P & Q).
    + lia.
    + unfold n. rewrite Lr. lia.
    + exact (cl_mem _ _ _ _ _ _ _ _ _ C).
    + intros Hc. now apply CF.
    + destruct (ma_path a) eqn:Ep; [left|now right]. apply map_NoDup; [|exact ND]. intros p q Ip Iq Epq. apply Sel in Ip as (i & j & -> & Si). apply Sel in Iq as (i' & j' & -> & Si'). cbn [fst snd] in Epq.
      destruct (cl_names _ _ _ _ _ _ _ _ _ C Ep i j i' j' Si Si' Epq) as [-> ->]. reflexivity.
    + exact ND.
    + exact Av.
    + intros p Ip. apply Sel in Ip as (i & j & -> & Si). cbn [fst snd]. pose proof (proj1 Si) as R. split; [lia|]. split; [unfold inr_, n; lia|]. intros Hp Ho. now apply (cl_complete _ _ _ _ _ _ _ _ _ C Hp Ho).
    + exists rows, (fun j => if (0 <=? j) && (j <? Z.of_nat n) then Some (k j) else None)%bool, s'. split; [exact Er|]. split.
      { intros i x Ei. assert (i < length ks)%nat by (apply nth_error_Some; congruence). rewrite (cl_ks _ _ _ _ _ _ _ _ _ C) in H. destruct (Z.leb_spec 0 (Z.of_nat i)); [|lia]. destruct (Z.ltb_spec (Z.of_nat i) (Z.of_nat n)); [|unfold n in *; lia]. cbn [andb]. f_equal. now apply Kn. }
      rewrite pairs_of_from.
      assert (Val : forall p, In p (pairs_from 0 rows) -> (match (if (0 <=? fst p) && (fst p <? Z.of_nat n) then Some (k (fst p)) else None)%bool, (if (0 <=? snd p) && (snd p <? Z.of_nat n) then Some (k (snd p)) else None)%bool with
         | Some ki, Some kj => Some (pair_match a make (ms_files s (name (fst p) (snd p))) ki kj) | _, _ => None end) = Some (content a make name k (ms_files s) (fst p) (snd p))).
      { intros p Ip. apply Sel in Ip as (i & j & -> & Si). cbn [fst snd]. pose proof (proj1 Si) as R. fold n in R. destruct (Z.leb_spec 0 (Z.of_nat i)); [|lia]. destruct (Z.ltb_spec (Z.of_nat i) (Z.of_nat n)); [|lia]. destruct (Z.leb_spec 0 (Z.of_nat j)); [|lia]. destruct (Z.ltb_spec (Z.of_nat j) (Z.of_nat n)); [|lia].
        cbn [andb]. f_equal. unfold pair_match, content. destruct (ms_files s (name (Z.of_nat i) (Z.of_nat j))), (ma_path a && negb (ma_overwrite a))%bool; reflexivity. }
      exists (map (fun p => content a make name k (ms_files s) (fst p) (snd p)) (pairs_from 0 rows)). split; [rewrite map_map; now apply map_ext_in|]. split; [|split; [|split]].
      * rewrite Pre, E. destruct (ma_clear_matches a) eqn:Ec; [reflexivity|]. apply f_equal2; [|reflexivity]. unfold build_coo. rewrite pairs_of_from, (D eq_refl). destruct (pairs_from 0 rows) as [|p ps] eqn:Ep; [reflexivity|]. rewrite <- Ep. cbn [bind]. now rewrite map_map.
      * apply list_eq. intros i. rewrite nth_error_map. destruct (nth_error ks i) as [x|] eqn:Ei.
        -- assert (Hi : (i < length ks)%nat) by (apply nth_error_Some; congruence). rewrite (cl_ks _ _ _ _ _ _ _ _ _ C) in Hi. fold n in Hi. cbn [option_map]. specialize (Mm (Z.of_nat i) ltac:(lia)). unfold mem_at, mem_final in Mm. rewrite (proj2 (Z.leb_le 0 (Z.of_nat i))) in Mm by lia.
           rewrite Nat2Z.id in Mm. rewrite (nth_error_nth' _ None) by lia. rewrite Mm. rewrite (Kn _ _ Ei). reflexivity.
        -- apply nth_error_None in Ei. rewrite (cl_ks _ _ _ _ _ _ _ _ _ C) in Ei. cbn. apply nth_error_None. fold n in Ei. lia.
      * intros Hp p v Ip Hv. rewrite Val in Hv by exact Ip. injection Hv as <-. now apply P.
      * intros f Hf. apply Q. destruct Hf as [|N]; [now left|right]. intros I. apply in_map_iff in I as (p & <- & Ip). apply Sel in Ip as (i & j & -> & Si). now apply (N i j Si).
Qed.
End Run.

(** Matching stores exactly one entry per selected pair: the matches of its file if there is one and overwrite is not set, otherwise
    the matches of the keypoints of its two images, which are then written to its file.  Other files are left alone; the
    keypoints of all images end up in memory, or all are cleared. *)
Theorem build_matches_result {K M} (a : match_args M) (make : K -> K -> M) name kfiles times maxdt sq imgs ks s :
  callable a name kfiles times maxdt sq imgs ks s -> ma_clear_matches a = false -> (exists i j, selected times maxdt sq imgs i j) ->
  exists m s', build_matches a make name kfiles times maxdt sq imgs s = (Ok (Some m), s') /\
  NoDup (map fst (coo_entries m)) /\
  (forall i j x, In (Z.of_nat i, Z.of_nat j, x) (coo_entries m) <-> selected times maxdt sq imgs i j /\ exists ki kj, nth_error ks i = Some ki /\ nth_error ks j = Some kj /\ x = stored a (pair_match a make (ms_files s (fname name i j)) ki kj)) /\
  (forall e, In e (coo_entries m) -> exists i j, fst e = (Z.of_nat i, Z.of_nat j)) /\
  (ma_path a = true -> forall i j ki kj, selected times maxdt sq imgs i j -> nth_error ks i = Some ki -> nth_error ks j = Some kj -> ms_files s' (fname name i j) = Written (pair_match a make (ms_files s (fname name i j)) ki kj)) /\
  (forall f, ma_path a = false \/ (forall i j, selected times maxdt sq imgs i j -> f <> fname name i j) -> ms_files s' f = ms_files s f) /\
  ms_keypoints s' = map (fun x => if ma_clear_keypoints a then None else Some x) ks.
Proof.
  intros C Ec (i0 & j0 & S0). destruct (run a make name kfiles times maxdt sq imgs ks s C) as (rows & k & s' & Er & Kn & vals & V & E & Mm & P & Q); [congruence|].
  destruct (selected_pairs _ _ _ _ _ (cl_order _ _ _ _ _ _ _ _ _ C) Er) as (ND & Lr & Sel). rewrite Ec in E.
  assert (I0 : In (Z.of_nat i0, Z.of_nat j0) (pairs_of rows)) by (apply Sel; eauto).
  assert (Kd : forall i j, selected times maxdt sq imgs i j -> exists ki kj, nth_error ks i = Some ki /\ nth_error ks j = Some kj).
  { intros i j Si. pose proof (proj1 Si) as R. rewrite <- (cl_ks _ _ _ _ _ _ _ _ _ C) in R. destruct (nth_error ks i) as [ki|] eqn:E1; [|apply nth_error_None in E1; lia]. destruct (nth_error ks j) as [kj|] eqn:E2; [|apply nth_error_None in E2; lia]. eauto. }
  destruct (pairs_of rows) as [|p ps] eqn:Ep; [contradiction|]. rewrite <- Ep in *. clear p ps Ep.
  assert (Lv : length vals = length (pairs_of rows)) by (apply (f_equal (@length _)) in V; rewrite !map_length in V; congruence).
  eexists. exists s'. split; [exact E|]. cbn [coo_entries]. 
  assert (F : map fst (combine (pairs_of rows) (map (stored a) vals)) = pairs_of rows).
  { clear -Lv. revert vals Lv. induction (pairs_of rows) as [|p l IH]; intros [|v vs] L; try discriminate; cbn; [reflexivity|]. f_equal. apply IH. now injection L. }
  assert (Ent : forall p x, In (p, x) (combine (pairs_of rows) (map (stored a) vals)) <-> In p (pairs_of rows) /\ exists ki kj, k (fst p) = Some ki /\ k (snd p) = Some kj /\ x = stored a (pair_match a make (ms_files s (name (fst p) (snd p))) ki kj)).
  { clear -V. revert vals V. induction (pairs_of rows) as [|p l IH]; intros [|v vs] V; try discriminate; [cbn; split; [intros []|intros [[] _]]|]. cbn [map combine] in *. injection V as V1 V2. intros p' x. cbn [In]. rewrite IH by exact V2.
    destruct (k (fst p)) as [ki|] eqn:E1; [|discriminate]. destruct (k (snd p)) as [kj|] eqn:E2; [|discriminate]. injection V1 as V1. split.
    - intros [[= <- <-]|[I H]]; [split; [now left|]; exists ki, kj; now rewrite <- V1|]. split; [now right|exact H].
    - intros [[<-|I] H]; [|right; split; assumption]. destruct H as (ki' & kj' & Q1 & Q2 & ->). left. rewrite <- V1. f_equal. congruence. }
  split; [now rewrite F|]. split; [|split; [|split; [|split]]].
  - intros i j x. rewrite Ent, Sel. cbn [fst snd]. split.
    + intros ((i' & j' & [= A B] & Si) & ki & kj & K1 & K2 & X). apply Nat2Z.inj in A, B. subst i' j'. split; [exact Si|]. destruct (Kd i j Si) as (ki' & kj' & E1 & E2). pose proof (Kn _ _ E1). pose proof (Kn _ _ E2). exists ki', kj'. repeat split; auto. unfold fname. congruence.
    + intros (Si & ki & kj & E1 & E2 & X). split; [eauto|]. exists ki, kj. auto.
  - intros e I. apply (in_map fst) in I. rewrite F in I. apply Sel in I as (i & j & Ei & _). eauto.
  - intros Hp i j ki kj Si E1 E2. apply (P Hp (Z.of_nat i, Z.of_nat j)); [apply Sel; eauto|]. cbn [fst snd]. now rewrite (Kn _ _ E1), (Kn _ _ E2).
  - exact Q.
  - exact Mm.
Qed.

(** With clear_matches the same files are written and nothing is stored. *)
Theorem build_matches_clear {K M} (a : match_args M) (make : K -> K -> M) name kfiles times maxdt sq imgs ks s :
  callable a name kfiles times maxdt sq imgs ks s -> ma_clear_matches a = true -> ma_path a = true -> ma_filter a = None ->
  exists s', build_matches a make name kfiles times maxdt sq imgs s = (Ok None, s') /\
  (forall i j ki kj, selected times maxdt sq imgs i j -> nth_error ks i = Some ki -> nth_error ks j = Some kj -> ms_files s' (fname name i j) = Written (pair_match a make (ms_files s (fname name i j)) ki kj)) /\
  (forall f, (forall i j, selected times maxdt sq imgs i j -> f <> fname name i j) -> ms_files s' f = ms_files s f) /\
  ms_keypoints s' = map (fun x => if ma_clear_keypoints a then None else Some x) ks.
Proof.
  intros C Ec Ep Ef. destruct (run a make name kfiles times maxdt sq imgs ks s C) as (rows & k & s' & Er & Kn & vals & V & E & Mm & P & Q); [auto|].
  destruct (selected_pairs _ _ _ _ _ (cl_order _ _ _ _ _ _ _ _ _ C) Er) as (ND & Lr & Sel). rewrite Ec in E. exists s'. split; [exact E|]. split; [|split; [|exact Mm]].
  - intros i j ki kj Si E1 E2. apply (P Ep (Z.of_nat i, Z.of_nat j)); [apply Sel; eauto|]. cbn [fst snd]. now rewrite (Kn _ _ E1), (Kn _ _ E2).
  - intros f N. apply Q. now right.
Qed.

(** Crash and resume: if a run was stopped between two files, so that each file is either as before or as the run would leave it,
    then running again (with the keypoints in whatever memory or files) gives the matches and the files of an uninterrupted run. *)
Theorem build_matches_resume {K M} (a : match_args M) (make : K -> K -> M) name kfiles kfiles2 times maxdt sq imgs ks s s2 :
  callable a name kfiles times maxdt sq imgs ks s -> callable a name kfiles2 times maxdt sq imgs ks s2 -> (ma_clear_matches a = true -> ma_filter a = None) -> ma_path a = true -> ma_overwrite a = false ->
  (forall f, ms_files s2 f = ms_files s f \/ exists i j ki kj, selected times maxdt sq imgs i j /\ f = fname name i j /\ nth_error ks i = Some ki /\ nth_error ks j = Some kj /\ ms_files s2 f = Written (pair_match a make (ms_files s f) ki kj)) ->
  fst (build_matches a make name kfiles2 times maxdt sq imgs s2) = fst (build_matches a make name kfiles times maxdt sq imgs s) /\
  forall f, ms_files (snd (build_matches a make name kfiles2 times maxdt sq imgs s2)) f = ms_files (snd (build_matches a make name kfiles times maxdt sq imgs s)) f.
Proof.
  intros C C2 CF Ep Eo H. destruct (run a make name kfiles times maxdt sq imgs ks s C) as (rows & k & s' & Er & Kn & vals & V & E & _ & P & Q); [auto|].
  destruct (run a make name kfiles2 times maxdt sq imgs ks s2 C2) as (rows2 & k2 & s2' & Er2 & Kn2 & vals2 & V2 & E2 & _ & P2 & Q2); [auto|]. assert (rows2 = rows) by congruence. subst rows2. clear Er2.
  destruct (selected_pairs _ _ _ _ _ (cl_order _ _ _ _ _ _ _ _ _ C) Er) as (ND & Lr & Sel). rewrite E, E2. cbn [fst snd].
  assert (Kd : forall i j, selected times maxdt sq imgs i j -> exists ki kj, nth_error ks i = Some ki /\ nth_error ks j = Some kj).
  { intros i j Si. pose proof (proj1 Si) as R. rewrite <- (cl_ks _ _ _ _ _ _ _ _ _ C) in R. destruct (nth_error ks i) as [ki|] eqn:E1'; [|apply nth_error_None in E1'; lia]. destruct (nth_error ks j) as [kj|] eqn:E2'; [|apply nth_error_None in E2'; lia]. eauto. }
  set (val := fun p : Z * Z => match k (fst p), k (snd p) with Some ki, Some kj => Some (pair_match a make (ms_files s (name (fst p) (snd p))) ki kj) | _, _ => None end) in *.
  set (val2 := fun p : Z * Z => match k2 (fst p), k2 (snd p) with Some ki, Some kj => Some (pair_match a make (ms_files s2 (name (fst p) (snd p))) ki kj) | _, _ => None end) in *.
  assert (Same : forall i j ki kj, selected times maxdt sq imgs i j -> nth_error ks i = Some ki -> nth_error ks j = Some kj -> pair_match a make (ms_files s2 (fname name i j)) ki kj = pair_match a make (ms_files s (fname name i j)) ki kj).
  { intros i j ki kj Si K1 K2. destruct (H (fname name i j)) as [->|(i' & j' & ki' & kj' & Si' & F & K1' & K2' & ->)]; [reflexivity|]. destruct (cl_names _ _ _ _ _ _ _ _ _ C Ep i j i' j' Si Si' F) as [<- <-]. assert (ki' = ki) by congruence. assert (kj' = kj) by congruence. subst.
    cbn [pair_match]. rewrite Ep, Eo. reflexivity. }
  assert (VV : forall p, In p (pairs_of rows) -> val2 p = val p /\ exists v, val p = Some v).
  { intros p I. apply Sel in I as (i & j & -> & Si). destruct (Kd i j Si) as (ki & kj & K1 & K2). unfold val, val2. cbn [fst snd]. rewrite (Kn _ _ K1), (Kn _ _ K2), (Kn2 _ _ K1), (Kn2 _ _ K2). fold (fname name i j). rewrite (Same i j ki kj Si K1 K2). eauto. }
  assert (vals2 = vals). { assert (G : map (@Some M) vals2 = map Some vals) by (rewrite <- V, <- V2; apply map_ext_in; intros p I; now apply VV). clear -G. revert vals2 G. induction vals as [|v vs IH]; intros [|w ws] G; try discriminate; [reflexivity|]. cbn in G. injection G as -> G. f_equal. now apply IH. } subst vals2.
  split; [reflexivity|]. intros f.
  destruct (in_dec string_dec f (map (fun p => name (fst p) (snd p)) (pairs_of rows))) as [I|N].
  - apply in_map_iff in I as (p & <- & I). destruct (VV p I) as (A & v & B). rewrite (P Ep p v I B). rewrite (P2 Ep p v I) by (etransitivity; [exact A|exact B]). reflexivity.
  - assert (N' : forall i j, selected times maxdt sq imgs i j -> f <> fname name i j). { intros i j Si ->. apply N. apply in_map_iff. exists (Z.of_nat i, Z.of_nat j). split; [reflexivity|]. apply Sel. eauto. }
    rewrite Q, Q2 by now right. destruct (H f) as [|(i & j & ki & kj & Si & F & _)]; [assumption|]. exfalso. now apply (N' i j Si).
Qed.
Print Assumptions build_matches_resume.

(* ---------------------------------------------------------------- *)
Definition args0 : match_args Z := mk_ma true false true false true None None.
Definition nm (i j : Z) : string := match i, j with 0, 1 => "a-b.pkl" | 0, 2 => "a-c.pkl" | 1, 2 => "b-c.pkl" | _, _ => "" end%string.
Lemma selected3 i j : selected [0; 1; 2] None None None i j -> (i = 0 /\ j = 1 \/ i = 0 /\ j = 2 \/ i = 1 /\ j = 2)%nat.
Proof. intros (A & _). cbn in A. lia. Qed.
Example callable_ex : callable args0 nm [Written 10; Written 20; Missing] [0; 1; 2] None None None [10; 20; 30] (mk_ms [None; None; Some 30] (fun f => if String.eqb f "b-c.pkl" then Written 7 else Missing)).
Proof.
  constructor; cbn; auto.
  - now apply (ascending_sorted [0; 1; 2]).
  - discriminate.
  - intros [|[|[|[|i]]]] k; cbn; intros E; injection E as <- || discriminate; auto.
  - intros _ i j i' j' S1 S2. destruct (selected3 i j S1) as [[-> ->]|[[-> ->]|[-> ->]]], (selected3 i' j' S2) as [[-> ->]|[[-> ->]|[-> ->]]]; cbn; intros E; try discriminate E; auto.
  - intros _ _ i j S1. destruct (selected3 i j S1) as [[-> ->]|[[-> ->]|[-> ->]]]; cbn; discriminate.
Qed.
Example build_matches_ex : fst (build_matches args0 Z.add nm [Written 10; Written 20; Missing] [0; 1; 2] None None None (mk_ms [None; None; Some 30] (fun f => if String.eqb f "b-c.pkl" then Written 7 else Missing))) = Ok (Some (mk_coo [(0, 1, 30); (0, 2, 40); (1, 2, 7)] (2, 3))).
Proof. reflexivity. Qed.
(** Documented: "an (n, n) upper-triangular sparse matrix": the matrix always has fewer than n rows. *)
Lemma zmax_lt b l : 0 <= b -> (forall x, In x l -> x < b) -> zmax l < b. Proof. intros B. unfold zmax. induction l as [|x l IH]; cbn; intros H; [lia|]. specialize (IH (fun y I => H y (or_intror I))). specialize (H x (or_introl eq_refl)). lia. Qed.
Theorem build_matches_shape_refuted {K M} (a : match_args M) (make : K -> K -> M) name kfiles times maxdt sq imgs ks s m s' :
  callable a name kfiles times maxdt sq imgs ks s -> (ma_clear_matches a = true -> ma_filter a = None /\ ma_path a = true) -> build_matches a make name kfiles times maxdt sq imgs s = (Ok (Some m), s') -> fst (coo_shape m) < Z.of_nat (length times).
Proof.
  intros C CF E. destruct (run a make name kfiles times maxdt sq imgs ks s C CF) as (rows & k & s1 & Er & Kn & vals & V & E' & _). rewrite E in E'.
  destruct (selected_pairs _ _ _ _ _ (cl_order _ _ _ _ _ _ _ _ _ C) Er) as (ND & Lr & Sel). destruct (ma_clear_matches a); [discriminate|]. destruct (pairs_of rows) as [|p ps] eqn:Ep; [discriminate|]. injection E' as -> _. change (zmax (map fst (p :: ps)) + 1 < Z.of_nat (length times)).
  assert (Lt : forall x, In x (map fst (p :: ps)) -> x < Z.of_nat (length times) - 1). { intros x I. apply in_map_iff in I as (q & <- & I). apply Sel in I as (i & j & -> & Si). pose proof (proj1 Si). cbn [fst]. lia. }
  assert (B : 0 <= Z.of_nat (length times) - 1). { assert (I : In p (p :: ps)) by now left. apply Sel in I as (i & j & _ & Si). pose proof (proj1 Si). lia. }
  pose proof (zmax_lt _ _ B Lt). lia.
Qed.
(** If no pair is selected the call fails, after clearing the keypoints. *)
Theorem build_matches_none_refuted {K M} (a : match_args M) (make : K -> K -> M) name kfiles times maxdt sq imgs ks s :
  callable a name kfiles times maxdt sq imgs ks s -> ma_clear_matches a = false -> (forall i j, ~ selected times maxdt sq imgs i j) ->
  exists s', build_matches a make name kfiles times maxdt sq imgs s = (Err ValueError, s') /\ (forall f, ms_files s' f = ms_files s f) /\
    ms_keypoints s' = map (fun x => if ma_clear_keypoints a then None else Some x) ks.
Proof.
  intros C Ec N. destruct (run a make name kfiles times maxdt sq imgs ks s C) as (rows & k & s' & Er & Kn & vals & V & E & Mm & P & Q); [congruence|].
  destruct (selected_pairs _ _ _ _ _ (cl_order _ _ _ _ _ _ _ _ _ C) Er) as (ND & Lr & Sel). rewrite Ec in E. exists s'. split; [|split; [|exact Mm]].
  - rewrite E. destruct (pairs_of rows) as [|p ps]; [reflexivity|]. destruct (proj1 (Sel p) (or_introl eq_refl)) as (i & j & _ & Si). destruct (N i j Si).
  - intros f. apply Q. right. intros i j Si. destruct (N i j Si).
Qed.
Example build_matches_none_ex : exists (s s' : match_state Z Z), callable args0 nm [Written 1; Written 2; Written 3] [0; 10; 20] (Some 5) None None [1; 2; 3] s /\ (forall i j, ~ selected [0; 10; 20] (Some 5) None None i j) /\
  ms_keypoints s = [Some 1; Some 2; Some 3] /\ build_matches args0 Z.add nm [Written 1; Written 2; Written 3] [0; 10; 20] (Some 5) None None s = (Err ValueError, s') /\ ms_keypoints s' = [None; None; None].
Proof.
  assert (Nsel : forall i j, ~ selected [0; 10; 20] (Some 5) None None i j).
  { intros i j (A & [(Q & _)|[(d & ti & tj & [= <-] & E1 & E2 & L)|(? & Q & _)]] & _); [discriminate| |discriminate]. cbn in A. destruct i as [|[|i]]; [| |lia]; destruct j as [|[|[|j]]]; try lia; cbn in E1, E2; injection E1 as <-; injection E2 as <-; lia. }
  exists (mk_ms [Some 1; Some 2; Some 3] (fun _ => Missing)). eexists. split; [|split; [exact Nsel|split; [reflexivity|split; reflexivity]]]. constructor; cbn; auto.
  - now apply (ascending_sorted [0; 10; 20]).
  - discriminate.
  - intros [|[|[|[|i]]]] k; cbn; intros E; injection E as <- || discriminate; auto.
  - intros _ i j i' j' Q. now apply Nsel in Q.
  - intros _ _ i j Q. now apply Nsel in Q.
Qed.
(** A file cut short by a crash cannot be read again: every later run that needs it fails until overwrite is set or the file is removed
    (with clear_matches the file is kept as if it were complete). *)
Section PartialFile.
Context {K M : Type} (a : match_args M) (make : K -> K -> M) (name : Z -> Z -> string) (kfiles : list (file K)).
Hypothesis Hp : ma_path a = true.
Hypothesis Ho : ma_overwrite a = false.
Hypothesis Hc : ma_clear_matches a = false.
Lemma load_files j s : ms_files (snd (load_kp (M := M) kfiles j s)) = ms_files s.
Proof. unfold load_kp. destruct (nth (Z.to_nat j) (ms_keypoints s) None); [reflexivity|]. destruct (read_pickle _); reflexivity. Qed.
Lemma pair_keeps i j ki kj s f : name i j <> f -> ms_files (snd (match_pair a make name i j ki kj s)) f = ms_files s f.
Proof.
  intros N. unfold match_pair. rewrite Hp, Ho, Hc. cbn [andb negb]. destruct (exists_ _); [destruct (read_pickle _); reflexivity|]. cbn [snd ms_files]. unfold put_file. destruct (String.eqb_spec f (name i j)); [congruence|reflexivity].
Qed.
Lemma row_keeps i ki f : forall js s, (forall j, In j js -> name i j <> f) -> ms_files (snd (match_row a make name kfiles i ki js s)) f = ms_files s f.
Proof.
  induction js as [|j js IH]; intros s N; [reflexivity|]. cbn [match_row]. pose proof (load_files j s) as L. destruct (load_kp kfiles j s) as [[kj|e] s1]; cbn [snd] in L; [|cbn [snd]; now rewrite L].
  pose proof (pair_keeps i j ki kj s1 f (N j (or_introl eq_refl))) as P. destruct (match_pair a make name i j ki kj s1) as [[m|e] s2]; cbn [snd] in P; [|cbn [snd]; congruence].
  specialize (IH s2 (fun j I => N j (or_intror I))). destruct (match_row a make name kfiles i ki js s2) as [[ms|e] s3]; cbn [snd] in IH |- *; congruence.
Qed.
Lemma row_partial i ki j0 : forall js s, ms_files s (name i j0) = Partial -> In j0 js -> (forall j, In j js -> name i j = name i j0 -> j = j0) -> exists e s', match_row a make name kfiles i ki js s = (Err e, s').
Proof.
  induction js as [|j js IH]; intros s F I N; [destruct I|]. cbn [match_row]. pose proof (load_files j s) as L. destruct (load_kp kfiles j s) as [[kj|e] s1]; cbn [snd] in L; [|eauto].
  destruct (Z.eq_dec j j0) as [->|Ne].
  - unfold match_pair. rewrite Hp, Ho, Hc, L, F. cbn. eauto.
  - assert (Nn : name i j <> name i j0) by (intros Q; apply Ne, (N j (or_introl eq_refl) Q)). pose proof (pair_keeps i j ki kj s1 (name i j0) Nn) as P. destruct (match_pair a make name i j ki kj s1) as [[m|e] s2]; cbn [snd] in P; [|eauto].
    destruct (IH s2) as (e & s' & ->); [congruence|destruct I; [contradiction|assumption]|intros j' I' Q; apply N; [now right|exact Q]|eauto].
Qed.
Lemma image_keeps i js s f : (forall j, In j js -> name i j <> f) -> ms_files (snd (match_image a make name kfiles i js s)) f = ms_files s f.
Proof.
  intros N. unfold match_image. pose proof (load_files i s) as L. destruct (load_kp kfiles i s) as [[ki|e] s1]; cbn [snd] in L; [|cbn [snd]; now rewrite L].
  pose proof (row_keeps i ki f js s1 N) as R. destruct (match_row a make name kfiles i ki js s1) as [[ms|e] s2]; cbn [snd] in R; [|cbn [snd]; congruence].
  destruct (ma_clear_keypoints a); destruct (ma_filter a); [rewrite Hc| |rewrite Hc|]; cbn [snd ms_files]; congruence.
Qed.
Lemma image_partial i j0 js s : ms_files s (name i j0) = Partial -> In j0 js -> (forall j, In j js -> name i j = name i j0 -> j = j0) -> exists e s', match_image a make name kfiles i js s = (Err e, s').
Proof.
  intros F I N. unfold match_image. pose proof (load_files i s) as L. destruct (load_kp kfiles i s) as [[ki|e] s1]; cbn [snd] in L; [|eauto].
  destruct (row_partial i ki j0 js s1) as (e & s' & ->); [congruence|assumption|assumption|eauto].
Qed.
Lemma images_partial i0 j0 : forall rows i s, ms_files s (name i0 j0) = Partial -> In (i0, j0) (pairs_from i rows) -> (forall p, In p (pairs_from i rows) -> name (fst p) (snd p) = name i0 j0 -> p = (i0, j0)) ->
  exists e s', match_images a make name kfiles i rows s = (Err e, s').
Proof.
  induction rows as [|js rows IH]; intros i s F I N; cbn [pairs_from] in I; [destruct I|]. cbn [match_images]. cbn [pairs_from] in N.
  apply in_app_iff in I as [I|I].
  - apply in_map_iff in I as (j & Q & I). injection Q as -> ->. destruct (image_partial i0 j0 js s F I) as (e & s' & ->); [|eauto]. intros j' I' Q. specialize (N (i0, j')). assert (E : (i0, j') = (i0, j0)) by (apply N; [apply in_app_iff; left; now apply (in_map (fun j => (i0, j)))|exact Q]). congruence.
  - assert (Lt : i + 1 <= i0) by (apply pairs_from_ge in I; exact I). assert (Nn : forall j, In j js -> name i j <> name i0 j0). { intros j I' Q. assert (E : (i, j) = (i0, j0)) by (apply N; [apply in_app_iff; left; now apply (in_map (fun j => (i, j)))|exact Q]). injection E. intros. lia. }
    pose proof (image_keeps i js s _ Nn) as R. destruct (match_image a make name kfiles i js s) as [[ms|e] s1]; cbn [snd] in R; [|eauto].
    destruct (IH (i + 1) s1) as (e & s' & ->); [congruence|exact I|intros p Ip; apply N, in_app_iff; now right|eauto].
Qed.
End PartialFile.
Theorem build_matches_partial_file_refuted {K M} (a : match_args M) (make : K -> K -> M) name kfiles times maxdt sq imgs s i0 j0 :
  StronglySorted Z.le times -> ma_path a = true -> ma_overwrite a = false -> ma_clear_matches a = false ->
  (forall i j i' j', selected times maxdt sq imgs i j -> selected times maxdt sq imgs i' j' -> fname name i j = fname name i' j' -> i = i' /\ j = j') ->
  selected times maxdt sq imgs i0 j0 -> ms_files s (fname name i0 j0) = Partial ->
  exists e, fst (build_matches a make name kfiles times maxdt sq imgs s) = Err e.
Proof.
  intros S Hp Ho Hc N S0 F. unfold build_matches. rewrite Hc. cbn [andb]. destruct (existsb _ (ms_keypoints s) && negb (ma_keypoints_path a))%bool; [now exists ValueError|].
  destruct (matching_images times maxdt sq imgs) as [rows|e] eqn:Er; [|now exists e]. destruct (selected_pairs _ _ _ _ _ S Er) as (_ & _ & Sel). rewrite pairs_of_from in Sel.
  destruct (images_partial a make name kfiles Hp Ho Hc (Z.of_nat i0) (Z.of_nat j0) rows 0 s F) as (e & s' & ->); [apply Sel; eauto| |now exists e].
  intros p I Q. apply Sel in I as (i & j & -> & Si). cbn [fst snd] in Q. destruct (N i j i0 j0 Si S0 Q) as [-> ->]. reflexivity.
Qed.
Print Assumptions build_matches_partial_file_refuted.
Example build_matches_partial_file_ex : let fs f := if String.eqb f "a-c.pkl" then Partial else Missing in
  fst (build_matches (K := Z) args0 Z.add nm [Written 10; Written 20; Written 30] [0; 1; 2] None None None (mk_ms [None; None; None] fs)) = Err ValueError /\
  selected [0; 1; 2] None None None 0 2 /\ fs (fname nm 0 2) = Partial /\
  (forall i j i' j', selected [0; 1; 2] None None None i j -> selected [0; 1; 2] None None None i' j' -> fname nm i j = fname nm i' j' -> i = i' /\ j = j').
Proof.
  cbv zeta. split; [reflexivity|]. split; [split; [cbn; lia|split; [left; auto|discriminate]]|]. split; [reflexivity|].
  intros i j i' j' S1 S2. destruct (selected3 i j S1) as [[-> ->]|[[-> ->]|[-> ->]]], (selected3 i' j' S2) as [[-> ->]|[[-> ->]|[-> ->]]]; cbn; intros E; try discriminate E; auto.
Qed.
(** Documented: filter is "ignored if clear_matches=True": the call fails. *)
Theorem build_matches_clear_filter_refuted {K M} (a : match_args M) (make : K -> K -> M) name kfiles times maxdt sq imgs ks s f :
  callable a name kfiles times maxdt sq imgs ks s -> times <> [] -> ma_clear_matches a = true -> ma_path a = true -> ma_filter a = Some f ->
  fst (build_matches a make name kfiles times maxdt sq imgs s) = Err TypeError.
Proof.
  intros C N Ec Ep Ef. destruct (matching_pairs_total times maxdt sq imgs (cl_seq _ _ _ _ _ _ _ _ _ C)) as [rows Er]. destruct (selected_pairs _ _ _ _ _ (cl_order _ _ _ _ _ _ _ _ _ C) Er) as (ND & Lr & Sel).
  (* the first image alone, without filter *)
  unfold build_matches. rewrite Ec, Ep. cbn [andb negb].
  replace (existsb _ (ms_keypoints s) && negb (ma_keypoints_path a))%bool with false.
  2:{ symmetry. apply andb_false_iff. destruct (ma_keypoints_path a) eqn:Ek; [right; reflexivity|left]. destruct (existsb _ (ms_keypoints s)) eqn:Ex; [|reflexivity]; exfalso; apply existsb_exists in Ex as ([|] & I & F); [discriminate|]; apply In_nth_error in I as [i Ei].
      assert (Li : (i < length ks)%nat) by (rewrite (cl_ks _ _ _ _ _ _ _ _ _ C), <- (cl_mem _ _ _ _ _ _ _ _ _ C); apply nth_error_Some; congruence).
      destruct (nth_error ks i) as [x|] eqn:Ei'; [|apply nth_error_None in Ei'; lia]; destruct (cl_avail _ _ _ _ _ _ _ _ _ C i x Ei') as [Q|(_ & _ & Q)]; congruence. }
  rewrite Er. destruct ks as [|k0 ks'] eqn:Eks; [pose proof (cl_ks _ _ _ _ _ _ _ _ _ C) as Q; destruct times; [contradiction|discriminate]|]. rewrite <- Eks in *. set (k := fun j => nth (Z.to_nat j) ks k0). clear ks' Eks. set (n := length times).
  assert (Av : forall j, 0 <= j < Z.of_nat n -> avail kfiles k s j).
  { intros j Hj. destruct (nth_error ks (Z.to_nat j)) as [x|] eqn:E; [|apply nth_error_None in E; rewrite (cl_ks _ _ _ _ _ _ _ _ _ C) in E; fold n in E; lia].
    assert (Kj : k j = x) by (unfold k; now apply nth_error_nth). unfold avail, mem_at. rewrite Kj. destruct (cl_avail _ _ _ _ _ _ _ _ _ C _ _ E) as [Q|(Q1 & Q2 & _)]; [left|right; split]; now apply nth_error_nth. }
  destruct rows as [|js rows]; [destruct times; [contradiction|discriminate]|]. cbn [match_images]. unfold match_image. rewrite pairs_of_from in *.
  assert (Hn : (0 < n)%nat) by (unfold n; destruct times; [contradiction|cbn; lia]).
  destruct (load_ok kfiles n k 0 s) as (s1 & E1 & L1 & F1 & M1); [exact (cl_mem _ _ _ _ _ _ _ _ _ C)|unfold inr_; lia|apply Av; lia|]. rewrite E1.
  assert (SelJ : forall j, In j js -> exists j', j = Z.of_nat j' /\ selected times maxdt sq imgs 0 j').
  { intros j I. assert (Ip : In (0, j) (pairs_from 0 (js :: rows))) by (cbn; apply in_app_iff; left; now apply (in_map (fun j => (0, j)))). apply Sel in Ip as (i' & j' & [= A ->] & Si). assert (i' = 0%nat) by lia. subst i'. eauto. }
  assert (NDj : NoDup js). { destruct (matching_pairs _ _ _ _ _ (cl_order _ _ _ _ _ _ _ _ _ C) Er) as [_ H]. apply sorted_NoDup. now apply (H 0%nat). }
  destruct (row_ok a make name kfiles n k 0 js s1) as (s2 & E2 & _).
  - unfold inr_. lia.
  - exact L1.
  - left. apply map_NoDup; [|exact NDj]. intros x y Ix Iy Exy. destruct (SelJ x Ix) as (x' & -> & Sx). destruct (SelJ y Iy) as (y' & -> & Sy). destruct (cl_names _ _ _ _ _ _ _ _ _ C Ep 0%nat x' 0%nat y' Sx Sy Exy) as [_ ->]. reflexivity.
  - exact NDj.
  - intros j I. destruct (SelJ j I) as (j' & -> & Sj). pose proof (proj1 Sj) as R. fold n in R. split; [lia|]. split; [unfold inr_; lia|]. split.
    + unfold avail. rewrite M1 by lia. destruct (Z.eqb_spec (Z.of_nat j') 0); [lia|]. apply Av. lia.
    + unfold readable. rewrite F1. intros _ Ho. now apply (cl_complete _ _ _ _ _ _ _ _ _ C Ep Ho 0%nat j').
  - rewrite E2, Ef, Ec. reflexivity.
Qed.
(** Without overwrite every entry is what its pair's file then holds: so pairs with the same file name get the same matches. *)
Section SharedFile.
Context {K M : Type} (a : match_args M) (make : K -> K -> M) (name : Z -> Z -> string) (kfiles : list (file K)).
Hypothesis Hp : ma_path a = true.
Hypothesis Ho : ma_overwrite a = false.
Hypothesis Hc : ma_clear_matches a = false.
Definition kept_files (s s' : match_state K M) : Prop := forall f v, ms_files s f = Written v -> ms_files s' f = Written v.
Lemma kept_trans s1 s2 s3 : kept_files s1 s2 -> kept_files s2 s3 -> kept_files s1 s3. Proof. intros A B f v H. apply B, A, H. Qed.
Lemma load_kept j s : kept_files s (snd (load_kp kfiles j s)). Proof. intros f v H. now rewrite load_files. Qed.
Lemma pair_shared i j ki kj s m s' : match_pair a make name i j ki kj s = (Ok m, s') -> kept_files s s' /\ exists v, ms_files s' (name i j) = Written v /\ m = Some (convert a v).
Proof.
  unfold match_pair. rewrite Hp, Ho, Hc. cbn [andb negb]. destruct (ms_files s (name i j)) as [| |v] eqn:E; cbn [exists_ read_pickle]; intros Q; [|discriminate|].
  - injection Q as <- <-. split.
    + intros f v H. cbn [ms_files]. unfold put_file. destruct (String.eqb_spec f (name i j)); [subst; congruence|exact H].
    + eexists. split; [|reflexivity]. cbn [ms_files]. unfold put_file. now rewrite String.eqb_refl.
  - injection Q as <- <-. split; [intros f w H; exact H|]. eauto.
Qed.
Lemma row_shared i ki : forall js s ms s', match_row a make name kfiles i ki js s = (Ok ms, s') -> kept_files s s' /\ Forall2 (fun j m => exists v, ms_files s' (name i j) = Written v /\ m = convert a v) js ms.
Proof.
  induction js as [|j js IH]; intros s ms s' E; cbn [match_row] in E; [injection E as <- <-; split; [intros f v H; exact H|constructor]|].
  pose proof (load_kept j s) as L. destruct (load_kp kfiles j s) as [[kj|e] s1]; [|discriminate]. cbn [snd] in L.
  destruct (match_pair a make name i j ki kj s1) as [[m|e] s2] eqn:Ep; [|discriminate]. apply pair_shared in Ep as (P & v & F & ->).
  destruct (match_row a make name kfiles i ki js s2) as [[ms'|e] s3] eqn:Er; [|discriminate]. injection E as <- <-. apply IH in Er as (R & A).
  split; [eapply kept_trans; [exact L|eapply kept_trans; eauto]|]. constructor; [|exact A]. exists v. split; [now apply R|reflexivity].
Qed.
Lemma image_shared i js s ms s' : match_image a make name kfiles i js s = (Ok ms, s') -> kept_files s s' /\ Forall2 (fun j m => exists v, ms_files s' (name i j) = Written v /\ m = stored a v) js ms.
Proof.
  unfold match_image. pose proof (load_kept i s) as L. destruct (load_kp kfiles i s) as [[ki|e] s1]; [|discriminate]. cbn [snd] in L.
  destruct (match_row a make name kfiles i ki js s1) as [[ms'|e] s2] eqn:Er; [|discriminate]. apply row_shared in Er as (R & A). rewrite Hc. intros E.
  assert (Q : ms_files s' = ms_files s2) by (destruct (ma_clear_keypoints a), (ma_filter a); injection E as _ <-; reflexivity).
  assert (Q' : ms = match ma_filter a with Some f => map f ms' | None => ms' end) by (destruct (ma_clear_keypoints a), (ma_filter a); injection E as <- _; reflexivity).
  split; [intros f v H; rewrite Q; apply R, L, H|]. subst ms. rewrite Q. unfold stored. fold (convert a).
  destruct (ma_filter a) as [f|].
  - clear - A. induction A as [|j m js ms' (v & F & ->) A IH]; cbn; constructor; [|exact IH]. exists v. split; [exact F|reflexivity].
  - exact A.
Qed.
Lemma images_shared : forall rows i s data s', match_images a make name kfiles i rows s = (Ok data, s') -> kept_files s s' /\ Forall2 (fun p m => exists v, ms_files s' (name (fst p) (snd p)) = Written v /\ m = stored a v) (pairs_from i rows) (concat data).
Proof.
  induction rows as [|js rows IH]; intros i s data s' E; cbn [match_images] in E; [injection E as <- <-; split; [intros f v H; exact H|constructor]|].
  destruct (match_image a make name kfiles i js s) as [[ms|e] s1] eqn:Ei; [|discriminate]. apply image_shared in Ei as (R & A).
  destruct (match_images a make name kfiles (i + 1) rows s1) as [[r|e] s2] eqn:Er; [|discriminate]. injection E as <- <-. apply IH in Er as (R2 & A2).
  split; [eapply kept_trans; eauto|]. cbn [pairs_from concat]. apply Forall2_app; [|exact A2].
  clear - A R2. induction A as [|j m js ms (v & F & ->) A IH]; cbn; constructor; [|exact IH]. exists v. split; [now apply R2|reflexivity].
Qed.
End SharedFile.
Lemma In_combine_Forall2 {A B} (P : A -> B -> Prop) l l' : Forall2 P l l' -> forall x y, In (x, y) (combine l l') -> P x y.
Proof. induction 1 as [|a b l l' H F IH]; intros x y I; [destruct I|]. destruct I as [Q|I]; [injection Q as <- <-; exact H|auto]. Qed.
Theorem build_matches_names_refuted {K M} (a : match_args M) (make : K -> K -> M) name kfiles times maxdt sq imgs s m s' :
  ma_path a = true -> ma_overwrite a = false -> build_matches a make name kfiles times maxdt sq imgs s = (Ok (Some m), s') ->
  (forall i j x, In (i, j, x) (coo_entries m) -> exists v, ms_files s' (name i j) = Written v /\ x = stored a v) /\
  (forall i j x i' j' x', In (i, j, x) (coo_entries m) -> In (i', j', x') (coo_entries m) -> name i j = name i' j' -> x = x').
Proof.
  intros Hp Ho E. assert (G : forall i j x, In (i, j, x) (coo_entries m) -> exists v, ms_files s' (name i j) = Written v /\ x = stored a v).
  { unfold build_matches in E. destruct (ma_clear_matches a) eqn:Hc; cbn [andb] in E.
    { exfalso. destruct (negb (ma_path a)); [discriminate|]. destruct (existsb _ _ && _)%bool; [discriminate|]. destruct (matching_images _ _ _ _) as [rows|]; [|discriminate]. destruct (match_images a make name kfiles 0 rows s) as [[?|?] ?]; discriminate. }
    destruct (existsb _ _ && _)%bool; [discriminate|]. destruct (matching_images _ _ _ _) as [rows|]; [|discriminate]. destruct (match_images a make name kfiles 0 rows s) as [[data|e] s1] eqn:Em; [|discriminate].
    apply (images_shared a make name kfiles Hp Ho Hc) in Em as (_ & A). unfold build_coo in E. rewrite pairs_of_from in E. destruct (pairs_from 0 rows) as [|p ps] eqn:Ep; [discriminate|].
    assert (Q : s1 = s' /\ coo_entries m = combine (p :: ps) (concat data)) by (cbn [bind] in E; injection E as <- <-; split; reflexivity). destruct Q as [-> Q]. intros i j x I. rewrite Q in I. apply (In_combine_Forall2 _ _ _ A) in I. exact I. }
  split; [exact G|]. intros i j x i' j' x' I I' N. apply G in I as (v & F & ->). apply G in I' as (v' & F' & ->). congruence.
Qed.
Print Assumptions build_matches_names_refuted.
(** Image names with "-" can give two pairs the same file: "a" with "b-c", and "a-b" with "c"; the second pair then gets the matches of the first. *)
Definition basename (i : Z) : string := match i with 0 => "a" | 1 => "b-c" | 2 => "a-b" | _ => "c" end%string.
Definition file_name (i j : Z) : string := (basename i ++ "-" ++ basename j ++ ".pkl")%string.
Example build_matches_names_ex : NoDup (map basename [0; 1; 2; 3]) /\
  exists m s', build_matches args0 (fun x y => 100 * x + y) file_name [] [0; 0; 0; 0] None None None (mk_ms [Some 1; Some 2; Some 3; Some 4] (fun _ => Missing)) = (Ok (Some m), s') /\ In (0, 1, 102) (coo_entries m) /\ In (2, 3, 102) (coo_entries m).
Proof. split; [repeat constructor; cbn; intuition discriminate|]. do 2 eexists. split; [reflexivity|]. split; vm_compute; tauto. Qed.
