(** Runs of build_matches. *)
From Coq Require Import String Sorting.Sorted.
From Verif Require Import Base BaseLemmas MatcherModel P_Matcher.
Open Scope Z_scope.

Section Runs.
Context {K M : Type} (a : match_args M) (make : K -> K -> M) (name : Z -> Z -> string) (kfiles : list (file K)).
Context (n : nat) (k : Z -> K).
Notation state := (match_state K M).
Definition mem_at (s : state) (j : Z) : option K := nth (Z.to_nat j) (ms_keypoints s) None.
(** keypoints of image j are available *)
Definition avail (s : state) (j : Z) : Prop := mem_at s j = Some (k j) \/ (mem_at s j = None /\ nth (Z.to_nat j) kfiles Missing = Written (k j)).
Definition inr_ (j : Z) : Prop := 0 <= j < Z.of_nat n.
Definition content (fs : string -> file M) (i j : Z) : M :=
  if (ma_path a && negb (ma_overwrite a))%bool then match fs (name i j) with Written m => m | _ => make (k i) (k j) end else make (k i) (k j).
Definition readable (fs : string -> file M) (i j : Z) : Prop := ma_path a = true -> ma_overwrite a = false -> fs (name i j) <> Partial.

Lemma mem_set i x (s : state) fs j : 0 <= i < Z.of_nat (length (ms_keypoints s)) -> 0 <= j -> mem_at (mk_ms (set_kp i x (ms_keypoints s)) fs) j = if j =? i then x else mem_at s j.
Proof.
  intros Hi Hj. unfold mem_at, set_kp. cbn [ms_keypoints]. rewrite <- !nth_default_eq. unfold nth_default. rewrite mapi_nth. rewrite Z2Nat.id by lia.
  destruct (nth_error (ms_keypoints s) (Z.to_nat j)) eqn:E; cbn [option_map]; destruct (Z.eqb_spec j i) as [->|]; auto. apply nth_error_None in E. lia.
Qed.
Lemma set_length i (x : option K) l : length (set_kp i x l) = length l. Proof. apply mapi_length. Qed.

Lemma load_ok j (s : state) : length (ms_keypoints s) = n -> inr_ j -> avail s j -> exists s', load_kp kfiles j s = (Ok (k j), s') /\ length (ms_keypoints s') = n /\ ms_files s' = ms_files s /\
  forall j', 0 <= j' -> mem_at s' j' = if j' =? j then Some (k j) else mem_at s j'.
Proof.
  intros L [R1 R2] A. unfold load_kp. fold (mem_at s j). destruct A as [A|[A F]]; rewrite A.
  - exists s. repeat split; auto. intros j' _. destruct (Z.eqb_spec j' j) as [->|]; auto.
  - rewrite F. cbn [read_pickle]. eexists. split; [reflexivity|]. split; [cbn; now rewrite set_length|]. split; [reflexivity|]. intros j' Hj. apply mem_set; [|exact Hj]. rewrite L. lia.
Qed.
(** a pair *)
Lemma pair_ok i j (s : state) : readable (ms_files s) i j -> exists s', match_pair a make name i j (k i) (k j) s = (Ok (if ma_clear_matches a then None else Some (convert a (content (ms_files s) i j))), s') /\
  ms_keypoints s' = ms_keypoints s /\ (ma_path a = true -> ms_files s' (name i j) = Written (content (ms_files s) i j)) /\ (forall f, ma_path a = false \/ f <> name i j -> ms_files s' f = ms_files s f).
Proof.
  intros R. unfold match_pair, content, readable in *. destruct (ma_path a) eqn:Ep, (ma_overwrite a) eqn:Eo; cbn [andb negb].
  - eexists. split; [reflexivity|]. cbn [ms_keypoints ms_files]. unfold put_file. split; [reflexivity|]. split; [intros _; now rewrite String.eqb_refl|]. intros f [?|N]; [discriminate|]. apply String.eqb_neq in N. now rewrite N.
  - specialize (R eq_refl eq_refl). destruct (ms_files s (name i j)) as [| |m] eqn:E; cbn [exists_ andb].
    + eexists. split; [reflexivity|]. cbn [ms_keypoints ms_files]. unfold put_file. split; [reflexivity|]. split; [intros _; now rewrite String.eqb_refl|]. intros f [?|N]; [discriminate|]. apply String.eqb_neq in N. now rewrite N.
    + now contradiction R.
    + exists s. cbn [read_pickle]. destruct (ma_clear_matches a); repeat split; auto.
  - exists s. repeat split; auto; discriminate.
  - exists s. repeat split; auto; discriminate.
Qed.
Lemma row_ok i js : forall s : state, inr_ i -> length (ms_keypoints s) = n -> NoDup (map (name i) js) \/ ma_path a = false -> NoDup js ->
  (forall j, In j js -> i < j /\ inr_ j /\ avail s j /\ readable (ms_files s) i j) ->
  exists s', match_row a make name kfiles i (k i) js s = (Ok (if ma_clear_matches a then [] else map (fun j => convert a (content (ms_files s) i j)) js), s') /\
    length (ms_keypoints s') = n /\ (forall j, 0 <= j -> mem_at s' j = if zmem j js then Some (k j) else mem_at s j) /\
    (ma_path a = true -> forall j, In j js -> ms_files s' (name i j) = Written (content (ms_files s) i j)) /\
    (forall f, ma_path a = false \/ ~ In f (map (name i) js) -> ms_files s' f = ms_files s f).
Proof.
  induction js as [|j js IH]; intros s Hi L ND ND' H.
  - exists s. cbn. destruct (ma_clear_matches a); repeat split; auto; intros; contradiction.
  - inversion ND' as [|? ? NI ND'']; subst. destruct (H j (or_introl eq_refl)) as (Lt & R & A & Rd). destruct (load_ok j s L R A) as (s1 & E1 & L1 & F1 & M1). cbn [match_row]. rewrite E1.
    destruct (pair_ok i j s1) as (s2 & E2 & K2 & P2 & Q2); [now rewrite F1|]. rewrite E2. rewrite F1 in *.
    assert (M2 : forall j', 0 <= j' -> mem_at s2 j' = if j' =? j then Some (k j) else mem_at s j') by (intros j' Hj; unfold mem_at at 1; rewrite K2; now apply M1).
    assert (Same : forall j', In j' js -> ms_files s2 (name i j') = ms_files s (name i j')).
    { intros j' I. apply Q2. destruct ND as [ND|ND]; [|now left]. right. inversion ND as [|? ? N _]; subst. intros Q. apply N. rewrite <- Q. now apply in_map. }
    assert (Cont : forall j', In j' js -> content (ms_files s2) i j' = content (ms_files s) i j') by (intros j' I; unfold content; now rewrite Same).
    destruct (IH s2 Hi) as (s3 & E3 & L3 & M3 & P3 & Q3).
    + now rewrite K2.
    + destruct ND as [ND|ND]; [left; now inversion ND|now right].
    + exact ND''.
    + intros j' I. destruct (H j' (or_intror I)) as (Lt' & R' & A' & Rd'). split; [exact Lt'|]. split; [exact R'|]. split.
      * unfold avail. rewrite M2 by (unfold inr_ in R'; lia). destruct (Z.eqb_spec j' j) as [->|]; [now left|exact A'].
      * unfold readable. now rewrite Same.
    + rewrite E3. exists s3. split.
      { apply f_equal2; [|reflexivity]. apply (f_equal (@Ok _)). destruct (ma_clear_matches a); [reflexivity|]. cbn [map]. f_equal. apply map_ext_in. intros j' I. now rewrite Cont. }
      split; [exact L3|]. split; [|split].
      * intros j' Hj. rewrite M3, M2 by assumption. unfold zmem. cbn [existsb]. destruct (Z.eqb_spec j' j) as [->|]; cbn [orb]; [|reflexivity]. destruct (existsb _ js); reflexivity.
      * intros Hp j' [<-|I]; [|rewrite P3 by assumption; now rewrite Cont]. destruct ND as [ND|ND]; [|congruence]. inversion ND as [|? ? N _]; subst. rewrite Q3 by now right. now apply P2.
      * intros f Hf. rewrite Q3 by (destruct Hf as [|N]; [now left|right; intros I; apply N; now right]). apply Q2. destruct Hf as [|N]; [now left|right; intros ->; apply N; now left].
Qed.
(** Images from the i-th on; the pairs of [rows] *)
Fixpoint pairs_from (i : Z) (rows : list (list Z)) : list (Z * Z) := match rows with [] => [] | js :: r => map (fun j => (i, j)) js ++ pairs_from (i + 1) r end.
Lemma pairs_of_from rows : pairs_of rows = pairs_from 0 rows.
Proof.
  unfold pairs_of, mapi. enough (G : forall s, concat (map (fun p => map (fun j => (Z.of_nat (fst p), j)) (snd p)) (combine (seq s (length rows)) rows)) = pairs_from (Z.of_nat s) rows) by apply (G 0%nat).
  induction rows as [|js rows IH]; intros s; [reflexivity|]. cbn [length seq combine map concat pairs_from fst snd]. rewrite IH. now rewrite Nat2Z.inj_succ, <- Z.add_1_r.
Qed.
Definition final (m : M) : M := match ma_filter a with Some f => f (convert a m) | None => convert a m end.
Definition mem_final (j : Z) : option K := if ma_clear_keypoints a then None else Some (k j).
Lemma pairs_from_ge i rows p : In p (pairs_from i rows) -> i <= fst p.
Proof. revert i. induction rows as [|js rows IH]; intros i; cbn; [intros []|]. rewrite in_app_iff, in_map_iff. intros [(j & <- & _)|I]; [cbn; lia|]. apply IH in I. lia. Qed.
Lemma images_ok rows : forall i (s : state), 0 <= i -> Z.of_nat n = i + Z.of_nat (length rows) -> length (ms_keypoints s) = n ->
  (ma_clear_matches a = true -> ma_filter a = None) ->
  (NoDup (map (fun p => name (fst p) (snd p)) (pairs_from i rows)) \/ ma_path a = false) -> NoDup (pairs_from i rows) ->
  (forall j, i <= j < Z.of_nat n -> avail s j) -> (forall p, In p (pairs_from i rows) -> fst p < snd p /\ inr_ (snd p) /\ readable (ms_files s) (fst p) (snd p)) ->
  exists data s', match_images a make name kfiles i rows s = (Ok data, s') /\
    (ma_clear_matches a = false -> concat data = map (fun p => final (content (ms_files s) (fst p) (snd p))) (pairs_from i rows)) /\
    length (ms_keypoints s') = n /\ (forall j, 0 <= j < Z.of_nat n -> mem_at s' j = if i <=? j then mem_final j else mem_at s j) /\
    (ma_path a = true -> forall p, In p (pairs_from i rows) -> ms_files s' (name (fst p) (snd p)) = Written (content (ms_files s) (fst p) (snd p))) /\
    (forall f, ma_path a = false \/ ~ In f (map (fun p => name (fst p) (snd p)) (pairs_from i rows)) -> ms_files s' f = ms_files s f).
Proof.
  induction rows as [|js rows IH]; intros i s Hi Ln L CF ND ND' A H.
  - exists [], s. cbn. repeat split; auto. intros j Hj. cbn in Ln. destruct (Z.leb_spec i j); [lia|reflexivity]. intros; contradiction.
  - cbn [length] in Ln. cbn [pairs_from] in *. rewrite map_app, map_map in *. cbn [fst snd] in *. cbn [match_images].
    assert (Ri : inr_ i) by (unfold inr_; lia). destruct (load_ok i s L Ri) as (s1 & E1 & L1 & F1 & M1); [apply A; lia|]. unfold match_image. rewrite E1.
    assert (NDj : NoDup js). { clear -ND'. induction js as [|j js IHj]; [constructor|]. cbn in ND'. inversion ND' as [|? ? N ND2]; subst. constructor; [|now apply IHj]. intros I. apply N. rewrite in_app_iff, in_map_iff. left. eauto. }
    assert (Hp : forall j, In j js -> In (i, j) (map (fun j => (i, j)) js ++ pairs_from (i + 1) rows)) by (intros j I; rewrite in_app_iff; left; now apply (in_map (fun j => (i, j)))).
    destruct (row_ok i js s1 Ri L1) as (s2 & E2 & L2 & M2 & P2 & Q2).
    + destruct ND as [ND|ND]; [left|now right]. clear -ND. induction js as [|j js IHj]; [constructor|]. cbn in ND. inversion ND as [|? ? N ND2]; subst. cbn. constructor; [|now apply IHj]. intros I. apply N. rewrite in_app_iff. now left.
    + exact NDj.
    + intros j I. destruct (H _ (Hp j I)) as (Lt & R & Rd). cbn [fst snd] in *. split; [exact Lt|]. split; [exact R|]. unfold avail, inr_ in *. rewrite M1 by lia. destruct (Z.eqb_spec j i) as [->|]; [lia|]. rewrite F1. split; [apply A; lia|exact Rd].
    + rewrite E2. rewrite F1 in *. set (s3 := if ma_clear_keypoints a then _ else s2).
      assert (L3 : length (ms_keypoints s3) = n). { unfold s3. destruct (ma_clear_keypoints a); [cbn; now rewrite set_length|exact L2]. }
      assert (F3 : ms_files s3 = ms_files s2) by (unfold s3; destruct (ma_clear_keypoints a); reflexivity).
      assert (NJ : zmem i js = false). { apply zmem_false. intros I. destruct (H _ (Hp i I)) as (Lt & _). cbn in Lt. lia. }
      assert (M3 : forall j, 0 <= j < Z.of_nat n -> (i < j -> avail s3 j) /\ (j = i -> mem_at s3 j = mem_final j) /\ (j < i -> mem_at s3 j = mem_at s j)).
      { intros j Hj. assert (Mj : mem_at s3 j = if j =? i then mem_final j else mem_at s2 j).
        { unfold s3, mem_final. destruct (ma_clear_keypoints a); [now apply mem_set; [rewrite L2; unfold inr_ in Ri; lia|lia]|]. destruct (Z.eqb_spec j i) as [->|]; [|reflexivity]. rewrite M2, NJ, M1, Z.eqb_refl by lia. reflexivity. }
        split; [|split].
        - intros Lt. unfold avail. rewrite Mj. destruct (Z.eqb_spec j i); [lia|]. rewrite M2 by lia. destruct (zmem j js); [now left|]. rewrite M1 by lia. destruct (Z.eqb_spec j i); [lia|]. apply A. lia.
        - intros ->. now rewrite Mj, Z.eqb_refl.
        - intros Lt. rewrite Mj. destruct (Z.eqb_spec j i); [lia|]. rewrite M2 by lia. rewrite (proj2 (zmem_false j js)); [rewrite M1 by lia; destruct (Z.eqb_spec j i); [lia|reflexivity]|]. intros I. destruct (H _ (Hp j I)) as (Lt' & _). cbn in Lt'. lia. }
      assert (Same : forall p, In p (pairs_from (i + 1) rows) -> ms_files s3 (name (fst p) (snd p)) = ms_files s (name (fst p) (snd p))).
      { intros p I. rewrite F3. apply Q2. destruct ND as [ND|ND]; [right|now left]. intros J. clear -ND I J. induction (map (name i) js) as [|f l IHl]; [contradiction|]. change (map (fun x => name i x) js) with (map (name i) js) in ND.
        cbn in ND. inversion ND as [|? ? N ND2]; subst. destruct J as [->|J]; [|now apply IHl]. apply N. rewrite in_app_iff. right. now apply (in_map (fun p => name (fst p) (snd p))). }
      assert (Cont : forall p, In p (pairs_from (i + 1) rows) -> content (ms_files s3) (fst p) (snd p) = content (ms_files s) (fst p) (snd p)) by (intros p I; unfold content; now rewrite Same).
      destruct (IH (i + 1) s3) as (data & s4 & E4 & D4 & L4 & M4 & P4 & Q4).
      * lia.
      * lia.
      * exact L3.
      * exact CF.
      * destruct ND as [ND|ND]; [left|now right]. clear -ND. induction (map (fun x => name i x) js) as [|f l IHl]; [exact ND|]. inversion ND; subst. auto.
      * clear -ND'. induction (map (fun x => (i, x)) js) as [|f l IHl]; [exact ND'|]. inversion ND'; subst. auto.
      * intros j Hj. apply M3; lia.
      * intros p I. destruct (H p) as (Lt & R & Rd); [rewrite in_app_iff; now right|]. split; [exact Lt|]. split; [exact R|]. unfold readable. now rewrite Same.
      * set (ms := if ma_clear_matches a then [] else map (fun j => convert a (content (ms_files s) i j)) js) in *.
        assert (G : exists ms', (match ma_filter a with Some f => if ma_clear_matches a then (Err TypeError, s3) else (Ok (map f ms), s3) | None => (Ok ms, s3) end) = (Ok ms', s3) /\
                      (ma_clear_matches a = false -> ms' = map (fun j => final (content (ms_files s) i j)) js)).
        { unfold final, ms. destruct (ma_filter a) as [f|]; destruct (ma_clear_matches a); try (specialize (CF eq_refl); discriminate); eexists; (split; [reflexivity|]); intros ?; try discriminate; rewrite ?map_map; reflexivity. }
        destruct G as (ms' & G1 & G2). rewrite G1, E4. exists (ms' :: data), s4. split; [reflexivity|]. split; [|split; [exact L4|split; [|split]]].
        -- intros Hc. cbn [concat]. rewrite (G2 Hc), (D4 Hc). f_equal. apply map_ext_in. intros p I. now rewrite Cont.
        -- intros j Hj. rewrite M4 by exact Hj. destruct (M3 j Hj) as (_ & N2 & N3). destruct (Z.leb_spec (i + 1) j); destruct (Z.leb_spec i j); try lia; try reflexivity; [apply N2; lia|apply N3; lia].
        -- intros Hpath p I. rewrite in_app_iff in I. destruct I as [I|I]; [|rewrite P4 by assumption; now rewrite Cont].
           apply in_map_iff in I as (j & <- & I). cbn [fst snd]. rewrite Q4, F3; [now apply P2|]. right. destruct ND as [ND|ND]; [|congruence]. intros J.
           assert (J' : In (name i j) (map (fun x => name i x) js)) by now apply (in_map (fun x => name i x)). clear -ND J J'. induction (map (fun x => name i x) js) as [|f l IHl]; [contradiction|]. cbn in ND. inversion ND as [|? ? N ND2]; subst. destruct J' as [->|J']; [|now apply IHl]. apply N. rewrite in_app_iff. now right.
        -- intros f Hf. rewrite Q4, F3; [apply Q2|]; (destruct Hf as [|N]; [now left|right; intros I; apply N; rewrite map_app, map_map, in_app_iff; cbn [fst snd]; auto]).
Qed.
End Runs.
