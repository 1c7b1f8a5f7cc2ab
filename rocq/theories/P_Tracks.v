(** C45: accessors of Tracks. *)
From Verif Require Import Base BaseLemmas TrackModel TracksModel.
Open Scope R_scope.

(** the position of the track at time i is known *)
Definition known (tr : list mean6) (i : nat) : Prop := exists m, nth_error tr i = Some m /\ nth 0 m None <> None.
(** i, j are the first and last known times of the track *)
Definition first_last (tr : list mean6) (i j : nat) : Prop :=
  known tr i /\ known tr j /\ forall k, known tr k -> (i <= k <= j)%nat.
Definition ever_known (tr : list mean6) : Prop := exists i, known tr i.

Lemma argmaxb_from_spec l : forall i, match argmaxb_from i l with
  | Some k => (i <= k < i + length l)%nat /\ nth (k - i) l false = true /\ forall j, (j < k - i)%nat -> nth j l false = false
  | None => forall j, nth j l false = false end.
Proof.
  induction l as [|b l IH]; intros i; cbn [argmaxb_from]. { intros [|j]; reflexivity. }
  destruct b.
  - cbn [length]. rewrite Nat.sub_diag. split; [lia|]. split; [reflexivity|]. intros; lia.
  - specialize (IH (S i)). destruct (argmaxb_from (S i) l) as [k|]; cbn [length].
    + destruct IH as (A & B & C). split; [lia|]. replace (k - i)%nat with (S (k - S i)) by lia. split; [exact B|].
      intros [|j] Hj; [reflexivity|]. cbn. apply C. lia.
    + intros [|j]; cbn; auto.
Qed.
Lemma argmaxb_true l : (exists j, nth j l false = true) -> nth (argmaxb l) l false = true /\ (argmaxb l < length l)%nat /\ forall j, nth j l false = true -> (argmaxb l <= j)%nat.
Proof.
  intros [j J]. unfold argmaxb. pose proof (argmaxb_from_spec l 0) as H. destruct (argmaxb_from 0 l) as [k|].
  - rewrite Nat.sub_0_r in H. destruct H as (A & B & C). split; [exact B|]. split; [lia|]. intros i I. destruct (le_lt_dec k i); [lia|]. rewrite C in I by lia. discriminate.
  - rewrite H in J. discriminate.
Qed.
Definition vrow (tr : list mean6) : list bool := map (fun m => is_some (nth 0 m None)) tr.
Lemma vrow_known tr i : nth i (vrow tr) false = true <-> known tr i.
Proof.
  unfold vrow, known. destruct (nth_error tr i) as [m|] eqn:E.
  - rewrite nth_indep with (d' := is_some (nth 0 (@nil (option R)) None)) by (rewrite map_length; apply (proj1 (nth_error_Some tr i)); change (@nth_error mean6 tr i <> None); rewrite E; discriminate).
    rewrite (map_nth (fun m => is_some (nth 0 m None))). rewrite (nth_error_nth _ _ _ E). split.
    + intros H. exists m. split; auto. destruct (nth 0 m None); [discriminate|discriminate].
    + intros (m' & Q & N). injection Q as <-. destruct (is_some (nth 0 m None)) eqn:Z; [reflexivity|]. exfalso. apply N. clear - Z. unfold is_some in Z. destruct (nth 0 m None); [discriminate|reflexivity].
  - rewrite nth_overflow by (rewrite map_length; now apply nth_error_None). split; [discriminate|]. intros (m & Q & _). discriminate.
Qed.
Lemma known_lt tr i : known tr i -> (i < length tr)%nat.
Proof. intros (m & E & _). apply nth_error_Some. congruence. Qed.
Lemma first_spec tr : ever_known tr -> known tr (argmaxb (vrow tr)) /\ forall k, known tr k -> (argmaxb (vrow tr) <= k)%nat.
Proof.
  intros [i H]. destruct (argmaxb_true (vrow tr)) as (A & _ & C); [exists i; now apply vrow_known|]. split; [now apply vrow_known|]. intros k K. apply C. now apply vrow_known.
Qed.
Lemma last_spec tr : ever_known tr -> let j := (length (vrow tr) - 1 - argmaxb (rev (vrow tr)))%nat in known tr j /\ forall k, known tr k -> (k <= j)%nat.
Proof.
  intros [i H] j. pose proof (known_lt _ _ H) as L. assert (Lr : length (vrow tr) = length tr) by apply map_length.
  assert (RV : forall k, (k < length tr)%nat -> nth k (rev (vrow tr)) false = nth (length tr - S k) (vrow tr) false).
  { intros k Hk. rewrite <- Lr. apply rev_nth. now rewrite Lr. }
  assert (X : exists k, nth k (rev (vrow tr)) false = true).
  { exists (length tr - S i)%nat. rewrite RV by lia. replace (length tr - S (length tr - S i))%nat with i by lia. now apply vrow_known. }
  destruct (argmaxb_true _ X) as (A & B & C). rewrite rev_length, Lr in B. rewrite RV in A by assumption. unfold j. rewrite Lr. split.
  - apply vrow_known. replace (length tr - 1 - argmaxb (rev (vrow tr)))%nat with (length tr - S (argmaxb (rev (vrow tr))))%nat by lia. exact A.
  - intros k K. pose proof (known_lt _ _ K). specialize (C (length tr - S k)%nat). rewrite RV in C by lia. replace (length tr - S (length tr - S k))%nat with k in C by lia.
    apply vrow_known in K. specialize (C K). lia.
Qed.
Lemma not_known_row tr : ~ ever_known tr -> nth (argmaxb (vrow tr)) (vrow tr) false = false.
Proof. intros H. destruct (nth (argmaxb (vrow tr)) (vrow tr) false) eqn:E; [|reflexivity]. exfalso. apply H. exists (argmaxb (vrow tr)). now apply vrow_known. Qed.
Lemma ever_known_dec tr : {ever_known tr} + {~ ever_known tr}.
Proof. destruct (nth (argmaxb (vrow tr)) (vrow tr) false) eqn:E; [left|right]. - exists (argmaxb (vrow tr)). now apply vrow_known. - intros H. apply first_spec in H. destruct H as [H _]. apply vrow_known in H. congruence. Qed.

(** endpoints: a mask of the tracks with a known position and, for those in order, their first and last known times; it raises only when
    there are tracks without any time. *)
Theorem tracks_endpoints : forall means : list (list mean6), (forall tr, In tr means -> tr <> []) ->
  exists mask first last_, endpoints means = Ok (mask, first, last_) /\
    Forall2 (fun tr b => b = true <-> ever_known tr) means mask /\
    exists sel, sel = masked means mask /\ length first = length sel /\ length last_ = length sel /\
      forall n, (n < length sel)%nat -> first_last (nth n sel []) (nth n first 0%nat) (nth n last_ 0%nat).
Proof.
  intros means NE.
  assert (EE : endpoints means = let* first := mapM argmax_row (map vrow means) in
    let* last_ := mapM (fun r => let* i := argmax_row (rev r) in Ok (length r - 1 - i)%nat) (map vrow means) in
    let first_valid := map2 (fun r i => nth i r false) (map vrow means) first in
    Ok (first_valid, masked first first_valid, masked last_ first_valid)) by reflexivity.
  rewrite EE. clear EE.
  set (f := fun tr => argmaxb (vrow tr)). set (g := fun tr => (length (vrow tr) - 1 - argmaxb (rev (vrow tr)))%nat).
  assert (E1 : mapM argmax_row (map vrow means) = Ok (map f means)).
  { revert NE. induction means as [|tr l IH]; intros NE; [reflexivity|]. cbn [map mapM]. assert (N : vrow tr <> []) by (pose proof (NE tr (or_introl eq_refl)); destruct tr; [congruence|discriminate]).
    unfold argmax_row at 1. destruct (vrow tr) eqn:V; [congruence|]. rewrite <- V. cbn [bind]. rewrite IH by (intros; apply NE; now right). reflexivity. }
  assert (E2 : mapM (fun r => let* i := argmax_row (rev r) in Ok (length r - 1 - i)%nat) (map vrow means) = Ok (map g means)).
  { clear E1. revert NE. induction means as [|tr l IH]; intros NE; [reflexivity|]. cbn [map mapM]. assert (N : rev (vrow tr) <> []).
    { pose proof (NE tr (or_introl eq_refl)). intros Q. apply (f_equal (@length bool)) in Q. rewrite rev_length in Q. unfold vrow in Q. rewrite map_length in Q. destruct tr; [congruence|discriminate]. }
    unfold argmax_row at 1. destruct (rev (vrow tr)) eqn:V; [congruence|]. rewrite <- V. cbn [bind]. rewrite IH by (intros; apply NE; now right). reflexivity. }
  rewrite E1. cbn [bind]. rewrite E2. cbn [bind]. eexists _, _, _. split; [reflexivity|]. clear E1 E2 NE. split.
  - induction means as [|tr l IH]; cbn [map map2]; constructor; auto. unfold f. split; intros H.
    + exists (argmaxb (vrow tr)). now apply vrow_known.
    + apply vrow_known. now apply first_spec.
  - eexists. split; [reflexivity|]. unfold masked. induction means as [|tr l IH]; cbn [map map2 combine filter length].
    + split; [reflexivity|]. split; [reflexivity|]. intros q Hq. exfalso. cbn in Hq. lia.
    + destruct IH as (L1 & L2 & S). destruct (ever_known_dec tr) as [K|K].
      * destruct (first_spec tr K) as [F1 F2]. destruct (last_spec tr K) as [G1 G2]. assert (B : nth (f tr) (vrow tr) false = true) by (now apply vrow_known).
        rewrite B. cbn [snd fst filter map length]. rewrite L1, L2. split; [reflexivity|]. split; [reflexivity|]. intros [|n] Hn; cbn [nth].
        -- split; [exact F1|]. split; [exact G1|]. intros k Hk. split; [now apply F2|now apply G2].
        -- apply S. lia.
      * assert (B : nth (f tr) (vrow tr) false = false) by (now apply not_known_row). rewrite B. cbn [snd fst filter map length]. auto.
Qed.
Print Assumptions tracks_endpoints.
Example tracks_endpoints_ex : endpoints [[[None]; [Some 1]; [None]; [Some 2]]; [[None]; [None]; [None]; [None]]; [[Some 0]; [None]; [None]; [None]]]
  = Ok ([true; false; true], [1; 0]%nat, [3; 0]%nat).
Proof. reflexivity. Qed.
(** success: exactly the tracks without error; None when no errors were recorded at all *)
Theorem tracks_success : forall E (errors : list (option E)),
  (exists s, success (Some errors) = Some s /\ Forall2 (fun e b => b = true <-> e = None) errors s) /\ @success E None = None.
Proof.
  intros E errors. split; [|reflexivity]. eexists. split; [reflexivity|]. induction errors as [|[e|] l IH]; cbn; constructor; auto; split; congruence.
Qed.
Print Assumptions tracks_success.
(** the two sources of standard deviations agree: covariances whose diagonals are the squares of the sigmas give the same result *)
Theorem tracks_sigma_sources_agree : forall (sigmas : list (list mean6)) (covs : list (list (list mean6))),
  Forall2 (Forall2 (fun s c => length s = 6%nat /\ length c = 6%nat /\
     forall i, (i < 6)%nat -> exists x, 0 <= x /\ nth i s None = Some x /\ nth i (nth i c []) None = Some (x ^ 2))) sigmas covs ->
  xyz_sigma None (Some covs) = xyz_sigma (Some sigmas) None /\ vxyz_sigma None (Some covs) = vxyz_sigma (Some sigmas) None.
Proof.
  intros sigmas covs H.
  assert (K : forall s c, (length s = 6%nat /\ length c = 6%nat /\ forall i, (i < 6)%nat -> exists x, 0 <= x /\ nth i s None = Some x /\ nth i (nth i c []) None = Some (x ^ 2)) ->
    diag_sqrt 0 c = firstn 3 s /\ diag_sqrt 3 c = firstn 3 (skipn 3 s)).
  { intros s c (Ls & Lc & D). destruct s as [|s0 [|s1 [|s2 [|s3 [|s4 [|s5 [|]]]]]]]; try discriminate. unfold diag_sqrt. cbn [seq map firstn skipn].
    assert (Q : forall i, (i < 6)%nat -> option_map sqrt (nth i (nth i c []) None) = nth i [s0; s1; s2; s3; s4; s5] None).
    { intros i Hi. destruct (D i Hi) as (x & P & E1 & E2). rewrite E2, E1. cbn [option_map]. now rewrite sqrt_pow2. }
    rewrite !Q by lia. split; reflexivity. }
  unfold xyz_sigma, vxyz_sigma. cbn [option_map]. split; f_equal.
  - induction H as [|s c sl cl H1 _ IH]; [reflexivity|]. cbn [map]. f_equal; [|exact IH]. induction H1 as [|s' c' sl' cl' H2 _ IH']; [reflexivity|]. cbn [map]. f_equal; [|exact IH']. now apply K.
  - induction H as [|s c sl cl H1 _ IH]; [reflexivity|]. cbn [map]. f_equal; [|exact IH]. induction H1 as [|s' c' sl' cl' H2 _ IH']; [reflexivity|]. cbn [map]. f_equal; [|exact IH']. now apply K.
Qed.
Print Assumptions tracks_sigma_sources_agree.
(** the accessors select, for every track and time, the position (first three) and the velocity (last three) components *)
Theorem tracks_components : forall (means : list (list mean6)) n t x y z vx vy vz,
  nth t (nth n means []) [] = [x; y; z; vx; vy; vz] ->
  nth t (nth n (xyz means) []) [] = [x; y; z] /\ nth t (nth n (vxyz means) []) [] = [vx; vy; vz] /\
  option_map (fun s => nth t (nth n s []) []) (xyz_sigma (Some means) None) = Some [x; y; z] /\
  option_map (fun s => nth t (nth n s []) []) (vxyz_sigma (Some means) None) = Some [vx; vy; vz].
Proof.
  intros means n t x y z vx vy vz H.
  assert (G : forall g : mean6 -> list (option R), g [] = [] -> nth t (nth n (map (map g) means) []) [] = g (nth t (nth n means []) [])).
  { intros g E. change (@nil (list (option R))) with (map g []) at 1. rewrite map_nth. rewrite <- E at 1. apply map_nth. }
  unfold xyz, vxyz, xyz_sigma, vxyz_sigma, option_map. rewrite !G by reflexivity. rewrite H. repeat split; reflexivity.
Qed.
Print Assumptions tracks_components.
Definition ex_sigmas : list (list mean6) := [[[Some 2; Some 3; Some 1; Some 0; Some 5; Some 6]]].
Definition ex_covs : list (list (list mean6)) := [[[[Some (2^2); None; None; None; None; None]; [None; Some (3^2); None; None; None; None]; [None; None; Some (1^2); None; None; None];
    [None; None; None; Some (0^2); None; None]; [None; None; None; None; Some (5^2); None]; [None; None; None; None; None; Some (6^2)]]]].
Example tracks_sigma_ex : xyz_sigma None (Some ex_covs) = Some [[[Some 2; Some 3; Some 1]]].
Proof.
  assert (H := tracks_sigma_sources_agree ex_sigmas ex_covs). destruct H as [H _].
  - constructor; [|constructor]. constructor; [|constructor]. split; [reflexivity|]. split; [reflexivity|]. intros i Hi.
    do 6 (destruct i as [|i]; [eexists; split; [|split; reflexivity]; lra|]). lia.
  - rewrite H. reflexivity.
Qed.
