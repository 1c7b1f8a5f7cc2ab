(** C12: select_datetimes with a snap interval and a single datetime. *)
From Verif Require Import Base BaseLemmas HelpersModel HelpersSpec SplitProofs NearestProofs.
Open Scope Z_scope.

Lemma nearest_single (t g : Z) : sorted_nearest1 Z.ltb Zdist [t] g = if t <? g then Ok (-1) else Err IndexError.
Proof.
  unfold sorted_nearest1, sorted_neighbors, searchsorted. cbn [filter length]. destruct (t <? g); cbn [length].
  - change (py_get [t] (Z.of_nat 1 - 2)) with (@Ok Z t).
    cbn. rewrite Z.ltb_irrefl. reflexivity.
  - reflexivity.
Qed.

(** A single datetime: fails iff a target is not after the datetime; otherwise as for more datetimes. *)
Theorem select_datetimes_single : forall t start stop d maxdt origin, 0 < d ->
  let ts := [t] in
  let tol := match maxdt with Some m => m | None => half_even d end in
  let target g := (g - origin) mod d = 0 /\ eff_start ts start d <= g <= eff_stop ts stop d in
  (eff_stop ts stop d < eff_start ts start d -> select_datetimes ts start stop (Some d) maxdt origin = Err ValueError) /\
  (eff_start ts start d <= eff_stop ts stop d -> (exists g, target g /\ g <= t) -> select_datetimes ts start stop (Some d) maxdt origin = Err IndexError) /\
  (eff_start ts start d <= eff_stop ts stop d -> ~ (exists g, target g /\ g <= t) ->
     exists b, select_datetimes ts start stop (Some d) maxdt origin = Ok [b] /\ (b = true <-> snap_selected ts start stop d tol origin 0)).
Proof.
  intros t start stop d maxdt origin Hd ts tol target. unfold select_datetimes, truthy. destruct (d =? 0) eqn:Ed; [lia|]. clear Ed.
  change (py_get ts 0) with (@Ok Z t). change (py_get ts (-1)) with (@Ok Z t).
  set (ES := eff_start ts start d) in *. set (EE := eff_stop ts stop d) in *.
  assert (Hsel : forall (K : list bool -> Z -> Z -> result (list bool)),
    bind (match start with
          | Some s => Ok (map2 andb (map (fun _ => true) ts) (map (fun t => s <=? t) ts), s)
          | None => bind (Ok t) (fun t0 => Ok (map (fun _ => true) ts, t0 - d)) end)
      (fun '(selected, s) =>
       bind (match stop with
             | Some e => Ok (map2 andb selected (map (fun t => t <=? e) ts), e)
             | None => bind (Ok t) (fun t1 => Ok (selected, t1 + d)) end)
         (fun '(selected, e) => K selected s e))
    = K [opt_ge start t && opt_le stop t] ES EE).
  { intros K. unfold ES, EE, ts. destruct start, stop; cbn; repeat destruct (_ <=? _); reflexivity. }
  rewrite Hsel. clear Hsel.
  destruct (datetime_range_spec (ES + (origin - ES) mod d) EE d Hd) as (targets & Et & _ & Htin & _ & _).
  assert (Hin : forall g, In g targets <-> target g).
  { intros g. rewrite Htin. unfold target. pose proof (lattice_iff origin ES d g Hd) as [L1 L2]. split.
    - intros (k & K & E & G). destruct L1; [eauto|]. auto.
    - intros (M & G1 & G2). destruct L2 as (k & K & E); [auto|]. eauto. }
  split; [intros L; destruct (EE <? ES) eqn:E; [reflexivity|lia]|].
  split; intros L X; (destruct (EE <? ES) eqn:E; [lia|]); clear E; rewrite Et; cbn [bind]; clear Et Htin.
  - destruct X as (g & Tg & G). apply Hin in Tg. clear Hin. unfold sorted_nearest.
    assert (E : mapM (sorted_nearest1 Z.ltb Zdist ts) targets = Err IndexError).
    { induction targets as [|h targets IH]; [destruct Tg|]. cbn [mapM]. unfold ts. rewrite nearest_single. destruct (t <? h) eqn:H; [|reflexivity]. cbn [bind]. fold ts.
      destruct Tg as [->|Tg]; [lia|]. rewrite (IH Tg). reflexivity. }
    rewrite E. reflexivity.
  - assert (After : forall g, In g targets -> t < g).
    { intros g I. apply Hin in I. destruct (Z_lt_le_dec t g); [assumption|]. exfalso. apply X. eauto. }
    assert (E : mapM (sorted_nearest1 Z.ltb Zdist ts) targets = Ok (map (fun _ => -1) targets)).
    { clear Hin. induction targets as [|h targets IH]; [reflexivity|]. cbn [mapM map]. unfold ts. rewrite nearest_single. pose proof (After h (or_introl eq_refl)). destruct (t <? h) eqn:H'; [|lia]. cbn [bind]. fold ts.
      rewrite IH by (intros; apply After; right; auto). reflexivity. }
    unfold sorted_nearest. rewrite E. cbn [bind].
    assert (E2 : mapM (py_get ts) (map (fun _ => -1) targets) = Ok (map (fun _ => t) targets)).
    { clear. induction targets as [|h targets IH]; [reflexivity|]. cbn [mapM map]. change (py_get ts (-1)) with (@Ok Z t). cbn [bind]. rewrite IH. reflexivity. }
    rewrite E2. cbn [bind]. eexists. split; [reflexivity|]. fold tol.
    assert (M : forall kept, mem_index (Z.of_nat (length ts)) 0 kept = existsb (fun k => (if k <? 0 then 1 + k else k) =? 0) kept) by reflexivity.
    rewrite andb_true_iff, M.
    rewrite existsb_exists. unfold snap_selected. rewrite andb_true_iff. split.
    + intros ((S1 & S2) & k & K & _). exists t. split; [reflexivity|]. split; [exact S1|]. split; [exact S2|].
      apply in_map_iff in K as ([z dz] & _ & K). apply filter_In in K as [K K2]. cbn [snd] in K2.
      assert (W : exists g, In g targets /\ dz = Zdist g t).
      { clear -K. induction targets as [|g targets IH]; cbn in K; [destruct K|]. destruct K as [K|K]; [injection K as _ <-; exists g; split; [now left|reflexivity]|]. destruct (IH K) as (g' & I & D). exists g'. split; [now right|exact D]. }
      destruct W as (g & I & ->). exists g. apply Hin in I as [M1 M2]. split; [exact M1|]. split; [exact M2|]. split; [|unfold Zdist in K2; lia].
      exists t. split; [reflexivity|]. split; [intros [|j] u Hu; cbn in Hu; [injection Hu as <-; lia|destruct j; discriminate]|intros j u J; lia].
    + intros (t' & Ht & S1 & S2 & g & M1 & M2 & _ & D). cbn in Ht. injection Ht as <-. split; [auto|].
      exists (-1). split; [|reflexivity]. apply in_map_iff. exists (-1, Zdist g t). split; [reflexivity|]. apply filter_In. split; [|cbn [snd]; unfold Zdist; lia].
      assert (I : In g targets) by (apply Hin; split; assumption). clear -I. induction targets as [|h targets IH]; [destruct I|]. cbn. destruct I as [->|I]; [now left|right; auto].
Qed.
Print Assumptions select_datetimes_single.
(** both outcomes occur *)
Example select_datetimes_single_ex :
  select_datetimes [5] (Some 4) (Some 20) (Some 3) (Some 1) 0 = Ok [true] /\ select_datetimes [7] (Some 4) (Some 20) (Some 3) None 0 = Err IndexError /\ select_datetimes [7] None None (Some 3) None 0 = Err IndexError.
Proof. vm_compute. auto. Qed.
(** Without a start it always fails. *)
Theorem select_datetimes_single_no_start : forall t stop d maxdt origin, 0 < d -> t - d + (origin - (t - d)) mod d <= match stop with Some e => e | None => t + d end ->
  select_datetimes [t] None stop (Some d) maxdt origin = Err IndexError.
Proof.
  intros t stop d maxdt origin Hd L. pose proof (Z.mod_pos_bound (origin - (t - d)) d Hd) as B.
  assert (Es : eff_stop [t] stop d = match stop with Some e => e | None => t + d end) by (destruct stop; reflexivity).
  apply (select_datetimes_single t None stop d maxdt origin Hd); [rewrite Es; cbn; lia|].
  exists (t - d + (origin - (t - d)) mod d). split; [|lia]. split; [|rewrite Es; cbn; lia].
  pose proof (lattice_iff origin (t - d) d (t - d + (origin - (t - d)) mod d) Hd) as [K _]. apply K. exists 0. split; lia.
Qed.
Print Assumptions select_datetimes_single_no_start.
