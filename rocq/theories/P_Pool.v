(** Property C105: keypoints and matches built in parallel. *)
From Coq Require Import String Sorting.Sorted.
From Verif Require Import Base BaseLemmas MatcherModel P_Matcher MatcherProofs P_Matcher2 PoolModel PoolProofs MatchPoolProofs.
Open Scope nat_scope.
Notation length := List.length.

(* ------------------------------------------------------------------ *)
(** ** Keypoints *)
Section Key.
Context {K : Type} (path overwrite clear : bool) (detected : list K) (memory : list (option K)) (files : list (file K)).
Notation n := (length detected).
Notation kstep := (key_step path overwrite clear detected memory).
(** the run with np workers *)
Definition key_pool (np : nat) : pool (key_at K) (nat -> file K) unit (option K) := pool_start (fun i => nth i files Missing) (repeat tt np).
Notation ksteps := (pool_steps n (fun _ => KTest) kstep key_end).
Definition key_weight (i : nat) (p : key_at K) : nat := match p with KTest => 5 | KChoose _ => 4 | KRead => 1 | KWrite _ => 2 | KClose _ => 1 | KEnd _ => 0 end.
Lemma key_decreases i (p : key_at K) g l p' g' l' : kstep i p g l = Some (p', g', l') -> key_weight i p' < key_weight i p.
Proof.
  destruct p; cbn; try discriminate; intros E; injection E as <- _ _; cbn; try lia.
  - destruct (nth i memory None), (nth_error detected i); repeat match goal with |- context [if ?b then _ else _] => destruct b end; cbn; lia.
  - destruct (read_pickle (g i)); cbn; lia.
Qed.
(** what a task knows, and its file *)
Definition key_ok (d : K) (m : option K) (f0 f : file K) (p : key_at K) : Prop :=
  match p with
  | KTest => f = f0
  | KChoose b => f = f0 /\ b = (path && exists_ f0)%bool
  | KRead => f = f0 /\ keypoints_step path overwrite clear d m f0 = (let* k := read_pickle f0 in Ok (if clear then None else Some k, f0))
  | KWrite k => f = f0 /\ keypoints_step path overwrite clear d m f0 = Ok (if clear then None else Some k, Written k)
  | KClose k => f = Partial /\ keypoints_step path overwrite clear d m f0 = Ok (if clear then None else Some k, Written k)
  | KEnd r => (r = let* x := keypoints_step path overwrite clear d m f0 in Ok (fst x)) /\ f = match keypoints_step path overwrite clear d m f0 with Ok x => snd x | Err _ => f0 end
  end.
Definition status_ok (d : K) (m : option K) (f0 f : file K) (x : status (key_at K) (option K)) : Prop :=
  match x with Todo => f = f0 | Running _ p => key_ok d m f0 f p | Finished r => key_ok d m f0 f (KEnd r) end.
Lemma key_step_ok i d m f0 p g l p' g' l' : nth i memory None = m -> nth_error detected i = Some d -> key_ok d m f0 (g i) p -> kstep i p g l = Some (p', g', l') ->
  key_ok d m f0 (g' i) p' /\ forall j, j <> i -> g' j = g j.
Proof.
  intros Hm Hd Hk E.
  destruct p as [|b| |k|k|r]; cbn [key_step key_ok] in *; try discriminate.
  - injection E as <- <- _. cbn. subst f0. auto.
  - injection E as <- <- _. split; [|auto]. rewrite Hm, Hd. destruct Hk as [-> ->]. unfold key_out.
    unfold key_ok, keypoints_step. destruct m as [k|], path, overwrite, clear; cbn [negb andb orb]; destruct f0 as [| |x]; cbn [exists_ negb andb orb]; cbn; auto.
  - injection E as <- <- _. split; [|auto]. destruct Hk as [-> Q]. destruct (read_pickle f0) eqn:Er; cbn in *; rewrite Q; auto.
  - injection E as <- <- _. rewrite Nat.eqb_refl. cbn. split; [split; [reflexivity|apply Hk]|]. intros j N. apply Nat.eqb_neq in N. now rewrite N.
  - injection E as <- <- _. rewrite Nat.eqb_refl. cbn. destruct Hk as [_ Q]. rewrite Q. cbn. split; [auto|]. intros j N. apply Nat.eqb_neq in N. now rewrite N.
Qed.
Lemma key_inv np k c : length files = n -> ksteps k (key_pool np) c -> wf n np c /\ forall i d, nth_error detected i = Some d -> status_ok d (nth i memory None) (nth i files Missing) (pl_shared c i) (pl_task c i).
Proof.
  intros Lf. apply (steps_ind n (fun _ => KTest) kstep key_end np (fun c => forall i d, nth_error detected i = Some d -> status_ok d (nth i memory None) (nth i files Missing) (pl_shared c i) (pl_task c i))).
  - apply repeat_length.
  - intros i d _. reflexivity.
  - clear c. intros c c' W Inv St. destruct St as [c w I Lt | c i w p l p' g' l' E Ne El Es | c i w p r E Er]; intros j d Hd; cbn [pl_shared pl_task]; specialize (Inv j d Hd) as Hj.
    + destruct (Nat.eq_dec j (pl_next c)) as [->|N]; [|now rewrite set_task_neq]. rewrite set_task_eq. cbn. assert (Q : pl_task c (pl_next c) = Todo) by (apply (wf_todo _ _ _ W); lia). rewrite Q in Hj. exact Hj.
    + destruct (Nat.eq_dec j i) as [->|N].
      * rewrite set_task_eq. rewrite E in Hj. apply (key_step_ok i d _ _ p (pl_shared c) l p' g' l' eq_refl Hd Hj Es).
      * rewrite set_task_neq by exact N. assert (Hi : i < n) by (apply (wf_lt _ _ _ _ W); congruence). destruct (nth_error detected i) as [d'|] eqn:Ei; [|apply nth_error_None in Ei; lia].
        specialize (Inv i d' Ei). rewrite E in Inv. rewrite (proj2 (key_step_ok i d' _ _ p (pl_shared c) l p' g' l' eq_refl Ei Inv Es)) by exact N. exact Hj.
    + destruct (Nat.eq_dec j i) as [->|N]; [|now rewrite set_task_neq]. rewrite set_task_eq. rewrite E in Hj. destruct p; try discriminate. cbn in Er. injection Er as ->. exact Hj.
Qed.
End Key.

(** In any order of the steps of the workers, the run makes at most 7 steps per image and never gets stuck; at every moment each keypoint file is as it was, as it will be, or being written;
    and at the end each image has the keypoints and the file that it has after a run without workers. *)
Theorem keypoints_parallel {K} path overwrite clear (detected : list K) memory files np k c : length files = length detected -> 1 <= np ->
  pool_steps (length detected) (fun _ => KTest) (key_step path overwrite clear detected memory) key_end k (key_pool files np) c ->
  k <= 7 * length detected /\
  (forall i d f, nth_error detected i = Some d -> nth_error files i = Some f ->
     pl_shared c i = f \/ (pl_shared c i = Partial /\ exists w k, pl_task c i = Running w (KClose k)) \/ exists r, keypoints_step path overwrite clear d (nth i memory None) f = Ok (r, pl_shared c i)) /\
  ((exists c', pool_step (length detected) (fun _ => KTest) (key_step path overwrite clear detected memory) key_end c c') \/
   (forall i d f, nth_error detected i = Some d -> nth_error files i = Some f ->
     match keypoints_step path overwrite clear d (nth i memory None) f with
     | Ok (r, f') => pl_task c i = Finished (Ok r) /\ pl_shared c i = f'
     | Err e => pl_task c i = Finished (Err e) /\ pl_shared c i = f
     end)).
Proof.
  intros Lf Hn Hs. destruct (key_inv path overwrite clear detected memory files np k c Lf Hs) as [W Inv].
  assert (Wt : forall i p g (l : unit) p' g' l', key_step path overwrite clear detected memory i p g l = Some (p', g', l') -> key_weight i p' < key_weight i p) by (intros; eapply key_decreases; eassumption).
  split; [|split].
  - pose proof (total_steps (length detected) (fun _ => KTest) _ key_end key_weight np _ _ k c (repeat_length _ _) Wt Hs) as T.
    rewrite (total_const (fun _ => KTest) key_weight (length detected) (fun _ => 5)) in T by reflexivity.
    enough (Q : forall m, list_sum (map (fun _ => 5 + 2) (seq 0 m)) = 7 * m) by (rewrite Q in T; lia). clear. induction m as [|m IH]; [reflexivity|]. rewrite seq_S, map_app, list_sum_app, IH. cbn. lia.
  - intros i d f Hd Hf. specialize (Inv i d Hd). rewrite (nth_error_nth _ _ _ Hf) in Inv.
    assert (Fin : forall r, key_ok path overwrite clear d (nth i memory None) f (pl_shared c i) (KEnd r) -> pl_shared c i = f \/ (pl_shared c i = Partial /\ exists w k, pl_task c i = Running w (KClose k)) \/ exists r, keypoints_step path overwrite clear d (nth i memory None) f = Ok (r, pl_shared c i)).
    { intros r (_ & Q). destruct (keypoints_step path overwrite clear d (nth i memory None) f) as [[x y]|e]; [right; right; exists x; cbn in Q; now rewrite Q|now left]. }
    destruct (pl_task c i) as [|w p|r] eqn:E; [now left| |now apply (Fin r)]. destruct p as [|b| |x|x|r]; try (now left; apply Inv); [|now apply (Fin r)]. right. left. cbn in Inv. split; [apply Inv|]. exists w, x. reflexivity.
  - destruct (progress (length detected) (fun _ => KTest) (key_step path overwrite clear detected memory) key_end np c W Hn) as [Q|Q].
    + intros i w p E. exists i. exists w, p. split; [exact E|]. destruct p as [|b| |x|x|r]; [right|right|right|right|right|left; discriminate].
      all: assert (Hw : w < length (pl_memory c)) by (rewrite (wf_np _ _ _ W); apply (wf_run _ _ _ W i w _ E)); destruct (nth_error (pl_memory c) w) as [l|] eqn:El; [|apply nth_error_None in El; lia].
      all: eexists; eexists; (split; [reflexivity|]); reflexivity.
    + now left.
    + right. intros i d f Hd Hf. specialize (Inv i d Hd). rewrite (nth_error_nth _ _ _ Hf) in Inv. destruct (Q i) as [r Er]; [apply nth_error_Some; congruence|]. rewrite Er in Inv |- *. cbn [status_ok key_ok] in Inv. destruct (keypoints_step path overwrite clear d (nth i memory None) f) as [[x y]|e]; cbn in Inv; destruct Inv as [-> ->]; auto.
Qed.
Print Assumptions keypoints_parallel.

(** The run with workers returns what the run without workers returns, and leaves the same files; it raises an exception of some image exactly if the run without workers raises one. *)
Lemma keypoints_loop_spec {K} path overwrite clear : forall (detected : list K) mem files, length mem = length detected -> length files = length detected ->
  match keypoints_loop path overwrite clear (combine (combine detected mem) files) with
  | (Ok l, fs) => length l = length detected /\ length fs = length detected /\ forall i d f, nth_error detected i = Some d -> nth_error files i = Some f -> exists r f', keypoints_step path overwrite clear d (nth i mem None) f = Ok (r, f') /\ nth_error l i = Some r /\ nth_error fs i = Some f'
  | (Err e, _) => exists i d f, nth_error detected i = Some d /\ nth_error files i = Some f /\ keypoints_step path overwrite clear d (nth i mem None) f = Err e
  end.
Proof.
  induction detected as [|d detected IH]; intros [|m mem] [|f files] Lm Lf; try discriminate; [repeat split; intros [|i]; discriminate|]. cbn [combine keypoints_loop]. specialize (IH mem files ltac:(now injection Lm) ltac:(now injection Lf)).
  destruct (keypoints_step path overwrite clear d m f) as [[r f']|e] eqn:E; [|exists 0, d, f; auto]. destruct (keypoints_loop path overwrite clear (combine (combine detected mem) files)) as [[l|e] fs]; cbn [bind].
  - destruct IH as (L1 & L2 & H). split; [cbn; congruence|]. split; [cbn; congruence|]. intros [|i] d' f''; cbn; [intros [= <-] [= <-]; eauto|apply H].
  - destruct IH as (i & d' & f'' & H). exists (S i), d', f''. exact H.
Qed.
Theorem keypoints_parallel_result {K} path overwrite clear (detected : list K) memory files np k c :
  let mem := match memory with Some ((_ :: _) as m) => m | _ => map (fun _ => None) detected end in
  (forall m, memory = Some m -> length m = length detected) -> length files = length detected -> (clear = true -> path = true) -> 1 <= np ->
  pool_steps (length detected) (fun _ => KTest) (key_step path overwrite clear detected mem) key_end k (key_pool files np) c ->
  (forall c', ~ pool_step (length detected) (fun _ => KTest) (key_step path overwrite clear detected mem) key_end c c') ->
  match build_keypoints path overwrite clear detected memory files with
  | (Ok l, fs) => returned (length detected) c l /\ forall i f, nth_error fs i = Some f -> pl_shared c i = f
  | (Err e, _) => raised (length detected) c e
  end.
Proof.
  intros mem Hm Lf Hc Hn Hs Stuck. destruct (keypoints_parallel path overwrite clear detected mem files np k c Lf Hn Hs) as (_ & _ & [[c' St]|H]); [now apply Stuck in St|].
  assert (Lm : length mem = length detected). { unfold mem. destruct memory as [[|x m]|]; rewrite ?map_length; auto. }
  unfold build_keypoints. replace (clear && negb path)%bool with false by (destruct clear; [now rewrite (Hc eq_refl)|reflexivity]). fold mem.
  pose proof (keypoints_loop_spec path overwrite clear detected mem files Lm Lf) as Q. destruct (keypoints_loop path overwrite clear (combine (combine detected mem) files)) as [[l|e] fs].
  - destruct Q as (L1 & L2 & Q). assert (All : forall i, i < length detected -> exists d f r f', nth_error detected i = Some d /\ nth_error files i = Some f /\ nth_error l i = Some r /\ nth_error fs i = Some f' /\ pl_task c i = Finished (Ok r) /\ pl_shared c i = f').
    { intros i Hi. destruct (nth_error detected i) as [d|] eqn:Ed; [|apply nth_error_None in Ed; lia]. destruct (nth_error files i) as [f|] eqn:Ef; [|apply nth_error_None in Ef; lia]. destruct (Q i d f Ed Ef) as (r & f' & E & E1 & E2). specialize (H i d f Ed Ef). rewrite E in H. exists d, f, r, f'. repeat split; auto; apply H. }
    split; [split; [exact L1|]|].
    + intros i x E. destruct (All i) as (d & f & r & f' & _ & _ & E' & _ & Ht & _); [rewrite <- L1; apply nth_error_Some; congruence|]. congruence.
    + intros i x E. destruct (All i) as (d & f & r & f' & _ & _ & _ & E' & _ & Ht); [rewrite <- L2; apply nth_error_Some; congruence|]. congruence.
  - destruct Q as (i & d & f & Ed & Ef & E). exists i. split; [apply nth_error_Some; congruence|]. specialize (H i d f Ed Ef). rewrite E in H. apply H.
Qed.
Print Assumptions keypoints_parallel_result.
(** A run of two images with two workers whose steps alternate: the first image is detected and written, the second is read from its file. *)
Example keypoints_parallel_ex : exists k c, pool_steps 2 (fun _ => KTest) (key_step true false false [1%Z; 2%Z] [None; None]) key_end k (key_pool [Missing; Written 5%Z] 2) c /\ returned 2 c [Some 1%Z; Some 5%Z] /\ pl_shared c 0 = Written 1%Z.
Proof.
  apply (play_run _ _ _ _ [CTake 0; CTake 1; CRun 0; CRun 1; CRun 0; CRun 1; CRun 1; CRun 0; CFinish 1; CRun 0; CFinish 0]).
  vm_compute. split; [split; [reflexivity|]|reflexivity]. intros [|[|[|i]]] a E; try discriminate; injection E as <-; reflexivity.
Qed.

(* ------------------------------------------------------------------ *)
(** ** Matches *)
Lemma seq_rows {A B} (F : nat -> list A -> B) (rows : list (list A)) : map (fun i => F i (nth i rows [])) (seq 0 (length rows)) = map (fun p => F (fst p) (snd p)) (combine (seq 0 (length rows)) rows).
Proof.
  enough (G : forall z, map (fun i => F i (nth (i - z) rows [])) (seq z (length rows)) = map (fun p => F (fst p) (snd p)) (combine (seq z (length rows)) rows)) by (rewrite <- (G 0); apply map_ext; intros i; now rewrite Nat.sub_0_r).
  induction rows as [|r rows IH]; intros z; [reflexivity|]. cbn [length seq map combine fst snd]. rewrite Nat.sub_diag. cbn [nth]. f_equal. rewrite <- IH. apply map_ext_in. intros i I. apply in_seq in I. replace (i - z) with (S (i - S z)) by lia. reflexivity.
Qed.
Lemma concat_pairs {B} (F : Z -> Z -> B) (rows : list (list Z)) : concat (map (fun i => map (F (Z.of_nat i)) (nth i rows [])) (seq 0 (length rows))) = map (fun p => F (fst p) (snd p)) (pairs_of rows).
Proof. rewrite (seq_rows (fun i r => map (F (Z.of_nat i)) r)). unfold pairs_of, mapi. rewrite concat_map, map_map. f_equal. apply map_ext. intros [i r]. cbn. now rewrite map_map. Qed.
Lemma mapM_Ok {A B} (f : A -> B) l : mapM (fun x => Ok (f x)) l = Ok (map f l).
Proof. induction l as [|x l IH]; [reflexivity|]. cbn. now rewrite IH. Qed.
Lemma map_Some_inj {A} (l l' : list A) : map Some l = map Some l' -> l = l'.
Proof. revert l'. induction l as [|x l IH]; intros [|y l'] E; try discriminate; [reflexivity|]. cbn in E. injection E as -> E. f_equal. now apply IH. Qed.

Section Matches.
Context {K M : Type} (a : match_args M) (make : K -> K -> M) (name : Z -> Z -> string) (kfiles : list (file K)) (threads : bool).
Definition steps_of (rows : list (list Z)) := pool_steps (length rows) (match_start rows) (match_step a make name kfiles threads) (@match_end K M).
Definition step_of (rows : list (list Z)) := pool_step (length rows) (match_start rows) (match_step a make name kfiles threads) (@match_end K M).
Lemma no_tasks j g ls c : steps_of [] j (pool_start g ls) c -> j = 0 /\ c = pool_start g ls.
Proof.
  intros H. unfold steps_of in H. remember (pool_start g ls) as c0. induction H as [c|j c c1 c2 H IH St]; [auto|]. destruct (IH Heqc0) as [-> ->]. subst c. exfalso. inversion St as [? ? ? Lt|? ? ? ? ? ? ? ? E|? ? ? ? ? E]; subst; [cbn in Lt; lia|discriminate E|discriminate E].
Qed.
(** the parallel run, compared with the sequential one *)
Definition as_sequential times maxdt sq imgs (s : match_state K M) rows (c : pool (match_at K M) (match_shared K M) (list (option K)) (list M)) : Prop :=
  exists data, returned (length rows) c data /\ matches_return a rows data = fst (build_matches a make name kfiles times maxdt sq imgs s) /\
    (forall f, msh_files (pl_shared c) f = ms_files (snd (build_matches a make name kfiles times maxdt sq imgs s)) f) /\
    msh_keypoints (pl_shared c) = if threads then ms_keypoints (snd (build_matches a make name kfiles times maxdt sq imgs s)) else ms_keypoints s.
Lemma parallel times maxdt sq imgs ks s rows np j c : callable a name kfiles times maxdt sq imgs ks s -> (ma_clear_matches a = true -> ma_filter a = None /\ ma_path a = true) ->
  matching_images times maxdt sq imgs = Ok rows -> 1 <= np -> steps_of rows j (matches_pool np s) c ->
  j <= 9 * length times + 8 * length (pairs_of rows) /\
  (forall f, msh_files (pl_shared c) f = ms_files s f \/ (msh_files (pl_shared c) f = Partial /\ exists i j w m js acc, selected times maxdt sq imgs i j /\ f = fname name i j /\ pl_task c i = Running w (CloseOut (Z.of_nat j) m js acc)) \/
             msh_files (pl_shared c) f = ms_files (snd (build_matches a make name kfiles times maxdt sq imgs s)) f) /\
  ((exists c', step_of rows c c') \/ as_sequential times maxdt sq imgs s rows c).
Proof.
  intros C CF Er Hn Hs. destruct (run a make name kfiles times maxdt sq imgs ks s C CF) as (rows' & k' & s' & Er' & Kn' & vals & V & E & Mm & P & Q). assert (rows' = rows) by congruence. subst rows'. clear Er'.
  destruct (selected_pairs _ _ _ _ _ (cl_order _ _ _ _ _ _ _ _ _ C) Er) as (ND & Lr & Sel).
  destruct ks as [|k0 ks'] eqn:Eks.
  { assert (R0 : rows = []) by (pose proof (cl_ks _ _ _ _ _ _ _ _ _ C) as L; cbn in L; destruct rows; [reflexivity|cbn in Lr; lia]). subst rows. destruct (no_tasks _ _ _ _ Hs) as [-> ->]. rewrite E. cbn [fst snd].
    split; [lia|]. split; [now left|]. right. exists []. split; [split; [reflexivity|intros [|i] x; discriminate]|]. cbn in Mm. rewrite E. cbn [fst snd pl_shared pool_start msh_files msh_keypoints].
    pose proof (cl_mem _ _ _ _ _ _ _ _ _ C) as L0. rewrite <- Lr in L0. destruct (ms_keypoints s) eqn:Ek; [|discriminate].
    split; [unfold matches_return; cbn; destruct (ma_clear_matches a); reflexivity|]. split; [|rewrite Mm; now destruct threads]. intros f. symmetry. apply Q. right. intros i j0 S0. pose proof (proj1 S0) as L. rewrite <- Lr in L. cbn in L. lia. }
  rewrite <- Eks in *. set (k := fun j => nth (Z.to_nat j) ks k0). clear ks' Eks.
  assert (Kn : forall i x, nth_error ks i = Some x -> k (Z.of_nat i) = x). { intros i x Ex. unfold k. rewrite Nat2Z.id. now apply nth_error_nth. }
  assert (Lk : length ks = length rows) by (rewrite Lr; exact (cl_ks _ _ _ _ _ _ _ _ _ C)).
  assert (InP : forall i j, In j (nth i rows []) <-> In (Z.of_nat i, j) (pairs_of rows)).
  { intros i j1. rewrite pairs_of_from, pairs_from_In. cbn [fst snd]. split.
    - intros I. destruct (nth_error rows i) as [js|] eqn:Ei; [|apply nth_error_None in Ei; rewrite nth_overflow in I by exact Ei; contradiction]. exists i, js. rewrite (nth_error_nth _ _ _ Ei) in I. repeat split; auto.
    - intros (r & js & Ei & Eq & I). assert (r = i) by lia. subst r. now rewrite (nth_error_nth _ _ _ Ei). }
  assert (InS : forall i j, In j (nth i rows []) -> exists j', j = Z.of_nat j' /\ selected times maxdt sq imgs i j').
  { intros i j1 I. apply InP, Sel in I as (i' & j' & [= Q1 ->] & S0). apply Nat2Z.inj in Q1. subst i'. eauto. }
  assert (Hrow : forall i j, In j (nth i rows []) -> (Z.of_nat i < j < Z.of_nat (length rows))%Z). { intros i j1 I. destruct (InS i j1 I) as (j' & -> & S0). pose proof (proj1 S0). rewrite Lr. lia. }
  assert (Hread : forall i j, In j (nth i rows []) -> readable a name (ms_files s) (Z.of_nat i) j). { intros i j1 I Hp Ho. destruct (InS i j1 I) as (j' & -> & S0). now apply (cl_complete _ _ _ _ _ _ _ _ _ C Hp Ho). }
  assert (Hnd : forall i, NoDup (nth i rows [])).
  { intros i. destruct (nth_error rows i) as [js|] eqn:Ei; [|apply nth_error_None in Ei; rewrite nth_overflow by exact Ei; constructor]. rewrite (nth_error_nth _ _ _ Ei). apply sorted_NoDup. now apply (proj2 (matching_pairs _ _ _ _ _ (cl_order _ _ _ _ _ _ _ _ _ C) Er) i). }
  assert (Hnames : ma_path a = true -> forall i j i' j', In j (nth i rows []) -> In j' (nth i' rows []) -> name (Z.of_nat i) j = name (Z.of_nat i') j' -> i = i' /\ j = j').
  { intros Hp i j1 i' j2 I1 I2 Eq. destruct (InS i j1 I1) as (x & -> & S1). destruct (InS i' j2 I2) as (y & -> & S2). destruct (cl_names _ _ _ _ _ _ _ _ _ C Hp i x i' y S1 S2 Eq) as [-> ->]. auto. }
  assert (Hav : forall x, x < length rows -> avl kfiles k (ms_keypoints s) x).
  { intros x Hx. destruct (nth_error ks x) as [y|] eqn:Ex; [|apply nth_error_None in Ex; lia]. unfold avl. rewrite (Kn _ _ Ex). destruct (cl_avail _ _ _ _ _ _ _ _ _ C _ _ Ex) as [Q1|(Q1 & Q2 & _)]; [left|right; split]; now apply nth_error_nth. }
  assert (Hl0 : length (ms_keypoints s) = length rows) by (rewrite Lr; exact (cl_mem _ _ _ _ _ _ _ _ _ C)).
  destruct (inv_steps a make name kfiles threads rows k (ms_files s) (ms_keypoints s) Hrow Hread Hnd Hnames Hav Hl0 np j c Hs) as [W Inv].
  assert (Val : forall p, In p (pairs_of rows) -> (match k' (fst p), k' (snd p) with Some ki, Some kj => Some (pair_match a make (ms_files s (name (fst p) (snd p))) ki kj) | _, _ => None end) = Some (content a make name k (ms_files s) (fst p) (snd p))).
  { intros p Ip. apply Sel in Ip as (i & j' & -> & Si). cbn [fst snd]. pose proof (proj1 Si) as R. rewrite <- Lr, <- Lk in R. destruct (nth_error ks i) as [ki|] eqn:E1; [|apply nth_error_None in E1; lia]. destruct (nth_error ks j') as [kj|] eqn:E2; [|apply nth_error_None in E2; lia].
    rewrite (Kn' _ _ E1), (Kn' _ _ E2). f_equal. unfold pair_match, content. rewrite (Kn _ _ E1), (Kn _ _ E2). destruct (ms_files s (name (Z.of_nat i) (Z.of_nat j'))), (ma_path a && negb (ma_overwrite a))%bool; reflexivity. }
  assert (Vals : vals = map (fun p => content a make name k (ms_files s) (fst p) (snd p)) (pairs_of rows)). { apply map_Some_inj. rewrite <- V, map_map. now apply map_ext_in. }
  assert (Out : forall i j, In j (nth i rows []) -> out a make name k (ms_files s) i j = ms_files s' (name (Z.of_nat i) j)).
  { intros i j1 I. unfold out. destruct (ma_path a) eqn:Ep; [|symmetry; apply Q; now left]. symmetry. apply (P eq_refl (Z.of_nat i, j1)); [now apply InP|]. rewrite Val by now apply InP. reflexivity. }
  assert (Dec : forall f, (exists i j, In j (nth i rows []) /\ f = name (Z.of_nat i) j) \/ (forall i j, In j (nth i rows []) -> f <> name (Z.of_nat i) j)).
  { intros f. destruct (in_dec string_dec f (map (fun p => name (fst p) (snd p)) (pairs_of rows))) as [I|N].
    - left. apply in_map_iff in I as (p & <- & I). assert (I' := I). apply Sel in I' as (i & j' & -> & _). exists i, (Z.of_nat j'). split; [now apply InP|reflexivity].
    - right. intros i j1 I ->. apply N. apply in_map_iff. exists (Z.of_nat i, j1). split; [reflexivity|now apply InP]. }
  assert (Oth : forall f, (forall i j, In j (nth i rows []) -> f <> name (Z.of_nat i) j) -> ms_files s' f = ms_files s f). { intros f N. apply Q. right. intros i j' S0. apply N. apply InP, Sel. eauto. }
  rewrite E. cbn [fst snd]. split; [|split].
  - pose proof (match_bound a make name kfiles threads rows (ms_files s) (ms_keypoints s) Hnames Hl0 np j c Hs) as B. rewrite Lr in B. replace (length (pairs_of rows)) with (length (concat rows)); [exact B|]. clear. rewrite pairs_of_from. generalize 0%Z as z.
    induction rows as [|r rows IH]; intros z; [reflexivity|]. cbn [concat pairs_from]. rewrite !app_length, map_length. now rewrite (IH (z + 1)%Z).
  - intros f. destruct (Dec f) as [(i & j1 & I & ->)|N]; [|left; apply (v_other _ _ _ _ _ _ _ _ _ _ Inv); now right].
    rewrite (v_files _ _ _ _ _ _ _ _ _ _ Inv) by exact I. destruct (pl_task c i) as [|w p|r] eqn:Et; cbn [want]; [now left| |right; right; now apply Out].
    unfold want_at. destruct (zmem j1 (pend p)); [|right; right; now apply Out]. destruct p; try now left. destruct (Z.eqb_spec j1 j0) as [->|]; [right; left|now left]. split; [reflexivity|]. destruct (InS i j0 I) as (j' & -> & S0). exists i, j', w, m, js, acc. auto.
  - destruct (match_progress a make name kfiles threads rows k (ms_files s) (ms_keypoints s) Hl0 np c W Inv Hn) as [St|Fi]; [now left|right].
    exists (map (fun i => res a make name k (ms_files s) i (nth i rows [])) (seq 0 (length rows))). rewrite E. cbn [fst snd]. split; [|split; [|split]].
    + split; [now rewrite map_length, seq_length|]. intros i x Ex. rewrite nth_error_map in Ex. destruct (nth_error (seq 0 (length rows)) i) as [y|] eqn:Ey; [|discriminate]. assert (Hi : i < length rows) by (rewrite <- (seq_length (length rows) 0); apply nth_error_Some; congruence).
      rewrite (nth_error_nth' _ 0) in Ey by (now rewrite seq_length). rewrite seq_nth in Ey by exact Hi. injection Ey as <-. injection Ex as <-. now apply Fi.
    + unfold matches_return. destruct (ma_clear_matches a) eqn:Ec; [destruct (CF eq_refl) as [Ef _]; rewrite Ef, mapM_Ok, map_id; reflexivity|].
      assert (Dt : forall g : M -> M, concat (map (fun i => map g (res a make name k (ms_files s) i (nth i rows []))) (seq 0 (length rows))) = map (fun p => g (convert a (content a make name k (ms_files s) (fst p) (snd p)))) (pairs_of rows)).
      { intros g. rewrite <- (concat_pairs (fun i j => g (convert a (content a make name k (ms_files s) i j)))). f_equal. apply map_ext. intros i. unfold res. rewrite Ec, map_map. reflexivity. }
      assert (G : forall data, concat data = map (stored a) vals -> (let* m := build_coo rows data in Ok (Some m)) = match pairs_of rows with [] => Err ValueError | _ :: _ => Ok (Some (mk_coo (combine (pairs_of rows) (map (stored a) vals)) ((zmax (map fst (pairs_of rows)) + 1)%Z, (zmax (map snd (pairs_of rows)) + 1)%Z))) end).
      { intros data Ed. unfold build_coo. rewrite Ed. destruct (pairs_of rows); reflexivity. }
      rewrite Vals in G |- *. destruct (ma_filter a) as [g|] eqn:Ef.
      * rewrite mapM_Ok, map_map. cbn [bind]. apply G. rewrite Dt, map_map. apply map_ext. intros p. unfold stored, convert. now rewrite Ef.
      * rewrite mapM_Ok, map_id. cbn [bind]. apply G. specialize (Dt (fun x => x)). rewrite (map_ext _ (fun i => res a make name k (ms_files s) i (nth i rows []))) in Dt by (intros; apply map_id). rewrite Dt, map_map. apply map_ext. intros p. unfold stored, convert. now rewrite Ef.
    + intros f. destruct (Dec f) as [(i & j1 & I & ->)|N]; [|rewrite Oth by exact N; apply (v_other _ _ _ _ _ _ _ _ _ _ Inv); now right].
      rewrite (v_files _ _ _ _ _ _ _ _ _ _ Inv) by exact I. rewrite Fi; [now apply Out|]. destruct (Nat.lt_ge_cases i (length rows)) as [|Ge]; [assumption|]. rewrite nth_overflow in I by exact Ge. contradiction.
    + rewrite Mm. destruct threads eqn:Et; [|now apply (v_main _ _ _ _ _ _ _ _ _ _ Inv)]. apply list_eq. intros i. rewrite nth_error_map. destruct (nth_error ks i) as [x|] eqn:Ex.
      * assert (Hi : i < length rows) by (rewrite <- Lk; apply nth_error_Some; congruence). pose proof (v_settled _ _ _ _ _ _ _ _ _ _ Inv eq_refl i _ (Fi i Hi)) as F. unfold fin in F. rewrite (nth_error_nth' _ None) by (rewrite (v_len _ _ _ _ _ _ _ _ _ _ Inv); exact Hi). rewrite F, (Kn _ _ Ex). reflexivity.
      * cbn. apply nth_error_None in Ex. apply nth_error_None. rewrite (v_len _ _ _ _ _ _ _ _ _ _ Inv). lia.
Qed.
End Matches.

(** In any order of the steps of the workers, whether these are processes or threads: at most 9 steps are made per image and 8 per pair of images; the run never gets stuck, although a task waits for the tasks before it to clear their keypoints;
    and when it ends, all tasks have returned, the matches and the match files are those of a run without workers, and the keypoints in memory are those of a run without workers (threads) or of before (processes). *)
Theorem matches_parallel {K M} (a : match_args M) (make : K -> K -> M) name kfiles threads times maxdt sq imgs ks s rows np j c :
  callable a name kfiles times maxdt sq imgs ks s -> (ma_clear_matches a = true -> ma_filter a = None /\ ma_path a = true) -> matching_images times maxdt sq imgs = Ok rows -> 1 <= np ->
  pool_steps (length rows) (match_start rows) (match_step a make name kfiles threads) match_end j (matches_pool np s) c ->
  j <= 9 * length times + 8 * length (pairs_of rows) /\
  ((exists c', pool_step (length rows) (match_start rows) (match_step a make name kfiles threads) match_end c c') \/
   exists data, returned (length rows) c data /\ matches_return a rows data = fst (build_matches a make name kfiles times maxdt sq imgs s) /\
    (forall f, msh_files (pl_shared c) f = ms_files (snd (build_matches a make name kfiles times maxdt sq imgs s)) f) /\
    msh_keypoints (pl_shared c) = if threads then ms_keypoints (snd (build_matches a make name kfiles times maxdt sq imgs s)) else ms_keypoints s).
Proof. intros C CF Er Hn Hs. destruct (parallel a make name kfiles threads times maxdt sq imgs ks s rows np j c C CF Er Hn Hs) as (B & _ & H). split; [exact B|exact H]. Qed.
Print Assumptions matches_parallel.

(** At every moment, each match file is as it was before, or as it will be, or is being written by a task; no exception is ever the result of a task. *)
Theorem matches_parallel_files {K M} (a : match_args M) (make : K -> K -> M) name kfiles threads times maxdt sq imgs ks s rows np j c :
  callable a name kfiles times maxdt sq imgs ks s -> (ma_clear_matches a = true -> ma_filter a = None /\ ma_path a = true) -> matching_images times maxdt sq imgs = Ok rows -> 1 <= np ->
  pool_steps (length rows) (match_start rows) (match_step a make name kfiles threads) match_end j (matches_pool np s) c ->
  forall f, msh_files (pl_shared c) f = ms_files s f \/ (msh_files (pl_shared c) f = Partial /\ exists i j w m js acc, selected times maxdt sq imgs i j /\ f = fname name i j /\ pl_task c i = Running w (CloseOut (Z.of_nat j) m js acc)) \/
            msh_files (pl_shared c) f = ms_files (snd (build_matches a make name kfiles times maxdt sq imgs s)) f.
Proof. intros C CF Er Hn Hs. apply (parallel a make name kfiles threads times maxdt sq imgs ks s rows np j c C CF Er Hn Hs). Qed.
Print Assumptions matches_parallel_files.

(** A run that was stopped at any moment can be resumed, with or without workers, if no file was being written at that moment: with the files it left, a run gives the matches and files of an uninterrupted one. *)
Theorem matches_parallel_resume {K M} (a : match_args M) (make : K -> K -> M) name kfiles kfiles2 threads times maxdt sq imgs ks s s2 rows np j c :
  callable a name kfiles times maxdt sq imgs ks s -> (ma_clear_matches a = true -> ma_filter a = None) -> ma_path a = true -> ma_overwrite a = false -> matching_images times maxdt sq imgs = Ok rows -> 1 <= np ->
  pool_steps (length rows) (match_start rows) (match_step a make name kfiles threads) match_end j (matches_pool np s) c ->
  callable a name kfiles2 times maxdt sq imgs ks s2 -> ms_files s2 = msh_files (pl_shared c) ->
  fst (build_matches a make name kfiles2 times maxdt sq imgs s2) = fst (build_matches a make name kfiles times maxdt sq imgs s) /\
  forall f, ms_files (snd (build_matches a make name kfiles2 times maxdt sq imgs s2)) f = ms_files (snd (build_matches a make name kfiles times maxdt sq imgs s)) f.
Proof.
  intros C CF Ep Eo Er Hn Hs C2 Ef. apply build_matches_resume with (ks := ks); auto. intros f. rewrite Ef.
  assert (CF' : ma_clear_matches a = true -> ma_filter a = None /\ ma_path a = true) by auto.
  destruct (selected_pairs _ _ _ _ _ (cl_order _ _ _ _ _ _ _ _ _ C) Er) as (ND & Lr & Sel).
  destruct (run a make name kfiles times maxdt sq imgs ks s C CF') as (rows' & k' & s' & Er' & Kn' & vals & V & E & Mm & P & Q). assert (rows' = rows) by congruence. subst rows'.
  assert (Dec : (exists i j ki kj, selected times maxdt sq imgs i j /\ f = fname name i j /\ nth_error ks i = Some ki /\ nth_error ks j = Some kj) \/ (forall i j, selected times maxdt sq imgs i j -> f <> fname name i j)).
  { destruct (in_dec string_dec f (map (fun p => name (fst p) (snd p)) (pairs_of rows))) as [I|N].
    - left. apply in_map_iff in I as (p & <- & I). apply Sel in I as (i & j' & -> & S0). pose proof (proj1 S0) as R. rewrite <- (cl_ks _ _ _ _ _ _ _ _ _ C) in R. exists i, j'. destruct (nth_error ks i) as [ki|] eqn:E1; [|apply nth_error_None in E1; lia]. destruct (nth_error ks j') as [kj|] eqn:E2; [|apply nth_error_None in E2; lia]. exists ki, kj. auto.
    - right. intros i j1 S0 ->. apply N. apply in_map_iff. exists (Z.of_nat i, Z.of_nat j1). split; [reflexivity|apply Sel; eauto]. }
  destruct (parallel a make name kfiles threads times maxdt sq imgs ks s rows np j c C CF' Er Hn Hs) as (_ & H & _). destruct (H f) as [H1|[(H1 & i & j' & w & m & js & acc & S0 & Fn & Tk)|H1]]; [now left| |].
  - exfalso. apply (cl_complete _ _ _ _ _ _ _ _ _ C2 Ep Eo i j' S0). now rewrite Ef, <- Fn.
  - rewrite E in H1. cbn [snd] in H1. destruct Dec as [(i & j' & ki & kj & S0 & -> & E1 & E2)|N]; [|left; rewrite H1; apply Q; now right]. right. exists i, j', ki, kj. split; [exact S0|]. split; [reflexivity|]. split; [exact E1|]. split; [exact E2|]. etransitivity; [exact H1|]. apply (P Ep (Z.of_nat i, Z.of_nat j')); [apply Sel; eauto|]. cbn [fst snd]. now rewrite (Kn' _ _ E1), (Kn' _ _ E2).
Qed.
Print Assumptions matches_parallel_resume.

(** Finding.  Documented: clear_keypoints "Whether to clear keypoints from memory once all matches are computed for an image".  With processes nothing is cleared: the keypoints that were in memory before are still there at the end. *)
Theorem matches_parallel_clear_refuted {K M} (a : match_args M) (make : K -> K -> M) name kfiles times maxdt sq imgs ks s rows np j c :
  callable a name kfiles times maxdt sq imgs ks s -> (ma_clear_matches a = true -> ma_filter a = None /\ ma_path a = true) -> matching_images times maxdt sq imgs = Ok rows -> 1 <= np ->
  pool_steps (length rows) (match_start rows) (match_step a make name kfiles false) match_end j (matches_pool np s) c ->
  (forall c', ~ pool_step (length rows) (match_start rows) (match_step a make name kfiles false) match_end c c') ->
  ma_clear_keypoints a = true -> forall i k, nth_error (ms_keypoints s) i = Some (Some k) ->
  nth_error (msh_keypoints (pl_shared c)) i = Some (Some k) /\ nth_error (ms_keypoints (snd (build_matches a make name kfiles times maxdt sq imgs s))) i = Some None.
Proof.
  intros C CF Er Hn Hs Stuck Ec i k Ek. destruct (matches_parallel a make name kfiles false times maxdt sq imgs ks s rows np j c C CF Er Hn Hs) as (_ & [[c' St]|(data & _ & _ & _ & H)]); [now apply Stuck in St|]. rewrite H. split; [exact Ek|].
  destruct (run a make name kfiles times maxdt sq imgs ks s C CF) as (rows' & k' & s' & _ & _ & vals & _ & E & Mm & _). rewrite E. cbn [snd]. rewrite Mm, Ec, nth_error_map. destruct (nth_error ks i) as [x|] eqn:Ex; [reflexivity|]. apply nth_error_None in Ex. assert (i < length (ms_keypoints s)) by (apply nth_error_Some; congruence). rewrite (cl_mem _ _ _ _ _ _ _ _ _ C) in H0. rewrite (cl_ks _ _ _ _ _ _ _ _ _ C) in Ex. lia.
Qed.
Print Assumptions matches_parallel_clear_refuted.

(** The call of [callable_ex] with two workers: pairs (0, 1) and (0, 2) are matched, (1, 2) is read from its file; all keypoints are cleared with threads, and none with processes. *)
Definition turns : list choice := concat (repeat [CTake 0; CRun 0; CFinish 1; CTake 1; CRun 1; CRun 2; CFinish 0; CRun 1; CFinish 2] 40).
Definition state0 : match_state Z Z := mk_ms [None; None; Some 30%Z] (fun f => if String.eqb f "b-c.pkl" then Written 7%Z else Missing).
Example rows_ex : matching_images [0; 1; 2]%Z None None None = Ok [[1; 2]; [2]; []]%Z. Proof. reflexivity. Qed.
Example matches_parallel_ex threads : exists k c, pool_steps 3 (match_start [[1; 2]; [2]; []]%Z) (match_step args0 Z.add nm [Written 10%Z; Written 20%Z; Missing] threads) match_end k (matches_pool 2 state0) c /\
  returned 3 c [[30; 40]; [7]; []]%Z /\ msh_keypoints (pl_shared c) = (if threads then [None; None; None] else [None; None; Some 30%Z]) /\ msh_files (pl_shared c) "a-c.pkl"%string = Written 40%Z /\ pl_arrived c = [0; 1; 2].
Proof.
  apply (play_on_run _ _ _ _ turns). destruct threads; vm_compute; (split; [split; [reflexivity|]|repeat split; reflexivity]); intros [|[|[|[|i]]]] x E; try discriminate; injection E as <-; reflexivity.
Qed.

(* ------------------------------------------------------------------ *)
(** ** convert_matches and filter_matches *)
(** Whatever the order in which the results arrive, the i-th entry gets the result of the i-th entry. *)
Theorem assign_arrived_order {M} (results : nat -> option M) (arrived : list nat) (data : list M) : (forall i, i < length data -> In i arrived) -> (forall i, i < length data -> exists m, results i = Some m) ->
  length (assign_arrived results arrived data) = length data /\ forall i, i < length data -> nth_error (assign_arrived results arrived data) i = results i.
Proof.
  intros Hin Hres. unfold assign_arrived.
  assert (G : forall l d, length d = length data -> let r := fold_left (fun d i => match results i with Some m => set_nth i m d | None => d end) l d in length r = length data /\ forall i, i < length data -> (In i l -> nth_error r i = results i) /\ (nth_error d i = results i -> nth_error r i = results i)).
  { induction l as [|x l IH]; intros d Hd; cbn [fold_left]; [split; [exact Hd|]; intros i Hi; split; [intros []|auto]|].
    set (d1 := match results x with Some m => set_nth x m d | None => d end). assert (H1 : length d1 = length data) by (unfold d1; destruct (results x); rewrite ?set_nth_length; exact Hd). destruct (IH d1 H1) as [L H]. split; [exact L|]. intros i Hi. destruct (H i Hi) as [H2 H3]. destruct (Hres i Hi) as [m Em].
    assert (Hx : x = i -> nth_error d1 i = results i) by (intros ->; unfold d1; rewrite Em; apply nth_error_set_nth_eq; lia). split.
    - intros [Q|Q]; [apply H3, Hx, Q|now apply H2].
    - intros Q. apply H3. destruct (Nat.eq_dec x i) as [Q1|N]; [now apply Hx|]. unfold d1. destruct (results x); [|exact Q]. rewrite nth_error_set_nth_neq by exact N. exact Q. }
  destruct (G arrived data eq_refl) as [L H]. split; [exact L|]. intros i Hi. apply (proj1 (H i Hi)), Hin, Hi.
Qed.
Print Assumptions assign_arrived_order.
Example assign_arrived_ex : assign_arrived (nth_error [10; 20; 30]) [2; 0; 1] [1; 2; 3] = [10; 20; 30]. Proof. reflexivity. Qed.

(** In any pool, a result arrives exactly once for each task that is done. *)
Theorem pool_each_once {P G L A} n (start : nat -> P) (step : nat -> P -> G -> L -> option (P * G * L)) (ended : P -> option (result A)) k g ls c :
  pool_steps n start step ended k (pool_start g ls) c -> NoDup (pl_arrived c) /\ forall i, In i (pl_arrived c) <-> exists r, pl_task c i = Finished r.
Proof.
  intros H. apply (steps_ind n start step ended (length ls) (fun c => NoDup (pl_arrived c) /\ forall i, In i (pl_arrived c) <-> exists r, pl_task c i = Finished r) g ls) in H; [apply H|reflexivity| |].
  - split; [constructor|]. intros i. cbn. split; [intros []|intros [r Q]; discriminate].
  - clear. intros c c' W [ND In_] St. destruct St as [c w I Lt | c i w p l p' g' l' E Ne El Es | c i w p r E Er]; cbn [pl_arrived pl_task].
    + split; [exact ND|]. intros i. rewrite In_. destruct (Nat.eq_dec i (pl_next c)) as [->|N]; [|now rewrite set_task_neq]. rewrite set_task_eq. assert (Q : pl_task c (pl_next c) = Todo) by (apply (wf_todo _ _ _ W); lia). rewrite Q. split; intros [r Q']; discriminate.
    + split; [exact ND|]. intros j. rewrite In_. destruct (Nat.eq_dec j i) as [->|N]; [|now rewrite set_task_neq]. rewrite set_task_eq, E. split; intros [r Q']; discriminate.
    + assert (Ni : ~ In i (pl_arrived c)) by (rewrite In_, E; intros [r' Q]; discriminate). split.
      * apply NoDup_app_intro; [exact ND|constructor; [intros []|constructor]|]. intros x Hx [<-|[]]. contradiction.
      * intros j. rewrite in_app_iff, In_. cbn [In]. destruct (Nat.eq_dec j i) as [->|N]; [rewrite set_task_eq; split; [eauto|now right; left]|]. rewrite set_task_neq by exact N. split; [intros [Q|[Q|[]]]; [exact Q|congruence]|now left].
Qed.
Print Assumptions pool_each_once.
