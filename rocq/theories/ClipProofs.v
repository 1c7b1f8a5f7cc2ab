(** Proofs about clip_polyline_box (RayModel.v) *)
From Verif Require Import Base BaseLemmas XReal HelpersModel SplitProofs BoxProofs RayModel RayProofs HelpersSpec.
Open Scope R_scope.



Lemma last_cons {A} (d x : A) l : l <> [] -> last (x :: l) d = last l d.
Proof. destruct l; [congruence|reflexivity]. Qed.
Lemma hd_in {A} (d : A) l : l <> [] -> In (hd d l) l.
Proof. destruct l; [congruence|left; auto]. Qed.
Lemma last_in {A} (d : A) l : l <> [] -> In (last l d) l.
Proof. intros H. destruct (exists_last H) as [l' [x ->]]. rewrite last_last. apply in_or_app; right; left; auto. Qed.

Definition ins_entry (t : bool) (lo hi : list R) (prev : option (list R)) (h : list R) : list (list R) :=
  match prev with None => [] | Some o => match edge_box (cols t o) (cols t (vsub h o)) lo hi with Some ti => [along o (vsub h o) ti] | None => [] end end.
Definition ins_exit (t : bool) (lo hi : list R) (l : list R) (next : option (list R)) : list (list R) :=
  match next with None => [] | Some e => match edge_box (cols t l) (cols t (vsub e l)) lo hi with Some ti => [along l (vsub e l) ti] | None => [] end end.

Lemma clip_run_ins t lo hi prev next run : run <> [] ->
  clip_run t lo hi prev next run = ins_entry t lo hi prev (hd [] run) ++ run ++ ins_exit t lo hi (last run []) next.
Proof.
  intros Hr. unfold clip_run.
  set (run1 := match prev with Some o => _ | None => run end).
  assert (H1 : run1 = ins_entry t lo hi prev (hd [] run) ++ run /\ last run1 [] = last run []).
  { unfold run1, ins_entry. destruct prev as [o|]; [|split; reflexivity].
    destruct (edge_box _ _ _ _); [|split; reflexivity]. split; [reflexivity|]. apply last_cons; auto. }
  destruct H1 as [E1 Hlast]. clearbody run1. rewrite Hlast. unfold ins_exit.
  destruct next as [e|]; [destruct (edge_box _ _ _ _)|]; subst; rewrite ?app_nil_r, ?app_assoc; reflexivity.
Qed.

(** [G]: what is known of the vertices in the box *)
Lemma clip_segments_spec t lo hi (G : list R -> Prop) (O : list R -> Prop) (entry : option (list R) -> list R -> list (list R) -> Prop) (exit : list R -> option (list R) -> list (list R) -> Prop)
  (runs : list (bool * list (list R))) :
  (forall h, entry None h []) -> (forall o h, O o -> G h -> entry (Some o) h (ins_entry t lo hi (Some o) h)) ->
  (forall l, exit l None []) -> (forall l e, G l -> O e -> exit l (Some e) (ins_exit t lo hi l (Some e))) ->
  (forall r, In r runs -> snd r <> []) ->
  (forall r p, In r runs -> In p (snd r) -> (fst r = true -> G p) /\ (fst r = false -> O p)) ->
  (forall i r s, nth_error runs i = Some r -> nth_error runs (S i) = Some s -> fst r = negb (fst s)) ->
  forall inside prev,
  (forall r, nth_error runs 0 = Some r -> fst r = inside) ->
  (inside = true -> forall o, prev = Some o -> O o) ->
  clipped entry exit prev runs (clip_segments t lo hi inside prev (map snd runs)).
Proof.
  intros En0 En Ex0 Ex. induction runs as [|[m s] rest IH]; intros Hne Hin Halt inside prev Hhd Hprev; [constructor|].
  specialize (Hhd _ eq_refl). cbn in Hhd. subst inside.
  cbn [map snd clip_segments].
  assert (Hs : s <> []) by (apply (Hne (m, s)); left; auto).
  assert (IH' : clipped entry exit (Some (last s [])) rest
             (clip_segments t lo hi (negb m) (Some (last s [])) (map snd rest))).
  { apply IH; clear IH.
    - intros; apply Hne; right; auto.
    - intros r p Hr; apply Hin; right; auto.
    - intros i r s' H1 H2; apply (Halt (S i)); auto.
    - intros r Hr. pose proof (Halt 0%nat (m, s) r eq_refl Hr) as K. cbn in K. rewrite K, negb_involutive. auto.
    - intros Hm o Ho. injection Ho as <-. destruct m; [discriminate|].
      destruct (Hin (false, s) (last s []) (or_introl eq_refl) (last_in _ _ Hs)) as (_ & F). auto. }
  destruct m.
  - rewrite clip_run_ins by exact Hs. constructor; [| |exact IH'].
    + destruct prev as [o|]; [|apply En0]. apply En; [apply Hprev; auto|]. apply (Hin (true, s) _ (or_introl eq_refl) (hd_in _ _ Hs)); auto.
    + destruct rest as [|[m2 s2] rest]; [apply Ex0|]. cbn [map next_vertex snd].
      assert (Hs2 : s2 <> []) by (apply (Hne (m2, s2)); right; left; auto).
      pose proof (Halt 0%nat _ _ eq_refl eq_refl) as Hm. cbn in Hm.
      apply Ex; [apply (Hin (true, s) _ (or_introl eq_refl) (last_in _ _ Hs)); auto|].
      apply (Hin (m2, s2) (hd [] s2) (or_intror (or_introl eq_refl)) (hd_in _ _ Hs2)). cbn. destruct m2; auto; discriminate.
  - constructor. exact IH'.
Qed.

Lemma nth_removelast (p : list R) i : (S i < length p)%nat -> nth i (removelast p) 0 = nth i p 0.
Proof. revert i. induction p as [|x [|y p] IH]; intros i L; [cbn in L; lia|cbn in L; lia|]. change (removelast (x :: y :: p)) with (x :: removelast (y :: p)). destruct i; [reflexivity|]. cbn [nth]. apply IH. cbn in *. lia. Qed.
Lemma removelast_length (p : list R) : length (removelast p) = (length p - 1)%nat.
Proof. induction p as [|x [|y p] IH]; [reflexivity|reflexivity|]. change (removelast (x :: y :: p)) with (x :: removelast (y :: p)). cbn [length] in *. lia. Qed.
(** the length of vertices with n coordinates *)
Definition vlen (t : bool) (n : nat) : nat := if t then S n else n.
Lemma cols_length t n p : length p = vlen t n -> length (cols t p) = n.
Proof. destruct t; cbn; intros E; [rewrite removelast_length; lia|exact E]. Qed.
Lemma nth_cols t n p i : length p = vlen t n -> (i < n)%nat -> nth i (cols t p) 0 = nth i p 0.
Proof. destruct t; cbn; intros E I; [apply nth_removelast; lia|reflexivity]. Qed.
Lemma cols_box t n lo hi p : length p = vlen t n -> in_closed_box n lo hi (cols t p) <-> in_closed_box n lo hi p.
Proof. intros L. split; intros H i I; specialize (H i I); rewrite (nth_cols t n) in * by auto; exact H. Qed.
Lemma removelast_vsub a b : length a = length b -> removelast (vsub a b) = vsub (removelast a) (removelast b).
Proof.
  revert b. induction a as [|x [|y a] IH]; intros [|u [|v b]] L; try reflexivity; try (cbn in L; lia).
  change (removelast (vsub (x :: y :: a) (u :: v :: b))) with ((x - u) :: removelast (vsub (y :: a) (v :: b))). rewrite IH by (cbn in *; lia). reflexivity.
Qed.
Lemma cols_vsub t a b : length a = length b -> cols t (vsub a b) = vsub (cols t a) (cols t b).
Proof. destruct t; [apply removelast_vsub|reflexivity]. Qed.
Lemma along_length o d s : length o = length d -> length (along o d s) = length o.
Proof. intros L. unfold along. rewrite map2_length. lia. Qed.
Lemma cols_along t n lo hi o h s : length o = vlen t n -> length h = vlen t n ->
  in_closed_box n lo hi (along (cols t o) (vsub (cols t h) (cols t o)) s) <-> in_closed_box n lo hi (along o (vsub h o) s).
Proof.
  intros Lo Lh. assert (Lc : length (cols t h) = length (cols t o)) by (rewrite !(cols_length t n) by auto; reflexivity).
  split; intros H i I; specialize (H i I); rewrite nth_along in * by (rewrite vsub_length; congruence); rewrite nth_vsub in * by congruence; rewrite !(nth_cols t n) in * by auto; exact H.
Qed.

(** Runs, for any description of what is inserted. *)
Lemma clip_polyline_box_gen n t line lo hi (G O : list R -> Prop) (entry : option (list R) -> list R -> list (list R) -> Prop) (exit : list R -> option (list R) -> list (list R) -> Prop) :
  line <> [] -> length lo = n -> length hi = n -> (forall p, In p line -> length p = vlen t n) ->
  (forall p, In p line -> in_closed_box n lo hi p -> G p) -> (forall p, In p line -> ~ in_closed_box n lo hi p -> O p) ->
  (forall h, entry None h []) -> (forall o h, O o -> G h -> entry (Some o) h (ins_entry t lo hi (Some o) h)) ->
  (forall l, exit l None []) -> (forall l e, G l -> O e -> exit l (Some e) (ins_exit t lo hi l (Some e))) ->
  exists runs out,
    clip_polyline_box t line lo hi = Ok out
    /\ concat (map snd runs) = line
    /\ (forall r, In r runs -> snd r <> [])
    /\ (forall i r s, nth_error runs i = Some r -> nth_error runs (S i) = Some s -> fst r = negb (fst s))
    /\ (forall r p, In r runs -> In p (snd r) -> (fst r = true <-> in_closed_box n lo hi p))
    /\ clipped entry exit None runs out.
Proof.
  intros Hne Hlo Hhi Hlen HG HO En0 En Ex0 Ex. unfold clip_polyline_box.
  assert (HM : exists mask, mapM (fun p => in_box1 (cols t p) (lo ++ hi)) line = Ok mask
     /\ length mask = length line
     /\ forall i p b, nth_error line i = Some p -> nth_error mask i = Some b -> (b = true <-> in_closed_box n lo hi p)).
  { clear Hne HG HO. induction line as [|p line IH].
    - exists []. repeat split; auto; destruct i; discriminate.
    - destruct IH as (mask & E & L & H); [intros; apply Hlen; right; auto|].
      pose proof (Hlen p (or_introl eq_refl)) as Lp.
      destruct (in_box1_iff n (cols t p) lo hi (cols_length t n p Lp) Hlo Hhi) as (b & Eb & Hb). fold (in_closed_box n lo hi (cols t p)) in Hb. rewrite (cols_box t n lo hi p Lp) in Hb.
      exists (b :: mask). cbn [mapM]. rewrite Eb, E. cbn [bind]. split; auto. split; [cbn; lia|].
      intros [|i] q b' H1 H2; cbn in *; [injection H1 as <-; injection H2 as <-; exact Hb|eapply H; eauto]. }
  destruct HM as (mask & -> & Lm & Hmask). cbn [bind].
  assert (Hmne : mask <> []) by (destruct mask, line; cbn in *; congruence).
  destruct (boolean_split_spec line mask ltac:(lia) Hmne) as (runs & Hc & Hcm & Hrne & Halt & Hsel & _).
  rewrite (Hsel IncAll). cbn [bind select].
  assert (Hval : forall r p, In r runs -> In p (snd r) -> (fst r = true <-> in_closed_box n lo hi p)).
  { intros r p Hr Hp. apply in_split in Hr. destruct Hr as (l1 & l2 & ->).
    apply In_nth_error in Hp. destruct Hp as [k Hk].
    assert (Hk' : (k < length (snd r))%nat) by (apply nth_error_Some; congruence).
    set (N := length (concat (map snd l1))).
    assert (HN : length (concat (map (fun r : bool * list (list R) => repeat (fst r) (length (snd r))) l1)) = N).
    { unfold N. clear. induction l1 as [|r l1 IH]; cbn; auto. rewrite !app_length, repeat_length, IH. reflexivity. }
    apply (Hmask (N + k)%nat).
    - rewrite <- Hc, map_app, concat_app. rewrite nth_error_app2 by (fold N; lia). fold N.
      replace (N + k - N)%nat with k by lia. cbn. rewrite nth_error_app1 by lia. auto.
    - rewrite <- Hcm, map_app, concat_app. rewrite nth_error_app2 by lia. rewrite HN.
      replace (N + k - N)%nat with k by lia. cbn. rewrite nth_error_app1 by (rewrite repeat_length; lia).
      apply nth_error_repeat. auto. }
  destruct mask as [|m0 mask]; [congruence|]. rewrite py_get_0. cbn [bind].
  eexists runs, _. split; [reflexivity|]. do 4 (split; [assumption|]).
  apply (clip_segments_spec t lo hi G O); auto.
  - intros r p Hr Hp.
    assert (HL : In p line). { rewrite <- Hc. apply in_concat. exists (snd r). split; auto. apply in_map; auto. }
    split; intros Hf.
    + apply HG; auto. apply (Hval r p Hr Hp); auto.
    + apply HO; auto. intros K. apply (Hval r p Hr Hp) in K. congruence.
  - intros r Hr. destruct runs as [|r0 runs]; [discriminate|]. injection Hr as <-.
    cbn in Hcm. assert (H0 : snd r0 <> []) by (apply Hrne; left; auto).
    destruct (snd r0); [congruence|]. cbn in Hcm. congruence.
  - intros _ o Ho. discriminate.
Qed.

(** Refutation: an inside vertex on the boundary hides the crossing. *)
Lemma clip_boundary_lost :
  let line := [[0; 1]; [3; 1]] in let lo := [0; 0] in let hi := [2; 2] in
  clip_polyline_box false line lo hi = Ok [[[0; 1]]]
  /\ leaves_at 2 lo hi [0; 1] [3; 1] (2 / 3).
Proof.
  cbv zeta. split.
  - unfold clip_polyline_box.
    assert (B1 : in_box1 [0; 1] ([0; 0] ++ [2; 2]) = Ok true).
    { unfold in_box1, unravel_box. cbn.
      rewrite (proj2 (Rleb_true 0 0)), (proj2 (Rleb_true 0 1)), (proj2 (Rleb_true 0 2)), (proj2 (Rleb_true 1 2)) by lra. reflexivity. }
    assert (B2 : in_box1 [3; 1] ([0; 0] ++ [2; 2]) = Ok false).
    { unfold in_box1, unravel_box. cbn.
      rewrite (proj2 (Rleb_true 0 3)), (proj2 (Rleb_true 0 1)), (proj2 (Rleb_false 3 2)) by lra. reflexivity. }
    cbn [mapM cols]. rewrite B1, B2. cbn [bind].
    unfold boolean_split. cbn [mask_cuts np_split andb bind length Bool.eqb Z.eqb negb].
    unfold clip_run, vsub. cbn [hd last map2].
    assert (E : edge_box [0; 1] [3 - 0; 1 - 1] [0; 0] [2; 2] = None).
    { unfold edge_box. unfold ray_box, axis_slab, xinv. cbn [nth length].
      rewrite (proj2 (Reqb_false (3-0) 0) ltac:(lra)), (proj2 (Reqb_true (1-1) 0) ltac:(lra)).
      cbn [xlt]. rewrite (proj2 (Rltb_false (/(3-0)) 0)) by (replace (3-0) with 3 by ring; lra).
      cbn [xmul]. rewrite (proj2 (Rltb_false 0 (0-1)) ltac:(lra)), (proj2 (Rltb_true (0-1) 0) ltac:(lra)),
        (proj2 (Rltb_true 0 (2-1)) ltac:(lra)).
      unfold slab_step. cbn [xlt xmul orb].
      change (2 <? Z.of_nat 2)%Z with false. cbv iota beta. cbn [xlt].
      replace ((0 - 0) * / (3 - 0)) with 0 by ring. replace ((2 - 0) * / (3 - 0)) with (2/3) by field.
      rewrite (proj2 (Rltb_false 0 0)) by lra. rewrite (proj2 (Rltb_false (2/3) 0)) by lra.
      cbn [xnanmin xlt]. rewrite (proj2 (Rltb_false (2/3) 0)) by lra.
      rewrite (proj2 (Rltb_false 0 0)) by lra. reflexivity. }
    rewrite py_get_0. cbn [bind]. change (1 - 0)%nat with 1%nat.
    cbn [firstn skipn clip_segments hd last]. unfold clip_run, vsub, cols. cbn [hd last map2].
    rewrite E. reflexivity.
  - split; [lra|]. split.
    + intros i Hi. destruct i as [|[|]]; cbn; try lra; lia.
    + intros s Hs K. specialize (K 0%nat ltac:(lia)). cbn in K. lra.
Qed.
