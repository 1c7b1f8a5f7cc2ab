(** Proofs about boolean_split and format_list. *)
From Verif Require Import Base BaseLemmas HelpersModel HelpersSpec.
From Coq Require Import ZifyBool.
Open Scope Z_scope.

Section Split.
Context {A : Type}.

Fixpoint group (a : list A) (mask : list bool) : list (bool * list A) :=
  match a, mask with
  | x :: a', m :: mask' =>
    match group a' mask' with
    | (m', p) :: r => if Bool.eqb m m' then (m, x :: p) :: r else (m, [x]) :: (m', p) :: r
    | [] => [(m, [x])]
    end
  | _, _ => []
  end.

Lemma mask_cuts_S i mask : mask_cuts (S i) mask = map S (mask_cuts i mask).
Proof.
  revert i; induction mask as [|a [|b r] IH]; intros i; auto.
  cbn [mask_cuts]. destruct (Bool.eqb a b); [apply IH|]. cbn [map]. f_equal. apply IH.
Qed.

Lemma np_split_shift (f : nat) (x : A) a cs :
  np_split (S f) (x :: a) (map S cs) = np_split f a cs.
Proof. revert f; induction cs; intros f; cbn; auto. f_equal. apply IHcs. Qed.

Lemma np_split_cons (x : A) a cs :
  np_split 0 (x :: a) (map S cs)
  = match np_split 0 a cs with p :: r => (x :: p) :: r | [] => [] end.
Proof.
  destruct cs as [|c r]; [reflexivity|].
  cbn [map np_split skipn]. replace (S c - 0)%nat with (S c) by lia. replace (c - 0)%nat with c by lia.
  cbn [firstn]. f_equal. apply np_split_shift.
Qed.

Lemma np_split_nonempty f (a : list A) cs : np_split f a cs <> [].
Proof. destruct cs; discriminate. Qed.

Lemma group_head x m a mask : exists p r, group (x :: a) (m :: mask) = (m, p) :: r.
Proof.
  simpl. destruct (group a mask) as [|[m' p] r]; [eauto|].
  destruct (Bool.eqb m m') eqn:E; eauto.
Qed.

Lemma split_group (a : list A) mask : length a = length mask -> mask <> [] ->
  np_split 0 a (mask_cuts 1 mask) = map snd (group a mask).
Proof.
  revert a; induction mask as [|m mask IH]; intros a Hl Hne; [congruence|].
  destruct a as [|x a]; [discriminate|]. injection Hl as Hl.
  destruct mask as [|m2 mask].
  - destruct a; [|discriminate]. reflexivity.
  - destruct a as [|x2 a]; [discriminate|].
    specialize (IH (x2 :: a) Hl ltac:(congruence)).
    destruct (group_head x2 m2 a mask) as (p & r & Hg).
    change (group (x :: x2 :: a) (m :: m2 :: mask))
      with (match group (x2 :: a) (m2 :: mask) with
            | (m', p) :: r => if Bool.eqb m m' then (m, x :: p) :: r else (m, [x]) :: (m', p) :: r
            | [] => [(m, [x])] end).
    rewrite Hg in *. cbn [map snd] in IH.
    change (mask_cuts 1 (m :: m2 :: mask))
      with (if Bool.eqb m m2 then mask_cuts 2 (m2 :: mask) else 1%nat :: mask_cuts 2 (m2 :: mask)).
    rewrite (mask_cuts_S 1).
    destruct (Bool.eqb m m2) eqn:E.
    + rewrite np_split_cons, IH. reflexivity.
    + cbn [np_split skipn firstn Nat.sub]. rewrite np_split_shift, IH. reflexivity.
Qed.

Lemma group_concat (a : list A) mask : length a = length mask ->
  concat (map snd (group a mask)) = a.
Proof.
  revert a; induction mask as [|m mask IH]; intros [|x a] Hl; try discriminate; auto.
  injection Hl as Hl. specialize (IH a Hl). simpl.
  destruct (group a mask) as [|[m' p] r]; simpl in *.
  - subst a. reflexivity.
  - destruct (Bool.eqb m m'); simpl; rewrite IH; reflexivity.
Qed.

Lemma group_mask (a : list A) mask : length a = length mask ->
  concat (map (fun r => repeat (fst r) (length (snd r))) (group a mask)) = mask.
Proof.
  revert a; induction mask as [|m mask IH]; intros [|x a] Hl; try discriminate; auto.
  injection Hl as Hl. specialize (IH a Hl). simpl.
  destruct (group a mask) as [|[m' p] r]; simpl in *.
  - subst mask. reflexivity.
  - destruct (Bool.eqb m m') eqn:E; simpl.
    + apply eqb_prop in E. subst m'. rewrite IH. reflexivity.
    + rewrite IH. reflexivity.
Qed.

Lemma group_nonempty (a : list A) mask r : In r (group a mask) -> snd r <> [].
Proof.
  revert a r; induction mask as [|m mask IH]; intros [|x a] r; simpl; try tauto.
  specialize (IH a).
  destruct (group a mask) as [|[m' p] g]; simpl in *.
  - intros [<-|[]]; simpl; congruence.
  - destruct (Bool.eqb m m'); simpl.
    + intros [<-|H]; simpl; [congruence|]. apply IH; auto.
    + intros [<-|[<-|H]]; simpl; [congruence| |]. apply (IH (m', p)); auto. apply IH; auto.
Qed.

Fixpoint alternating (l : list (bool * list A)) : Prop :=
  match l with
  | r :: ((s :: _) as t) => fst r = negb (fst s) /\ alternating t
  | _ => True
  end.

Lemma group_alternating (a : list A) mask : alternating (group a mask).
Proof.
  revert a; induction mask as [|m mask IH]; intros [|x a]; simpl; auto.
  specialize (IH a).
  destruct (group a mask) as [|[m' p] g]; simpl; auto.
  destruct (Bool.eqb m m') eqn:E.
  - apply eqb_prop in E. subst m'. destruct g; simpl in *; auto.
  - simpl. split; [|exact IH]. destruct m, m'; auto; discriminate.
Qed.

Lemma alternating_nth l : alternating l -> forall i r s,
  nth_error l i = Some r -> nth_error l (S i) = Some s -> fst r = negb (fst s).
Proof.
  induction l as [|a [|b l] IH]; intros H i r s Hr Hs.
  - destruct i; discriminate.
  - destruct i; [|destruct i]; discriminate.
  - destruct H as [H1 H2]. destruct i as [|i].
    + injection Hr as <-. injection Hs as <-. exact H1.
    + apply (IH H2 i); auto.
Qed.

Lemma alternating_evens l : alternating l ->
  match l with
  | [] => True
  | (m, _) :: _ =>
    evens (map snd l) = map snd (filter (fun r => Bool.eqb (fst r) m) l)
    /\ odds (map snd l) = map snd (filter (fun r => negb (Bool.eqb (fst r) m)) l)
  end.
Proof.
  assert (G : forall n l, (length l <= n)%nat -> alternating l ->
    match l with
    | [] => True
    | (m, _) :: _ =>
      evens (map snd l) = map snd (filter (fun r => Bool.eqb (fst r) m) l)
      /\ odds (map snd l) = map snd (filter (fun r => negb (Bool.eqb (fst r) m)) l)
    end).
  { clear l. induction n as [|n IH]; intros l Hn Ha; [destruct l; [exact I|simpl in Hn; lia]|].
    destruct l as [|[m p] [|[m2 q] l]]; [exact I| |].
    - unfold odds; simpl. rewrite eqb_reflx. simpl. auto.
    - destruct Ha as [E Ha]. simpl in E. 
      assert (Hl : (length ((m2, q) :: l) <= n)%nat) by (simpl in *; lia).
      pose proof (IH _ Hl Ha) as H2. cbn beta iota in H2. destruct H2 as [He Ho].
      assert (Hm : Bool.eqb m2 m = false) by (destruct m, m2; auto; discriminate).
      assert (Hflip : forall r : bool * list A, Bool.eqb (fst r) m = negb (Bool.eqb (fst r) m2)).
      { intros [b ?]; simpl. destruct b, m, m2; auto; discriminate. }
      split.
      + cbn [map]. cbn [filter fst]. rewrite eqb_reflx.
        rewrite (filter_ext _ _ Hflip).
        change (evens (snd (m, p) :: snd (m2, q) :: map snd l))
          with (p :: evens (map snd l)).
        cbn [map snd]. f_equal.
        unfold odds in Ho. cbn [tl map] in Ho. rewrite Ho.
        cbn [filter fst]. rewrite Hm, eqb_reflx. reflexivity.
      + cbn [map]. cbn [filter fst]. rewrite eqb_reflx.
        cbn [negb]. unfold odds. cbn [tl].
        change (evens (map snd ((m2, q) :: l)) = 
          map snd (filter (fun r => negb (Bool.eqb (fst r) m)) ((m2, q) :: l))).
        rewrite He. f_equal. apply filter_ext. intros r. rewrite Hflip.
        destruct (Bool.eqb (fst r) m2); reflexivity. }
  intros Ha. apply (G (length l)); auto.
Qed.


Lemma select_head inc (m : bool) p r :
  alternating ((m, p) :: r) ->
  match inc with
  | IncAll => map snd ((m, p) :: r)
  | IncTrue => if m then evens (map snd ((m, p) :: r)) else odds (map snd ((m, p) :: r))
  | IncFalse => if m then odds (map snd ((m, p) :: r)) else evens (map snd ((m, p) :: r))
  | IncOther => []
  end = select inc ((m, p) :: r).
Proof.
  intros Ha. pose proof (alternating_evens _ Ha) as [He Ho].
  destruct inc; auto; destruct m; rewrite ?He, ?Ho; unfold select; f_equal; apply filter_ext;
    intros [b ?]; destruct b; reflexivity.
Qed.

Lemma py_get_0 (m : bool) r : py_get (m :: r) 0 = Ok m.
Proof.
  unfold py_get, py_index. cbn [length].
  destruct (0 <? - Z.of_nat (S (length r))) eqn:E1; [lia|]. change (0 <? 0) with false. cbv iota.
  destruct (0 <? Z.of_nat (S (length r))) eqn:E3; [reflexivity|lia].
Qed.

Lemma py_get_m1 (l : list bool) d : l <> [] -> py_get l (-1) = Ok (last l d).
Proof.
  intros Hne. unfold py_get, py_index.
  assert (0 < Z.of_nat (length l)) by (destruct l; [congruence|simpl; lia]).
  destruct (-1 <? - Z.of_nat (length l)) eqn:E1; [lia|]. change (-1 <? 0) with true. cbn [bind].
  destruct (exists_last Hne) as (l' & x & ->).
  rewrite app_length in *. cbn [length] in *.
  rewrite nth_error_app2 by lia.
  replace (Z.to_nat (Z.of_nat (length l' + 1) + -1) - length l')%nat with 0%nat by lia.
  rewrite last_last. reflexivity.
Qed.

Lemma boolean_split_flat a mask inc : length a = length mask -> mask <> [] ->
  boolean_split a mask false inc = Ok (select inc (group a mask)).
Proof.
  intros Hl Hne. unfold boolean_split. rewrite split_group by auto. cbn [andb bind].
  destruct mask as [|m mask]; [congruence|]. destruct a as [|x a]; [discriminate|].
  destruct (group_head x m a mask) as (p & r & Hg).
  pose proof (group_alternating (x :: a) (m :: mask)) as Ha.
  rewrite Hg in *. rewrite <- (select_head inc m p r Ha).
  rewrite py_get_0. cbn [bind]. destruct inc; auto; destruct m; auto.
Qed.

Lemma last_mask_of_groups (runs : list (bool * list A)) mask :
  concat (map (fun r => repeat (fst r) (length (snd r))) runs) = mask ->
  (forall r, In r runs -> snd r <> []) -> runs <> [] ->
  last mask false = fst (last runs (false, [])).
Proof.
  intros Hc Hne Hr. destruct (exists_last Hr) as (l & [m p] & ->).
  rewrite last_last. rewrite map_app, concat_app in Hc. cbn in Hc. rewrite app_nil_r in Hc.
  assert (Hp : p <> []) by (apply (Hne (m, p)); apply in_or_app; right; left; auto).
  destruct (exists_last Hp) as (p' & y & ->). rewrite app_length in Hc. cbn in Hc.
  rewrite repeat_app in Hc. cbn in Hc. rewrite app_assoc in Hc. subst mask.
  rewrite last_last. reflexivity.
Qed.

Lemma alternating_app l m : alternating (l ++ m) -> alternating l.
Proof.
  induction l as [|a [|b l] IH]; simpl; auto.
  intros [H1 H2]. split; [exact H1|]. apply IH. exact H2.
Qed.

Lemma boolean_split_circ_merge a mask m p mid q inc : length a = length mask -> mask <> [] ->
  group a mask = (m, p) :: mid ++ [(m, q)] ->
  boolean_split a mask true inc = Ok (select inc ((m, q ++ p) :: mid)).
Proof.
  intros Hl Hne Hg. unfold boolean_split. rewrite split_group by auto. rewrite Hg.
  destruct mask as [|m0 mask]; [congruence|]. destruct a as [|x a]; [discriminate|].
  destruct (group_head x m0 a mask) as (p' & r & Hg').
  rewrite Hg in Hg'. injection Hg' as E1 _ _. subst m0.
  rewrite map_length. cbn [length]. rewrite app_length. cbn [length].
  destruct (1 <? Z.of_nat (S (length mid + 1))) eqn:E; [|lia]. cbn [andb].
  rewrite py_get_0. rewrite (py_get_m1 _ false) by congruence. cbn [bind].
  rewrite (last_mask_of_groups _ _ (group_mask (x :: a) (m :: mask) Hl)
    (fun r => group_nonempty (x :: a) (m :: mask) r)) by (rewrite Hg; discriminate).
  rewrite Hg. rewrite app_comm_cons, last_last. cbn [fst]. rewrite eqb_reflx. cbn [bind].
  cbn [app map]. rewrite map_app. cbn [map hd tl snd].
  change (p :: map snd mid ++ [q]) with ((p :: map snd mid) ++ [q]). rewrite last_last.
  change ((q ++ p) :: map snd mid ++ [q]) with (((q ++ p) :: map snd mid) ++ [q]).
  rewrite removelast_last.
  assert (Ha : alternating ((m, q ++ p) :: mid)).
  { pose proof (group_alternating (x :: a) (m :: mask)) as Ha. rewrite Hg in Ha.
    rewrite app_comm_cons in Ha. apply alternating_app in Ha. destruct mid; auto. }
  rewrite <- (select_head inc m (q ++ p) mid Ha). cbn [map snd].
  destruct inc; auto; destruct m; auto.
Qed.

Lemma boolean_split_circ_same a mask inc : length a = length mask -> mask <> [] ->
  (forall m p mid q, group a mask <> (m, p) :: mid ++ [(m, q)]) ->
  boolean_split a mask true inc = boolean_split a mask false inc.
Proof.
  intros Hl Hne Hno. unfold boolean_split. rewrite split_group by auto. cbn [andb].
  destruct (1 <? Z.of_nat (length (map snd (group a mask)))) eqn:E; [|reflexivity].
  destruct mask as [|m mask]; [congruence|]. destruct a as [|x a]; [discriminate|].
  rewrite py_get_0. rewrite (py_get_m1 _ false) by congruence. cbn [bind].
  destruct (group_head x m a mask) as (p & r & Hg).
  rewrite (last_mask_of_groups _ _ (group_mask (x :: a) (m :: mask) Hl)
    (fun r => group_nonempty (x :: a) (m :: mask) r)) by (rewrite Hg; discriminate).
  rewrite Hg in *. rewrite map_length in E. cbn [length] in E.
  assert (Hr : r <> []) by (destruct r; [simpl in E; lia|congruence]).
  destruct (exists_last Hr) as (mid & [m2 q] & ->).
  rewrite app_comm_cons, last_last. cbn [fst].
  destruct (Bool.eqb m m2) eqn:Em; [|reflexivity].
  apply eqb_prop in Em. subst m2. exfalso. exact (Hno m p mid q eq_refl).
Qed.

Lemma boolean_split_spec (a : list A) (mask : list bool) :
  length a = length mask -> mask <> [] ->
  exists runs : list (bool * list A),
    concat (map snd runs) = a
    /\ concat (map (fun r => repeat (fst r) (length (snd r))) runs) = mask
    /\ (forall r, In r runs -> snd r <> [])
    /\ (forall i r s, nth_error runs i = Some r -> nth_error runs (S i) = Some s ->
          fst r = negb (fst s))
    /\ (forall inc, boolean_split a mask false inc = Ok (select inc runs))
    /\ (forall m p mid q, runs = (m, p) :: mid ++ [(m, q)] ->
          forall inc, boolean_split a mask true inc = Ok (select inc ((m, q ++ p) :: mid)))
    /\ ((forall m p mid q, runs <> (m, p) :: mid ++ [(m, q)]) ->
          forall inc, boolean_split a mask true inc = Ok (select inc runs)).
Proof.
  intros Hl Hne. exists (group a mask).
  split; [apply group_concat; auto|]. split; [apply group_mask; auto|].
  split; [apply group_nonempty|]. split; [apply alternating_nth, group_alternating|].
  split; [intros; apply boolean_split_flat; auto|].
  split; [intros; apply boolean_split_circ_merge; auto|].
  intros Hno inc. rewrite boolean_split_circ_same by auto. apply boolean_split_flat; auto.
Qed.
End Split.

(** ** format_list *)
Section FL.
Context {A : Type}.

Lemma repeat_list_length n (l : list A) : length (repeat_list n l) = (n * length l)%nat.
Proof. induction n; simpl; auto. rewrite app_length, IHn. lia. Qed.

Lemma repeat_list_nth n (l : list A) i : (0 < length l)%nat -> (i < n * length l)%nat ->
  nth_error (repeat_list n l) i = nth_error l (i mod length l)%nat.
Proof.
  intros Hl. revert i; induction n as [|n IH]; intros i Hi; [simpl in Hi; lia|].
  cbn [repeat_list]. destruct (Nat.lt_ge_cases i (length l)) as [H|H].
  - rewrite nth_error_app1 by auto. rewrite Nat.mod_small; auto.
  - rewrite nth_error_app2 by auto. rewrite IH by (simpl in Hi; lia).
    f_equal. replace i with (i - length l + 1 * length l)%nat at 2 by lia.
    rewrite Nat.mod_add by lia. reflexivity.
Qed.


Lemma format_list_spec (x : fl_arg A) (len : option Z) (d : option A) :
  x <> FNone ->
  let l := arg_items x in
  (len = None \/ len = Some 0 -> format_list x len d = Ok (Some l, x)) /\
  forall n, len = Some n -> 0 < n ->
    (* too long: truncated *)
    (n < Z.of_nat (length l) -> format_list x len d = Ok (Some (firstn (Z.to_nat n) l), x)) /\
    (* exact *)
    (Z.of_nat (length l) = n -> format_list x len d = Ok (Some l, x)) /\
    (* padded *)
    (Z.of_nat (length l) < n -> forall dv, d = Some dv ->
       exists y, format_list x len d = Ok (Some (l ++ repeat dv (Z.to_nat n - length l)), y)) /\
    (* repeated *)
    (Z.of_nat (length l) < n -> d = None -> l <> [] ->
       (n mod Z.of_nat (length l) <> 0 -> format_list x len d = Err ValueError) /\
       (n mod Z.of_nat (length l) = 0 ->
          exists r y, format_list x len d = Ok (Some r, y) /\ Z.of_nat (length r) = n /\
             forall i, (i < length r)%nat -> nth_error r i = nth_error l (i mod length l)%nat)) /\
    (* nothing to repeat *)
    (d = None -> l = [] -> format_list x len d = Ok (Some [], x)).
Proof.
  intros Hx l.
  split.
  - intros [-> | ->]; destruct x; try congruence; reflexivity.
  - intros n -> Hn.
    assert (E0 : (n =? 0) = false) by lia.
    assert (En : (n <? 0) = false) by lia.
    assert (Hf : exists back, format_list x (Some n) d =
      let nx := Z.of_nat (length l) in
      if n <? nx then Ok (Some (py_upto l n), x)
      else if nx <? n then
        match d with
        | Some d => let l' := l ++ repeat d (Z.to_nat (n - nx)) in Ok (Some l', back l')
        | None =>
          if 0 <? nx then
            if negb (n mod nx =? 0) then Err ValueError
            else let l' := repeat_list (Z.to_nat (n / nx)) l in Ok (Some l', back l')
          else Ok (Some l, x)
        end
      else Ok (Some l, x)).
    { exists (fun l' => match x with FList _ => FList l' | _ => x end).
      subst l. unfold format_list. rewrite E0. destruct x; [congruence|reflexivity..]. }
    destruct Hf as [back Hf]. cbv zeta in Hf. rewrite Hf. unfold py_upto. rewrite En.
    clearbody l. clear Hf.
    destruct (n <? Z.of_nat (length l)) eqn:E1;
    destruct (Z.of_nat (length l) <? n) eqn:E2; try lia.
    + repeat split; intros; subst; try lia; try (simpl in *; lia); reflexivity.
    + split; [lia|]. split; [lia|]. split; [|split].
      * intros _ dv ->. eexists. do 4 f_equal. f_equal. lia.
      * intros _ -> Hl.
        destruct (0 <? Z.of_nat (length l)) eqn:E3; [|destruct l; [congruence|simpl in *; lia]].
        destruct (n mod Z.of_nat (length l) =? 0) eqn:E4; cbn [negb].
        -- split; [lia|]. intros Hm. do 2 eexists. split; [reflexivity|].
           rewrite repeat_list_length. split.
           ++ pose proof (Z.div_mod n (Z.of_nat (length l)) ltac:(lia)).
              pose proof (Z.div_pos n (Z.of_nat (length l)) ltac:(lia) ltac:(lia)). nia.
           ++ intros i Hi. apply repeat_list_nth; lia.
        -- split; [reflexivity|lia].
      * intros -> ->. reflexivity.
    + repeat split; intros; subst; try lia; try (simpl in *; lia); reflexivity.
Qed.

End FL.
