(** Proofs about the pieces of polylines (LinesModel.v) *)
From Coq Require Import Lia Lra.
From Verif Require Import Base BaseLemmas HelpersModel HelpersSpec RayModel RayProofs SplitProofs BoxProofs ClipProofs P_Clip LineModel LineSpec LineProofs P_Line LinesModel.
Open Scope R_scope.

(** a and b follow each other in l *)
Definition adj {A} (l : list A) (a b : A) : Prop := exists l1 l2, l = l1 ++ a :: b :: l2.
Lemma adj_in {A} (l : list A) a b : adj l a b -> In a l /\ In b l.
Proof. intros (l1 & l2 & ->). rewrite !in_app_iff. cbn. tauto. Qed.
Lemma adj_appl {A} (p l q : list A) a b : adj l a b -> adj (p ++ l ++ q) a b.
Proof. intros (l1 & l2 & ->). exists (p ++ l1), (l2 ++ q). rewrite <- !app_assoc. reflexivity. Qed.
Lemma adj_cons {A} (x : A) l a b : adj l a b -> adj (x :: l) a b.
Proof. intros (l1 & l2 & ->). exists (x :: l1), l2. reflexivity. Qed.
Lemma adj_head {A} (x y : A) l : adj (x :: y :: l) x y.
Proof. exists [], l. reflexivity. Qed.
Lemma adj_map {A B} (f : A -> B) l a b : adj l a b -> adj (map f l) (f a) (f b).
Proof. intros (l1 & l2 & ->). exists (map f l1), (map f l2). rewrite map_app. reflexivity. Qed.
Lemma adj_unmap {A B} (f : A -> B) l a b : adj (map f l) a b -> exists x y, adj l x y /\ f x = a /\ f y = b.
Proof.
  intros (l1 & l2 & E). apply map_eq_app in E as (k1 & k2 & -> & <- & E). destruct k2 as [|x [|y k2]]; try discriminate. cbn in E. injection E as <- <- _. exists x, y. split; [exists k1, k2; reflexivity|split; reflexivity].
Qed.
Lemma adj_app {A} (l1 l2 : list A) a b d : adj (l1 ++ l2) a b -> adj l1 a b \/ adj l2 a b \/ (l1 <> [] /\ l2 <> [] /\ a = last l1 d /\ b = hd d l2).
Proof.
  induction l1 as [|x l1 IH]; [auto|]. intros (p & q & E). destruct p as [|y p].
  - cbn in E. injection E as -> E. destruct l1 as [|z l1].
    + cbn in E. right. right. subst. split; [discriminate|]. split; [discriminate|]. split; reflexivity.
    + cbn in E. injection E as -> _. left. apply adj_head.
  - cbn in E. injection E as -> E. destruct IH as [H|[H|(H1 & H2 & H3 & H4)]].
    + exists p, q. exact E.
    + left. apply adj_cons. exact H.
    + right. left. exact H.
    + right. right. split; [discriminate|]. split; [exact H2|]. split; [|exact H4]. destruct l1; [congruence|exact H3].
Qed.
Lemma adj_nth {A} (l : list A) k d : (S k < length l)%nat -> adj l (nth k l d) (nth (S k) l d).
Proof.
  revert k. induction l as [|x l IH]; intros k H; [cbn in H; lia|]. destruct k as [|k].
  - destruct l as [|y l]; [cbn in H; lia|]. apply adj_head.
  - apply adj_cons. cbn [nth]. apply IH. cbn in H. lia.
Qed.
Lemma adj_index {A} (l : list A) a b d : adj l a b -> exists k, (S k < length l)%nat /\ nth k l d = a /\ nth (S k) l d = b.
Proof.
  intros (l1 & l2 & ->). exists (length l1). rewrite app_length. cbn [length]. split; [lia|]. rewrite !app_nth2 by lia. rewrite Nat.sub_diag. replace (S (length l1) - length l1)%nat with 1%nat by lia. split; reflexivity.
Qed.

(** ** The parts in front: splitting a list at its None *)
Section Split.
Context {A : Type}.
Implicit Type l : list (option A).
Lemma somes_app l l' : somes (l ++ l') = somes l ++ somes l'.
Proof. induction l as [|[x|] l IH]; cbn; [reflexivity|f_equal; exact IH|exact IH]. Qed.
Lemma somes_in l x : In x (somes l) <-> In (Some x) l.
Proof. induction l as [|[y|] l IH]; cbn; [tauto|rewrite IH; split; intros [E|I]; auto; left; congruence|rewrite IH; split; [auto|intros [E|I]; [discriminate|exact I]]]. Qed.
Lemma somes_all l : (forall x, In x l -> isnone x = false) -> map Some (somes l) = l.
Proof. induction l as [|[x|] l IH]; intros H; [reflexivity|cbn; f_equal; apply IH; intros; apply H; right; assumption|]. specialize (H None (or_introl eq_refl)). discriminate. Qed.
Lemma somes_none l : (forall x, In x l -> isnone x = true) -> somes l = [].
Proof. induction l as [|[x|] l IH]; intros H; [reflexivity|specialize (H (Some x) (or_introl eq_refl)); discriminate|]. cbn. apply IH. intros; apply H; right; assumption. Qed.
Lemma split_none l : l <> [] -> exists runs, boolean_split l (map isnone l) false IncFalse = Ok runs /\
  concat (map somes runs) = somes l /\ (forall r, In r runs -> somes r <> [] /\ map Some (somes r) = r) /\
  (forall r a b, In r runs -> adj (somes r) a b -> adj l (Some a) (Some b)) /\
  (forall a b, adj l (Some a) (Some b) -> exists r, In r runs /\ adj (somes r) a b).
Proof.
  intros N. destruct (boolean_split_spec l (map isnone l)) as (runs & C & M & Ne & Al & Sp & _); [rewrite map_length; reflexivity|destruct l; [congruence|discriminate]|].
  exists (select IncFalse runs). split; [apply Sp|]. clear Sp N. cbn [select].
  assert (V : forall r, In r runs -> map isnone (snd r) = repeat (fst r) (length (snd r))).
  { rewrite <- C in M. clear -M. induction runs as [|r runs IH]; [intros r []|]. cbn in M. rewrite map_app in M. symmetry in M.
    assert (L : length (map isnone (snd r)) = length (repeat (fst r) (length (snd r)))) by (rewrite map_length, repeat_length; reflexivity).
    assert (E : map isnone (snd r) = repeat (fst r) (length (snd r)) /\ map isnone (concat (map snd runs)) = concat (map (fun r => repeat (fst r) (length (snd r))) runs)).
    { revert M L. generalize (map isnone (snd r)). generalize (repeat (fst r) (length (snd r))). intros a b. revert a. induction b as [|x b IHb]; intros [|y a] M L; try discriminate; [split; [reflexivity|exact M]|]. cbn in M. injection M as -> M. cbn in L. injection L as L. destruct (IHb a M L) as [E1 E2]. split; [congruence|exact E2]. }
    destruct E as [E1 E2]. intros q [<-|I]; [exact E1|]. apply IH; [symmetry; exact E2|exact I]. }
  assert (W : forall r x, In r runs -> In x (snd r) -> isnone x = fst r).
  { intros r x I J. apply (in_map isnone) in J. rewrite (V r I) in J. exact (repeat_spec _ _ _ J). }
  assert (P : forall r, In r runs -> fst r = false -> map Some (somes (snd r)) = snd r) by (intros r I F; apply somes_all; intros x J; rewrite (W r x I J); exact F).
  assert (F : forall r, In r (map snd (filter (fun r => negb (fst r)) runs)) <-> In (false, r) runs).
  { intros r. rewrite in_map_iff. split; [intros ([b q] & <- & I); apply filter_In in I as [I B]; cbn in *; destruct b; [discriminate|exact I]|intros I; exists (false, r); split; [reflexivity|]; apply filter_In; split; [exact I|reflexivity]]. }
  split.
  { rewrite <- C. clear -W. induction runs as [|[b r] runs IH]; [reflexivity|]. cbn [map concat snd filter fst]. rewrite somes_app. destruct b; cbn [negb].
    - rewrite (somes_none r); [cbn [app]; apply IH; intros q x I J; apply W; [right; exact I|exact J]|]. intros x I. exact (W (true, r) x (or_introl eq_refl) I).
    - cbn [map concat snd]. f_equal. apply IH; intros q x I J; apply W; [right; exact I|exact J]. }
  split; [intros r I; apply F in I; pose proof (P _ I eq_refl) as Q; cbn [snd] in Q; split; [intros E; rewrite E in Q; apply (Ne _ I); cbn in *; symmetry; exact Q|exact Q]|]. split.
  - intros r a b I Ad. apply F in I. pose proof (P _ I eq_refl) as Q. cbn [snd] in Q. apply in_split in I as (r1 & r2 & ->). rewrite <- C, map_app, concat_app. cbn [map concat snd]. apply adj_appl. rewrite <- Q. apply (adj_map Some). exact Ad.
  - intros a b Ad. rewrite <- C in Ad. clear C M V. induction runs as [|r runs IH]; [destruct Ad as ([|] & ? & E); discriminate|]. cbn [map concat] in Ad. destruct (adj_app _ _ _ _ None Ad) as [H|[H|(H1 & H2 & H3 & H4)]].
    + destruct (adj_in _ _ _ H) as [Ia _]. pose proof (W r _ (or_introl eq_refl) Ia) as Fr. cbn in Fr. exists (snd r). split; [apply F; left; rewrite Fr; destruct r; reflexivity|]. rewrite <- (P r (or_introl eq_refl) (eq_sym Fr)) in H. apply adj_unmap in H as (x & y & H & E1 & E2). injection E1 as <-. injection E2 as <-. exact H.
    + destruct IH as (q & I & Q).
      * intros q I. apply Ne. right. exact I.
      * intros i q s E1 E2. exact (Al (S i) q s E1 E2).
      * intros q x I J. apply W; [right; exact I|exact J].
      * intros q I. apply P. right. exact I.
      * intros q. rewrite in_map_iff. split; [intros ([b' q'] & <- & I); apply filter_In in I as [I B]; cbn in *; destruct b'; [discriminate|exact I]|intros I; exists (false, q); split; [reflexivity|]; apply filter_In; split; [exact I|reflexivity]].
      * exact H.
      * exists q. split; [|exact Q]. apply F. right. apply in_map_iff in I as ([b' q'] & <- & I). apply filter_In in I as [I B]. cbn in *. destruct b'; [discriminate|exact I].
    + exfalso. destruct runs as [|s runs]; [contradiction|]. pose proof (Ne s (or_intror (or_introl eq_refl))) as Ns. specialize (Al 0%nat r s eq_refl eq_refl).
      assert (Fr : false = fst r). { apply (W r (Some a)); [left; reflexivity|]. rewrite H3. apply P_Line.last_In. exact H1. }
      assert (Fs : false = fst s). { apply (W s (Some b)); [right; left; reflexivity|]. rewrite H4. cbn [map concat]. destruct (snd s); [congruence|]. left. reflexivity. }
      rewrite <- Fr, <- Fs in Al. discriminate.
Qed.
End Split.

(** ** The clipped pieces *)
(** p is on the segment from a to b *)
Definition between (a b p : list R) : Prop := exists s, 0 <= s <= 1 /\ p = along a (vsub b a) s.
Lemma between_l a b : length a = length b -> between a b a.
Proof.
  intros L. exists 0. split; [lra|]. revert b L. unfold along, vsub. induction a as [|x a IH]; intros [|y b] L; try discriminate; [reflexivity|]. cbn. f_equal; [ring|]. apply IH. cbn in L. lia.
Qed.
Lemma between_r a b : length a = length b -> between a b b.
Proof.
  intros L. exists 1. split; [lra|]. revert b L. unfold along, vsub. induction a as [|x a IH]; intros [|y b] L; try discriminate; [reflexivity|]. cbn. f_equal; [ring|]. apply IH. cbn in L. lia.
Qed.
(** what is clear of a piece of a line in a box *)
Record piece (lo hi : list R) (line p : list (list R)) : Prop := {
  pc_ne : p <> [];
  pc_dim : matrix 2 p;
  pc_box : forall x, In x p -> in_closed_box 2 lo hi x;
  pc_seg : forall x y, adj p x y -> exists a b, adj line a b /\ between a b x /\ between a b y;
  pc_one : forall x, p = [x] -> In x line
}.
Definition from (prev : option (list R)) (l : list (list R)) := match prev with Some o => o :: l | None => l end.
Lemma clipped_pieces lo hi prev runs out :
  clipped (entry_inserted 2 lo hi) (exit_inserted 2 lo hi) prev runs out -> (forall r, In r runs -> snd r <> []) -> matrix 2 (from prev (concat (map snd runs))) ->
  (forall r p, In r runs -> In p (snd r) -> (fst r = true <-> in_closed_box 2 lo hi p)) ->
  (forall i r s, nth_error runs i = Some r -> nth_error runs (S i) = Some s -> fst r = negb (fst s)) ->
  let line := from prev (concat (map snd runs)) in
  (forall p, In p out -> piece lo hi line p) /\
  (forall a b, adj (concat (map snd runs)) a b -> in_closed_box 2 lo hi a -> in_closed_box 2 lo hi b -> exists p, In p out /\ adj p a b) /\
  (forall a, In a (concat (map snd runs)) -> in_closed_box 2 lo hi a -> exists p, In p out /\ In a p).
Proof.
  intros C. induction C as [prev|prev s rest out C IH|prev s rest out en ex E X C IH]; intros Ne M V Al line.
  - split; [intros p []|]. split; [intros a b ([|] & ? & E); discriminate|intros a []].
  - assert (Ns : s <> []) by exact (Ne (false, s) (or_introl eq_refl)).
    assert (Hs : exists s', s = s' ++ [last s []]) by (exists (removelast s); apply app_removelast_last; exact Ns). destruct Hs as (s' & Hs).
    assert (Sub : exists pre, line = pre ++ last s [] :: concat (map snd rest)).
    { unfold line. cbn [map concat snd]. assert (Q : s ++ concat (map snd rest) = s' ++ last s [] :: concat (map snd rest)) by (rewrite Hs at 1; rewrite <- app_assoc; reflexivity). rewrite Q. destruct prev as [o|]; [exists (o :: s')|exists s']; reflexivity. }
    destruct Sub as (pre & Sub).
    destruct IH as (I1 & I2 & I3).
    { intros r I. apply Ne. right. exact I. }
    { intros r I. apply M. fold line. rewrite Sub. apply in_app_iff. right. exact I. }
    { intros r p I. apply V. right. exact I. }
    { intros i r q E1 E2. exact (Al (S i) r q E1 E2). }
    cbn [from] in *.
    split.
    { intros p I. destruct (I1 p I) as [p1 p2 p3 p4 p5]. constructor; auto.
      - intros x y Ad. destruct (p4 x y Ad) as (a & b & Ad' & B). exists a, b. split; [|exact B]. rewrite Sub. rewrite <- (app_nil_r (last s [] :: _)). apply adj_appl. exact Ad'.
      - intros x Ex. rewrite Sub. apply in_app_iff. right. apply p5. exact Ex. }
    assert (Out : forall p, In p s -> ~ in_closed_box 2 lo hi p) by (intros p I B; apply (V (false, s) p (or_introl eq_refl) I) in B; discriminate).
    split.
    + intros a b Ad Ba Bb. cbn [map concat snd] in Ad. destruct (adj_app _ _ _ _ [] Ad) as [H|[H|(H1 & H2 & H3 & H4)]].
      * destruct (adj_in _ _ _ H) as [Ia _]. exfalso. exact (Out a Ia Ba).
      * apply I2; assumption.
      * exfalso. apply (Out a); [rewrite H3; apply P_Line.last_In; exact H1|exact Ba].
    + intros a I B. cbn [map concat snd] in I. apply in_app_iff in I as [I|I]; [exfalso; exact (Out a I B)|]. apply I3; assumption.
  - assert (Ns : s <> []) by exact (Ne (true, s) (or_introl eq_refl)).
    assert (Hs : exists s', s = s' ++ [last s []]) by (exists (removelast s); apply app_removelast_last; exact Ns). destruct Hs as (s' & Hs).
    assert (Hh : exists t, s = hd [] s :: t) by (destruct s as [|x t]; [contradiction|exists t; reflexivity]). destruct Hh as (t & Hh).
    assert (Sub : exists pre, line = pre ++ last s [] :: concat (map snd rest)).
    { unfold line. cbn [map concat snd]. assert (Q : s ++ concat (map snd rest) = s' ++ last s [] :: concat (map snd rest)) by (rewrite Hs at 1; rewrite <- app_assoc; reflexivity). rewrite Q. destruct prev as [o|]; [exists (o :: s')|exists s']; reflexivity. }
    destruct Sub as (pre & Sub).
    assert (AllM : matrix 2 line) by exact M.
    assert (In_s : forall x, In x s -> In x line).
    { intros x I. unfold line. cbn [map concat snd]. assert (In x (s ++ concat (map snd rest))) by (apply in_app_iff; left; exact I). destruct prev; [right|]; assumption. }
    assert (In_l : In (last s []) s) by (apply P_Line.last_In; exact Ns). assert (In_h : In (hd [] s) s) by (rewrite Hh at 2; left; reflexivity).
    assert (Box : forall x, In x s -> in_closed_box 2 lo hi x) by (intros x I; apply (V (true, s) x (or_introl eq_refl) I); reflexivity).
    destruct IH as (I1 & I2 & I3).
    { intros r I. apply Ne. right. exact I. }
    { intros r I. apply M. fold line. rewrite Sub. apply in_app_iff. right. exact I. }
    { intros r p I. apply V. right. exact I. }
    { intros i r q E1 E2. exact (Al (S i) r q E1 E2). }
    cbn [from] in *.
    (* the inserted points *)
    assert (HE : en = [] \/ exists o x, prev = Some o /\ en = [x] /\ length x = 2%nat /\ between o (hd [] s) x /\ in_closed_box 2 lo hi x /\ adj line o (hd [] s)).
    { destruct prev as [o|]; cbn [entry_inserted] in E; [|left; exact E]. destruct E as (a & A & Bx & _ & [(A1 & _ & ->)|(_ & ->)]); [|left; reflexivity]. right. exists o, (along o (vsub (hd [] s) o) a). split; [reflexivity|]. split; [reflexivity|].
      assert (Lo : length o = 2%nat) by (apply AllM; left; reflexivity). assert (Lh : length (hd [] s) = 2%nat) by (apply AllM; apply In_s; exact In_h).
      split; [unfold along, vsub; rewrite !map2_length; lia|]. split; [exists a; split; [lra|reflexivity]|]. split; [exact Bx|]. unfold line. cbn [from map concat snd]. rewrite Hh. apply adj_head. }
    assert (HX : ex = [] \/ exists e x, ex = [x] /\ length x = 2%nat /\ between (last s []) e x /\ in_closed_box 2 lo hi x /\ adj line (last s []) e).
    { destruct rest as [|r rest']; cbn [next_vertex] in X; cbn [exit_inserted] in X; [left; exact X|]. set (e := hd [] (snd r)) in *.
      assert (Nr : snd r <> []) by (apply Ne; right; left; reflexivity). assert (Ae : adj line (last s []) e). { rewrite Sub. exists pre. cbn [map concat]. unfold e. destruct (snd r) as [|v tl']; [contradiction|]. cbn [hd app]. eexists. reflexivity. }
      destruct X as (b & B & Bx & _ & [(B1 & _ & ->)|(_ & ->)]); [|left; reflexivity]. right. exists e, (along (last s []) (vsub e (last s [])) b). split; [reflexivity|].
      assert (Le : length e = 2%nat) by (apply AllM; apply (adj_in _ _ _ Ae)). assert (Ll : length (last s []) = 2%nat) by (apply AllM; apply In_s; exact In_l).
      split; [unfold along, vsub; rewrite !map2_length; lia|]. split; [exists b; split; [lra|reflexivity]|]. split; [exact Bx|exact Ae]. }
    assert (Adj_s : forall x y, adj s x y -> adj line x y).
    { intros x y H. unfold line. cbn [map concat snd]. assert (Q : adj ([] ++ s ++ concat (map snd rest)) x y) by (apply adj_appl; exact H). cbn [app] in Q. destruct prev; [apply adj_cons|]; exact Q. }
    assert (Len : forall x y, adj line x y -> length x = length y) by (intros x y H; destruct (adj_in _ _ _ H) as [J1 J2]; rewrite (AllM x J1), (AllM y J2); reflexivity).
    split.
    { intros p [<-|I].
      - constructor.
        + intros K. apply app_eq_nil in K as [_ K]. apply app_eq_nil in K as [K _]. contradiction.
        + intros x I. rewrite !in_app_iff in I. destruct I as [I|[I|I]].
          * destruct HE as [->|(o & y & _ & -> & L & _)]; [destruct I|destruct I as [<-|[]]; exact L].
          * apply AllM, In_s, I.
          * destruct HX as [->|(e & y & -> & L & _)]; [destruct I|destruct I as [<-|[]]; exact L].
        + intros x I. rewrite !in_app_iff in I. destruct I as [I|[I|I]].
          * destruct HE as [->|(o & y & _ & -> & _ & _ & B & _)]; [destruct I|destruct I as [<-|[]]; exact B].
          * apply Box, I.
          * destruct HX as [->|(e & y & -> & _ & _ & B & _)]; [destruct I|destruct I as [<-|[]]; exact B].
        + intros x y Ad. destruct (adj_app _ _ _ _ [] Ad) as [H|[H|(H1 & H2 & H3 & H4)]].
          * exfalso. destruct HE as [->|(o & z & _ & -> & _)]; destruct H as (l1 & l2 & K); destruct l1 as [|? [|]]; discriminate.
          * destruct (adj_app _ _ _ _ [] H) as [K|[K|(K1 & K2 & K3 & K4)]].
            -- exists x, y. pose proof (Adj_s x y K) as Q. split; [exact Q|]. split; [apply between_l|apply between_r]; apply Len; exact Q.
            -- exfalso. destruct HX as [->|(o & z & -> & _)]; destruct K as (l1 & l2 & K); destruct l1 as [|? [|]]; discriminate.
            -- destruct HX as [->|(e & z & -> & _ & B & _ & Q)]; [contradiction|]. cbn [hd] in K4. subst x y. exists (last s []), e. split; [exact Q|]. split; [apply between_l; apply Len; exact Q|exact B].
          * destruct HE as [->|(o & z & _ & -> & _ & B & _ & Q)]; [contradiction|]. cbn [last] in H3. assert (y = hd [] s) by (rewrite H4; clear -Ns; destruct s; [contradiction|reflexivity]). rewrite H. clear H. subst x. exists o, (hd [] s). split; [exact Q|]. split; [exact B|apply between_r; apply Len; exact Q].
        + intros x K. apply In_s. destruct en as [|y en]; cbn [app] in K.
          * rewrite Hh in K. cbn [app] in K. injection K as K _. rewrite Hh. left. exact K.
          * injection K as _ K. apply app_eq_nil in K as [_ K]. apply app_eq_nil in K as [K _]. contradiction.
      - destruct (I1 p I) as [p1 p2 p3 p4 p5]. constructor; auto.
        + intros x y Ad. destruct (p4 x y Ad) as (a & b & Ad' & B). exists a, b. split; [|exact B]. rewrite Sub. rewrite <- (app_nil_r (last s [] :: _)). apply adj_appl. exact Ad'.
        + intros x Ex. rewrite Sub. apply in_app_iff. right. apply p5. exact Ex. }
    split.
    + intros a b Ad Ba Bb. cbn [map concat snd] in Ad. destruct (adj_app _ _ _ _ [] Ad) as [H|[H|(H1 & H2 & H3 & H4)]].
      * exists (en ++ s ++ ex). split; [left; reflexivity|]. apply adj_appl. exact H.
      * destruct (I2 a b H Ba Bb) as (p & I & Q). exists p. split; [right; exact I|exact Q].
      * exfalso. destruct rest as [|r rest']; [contradiction|]. specialize (Al 0%nat (true, s) r eq_refl eq_refl). cbn [fst] in Al. assert (Nr : snd r <> []) by (apply Ne; right; left; reflexivity).
        assert (Ib : In b (snd r)) by (rewrite H4; cbn [map concat]; destruct (snd r); [contradiction|left; reflexivity]). apply (V r b (or_intror (or_introl eq_refl)) Ib) in Bb. rewrite Bb in Al. discriminate.
    + intros a I B. cbn [map concat snd] in I. apply in_app_iff in I as [I|I].
      * exists (en ++ s ++ ex). split; [left; reflexivity|]. rewrite !in_app_iff. right. left. exact I.
      * destruct (I3 a I B) as (p & J & Q). exists p. split; [right; exact J|exact Q].
Qed.
Lemma clip_pieces lo hi line : line <> [] -> length lo = 2%nat -> length hi = 2%nat -> matrix 2 line -> exists out, clip_polyline_box false line lo hi = Ok out /\
  (forall p, In p out -> piece lo hi line p) /\
  (forall a b, adj line a b -> in_closed_box 2 lo hi a -> in_closed_box 2 lo hi b -> exists p, In p out /\ adj p a b) /\
  (forall a, In a line -> in_closed_box 2 lo hi a -> exists p, In p out /\ In a p) /\
  ((forall a, In a line -> ~ in_closed_box 2 lo hi a) -> out = []).
Proof.
  intros Ne Ll Lh M. destruct (clip_polyline_box_exact 2 false line lo hi (or_introl eq_refl) Ne Ll Lh M) as (runs & out & E & C & Nr & Al & V & Cl). exists out. split; [exact E|].
  destruct (clipped_pieces lo hi None runs out Cl Nr) as (P1 & P2 & P3); [cbn [from]; rewrite C; exact M|exact V|exact Al|]. cbn [from] in *. rewrite C in *. split; [exact P1|]. split; [exact P2|]. split; [exact P3|].
  intros Out. assert (AF : forall r, In r runs -> fst r = false). { intros r I. destruct (fst r) eqn:F; [|reflexivity]. exfalso. pose proof (Nr r I) as N. destruct (snd r) as [|x t] eqn:Q; [contradiction|]. assert (Ix : In x (snd r)) by (rewrite Q; left; reflexivity). apply (Out x); [rewrite <- C; apply in_concat; exists (snd r); split; [apply in_map; exact I|exact Ix]|]. apply (V r x I Ix). exact F. }
  clear -Cl AF. induction Cl as [|prev s rest out C IH|prev s rest out en ex E X C IH]; [reflexivity|apply IH; intros r I; apply AF; right; exact I|]. specialize (AF _ (or_introl eq_refl)). discriminate.
Qed.
