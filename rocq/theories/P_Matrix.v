(** Property C124: grids and rasters made from matrices of coordinates. *)
From Coq Require Import Lia Lra.
From Verif Require Import Base BaseLemmas HelpersModel GridModel MatrixModel P_Share2.
Open Scope R_scope.

(** all shifts together *)
Definition total (h : list mop) : R := fold_right (fun p s => match p with MShift d => d + s | _ => s end) 0 h.
Definition no_limits (h : list mop) : Prop := Forall (fun p => forall l, p <> MLim l) h.
(** coordinates, and limits, moved by d *)
Definition by_ (d : R) (v : list R) : list R := map (fun x => x + d) v.

Lemma by_by a b v : by_ a (by_ b v) = by_ (b + a) v.
Proof. unfold by_. rewrite map_map. apply map_ext. intros x. ring. Qed.
Lemma by_0 v : by_ 0 v = v.
Proof. unfold by_. rewrite <- (map_id v) at 2. apply map_ext. intros x. ring. Qed.
Lemma moved_moved a b l : moved a (moved b l) = moved (b + a) l.
Proof. unfold moved. cbn. f_equal; ring. Qed.
Lemma moved_0 l : moved 0 l = l. Proof. destruct l. unfold moved. cbn. f_equal; ring. Qed.
Lemma map_by_by a b vs : map (by_ a) (map (by_ b) vs) = map (by_ (b + a)) vs.
Proof. rewrite map_map. apply map_ext. intros v. apply by_by. Qed.
Lemma map_by_0 vs : map (by_ 0) vs = vs.
Proof. rewrite <- (map_id vs) at 2. apply map_ext. apply by_0. Qed.

(** A matrix with lines of three coordinates or more: x is its first line, X the matrix, and the limits are half a cell beyond the ends. *)
Theorem matrix_made first rest u v w tl : first = u :: v :: w :: tl -> u - (v - u) / 2 <> last first 0 + (v - u) / 2 ->
  exists a, make (first :: rest) = Ok a /\ limits_of a = (u - (v - u) / 2, last first 0 + (v - u) / 2) /\ x_of a = Ok first /\ X_of a = Ok (first :: rest).
Proof.
  intros -> N. unfold make. cbn [length Nat.ltb Nat.leb]. unfold parse_limits. apply Reqb_false in N. rewrite N. cbn [bind]. eexists. split; [reflexivity|]. repeat split.
Qed.
Print Assumptions matrix_made.
Lemma mrun_three h : forall n c l f r, no_limits h -> mrun h (mkmaxis n c (LOwn l) XFirst (Some (f :: r))) = mkmaxis n c (LOwn (moved (total h) l)) XFirst (Some (by_ (2 * total h) f :: map (by_ (total h)) r)).
Proof.
  induction h as [|p h IH]; intros n c l f r F; [cbn; rewrite Rmult_0_r, moved_0, by_0, map_by_0; reflexivity|]. inversion F; subst. unfold mrun in *. cbn [fold_left]. destruct p as [d|l'| |].
  - cbn [mstep]. change (mshift d (mkmaxis n c (LOwn l) XFirst (Some (f :: r)))) with (mkmaxis n c (LOwn (moved d l)) XFirst (Some (by_ d (by_ d f) :: map (by_ d) r))). rewrite IH by assumption. change (total (MShift d :: h)) with (d + total h).
    assert (Q : by_ (2 * total h) (by_ d (by_ d f)) = by_ (2 * (d + total h)) f) by (rewrite !by_by; f_equal; ring). now rewrite moved_moved, Q, map_by_by.
  - now contradiction (H1 l').
  - cbn [mstep readx m_x fst]. now apply IH.
  - cbn [mstep readX m_X fst]. now apply IH.
Qed.
(** Shifting moves the limits, and all lines of X but the first, once; x and the first line of X, which are the same array, twice. *)
Theorem matrix_shift_refuted lines a first rest h : make lines = Ok a -> lines = first :: rest -> (2 < length first)%nat -> no_limits h ->
  limits_of (mrun h a) = moved (total h) (limits_of a) /\ x_of (mrun h a) = Ok (by_ (2 * total h) first) /\ X_of (mrun h a) = Ok (by_ (2 * total h) first :: map (by_ (total h)) rest).
Proof.
  intros M -> L F. unfold make in M. destruct first as [|u [|v [|w tl]]]; cbn in L; try lia. cbn [length Nat.ltb Nat.leb] in M. destruct (parse_limits _) as [l|]; [|discriminate M]. cbn [bind] in M. injection M as <-. rewrite mrun_three by exact F. cbn [limits_of m_lim]. repeat split.
Qed.
Print Assumptions matrix_shift_refuted.
Lemma mrun_two h : forall n c x f r, no_limits h -> x <> XFirst -> exists x', x' <> XFirst /\ mrun h (mkmaxis n c LFirst x (Some (f :: r))) = mkmaxis n c LFirst x' (Some (by_ (2 * total h) f :: map (by_ (total h)) r)).
Proof.
  induction h as [|p h IH]; intros n c x f r F X; [exists x; split; [exact X|]; cbn; rewrite Rmult_0_r, by_0, map_by_0; reflexivity|]. inversion F; subst. unfold mrun in *. cbn [fold_left]. destruct p as [d|l'| |].
  - cbn [mstep]. assert (E : exists x', x' <> XFirst /\ mshift d (mkmaxis n c LFirst x (Some (f :: r))) = mkmaxis n c LFirst x' (Some (by_ d (by_ d f) :: map (by_ d) r))) by (destruct x as [|w|]; [exists XNone|exists (XOwn (by_ d w))|contradiction]; split; try discriminate; reflexivity).
    destruct E as (x' & X' & ->). destruct (IH n c x' (by_ d (by_ d f)) (map (by_ d) r) H2 X') as (x2 & X2 & ->). exists x2. split; [exact X2|]. change (total (MShift d :: h)) with (d + total h). f_equal. f_equal. f_equal; [rewrite !by_by; f_equal; ring|now rewrite map_by_by].
  - now contradiction (H1 l').
  - cbn [mstep]. assert (E : exists x', x' <> XFirst /\ fst (readx (mkmaxis n c LFirst x (Some (f :: r)))) = mkmaxis n c LFirst x' (Some (f :: r))) by (unfold readx; cbn [m_x]; destruct x as [|w|]; [|exists (XOwn w); split; [discriminate|reflexivity]|contradiction]; destruct (centers _) as [w|]; [exists (XOwn w)|exists XNone]; split; try discriminate; reflexivity).
    destruct E as (x' & X' & ->). apply IH; assumption.
  - cbn [mstep readX m_X fst]. apply IH; assumption.
Qed.
(** A matrix with lines of two coordinates: they are taken for the limits (not half a cell beyond), so x, when read, is not the first line of X; and limits are moved twice. *)
Theorem matrix_two_refuted u v rest h : u <> v -> no_limits h -> exists a, make ([u; v] :: rest) = Ok a /\
  limits_of a = (u, v) /\ x_of a = Ok [u + (v - u) / 4; v - (v - u) / 4] /\ X_of a = Ok ([u; v] :: rest) /\
  limits_of (mrun h a) = moved (2 * total h) (u, v) /\ X_of (mrun h a) = Ok (by_ (2 * total h) [u; v] :: map (by_ (total h)) rest).
Proof.
  intros N F. unfold make. cbn [length Nat.ltb Nat.leb Nat.eqb]. unfold parse_limits. pose proof N as N'. apply Reqb_false in N'. rewrite N'. cbn [bind]. eexists. split; [reflexivity|]. split; [reflexivity|]. split; [|split; [reflexivity|]].
  - unfold x_of, readx. cbn [m_x limits_of m_lim m_X m_n]. unfold centers, amin, amax, dcell. cbn [fst snd]. unfold linspace. change (Z.of_nat 2) with 2%Z. cbn [Z.ltb Z.compare bind].
    change (Zrange 2) with [0%Z; 1%Z]. change (2 - 1)%Z with 1%Z. cbn [map Z.eqb Pos.eqb].
    destruct (Rltb_spec ((v - u) / 2) 0) as [L|L].
    + rewrite Rmin_right, Rmax_left by lra. rewrite Rabs_left by exact L. cbn [rev app snd]. do 2 f_equal; [lra|f_equal; lra].
    + rewrite Rmin_left, Rmax_right by lra. rewrite Rabs_right by lra. cbn [snd]. do 2 f_equal; [lra|f_equal; lra].
  - destruct (mrun_two h (Z.of_nat 2) (S (length rest)) XNone [u; v] rest F) as (x' & X' & E); [discriminate|]. cbn [length] in *. rewrite E. split; reflexivity.
Qed.
Print Assumptions matrix_two_refuted.

(** ** After limits are assigned *)
Definition good (n : Z) (c : nat) (a : maxis) : Prop := m_n a = n /\ m_count a = c /\ exists l, m_lim a = LOwn l /\
  ((m_x a = XNone /\ m_X a = None) \/ exists v, centers (l, n) = Ok v /\ m_x a = XOwn v /\ (m_X a = None \/ m_X a = Some (repeat v c))).
Lemma map_repeat {A B} (f : A -> B) x n : map f (repeat x n) = repeat (f x) n.
Proof. induction n as [|n IH]; [reflexivity|]. cbn. now rewrite IH. Qed.
Lemma readx_good n c a : good n c a -> (0 <= n)%Z -> exists v, centers (limits_of a, n) = Ok v /\ snd (readx a) = Ok v /\ good n c (fst (readx a)) /\ limits_of (fst (readx a)) = limits_of a /\ m_x (fst (readx a)) = XOwn v /\ m_X (fst (readx a)) = m_X a.
Proof.
  intros (E1 & E2 & l & El & D) N. destruct a as [an ac al ax aX]. cbn [m_n m_count m_lim m_x m_X] in *. subst an ac al.
  assert (C : exists v, centers (l, n) = Ok v) by (unfold centers, linspace; cbn [snd]; replace (n <? 0)%Z with false by (symmetry; apply Z.ltb_ge; exact N); cbn [bind]; eauto). destruct C as [v C].
  unfold readx. cbn [limits_of m_lim m_x m_X m_n m_count]. exists v. split; [exact C|]. destruct D as [[-> ->]|(v' & C' & -> & D)].
  - rewrite C. cbn [fst snd m_n m_count m_lim m_x m_X limits_of]. repeat split. exists l. split; [reflexivity|]. right. exists v. auto.
  - assert (v' = v) by congruence. subst v'. cbn [fst snd m_n m_count m_lim m_x m_X limits_of]. repeat split. exists l. split; [reflexivity|]. right. exists v. auto.
Qed.
Lemma mstep_good n c p a : (0 <= n)%Z -> good n c a -> good n c (mstep p a).
Proof.
  intros N G. destruct p as [d|l| |]; cbn [mstep].
  - destruct G as (E1 & E2 & l & El & D). destruct a as [an ac al ax aX]. cbn [m_n m_count m_lim m_x m_X] in *. subst an ac al. destruct D as [[-> ->]|(v & C & -> & D)].
    + cbn. repeat split. eexists. split; [reflexivity|]. left. auto.
    + unfold mshift. cbn [m_lim m_x m_X m_n m_count]. repeat split. eexists. split; [reflexivity|]. right. exists (plus_all d v). cbn [m_x m_X m_lim]. split; [change (fst l + d, snd l + d) with (moved d l); rewrite centers_moved, C; reflexivity|]. split; [reflexivity|].
      destruct D as [->| ->]; [now left|right]. cbn [option_map]. now rewrite map_repeat.
  - destruct (parse_limits l) as [l'|]; [|exact G]. destruct (_ && _)%bool; [exact G|]. destruct G as (E1 & E2 & _). cbn. repeat split; try assumption. exists l'. split; [reflexivity|left; auto].
  - destruct (readx_good n c a G N) as (v & _ & _ & G' & _). exact G'.
  - unfold readX. destruct (m_X a) as [lines|] eqn:EX; [exact G|]. destruct (readx_good n c a G N) as (v & C & R1 & G' & LE & X' & XX). destruct (readx a) as [a' r]. cbn [fst snd] in *. subst r. cbn [fst].
    destruct G' as (E1 & E2 & l & El & D). destruct a' as [an ac al ax aX]. cbn [m_n m_count m_lim m_x m_X limits_of] in *. subst an ac al ax. repeat split. exists l. split; [reflexivity|]. right. exists v. split; [rewrite <- LE in C; exact C|]. auto.
Qed.
Lemma mrun_good n c h : (0 <= n)%Z -> forall a, good n c a -> good n c (mrun h a).
Proof. intros N. induction h as [|p h IH]; intros a G; [exact G|]. cbn. apply IH, mstep_good; assumption. Qed.
Lemma mstep_size p a : m_n (mstep p a) = m_n a /\ m_count (mstep p a) = m_count a.
Proof.
  assert (RX : m_n (fst (readx a)) = m_n a /\ m_count (fst (readx a)) = m_count a) by (unfold readx; destruct (m_x a); auto; destruct (centers _); auto).
  destruct p; cbn [mstep].
  - unfold mshift. destruct (m_lim a), (m_x a); auto.
  - destruct (parse_limits l); [|auto]. destruct (_ && _)%bool; auto.
  - exact RX.
  - unfold readX. destruct (m_X a); [auto|]. destruct (readx a) as [a' [v|e]]; exact RX.
Qed.
Lemma mrun_size h : forall a, m_n (mrun h a) = m_n a /\ m_count (mrun h a) = m_count a.
Proof. induction h as [|p h IH]; intros a; [auto|]. change (mrun (p :: h) a) with (mrun h (mstep p a)). destruct (IH (mstep p a)) as [A B]. destruct (mstep_size p a) as [C D]. split; congruence. Qed.
(** Once other limits are assigned, x, and every line of X, are always the centers of the cells between the limits. *)
Theorem matrix_limits lines a h p h' : make lines = Ok a -> (exists l l', p = MLim l /\ parse_limits l = Ok l' /\ l' <> limits_of (mrun h a)) ->
  let b := mrun (h ++ p :: h') a in exists v, centers (limits_of b, Z.of_nat (length (hd [] lines))) = Ok v /\ x_of b = Ok v /\ X_of b = Ok (repeat v (length lines)).
Proof.
  intros M (l & l' & -> & P & NE) b.
  assert (SZ : m_n a = Z.of_nat (length (hd [] lines)) /\ m_count a = length lines).
  { unfold make in M. destruct lines as [|f r]; [discriminate M|]. cbv zeta in M. cbn [hd]. destruct (2 <? length f)%nat; [|destruct (length f =? 2)%nat; [|discriminate M]].
    - destruct f as [|u [|v f]]; try discriminate M. destruct (parse_limits _); [|discriminate M]. injection M as <-. auto.
    - destruct (parse_limits f); [|discriminate M]. injection M as <-. auto. }
  destruct SZ as [S1 S2]. set (n := Z.of_nat (length (hd [] lines))) in *. assert (N : (0 <= n)%Z) by (unfold n; lia).
  assert (G : good n (length lines) b).
  { unfold b. unfold mrun. rewrite fold_left_app. cbn [fold_left]. change (fold_left (fun a p => mstep p a) h' (mstep (MLim l) (mrun h a))) with (mrun h' (mstep (MLim l) (mrun h a))). apply mrun_good; [exact N|].
    cbn [mstep]. rewrite P. destruct (Reqb (fst l') _ && Reqb (snd l') _)%bool eqn:Q.
    - exfalso. apply andb_prop in Q. destruct Q as [Q1 Q2]. apply Reqb_true in Q1, Q2. apply NE. exact (injective_projections _ _ Q1 Q2).
    - destruct (mrun_size h a) as [A B]. split; [exact (eq_trans A S1)|]. split; [exact (eq_trans B S2)|]. exists l'. split; [reflexivity|left; auto]. }
  destruct (readx_good n (length lines) b G N) as (v & C & R1 & G' & LE & X' & XX). exists v. split; [exact C|]. split; [exact R1|]. unfold X_of, readX. destruct (m_X b) as [ls|] eqn:EX.
  - cbn [snd]. destruct G' as (_ & _ & l2 & _ & [[Q _]|(v2 & _ & Q & D)]); rewrite X' in Q; [discriminate Q|]. injection Q as <-. rewrite XX in D. destruct D as [D|D]; [discriminate D|]. injection D as ->. reflexivity.
  - destruct (readx b) as [b' r] eqn:RB. cbn [fst snd] in *. subst r. cbn [snd]. destruct G' as (_ & G2 & _). now rewrite G2.
Qed.
Print Assumptions matrix_limits.
(** a shift of one by one of a matrix of three columns *)
Example matrix_ex : exists a, make [[0; 1; 2]; [0; 1; 2]] = Ok a /\ limits_of (mrun [MReadx; MShift 10] a) = moved 10 (limits_of a) /\ x_of (mrun [MReadx; MShift 10] a) = Ok [0 + 20; 1 + 20; 2 + 20] /\
  X_of (mrun [MReadx; MShift 10] a) = Ok [[0 + 20; 1 + 20; 2 + 20]; [0 + 10; 1 + 10; 2 + 10]].
Proof.
  destruct (matrix_made [0; 1; 2] [[0; 1; 2]] 0 1 2 []) as (a & M & _); [reflexivity|cbn; lra|]. exists a. split; [exact M|].
  destruct (matrix_shift_refuted _ a [0; 1; 2] [[0; 1; 2]] [MReadx; MShift 10] M) as (A & B & C); [reflexivity|cbn; lia|repeat constructor; discriminate|].
  assert (T : total [MReadx; MShift 10] = 10) by (cbn; lra). rewrite T in *. split; [exact A|]. replace (2 * 10) with 20 in * by lra. split; [exact B|exact C].
Qed.
Example matrix_two_ex : (0 <> 1) /\ no_limits [MShift 1; MReadX] /\ exists l l', MLim [3; 4] = MLim l /\ parse_limits l = Ok l' /\ l' <> (0, 1).
Proof.
  split; [lra|]. split; [repeat constructor; discriminate|]. exists [3; 4], (3, 4). split; [reflexivity|]. split; [unfold parse_limits; assert (Reqb 3 4 = false) as -> by (apply Reqb_false; lra); reflexivity|]. intros E. injection E. intros. lra.
Qed.
