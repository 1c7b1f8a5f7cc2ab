(** C10: clipping of polylines. *)
From Verif Require Import Base BaseLemmas XReal HelpersModel SplitProofs BoxProofs RayModel HelpersSpec RayProofs ClipProofs P_Ray2.
Open Scope R_scope.

(** a face-plane ray sees the same box when that is widened along x *)
Lemma parallel_cases n o d lo hi : (n = 2 \/ n = 3)%nat -> length d = n -> (forall i, (i < n)%nat -> nth i lo 0 <= nth i hi 0) -> (exists i, (i < n)%nat /\ nth i d 0 <> 0) ->
  (exists t, 0 <= t /\ ray_in_box n o d lo hi t) ->
  let P := ray_in_box n o d lo hi in
  (exists b, 0 <= b /\ (exists a, a < 0 /\ P a) /\ (forall t, 0 <= t -> (P t <-> t <= b))) \/
  (exists a b, 0 <= a <= b /\ (forall t, P t <-> a <= t <= b)).
Proof.
  intros Dim Ld Box Nz M P.
  assert (W : exists lo' hi', (forall i, (i < n)%nat -> nth i lo' 0 <= nth i hi' 0) /\ (nth 0 d 0 = 0 -> nth 0 o 0 <> nth 0 lo' 0 /\ nth 0 o 0 <> nth 0 hi' 0) /\ forall t, ray_in_box n o d lo' hi' t <-> P t).
  { destruct (Req_EM_T (nth 0 d 0) 0) as [Z|Z]; [|exists lo, hi; split; [exact Box|split; [congruence|reflexivity]]].
    exists ((nth 0 lo 0 - 1) :: tl lo), ((nth 0 hi 0 + 1) :: tl hi).
    assert (T : forall (l : list R) i x, nth (S i) (x :: tl l) 0 = nth (S i) l 0) by (intros [|y l] i x; [destruct i; reflexivity|reflexivity]).
    destruct M as (t0 & _ & M0). pose proof (M0 0%nat ltac:(lia)) as M00. rewrite Z in M00. pose proof (Box 0%nat ltac:(lia)).
    split; [intros [|i] I; [cbn [nth]; lra|rewrite !T; auto]|]. split; [intros _; cbn [nth]; lra|].
    intros t. split; intros H1 [|i] I.
    - rewrite Z. lra.
    - specialize (H1 (S i) I). rewrite !T in H1. exact H1.
    - cbn [nth]. rewrite Z. lra.
    - rewrite !T. apply H1. exact I. }
  destruct W as (lo' & hi' & Box' & Fc & Eq).
  pose proof (ray_box_cases n o d lo' hi' Dim Ld Box' Nz Fc) as C. cbv zeta in C. destruct (ray_box o d lo' hi') as [e x].
  destruct C as [(_ & _ & C)|[(b & _ & _ & B & (a & A & Pa) & C)|(a & b & _ & _ & AB & C)]].
  - destruct M as (t & T & X). exfalso. apply (C t T), Eq, X.
  - left. exists b. split; [exact B|]. split; [exists a; split; [exact A|apply Eq, Pa]|]. intros t T. rewrite <- Eq. auto.
  - right. exists a, b. split; [exact AB|]. intros t. rewrite <- Eq. auto.
Qed.

Lemma ray_convex n o d lo hi a b c : ray_in_box n o d lo hi a -> ray_in_box n o d lo hi c -> a <= b <= c -> ray_in_box n o d lo hi b.
Proof. intros A C B i I. exact (axis_convex _ _ _ _ a b c (A i I) (C i I) B). Qed.

Section Edge.
Variables (n : nat) (lo hi : list R).
Hypothesis Dim : (n = 2 \/ n = 3)%nat.

Lemma edge_moves o h : length o = n -> length h = n -> (in_closed_box n lo hi o <-> ~ in_closed_box n lo hi h) -> exists i, (i < n)%nat /\ nth i (vsub h o) 0 <> 0.
Proof.
  intros Lo Lh D. assert (K : ~ (forall i, (i < n)%nat -> nth i h 0 = nth i o 0)).
  { intros K. destruct (classic_box n lo hi h) as [B|B]; [destruct (classic_box n lo hi o) as [B'|B']; [tauto|]; apply B'|apply B];
      intros i I; [rewrite <- (K i I)|rewrite (K i I)]; [apply B|apply D in B; apply B]; exact I. }
  apply not_all_nth in K as (i & I & Ne). exists i. split; [exact I|]. rewrite nth_vsub by congruence. lra.
Qed.

Lemma edge_enter_exact o h : length o = n -> length h = n -> in_closed_box n lo hi h -> ~ in_closed_box n lo hi o ->
  exists a, 0 < a <= 1 /\ in_closed_box n lo hi (along o (vsub h o) a) /\
      (forall s, 0 <= s < a -> ~ in_closed_box n lo hi (along o (vsub h o) s)) /\
      let lost := nth 0 o 0 = nth 0 lo 0 /\ nth 0 h 0 = nth 0 lo 0 in
      ((a < 1 /\ ~ lost /\ edge_box o (vsub h o) lo hi = Some a) \/ ((a = 1 \/ lost) /\ edge_box o (vsub h o) lo hi = None)).
Proof.
  intros Lo Lh Hin Hout. assert (Ld : length (vsub h o) = n) by (rewrite vsub_length; congruence).
  assert (Box : forall i, (i < n)%nat -> nth i lo 0 <= nth i hi 0) by (intros i I; specialize (Hin i I); lra).
  pose proof (edge_moves o h Lo Lh ltac:(tauto)) as Nz.
  assert (P1 : ray_in_box n o (vsub h o) lo hi 1) by (intros i I; rewrite nth_vsub by congruence; specialize (Hin i I); lra).
  assert (P0 : ~ ray_in_box n o (vsub h o) lo hi 0) by (intros K; apply Hout; intros i I; specialize (K i I); lra).
  assert (AL : forall t, ray_in_box n o (vsub h o) lo hi t <-> in_closed_box n lo hi (along o (vsub h o) t)) by (intros t; apply ray_in_box_along; congruence).
  assert (D0 : nth 0 (vsub h o) 0 = nth 0 h 0 - nth 0 o 0) by (apply nth_vsub; congruence).
  destruct (parallel_cases n o (vsub h o) lo hi Dim Ld Box Nz ltac:(exists 1; split; [lra|exact P1])) as [(b & B & _ & C)|(a & b & AB & C)].
  { exfalso. apply P0, C; lra. }
  assert (A0 : 0 < a). { destruct (Rle_lt_dec a 0); [|assumption]. exfalso. apply P0, C. lra. }
  assert (A1 : a <= 1) by (apply C in P1; lra).
  exists a. split; [lra|]. split; [apply AL, C; lra|]. split; [intros s S K; apply AL, C in K; lra|]. cbv zeta.
  destruct (Req_EM_T (nth 0 h 0) (nth 0 o 0)) as [Z|Z]; [|].
  - destruct (Req_EM_T (nth 0 o 0) (nth 0 lo 0)) as [F|F].
    + right. split; [right; split; congruence|]. unfold edge_box. pose proof (Box 0%nat ltac:(lia)) as B0.
      destruct (Rle_lt_or_eq_dec _ _ B0) as [L|L].
      * pose proof (ray_box_lower_face n o (vsub h o) lo hi Dim Ld Box Nz ltac:(lra) F L) as Y. destruct (ray_box o (vsub h o) lo hi) as [e x]. destruct Y as (-> & Y & _).
        destruct Y as (b' & -> & _ & _ & Y); [exists 1; split; [lra|exact P1]|]. cbn [xnanmin]. specialize (Y 1 P1). rewrite (proj2 (Rltb_false b' 1)) by lra. rewrite andb_false_r. reflexivity.
      * rewrite (ray_box_flat_face n o (vsub h o) lo hi Dim Ld ltac:(lra) F L). reflexivity.
    + destruct (Req_EM_T (nth 0 o 0) (nth 0 hi 0)) as [G|G].
      * pose proof (Box 0%nat ltac:(lia)) as B0. assert (L : nth 0 lo 0 < nth 0 hi 0) by lra.
        pose proof (ray_box_upper_face n o (vsub h o) lo hi Dim Ld Box Nz ltac:(lra) G L) as Y. unfold edge_box. destruct (ray_box o (vsub h o) lo hi) as [e x]. destruct Y as (-> & Y & _).
        destruct Y as [(a' & -> & _ & Pa & Fa)|(_ & a' & An & Pa & _)]; [exists 1; split; [lra|exact P1]| |].
        -- assert (a' = a). { apply Rle_antisym; [apply Fa, C; lra|apply C in Pa; lra]. } subst a'. cbn [xnanmin].
           rewrite (proj2 (Rltb_true 0 a) A0). destruct (Rltb_spec a 1) as [X|X]; cbn [andb]; [left; repeat split; auto; tauto|right; split; [left; lra|reflexivity]].
        -- exfalso. apply P0. apply (ray_convex n _ _ _ _ a' 0 1 Pa P1). lra.
      * assert (Fc : nth 0 (vsub h o) 0 = 0 -> nth 0 o 0 <> nth 0 lo 0 /\ nth 0 o 0 <> nth 0 hi 0) by tauto.
        pose proof (ray_box_cases n o (vsub h o) lo hi Dim Ld Box Nz Fc) as Y. cbv zeta in Y. unfold edge_box. destruct (ray_box o (vsub h o) lo hi) as [e x].
        destruct Y as [(_ & _ & Y)|[(b' & _ & _ & B & _ & Y)|(a' & b' & -> & -> & AB' & Y)]]; [exfalso; apply (Y 1); [lra|exact P1]|exfalso; apply P0, Y; lra|].
        assert (a' = a). { apply Rle_antisym; [apply Y, C; lra|apply C, Y; lra]. } subst a'. cbn [xnanmin xlt]. rewrite (proj2 (Rltb_false b' a)) by lra.
        rewrite (proj2 (Rltb_true 0 a) A0). destruct (Rltb_spec a 1) as [X|X]; cbn [andb]; [left; repeat split; auto; tauto|right; split; [left; lra|reflexivity]].
  - assert (Fc : nth 0 (vsub h o) 0 = 0 -> nth 0 o 0 <> nth 0 lo 0 /\ nth 0 o 0 <> nth 0 hi 0) by (intros; exfalso; lra).
    pose proof (ray_box_cases n o (vsub h o) lo hi Dim Ld Box Nz Fc) as Y. cbv zeta in Y. unfold edge_box. destruct (ray_box o (vsub h o) lo hi) as [e x].
    destruct Y as [(_ & _ & Y)|[(b' & _ & _ & B & _ & Y)|(a' & b' & -> & -> & AB' & Y)]]; [exfalso; apply (Y 1); [lra|exact P1]|exfalso; apply P0, Y; lra|].
    assert (a' = a). { apply Rle_antisym; [apply Y, C; lra|apply C, Y; lra]. } subst a'. cbn [xnanmin xlt]. rewrite (proj2 (Rltb_false b' a)) by lra.
    rewrite (proj2 (Rltb_true 0 a) A0). destruct (Rltb_spec a 1) as [X|X]; cbn [andb]; [left; repeat split; auto; intros []; congruence|right; split; [left; lra|reflexivity]].
Qed.

Lemma edge_leave_exact l e : length l = n -> length e = n -> in_closed_box n lo hi l -> ~ in_closed_box n lo hi e ->
  exists b, 0 <= b < 1 /\ in_closed_box n lo hi (along l (vsub e l) b) /\
      (forall s, b < s <= 1 -> ~ in_closed_box n lo hi (along l (vsub e l) s)) /\
      let lost := ((forall s, s < 0 -> ~ in_closed_box n lo hi (along l (vsub e l) s)) /\ ~ (nth 0 l 0 = nth 0 lo 0 /\ nth 0 e 0 = nth 0 lo 0)) \/
                  (nth 0 l 0 = nth 0 hi 0 /\ nth 0 e 0 = nth 0 hi 0) in
      ((0 < b /\ ~ lost /\ edge_box l (vsub e l) lo hi = Some b) \/ ((b = 0 \/ lost) /\ edge_box l (vsub e l) lo hi = None)).
Proof.
  intros Lo Lh Hin Hout. assert (Ld : length (vsub e l) = n) by (rewrite vsub_length; congruence).
  assert (Box : forall i, (i < n)%nat -> nth i lo 0 <= nth i hi 0) by (intros i I; specialize (Hin i I); lra).
  pose proof (edge_moves l e Lo Lh ltac:(tauto)) as Nz.
  assert (P1 : ~ ray_in_box n l (vsub e l) lo hi 1) by (intros K; apply Hout; intros i I; specialize (K i I); rewrite nth_vsub in K by congruence; lra).
  assert (P0 : ray_in_box n l (vsub e l) lo hi 0) by (intros i I; specialize (Hin i I); lra).
  assert (AL : forall t, ray_in_box n l (vsub e l) lo hi t <-> in_closed_box n lo hi (along l (vsub e l) t)) by (intros t; apply ray_in_box_along; congruence).
  assert (D0 : nth 0 (vsub e l) 0 = nth 0 e 0 - nth 0 l 0) by (apply nth_vsub; congruence).
  (* the last parameter *)
  assert (EB : exists b, 0 <= b < 1 /\ forall t, 0 <= t -> (ray_in_box n l (vsub e l) lo hi t <-> t <= b)).
  { destruct (parallel_cases n l (vsub e l) lo hi Dim Ld Box Nz ltac:(exists 0; split; [lra|exact P0])) as [(b & B & _ & C)|(a & b & AB & C)].
    - exists b. split; [|exact C]. split; [exact B|]. destruct (Rlt_le_dec b 1); [assumption|]. exfalso. apply P1, C; lra.
    - assert (a = 0) by (apply C in P0; lra). subst a. exists b. split; [split; [lra|]|].
      + destruct (Rlt_le_dec b 1); [assumption|]. exfalso. apply P1, C; lra.
      + intros t T. rewrite C. split; [lra|intros; lra]. }
  destruct EB as (b & B & C). exists b. split; [exact B|]. split; [apply AL, C; lra|]. split; [intros s S K; apply AL, C in K; lra|]. cbv zeta.
  assert (M : meets n l (vsub e l) lo hi) by (exists 0; split; [lra|exact P0]).
  (* rays not in a face plane *)
  assert (General : (nth 0 (vsub e l) 0 = 0 -> nth 0 l 0 <> nth 0 lo 0 /\ nth 0 l 0 <> nth 0 hi 0) ->
     ((0 < b /\ ~ (((forall s, s < 0 -> ~ in_closed_box n lo hi (along l (vsub e l) s)) /\ ~ (nth 0 l 0 = nth 0 lo 0 /\ nth 0 e 0 = nth 0 lo 0)) \/ (nth 0 l 0 = nth 0 hi 0 /\ nth 0 e 0 = nth 0 hi 0)) /\ edge_box l (vsub e l) lo hi = Some b) \/
      ((b = 0 \/ (((forall s, s < 0 -> ~ in_closed_box n lo hi (along l (vsub e l) s)) /\ ~ (nth 0 l 0 = nth 0 lo 0 /\ nth 0 e 0 = nth 0 lo 0)) \/ (nth 0 l 0 = nth 0 hi 0 /\ nth 0 e 0 = nth 0 hi 0))) /\ edge_box l (vsub e l) lo hi = None))).
  { intros Fc. pose proof (ray_box_cases n l (vsub e l) lo hi Dim Ld Box Nz Fc) as Y. cbv zeta in Y. unfold edge_box. destruct (ray_box l (vsub e l) lo hi) as [en x].
    destruct Y as [(_ & _ & Y)|[(b' & -> & -> & B' & (a & A & Pa) & Y)|(a' & b' & -> & -> & AB' & Y)]]; [exfalso; apply (Y 0); [lra|exact P0]| |].
    - assert (b' = b). { apply Rle_antisym; [apply C; [lra|]; apply Y; lra|apply Y; [lra|]; apply C; lra]. } subst b'. cbn [xnanmin].
      rewrite (proj2 (Rltb_true b 1)) by lra. destruct (Rltb_spec 0 b) as [X|X]; cbn [andb]; [left|right; split; [left; lra|reflexivity]].
      split; [exact X|]. split; [|reflexivity]. intros [[K _]|K]; [apply (K a A), AL, Pa|lra].
    - assert (a' = 0) by (apply Y in P0; lra). subst a'. cbn [xnanmin xlt]. rewrite (proj2 (Rltb_false b' 0)) by lra. rewrite (proj2 (Rltb_false 0 0)) by lra. cbn [andb].
      right. split; [right; left|reflexivity]. split; [intros s S K; apply AL, Y in K; lra|]. intros [K1 K2]. destruct (Fc ltac:(lra)). contradiction. }
  destruct (Req_EM_T (nth 0 e 0) (nth 0 l 0)) as [Z|Z]; [|apply General; intros; exfalso; lra].
  pose proof (Box 0%nat ltac:(lia)) as B0.
  destruct (Req_EM_T (nth 0 l 0) (nth 0 hi 0)) as [G|G].
  - right. split; [right; right; split; congruence|]. unfold edge_box. destruct (Rle_lt_or_eq_dec _ _ B0) as [L|L].
    + pose proof (ray_box_upper_face n l (vsub e l) lo hi Dim Ld Box Nz ltac:(lra) G L) as Y. destruct (ray_box l (vsub e l) lo hi) as [en x]. destruct Y as (-> & Y & _).
      destruct (Y M) as [(a' & -> & A' & Pa & Fa)|(-> & _)]; [|reflexivity]. assert (a' = 0) by (specialize (Fa 0 P0); lra). subst a'. cbn [xnanmin]. rewrite (proj2 (Rltb_false 0 0)) by lra. reflexivity.
    + rewrite (ray_box_flat_face n l (vsub e l) lo hi Dim Ld ltac:(lra) ltac:(lra) L). reflexivity.
  - destruct (Req_EM_T (nth 0 l 0) (nth 0 lo 0)) as [F|F]; [|apply General; tauto].
    assert (L : nth 0 lo 0 < nth 0 hi 0) by lra.
    pose proof (ray_box_lower_face n l (vsub e l) lo hi Dim Ld Box Nz ltac:(lra) F L) as Y. unfold edge_box. destruct (ray_box l (vsub e l) lo hi) as [en x]. destruct Y as (-> & Y & _).
    destruct (Y M) as (b' & -> & B' & Pb & Fb). assert (b' = b). { apply Rle_antisym; [apply C; [lra|exact Pb]|apply Fb, C; lra]. } subst b'. cbn [xnanmin].
    rewrite (proj2 (Rltb_true b 1)) by lra. destruct (Rltb_spec 0 b) as [X|X]; cbn [andb]; [left|right; split; [left; lra|reflexivity]].
    split; [exact X|]. split; [|reflexivity]. intros [[_ K]|[K _]]; [apply K; split; congruence|congruence].
Qed.
End Edge.

(** The documented effect, when no vertex of the line is on the boundary of the box. *)
Theorem clip_polyline_box_interior : forall n t line lo hi,
  (n = 2 \/ n = 3)%nat -> line <> [] -> length lo = n -> length hi = n ->
  (forall p, In p line -> length p = vlen t n) ->
  (forall p, In p line -> in_closed_box n lo hi p -> in_open_box n lo hi p) ->
  exists runs out,
    clip_polyline_box t line lo hi = Ok out
    /\ concat (map snd runs) = line
    /\ (forall r, In r runs -> snd r <> [])
    /\ (forall i r s, nth_error runs i = Some r -> nth_error runs (S i) = Some s -> fst r = negb (fst s))
    /\ (forall r p, In r runs -> In p (snd r) -> (fst r = true <-> in_closed_box n lo hi p))
    /\ clipped (entry_point n lo hi) (exit_point n lo hi) None runs out.
Proof.
  intros n t line lo hi Dim Ne Llo Lhi Len Open.
  apply (clip_polyline_box_gen n t line lo hi (fun p => length p = vlen t n /\ in_open_box n lo hi p) (fun p => length p = vlen t n /\ ~ in_closed_box n lo hi p)); auto; try reflexivity.
  - intros o h [Lo Oo] [Lh Gh]. cbn [entry_point ins_entry]. rewrite cols_vsub by congruence.
    destruct (edge_box_enter n lo hi (cols t o) (cols t h) Dim (cols_length t n o Lo) (cols_length t n h Lh)) as (s & E & S1 & S2 & S3).
    + intros i I. rewrite (nth_cols t n h i Lh I). apply Gh, I.
    + rewrite (cols_box t n) by exact Lo. exact Oo.
    + rewrite E. exists s. split; [|reflexivity]. split; [exact S1|]. split; [apply (cols_along t n); auto|]. intros q Q K. apply (S3 q Q). apply (cols_along t n); auto.
  - intros l e [Ll Gl] [Le Oe]. cbn [exit_point ins_exit]. rewrite cols_vsub by congruence.
    destruct (edge_box_leave n lo hi (cols t l) (cols t e) Dim (cols_length t n l Ll) (cols_length t n e Le)) as (s & E & S1 & S2 & S3).
    + intros i I. rewrite (nth_cols t n l i Ll I). apply Gl, I.
    + rewrite (cols_box t n) by exact Le. exact Oe.
    + rewrite E. exists s. split; [|reflexivity]. split; [exact S1|]. split; [apply (cols_along t n); auto|]. intros q Q K. apply (S3 q Q). apply (cols_along t n); auto.
Qed.
Print Assumptions clip_polyline_box_interior.

(** Any line: exactly what is inserted. *)
Theorem clip_polyline_box_exact : forall n t line lo hi,
  (n = 2 \/ n = 3)%nat -> line <> [] -> length lo = n -> length hi = n ->
  (forall p, In p line -> length p = vlen t n) ->
  exists runs out,
    clip_polyline_box t line lo hi = Ok out
    /\ concat (map snd runs) = line
    /\ (forall r, In r runs -> snd r <> [])
    /\ (forall i r s, nth_error runs i = Some r -> nth_error runs (S i) = Some s -> fst r = negb (fst s))
    /\ (forall r p, In r runs -> In p (snd r) -> (fst r = true <-> in_closed_box n lo hi p))
    /\ clipped (entry_inserted n lo hi) (exit_inserted n lo hi) None runs out.
Proof.
  intros n t line lo hi Dim Ne Llo Lhi Len.
  apply (clip_polyline_box_gen n t line lo hi (fun p => length p = vlen t n /\ in_closed_box n lo hi p) (fun p => length p = vlen t n /\ ~ in_closed_box n lo hi p)); auto; try reflexivity.
  - intros o h [Lo Oo] [Lh Gh]. cbn [entry_inserted ins_entry]. rewrite cols_vsub by congruence.
    destruct (edge_enter_exact n lo hi Dim (cols t o) (cols t h) (cols_length t n o Lo) (cols_length t n h Lh)) as (a & A & S2 & S3 & Y).
    + rewrite (cols_box t n) by exact Lh. exact Gh.
    + rewrite (cols_box t n) by exact Lo. exact Oo.
    + exists a. split; [exact A|]. split; [apply (cols_along t n); auto|]. split; [intros q Q K; apply (S3 q Q), (cols_along t n); auto|].
      cbv zeta in Y |- *. rewrite !(nth_cols t n) in Y by (auto; lia). destruct Y as [(Y1 & Y2 & ->)|(Y1 & ->)]; [left|right]; auto.
  - intros l e [Ll Gl] [Le Oe]. cbn [exit_inserted ins_exit]. rewrite cols_vsub by congruence.
    destruct (edge_leave_exact n lo hi Dim (cols t l) (cols t e) (cols_length t n l Ll) (cols_length t n e Le)) as (b & B & S2 & S3 & Y).
    + rewrite (cols_box t n) by exact Ll. exact Gl.
    + rewrite (cols_box t n) by exact Le. exact Oe.
    + exists b. split; [exact B|]. split; [apply (cols_along t n); auto|]. split; [intros q Q K; apply (S3 q Q), (cols_along t n); auto|].
      cbv zeta in Y |- *. rewrite !(nth_cols t n) in Y by (auto; lia).
      assert (Q : (forall s, s < 0 -> ~ in_closed_box n lo hi (along (cols t l) (vsub (cols t e) (cols t l)) s)) <-> (forall s, s < 0 -> ~ in_closed_box n lo hi (along l (vsub e l) s))).
      { split; intros K s S X; apply (K s S), (cols_along t n); auto. }
      rewrite Q in Y. destruct Y as [(Y1 & Y2 & ->)|(Y1 & ->)]; [left|right]; auto.
Qed.
Print Assumptions clip_polyline_box_exact.

(** A line with measures: the measure is interpolated at the crossing. *)
Example clip_polyline_box_ex :
  (forall p, In p [[0; 0; 7]; [1; 1; 9]; [3; 3; 10]] -> length p = vlen true 2) /\
  (forall p, In p [[0; 0; 7]; [1; 1; 9]; [3; 3; 10]] -> in_closed_box 2 [1/2; 1/2] [3/2; 3/2] p -> in_open_box 2 [1/2; 1/2] [3/2; 3/2] p).
Proof.
  split; [intros p [<-|[<-|[<-|[]]]]; reflexivity|].
  intros p [<-|[<-|[<-|[]]]] H.
  - specialize (H 0%nat ltac:(lia)). cbn in H. lra.
  - intros [|[|]] Hi; cbn; try lra; lia.
  - specialize (H 0%nat ltac:(lia)). cbn in H. lra.
Qed.
(** Finding: the crossing vertex is lost when the inside vertex lies on the boundary. *)
Theorem clip_polyline_box_refuted : exists line lo hi t,
  clip_polyline_box false line lo hi = Ok [[hd [] line]] /\ (0 < t) /\
  leaves_at 2 lo hi (hd [] line) (last line []) t.
Proof.
  exists [[0; 1]; [3; 1]], [0; 0], [2; 2], (2/3). destruct clip_boundary_lost as [H1 H2].
  split; [exact H1|]. split; [lra|exact H2].
Qed.
Print Assumptions clip_polyline_box_refuted.
