(** Proofs about CameraJsonModel.v. *)
From Coq Require Import String.
From Verif Require Import Base BaseLemmas XReal HelpersModel CameraModel CameraSpec CameraStateProofs CameraJsonModel.
Notation length := List.length.
Open Scope R_scope.

Lemma all_splices (wx wv wi wf wc wk wp : list xr) : length wx = 3%nat -> length wv = 3%nat -> length wi = 2%nat -> length wf = 2%nat -> length wc = 2%nat -> length wk = 6%nat -> length wp = 2%nat ->
  splice 18 wp (splice 12 wk (splice 10 wc (splice 8 wf (splice 6 wi (splice 3 wv (splice 0 wx (repeat NaN 20))))))) = wx ++ wv ++ wi ++ wf ++ wc ++ wk ++ wp.
Proof.
  intros. repeat match goal with H : length ?l = _ |- _ => is_var l; destruct l as [|? l]; cbn [length] in H; [discriminate H|injection H as H] end.
  repeat match goal with H : length ?l = 0%nat |- _ => destruct l; [clear H|discriminate H] end. reflexivity.
Qed.
Lemma jset_ok i n d x w v : jfmt x (Z.of_nat n) d = Ok (Some w) -> length w = n -> jset i n d x v = Ok (splice i w v).
Proof. intros E L. unfold jset. rewrite E. cbn [bind jput]. now rewrite L, Nat.eqb_refl. Qed.
Lemma jset_none i n d v : jset i n d VNone v = Ok (splice i (repeat NaN n) v).
Proof. reflexivity. Qed.
Lemma imgsz_part (wx wv wi r : list xr) : length wx = 3%nat -> length wv = 3%nat -> length wi = 2%nat -> firstn 2 (skipn 6 (splice 6 wi (splice 3 wv (splice 0 wx r)))) = wi.
Proof.
  intros. repeat match goal with H : length ?l = _ |- _ => is_var l; destruct l as [|? l]; cbn [length] in H; [discriminate H|injection H as H] end.
  repeat match goal with H : length ?l = 0%nat |- _ => destruct l; [clear H|discriminate H] end. reflexivity.
Qed.
Lemma imgsz_part8 (wx wv wi wf r : list xr) : length wx = 3%nat -> length wv = 3%nat -> length wi = 2%nat -> length wf = 2%nat -> firstn 2 (skipn 6 (splice 8 wf (splice 6 wi (splice 3 wv (splice 0 wx r))))) = wi.
Proof.
  intros. repeat match goal with H : length ?l = _ |- _ => is_var l; destruct l as [|? l]; cbn [length] in H; [discriminate H|injection H as H] end.
  repeat match goal with H : length ?l = 0%nat |- _ => destruct l; [clear H|discriminate H] end. reflexivity.
Qed.

(** ints given as floats *)
Definition ints (a b : Z) : list xr := [Fin (IZR a); Fin (IZR b)].
Lemma jset_imgsz_ok x a b v : jfmt x 2 None = Ok (Some (ints a b)) -> jset_imgsz x v = Ok (splice 6 (ints a b) v).
Proof.
  intros E. unfold jset_imgsz. rewrite E. cbn [bind].
  replace (mapM py_int (ints a b)) with (@Ok (list Z) [a; b]) by (cbn [ints mapM py_int bind]; now rewrite !Rtrunc_IZR).
  cbn [bind ints map2 map forallb]. assert (Q : forall n, Reqb (IZR n) (IZR n) = true) by (intros; now apply Reqb_true). rewrite !Q. reflexivity.
Qed.

(** What the constructor makes of a dictionary whose values all have a meaning. *)
Lemma construct_ok (a : dict pyval) imgsz wx wv (na nb : Z) wk wp ss s f wf c wc :
  a Kimgsz = Some imgsz -> jfmt imgsz 2 None = Ok (Some (ints na nb)) ->
  (forall v, jset 0 3 (Some (Fin 0)) (or_default (a Kxyz) (VArr (repeat (Fin 0) 3))) v = Ok (splice 0 wx v)) -> length wx = 3%nat ->
  (forall v, jset 3 3 (Some (Fin 0)) (or_default (a Kviewdir) (VArr (repeat (Fin 0) 3))) v = Ok (splice 3 wv v)) -> length wv = 3%nat ->
  (forall v, jset 12 6 (Some (Fin 0)) (or_default (a Kk) (VArr (repeat (Fin 0) 6))) v = Ok (splice 12 wk v)) -> length wk = 6%nat ->
  (forall v, jset 18 2 (Some (Fin 0)) (or_default (a Kp) (VArr (repeat (Fin 0) 2))) v = Ok (splice 18 wp v)) -> length wp = 2%nat ->
  or_default (a Ksensorsz) VNone = ss -> jset_sensorsz ss = Ok s ->
  (let fmm := or_default (a Kfmm) VNone in
   if is_none fmm then or_default (a Kf) VNone = f else is_none ss = false /\ is_none (or_default (a Kf) VNone) = true /\
     exists w, (forall v, firstn 2 (skipn 6 v) = ints na nb -> jmm_to_px fmm v s = Ok w) /\ f = VArr w) ->
  is_none f = false -> (forall v, jset 8 2 None f v = Ok (splice 8 wf v)) -> length wf = 2%nat ->
  (let cmm := or_default (a Kcmm) VNone in
   if is_none cmm then or_default (a Kc) VNone = c else is_none ss = false /\ is_none (or_default (a Kc) VNone) = true /\
     exists w, (forall v, firstn 2 (skipn 6 v) = ints na nb -> jmm_to_px cmm v s = Ok w) /\ c = VArr w) ->
  (forall v, jset 10 2 (Some (Fin 0)) (if is_none c then VArr (repeat (Fin 0) 2) else c) v = Ok (splice 10 wc v)) -> length wc = 2%nat ->
  construct_j a false = Ok (mkjcam (wx ++ wv ++ ints na nb ++ wf ++ wc ++ wk ++ wp) (wx ++ wv ++ ints na nb ++ wf ++ wc ++ wk ++ wp) s (jcorrection (or_default (a Kcorrection) (VBool false)))).
Proof.
  intros Ei Fi Ex Lx Ev Lv Ek Lk Ep Lp Ess Es Ef Nf Ef2 Lf Ec Ec2 Lc. unfold construct_j. rewrite Ei. cbv zeta. rewrite Ess.
  assert (G1 : ((negb (is_none (or_default (a Kfmm) VNone)) || negb (is_none (or_default (a Kcmm) VNone))) && is_none ss)%bool = false).
  { cbv zeta in Ef, Ec. destruct (is_none (or_default (a Kfmm) VNone)), (is_none (or_default (a Kcmm) VNone)); cbn [negb orb andb]; try reflexivity; tauto. }
  assert (G2 : (negb (is_none (or_default (a Kf) VNone)) && negb (is_none (or_default (a Kfmm) VNone)))%bool = false).
  { cbv zeta in Ef. destruct (is_none (or_default (a Kfmm) VNone)); [apply andb_false_r|]. destruct Ef as (_ & -> & _). reflexivity. }
  assert (G3 : (negb (is_none (or_default (a Kc) VNone)) && negb (is_none (or_default (a Kcmm) VNone)))%bool = false).
  { cbv zeta in Ec. destruct (is_none (or_default (a Kcmm) VNone)); [apply andb_false_r|]. destruct Ec as (_ & -> & _). reflexivity. }
  rewrite G1, G2, G3. clear G1 G2 G3.
  rewrite Ex. cbn [bind]. rewrite Ev. cbn [bind]. rewrite (jset_imgsz_ok _ na nb) by exact Fi. cbn [bind]. rewrite Es. cbn [bind].
  assert (Li : length (ints na nb) = 2%nat) by reflexivity.
  match goal with |- bind ?X _ = _ => replace X with (@Ok pyval f) end.
  2:{ cbv zeta in Ef. destruct (is_none (or_default (a Kfmm) VNone)); [now rewrite Ef|]. destruct Ef as (_ & _ & w & Hw & ->). rewrite Hw; [reflexivity|]. now apply imgsz_part. }
  cbn [bind]. rewrite Nf, Ef2. cbn [bind].
  match goal with |- bind ?X _ = _ => replace X with (@Ok pyval c) end.
  2:{ cbv zeta in Ec. destruct (is_none (or_default (a Kcmm) VNone)); [now rewrite Ec|]. destruct Ec as (_ & _ & w & Hw & ->). rewrite Hw; [reflexivity|]. now apply imgsz_part8. }
  cbn [bind]. rewrite Ec2. cbn [bind]. rewrite Ek. cbn [bind]. rewrite Ep. cbn [bind]. now rewrite all_splices.
Qed.
