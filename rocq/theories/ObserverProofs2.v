From Verif Require Import Base BaseLemmas HelpersModel CameraModel ImageModel ImageSpec ImageProofs TemplateModel ObserverModel ObserverSpec ObserverProofs.
Open Scope nat_scope.

Lemma nth_error_ext {A} (l l' : list A) : (forall n, nth_error l n = nth_error l' n) -> l = l'.
Proof. revert l'. induction l as [|x l IH]; intros [|y l'] H; [reflexivity|discriminate (H 0)|discriminate (H 0)|]. pose proof (H 0) as H0. injection H0 as ->. f_equal. apply IH. intros n. exact (H (S n)). Qed.
Section C.
Context {V : Type}.
Variable rescale : pic V -> Z * Z -> pic V.
Hypothesis GR : good_rescale rescale.
Implicit Types (st : store V) (im : himage V).

(** more buffers, the same files and cameras *)
Definition grown st st' : Prop := (exists ext, bufs st' = bufs st ++ ext) /\ map (@hi_file V) (imgs st') = map (@hi_file V) (imgs st) /\ map (@hi_cam V) (imgs st') = map (@hi_cam V) (imgs st).
Lemma grown_refl st : grown st st.
Proof. split; [exists []; now rewrite app_nil_r|split; reflexivity]. Qed.
Lemma grown_trans a b c : grown a b -> grown b c -> grown a c.
Proof. intros ([e E] & F & C) ([e' E'] & F' & C'). split; [exists (e ++ e'); rewrite E', E; now rewrite app_assoc|split; congruence]. Qed.
Lemma map_set_same {A B} (f : A -> B) i x y l : nth_error l i = Some x -> f y = f x -> map f (set_nth i y l) = map f l.
Proof. revert i. induction l as [|z l IH]; intros [|i]; cbn; try discriminate; intros H Q; [injection H as ->; now rewrite Q|]. now rewrite (IH i). Qed.
Lemma grown_contents st st' a : grown st st' -> a_buf a < length (bufs st) -> contents st' a = contents st a.
Proof. intros ([e E] & _) L. exact (contents_ext st st' e a E L). Qed.
Lemma grown_len st st' : grown st st' -> length (bufs st) <= length (bufs st').
Proof. intros ([e E] & _). rewrite E, app_length. lia. Qed.
Lemma grown_imgs st st' : grown st st' -> length (imgs st') = length (imgs st).
Proof. intros (_ & F & _). rewrite <- (map_length (@hi_file V) (imgs st')), F. apply map_length. Qed.

(** reading the whole image into the cache *)
Lemma cache_one st i im : good rescale st -> distinct st -> nth_error (imgs st) i = Some im ->
  exists a st' im', read_image rescale i None true st = Ok (a, st') /\ grown st st' /\ good rescale st' /\ distinct st' /\
    imgs st' = set_nth i im' (imgs st) /\ held st' im' = Some (picture rescale im) /\ hi_file im' = hi_file im /\ hi_cam im' = hi_cam im.
Proof.
  intros Gd Ds E. destruct (good_inv rescale st im (Gd i im E)) as [I K]. pose proof (Gd i im E) as (PF & PC & _).
  destruct (read_full rescale GR (hi_file im) PF None true (sees st im) I (or_introl eq_refl)) as (sh & s' & ER & _ & _ & HC).
  pose proof (refines rescale st i im None true E K) as RF. rewrite ER in RF. destruct RF as (a & st' & im0 & ext & R2 & _).
  destruct (read_facts rescale GR st i im None true a st' Gd Ds E R2) as (p & sh2 & s2 & im' & ext' & ER2 & C & B & Im & F & Cm & H & _ & _ & Gd' & Ds').
  rewrite ER in ER2. injection ER2 as <- <- <-. exists a, st', im'. split; [exact R2|].
  split; [split; [now exists ext'|rewrite Im; split; apply (map_set_same _ i im); assumption]|].
  split; [exact Gd'|]. split; [exact Ds'|]. split; [exact Im|]. split; [|auto]. rewrite H. exact (proj1 (HC eq_refl)).
Qed.
Lemma held_grown st st' im : grown st st' -> good_image rescale st im -> held st' im = held st im.
Proof.
  intros ([e E] & _) (_ & _ & A). unfold held. destruct (hi_array im) as [k|]; [|reflexivity]. destruct A as (p & A & _). rewrite E. apply nth_error_app1.
  apply nth_error_Some. congruence.
Qed.
Lemma cache_all_facts l : forall st, good rescale st -> distinct st -> Forall (fun i => i < length (imgs st)) l ->
  exists st', cache_all rescale l st = (st', Ok tt) /\ grown st st' /\ good rescale st' /\ distinct st' /\
   (forall i im, nth_error (imgs st) i = Some im -> exists im', nth_error (imgs st') i = Some im' /\ hi_file im' = hi_file im /\ hi_cam im' = hi_cam im /\
      held st' im' = if in_dec Nat.eq_dec i l then Some (picture rescale im) else held st im) .
Proof.
  induction l as [|j l IH]; intros st Gd Ds Fl.
  - exists st. split; [reflexivity|]. split; [apply grown_refl|]. split; [exact Gd|]. split; [exact Ds|]. intros i im E. exists im. auto.
  - inversion Fl as [|? ? Hj Fl']; subst. destruct (nth_error (imgs st) j) as [jm|] eqn:J; [|apply nth_error_None in J; lia].
    destruct (cache_one st j jm Gd Ds J) as (a & st1 & jm' & R1 & Gw & Gd1 & Ds1 & Im & Hd & Fj & Cj).
    destruct (IH st1 Gd1 Ds1) as (st2 & E2 & Gw2 & Gd2 & Ds2 & H2).
    { rewrite (grown_imgs st st1 Gw). exact Fl'. }
    exists st2. cbn [cache_all]. rewrite R1. split; [exact E2|]. split; [exact (grown_trans _ _ _ Gw Gw2)|]. split; [exact Gd2|]. split; [exact Ds2|].
    intros i im E. destruct (Nat.eq_dec j i) as [->|N].
    + rewrite E in J. injection J as <-. assert (E1 : nth_error (imgs st1) i = Some jm') by (rewrite Im; apply nth_error_set_nth_eq; exact Hj).
      destruct (H2 i jm' E1) as (im2 & E2' & F2 & C2 & Hd2). exists im2. split; [exact E2'|]. split; [congruence|]. split; [congruence|].
      rewrite Hd2. destruct (in_dec Nat.eq_dec i (i :: l)) as [_|NI]; [|exfalso; apply NI; now left].
      destruct (in_dec Nat.eq_dec i l); [unfold picture; congruence|exact Hd].
    + assert (E1 : nth_error (imgs st1) i = Some im) by (rewrite Im, nth_error_set_nth_neq by assumption; exact E).
      destruct (H2 i im E1) as (im2 & E2' & F2 & C2 & Hd2). exists im2. split; [exact E2'|]. split; [congruence|]. split; [congruence|].
      rewrite Hd2, (held_grown st st1 im Gw (Gd i im E)). destruct (in_dec Nat.eq_dec i l) as [Y|Nl]; destruct (in_dec Nat.eq_dec i (j :: l)) as [Y'|Nl']; try reflexivity.
      * exfalso. apply Nl'. now right.
      * exfalso. destruct Y' as [->|Y']; [now apply N|now apply Nl].
Qed.
(** clearing *)
Lemma clear_image_at st i j : nth_error (imgs (clear_image i st)) j =
  option_map (fun im => if Nat.eq_dec i j then mk_himage (hi_file im) (hi_cam im) None else im) (nth_error (imgs st) j).
Proof.
  unfold clear_image. destruct (nth_error (imgs st) i) as [im|] eqn:E; cbn [imgs].
  - assert (L : i < length (imgs st)) by (apply nth_error_Some; congruence). destruct (Nat.eq_dec i j) as [<-|N].
    + rewrite nth_error_set_nth_eq by assumption. now rewrite E.
    + rewrite nth_error_set_nth_neq by assumption. now destruct (nth_error (imgs st) j).
  - destruct (Nat.eq_dec i j) as [<-|N]; [now rewrite E|]. now destruct (nth_error (imgs st) j).
Qed.
Lemma clear_image_bufs st i : bufs (clear_image i st) = bufs st.
Proof. unfold clear_image. now destruct (nth_error (imgs st) i). Qed.
Lemma clear_all_facts l : forall st, bufs (fold_left (fun st i => clear_image i st) l st) = bufs st /\
  forall j, nth_error (imgs (fold_left (fun st i => clear_image i st) l st)) j =
    option_map (fun im => if in_dec Nat.eq_dec j l then mk_himage (hi_file im) (hi_cam im) None else im) (nth_error (imgs st) j).
Proof.
  induction l as [|i l IH]; intros st; cbn [fold_left].
  - split; [reflexivity|]. intros j. destruct (nth_error (imgs st) j); reflexivity.
  - destruct (IH (clear_image i st)) as [B H]. rewrite clear_image_bufs in B. split; [exact B|]. intros j. rewrite H, clear_image_at.
    destruct (nth_error (imgs st) j) as [im|]; [|reflexivity]. cbn [option_map]. apply (f_equal Some).
    destruct (in_dec Nat.eq_dec j l) as [Y|N]; destruct (in_dec Nat.eq_dec j (i :: l)) as [Y'|N']; destruct (Nat.eq_dec i j) as [E|NE]; try reflexivity; cbn [hi_file hi_cam]; exfalso.
    + apply N'. now right.
    + apply N'. now right.
    + destruct Y' as [Y'|Y']; [now apply NE|now apply N].
    + apply N'. now left.
Qed.
(** states whose images are the same up to less being cached *)
Lemma good_less st st' : bufs st' = bufs st ->
  (forall j jm', nth_error (imgs st') j = Some jm' -> exists jm, nth_error (imgs st) j = Some jm /\ hi_file jm' = hi_file jm /\ positive (hi_cam jm') /\ (hi_array jm' = hi_array jm \/ hi_array jm' = None)) ->
  good rescale st -> distinct st -> good rescale st' /\ distinct st'.
Proof.
  intros B H Gd Ds. split.
  - intros j jm' J. destruct (H j jm' J) as (jm & E & F & P & A). destruct (Gd j jm E) as (G1 & _ & G3). split; [congruence|]. split; [exact P|].
    destruct A as [A|A]; rewrite A; [|exact Logic.I]. destruct (hi_array jm); [|exact Logic.I]. rewrite B, F. exact G3.
  - intros i j im' jm' k I J A1 A2. destruct (H i im' I) as (im & Ei & _ & _ & Ai). destruct (H j jm' J) as (jm & Ej & _ & _ & Aj).
    destruct Ai as [Ai|Ai]; [|congruence]. destruct Aj as [Aj|Aj]; [|congruence]. apply (Ds i j im jm k); congruence.
Qed.
Lemma clear_all_good l st : good rescale st -> distinct st ->
  good rescale (fold_left (fun st i => clear_image i st) l st) /\ distinct (fold_left (fun st i => clear_image i st) l st).
Proof.
  intros Gd Ds. destruct (clear_all_facts l st) as [B H]. apply (good_less st); [exact B| |exact Gd|exact Ds].
  intros j jm' J. rewrite H in J. destruct (nth_error (imgs st) j) as [jm|] eqn:E; [|discriminate]. cbn [option_map] in J. injection J as <-.
  exists jm. destruct (Gd j jm E) as (_ & P & _). destruct (in_dec Nat.eq_dec j l); cbn [hi_file hi_cam hi_array]; auto.
Qed.
Lemma resize_good i n st : positive n -> good rescale st -> distinct st -> good rescale (resize_image i n st) /\ distinct (resize_image i n st) /\ bufs (resize_image i n st) = bufs st /\ map (@hi_file V) (imgs (resize_image i n st)) = map (@hi_file V) (imgs st).
Proof.
  intros P Gd Ds. unfold resize_image. destruct (nth_error (imgs st) i) as [im|] eqn:E; [|auto].
  assert (L : i < length (imgs st)) by (apply nth_error_Some; congruence).
  rewrite <- and_assoc. split; [|split; [reflexivity|cbn [imgs]; apply (map_set_same _ i im); [exact E|reflexivity]]].
  apply (good_less st); [reflexivity| |exact Gd|exact Ds]. cbn [imgs]. intros j jm' J. destruct (Nat.eq_dec i j) as [<-|N].
  - rewrite nth_error_set_nth_eq in J by assumption. injection J as <-. exists im. cbn [hi_file hi_cam hi_array]. auto.
  - rewrite nth_error_set_nth_neq in J by assumption. exists jm'. destruct (Gd j jm' J) as (_ & Q & _). auto.
Qed.
(** writing into an array whose buffer no image holds *)
Lemma write_good a w st : unheld st a -> good rescale st -> distinct st -> good rescale (write_array a w st) /\ distinct (write_array a w st).
Proof.
  intros U Gd Ds. unfold write_array. destruct (nth_error (bufs st) (a_buf a)) as [p|] eqn:E; [|auto]. split; [|exact Ds].
  intros i im I. cbn [imgs] in I. destruct (Gd i im I) as (F & P & A). split; [exact F|]. split; [exact P|]. destruct (hi_array im) as [k|] eqn:K; [|exact Logic.I].
  destruct A as (q & Q & A). exists q. split; [|exact A]. cbn [bufs]. rewrite nth_error_set_nth_neq; [exact Q|].
  intros <-. exact (U im (nth_error_In _ _ I) K).
Qed.
Lemma write_len a w st : length (bufs (write_array a w st)) = length (bufs st) /\ imgs (write_array a w st) = imgs st.
Proof. unfold write_array. destruct (nth_error (bufs st) (a_buf a)); [|auto]. cbn [bufs imgs]. now rewrite set_nth_length. Qed.
End C.

(** ** programs *)
Section Prog.
Variable rescale : pic (list R) -> Z * Z -> pic (list R).
Variable spline : list R -> list R -> tile -> R -> R -> R.
Variable cast : R -> R.
Hypothesis GR : good_rescale rescale.
Definition pinv (files : list (pic (list R))) (s : pstate) : Prop :=
  good rescale (p_store s) /\ distinct (p_store s) /\ map (@hi_file _) (imgs (p_store s)) = files /\
  (forall a, In a (p_arrays s) -> a_buf a < length (bufs (p_store s))) /\
  (forall o i, In o (p_obs s) -> In i (o_images o) -> i < length (imgs (p_store s))).
Lemma read_grown st i im box cache a st' : good rescale st -> distinct st -> nth_error (imgs st) i = Some im -> read_image rescale i box cache st = Ok (a, st') ->
  grown st st' /\ good rescale st' /\ distinct st' /\ a_buf a < length (bufs st').
Proof.
  intros Gd Ds E R1. destruct (read_facts rescale GR st i im box cache a st' Gd Ds E R1) as (p & sh & s' & im' & ext & _ & _ & B & Im & F & Cm & _ & _ & L & Gd' & Ds').
  split; [|auto]. split; [now exists ext|]. rewrite Im. split; apply (map_set_same _ i im); assumption.
Qed.
Lemma pinv_grown files s st' arrs : pinv files s -> grown (p_store s) st' -> good rescale st' -> distinct st' -> (forall a, In a arrs -> In a (p_arrays s) \/ a_buf a < length (bufs st')) ->
  pinv files (mk_pstate st' (p_obs s) arrs).
Proof.
  intros (G1 & D1 & F & A & O) Gw Gd Ds HA. pose proof (grown_len _ _ Gw). pose proof (grown_imgs _ _ Gw) as LI. destruct Gw as (_ & F' & _).
  split; [exact Gd|]. split; [exact Ds|]. cbn [p_store p_obs p_arrays]. split; [congruence|]. split.
  - intros a Ia. destruct (HA a Ia) as [Q|Q]; [|exact Q]. specialize (A a Q). lia.
  - intros o i Io Ii. rewrite LI. now apply (O o).
Qed.
Lemma py_get_in {A} (l : list A) i x : py_get l i = Ok x -> In x l.
Proof. unfold py_get. destruct (py_index l i) as [k|e]; cbn [bind]; [|discriminate]. destruct (nth_error l (Z.to_nat k)) eqn:E; [|discriminate]. intros Q. injection Q as <-. now apply nth_error_In in E. Qed.
Lemma py_slice_incl {A} (l : list A) n i j x : In x (py_slice l n i j) -> In x l.
Proof. unfold py_slice. intros H. now apply in_firstn, in_skipn in H. Qed.
Lemma pick_in o ix l i : pick o ix = Ok l -> In i l -> In i (o_images o).
Proof.
  destruct ix as [lo hi|z]; cbn [pick].
  - intros Q. injection Q as <-. apply py_slice_incl.
  - revert l. induction z as [|x z IH]; intros l; cbn [mapM]; [intros Q; injection Q as <-; contradiction|].
    destruct (py_get (o_images o) x) as [y|] eqn:E; cbn [bind]; [|discriminate]. destruct (mapM (py_get (o_images o)) z) as [ys|]; cbn [bind]; [|discriminate].
    intros Q. injection Q as <-. intros [<-|H]; [now apply py_get_in in E|now apply (IH ys)].
Qed.
Lemma pinv_step files s x : pinv files s -> clean_op s x -> pinv files (ostep rescale spline cast s x).
Proof.
  intros I0 Cl. pose proof I0 as (Gd & Ds & F & A & O). destruct x as [o box img|i box cache|o ix|o ix|o c|o mask|i n|o box img f|k kx ky duv]; cbn [ostep].
  - destruct (nth_error (p_obs s) o) as [ob|] eqn:Eo; [|exact I0]. unfold extract_tile. destruct (py_get (o_images ob) img) as [i|] eqn:Ei; cbn [bind]; [|exact I0].
    destruct (read_image rescale i (Some box) (o_cache ob) (p_store s)) as [[a st']|] eqn:Er; cbn [got]; [|exact I0].
    assert (Li : i < length (imgs (p_store s))) by (apply (O ob); [now apply nth_error_In in Eo|now apply py_get_in in Ei]).
    destruct (nth_error (imgs (p_store s)) i) as [im|] eqn:Em; [|apply nth_error_None in Em; lia].
    destruct (read_grown _ _ _ _ _ _ _ Gd Ds Em Er) as (Gw & Gd' & Ds' & L). apply pinv_grown; try assumption. intros b Ib. apply in_app_iff in Ib. destruct Ib as [Ib|[<-|[]]]; auto.
  - destruct (read_image rescale i box cache (p_store s)) as [[a st']|] eqn:Er; cbn [got]; [|exact I0].
    destruct (nth_error (imgs (p_store s)) i) as [im|] eqn:Em; [|unfold read_image in Er; rewrite Em in Er; discriminate].
    destruct (read_grown _ _ _ _ _ _ _ Gd Ds Em Er) as (Gw & Gd' & Ds' & L). apply pinv_grown; try assumption. intros b Ib. apply in_app_iff in Ib. destruct Ib as [Ib|[<-|[]]]; auto.
  - destruct (nth_error (p_obs s) o) as [ob|] eqn:Eo; [|exact I0]. unfold cache_images. destruct (pick ob ix) as [l|] eqn:Ep; cbn [fst with_store]; [|destruct s; exact I0].
    destruct (cache_all_facts rescale GR l (p_store s) Gd Ds) as (st' & E' & Gw & Gd' & Ds' & _).
    { apply Forall_forall. intros i Ii. apply (O ob); [now apply nth_error_In in Eo|now apply (pick_in ob ix l)]. }
    rewrite E'. cbn [fst]. apply pinv_grown; auto.
  - destruct (nth_error (p_obs s) o) as [ob|] eqn:Eo; [|exact I0]. unfold clear_images. destruct (pick ob ix) as [l|] eqn:Ep; cbn [fst with_store]; [|destruct s; exact I0].
    destruct (clear_all_facts l (p_store s)) as [B H]. destruct (clear_all_good rescale l (p_store s) Gd Ds) as [Gd' Ds'].
    set (st' := fold_left (fun st i => clear_image i st) l (p_store s)) in *.
    assert (MF : map (@hi_file _) (imgs st') = map (@hi_file _) (imgs (p_store s))).
    { apply nth_error_ext. intros j. rewrite !nth_error_map, H. destruct (nth_error (imgs (p_store s)) j) as [im|]; [|reflexivity]. cbn [option_map]. now destruct (in_dec Nat.eq_dec j l). }
    split; [exact Gd'|]. split; [exact Ds'|]. cbn [p_store p_obs p_arrays with_store]. split; [congruence|]. rewrite B. split; [exact A|].
    intros o' i Io Ii. rewrite <- (map_length (@hi_file _)), MF, map_length. now apply (O o').
  - destruct (nth_error (p_obs s) o) as [ob|] eqn:Eo; [|exact I0]. split; [exact Gd|]. split; [exact Ds|]. split; [exact F|]. split; [exact A|]. cbn [p_obs p_store].
    intros o' i Io Ii. apply In_nth_error in Io. destruct Io as [j Ej]. assert (Lo : o < length (p_obs s)) by (apply nth_error_Some; congruence). destruct (Nat.eq_dec o j) as [<-|N].
    + rewrite nth_error_set_nth_eq in Ej by assumption. injection Ej as <-. cbn [o_images] in Ii. apply (O ob); [now apply nth_error_In in Eo|exact Ii].
    + rewrite nth_error_set_nth_neq in Ej by assumption. apply (O o'); [now apply nth_error_In in Ej|exact Ii].
  - destruct (nth_error (p_obs s) o) as [ob|] eqn:Eo; [|exact I0]. unfold subset_observer. destruct (_ <? 2); [exact I0|].
    split; [exact Gd|]. split; [exact Ds|]. split; [exact F|]. split; [exact A|]. cbn [p_obs p_store]. intros o' i Io Ii. apply in_app_iff in Io. destruct Io as [Io|[<-|[]]]; [now apply (O o')|].
    cbn [o_images] in Ii. apply in_map_iff in Ii. destruct Ii as ([j b] & <- & Ij). apply filter_In in Ij. destruct Ij as [Ij _]. apply in_combine_l in Ij. apply (O ob); [now apply nth_error_In in Eo|exact Ij].
  - cbn [clean_op] in Cl. destruct (resize_good rescale i n (p_store s) Cl Gd Ds) as (Gd' & Ds' & B & MF).
    split; [exact Gd'|]. split; [exact Ds'|]. cbn [p_store p_obs p_arrays with_store]. split; [congruence|]. rewrite B. split; [exact A|].
    intros o' j Io Ij. rewrite <- (map_length (@hi_file _)), MF, map_length. now apply (O o').
  - destruct (nth_error (p_obs s) o) as [ob|] eqn:Eo; [|exact I0]. unfold extract_tile. destruct (py_get (o_images ob) img) as [i|] eqn:Ei; cbn [bind]; [|exact I0].
    destruct (read_image rescale i (Some box) (o_cache ob) (p_store s)) as [[a st']|] eqn:Er; cbn [got]; [|exact I0].
    assert (Li : i < length (imgs (p_store s))) by (apply (O ob); [now apply nth_error_In in Eo|now apply py_get_in in Ei]).
    destruct (nth_error (imgs (p_store s)) i) as [im|] eqn:Em; [|apply nth_error_None in Em; lia].
    destruct (read_grown _ _ _ _ _ _ _ Gd Ds Em Er) as (Gw & Gd' & Ds' & L). destruct (contents st' a) as [p|].
    + unfold new_array. cbn [got]. assert (Gw2 : grown st' (mk_store (bufs st' ++ [f p]) (imgs st'))) by (split; [now exists [f p]|auto]).
      apply pinv_grown; [exact I0|exact (grown_trans _ _ _ Gw Gw2)| |exact Ds'|].
      * intros j jm Ej. cbn [imgs] in Ej. apply (good_image_ext rescale st' _ [f p]); [reflexivity|now apply (Gd' j)].
      * intros b Ib. apply in_app_iff in Ib. destruct Ib as [Ib|[<-|[]]]; [now left|right]. cbn [a_buf bufs]. rewrite app_length. cbn [length]. lia.
    + unfold with_store. apply pinv_grown; auto.
  - destruct (nth_error (p_arrays s) k) as [a|] eqn:Ek; [|exact I0]. destruct (contents (p_store s) a) as [p|]; [|exact I0].
    destruct (shift_tile spline cast kx ky duv p) as [w|]; [|exact I0]. cbn [clean_op] in Cl.
    destruct (write_good rescale a w (p_store s) (Cl a Ek) Gd Ds) as [Gd' Ds']. destruct (write_len a w (p_store s)) as [LB LI].
    split; [exact Gd'|]. split; [exact Ds'|]. cbn [p_store p_obs p_arrays with_store]. rewrite LB, LI. auto.
Qed.
Lemma pinv_start files obs : good_files files -> (forall o i, In o obs -> In i (o_images o) -> i < length files) -> pinv (map fst files) (pstart files obs).
Proof.
  intros Gf O. unfold pstart. split; [|split; [|split; [|split]]]; cbn [p_store p_obs p_arrays imgs bufs].
  - intros i im E. cbn [imgs] in E. rewrite nth_error_map in E. destruct (nth_error files i) as [fs|] eqn:Q; [|discriminate]. injection E as <-.
    apply nth_error_In in Q. unfold good_files in Gf. rewrite Forall_forall in Gf. destruct (Gf fs Q). split; [assumption|]. split; [assumption|exact Logic.I].
  - intros i j im jm k Ei _ A. cbn [imgs] in Ei. rewrite nth_error_map in Ei. destruct (nth_error files i); [|discriminate]. injection Ei as <-. discriminate.
  - rewrite map_map. reflexivity.
  - contradiction.
  - intros o i Io Ii. rewrite map_length. now apply (O o).
Qed.
Lemma pinv_run files s0 s : clean_run rescale spline cast s0 s -> pinv files s0 -> pinv files s.
Proof. induction 1 as [|s0 s x _ IH Cl]; [auto|]. intros I. apply pinv_step; auto. Qed.
End Prog.
