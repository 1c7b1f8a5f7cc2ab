(** Property theorems about the animation of tracks: C118 (src/glimpse/track/tracks.py:293-491). *)
From Verif Require Import Base BaseLemmas HelpersModel GridModel TemplateModel ImageModel ObserverModel TrackModel TracksModel AnimateModel TracksAnimateModel.
From Coq Require Import Sorting.Sorted.
Open Scope R_scope.

(** ** Specification *)
(** the track has a solution at time i *)
Definition solved (means : list mean6) (i : nat) : Prop := exists m x, nth_error means i = Some m /\ nth 0 m None = Some x.
(** the observer has an image at time i *)
Definition imaged (column : list (option Z)) (i : nat) (k : Z) : Prop := nth_error column i = Some (Some k).
(** the times that can be shown, of those asked for *)
Definition showable (d : track_data) (column : list (option Z)) (frames : option (list Z)) (i : nat) : Prop :=
  solved (td_means d) i /\ (exists k, imaged column i k) /\ forall l, frames = Some l -> In (Z.of_nat i) l.
(** time units between two times *)
Definition steps (d : track_data) (i j : nat) : R := IZR (nth j (td_times d) 0%Z - nth i (td_times d) 0%Z) / IZR (td_unit d).

Lemma is_some_true {A} (o : option A) : is_some o = true <-> exists x, o = Some x.
Proof. destruct o; cbn; split; intros H; try discriminate; eauto. destruct H as [x H]; discriminate. Qed.
Lemma in_shown d column frames i : length column = length (td_means d) -> In i (shown_frames frames (td_means d) column) <-> showable d column frames i.
Proof.
  intros L. unfold shown_frames. rewrite filter_In, in_seq, !Bool.andb_true_iff, !is_some_true. unfold showable, solved, imaged. split.
  - intros (I & ((x & Ex) & (k & Ek)) & F). split; [|split].
    + exists (nth i (td_means d) []), x. split; [apply nth_error_nth'; lia|exact Ex].
    + exists k. rewrite <- Ek. apply nth_error_nth'. lia.
    + intros l ->. apply existsb_exists in F as (z & Iz & E). apply Z.eqb_eq in E. subst z. exact Iz.
  - intros ((m & x & Em & Ex) & (k & Ek) & F). assert (Li : (i < length (td_means d))%nat) by (apply nth_error_Some; congruence). split; [lia|]. split; [split|].
    + exists x. now rewrite (@nth_error_nth mean6 _ _ _ [] Em).
    + exists k. now rewrite (@nth_error_nth (option Z) _ _ _ None Ek).
    + destruct frames as [l|]; [|reflexivity]. apply existsb_exists. exists (Z.of_nat i). split; [now apply F|apply Z.eqb_refl].
Qed.
Lemma filter_seq_sorted (f : nat -> bool) : forall n s, StronglySorted lt (filter f (seq s n)).
Proof.
  induction n as [|n IH]; intros s; cbn [seq filter]; [constructor|]. destruct (f s); [|apply IH]. constructor; [apply IH|].
  apply Forall_forall. intros x I. apply filter_In in I as [I _]. apply in_seq in I. lia.
Qed.
Lemma sorted_ge_from (l : list nat) : StronglySorted lt l -> forall b, (forall y, In y l -> (b <= y)%nat) -> forall j x, nth_error l j = Some x -> (b + j <= x)%nat.
Proof.
  induction 1 as [|a l HS IH F]; intros b B j x E; [destruct j; discriminate|]. destruct j as [|j]; [cbn in E; injection E as <-; specialize (B a (or_introl eq_refl)); lia|]. cbn in E.
  specialize (IH (S b)). assert (G : (S b + j <= x)%nat); [|lia]. apply IH; [|exact E]. intros y I. rewrite Forall_forall in F. specialize (F y I). specialize (B a (or_introl eq_refl)). lia.
Qed.
Lemma sorted_ge (l : list nat) : StronglySorted lt l -> forall j x, nth_error l j = Some x -> (j <= x)%nat.
Proof. intros HS j x E. apply (sorted_ge_from l HS 0%nat); [lia|exact E]. Qed.
(** an ascending list below its length has no gaps *)
Lemma sorted_lt (l : list nat) : StronglySorted lt l -> forall u v x y, nth_error l u = Some x -> nth_error l v = Some y -> (u < v)%nat -> (x < y)%nat.
Proof.
  induction 1 as [|x0 l HS IH F]; intros u v x y A B Lt; [destruct u; discriminate|]. destruct v as [|v]; [lia|]. destruct u as [|u].
  - cbn in A, B. injection A as <-. rewrite Forall_forall in F. apply F. now apply nth_error_In in B.
  - apply (IH u v); [exact A|exact B|lia].
Qed.
Lemma nth_ext_err {A} : forall l l' : list A, (forall j, nth_error l j = nth_error l' j) -> l = l'.
Proof. induction l as [|a l IH]; intros [|b l'] H; [reflexivity|specialize (H 0%nat); discriminate|specialize (H 0%nat); discriminate|]. pose proof (H 0%nat) as E. injection E as <-. f_equal. apply IH. intros j. exact (H (S j)). Qed.
Lemma sorted_below (l : list nat) : StronglySorted lt l -> (forall x, In x l -> (x < length l)%nat) -> l = seq 0 (length l).
Proof.
  intros HS B.
  assert (K : forall m j x, length l = (j + S m)%nat -> nth_error l j = Some x -> (x <= j)%nat).
  { induction m as [|m IH]; intros j x Lm E.
    - apply nth_error_In, B in E. lia.
    - destruct (nth_error l (S j)) as [z|] eqn:Ez; [|apply nth_error_None in Ez; lia]. pose proof (sorted_lt l HS j (S j) x z E Ez ltac:(lia)). specialize (IH (S j) z ltac:(lia) Ez). lia. }
  assert (G : forall j x, nth_error l j = Some x -> x = j).
  { intros j x E. pose proof (sorted_ge l HS j x E). assert (Lj : (j < length l)%nat) by (apply nth_error_Some; congruence). specialize (K (length l - S j)%nat j x ltac:(lia) E). lia. }
  apply nth_ext_err. intros j. destruct (nth_error l j) as [x|] eqn:E.
  - rewrite (G j x E). assert (Lj : (j < length l)%nat) by (apply nth_error_Some; congruence). rewrite nth_error_nth' with (d := 0%nat) by (rewrite seq_length; exact Lj). now rewrite seq_nth by exact Lj.
  - symmetry. apply nth_error_None. rewrite seq_length. now apply nth_error_None.
Qed.

Section Theorems.
Context {V : Type}.
Variable rescale : pic V -> Z * Z -> pic V.

Lemma scales_nth timed times unit_ shown sc : shown <> [] -> frame_scales timed times unit_ shown = Ok sc -> length sc = (length shown - 1)%nat /\
  forall j a b, nth_error shown j = Some a -> nth_error shown (S j) = Some b -> nth_error sc j = Some (if timed then IZR (nth b times 0%Z - nth a times 0%Z) / IZR unit_ else 1).
Proof.
  intros N E. unfold frame_scales in E. destruct timed.
  - destruct (_ && _)%bool; [discriminate|]. injection E as <-. destruct shown as [|x l]; [contradiction|]. cbn [tl length]. clear N. split.
    + rewrite map2_length. cbn [length]. lia.
    + revert x. induction l as [|y l IH]; intros x j a b Ea Eb; [destruct j; discriminate|]. destruct j as [|j].
      * cbn in Ea, Eb. injection Ea as <-. injection Eb as <-. reflexivity.
      * cbn [map2 nth_error]. apply (IH y); assumption.
  - injection E as <-. rewrite repeat_length. split; [reflexivity|]. intros j a b Ea Eb. apply nth_error_repeat. assert ((S j < length shown)%nat) by (apply nth_error_Some; congruence). lia.
Qed.
Lemma removelast_nth {A} (l : list A) j x : nth_error (removelast l) j = Some x -> nth_error l j = Some x /\ exists y, nth_error l (S j) = Some y.
Proof.
  revert j. induction l as [|a l IH]; intros j E; [destruct j; discriminate|]. cbn [removelast] in E. destruct l as [|b l]; [destruct j; discriminate|]. destruct j as [|j].
  - cbn in E. injection E as <-. split; [reflexivity|]. cbn. eauto.
  - apply IH in E as (E1 & y & E2). split; [exact E1|]. exists y. exact E2.
Qed.
Lemma removelast_length {A} (l : list A) : length (removelast l) = (length l - 1)%nat.
Proof. induction l as [|a [|b l] IH]; [reflexivity|reflexivity|]. cbn [removelast length] in *. lia. Qed.

(** C118: an animation shows, in ascending order and once each, the requested times (all by default) at which the track has a solution
    and the observer an image, except the last of them; each scale is that of the step to the next of them *)
Theorem tracks_animate_frames : forall d frames images particles size (st st' : store V) a, (forall column, td_images d = Some column -> length column = length (td_means d)) ->
  animate_tracks rescale d frames images particles size st = Ok (a, st') ->
  exists column last, td_images d = Some column /\ StronglySorted lt (an_frames a ++ [last]) /\
  (forall i, In i (an_frames a ++ [last]) <-> showable d column frames i) /\
  length (an_scales a) = length (an_frames a) /\
  forall j i i', nth_error (an_frames a ++ [last]) j = Some i -> nth_error (an_frames a ++ [last]) (S j) = Some i' ->
    nth_error (an_scales a) j = Some (if particles || is_some (td_tracker d) then steps d i i' else 1).
Proof.
  intros d frames images particles size st st' a L E. unfold animate_tracks in E. destruct (td_images d) as [column|] eqn:Ec; [|discriminate]. specialize (L column eq_refl).
  destruct (shown_frames frames (td_means d) column) as [|i shown] eqn:Es; [discriminate|]. set (all := i :: shown) in *.
  assert (N : all <> []) by discriminate. exists column, (last all 0%nat).
  assert (Q : exists sc, frame_scales (particles || is_some (td_tracker d))%bool (td_times d) (td_unit d) all = Ok sc /\ a = mk_animation (removelast all) sc).
  { match type of E with (bind ?x _ = _) => destruct x as [st1|] end; [|discriminate]. cbn [bind] in E. destruct (frame_scales _ _ _ all) as [sc|]; [|discriminate]. cbn [bind] in E.
    match type of E with (bind ?x _ = _) => destruct x as [[]|] end; [|discriminate]. cbn [bind] in E. injection E as <- _. eauto. }
  destruct Q as (sc & Esc & ->). cbn [an_frames an_scales]. rewrite <- (app_removelast_last 0%nat N). split; [reflexivity|]. split; [|split; [|split]].
  - rewrite <- Es. unfold shown_frames. apply filter_seq_sorted.
  - intros j. rewrite <- Es. apply in_shown. exact L.
  - destruct (scales_nth _ _ _ _ _ N Esc) as [-> _]. now rewrite removelast_length.
  - intros j u v Eu Ev. destruct (scales_nth _ _ _ _ _ N Esc) as [_ H]. exact (H j u v Eu Ev).
Qed.

(** C118: without images of observers, or without any time to show, there is no animation *)
Theorem tracks_animate_nothing : forall d frames images particles size (st : store V),
  (td_images d = None -> animate_tracks rescale d frames images particles size st = Err TypeError) /\
  (forall column, td_images d = Some column -> length column = length (td_means d) -> (forall i, ~ showable d column frames i) ->
    animate_tracks rescale d frames images particles size st = Err IndexError).
Proof.
  intros d frames images particles size st. unfold animate_tracks. split; [intros ->; reflexivity|]. intros column -> L N.
  destruct (shown_frames frames (td_means d) column) as [|i l] eqn:E; [reflexivity|]. exfalso. apply (N i). apply in_shown; [exact L|]. rewrite E. now left.
Qed.

(** what a frame of time i shows *)
Definition shows (d : track_data) (t : tracker_view) (images particles : bool) (map_size : R * R) (size : Z * Z) (s : R) (i : nat) (m : mean6) (k : nat) (img : Z) (st : store V) (f : tframe) (st' : store V) : Prop :=
  (* the track so far *)
  tf_track f = map (fun p => (nth 0 p None, nth 1 p None)) (firstn (S i) (td_means d)) /\
  (* a window of the map about its last point *)
  (forall x, nth 0 m None = Some x -> tf_xlim f = Some (x - fst map_size / 2, x + fst map_size / 2)) /\
  (forall y, nth 1 m None = Some y -> tf_ylim f = Some (y - snd map_size / 2, y + snd map_size / 2)) /\
  (* an arrow from the last point by its velocity times s *)
  (forall x y vx vy, nth 0 m None = Some x -> nth 1 m None = Some y -> nth 3 m None = Some vx -> nth 4 m None = Some vy -> tf_arrow f = (Some x, Some y, Some (vx * s), Some (vy * s))) /\
  (* the image of this time is named *)
  tf_label f = k /\
  (* each particle with its weight and an arrow by its velocity times s *)
  (if particles then exists ps ws, td_particles d = Some ps /\ td_weights d = Some ws /\
     tf_particles f = Some (combine (map (fun p => (nth 0 p None, nth 1 p None, option_map (fun v => v * s) (nth 3 p None), option_map (fun v => v * s) (nth 4 p None))) (nth i ps [])) (nth i ws []))
   else tf_particles f = None) /\
  (* the track and the particles as this image sees them, and what the observer reads about its last point *)
  (if images then exists p, tf_image f = Some p /\ ip_track p = map (fun m => tv_proj t k (firstn 3 m)) (firstn (S i) (td_means d)) /\
     ip_particles p = (if particles then option_map (fun ps => map (fun q => tv_proj t k (firstn 3 q)) (nth i ps [])) (td_particles d) else None) /\
     last (ip_track p) None = Some (ip_point p) /\
     ip_xlim p = (fst (ip_point p) - IZR (fst size) / 2, fst (ip_point p) + IZR (fst size) / 2) /\
     ip_ylim p = (snd (ip_point p) + IZR (snd size) / 2, snd (ip_point p) - IZR (snd size) / 2) /\
     (exists im, nth_error (imgs st) k = Some im /\ tile_box (fst (hi_cam im)) (snd (hi_cam im)) (ip_point p) size = Ok (ip_box p)) /\
     extract_tile rescale (tv_observer t) (ip_box p) img st = Ok (ip_tile p, st')
   else tf_image f = None /\ st' = st).

Lemma py_get_last {A} (l : list A) x z : py_get l (-1) = Ok x -> last l z = x.
Proof.
  intros E. destruct l as [|a l]; [discriminate|]. unfold py_get, py_index in E. cbn [length] in E.
  destruct (Z.ltb_spec (-1) (- Z.of_nat (S (length l)))); [lia|]. cbn [Z.ltb Z.compare bind] in E. replace (Z.to_nat (Z.of_nat (S (length l)) + -1)) with (length l) in E by lia.
  clear H. revert a E. induction l as [|b l IH]; intros a E; cbn [length nth_error] in E; [cbn; congruence|]. change (last (a :: b :: l) z) with (last (b :: l) z). apply IH. exact E.
Qed.
Lemma draw_image_spec t img xyz particles size (st st' : store V) p : draw_image rescale t img xyz particles size st = Ok (p, st') ->
  exists k im, py_get (o_images (tv_observer t)) img = Ok k /\ nth_error (imgs st) k = Some im /\ ip_track p = map (tv_proj t k) xyz /\ ip_particles p = option_map (map (tv_proj t k)) particles /\ last (ip_track p) None = Some (ip_point p) /\
  ip_xlim p = (fst (ip_point p) - IZR (fst size) / 2, fst (ip_point p) + IZR (fst size) / 2) /\ ip_ylim p = (snd (ip_point p) + IZR (snd size) / 2, snd (ip_point p) - IZR (snd size) / 2) /\
  tile_box (fst (hi_cam im)) (snd (hi_cam im)) (ip_point p) size = Ok (ip_box p) /\ extract_tile rescale (tv_observer t) (ip_box p) img st = Ok (ip_tile p, st').
Proof.
  unfold draw_image. destruct (py_get (o_images (tv_observer t)) img) as [k|] eqn:Ek; [|discriminate]. cbn [bind]. destruct (nth_error (imgs st) k) as [im|] eqn:Ei; [|discriminate].
  destruct (py_get (map (tv_proj t k) xyz) (-1)) as [[uv|]|] eqn:Eu; [|discriminate|discriminate]. cbn [bind]. destruct (tile_box _ _ uv size) as [box|] eqn:Eb; [|discriminate]. cbn [bind].
  destruct (extract_tile rescale (tv_observer t) box img st) as [[a st1]|] eqn:Ex; [|discriminate]. cbn [bind]. intros Q. injection Q as <- <-. exists k, im. cbn.
  split; [reflexivity|]. split; [exact Ei|]. split; [reflexivity|]. split; [reflexivity|]. split; [exact (py_get_last _ _ None Eu)|]. split; [reflexivity|]. split; [reflexivity|]. split; [exact Eb|exact Ex].
Qed.

(** C118: what a frame shows if it is drawn: with the scale of the step from it to the next shown time if the shown times before it are
    0, 1, ..., i - 1 *)
Theorem tracks_animate_frame : forall d a images particles map_size size i (st st' : store V) f,
  update_plot rescale d a images particles map_size size i st = Ok (f, st') ->
  exists column img t k s, td_images d = Some column /\ nth i column None = Some img /\ td_tracker d = Some t /\ py_get (o_images (tv_observer t)) img = Ok k /\
  nth_error (an_scales a) i = Some s /\ shows d t images particles map_size size s i (nth i (td_means d) []) k img st f st'.
Proof.
  intros d a images particles map_size size i st st' f E. unfold update_plot in E. destruct (td_images d) as [column|] eqn:Ec; [|discriminate].
  destruct (nth i column None) as [img|] eqn:Ei; [|discriminate].
  match type of E with (bind ?x _ = _) => destruct x as [drawn|] eqn:Ed end; [|discriminate]. cbn [bind] in E.
  destruct (nth_error (an_scales a) i) as [s|] eqn:Es; [|discriminate]. cbn [bind] in E.
  match type of E with (bind ?x _ = _) => destruct x as [[plot st1]|] eqn:Ep end; [|discriminate]. cbn [bind] in E.
  destruct (td_tracker d) as [t|] eqn:Et; [|discriminate]. destruct (py_get (o_images (tv_observer t)) img) as [k|] eqn:Ek; [|discriminate]. cbn [bind] in E. injection E as <- <-.
  exists column, img, t, k, s. split; [reflexivity||exact Ec|]. split; [reflexivity||exact Ei|]. split; [reflexivity||exact Et|]. split; [exact Ek|]. split; [reflexivity||exact Es|]. unfold shows. cbn [tf_track tf_xlim tf_ylim tf_arrow tf_label tf_particles tf_image].
  split; [|split; [|split; [|split; [|split; [|split]]]]].
  - rewrite map_map. apply map_ext. intros m. destruct m as [|? [|? ?]]; reflexivity.
  - intros x ->. reflexivity.
  - intros y ->. reflexivity.
  - intros x y vx vy H0 H1 H3 H4. unfold arrow_of. rewrite H0, H1, H3, H4. reflexivity.
  - reflexivity.
  - destruct particles; [|injection Ed as <-; reflexivity]. destruct (td_particles d) as [ps|]; [|discriminate]. destruct (td_weights d) as [ws|]; [|discriminate]. injection Ed as <-. exists ps, ws. repeat split.
  - destruct images; [|injection Ep as <- <-; split; reflexivity].
    match type of Ep with (bind ?x _ = _) => destruct x as [[p st2]|] eqn:Eq end; [|discriminate]. cbn [bind] in Ep. injection Ep as <- <-.
    apply draw_image_spec in Eq as (k' & im & Ek' & Im & T & Pa & La & Xl & Yl & Bx & Ti). assert (k' = k) by congruence. subst k'. exists p. split; [reflexivity|].
    split; [now rewrite T, map_map|]. split; [rewrite Pa; destruct particles; [|reflexivity]; destruct (td_particles d) as [ps|]; cbn [option_map]; [|reflexivity]; now rewrite map_map|]. split; [exact La|]. split; [exact Xl|]. split; [exact Yl|]. split; [exists im; split; assumption|exact Ti].
Qed.

(** C118: a frame without images of a tracker with an image at this time is drawn exactly if its position in time is below the number of
    frames *)
Lemma update_plot_index d a images particles map_size size i (st : store V) f st' : update_plot rescale d a images particles map_size size i st = Ok (f, st') -> (i < length (an_scales a))%nat.
Proof. intros E. apply tracks_animate_frame in E as (? & ? & ? & ? & ? & _ & _ & _ & _ & E & _). apply nth_error_Some. congruence. Qed.
Lemma play_index d a images particles map_size size : forall l (st : store V) fs st', play rescale d a images particles map_size size l st = Ok (fs, st') -> forall i, In i l -> (i < length (an_scales a))%nat.
Proof.
  induction l as [|i l IH]; intros st fs st' E j I; [destruct I|]. cbn [play] in E. destruct (update_plot rescale d a images particles map_size size i st) as [[f st1]|] eqn:Eu; [|discriminate]. cbn [bind] in E.
  destruct (play rescale d a images particles map_size size l st1) as [[fs1 st2]|] eqn:Ep; [|discriminate]. destruct I as [->|I]; [now apply update_plot_index in Eu|now apply (IH _ _ _ Ep)].
Qed.
(** C118 finding: the scales are looked up by the time, not by the number of the frame.  So an animation is drawn to its end only if the
    frames are the times 0, 1, 2, ... without a gap; each other one ends with an error; and the frame of time i has the scale of the i-th
    shown step *)
Theorem tracks_animate_gaps_refuted : forall d frames images particles map_size size (st st1 st' : store V) a fs,
  (forall column, td_images d = Some column -> length column = length (td_means d)) ->
  animate_tracks rescale d frames images particles size st = Ok (a, st1) ->
  play rescale d a images particles map_size size (an_frames a) st1 = Ok (fs, st') -> an_frames a = seq 0 (length (an_frames a)).
Proof.
  intros d frames images particles map_size size st st1 st' a fs L E P. destruct (tracks_animate_frames d frames images particles size st st1 a L E) as (column & z & _ & S & _ & Ls & _).
  apply sorted_below.
  - clear - S. induction (an_frames a) as [|x l IH]; [constructor|]. cbn [app] in S. inversion S as [|? ? S' F]; subst. constructor; [now apply IH|]. rewrite Forall_app in F. apply F.
  - intros x I. rewrite <- Ls. apply (play_index _ _ _ _ _ _ _ _ _ _ P x I).
Qed.
(** the frames that fail, and the error: those at times not below the number of frames *)
Theorem tracks_animate_index_refuted : forall d a images particles map_size size i (st : store V) column img,
  td_images d = Some column -> nth i column None = Some img -> (length (an_scales a) <= i)%nat -> (particles = true -> td_particles d <> None /\ td_weights d <> None) ->
  update_plot rescale d a images particles map_size size i st = Err IndexError.
Proof.
  intros d a images particles map_size size i st column img Ec Ei L P. unfold update_plot. rewrite Ec, Ei. apply nth_error_None in L. rewrite L. destruct particles; [|reflexivity].
  destruct (P eq_refl) as [A B]. destruct (td_particles d); [|contradiction]. destruct (td_weights d); [|contradiction]. reflexivity.
Qed.
(** without gaps, without images and with a tracker whose observer has the images, the whole animation is drawn *)
Theorem tracks_animate_plain : forall d frames map_size size (st st1 : store V) a t,
  (forall column, td_images d = Some column -> length column = length (td_means d)) ->
  animate_tracks rescale d frames false false size st = Ok (a, st1) -> an_frames a = seq 0 (length (an_frames a)) ->
  td_tracker d = Some t -> (forall column i k, td_images d = Some column -> imaged column i k -> exists n, py_get (o_images (tv_observer t)) k = Ok n) ->
  exists fs, play rescale d a false false map_size size (an_frames a) st1 = Ok (fs, st1) /\ length fs = length (an_frames a) /\
  forall i f, nth_error fs i = Some f -> exists img k next s, imaged (match td_images d with Some c => c | None => [] end) i img /\ py_get (o_images (tv_observer t)) img = Ok k /\
    showable d (match td_images d with Some c => c | None => [] end) frames next /\ (i < next)%nat /\ (forall j, showable d (match td_images d with Some c => c | None => [] end) frames j -> (j <= i)%nat \/ (next <= j)%nat) /\ s = steps d i next /\
    shows d t false false map_size size s i (nth i (td_means d) []) k img st1 f st1.
Proof.
  intros d frames map_size size st st1 a t L E G T P. destruct (tracks_animate_frames d frames false false size st st1 a L E) as (column & z & Ec & S & Sh & Ls & Sc). rewrite Ec. specialize (L column Ec).
  set (n := length (an_frames a)) in *.
  assert (U : forall i, (i < n)%nat -> exists f, update_plot rescale d a false false map_size size i st1 = Ok (f, st1)).
  { intros i Li. assert (I : In i (an_frames a ++ [z])) by (apply in_app_iff; left; rewrite G; apply in_seq; lia). apply Sh in I as (_ & (k & Ik) & _). destruct (P column i k Ec Ik) as (m & Em).
    unfold update_plot. rewrite Ec. pose proof (nth_error_nth _ _ None Ik) as Ik'. rewrite Ik'. cbn [bind]. destruct (nth_error (an_scales a) i) as [s|] eqn:Es; [|apply nth_error_None in Es; lia]. cbn [bind]. rewrite T, Em. cbn [bind]. eauto. }
  assert (Pl : forall m i, (i + m <= n)%nat -> exists fs, play rescale d a false false map_size size (seq i m) st1 = Ok (fs, st1) /\ length fs = m /\ forall j f, nth_error fs j = Some f -> update_plot rescale d a false false map_size size (i + j) st1 = Ok (f, st1)).
  { induction m as [|m IH]; intros i Li; [exists []; split; [reflexivity|]; split; [reflexivity|]; intros [|j] f Q; discriminate|]. cbn [seq play]. destruct (U i) as (f & Ef); [lia|]. rewrite Ef. cbn [bind].
    destruct (IH (Datatypes.S i)) as (fs & Efs & Lf & H); [lia|]. rewrite Efs. cbn [bind]. exists (f :: fs). split; [reflexivity|]. split; [cbn; lia|]. intros [|j] g Q; cbn in Q.
    - injection Q as <-. now rewrite Nat.add_0_r.
    - replace (i + Datatypes.S j)%nat with (Datatypes.S i + j)%nat by lia. now apply H. }
  destruct (Pl n 0%nat) as (fs & Efs & Lf & H); [lia|]. rewrite G. fold n. exists fs. split; [exact Efs|]. split; [exact Lf|]. intros i f Q. pose proof (H i f Q) as Uf. cbn [plus] in Uf.
  assert (Li : (i < n)%nat) by (rewrite <- Lf; apply nth_error_Some; congruence).
  apply tracks_animate_frame in Uf as (column' & img & t' & k & s & Ec' & Ei & T' & Ek & Es & Hs). assert (column' = column) by congruence. assert (t' = t) by congruence. subst column' t'.
  assert (N1 : nth_error (an_frames a ++ [z]) i = Some i). { rewrite nth_error_app1 by (fold n; lia). rewrite G, nth_error_nth' with (d := 0%nat) by (rewrite seq_length; lia). now rewrite seq_nth by lia. }
  destruct (nth_error (an_frames a ++ [z]) (Datatypes.S i)) as [next|] eqn:N2; [|apply nth_error_None in N2; rewrite app_length in N2; cbn in N2; fold n in N2; lia].
  exists img, k, next, s. split.
  { apply nth_error_In in N1. apply Sh in N1 as (_ & (k' & Ik) & _). unfold imaged in *. rewrite (nth_error_nth _ _ None Ik) in Ei. congruence. }
  split; [exact Ek|]. split; [apply Sh; now apply nth_error_In in N2|].
  assert (Ord := sorted_lt _ S).
  split; [apply (Ord i (Datatypes.S i)); [exact N1|exact N2|lia]|]. split; [|split; [|exact Hs]].
  - intros j Hj. apply Sh in Hj. apply In_nth_error in Hj as [u Eu]. destruct (Nat.le_gt_cases u i) as [Le|Gt].
    + left. destruct (Nat.eq_dec u i) as [->|]; [assert (j = i) by congruence; lia|]. pose proof (Ord u i j i Eu N1 ltac:(lia)). lia.
    + right. destruct (Nat.eq_dec u (Datatypes.S i)) as [->|]; [assert (j = next) by congruence; lia|]. pose proof (Ord _ u next j N2 Eu ltac:(lia)). lia.
  - specialize (Sc i i next N1 N2). rewrite T in Sc. cbn [is_some orb] in Sc. congruence.
Qed.
(** C118 finding: without a tracker no frame can be drawn *)
Theorem tracks_animate_tracker_refuted : forall d a images particles map_size size i (st : store V), td_tracker d = None ->
  exists e, update_plot rescale d a images particles map_size size i st = Err e.
Proof.
  intros d a images particles map_size size i st T. destruct (update_plot rescale d a images particles map_size size i st) as [[f st']|e] eqn:E; [|eauto].
  apply tracks_animate_frame in E as (? & ? & ? & ? & ? & _ & _ & Q & _). congruence.
Qed.
End Theorems.
Print Assumptions tracks_animate_frames.
Print Assumptions tracks_animate_nothing.
Print Assumptions tracks_animate_frame.
Print Assumptions tracks_animate_gaps_refuted.
Print Assumptions tracks_animate_index_refuted.
Print Assumptions tracks_animate_plain.
Print Assumptions tracks_animate_tracker_refuted.

(** The hypotheses can be met: three times, all shown; and a first time without a solution, whose animation fails *)
Definition mean_ex (x : R) : mean6 := [Some x; Some (2 * x); Some 0; Some 1; Some 2; Some 0].
Definition tracker_ex : tracker_view := mk_tracker (mk_observer [0; 1; 2]%nat false) (fun _ _ => None).
Definition data_ex (first : mean6) : track_data := mk_track [first; mean_ex 1; mean_ex 2] [0; 5; 20]%Z 5%Z (Some [Some 0; Some 1; Some 2]%Z) None None (Some tracker_ex).
Definition store_ex : store R := mk_store [] [].
Example tracks_animate_ex : exists a fs, animate_tracks (fun p _ => p) (data_ex (mean_ex 0)) None false false (4, 4)%Z store_ex = Ok (a, store_ex) /\ an_frames a = [0; 1]%nat /\
  play (fun p _ => p) (data_ex (mean_ex 0)) a false false (20, 20) (4, 4)%Z (an_frames a) store_ex = Ok (fs, store_ex) /\ nth_error (map tf_arrow fs) 1 = Some (Some 1, Some (2 * 1), Some (1 * (15 / 5)), Some (2 * (15 / 5))).
Proof. do 2 eexists. split; [reflexivity|]. split; [reflexivity|]. split; [reflexivity|]. reflexivity. Qed.
Example tracks_animate_gaps_ex : exists a, animate_tracks (fun p _ => p) (data_ex [None; None; None; None; None; None]) None false false (4, 4)%Z store_ex = Ok (a, store_ex) /\ an_frames a = [1]%nat /\
  play (fun p _ => p) (data_ex [None; None; None; None; None; None]) a false false (20, 20) (4, 4)%Z (an_frames a) store_ex = Err IndexError.
Proof. eexists. split; [reflexivity|]. split; reflexivity. Qed.
