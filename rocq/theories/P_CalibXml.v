(** C107: calibration files in XML (Agisoft.from_xml, OpenCV.from_xml). *)
From Coq Require Import String Ascii.
From Verif Require Import Base HelpersModel CameraModel ConvertModel SvgModel SvgDocModel CalibModel RegexProofs.
Notation length := List.length.
Open Scope char_scope.

(** ** Specification *)
(** the last child with that tag that has text *)
Definition last_text (kids : list xelt) (k t : text) : Prop :=
  exists before c after, kids = before ++ c :: after /\ xtag c = k /\ xtext c = t /\ t <> [] /\ (forall d, In d after -> xtag d = k -> xtext d = []).
Definition no_text (kids : list xelt) (k : text) : Prop := forall d, In d kids -> xtag d = k -> xtext d = [].
Definition states (rf : text -> result R) (kids : list xelt) (k : string) (v : R) : Prop := exists t, last_text kids (T k) t /\ rf t = Ok v.
Definition states_or_0 rf kids k v : Prop := states rf kids k v \/ (v = 0%R /\ no_text kids (T k)).
(** the first element with that tag, in document order *)
Definition first_element (tag : string) (root e : xelt) : Prop :=
  exists before after, xiter root = before ++ e :: after /\ xtag e = T tag /\ forall d, In d before -> xtag d <> T tag.
Definition parameters : list text := map T ["width"; "height"; "f"; "cx"; "cy"; "k1"; "k2"; "k3"; "k4"; "p1"; "p2"; "b1"; "b2"]%string.
Definition frame_only (kids : list xelt) : Prop := forall c, In c kids -> xtag c = T "projection" -> xtext c = T "frame".
Definition readable (rf : text -> result R) (kids : list xelt) : Prop := forall c, In c kids -> In (xtag c) parameters -> xtext c <> [] -> exists v, rf (xtext c) = Ok v.

(** ** Agisoft *)
Lemma teqb_true a b : teqb a b = true <-> a = b.
Proof. unfold teqb. destruct (list_eq_dec ascii_dec a b); split; intros; congruence. Qed.
Lemma teqb_refl a : teqb a a = true. Proof. now apply teqb_true. Qed.
Lemma teqb_neq a b : a <> b -> teqb a b = false.
Proof. unfold teqb. destruct (list_eq_dec ascii_dec a b); congruence. Qed.
Lemma keys_in k : existsb (teqb k) ag_keys = true <-> In k parameters.
Proof. change parameters with ag_keys. rewrite existsb_exists. split; [intros (x & H & E); apply teqb_true in E; now subst | intros H; exists k; split; [exact H | apply teqb_refl]]. Qed.

Lemma foldM_app {A B} (f : A -> B -> result A) l l' a : foldM f (l ++ l') a = bind (foldM f l a) (foldM f l').
Proof. revert a; induction l as [|x l IH]; intros a; [reflexivity|]. cbn [app foldM]. destruct (f a x) as [b|e]; cbn; [apply IH | reflexivity]. Qed.

Lemma last_text_app kids c k t : last_text (kids ++ [c]) k t <-> (xtag c = k /\ xtext c = t /\ t <> []) \/ ((xtag c = k -> xtext c = []) /\ last_text kids k t).
Proof.
  split.
  - intros (b & d & a & E & E1 & E2 & N & H). destruct a as [|x a _] using rev_ind.
    + apply app_inj_tail in E as [-> ->]. left. auto.
    + rewrite app_comm_cons, app_assoc in E. apply app_inj_tail in E as [-> ->]. right. split.
      * intros. apply H; [apply in_or_app; right; now left | assumption].
      * exists b, d, a. repeat split; auto. intros d' Hd. apply H. apply in_or_app. now left.
  - intros [(E1 & E2 & N)|(H & b & d & a & -> & E1 & E2 & N & H')].
    + exists kids, c, []. repeat split; auto. intros d [].
    + exists b, d, (a ++ [c]). repeat split; auto; [now rewrite <- app_assoc|]. intros d' Hd. apply in_app_or in Hd as [Hd|[<-|[]]]; [now apply H' | exact H].
Qed.

Lemma ag_fold rf kids : match foldM (ag_child rf) kids [] with
  | Ok kw => frame_only kids /\ readable rf kids /\ forall k, In k parameters ->
       match get_ k kw with Some v => exists t, last_text kids k t /\ rf t = Ok v | None => no_text kids k end
  | Err e => (exists c, In c kids /\ xtag c = T "projection" /\ xtext c <> T "frame" /\ e = ValueError) \/ (exists c, In c kids /\ In (xtag c) parameters /\ xtext c <> [] /\ rf (xtext c) = Err e)
  end.
Proof.
  induction kids as [|c kids IH] using rev_ind; [cbn [foldM get_]; split; [intros ? []|]; split; [intros ? [] | intros ? _ ? []]|]. rewrite foldM_app. destruct (foldM (ag_child rf) kids []) as [kw|e].
  2:{ cbn [bind]. destruct IH as [(d & Hd & H)|(d & Hd & H)]; [left | right]; exists d; (split; [apply in_or_app; now left | exact H]). }
  destruct IH as (F & Rd & H). cbn [bind foldM]. unfold ag_child.
  destruct (teqb (xtag c) (T "projection")) eqn:E1; cbn [andb].
  1:{ apply teqb_true in E1. assert (NK : existsb (teqb (xtag c)) ag_keys = false) by (rewrite E1; reflexivity).
      assert (NI : ~ In (xtag c) parameters) by (rewrite <- keys_in, NK; discriminate).
      destruct (teqb (xtext c) (T "frame")) eqn:E2; cbn [negb bind].
      - rewrite NK, andb_false_r. apply teqb_true in E2. cbn [bind]. repeat split.
        + intros d Hd. apply in_app_or in Hd as [Hd|[<-|[]]]; [now apply F | auto].
        + intros d Hd. apply in_app_or in Hd as [Hd|[<-|[]]]; [now apply Rd | tauto].
        + intros k Hk. specialize (H k Hk). assert (N : xtag c <> k) by congruence. destruct (get_ k kw).
          * destruct H as (t & L & Hr). exists t. split; [apply last_text_app; right; split; [congruence | exact L] | exact Hr].
          * intros d Hd. apply in_app_or in Hd as [Hd|[<-|[]]]; [now apply H | congruence].
      - left. exists c. repeat split; [apply in_or_app; right; now left | exact E1 | intros C; rewrite C, teqb_refl in E2; discriminate]. }
  assert (F' : frame_only (kids ++ [c])). { intros d Hd. apply in_app_or in Hd as [Hd|[<-|[]]]; [now apply F|]. intros C. rewrite C, teqb_refl in E1. discriminate. }
  destruct (existsb (teqb (xtag c)) ag_keys) eqn:NK.
  - apply keys_in in NK. rewrite andb_true_r. destruct (xtext c) as [|ch tx] eqn:E2.
    + cbn [bind]. repeat split; [exact F' | |].
      * intros d Hd. apply in_app_or in Hd as [Hd|[<-|[]]]; [now apply Rd | congruence].
      * intros k Hk. specialize (H k Hk). destruct (get_ k kw).
        -- destruct H as (t & L & Hr). exists t. split; [apply last_text_app; right; split; [congruence | exact L] | exact Hr].
        -- intros d Hd. apply in_app_or in Hd as [Hd|[<-|[]]]; [now apply H | congruence].
    + rewrite <- E2. destruct (rf (xtext c)) as [v|e] eqn:E3; cbn [bind].
      * repeat split; [exact F' | |].
        -- intros d Hd. apply in_app_or in Hd as [Hd|[<-|[]]]; [now apply Rd | eauto].
        -- intros k Hk. specialize (H k Hk). cbn [set_ get_]. destruct (teqb k (xtag c)) eqn:E4.
           ++ apply teqb_true in E4. exists (xtext c). split; [apply last_text_app; left; repeat split; congruence | exact E3].
           ++ assert (N : xtag c <> k) by (intros C; rewrite <- C, teqb_refl in E4; discriminate). destruct (get_ k kw).
              ** destruct H as (t & L & Hr). exists t. split; [apply last_text_app; right; split; [congruence | exact L] | exact Hr].
              ** intros d Hd. apply in_app_or in Hd as [Hd|[<-|[]]]; [now apply H | congruence].
      * right. exists c. repeat split; [apply in_or_app; right; now left | exact NK | congruence | exact E3].
  - rewrite andb_false_r. assert (NI : ~ In (xtag c) parameters) by (rewrite <- keys_in, NK; discriminate). cbn [bind]. repeat split; [exact F' | |].
    + intros d Hd. apply in_app_or in Hd as [Hd|[<-|[]]]; [now apply Rd | tauto].
    + intros k Hk. specialize (H k Hk). assert (N : xtag c <> k) by congruence. destruct (get_ k kw).
      * destruct H as (t & L & Hr). exists t. split; [apply last_text_app; right; split; [congruence | exact L] | exact Hr].
      * intros d Hd. apply in_app_or in Hd as [Hd|[<-|[]]]; [now apply H | congruence].
Qed.

Lemma last_text_unique kids k t t' : last_text kids k t -> last_text kids k t' -> t = t'.
Proof.
  induction kids as [|c kids IH] using rev_ind; [intros (b & d & a & E & _); now destruct b|]. rewrite !last_text_app.
  intros [(A1 & A2 & A3)|(A1 & A2)] [(B1 & B2 & B3)|(B1 & B2)]; [congruence | | | auto]; exfalso; [specialize (B1 A1) | specialize (A1 B1)]; congruence.
Qed.
Lemma last_no kids k t : last_text kids k t -> no_text kids k -> False.
Proof. intros (b & d & a & -> & E & E' & N & _) H. apply N. rewrite <- E'. apply H; [apply in_or_app; right; now left | exact E]. Qed.

Lemma find_first tag root : match find (fun e => teqb (xtag e) (T tag)) (xiter root) with Some e => first_element tag root e | None => forall e, In e (xiter root) -> xtag e <> T tag end.
Proof.
  unfold first_element. induction (xiter root) as [|e l IH]; cbn; [intros e []|]. destruct (teqb (xtag e) (T tag)) eqn:E.
  - apply teqb_true in E. exists [], l. repeat split; auto.
  - assert (N : xtag e <> T tag) by (intros C; rewrite C, teqb_refl in E; discriminate). destruct (find _ l).
    + destruct IH as (b & a & -> & H1 & H2). exists (e :: b), a. repeat split; auto. intros d [<-|Hd]; auto.
    + intros d [<-|Hd]; auto.
Qed.
Lemma first_unique tag root e e' : first_element tag root e -> first_element tag root e' -> e = e'.
Proof.
  intros (b & a & E & H1 & H2) (b' & a' & E' & H1' & H2'). rewrite E in E'. clear E. revert b' E' H2'; induction b as [|x b IH]; intros b' E' H2'.
  - destruct b' as [|y b']; cbn in E'; injection E' as -> _; [reflexivity|]. exfalso. apply (H2' y); [now left | exact H1].
  - destruct b' as [|y b']; cbn in E'; injection E' as -> E'; [exfalso; apply (H2 e'); [now left | exact H1']|]. apply (IH (fun d Hd => H2 d (or_intror Hd)) b' E' (fun d Hd => H2' d (or_intror Hd))).
Qed.

(** Reading an Agisoft file succeeds exactly if its first <calibration> element states numbers for width, height and f, no projection but "frame", and only numbers for the parameters; the camera has the last numbers stated, and 0 for parameters not stated. *)
Theorem agisoft_xml rf root a : ag_from_xml rf root = Ok a <->
  exists cal w h, first_element "calibration" root cal /\ frame_only (xkids cal) /\ readable rf (xkids cal) /\
    states rf (xkids cal) "width" w /\ states rf (xkids cal) "height" h /\ ag_imgsz a = (Rtrunc w, Rtrunc h) /\
    states rf (xkids cal) "f" (ag_f a) /\
    states_or_0 rf (xkids cal) "cx" (ag_cx a) /\ states_or_0 rf (xkids cal) "cy" (ag_cy a) /\
    states_or_0 rf (xkids cal) "k1" (ag_k1 a) /\ states_or_0 rf (xkids cal) "k2" (ag_k2 a) /\
    states_or_0 rf (xkids cal) "k3" (ag_k3 a) /\ states_or_0 rf (xkids cal) "k4" (ag_k4 a) /\
    states_or_0 rf (xkids cal) "p1" (ag_p1 a) /\ states_or_0 rf (xkids cal) "p2" (ag_p2 a) /\
    states_or_0 rf (xkids cal) "b1" (ag_b1 a) /\ states_or_0 rf (xkids cal) "b2" (ag_b2 a).
Proof.
  assert (P : forall k, In k ["width"; "height"; "f"; "cx"; "cy"; "k1"; "k2"; "k3"; "k4"; "p1"; "p2"; "b1"; "b2"]%string -> In (T k) parameters) by (intros k; apply in_map).
  unfold ag_from_xml. pose proof (find_first "calibration" root) as FF. destruct (find _ (xiter root)) as [[tg at_ tx kids tl]|].
  2:{ split; [discriminate|]. intros (cal & w & h & (b & c & E & E1 & _) & _). exfalso. apply (FF cal); [rewrite E; apply in_or_app; right; now left | exact E1]. }
  set (cal := XElt tg at_ tx kids tl) in *.
  assert (K : match kids with [] => Err ValueError | _ :: _ => (let* kw := foldM (ag_child rf) (xkids cal) [] in
    match get_ (T "width") kw, get_ (T "height") kw with
    | Some w, Some h => match get_ (T "f") kw with Some f => Ok (mk_ag (Rtrunc w, Rtrunc h) f (getd "cx" kw) (getd "cy" kw) (getd "k1" kw) (getd "k2" kw) (getd "k3" kw) (getd "k4" kw) (getd "p1" kw) (getd "p2" kw) (getd "b1" kw) (getd "b2" kw)) | None => Err TypeError end
    | _, _ => Err KeyError end) end = Ok a <-> exists w h, frame_only kids /\ readable rf kids /\ states rf kids "width" w /\ states rf kids "height" h /\ ag_imgsz a = (Rtrunc w, Rtrunc h) /\ states rf kids "f" (ag_f a) /\
    states_or_0 rf kids "cx" (ag_cx a) /\ states_or_0 rf kids "cy" (ag_cy a) /\ states_or_0 rf kids "k1" (ag_k1 a) /\ states_or_0 rf kids "k2" (ag_k2 a) /\
    states_or_0 rf kids "k3" (ag_k3 a) /\ states_or_0 rf kids "k4" (ag_k4 a) /\ states_or_0 rf kids "p1" (ag_p1 a) /\ states_or_0 rf kids "p2" (ag_p2 a) /\ states_or_0 rf kids "b1" (ag_b1 a) /\ states_or_0 rf kids "b2" (ag_b2 a)).
  2:{ transitivity (match kids with [] => Err ValueError | _ :: _ => (let* kw := foldM (ag_child rf) (xkids cal) [] in
    match get_ (T "width") kw, get_ (T "height") kw with
    | Some w, Some h => match get_ (T "f") kw with Some f => Ok (mk_ag (Rtrunc w, Rtrunc h) f (getd "cx" kw) (getd "cy" kw) (getd "k1" kw) (getd "k2" kw) (getd "k3" kw) (getd "k4" kw) (getd "p1" kw) (getd "p2" kw) (getd "b1" kw) (getd "b2" kw)) | None => Err TypeError end
    | _, _ => Err KeyError end) end = Ok a); [unfold cal at 1; destruct kids; reflexivity|]. rewrite K. split.
      - intros (w & h & H). exists cal, w, h. split; [exact FF | exact H].
      - intros (c' & w & h & Hc & H). rewrite (first_unique _ _ _ _ Hc FF) in H. exists w, h. exact H. }
  clear FF. subst cal. cbn [xkids]. split.
  - destruct kids as [|k0 kr]; [discriminate|]. set (kids := k0 :: kr) in *. pose proof (ag_fold rf kids) as FO. destruct (foldM _ kids []) as [kw|e]; [|discriminate]. cbn [bind]. destruct FO as (F & Rd & H).
    assert (G : forall k, In (T k) parameters -> match get_ (T k) kw with Some v => states rf kids k v | None => no_text kids (T k) end) by (intros k Hk; exact (H _ Hk)).
    assert (G0 : forall k, In (T k) parameters -> states_or_0 rf kids k (getd k kw)).
    { intros k Hk. specialize (G k Hk). unfold getd, states_or_0. destruct (get_ (T k) kw); [now left | right; auto]. }
    pose proof (G "width"%string (P "width"%string ltac:(cbn; tauto))) as Gw. pose proof (G "height"%string (P "height"%string ltac:(cbn; tauto))) as Gh. pose proof (G "f"%string (P "f"%string ltac:(cbn; tauto))) as Gf.
    destruct (get_ (T "width") kw) as [w|]; [|discriminate]. destruct (get_ (T "height") kw) as [h|]; [|discriminate]. destruct (get_ (T "f") kw) as [f|]; [|discriminate].
    intros [= <-]. exists w, h. cbn [ag_imgsz ag_f ag_cx ag_cy ag_k1 ag_k2 ag_k3 ag_k4 ag_p1 ag_p2 ag_b1 ag_b2].
    repeat (split; [first [assumption | reflexivity | apply G0, P; cbn; tauto]|]). apply G0, P; cbn; tauto.
  - intros (w & h & F & Rd & Hw & Hh & Sz & Hf & H). destruct kids as [|k0 kr]; [destruct Hw as (t & (b & d & a' & E & _) & _); now destruct b|]. set (kids := k0 :: kr) in *.
    pose proof (ag_fold rf kids) as FO. destruct (foldM _ kids []) as [kw|e]; cbn [bind].
    2:{ exfalso. destruct FO as [(c & Hc & H1 & H2 & _)|(c & Hc & H1 & H2 & H3)]; [apply H2, (F c Hc H1)|]. destruct (Rd c Hc H1 H2) as [v Hv]. congruence. }
    destruct FO as (_ & _ & G).
    assert (G1 : forall k v, In (T k) parameters -> states rf kids k v -> get_ (T k) kw = Some v).
    { intros k v Hk (t & L & Hr). specialize (G _ Hk). destruct (get_ (T k) kw) as [v'|]; [|destruct (last_no _ _ _ L G)]. destruct G as (t' & L' & Hr'). rewrite (last_text_unique _ _ _ _ L L') in Hr. congruence. }
    assert (G0 : forall k v, In (T k) parameters -> states_or_0 rf kids k v -> getd k kw = v).
    { intros k v Hk [Hv|[-> N]]; unfold getd; [now rewrite (G1 k v Hk Hv)|]. specialize (G _ Hk). destruct (get_ (T k) kw) as [v'|]; [|reflexivity]. destruct G as (t' & L' & _). destruct (last_no _ _ _ L' N). }
    rewrite (G1 "width"%string w (P "width"%string ltac:(cbn; tauto)) Hw), (G1 "height"%string h (P "height"%string ltac:(cbn; tauto)) Hh), (G1 "f"%string _ (P "f"%string ltac:(cbn; tauto)) Hf).
    destruct H as (H1 & H2 & H3 & H4 & H5 & H6 & H7 & H8 & H9 & H10). rewrite <- Sz.
    rewrite (G0 "cx"%string _ (P "cx"%string ltac:(cbn; tauto)) H1), (G0 "cy"%string _ (P "cy"%string ltac:(cbn; tauto)) H2), (G0 "k1"%string _ (P "k1"%string ltac:(cbn; tauto)) H3), (G0 "k2"%string _ (P "k2"%string ltac:(cbn; tauto)) H4),
      (G0 "k3"%string _ (P "k3"%string ltac:(cbn; tauto)) H5), (G0 "k4"%string _ (P "k4"%string ltac:(cbn; tauto)) H6), (G0 "p1"%string _ (P "p1"%string ltac:(cbn; tauto)) H7), (G0 "p2"%string _ (P "p2"%string ltac:(cbn; tauto)) H8),
      (G0 "b1"%string _ (P "b1"%string ltac:(cbn; tauto)) H9), (G0 "b2"%string _ (P "b2"%string ltac:(cbn; tauto)) H10). destruct a; reflexivity.
Qed.
Print Assumptions agisoft_xml.

(** The failures, for files whose parameters are numbers or texts that float refuses with ValueError *)
Theorem agisoft_xml_errors rf root e : (forall t x, rf t = Err x -> x = ValueError) -> ag_from_xml rf root = Err e ->
  match e with
  | ValueError => (forall cal, first_element "calibration" root cal -> xkids cal = [] \/ ~ frame_only (xkids cal) \/ ~ readable rf (xkids cal))
  | KeyError => exists cal, first_element "calibration" root cal /\ xkids cal <> [] /\ (no_text (xkids cal) (T "width") \/ no_text (xkids cal) (T "height"))
  | TypeError => exists cal, first_element "calibration" root cal /\ no_text (xkids cal) (T "f")
  | _ => False
  end.
Proof.
  intros V. unfold ag_from_xml. pose proof (find_first "calibration" root) as FF. destruct (find _ (xiter root)) as [cal|].
  2:{ intros [= <-]. intros cal (b & a & E & E1 & _). exfalso. apply (FF cal); [rewrite E; apply in_or_app; right; now left | exact E1]. }
  destruct cal as [tg at_ tx [|k0 kr] tl].
  { intros [= <-]. intros cal Hc. left. rewrite (first_unique _ _ _ _ Hc FF). reflexivity. }
  set (kids := k0 :: kr) in *. cbn [xkids]. pose proof (ag_fold rf kids) as FO. destruct (foldM _ kids []) as [kw|x]; cbn [bind].
  - destruct FO as (_ & _ & G).
    assert (P : forall k, In k ["width"; "height"; "f"; "cx"; "cy"; "k1"; "k2"; "k3"; "k4"; "p1"; "p2"; "b1"; "b2"]%string -> In (T k) parameters) by (intros k; apply in_map).
    pose proof (G _ (P "width"%string ltac:(cbn; tauto))) as Gw. pose proof (G _ (P "height"%string ltac:(cbn; tauto))) as Gh. pose proof (G _ (P "f"%string ltac:(cbn; tauto))) as Gf.
    destruct (get_ (T "width") kw); [destruct (get_ (T "height") kw); [destruct (get_ (T "f") kw); [discriminate|]|]|]; intros [= <-]; eexists; (split; [exact FF|]); cbn [xkids]; [exact Gf | |]; split; try discriminate; auto.
  - intros [= <-]. assert (x = ValueError) as -> by (destruct FO as [(c & _ & _ & _ & H)|(c & _ & _ & _ & H)]; [exact H | now apply V in H]).
    intros cal Hc. right. rewrite (first_unique _ _ _ _ Hc FF). cbn [xkids]. destruct FO as [(c & Hc' & H1 & H2 & _)|(c & Hc' & H1 & H2 & H3)].
    + left. intros C. apply H2, (C c Hc' H1).
    + right. intros C. destruct (C c Hc' H1 H2). congruence.
Qed.
Print Assumptions agisoft_xml_errors.
