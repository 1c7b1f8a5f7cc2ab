(** Property C72: reading the elements of an SVG file into image coordinates. *)
From Coq Require Import String Ascii.
From Verif Require Import Base BaseLemmas SvgModel SvgProofs P_Svg P_Svg2.
Open Scope R_scope.

(** ** Specification *)
(** A drawn element: its transform (those of its groups before its own), tag and attributes. *)
Definition drawing := (text * string * list (string * text))%type.
Definition own (attrs : list (string * text)) : text := match find (fun p => String.eqb (fst p) "transform") attrs with Some p => snd p | None => [] end.
(** The name of an element: the value of its attribute [key] if it has one that is not empty, else its tag. *)
Definition ename (key : option string) (e : elt) : string :=
  match e with Elt tag attrs _ =>
    match key with
    | None => tag
    | Some k => match find (fun p => String.eqb (fst p) k) attrs with
                | Some (_, v) => if string_dec (string_of_list_ascii v) EmptyString then tag else string_of_list_ascii v
                | None => tag
                end
    end
  end.
Definition under {A} (k : string) (l : list (list string * A)) : list (list string * A) := map (fun x => (k :: fst x, snd x)) l.
(** The drawn elements of a tree in document order, each with the names of the groups on the way to it and its own name. *)
Fixpoint drawn (key : option string) (tf : text) (e : elt) : list (list string * drawing) :=
  match e with
  | Elt tag attrs children =>
    if has_points tag then [([], (tf ++ own attrs, tag, attrs))]
    else if is_group tag then concat (map (fun c => under (ename key c) (drawn key (tf ++ own attrs) c)) children)
    else []
  end.
(** The lists of points in a result, each with the keys on the way to it (positions in lists are not keys). *)
Fixpoint leaves (v : value) : list (list string * list rpt) :=
  match v with
  | Pts xy => [([], xy)]
  | Dict d => concat (map (fun p => under (fst p) (leaves (snd p))) d)
  | Lst l => concat (map leaves l)
  end.
Definition at_ {A} (path : list string) (l : list (list string * A)) : list A := map snd (filter (fun x => if list_eq_dec string_dec (fst x) path then true else false) l).
(* ---------------------------------------------------------------- *)

Lemma elt_ind' (P : elt -> Prop) : (forall tag attrs ch, Forall P ch -> P (Elt tag attrs ch)) -> forall e, P e.
Proof. intros H. fix IH 1. intros [tag attrs ch]. apply H. induction ch as [|c ch IHc]; constructor; [apply IH|exact IHc]. Qed.
Lemma value_ind' (P : value -> Prop) : (forall xy, P (Pts xy)) -> (forall d, Forall (fun p => P (snd p)) d -> P (Dict d)) -> (forall l, Forall P l -> P (Lst l)) -> forall v, P v.
Proof.
  intros H1 H2 H3. fix IH 1. intros [xy|d|l]; [apply H1|apply H2|apply H3].
  - induction d as [|p d IHd]; constructor; [apply IH|exact IHd].
  - induction l as [|x l IHl]; constructor; [apply IH|exact IHl].
Qed.
Lemma at_app {A} path (l1 l2 : list (list string * A)) : at_ path (l1 ++ l2) = at_ path l1 ++ at_ path l2.
Proof. unfold at_. now rewrite filter_app, map_app. Qed.
Lemma at_under {A} path k (l : list (list string * A)) : at_ path (under k l) = match path with k' :: r => if string_dec k k' then at_ r l else [] | [] => [] end.
Proof.
  unfold at_, under. induction l as [|[p a] l IH]; cbn [map filter fst snd]; [destruct path as [|k' r]; [reflexivity|destruct (string_dec k k'); reflexivity]|].
  destruct (list_eq_dec string_dec (k :: p) path) as [<-|N].
  - cbn [map snd]. rewrite IH. destruct (string_dec k k); [|contradiction]. destruct (list_eq_dec string_dec p p); [reflexivity|contradiction].
  - rewrite IH. destruct path as [|k' r]; [reflexivity|]. destruct (string_dec k k') as [->|]; [|reflexivity]. destruct (list_eq_dec string_dec p r) as [->|]; [contradiction|reflexivity].
Qed.
Lemma at_concat {A} path (ls : list (list (list string * A))) : at_ path (concat ls) = concat (map (at_ path) ls).
Proof. induction ls as [|l ls IH]; [reflexivity|]. cbn [concat map]. now rewrite at_app, IH. Qed.

(** ** Grouping by name keeps the order of the values of a name *)
Definition one (vs : list value) : value := match vs with [v] => v | vs => Lst vs end.
Lemma leaves_one vs : leaves (one vs) = concat (map leaves vs).
Proof. destruct vs as [|v [|w vs]]; cbn [one leaves map concat]; [reflexivity|now rewrite app_nil_r|reflexivity]. Qed.
Definition found (k : string) (ks : list string) (g : list (string * list value)) : list (list rpt) :=
  concat (map (fun p => if string_dec (fst p) k then at_ ks (concat (map leaves (snd p))) else []) g).
Lemma found_none k ks g : ~ In k (map fst g) -> found k ks g = [].
Proof. unfold found. induction g as [|[k' vs] g IH]; intros NI; [reflexivity|]. cbn [map fst snd concat] in *. destruct (string_dec k' k) as [->|]; [exfalso; apply NI; now left|]. cbn [app]. apply IH. intros H. apply NI. now right. Qed.
Lemma found_add k ks k' v g : NoDup (map fst g) -> found k ks (add_to k' v g) = found k ks g ++ (if string_dec k' k then at_ ks (leaves v) else []).
Proof.
  unfold found. induction g as [|[k0 vs] g IH]; intros ND; cbn [add_to map fst snd concat].
  - destruct (string_dec k' k); cbn; now rewrite ?app_nil_r.
  - inversion ND as [|? ? NI ND']; subst. destruct (String.eqb_spec k' k0) as [->|Ne]; cbn [map fst snd concat].
    + destruct (string_dec k0 k) as [->|]; [|now rewrite app_nil_r]. fold (found k ks g). rewrite (found_none k ks g NI), !app_nil_r. rewrite map_app, concat_app, at_app. cbn [map concat]. now rewrite app_nil_r.
    + rewrite IH by exact ND'. now rewrite app_assoc.
Qed.
Lemma add_to_keys k v g : forall x, In x (map fst (add_to k v g)) <-> x = k \/ In x (map fst g).
Proof.
  induction g as [|[k0 vs] g IH]; intros x; cbn [add_to map fst In]; [intuition|]. destruct (String.eqb_spec k k0) as [->|Ne]; cbn [map fst In]; [intuition|]. rewrite IH. intuition.
Qed.
Lemma add_to_nodup k v g : NoDup (map fst g) -> NoDup (map fst (add_to k v g)).
Proof.
  induction g as [|[k0 vs] g IH]; intros ND; cbn [add_to map fst]; [repeat constructor; intros []|]. inversion ND as [|? ? NI ND']; subst. destruct (String.eqb_spec k k0) as [->|Ne]; cbn [map fst]; [exact ND|]. constructor; [|now apply IH]. rewrite add_to_keys. intros [->|H]; [now apply Ne|contradiction].
Qed.
Lemma found_fold k ks l : forall g, NoDup (map fst g) -> NoDup (map fst (fold_left (fun d p => add_to (fst p) (snd p) d) l g)) /\
  found k ks (fold_left (fun d p => add_to (fst p) (snd p) d) l g) = found k ks g ++ concat (map (fun p => if string_dec (fst p) k then at_ ks (leaves (snd p)) else []) l).
Proof.
  induction l as [|[k' v] l IH]; intros g ND; cbn [fold_left map concat fst snd]; [split; [exact ND|now rewrite app_nil_r]|].
  destruct (IH _ (add_to_nodup k' v g ND)) as [ND' ->]. split; [exact ND'|]. now rewrite found_add, <- app_assoc by exact ND.
Qed.
Lemma group_leaves l path : at_ path (leaves (group l)) = concat (map (fun p => at_ path (under (fst p) (leaves (snd p)))) l).
Proof.
  unfold group. cbn [leaves]. rewrite map_map. cbn [fst snd]. rewrite at_concat, map_map. destruct path as [|k ks].
  - transitivity (@nil (list rpt)).
    + induction (fold_left (fun d p => add_to (fst p) (snd p) d) l []) as [|p g IH]; [reflexivity|]. cbn [map concat]. rewrite at_under. exact IH.
    + induction l as [|p l IH]; [reflexivity|]. cbn [map concat]. rewrite at_under. exact IH.
  - destruct (found_fold k ks l [] (NoDup_nil _)) as [_ E]. unfold found at 2 in E. cbn [map concat app] in E.
    transitivity (found k ks (fold_left (fun d p => add_to (fst p) (snd p) d) l [])).
    + unfold found. f_equal. apply map_ext. intros [k' vs]. rewrite at_under. cbn [fst snd]. rewrite <- leaves_one. destruct vs as [|v [|w vs]]; reflexivity.
    + rewrite E. f_equal. apply map_ext. intros [k' v]. now rewrite at_under.
Qed.
Lemma map_points_leaves f v : leaves (map_points f v) = map (fun x => (fst x, f (snd x))) (leaves v).
Proof.
  induction v as [xy|d H|l H] using value_ind'; cbn [map_points leaves].
  - reflexivity.
  - rewrite map_map. cbn [fst snd]. rewrite concat_map, map_map. f_equal. induction H as [|[k v] d Hv H IH]; [reflexivity|]. cbn [map fst snd] in *. rewrite IH, Hv. f_equal. unfold under. rewrite !map_map. reflexivity.
  - rewrite map_map, concat_map, map_map. f_equal. induction H as [|v l Hv H IH]; [reflexivity|]. cbn [map]. now rewrite IH, Hv.
Qed.
Lemma at_map {A B} (f : A -> B) path l : at_ path (map (fun x => (fst x, f (snd x))) l) = map f (at_ path l).
Proof. unfold at_. induction l as [|[p a] l IH]; [reflexivity|]. cbn [map filter fst snd]. destruct (list_eq_dec string_dec p path); cbn [map snd]; now rewrite IH. Qed.

Section Read.
Context (num : text -> R).
(** Where an element lies in the coordinates of the SVG: its points, transformed *)
Definition placed (d : drawing) : result (list rpt) := let '(tf, tag, attrs) := d in let* xy := from_element num tag attrs in transform num tf xy.
(** The last image: its size in the file, and its box in the SVG *)
Definition see (img : option (box * box)) (d : list string * drawing) : option (box * box) :=
  let '(tf, tag, attrs) := snd d in
  if String.eqb tag "image" then
    match from_element num tag attrs with
    | Ok xy => match transform num tf xy with Ok xy' => match rbbox xy, rbbox xy' with Some o, Some t => Some (o, t) | _, _ => img end | Err _ => img end
    | Err _ => img
    end
  else img.
Definition same_order (l : list (list string * list rpt)) (d : list (list string * drawing)) : Prop := forall path, Forall2 (fun xy d => placed d = Ok xy) (at_ path l) (at_ path d).
Lemma own_get attrs : own attrs = get_ "transform" [] attrs.
Proof. unfold own, get_, get. destruct (find _ attrs) as [[k v]|]; reflexivity. Qed.
Lemma ename_eq key tag attrs ch : elt_name key tag attrs = ename key (Elt tag attrs ch).
Proof. unfold elt_name, ename, get. destruct key as [k|]; [|reflexivity]. destruct (find _ attrs) as [[k' v]|]; [|reflexivity]. cbn [option_map snd]. destruct v as [|c v]; [reflexivity|]. cbn [string_of_list_ascii]. destruct (string_dec _ EmptyString); [discriminate|reflexivity]. Qed.
Lemma see_under k img l : fold_left see (under k l) img = fold_left see l img.
Proof. revert img. induction l as [|x l IH]; intros img; [reflexivity|]. cbn [under map fold_left]. apply IH. Qed.
Lemma Forall2_concat {A B} (R : A -> B -> Prop) la lb : Forall2 (Forall2 R) la lb -> Forall2 R (concat la) (concat lb).
Proof. induction 1; cbn [concat]; [constructor|]. now apply Forall2_app. Qed.
(** the children of a group *)
Fixpoint kids (key : option string) (tf : text) (l : list elt) (img : option (box * box)) : result (list (string * value) * option (box * box)) :=
  match l with
  | [] => Ok ([], img)
  | c :: r => let* x := parse num key tf img c in let* y := kids key tf r (snd x) in Ok (fst x :: fst y, snd y)
  end.
Lemma parse_group key tf img tag attrs ch : has_points tag = false -> is_group tag = true ->
  parse num key tf img (Elt tag attrs ch) = let* y := kids key (tf ++ own attrs) ch img in Ok ((elt_name key tag attrs, group (fst y)), snd y).
Proof.
  intros HP HG. cbn [parse]. rewrite HP, HG, own_get. set (tf' := tf ++ get_ "transform" [] attrs).
  enough (G : forall l acc img, (fix go (l : list elt) (acc : list (string * value)) (img : option (box * box)) {struct l} : result ((string * value) * option (box * box)) :=
      match l with [] => Ok ((elt_name key tag attrs, group (rev acc)), img) | c :: r => let* x := parse num key tf' img c in go r (fst x :: acc) (snd x) end) l acc img =
      let* y := kids key tf' l img in Ok ((elt_name key tag attrs, group (rev acc ++ fst y)), snd y)) by (rewrite (G ch [] img); reflexivity).
  induction l as [|c l IH]; intros acc img'; cbn [kids bind fst snd]; [now rewrite app_nil_r|]. destruct (parse num key tf' img' c) as [x|]; cbn [bind]; [|reflexivity]. rewrite IH. destruct (kids key tf' l (snd x)) as [y|]; cbn [bind fst snd rev]; [|reflexivity]. now rewrite <- app_assoc.
Qed.
Lemma parse_spec key e : forall tf img n v img', parse num key tf img e = Ok ((n, v), img') -> n = ename key e /\ same_order (leaves v) (drawn key tf e) /\ img' = fold_left see (drawn key tf e) img.
Proof.
  induction e as [tag attrs ch IH] using elt_ind'. intros tf img n v img' H. destruct (has_points tag) eqn:HP.
  - cbn [parse drawn] in *. rewrite HP in *. rewrite <- own_get in H. destruct (from_element num tag attrs) as [xy|] eqn:E1; [|discriminate]. cbn [bind] in H. destruct (transform num (tf ++ own attrs) xy) as [xy'|] eqn:E2; [|discriminate]. cbn [bind] in H. injection H as <- <- <-.
    split; [apply ename_eq|]. split.
    + intros path. unfold at_. cbn [leaves filter fst]. destruct (list_eq_dec string_dec [] path); cbn [map snd]; constructor; [|constructor]. cbn. now rewrite E1.
    + cbn [fold_left see snd]. rewrite E1, E2. destruct (String.eqb tag "image"); reflexivity.
  - destruct (is_group tag) eqn:HG; cycle 1.
    { cbn [parse drawn] in *. rewrite HP, HG in *. injection H as <- <- <-. split; [apply ename_eq|]. split; [intros path; constructor|reflexivity]. }
    rewrite (parse_group key tf img tag attrs ch HP HG) in H. destruct (kids key (tf ++ own attrs) ch img) as [[kv img1]|] eqn:K; [|discriminate]. cbn [bind fst snd] in H. injection H as <- <- <-. split; [apply ename_eq|].
    cbn [drawn]. rewrite HP, HG. set (tf' := tf ++ own attrs) in *.
    assert (G : (forall path, Forall2 (Forall2 (fun xy d => placed d = Ok xy)) (map (fun p => at_ path (under (fst p) (leaves (snd p)))) kv) (map (fun c => at_ path (under (ename key c) (drawn key tf' c))) ch)) /\ img1 = fold_left see (concat (map (fun c => under (ename key c) (drawn key tf' c)) ch)) img).
    { clear HP HG. revert img kv img1 K. induction IH as [|c ch Hc Hch IHl]; intros img kv img1 K; cbn [kids] in K.
      - injection K as <- <-. split; [constructor|reflexivity].
      - destruct (parse num key tf' img c) as [[[n v] i]|] eqn:Ep; [|discriminate]. cbn [bind fst snd] in K. destruct (kids key tf' ch i) as [[kv' i']|] eqn:Ek; [|discriminate]. cbn [bind fst snd] in K. injection K as <- <-.
        apply Hc in Ep as (-> & So & ->). destruct (IHl _ _ _ Ek) as [F ->]. split.
        + intros path. cbn [map fst snd]. constructor; [|apply F]. rewrite !at_under. destruct path as [|k r]; [constructor|]. destruct (string_dec (ename key c) k); [apply So|constructor].
        + cbn [map concat]. rewrite fold_left_app, see_under. reflexivity. }
    destruct G as [F Ei]. split; [|exact Ei]. intros path. rewrite group_leaves, at_concat, map_map. apply Forall2_concat, F.
Qed.
Lemma parse_complete key e : forall tf img, Forall (fun d => exists xy, placed (snd d) = Ok xy) (drawn key tf e) -> exists r, parse num key tf img e = Ok r.
Proof.
  induction e as [tag attrs ch IH] using elt_ind'. intros tf img H. destruct (has_points tag) eqn:HP.
  - cbn [drawn] in H. rewrite HP in H. inversion H as [|? ? (xy & Hx) _]; subst. cbn [snd placed] in Hx. cbn [parse]. rewrite HP, <- own_get. destruct (from_element num tag attrs) as [xy0|]; [|discriminate]. cbn [bind] in *. rewrite Hx. cbn [bind]. eexists. reflexivity.
  - destruct (is_group tag) eqn:HG; [|cbn [parse]; rewrite HP, HG; eexists; reflexivity]. rewrite (parse_group key tf img tag attrs ch HP HG). cbn [drawn] in H. rewrite HP, HG in H.
    assert (G : exists y, kids key (tf ++ own attrs) ch img = Ok y); [|destruct G as [y ->]; eexists; reflexivity].
    clear HP HG. revert img. induction IH as [|c ch Hc Hch IHl]; intros img; cbn [kids]; [eexists; reflexivity|]. cbn [map concat] in H. apply Forall_app in H as [H1 H2].
    destruct (Hc (tf ++ own attrs) img) as [x ->]; [unfold under in H1; rewrite Forall_map in H1; exact H1|]. cbn [bind]. destruct (IHl H2 (snd x)) as [y ->]. eexists. reflexivity.
Qed.

(** ** read *)
Definition last_image (key : option string) (e : elt) : option (box * box) := fold_left see (drawn key [] e) None.
(** The image coordinates of a point: relative to the image and scaled to its size *)
Definition to_image (imgsz : option (R * R)) (img : option (box * box)) (p : rpt) : rpt :=
  match img with
  | None => p
  | Some ((_, _, ow, oh), (x, y, w, h)) => let (nx, ny) := match imgsz with Some s => s | None => (ow, oh) end in ((fst p - x) * (nx / w), (snd p - y) * (ny / h))
  end.
Definition positive_image (img : option (box * box)) : Prop := match img with Some (_, (_, _, w, h)) => w <> 0 /\ h <> 0 | None => True end.
Lemma read_parse key imgsz e r : parse num key [] None e = Ok r -> positive_image (snd r) -> (imgsz <> None -> In "image"%string (tags e)) ->
  read num key imgsz e = Ok (map_points (map (to_image imgsz (snd r))) (snd (fst r))).
Proof.
  intros E P I. unfold read. rewrite E.
  assert (C : (match imgsz with Some _ => true | None => false end && negb (existsb (String.eqb "image") (tags e)))%bool = false).
  { destruct imgsz as [s|]; [|reflexivity]. specialize (I ltac:(discriminate)). assert (X : existsb (String.eqb "image") (tags e) = true) by (apply existsb_exists; exists "image"%string; split; [exact I|reflexivity]). rewrite X. reflexivity. }
  rewrite C. cbn [bind]. destruct (snd r) as [[[[[ox oy] ow] oh] [[[x y] w] h]]|]; cbn [positive_image] in *; unfold to_image.
  - destruct P as [Pw Ph]. destruct (match imgsz with Some s => s | None => (ow, oh) end) as [nx ny].
    assert (M : forall sx sy, (nx / w = sx) -> ny / h = sy -> map_points (fun xy => scale sx sy (translate (- x) (- y) xy)) (snd (fst r)) = map_points (map (fun p => ((fst p - x) * (nx / w), (snd p - y) * (ny / h)))) (snd (fst r))).
    { intros sx sy <- <-. assert (Ext : forall f g v, (forall xy, f xy = g xy) -> map_points f v = map_points g v).
      { intros f g v K. induction v as [xy|d H|l H] using value_ind'; cbn [map_points]; [now rewrite K| |]; f_equal; induction H as [|a l0 Ha H IH]; cbn [map]; [reflexivity|now rewrite IH, Ha|reflexivity|now rewrite IH, Ha]. }
      apply Ext. intros xy. unfold scale, translate. rewrite map_map. apply map_ext. intros p. reflexivity. }
    destruct (Reqb nx w && Reqb ny h)%bool eqn:B.
    + apply andb_true_iff in B as [B1 B2]. destruct (Reqb_spec nx w) as [->|]; [|discriminate]. destruct (Reqb_spec ny h) as [->|]; [|discriminate]. apply (f_equal (@Ok _)), M; field; assumption.
    + assert (B' : (Reqb w 0 || Reqb h 0)%bool = false) by (apply orb_false_iff; split; [destruct (Reqb_spec w 0)|destruct (Reqb_spec h 0)]; [contradiction|reflexivity|contradiction|reflexivity]). rewrite B'. apply (f_equal (@Ok _)), M; reflexivity.
  - apply (f_equal (@Ok _)). assert (Ext : forall f g v, (forall xy, f xy = g xy) -> map_points f v = map_points g v).
    { intros f g v K. induction v as [xy|d H|l H] using value_ind'; cbn [map_points]; [now rewrite K| |]; f_equal; induction H as [|a l0 Ha H IH]; cbn [map]; [reflexivity|now rewrite IH, Ha|reflexivity|now rewrite IH, Ha]. }
    apply Ext. intros xy. unfold scale, translate. rewrite map_map. apply map_ext. intros [a b]. cbn [fst snd]. f_equal; ring.
Qed.
(** If all elements can be read, and the image has a size, then under every path of names the result has the elements of those names, in document order,
    in image coordinates. *)
Theorem read_elements key imgsz e : Forall (fun d => exists xy, placed (snd d) = Ok xy) (drawn key [] e) -> positive_image (last_image key e) -> (imgsz <> None -> In "image"%string (tags e)) ->
  exists v, read num key imgsz e = Ok v /\ forall path, Forall2 (fun xy d => exists xy0, placed d = Ok xy0 /\ xy = map (to_image imgsz (last_image key e)) xy0) (at_ path (leaves v)) (at_ path (drawn key [] e)).
Proof.
  intros F P I. destruct (parse_complete key e [] None F) as [[[n v] img] E]. destruct (parse_spec key e _ _ _ _ _ E) as (-> & So & Ei). unfold last_image in *. rewrite <- Ei in *.
  exists (map_points (map (to_image imgsz img)) v). split; [exact (read_parse key imgsz e _ E P I)|].
  intros path. rewrite map_points_leaves, at_map. specialize (So path). revert So. generalize (at_ path (leaves v)) (at_ path (drawn key [] e)). intros l1 l2 So. induction So as [|xy d l1 l2 H So IH]; cbn [map]; constructor; [exists xy; auto|exact IH].
Qed.
(** The image itself fills (0, 0) to its size, or to the size that is asked for. *)
Theorem image_frame imgsz (o : box) x y w h nx ny : w <> 0 -> h <> 0 -> match imgsz with Some s => s | None => (snd (fst o), snd o) end = (nx, ny) ->
  let F := to_image imgsz (Some (o, (x, y, w, h))) in F (x, y) = (0, 0) /\ F (x + w, y + h) = (nx, ny) /\ (forall p, F p = (0, 0) -> p = (x, y) \/ nx = 0 \/ ny = 0).
Proof.
  intros W H E. destruct o as [[[ox oy] ow] oh]. cbn [fst snd] in E. cbn [to_image fst snd]. rewrite E. split; [f_equal; field; assumption|]. split; [f_equal; field; assumption|].
  intros [a b] Q. injection Q as Q1 Q2. cbn [fst snd] in *. apply Rmult_integral in Q1, Q2. assert (D : forall n q, q <> 0 -> n / q = 0 -> n = 0) by (intros n q Hq Hd; apply (Rmult_eq_reg_r (/ q)); [unfold Rdiv in Hd; rewrite Hd; ring|now apply Rinv_neq_0_compat]).
  destruct Q1 as [Q1|Q1]; [|right; left; eapply D; [exact W|exact Q1]]. destruct Q2 as [Q2|Q2]; [|right; right; eapply D; [exact H|exact Q2]]. left. f_equal; lra.
Qed.
(** Without an image, the coordinates are those of the SVG, and an image size is refused. *)
Theorem read_no_image key e s : ~ In "image"%string (tags e) -> read num key (Some s) e = Err ValueError.
Proof.
  intros NI. unfold read. assert (X : existsb (String.eqb "image") (tags e) = false). { destruct (existsb (String.eqb "image") (tags e)) eqn:B; [|reflexivity]. apply existsb_exists in B as (t & Ht & Q). apply String.eqb_eq in Q. subst t. contradiction. } rewrite X. reflexivity.
Qed.
(** An element that cannot be read makes read fail. *)
Theorem read_element_fails key imgsz e d : In d (drawn key [] e) -> (forall xy, placed (snd d) <> Ok xy) -> forall v, read num key imgsz e <> Ok v.
Proof.
  intros Hd Bad v E. assert (exists r, parse num key [] None e = Ok r) as [[[n v'] img] Ep].
  { unfold read in E. destruct (match imgsz with Some _ => true | None => false end && negb (existsb (String.eqb "image") (tags e)))%bool; [discriminate|]. destruct (parse num key [] None e) as [r|]; [eexists; reflexivity|discriminate]. }
  destruct (parse_spec key e _ _ _ _ _ Ep) as (_ & So & _). destruct d as [path d]. specialize (So path).
  assert (In d (at_ path (drawn key [] e))) as Hi. { unfold at_. apply in_map_iff. exists (path, d). split; [reflexivity|]. apply filter_In. split; [exact Hd|]. cbn [fst]. destruct (list_eq_dec string_dec path path); [reflexivity|contradiction]. }
  revert Hi So. generalize (at_ path (leaves v')) (at_ path (drawn key [] e)). intros l1 l2 Hi So. induction So as [|xy d' l1 l2 H So IH]; [contradiction|]. destruct Hi as [->|Hi]; [now apply (Bad xy)|now apply IH].
Qed.
End Read.
Print Assumptions read_elements.
Print Assumptions read_element_fails.

(** ** Example: the file of the documentation *)
Definition ex_svg : elt :=
  Elt "svg" [] [Elt "image" [("width", T "6"); ("height", T "4")] [];
    Elt "g" [("id", T "gcp"); ("transform", T "translate(1,2)")] [Elt "circle" [("id", T "flag"); ("cx", T "1"); ("cy", T "2"); ("transform", T "scale(2)")] []];
    Elt "g" [("id", T "horizon")] [Elt "path" [("d", T "M 0,0 L 1,0")] []; Elt "path" [("d", T "M 2,1 L 3,1")] []]]%string.
Lemma ex_drawn : drawn (Some "id"%string) [] ex_svg =
  [(["image"], ([], "image", [("width", T "6"); ("height", T "4")])); (["gcp"; "flag"], (T "translate(1,2)scale(2)", "circle", [("id", T "flag"); ("cx", T "1"); ("cy", T "2"); ("transform", T "scale(2)")]));
   (["horizon"; "path"], ([], "path", [("d", T "M 0,0 L 1,0")])); (["horizon"; "path"], ([], "path", [("d", T "M 2,1 L 3,1")]))]%string.
Proof. reflexivity. Qed.
Lemma ex_flag : placed num_R (T "translate(1,2)scale(2)", "circle", [("id", T "flag"); ("cx", T "1"); ("cy", T "2"); ("transform", T "scale(2)")])%string = Ok [(4, 8)].
Proof. change (placed num_R (T "translate(1,2)scale(2)", "circle", [("id", T "flag"); ("cx", T "1"); ("cy", T "2"); ("transform", T "scale(2)")])%string) with (transform num_R (T "translate(1,2)scale(2)") [(1, 2)]). apply transform_order_ex. Qed.
Lemma ex_paths : placed num_R ([], "path", [("d", T "M 0,0 L 1,0")])%string = Ok [(0, 0); (1, 0)] /\ placed num_R ([], "path", [("d", T "M 2,1 L 3,1")])%string = Ok [(2, 1); (3, 1)].
Proof. split; reflexivity. Qed.
Lemma min_R x y : min_ Rltb x y = Rmin x y. Proof. unfold min_, Rltb, Rmin. destruct (Rlt_dec y x), (Rle_dec x y); lra. Qed.
Lemma max_R x y : max_ Rltb x y = Rmax x y. Proof. unfold max_, Rltb, Rmax. destruct (Rlt_dec x y), (Rle_dec x y); lra. Qed.
Lemma rect_bbox_R w h x y : 0 <= w -> 0 <= h -> rbbox (rect Rplus w h x y) = Some (x, y, w, h).
Proof.
  intros W H. unfold rbbox, bbox, rect. cbn [map fst snd fold_left]. rewrite !min_R, !max_R.
  rewrite (Rmin_left x (x + w)), (Rmin_left x (x + w)), (Rmin_left x x), (Rmin_left x x) by lra. rewrite (Rmin_left y y), (Rmin_left y (y + h)), (Rmin_left y (y + h)), (Rmin_left y y) by lra.
  rewrite (Rmax_right x (x + w)), (Rmax_left (x + w) (x + w)), !(Rmax_left (x + w) x) by lra. rewrite (Rmax_left y y), (Rmax_right y (y + h)), (Rmax_left (y + h) (y + h)), (Rmax_left (y + h) y) by lra.
  f_equal. repeat match goal with |- (_, _) = (_, _) => f_equal end; lra.
Qed.
Lemma ex_image : last_image num_R (Some "id"%string) ex_svg = Some ((0, 0, 6, 4), (0, 0, 6, 4)).
Proof.
  assert (B : rbbox (rect Rplus 6 4 0 0) = Some (0, 0, 6, 4)) by (apply rect_bbox_R; lra).
  unfold last_image. rewrite ex_drawn. cbn [fold_left see snd String.eqb Ascii.eqb Bool.eqb].
  change (from_element num_R "image" [("width"%string, T "6"); ("height"%string, T "4")]) with (Ok (rect Rplus 6 4 0 0)). cbv iota beta. change (transform num_R [] (rect Rplus 6 4 0 0)) with (Ok (rect Rplus 6 4 0 0)). cbv iota beta. rewrite B. reflexivity.
Qed.
Example read_ex : exists v, read num_R (Some "id"%string) None ex_svg = Ok v /\ at_ ["gcp"; "flag"]%string (leaves v) = [[(4, 8)]] /\ at_ ["horizon"; "path"]%string (leaves v) = [[(0, 0); (1, 0)]; [(2, 1); (3, 1)]].
Proof.
  destruct (read_elements num_R (Some "id"%string) None ex_svg) as (v & E & H).
  - rewrite ex_drawn. constructor; [eexists; reflexivity|]. constructor; [eexists; apply ex_flag|]. constructor; [eexists; apply ex_paths|]. constructor; [eexists; apply ex_paths|constructor].
  - rewrite ex_image. cbn. split; lra.
  - intros K. contradiction.
  - exists v. split; [exact E|]. rewrite ex_image, ex_drawn in H.
    assert (ID : forall l, map (to_image None (Some ((0, 0, 6, 4), (0, 0, 6, 4)))) l = l) by (intros l; rewrite <- (map_id l) at 2; apply map_ext; intros [a b]; unfold to_image; cbn [fst snd]; f_equal; field).
    split.
    + specialize (H ["gcp"; "flag"]%string). cbn [at_ map filter fst snd] in H. cbv [list_eq_dec string_dec] in H. inversion H as [|xy d l1 l2 (xy0 & P & ->) H2 E1 E2]; subst. inversion H2; subst. pose proof (eq_trans (eq_sym ex_flag) P) as Q. injection Q as <-. now rewrite ID.
    + specialize (H ["horizon"; "path"]%string). cbn [at_ map filter fst snd] in H. inversion H as [|xy d l1 l2 (xy0 & P & ->) H2 E1 E2]; subst. inversion H2 as [|xy' d' l1' l2' (xy0' & P' & ->) H3 E1' E2']; subst. inversion H3; subst. pose proof (eq_trans (eq_sym (proj1 ex_paths)) P) as Q. pose proof (eq_trans (eq_sym (proj2 ex_paths)) P') as Q'. injection Q as <-. injection Q' as <-. now rewrite !ID.
Qed.
(** An element with a scale in a group with a translation: read() moves it before scaling it, so it is where SVG puts it only if the scale is 1 or the
    translation 0. *)
Theorem group_transform_order_refuted num key gattrs tag attrs ch a b s xy : has_points tag = true -> tag <> "image"%string -> tf_text num (own gattrs) [Translate a b] -> tf_text num (own attrs) [ScaleXY s] ->
  from_element num tag attrs = Ok xy -> xy <> [] ->
  exists v xy', read num key None (Elt "g" gattrs [Elt tag attrs ch]) = Ok v /\ at_ [ename key (Elt tag attrs ch)] (leaves v) = [xy'] /\ xy' = map (fun p => (s * (fst p + a), s * (snd p + b))) xy /\
    (xy' = map (fun p => tmap (Translate a b) (tmap (ScaleXY s) p)) xy <-> s = 1 \/ a = 0 /\ b = 0).
Proof.
  intros HP NI Hg He Hxy N.
  assert (D : drawn key [] (Elt "g" gattrs [Elt tag attrs ch]) = [([ename key (Elt tag attrs ch)], (own gattrs ++ own attrs, tag, attrs))]) by (change (drawn key [] (Elt "g" gattrs [Elt tag attrs ch])) with (under (ename key (Elt tag attrs ch)) (drawn key (own gattrs) (Elt tag attrs ch)) ++ []); cbn [drawn]; rewrite HP; reflexivity).
  assert (P : placed num (own gattrs ++ own attrs, tag, attrs) = Ok (map (fun p => (s * (fst p + a), s * (snd p + b))) xy)).
  { cbn [placed]. rewrite Hxy. cbn [bind]. rewrite (transform_after num _ _ _ _ Hg), (transform_in_written_order num _ _ _ He), map_map. apply (f_equal (@Ok _)), map_ext. intros [x y]. reflexivity. }
  assert (L : last_image num key (Elt "g" gattrs [Elt tag attrs ch]) = None).
  { unfold last_image. rewrite D. cbn [fold_left see snd]. apply String.eqb_neq in NI. now rewrite NI. }
  destruct (read_elements num key None (Elt "g" gattrs [Elt tag attrs ch])) as (v & E & H).
  - rewrite D. repeat constructor. eexists. exact P.
  - rewrite L. exact I.
  - intros K. contradiction.
  - exists v, (map (fun p => (s * (fst p + a), s * (snd p + b))) xy). split; [exact E|]. rewrite L in H. specialize (H [ename key (Elt tag attrs ch)]). rewrite D in H. unfold at_ at 2 in H. cbn [filter fst map snd] in H.
    destruct (list_eq_dec string_dec [ename key (Elt tag attrs ch)] [ename key (Elt tag attrs ch)]) as [_|Q]; [|contradiction]. cbn [map snd] in H. revert H. generalize (at_ [ename key (Elt tag attrs ch)] (leaves v)). intros l H. inversion H as [|x d l1 l2 (xy1 & P1 & ->) H2 E1 E2]; subst. inversion H2; subst.
    rewrite P in P1. injection P1 as <-. split; [apply f_equal2; [apply map_id|reflexivity]|]. split; [reflexivity|]. split.
    + destruct xy as [|[x y] xy]; [contradiction|]. intros Q. cbn [map fst snd tmap] in Q. assert (Q1 : s * (x + a) = s * x + a) by congruence. assert (Q2 : s * (y + b) = s * y + b) by congruence.
      destruct (Req_dec s 1) as [->|Ns]; [left; reflexivity|right]. split; (apply Rmult_eq_reg_l with (s - 1); [lra|intros Z; apply Ns; lra]).
    + intros [->|[-> ->]]; apply map_ext; intros [x y]; cbn [fst snd tmap]; f_equal; ring.
Qed.
Print Assumptions group_transform_order_refuted.
(** The flag above: SVG has (3, 6). *)
Example group_transform_order_ex : exists v, read num_R (Some "id"%string) None ex_svg = Ok v /\ at_ ["gcp"; "flag"]%string (leaves v) = [[(4, 8)]] /\ tmap (Translate 1 2) (tmap (ScaleXY 2) (1, 2)) = (3, 6).
Proof. destruct read_ex as (v & E & F & _). exists v. split; [exact E|]. split; [exact F|]. cbn [tmap]. f_equal; lra. Qed.
