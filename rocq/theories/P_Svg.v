(** Property C49: coordinates written to SVG elements are read back. *)
From Coq Require Import String Ascii DecimalString DecimalZ.
From Verif Require Import Base SvgModel SvgProofs.
Open Scope char_scope.

Lemma chunks_fuel {A} n : (0 < n)%nat -> forall k k' (l : list A), (length l <= k)%nat -> (length l <= k')%nat -> chunks_ n k l = chunks_ n k' l.
Proof.
  intros Hn. induction k as [|k IH]; intros k' l L L'.
  - destruct l; [|cbn in L; lia]. destruct k'; cbn [chunks_ length]; [reflexivity|]. destruct (Nat.leb_spec n 0); [lia|reflexivity].
  - destruct k' as [|k']; cbn [chunks_].
    + destruct l; [|cbn in L'; lia]. cbn [length]. destruct (Nat.leb_spec n 0); [lia|reflexivity].
    + destruct (Nat.leb_spec n (length l)); [|reflexivity]. f_equal. apply IH; rewrite skipn_length; lia.
Qed.
Lemma chunks_cons {A} n (c l : list A) : (0 < n)%nat -> length c = n -> chunks n (c ++ l) = c :: chunks n l.
Proof.
  intros Hn L. unfold chunks. rewrite app_length. destruct (length c + length l)%nat as [|k] eqn:E; [lia|]. cbn [chunks_]. rewrite app_length. destruct (Nat.leb_spec n (length c + length l)); [|lia].
  rewrite <- L, firstn_app, Nat.sub_diag, firstn_all, skipn_app, Nat.sub_diag, skipn_all. cbn [firstn skipn app]. rewrite app_nil_r. f_equal. apply chunks_fuel; lia.
Qed.

Section RoundTrip.
Context {N : Type} (num : text -> N) (show : N -> text) (add sub : N -> N -> N) (eqb ltb : N -> N -> bool) (zero : N).
(** Printed numbers are decimal numbers that read as the same number. *)
Context (num_show : forall x, num (show x) = x) (show_number : forall x, number (show x)) (eqb_spec : forall x y, eqb x y = true <-> x = y).
Notation pt := (N * N)%type.
Definition flat (xy : list pt) : list N := concat (map (fun p => [fst p; snd p]) xy).
Lemma pairs_flat xy : to_pairs (flat xy) = xy.
Proof. unfold to_pairs, flat. induction xy as [|[x y] xy IH]; [reflexivity|]. cbn [map concat fst snd]. rewrite (chunks_cons 2 [x; y]) by (cbn; lia). cbn [map concat app]. now rewrite IH. Qed.
Lemma vertices_flat xy : vertices 2 (flat xy) = xy.
Proof. unfold vertices, flat. induction xy as [|[x y] xy IH]; [reflexivity|]. cbn [map concat fst snd]. rewrite (chunks_cons 2 [x; y]) by (cbn; lia). cbn [map concat app rev]. now rewrite IH. Qed.
Lemma junk_comma : junk ",". Proof. repeat split. discriminate. Qed.
Lemma junk_space : junk " ". Proof. repeat split. discriminate. Qed.
Lemma spells_pt p rest ts : stop rest -> spells rest ts -> spells (show_pt show p ++ rest) (show (fst p) :: show (snd p) :: ts).
Proof.
  intros St S. unfold show_pt. rewrite <- !app_assoc. cbn [app]. apply spells_num; [apply show_number|apply stop_char; solve [reflexivity|discriminate]|]. apply spells_junk; [apply junk_comma|]. apply spells_num; auto.
Qed.
Lemma spells_points xy rest ts : stop rest -> spells rest ts -> spells (xy_to_points show xy ++ rest) (map show (flat xy) ++ ts).
Proof.
  intros St S. unfold xy_to_points. induction xy as [|p xy IH]; [exact S|]. cbn [map flat concat app]. destruct xy as [|q xy].
  - cbn [map join]. now apply spells_pt.
  - cbn [join map]. rewrite <- !app_assoc. cbn [app]. apply spells_pt; [apply stop_char; solve [reflexivity|discriminate]|]. apply spells_junk; [apply junk_space|]. exact IH.
Qed.
Lemma map_num_show l : map num (map show l) = l. Proof. rewrite map_map. erewrite map_ext; [apply map_id|]. intros x. apply num_show. Qed.
Lemma coords_points xy rest : stop rest -> spells rest [] -> coords num (xy_to_points show xy ++ rest) = flat xy.
Proof. intros St S. unfold coords. rewrite (spells_findall _ _ (spells_points xy rest [] St S)), app_nil_r. apply map_num_show. Qed.
Lemma read_points xy : points_to_xy num (xy_to_points show xy) = xy.
Proof. unfold points_to_xy. rewrite <- (app_nil_r (xy_to_points show xy)), coords_points by (exact I || constructor). apply pairs_flat. Qed.

(** A polyline is read back, whatever its points. *)
Theorem polyline_round_trip xy : from_polyline num (to_polyline show xy) = xy.
Proof. apply read_points. Qed.

Lemma eqb_pt_spec p q : eqb_pt eqb p q = true <-> p = q.
Proof. unfold eqb_pt. rewrite andb_true_iff, !eqb_spec. destruct p, q; cbn; split; [intros [-> ->]; reflexivity|intros [= -> ->]; auto]. Qed.
Lemma closed_ends p m q : closed eqb (p :: m ++ [q]) = true <-> p = q.
Proof.
  unfold closed. destruct (m ++ [q]) as [|x l] eqn:E; [destruct m; discriminate|]. rewrite <- E. clear x l E. change (p :: m ++ [q]) with ((p :: m) ++ [q]). rewrite rev_app_distr. cbn [rev app]. apply eqb_pt_spec.
Qed.
Lemma closed_false p m q : p <> q -> closed eqb (p :: m ++ [q]) = false.
Proof. intros N'. destruct (closed eqb (p :: m ++ [q])) eqn:E; [|reflexivity]. now apply closed_ends in E. Qed.
Lemma removelast_ends {A} (p : A) m q : removelast (p :: m ++ [q]) = p :: m.
Proof. change (p :: m ++ [q]) with ((p :: m) ++ [q]). rewrite removelast_app by discriminate. cbn. now rewrite app_nil_r. Qed.
Lemma ends_cases {A} (l : list A) : l = [] \/ (exists p, l = [p]) \/ exists p m q, l = p :: m ++ [q].
Proof. destruct l as [|p l]; [auto|]. right. destruct l as [|x l] using rev_ind; [left; eauto|right; eauto]. Qed.

(** A polygon is read back exactly if it is closed and its last point was not doubled: otherwise points are added or lost. *)
Theorem polygon_round_trip_iff xy : from_polygon num eqb (to_polygon eqb show xy) = xy <-> xy = [] \/ exists p m q, xy = p :: m ++ [q; p] /\ p <> q.
Proof.
  unfold from_polygon, to_polygon. rewrite read_points. destruct (ends_cases xy) as [->|[(p & ->)|(p & m & q & ->)]].
  - cbn. split; auto.
  - cbn. split; [discriminate|]. intros [?|(p' & m' & q' & E & _)]; [discriminate|]. injection E as _ E. destruct m'; discriminate.
  - destruct (closed eqb (p :: m ++ [q])) eqn:C.
    + apply closed_ends in C. subst q. rewrite removelast_ends. destruct (ends_cases m) as [->|Em].
      * cbn [closed app]. split; [discriminate|]. intros [?|(p' & m' & q' & E & _)]; [discriminate|]. injection E as _ E. destruct m' as [|? [|? ?]]; discriminate.
      * assert (E : exists m0 q, m = m0 ++ [q]) by (destruct Em as [(x & ->)|(x & m1 & y & ->)]; [exists [], x; reflexivity|exists (x :: m1), y; reflexivity]). destruct E as (m0 & q & ->). destruct (closed eqb (p :: m0 ++ [q])) eqn:C2.
        -- apply closed_ends in C2. subst q. split.
           ++ intros E. apply (f_equal (@length _)) in E. cbn in E. rewrite !app_length in E. cbn in E. lia.
           ++ intros [?|(p' & m' & q' & E & Ne)]; [discriminate|]. exfalso. change [q'; p'] with ([q'] ++ [p']) in E. rewrite app_assoc in E. injection E as E1 E. apply app_inj_tail in E as [E E2]. apply app_inj_tail in E as [_ E3]. congruence.
        -- split; [intros _|reflexivity]. right. exists p, m0, q. rewrite <- app_assoc. split; [reflexivity|]. intros ->. rewrite (proj2 (closed_ends q m0 q) eq_refl) in C2. discriminate.
    + rewrite C. split.
      * intros E. apply (f_equal (@length _)) in E. rewrite app_length in E. cbn in E. lia.
      * intros [?|(p' & m' & q' & E & Ne)]; [discriminate|]. exfalso. change [q'; p'] with ([q'] ++ [p']) in E. rewrite app_assoc in E. injection E as E1 E. apply app_inj_tail in E as [_ E2]. rewrite (proj2 (closed_ends p m q)) in C by congruence. discriminate.
Qed.
(** An open polygon comes back closed. *)
Theorem polygon_open_closed p m q : p <> q -> from_polygon num eqb (to_polygon eqb show (p :: m ++ [q])) = p :: m ++ [q; p].
Proof.
  intros Ne. unfold from_polygon, to_polygon. rewrite (closed_false _ _ _ Ne), read_points, (closed_false _ _ _ Ne). cbn [app]. now rewrite <- app_assoc.
Qed.
(** Lines and circles keep the first and last points. *)
Theorem line_round_trip_iff xy : (let '(x1, y1, x2, y2) := to_line zero show xy in from_line num x1 y1 x2 y2) = xy <-> length xy = 2%nat.
Proof.
  unfold to_line, ends, from_line. rewrite !num_show. rewrite <- !surjective_pairing. destruct xy as [|p [|q [|r xy]]]; cbn [hd last]; split; intros H; try discriminate; auto.
Qed.
Theorem circle_round_trip_iff xy : (let (cx, cy) := to_circle zero show xy in from_circle num cx cy) = xy <-> length xy = 1%nat.
Proof.
  unfold to_circle, from_circle. rewrite !num_show. rewrite <- !surjective_pairing. destruct xy as [|p [|q xy]]; cbn [hd]; split; intros H; try discriminate; auto.
Qed.

(* ---------------------------------------------------------------- *)
Lemma next_all ps : forall xy, foldM (next add false) ps xy = Ok (xy ++ ps).
Proof. induction ps as [|p ps IH]; intros xy; cbn [foldM next bind]; [now rewrite app_nil_r|]. rewrite IH, <- app_assoc. reflexivity. Qed.
Lemma command_M ps xy : command add ["M"] (flat ps) xy = Ok (xy ++ ps). Proof. cbn [command]. rewrite vertices_flat. apply next_all. Qed.
Lemma command_L ps xy : command add ["L"] (flat ps) xy = Ok (xy ++ ps). Proof. cbn [command]. rewrite vertices_flat. apply next_all. Qed.
Lemma number_no_cmd t : number t -> no_cmd t.
Proof.
  assert (D : forall t, Forall (fun c => digit c = true) t -> no_cmd t).
  { intros u F. eapply Forall_impl; [|exact F]. intros c H. cbn in H. destruct c as [[] [] [] [] [] [] [] []]; try discriminate H; reflexivity. }
  assert (S : forall s, optsign s -> no_cmd s). { intros s [->|(c & Hc & ->)]; constructor; [|constructor]. unfold sign in Hc. rewrite orb_true_iff, !eqb_eq in Hc. destruct Hc as [->| ->]; reflexivity. }
  intros (s & m & e & Hs & Hm & He & ->). unfold no_cmd. rewrite !Forall_app. split; [now apply S|]. split.
  - destruct Hm as [[_ F]|(a & b & Ha & [_ Fb] & ->)]; [now apply D|]. apply Forall_app. split; [destruct Ha as [->|[_ Fa]]; [constructor|now apply D]|]. constructor; [reflexivity|now apply D].
  - destruct He as [->|(c & s' & d & Hc & Hs' & [_ Fd] & ->)]; [constructor|]. constructor; [destruct Hc as [->| ->]; reflexivity|]. apply Forall_app. split; [now apply S|now apply D].
Qed.
Lemma pt_no_cmd p : no_cmd (show_pt show p).
Proof. unfold show_pt. apply Forall_app. split; [apply number_no_cmd, show_number|]. constructor; [reflexivity|]. apply number_no_cmd, show_number. Qed.
Lemma points_no_cmd xy : no_cmd (xy_to_points show xy).
Proof. unfold xy_to_points. induction xy as [|p [|q xy] IH]; [constructor|apply pt_no_cmd|]. cbn [map join]. apply Forall_app. split; [apply pt_no_cmd|]. constructor; [reflexivity|exact IH]. Qed.
(** the text of a path as blocks *)
Lemma join_app l x : l <> [] -> join [" "] (l ++ [x]) = join [" "] l ++ " " :: x.
Proof. induction l as [|y l IH]; [contradiction|]. intros _. destruct l as [|z l]; [reflexivity|]. cbn [app] in *. cbn [join] in *. rewrite IH by discriminate. rewrite <- !app_assoc. reflexivity. Qed.
Lemma path_text p ps : join [" "] (map (fun ip => path_command show (fst ip) (snd ip)) (combine (seq 0 (length (p :: ps))) (p :: ps))) =
  match ps with [] => T "M " ++ show_pt show p | _ => T "M " ++ show_pt show p ++ " " :: T "L " ++ xy_to_points show ps end.
Proof.
  destruct ps as [|q ps]; [reflexivity|]. cbn [length seq combine map fst snd path_command].
  assert (E : map (fun ip => path_command show (fst ip) (snd ip)) (combine (seq 2 (length ps)) ps) = map (show_pt show) ps).
  { assert (G : forall a, (2 <= a)%nat -> map (fun ip => path_command show (fst ip) (snd ip)) (combine (seq a (length ps)) ps) = map (show_pt show) ps); [|apply G; lia].
    induction ps as [|r ps IH]; intros a Ha; [reflexivity|]. cbn [length seq combine map fst snd]. rewrite IH by lia. destruct a as [|[|a]]; [lia|lia|]. reflexivity. }
  rewrite E. unfold xy_to_points. cbn [map]. destruct (map (show_pt show) ps) as [|s r].
  - cbn [join]. rewrite <- ?app_assoc. cbn [app]. reflexivity.
  - cbn [join]. rewrite <- ?app_assoc. cbn [app]. reflexivity.
Qed.
Definition path_blocks (p : pt) (ps : list pt) (z : bool) : list (ascii * text) :=
  ("M", " " :: show_pt show p ++ (match ps with [] => if z then [" "] else [] | _ => [" "] end)) :: (match ps with [] => [] | _ => [("L", " " :: xy_to_points show ps ++ if z then [" "] else [])] end) ++ if z then [("Z", [])] else [].
Lemma path_blocks_text p ps z : blocks (path_blocks p ps z) = join [" "] (map (fun ip => path_command show (fst ip) (snd ip)) (combine (seq 0 (length (p :: ps))) (p :: ps)) ++ if z then [T "Z"] else []).
Proof.
  destruct z.
  - rewrite join_app by discriminate. rewrite path_text. destruct ps as [|q ps]; unfold path_blocks; cbn [blocks app T list_ascii_of_string]; repeat (rewrite <- ?app_assoc, ?app_nil_r; cbn [app]); reflexivity.
  - rewrite app_nil_r, path_text. destruct ps as [|q ps]; unfold path_blocks; cbn [blocks app T list_ascii_of_string]; repeat (rewrite <- ?app_assoc, ?app_nil_r; cbn [app]); reflexivity.
Qed.
Lemma coords_lead s : coords num (" " :: s) = coords num s.
Proof. unfold coords. rewrite findall_none; [reflexivity|]. apply junk_none, junk_space. Qed.
Lemma spells_end (b : bool) : spells (if b then [" "] else []) []. Proof. destruct b; [apply spells_junk; [apply junk_space|]|]; constructor. Qed.
Lemma stop_end (b : bool) : stop (if b then [" "] else []). Proof. destruct b; [apply stop_char; solve [reflexivity|discriminate]|exact I]. Qed.
Lemma path_read p ps z : from_path num add (blocks (path_blocks p ps z)) = Ok ((p :: ps) ++ if z then [p] else []).
Proof.
  assert (Sp : no_cmd [" "]) by (constructor; [reflexivity|constructor]).
  assert (Se : forall b : bool, no_cmd (if b then [" "] else [])) by (intros []; [exact Sp|constructor]).
  rewrite from_path_blocks.
  - assert (Cp : forall b : bool, coords num (" " :: show_pt show p ++ if b then [" "] else []) = flat [p]).
    { intros b. rewrite coords_lead. change (show_pt show p) with (xy_to_points show [p]). apply coords_points; [apply stop_end|apply spells_end]. }
    assert (Cl : forall b : bool, coords num (" " :: xy_to_points show ps ++ if b then [" "] else []) = flat ps) by (intros b; rewrite coords_lead; apply coords_points; [apply stop_end|apply spells_end]).
    unfold path_blocks. cbn [foldM fst snd]. destruct ps as [|q ps].
    + rewrite (Cp z), command_M. cbn [bind app]. destruct z; reflexivity.
    + rewrite (Cp true), command_M. cbn [bind app foldM fst snd]. rewrite (Cl z), command_L. cbn [bind app]. destruct z; cbn [foldM fst snd command first_ bind app]; [reflexivity|now rewrite app_nil_r].
  - split.
    + unfold path_blocks. constructor; [split; [reflexivity|]; cbn [snd]; constructor; [reflexivity|]; apply Forall_app; split; [apply pt_no_cmd|destruct ps; [apply (Se z)|exact Sp]]|].
      apply Forall_app. split; [destruct ps; constructor; [|constructor]; split; [reflexivity|]; cbn [snd]; constructor; [reflexivity|]; apply Forall_app; split; [apply points_no_cmd|apply Se]|]. destruct z; [constructor; [split; [reflexivity|constructor]|constructor]|constructor].
    + intros b r E. unfold path_blocks in E. destruct z; [change [("Z", [])] with ([("Z", [] : text)]) in E; rewrite app_comm_cons in E; apply app_inj_tail in E as [<- _]|rewrite app_nil_r in E].
      * constructor; [discriminate|]. destruct ps; constructor; [discriminate|constructor].
      * destruct ps as [|q ps]; [destruct r as [|? [|? ?]]; [constructor|discriminate E|discriminate E]|]. destruct r as [|? [|? [|? ?]]]; [constructor| |discriminate E|discriminate E]. injection E as <- _. constructor; [discriminate|constructor].
  - intros c r E. unfold path_blocks in E. destruct z; [rewrite app_comm_cons in E; apply app_inj_tail in E as [_ E]; injection E as <-; reflexivity|]. rewrite app_nil_r in E. destruct ps as [|q ps]; [destruct r as [|? [|? ?]]; [|discriminate E|discriminate E]; injection E as _ E; discriminate E|].
    destruct r as [|? [|? [|? ?]]]; [discriminate E| |discriminate E|discriminate E]. injection E as _ _ E. discriminate E.
Qed.
(** A path is read back if it has at least two points; the path written for no or one point cannot be read. *)
Theorem path_round_trip xy : (2 <= length xy)%nat -> from_path num add (to_path eqb show xy) = Ok xy.
Proof.
  intros L. destruct (ends_cases xy) as [->|[(p & ->)|(p & m & q & ->)]]; [cbn in L; lia|cbn in L; lia|]. unfold to_path. destruct (closed eqb (p :: m ++ [q])) eqn:C.
  - rewrite removelast_ends, <- (path_blocks_text p m true), path_read. apply closed_ends in C. subst q. reflexivity.
  - rewrite <- (path_blocks_text p (m ++ [q]) false), path_read. now rewrite app_nil_r.
Qed.
Theorem path_short_refuted xy : (length xy <= 1)%nat -> to_path eqb show xy = T "Z" /\ from_path num add (to_path eqb show xy) = Err IndexError.
Proof. intros L. destruct xy as [|p [|q xy]]; [split; reflexivity|split; reflexivity|cbn in L; lia]. Qed.
End RoundTrip.
Print Assumptions path_round_trip.

(* ---------------------------------------------------------------- *)
(** ** Integers: printed in decimal, read as in Python *)
Definition show_Z (z : Z) : text := list_ascii_of_string (NilEmpty.string_of_int (Z.to_int z)).
Definition num_Z (t : text) : Z := match NilEmpty.int_of_string (string_of_list_ascii t) with Some d => Z.of_int d | None => 0%Z end.
Lemma num_show_Z z : num_Z (show_Z z) = z.
Proof. unfold num_Z, show_Z. rewrite string_of_list_ascii_of_string, NilEmpty.isi. apply DecimalZ.of_to. Qed.
Lemma uint_digits d : Forall (fun c => digit c = true) (list_ascii_of_string (NilEmpty.string_of_uint d)).
Proof. induction d; cbn; constructor; auto. Qed.
Lemma show_Z_number z : number (show_Z z).
Proof.
  assert (G : forall d, d <> Decimal.Nil -> digits (list_ascii_of_string (NilEmpty.string_of_uint d))). { intros d Hd. split; [destruct d; [contradiction| | | | | | | | | |]; discriminate|apply uint_digits]. }
  assert (P : forall p, Pos.to_uint p <> Decimal.Nil) by (intros p; apply DecimalPos.Unsigned.to_uint_nonnil).
  unfold show_Z. destruct z as [|p|p]; cbn [Z.to_int NilEmpty.string_of_int].
  - exists [], ["0"], []. split; [now left|]. split; [left; split; [discriminate|repeat constructor]|]. split; [now left|reflexivity].
  - exists [], (list_ascii_of_string (NilEmpty.string_of_uint (Pos.to_uint p))), []. split; [now left|]. split; [left; apply G, P|]. split; [now left|]. now rewrite app_nil_r.
  - exists ["-"], (list_ascii_of_string (NilEmpty.string_of_uint (Pos.to_uint p))), []. split; [right; exists "-"; split; reflexivity|]. split; [left; apply G, P|]. split; [now left|]. rewrite app_nil_r. reflexivity.
Qed.
Example path_round_trip_ex : to_path Z.eqb show_Z [(0, 0); (12, -1); (1, 1); (0, 0)]%Z = T "M 0,0 L 12,-1 1,1 Z" /\ from_path num_Z Z.add (T "M 0,0 L 12,-1 1,1 Z") = Ok [(0, 0); (12, -1); (1, 1); (0, 0)]%Z.
Proof. split; reflexivity. Qed.
Example polygon_ex : to_polygon Z.eqb show_Z [(0, 0); (12, -1); (0, 0)]%Z = T "0,0 12,-1" /\ from_polygon num_Z Z.eqb (T "0,0 12,-1") = [(0, 0); (12, -1); (0, 0)]%Z.
Proof. split; reflexivity. Qed.
Theorem integer_path_round_trip xy : (2 <= length xy)%nat -> from_path num_Z Z.add (to_path Z.eqb show_Z xy) = Ok xy.
Proof. apply path_round_trip; [exact num_show_Z|exact show_Z_number|exact Z.eqb_eq]. Qed.
Lemma min_Z x y : min_ Z.ltb x y = Z.min x y. Proof. unfold min_. destruct (Z.ltb_spec y x); lia. Qed.
Lemma max_Z x y : max_ Z.ltb x y = Z.max x y. Proof. unfold max_. destruct (Z.ltb_spec x y); lia. Qed.
Lemma rect_bbox w h x y : (0 <= w)%Z -> (0 <= h)%Z -> bbox Z.sub Z.ltb (rect Z.add w h x y) = Some (x, y, w, h)%Z.
Proof. intros W H. unfold bbox, rect. cbn [map fst snd fold_left]. rewrite !min_Z, !max_Z. f_equal. repeat match goal with |- (_, _) = (_, _) => f_equal end; lia. Qed.
(** Rectangles: the bounding box is read back as a rectangle; so rectangles of non-negative size are read back. *)
Theorem rect_round_trip w h x y : (0 <= w)%Z -> (0 <= h)%Z ->
  (let '(x', y', w', h') := to_rect Z.sub Z.ltb 0%Z show_Z (rect Z.add w h x y) in from_rect num_Z Z.add w' h' x' y') = rect Z.add w h x y.
Proof. intros W H. unfold to_rect. rewrite rect_bbox by assumption. unfold from_rect. now rewrite !num_show_Z. Qed.
Theorem viewBox_round_trip w h x y : (0 <= w)%Z -> (0 <= h)%Z -> from_svg num_Z Z.add (to_svg Z.sub Z.ltb show_Z (rect Z.add w h x y)) = Ok (rect Z.add w h x y).
Proof.
  intros W H. unfold to_svg. pose proof (rect_bbox w h x y W H) as B.
  rewrite B. cbn [join].
  assert (S : findall m_coord (show_Z x ++ [" "] ++ show_Z y ++ [" "] ++ show_Z w ++ [" "] ++ show_Z h) = [show_Z x; show_Z y; show_Z w; show_Z h]).
  { apply spells_findall. cbn [app]. assert (St : forall l, stop (" " :: l)) by (intros l; apply stop_char; solve [reflexivity|discriminate]). repeat (apply spells_num; [apply show_Z_number|apply St|apply spells_junk; [apply junk_space|]]).
    pose proof (spells_num (show_Z h) [] [] (show_Z_number h) I spells_nil) as K. rewrite app_nil_r in K. exact K. }
  unfold from_svg. rewrite S. destruct (show_Z x ++ [" "] ++ show_Z y ++ [" "] ++ show_Z w ++ [" "] ++ show_Z h) as [|c l] eqn:E.
  - apply app_eq_nil in E as [E _]. exfalso. now apply (number_nonempty _ (show_Z_number x)).
  - unfold from_rect. now rewrite !num_show_Z.
Qed.
