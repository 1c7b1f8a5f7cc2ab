(** Proofs about FlatJsonModel. *)
From Coq Require Import String Ascii.
From Verif Require Import Base SvgModel SvgDocModel FlatJsonModel.
Notation length := List.length.
Open Scope char_scope.

(** ** Whitespace outside strings *)
Inductive lex := Out | In | Esc.
Definition tr (s : lex) (c : ascii) : lex :=
  match s with Out => if Ascii.eqb c quote then In else Out | In => if Ascii.eqb c "\" then Esc else if Ascii.eqb c quote then Out else In | Esc => In end.
Definition emit (s : lex) (c : ascii) : text := match s with Out => if space c then [] else [c] | _ => [c] end.
(** The text without the whitespace outside strings *)
Fixpoint norm (s : lex) (l : text) : text := match l with [] => [] | c :: r => emit s c ++ norm (tr s c) r end.
Definition fin (s : lex) (l : text) : lex := fold_left tr l s.
Lemma norm_app : forall l s r, norm s (l ++ r) = norm s l ++ norm (fin s l) r.
Proof. induction l; intros; cbn; [reflexivity |]. rewrite IHl, app_assoc. reflexivity. Qed.

(** ** An automaton that follows the expression *)
Inductive flag := No | Array | Closed.
Definition is_out (s : lex) : bool := match s with Out => true | _ => false end.
Definition okc (s : lex) (c : ascii) : bool := is_out s || negb (space c || Ascii.eqb c ",").
Definition step (b : flag) (c : ascii) : flag :=
  if Ascii.eqb c "[" then Array else
  match b with
  | No => No
  | Array => if Ascii.eqb c "]" then Closed else if Ascii.eqb c "{" then No else Array
  | Closed => if (space c || Ascii.eqb c "]")%bool then Closed else No
  end.
Fixpoint run (b : flag) (s : lex) (l : text) : option (flag * lex) :=
  match l with
  | [] => Some (b, s)
  | c :: r => if ((match b with No => true | _ => okc s c end) && (negb (Ascii.eqb c "[") || is_out s))%bool then run (step b c) (tr s c) r else None
  end.
Lemma run_app : forall l b s r, run b s (l ++ r) = match run b s l with Some (b', s') => run b' s' r | None => None end.
Proof. induction l; intros; cbn [run app]; [reflexivity |]. destruct (_ && _)%bool; auto. Qed.
Lemma run_fin : forall l b s b' s', run b s l = Some (b', s') -> s' = fin s l.
Proof. induction l; cbn [run]; intros b s b' s' H. - now inversion H. - destruct (_ && _)%bool; [| discriminate]. apply IHl in H. exact H. Qed.
Lemma run_weak : forall l b s, run b s l <> None -> run No s l <> None.
Proof.
  induction l; cbn [run]; intros b s H; [discriminate |].
  assert (K : ((true && (negb (Ascii.eqb a "[") || is_out s))%bool = true) /\ run (step b a) (tr s a) l <> None).
  { destruct ((match b with No => true | _ => okc s a end) && (negb (Ascii.eqb a "[") || is_out s))%bool eqn:E; [| congruence].
    apply andb_prop in E. split; [cbn; tauto | exact H]. }
  destruct K as [K1 K2]. rewrite K1. unfold step in *. destruct (Ascii.eqb a "["); [exact K2 | eapply IHl; exact K2].
Qed.
Lemma okc_flat : forall s c, okc s c = true -> norm s (flat_char c) = emit s c /\ fin s (flat_char c) = tr s c.
Proof.
  intros s c H. unfold okc in H. unfold flat_char.
  destruct (space c) eqn:E1.
  - destruct s; cbn in H; try discriminate. cbn [norm emit fin fold_left tr]. rewrite E1. split; [reflexivity |].
    destruct (Ascii.eqb_spec c quote); [subst; discriminate | reflexivity].
  - destruct (Ascii.eqb_spec c ",").
    + subst c. destruct s; cbn in H; try discriminate. split; reflexivity.
    + cbn [norm fin fold_left]. rewrite app_nil_r. split; reflexivity.
Qed.
Definition okm := fix okm (s : lex) (l : text) : bool := match l with [] => true | c :: r => okc s c && okm (tr s c) r end.
Lemma flatten_norm : forall l s, okm s l = true -> norm s (flatten l) = norm s l /\ fin s (flatten l) = fin s l.
Proof.
  induction l; intros s H; [split; reflexivity |]. cbn [okm] in H. apply andb_prop in H. destruct H as [H1 H2].
  apply okc_flat in H1. destruct H1 as [A B]. unfold flatten in *. cbn [map concat norm]. rewrite norm_app, A, B.
  destruct (IHl _ H2) as [C D]. rewrite C. split; [reflexivity |]. unfold fin in *. rewrite fold_left_app, B. cbn [fold_left]. exact D.
Qed.
Lemma span_spec : forall p l a b, span p l = (a, b) -> l = a ++ b /\ forallb p a = true /\ match b with c :: _ => p c = false | [] => True end.
Proof.
  induction l; cbn; intros a0 b H; [inversion H; cbn; auto |].
  destruct (p a) eqn:E; [| inversion H; subst; cbn; auto].
  destruct (span p l) as [u v] eqn:E2. inversion H; subst. destruct (IHl _ _ eq_refl) as [A [B C]]. cbn. rewrite E, B. subst l. auto.
Qed.
Lemma closings_spec : forall n l a b, closings n l = (a, b) -> l = a ++ b /\ forallb (fun c => space c || Ascii.eqb c "]")%bool a = true.
Proof.
  induction n; intros l a b H; cbn [closings] in H; [inversion H; auto |].
  destruct (span space l) as [w r] eqn:E. destruct (span_spec _ _ _ _ E) as [A [B _]].
  assert (D : ([], l) = (a, b) -> l = a ++ b /\ forallb (fun c => space c || Ascii.eqb c "]")%bool a = true) by (intros X; inversion X; auto).
  destruct r as [| c r]; [auto |].
  destruct (Ascii.eqb_spec c "]") as [-> | Hc].
  - destruct (closings n r) as [a' b'] eqn:E2. inversion H; subst. destruct (IHn _ _ _ E2) as [A2 B2]. subst r. split; [rewrite <- app_assoc; reflexivity |].
    rewrite forallb_app. cbn. rewrite B2. rewrite andb_true_r. rewrite forallb_forall in *. intros x Hx. rewrite (B x Hx). reflexivity.
  - apply D. rewrite <- H. destruct c as [[] [] [] [] [] [] [] []]; congruence.
Qed.
Lemma m_array_inv : forall l m rest, m_array l = Some (m, rest) -> exists a c, m = "[" :: a ++ "]" :: c /\ l = m ++ rest /\
  forallb (fun c => negb (Ascii.eqb c "]" || Ascii.eqb c "{")%bool) a = true /\ forallb (fun c => space c || Ascii.eqb c "]")%bool c = true.
Proof.
  intros l m rest H. unfold m_array in H.
  destruct l as [| x l]; [discriminate |].
  assert (x = "[") by (destruct x as [[] [] [] [] [] [] [] []]; congruence). subst x.
  destruct (span _ l) as [a r] eqn:E. destruct (span_spec _ _ _ _ E) as [A [B C]].
  destruct r as [| y r]; [discriminate |].
  assert (y = "]") by (destruct y as [[] [] [] [] [] [] [] []]; congruence). subst y.
  destruct (closings (length r) r) as [c d] eqn:E2. inversion H; subst. destruct (closings_spec _ _ _ _ E2) as [A2 B2].
  exists a, c. split; [reflexivity |]. split; [| auto]. rewrite A2. cbn. rewrite <- app_assoc. reflexivity.
Qed.
Lemma run_cons : forall b s c r, run b s (c :: r) <> None -> (b <> No -> okc s c = true) /\ (c = "[" -> s = Out) /\ run (step b c) (tr s c) r <> None.
Proof.
  intros b s c r H. cbn [run] in H. destruct ((match b with No => true | _ => okc s c end) && (negb (Ascii.eqb c "[") || is_out s))%bool eqn:E; [| congruence].
  apply andb_prop in E. destruct E as [E1 E2]. split; [| split; [| exact H]].
  - destruct b; [congruence | intros _; exact E1 | intros _; exact E1].
  - intros ->. cbn in E2. destruct s; cbn in E2; congruence.
Qed.
Lemma run_region : forall a s r, run Array s (a ++ r) <> None -> forallb (fun c => negb (Ascii.eqb c "]" || Ascii.eqb c "{")%bool) a = true ->
  okm s a = true /\ run Array (fin s a) r <> None.
Proof.
  induction a; intros s r H K; [split; [reflexivity | exact H] |]. cbn [app] in H. apply run_cons in H. destruct H as [H1 [_ H2]].
  cbn [forallb] in K. apply andb_prop in K. destruct K as [K1 K2]. cbn [okm]. rewrite H1 by discriminate.
  assert (E : step Array a = Array). { unfold step. destruct (Ascii.eqb a "["); [reflexivity |]. destruct (Ascii.eqb a "]"); [discriminate |]. destruct (Ascii.eqb a "{"); [discriminate | reflexivity]. }
  rewrite E in H2. exact (IHa _ _ H2 K2).
Qed.
Lemma run_closed : forall a s r, run Closed s (a ++ r) <> None -> forallb (fun c => space c || Ascii.eqb c "]")%bool a = true ->
  okm s a = true /\ run Closed (fin s a) r <> None.
Proof.
  induction a; intros s r H K; [split; [reflexivity | exact H] |]. cbn [app] in H. apply run_cons in H. destruct H as [H1 [_ H2]].
  cbn [forallb] in K. apply andb_prop in K. destruct K as [K1 K2]. cbn [okm]. rewrite H1 by discriminate.
  assert (E : step Closed a = Closed). { unfold step. rewrite K1. destruct (Ascii.eqb_spec a "["); [subst; discriminate | reflexivity]. }
  rewrite E in H2. exact (IHa _ _ H2 K2).
Qed.
Lemma sub_norm : forall n l s, (length l <= n)%nat -> run No s l <> None -> norm s (sub_ n l) = norm s l.
Proof.
  induction n; intros l s Hn H.
  - destruct l; [reflexivity | cbn in Hn; lia].
  - destruct l as [| c l]; [reflexivity |]. cbn [sub_]. destruct (m_array (c :: l)) as [[m rest] |] eqn:E.
    + destruct (m_array_inv _ _ _ E) as (a & d & -> & El & Ka & Kd). rewrite El in *. clear E El.
      cbn [app] in H. destruct (run_cons _ _ _ _ H) as [_ [Hs H1]]. specialize (Hs eq_refl). subst s. change (step No "[") with Array in H1. change (tr Out "[") with Out in H1.
      rewrite <- app_assoc in H1. destruct (run_region _ _ _ H1 Ka) as [O1 H2]. cbn [app] in H2. destruct (run_cons _ _ _ _ H2) as [O2 [_ H3]]. specialize (O2 ltac:(discriminate)).
      change (step Array "]") with Closed in H3. destruct (run_closed _ _ _ H3 Kd) as [O3 H4].
      assert (O : okm Out ("[" :: a ++ "]" :: d) = true).
      { cbn [okm]. change (okc Out "[") with true. change (tr Out "[") with Out. cbn [andb].
        assert (G : forall x y s, okm s (x ++ y) = (okm s x && okm (fin s x) y)%bool) by (induction x; intros; cbn; [reflexivity |]; rewrite IHx, andb_assoc; reflexivity).
        rewrite G, O1. cbn [okm]. rewrite O2, O3. reflexivity. }
      destruct (flatten_norm _ _ O) as [F1 F2]. rewrite norm_app, (norm_app ("[" :: a ++ "]" :: d)), F1, F2. f_equal.
      apply IHn; [cbn in Hn; repeat (rewrite app_length in Hn; cbn in Hn); lia |].
      assert (Ef : fin Out ("[" :: a ++ "]" :: d) = fin (tr (fin Out a) "]") d). { unfold fin. cbn [fold_left]. rewrite fold_left_app. reflexivity. }
      rewrite Ef. eapply run_weak. exact H4.
    + cbn [norm]. f_equal. apply IHn; [cbn in Hn; lia |]. destruct (run_cons _ _ _ _ H) as [_ [_ H1]]. eapply run_weak; exact H1.
Qed.

(** ** Which values *)
(** A character of a number or of true, false, null, NaN, Infinity *)
Definition plain (c : ascii) : bool := negb (space c || Ascii.eqb c quote || Ascii.eqb c "\" || Ascii.eqb c "," || Ascii.eqb c "[" || Ascii.eqb c "]" || Ascii.eqb c "{")%bool.
Definition out_string (s : text) : bool := forallb (fun c => negb (Ascii.eqb c "[")) s.
Definition in_string (s : text) : bool := forallb (fun c => negb (space c || Ascii.eqb c "," || Ascii.eqb c "[" || Ascii.eqb c "]")%bool) s.
(** No string has an opening bracket; strings of arrays have no blanks, commas and closing brackets either *)
Fixpoint good (arr : bool) (v : json) : bool :=
  match v with
  | JAtom t => forallb plain t
  | JStr s => if arr then in_string s else out_string s
  | JList l => forallb (good true) l
  | JObj l => forallb (fun kv => out_string (fst kv) && good false (snd kv))%bool l
  end.
Definition json_ind' (P : json -> Prop) (ha : forall t, P (JAtom t)) (hs : forall s, P (JStr s)) (hl : forall l, Forall P l -> P (JList l))
  (ho : forall l, Forall (fun kv => P (snd kv)) l -> P (JObj l)) : forall v, P v :=
  fix go v := match v with
  | JAtom t => ha t | JStr s => hs s
  | JList l => hl l ((fix goes l : Forall P l := match l with [] => Forall_nil _ | x :: r => Forall_cons _ (go x) (goes r) end) l)
  | JObj l => ho l ((fix goes l : Forall (fun kv => P (snd kv)) l := match l with [] => Forall_nil _ | x :: r => Forall_cons _ (go (snd x)) (goes r) end) l)
  end.
(** runs from Out to Out *)
Definition passes (b : flag) (l : text) (b' : flag) : Prop := run b Out l = Some (b', Out).
Lemma passes_app : forall b b' b'' l r, passes b l b' -> passes b' r b'' -> passes b (l ++ r) b''.
Proof. unfold passes; intros b b' b'' l r H1 H2. rewrite run_app, H1. exact H2. Qed.
Lemma run_line : forall n level b, exists b', passes b (line (Some n) level) b' /\ (b <> Array -> b' <> Array) /\ (b = No -> b' = No).
Proof.
  assert (G : forall l b, forallb space l = true -> exists b', passes b l b' /\ (b <> Array -> b' <> Array) /\ (b = No -> b' = No)).
  { induction l; intros b H; [exists b; unfold passes; auto |]. cbn [forallb] in H. apply andb_prop in H. destruct H as [H1 H2].
    destruct (IHl (step b a) H2) as (b' & P1 & P2 & P3).
    assert (E : a <> "[") by (intros ->; discriminate). assert (Eq : a <> quote) by (intros ->; discriminate).
    assert (St : step b a = b). { unfold step. destruct (Ascii.eqb_spec a "["); [contradiction |]. destruct b; [reflexivity | | rewrite H1; reflexivity].
      destruct (Ascii.eqb_spec a "]"); [subst; discriminate |]. destruct (Ascii.eqb_spec a "{"); [subst; discriminate | reflexivity]. }
    rewrite St in *. exists b'. split; [| auto]. unfold passes in *. cbn [run]. rewrite St. destruct (Ascii.eqb_spec a "["); [contradiction |].
    cbn [tr is_out negb orb]. destruct (Ascii.eqb_spec a quote); [contradiction |].
    unfold okc. cbn. destruct b; exact P1. }
  intros n level b. apply G. cbn [line forallb]. unfold times.
  assert (X : forall k, forallb space (concat (repeat (repeat " " (Z.to_nat n)) k)) = true).
  { induction k; [reflexivity |]. cbn [repeat concat]. rewrite forallb_app, IHk, andb_true_r. clear. induction (Z.to_nat n); [reflexivity | exact IHn0]. }
  rewrite X. reflexivity.
Qed.
Lemma run_plain : forall t b, forallb plain t = true -> exists b', passes b t b' /\ (b <> Array -> b' <> Array).
Proof.
  induction t; intros b H; [exists b; unfold passes; auto |]. cbn [forallb] in H. apply andb_prop in H. destruct H as [H1 H2].
  destruct (IHt (step b a) H2) as (b' & P1 & P2). exists b'. unfold plain in H1.
  destruct (Ascii.eqb_spec a "["); [subst; discriminate |]. destruct (Ascii.eqb_spec a quote); [subst; discriminate |].
  split.
  - unfold passes in *. cbn [run]. destruct (Ascii.eqb_spec a "["); [contradiction |]. cbn [tr is_out]. destruct (Ascii.eqb_spec a quote); [contradiction |].
    unfold okc. cbn. destruct b; exact P1.
  - intros Hb. apply P2. unfold step. destruct (Ascii.eqb_spec a "["); [contradiction |]. destruct b; [discriminate | exfalso; apply Hb; reflexivity |]. destruct (space a || Ascii.eqb a "]")%bool; discriminate.
Qed.
(** the inside of a string *)
Lemma run_inside_no : forall s, out_string s = true -> run No In (concat (map esc s)) = Some (No, In).
Proof.
  induction s; intros H; [reflexivity |]. cbn [out_string forallb] in H. apply andb_prop in H. destruct H as [H1 H2].
  assert (Ea : a <> "[") by (intros ->; discriminate).
  cbn [map concat]. rewrite run_app. assert (E : run No In (esc a) = Some (No, In)).
  { unfold esc. destruct (Ascii.eqb_spec a quote); [subst; reflexivity |]. destruct (Ascii.eqb_spec a "\"); [subst; reflexivity |].
    cbn [orb run is_out]. unfold step. destruct (Ascii.eqb_spec a "["); [contradiction |]. cbn. destruct (Ascii.eqb_spec a "\"); [contradiction |]. destruct (Ascii.eqb_spec a quote); [contradiction | reflexivity]. }
  rewrite E. apply IHs. exact H2.
Qed.
Lemma run_inside : forall s b, in_string s = true -> exists b', run b In (concat (map esc s)) = Some (b', In) /\ (b <> Array -> b' <> Array).
Proof.
  induction s; intros b H; [exists b; auto |]. cbn [in_string forallb] in H. apply andb_prop in H. destruct H as [H1 H2].
  cbn [map concat].
  assert (E : exists b', run b In (esc a) = Some (b', In) /\ (b <> Array -> b' <> Array)).
  { unfold esc. destruct (Ascii.eqb_spec a quote); [subst; destruct b; eexists; (split; [reflexivity |]); cbn; intros X; first [discriminate | exact X] |]. destruct (Ascii.eqb_spec a "\"); [subst; destruct b; eexists; (split; [reflexivity |]); cbn; intros X; first [discriminate | exact X] |].
    cbn [orb run is_out]. destruct (Ascii.eqb_spec a "["); [subst; discriminate |]. exists (step b a). split.
    - unfold okc. cbn [is_out orb]. assert (X : negb (space a || Ascii.eqb a ",")%bool = true).
      { destruct (space a); [discriminate |]. destruct (Ascii.eqb a ","); [discriminate | reflexivity]. }
      rewrite X. cbn [tr]. destruct (Ascii.eqb_spec a "\"); [contradiction |]. destruct (Ascii.eqb_spec a quote); [contradiction |]. destruct b; reflexivity.
    - intros Hb. unfold step. destruct (Ascii.eqb_spec a "["); [contradiction |]. destruct b; [discriminate | exfalso; apply Hb; reflexivity |]. destruct (space a || Ascii.eqb a "]")%bool; discriminate. }
  destruct E as (b1 & E1 & E2). destruct (IHs b1 H2) as (b2 & F1 & F2). exists b2. rewrite run_app, E1. auto.
Qed.
Lemma run_key : forall s, out_string s = true -> passes No (show_str s) No.
Proof. intros s H. unfold passes, show_str. cbn [run]. change (tr Out quote) with In. cbn [is_out orb andb]. rewrite orb_true_r. cbn [andb]. change (step No quote) with No. rewrite run_app, run_inside_no by exact H. reflexivity. Qed.
Lemma run_item : forall s b, in_string s = true -> exists b', passes b (show_str s) b' /\ (b <> Array -> b' <> Array).
Proof.
  intros s b H. unfold show_str. destruct (run_inside s (step b quote) H) as (b1 & E1 & E2). exists (step b1 quote). split.
  - unfold passes. cbn [run]. change (tr Out quote) with In. unfold okc. cbn [is_out orb andb]. rewrite orb_true_r. rewrite run_app.
    replace (match b with No => true | _ => true end) with true by (destruct b; reflexivity). cbn [andb]. rewrite E1. destruct b1; reflexivity.
  - intros Hb. assert (step b quote <> Array) by (destruct b; vm_compute; congruence). specialize (E2 H0). destruct b1; vm_compute; congruence.
Qed.
Lemma run_comma : forall b, passes b [","] (step b ",") /\ step b "," <> Closed /\ (b <> Array -> step b "," = No).
Proof. destruct b; (split; [reflexivity |]); (split; [discriminate |]); intros X; first [reflexivity | exfalso; apply X; reflexivity]. Qed.
Definition runs (n : Z) (arr : bool) (v : json) : Prop := forall level b, (arr = false -> b = No) -> good arr v = true -> exists b', passes b (dumps (Some n) level v) b' /\ (b <> Array -> b' <> Array).
Lemma run_list : forall n level (l : list json), Forall (runs n true) l -> forallb (good true) l = true -> forall b, exists b', passes b (join (comma (Some n) level) (map (dumps (Some n) level) l)) b'.
Proof.
  intros n level l F. induction F as [| v l Hv F IH]; intros G b; [exists b; reflexivity |].
  cbn [forallb] in G. apply andb_prop in G. destruct G as [G1 G2]. destruct (Hv level b ltac:(discriminate) G1) as (b1 & P1 & _).
  destruct l as [| w l]; [exists b1; exact P1 |].
  destruct (run_comma b1) as [P2 _]. destruct (run_line n level (step b1 ",")) as (b2 & P3 & _). destruct (IH G2 b2) as (b3 & P4).
  exists b3. change (passes b (dumps (Some n) level v ++ (comma (Some n) level) ++ join (comma (Some n) level) (map (dumps (Some n) level) (w :: l))) b3).
  eapply passes_app; [exact P1 |]. eapply passes_app; [| exact P4]. change (passes b1 ([","] ++ line (Some n) level) b2). eapply passes_app; [exact P2 | exact P3].
Qed.
Definition show_item (n : Z) (level : nat) (kv : text * json) : text := show_str (fst kv) ++ [":"; " "] ++ dumps (Some n) level (snd kv).
Lemma run_obj : forall n level (l : list (text * json)), Forall (fun kv => runs n false (snd kv)) l -> forallb (fun kv => out_string (fst kv) && good false (snd kv))%bool l = true ->
  exists b', passes No (join (comma (Some n) level) (map (show_item n level) l)) b' /\ b' <> Array.
Proof.
  intros n level l F. induction F as [| [k v] l Hv F IH]; intros G; [exists No; split; [reflexivity | discriminate] |].
  cbn [forallb fst snd] in G. apply andb_prop in G. destruct G as [G1 G2]. apply andb_prop in G1. destruct G1 as [G0 G1].
  destruct (Hv level No ltac:(reflexivity) G1) as (b1 & P1 & Q1). specialize (Q1 ltac:(discriminate)).
  assert (P0 : passes No (show_item n level (k, v)) b1).
  { unfold show_item. cbn [fst snd] in *. eapply passes_app; [exact (run_key k G0) |]. eapply passes_app; [| exact P1]. reflexivity. }
  destruct l as [| w l]; [exists b1; split; [exact P0 | exact Q1] |].
  destruct (run_comma b1) as [P2 [_ Q2]]. specialize (Q2 Q1). destruct (run_line n level (step b1 ",")) as (b2 & P3 & _ & Q3). specialize (Q3 Q2). subst b2. destruct (IH G2) as (b3 & P4 & Q4).
  exists b3. split; [| exact Q4]. change (passes No (show_item n level (k, v) ++ (comma (Some n) level) ++ join (comma (Some n) level) (map (show_item n level) (w :: l))) b3).
  eapply passes_app; [exact P0 |]. eapply passes_app; [| exact P4]. change (passes b1 ([","] ++ line (Some n) level) No). eapply passes_app; [exact P2 | exact P3].
Qed.
Lemma dumps_runs : forall n v arr, runs n arr v.
Proof.
  intros n. induction v using json_ind'; intros arr level b Hb G.
  - cbn [dumps]. apply run_plain. exact G.
  - cbn [dumps]. destruct arr; [apply run_item; exact G |]. rewrite (Hb eq_refl). exists No. split; [apply run_key; exact G | auto].
  - destruct l as [| v l]; [cbn [dumps]; exists Closed; split; [destruct b; reflexivity | discriminate] |].
    cbn [good] in G. change (dumps (Some n) level (JList (v :: l))) with (["["] ++ line (Some n) (S level) ++ join (comma (Some n) (S level)) (map (dumps (Some n) (S level)) (v :: l)) ++ line (Some n) level ++ ["]"]).
    destruct (run_line n (S level) Array) as (b1 & P1 & _).
    destruct (run_list n (S level) (v :: l)) with (b := b1) as (b2 & P2); [| exact G |].
    { eapply Forall_impl; [| exact H]. cbn. auto. }
    destruct (run_line n level b2) as (b3 & P3 & _).
    exists (step b3 "]"). split; [| destruct b3; discriminate].
    eapply passes_app; [instantiate (1 := Array); destruct b; reflexivity |]. eapply passes_app; [exact P1 |]. eapply passes_app; [exact P2 |]. eapply passes_app; [exact P3 |]. destruct b3; reflexivity.
  - destruct l as [| v l]; [cbn [dumps]; exists No; split; [destruct b; reflexivity | discriminate] |].
    cbn [good] in G. change (dumps (Some n) level (JObj (v :: l))) with (["{"] ++ line (Some n) (S level) ++ join (comma (Some n) (S level)) (map (show_item n (S level)) (v :: l)) ++ line (Some n) level ++ ["}"]).
    destruct (run_line n (S level) No) as (b1 & P1 & _ & Q1). specialize (Q1 eq_refl). subst b1.
    destruct (run_obj n (S level) (v :: l)) as (b2 & P2 & Q2); [| exact G |].
    { eapply Forall_impl; [| exact H]. cbn. auto. }
    destruct (run_line n level b2) as (b3 & P3 & Q3 & _). specialize (Q3 Q2).
    exists (step b3 "}"). split; [| intros _; destruct b3; [discriminate | exfalso; apply Q3; reflexivity | discriminate]].
    eapply passes_app; [instantiate (1 := No); destruct b; reflexivity |]. eapply passes_app; [exact P1 |]. eapply passes_app; [exact P2 |]. eapply passes_app; [exact P3 |]. destruct b3; reflexivity.
Qed.
Lemma flat_norm : forall n v, good false v = true -> norm Out (sub (dumps (Some n) 0%nat v)) = norm Out (dumps (Some n) 0%nat v).
Proof.
  intros n v G. destruct (dumps_runs n v false 0%nat No ltac:(reflexivity) G) as (b & P & _). apply sub_norm; [reflexivity |]. unfold passes in P. rewrite P. discriminate.
Qed.

(** ** Arrays of numbers and words *)
Definition word (c : ascii) : bool := negb (space c || Ascii.eqb c "," || Ascii.eqb c "[" || Ascii.eqb c "]" || Ascii.eqb c "{")%bool.
Definition scalar (v : json) : bool := match v with JAtom t => forallb word t | JStr s => forallb word s | _ => false end.
Fixpoint simple (v : json) : bool :=
  match v with
  | JAtom t => forallb (fun c => negb (Ascii.eqb c "[")) t
  | JStr s => out_string s
  | JList l => forallb scalar l
  | JObj l => forallb (fun kv => out_string (fst kv) && simple (snd kv))%bool l
  end.
(** Objects have an item per line, arrays are as without indent *)
Fixpoint dumps_flat (n : Z) (level : nat) (v : json) : text :=
  match v with
  | JObj [] => ["{"; "}"]
  | JObj l => "{" :: line (Some n) (S level) ++ join ("," :: line (Some n) (S level)) (map (fun kv => show_str (fst kv) ++ [":"; " "] ++ dumps_flat n (S level) (snd kv)) l) ++ line (Some n) level ++ ["}"]
  | v => dumps None level v
  end.
Definition nobr (l : text) : bool := forallb (fun c => negb (Ascii.eqb c "[")) l.
Lemma m_array_other : forall c r, c <> "[" -> m_array (c :: r) = None.
Proof. intros c r H. unfold m_array. destruct c as [[] [] [] [] [] [] [] []]; congruence. Qed.
Lemma closings_len : forall n l a b, closings n l = (a, b) -> (length b <= length l)%nat.
Proof. intros n l a b H. destruct (closings_spec _ _ _ _ H) as [-> _]. rewrite app_length. lia. Qed.
Lemma sub_fuel : forall n m l, (length l <= n)%nat -> (length l <= m)%nat -> sub_ n l = sub_ m l.
Proof.
  induction n; intros m l H1 H2.
  - destruct l; [destruct m; reflexivity | cbn in H1; lia].
  - destruct l as [| c l]; [destruct m; reflexivity |]. destruct m; [cbn in H2; lia |]. cbn [sub_]. cbn in H1, H2.
    destruct (m_array (c :: l)) as [[x rest] |] eqn:E.
    + f_equal. destruct (m_array_inv _ _ _ E) as (a & d & Em & El & _). assert (length rest <= length l)%nat.
      { assert (X : length (c :: l) = length (x ++ rest)) by (rewrite El; reflexivity). rewrite Em in X. cbn in X. repeat (rewrite app_length in X; cbn in X). lia. }
      apply IHn; lia.
    + f_equal. apply IHn; lia.
Qed.
Lemma sub_cons : forall c r, c <> "[" -> sub (c :: r) = c :: sub r.
Proof. intros c r H. unfold sub. change (length (c :: r)) with (S (length r)). cbn [sub_]. rewrite m_array_other by exact H. reflexivity. Qed.
Lemma sub_nobr : forall l r, nobr l = true -> sub (l ++ r) = l ++ sub r.
Proof.
  induction l; intros r H; [reflexivity |]. cbn [nobr forallb] in H. apply andb_prop in H. destruct H as [H1 H2]. cbn [app].
  rewrite sub_cons by (intros ->; discriminate). rewrite IHl by exact H2. reflexivity.
Qed.
(** no further closing bracket *)
Definition nc (r : text) : Prop := match snd (span space r) with c :: _ => c <> "]" | [] => True end.
Lemma nc_closings : forall n r, nc r -> closings n r = ([], r).
Proof.
  intros [| n] r H; [reflexivity |]. cbn [closings]. unfold nc in H. destruct (span space r) as [w x]. cbn [snd] in H.
  destruct x as [| c x]; [reflexivity |]. destruct c as [[] [] [] [] [] [] [] []]; congruence.
Qed.
Lemma span_all : forall p a r, forallb p a = true -> match r with c :: _ => p c = false | [] => True end -> span p (a ++ r) = (a, r).
Proof.
  induction a as [| x a IH]; intros r H K.
  - destruct r as [| c r]; [reflexivity |]. cbn. rewrite K. reflexivity.
  - cbn [forallb] in H. apply andb_prop in H. destruct H as [H1 H2]. cbn. rewrite H1, (IH r H2 K). reflexivity.
Qed.
Definition inner (c : ascii) : bool := negb (Ascii.eqb c "]" || Ascii.eqb c "{")%bool.
Lemma sub_array : forall a r, forallb inner a = true -> nc r -> sub ("[" :: a ++ "]" :: r) = flatten ("[" :: a ++ ["]"]) ++ sub r.
Proof.
  intros a r H K. unfold sub. change (length ("[" :: a ++ "]" :: r)) with (S (length (a ++ "]" :: r))). cbn [sub_]. unfold m_array. fold inner.
  change (fun c => negb (Ascii.eqb c "]" || Ascii.eqb c "{")%bool) with inner.
  rewrite span_all by (first [exact H | reflexivity]). rewrite nc_closings by exact K. f_equal. apply sub_fuel; [rewrite app_length; cbn; lia | lia].
Qed.
Lemma flatten_app : forall a b, flatten (a ++ b) = flatten a ++ flatten b.
Proof. intros. unfold flatten. rewrite map_app, concat_app. reflexivity. Qed.
Lemma flatten_word : forall l, forallb (fun c => negb (space c || Ascii.eqb c ",")%bool) l = true -> flatten l = l.
Proof.
  unfold flatten. induction l; intros H; [reflexivity |]. cbn [forallb] in H. apply andb_prop in H. destruct H as [H1 H2]. cbn [map concat]. rewrite IHl by exact H2.
  unfold flat_char. destruct (space a); [discriminate |]. destruct (Ascii.eqb a ","); [discriminate | reflexivity].
Qed.
Lemma space_line : forall n level, forallb space (line (Some n) level) = true.
Proof.
  intros n level. cbn [line forallb]. unfold times.
  assert (X : forall k, forallb space (concat (repeat (repeat " " (Z.to_nat n)) k)) = true).
  { induction k; [reflexivity |]. cbn [repeat concat]. rewrite forallb_app, IHk, andb_true_r. clear. induction (Z.to_nat n); [reflexivity | exact IHn0]. }
  rewrite X. reflexivity.
Qed.
Lemma flatten_space : forall l, forallb space l = true -> flatten l = [].
Proof. unfold flatten. induction l; intros H; [reflexivity |]. cbn [forallb] in H. apply andb_prop in H. destruct H as [H1 H2]. cbn [map concat]. rewrite IHl by exact H2. unfold flat_char. rewrite H1. reflexivity. Qed.
Lemma space_nobr : forall l, forallb space l = true -> nobr l = true.
Proof. intros l H. unfold nobr. rewrite forallb_forall in *. intros x Hx. specialize (H x Hx). destruct (Ascii.eqb_spec x "["); [subst; discriminate | reflexivity]. Qed.
Lemma space_inner : forall l, forallb space l = true -> forallb inner l = true.
Proof. intros l H. rewrite forallb_forall in *. intros x Hx. specialize (H x Hx). unfold inner. destruct (Ascii.eqb_spec x "]"); [subst; discriminate |]. destruct (Ascii.eqb_spec x "{"); [subst; discriminate | reflexivity]. Qed.
Lemma word_str : forall s, forallb word s = true -> forallb word (show_str s) = true.
Proof.
  intros s H. unfold show_str. cbn [forallb]. change (word quote) with true. rewrite forallb_app. cbn [forallb]. change (word quote) with true. rewrite !andb_true_r. cbn [andb].
  induction s; [reflexivity |]. cbn [forallb] in H. apply andb_prop in H. destruct H as [H1 H2]. cbn [map concat]. rewrite forallb_app, (IHs H2), andb_true_r.
  unfold esc. destruct (_ || _)%bool; cbn [forallb]; rewrite H1; reflexivity.
Qed.
Lemma scalar_word : forall i level v, scalar v = true -> forallb word (dumps i level v) = true /\ dumps i level v = dumps None 0%nat v.
Proof. intros i level v H. destruct v; cbn in *; try discriminate; split; auto. now apply word_str. Qed.
Lemma word_parts : forall l, forallb word l = true -> forallb inner l = true /\ flatten l = l /\ nobr l = true.
Proof.
  intros l H. rewrite forallb_forall in H. unfold word in H. split; [| split].
  - rewrite forallb_forall. intros x Hx. specialize (H x Hx). unfold inner. destruct (Ascii.eqb x "]"); [rewrite !orb_true_r in H; discriminate |]. destruct (Ascii.eqb x "{"); [rewrite !orb_true_r in H; discriminate | reflexivity].
  - apply flatten_word. rewrite forallb_forall. intros x Hx. specialize (H x Hx). destruct (space x || Ascii.eqb x ",")%bool; [discriminate | reflexivity].
  - unfold nobr. rewrite forallb_forall. intros x Hx. specialize (H x Hx). destruct (Ascii.eqb x "["); [rewrite !orb_true_r in H; discriminate | reflexivity].
Qed.
Lemma flat_items : forall n level level' l, forallb scalar l = true ->
  forallb inner (join (comma (Some n) level) (map (dumps (Some n) level) l)) = true /\ flatten (join (comma (Some n) level) (map (dumps (Some n) level) l)) = join [","; " "] (map (dumps None level') l).
Proof.
  intros n level level'. induction l as [| v l IH]; intros H; [split; reflexivity |]. cbn [forallb] in H. apply andb_prop in H. destruct H as [H1 H2].
  destruct (scalar_word (Some n) level v H1) as [W E]. destruct (scalar_word None level' v H1) as [_ E'].
  destruct (word_parts _ W) as (A & B & _). destruct (IH H2) as [C D].
  destruct l as [| w l].
  - cbn [map join]. split; [exact A | rewrite B, E, E'; reflexivity].
  - change (join (comma (Some n) level) (map (dumps (Some n) level) (v :: w :: l))) with (dumps (Some n) level v ++ ("," :: line (Some n) level) ++ join (comma (Some n) level) (map (dumps (Some n) level) (w :: l))).
    change (join [","; " "] (map (dumps None level') (v :: w :: l))) with (dumps None level' v ++ [","; " "] ++ join [","; " "] (map (dumps None level') (w :: l))).
    split.
    + rewrite !forallb_app, A, C. cbn [forallb]. rewrite (space_inner _ (space_line n level)). reflexivity.
    + rewrite !flatten_app, B, D, E, E'. change (flatten ("," :: line (Some n) level)) with (flatten ([","] ++ line (Some n) level)). rewrite flatten_app, (flatten_space _ (space_line n level)). reflexivity.
Qed.
Lemma nobr_app : forall a b, nobr a = true -> nobr b = true -> nobr (a ++ b) = true.
Proof. intros a b A B. unfold nobr in *. rewrite forallb_app, A, B. reflexivity. Qed.
Lemma nobr_str : forall s, out_string s = true -> nobr (show_str s) = true.
Proof.
  intros s H. unfold show_str, nobr. cbn [forallb]. rewrite forallb_app. cbn [forallb]. change (negb (Ascii.eqb quote "[")) with true. rewrite !andb_true_r. cbn [andb].
  induction s; [reflexivity |]. cbn [out_string forallb] in H. apply andb_prop in H. destruct H as [H1 H2]. cbn [map concat]. rewrite forallb_app, (IHs H2), andb_true_r.
  unfold esc. destruct (_ || _)%bool; cbn [forallb]; rewrite H1; reflexivity.
Qed.
Lemma nc_line : forall n level c r, space c = false -> c <> "]" -> nc (line (Some n) level ++ c :: r).
Proof. intros n level c r H K. unfold nc. rewrite span_all by (first [apply space_line | exact H]). exact K. Qed.
Lemma nc_comma : forall r, nc ("," :: r).
Proof. intros r. unfold nc. cbn. discriminate. Qed.
Definition flat_item (n : Z) (level : nat) (kv : text * json) : text := show_str (fst kv) ++ [":"; " "] ++ dumps_flat n level (snd kv).
Definition lays (n : Z) (v : json) : Prop := forall level r, simple v = true -> nc r -> sub (dumps (Some n) level v ++ r) = dumps_flat n level v ++ sub r.
Lemma lay_obj : forall n level l r, Forall (fun kv => lays n (snd kv)) l -> forallb (fun kv => out_string (fst kv) && simple (snd kv))%bool l = true -> nc r ->
  sub (join (comma (Some n) level) (map (show_item n level) l) ++ r) = join ("," :: line (Some n) level) (map (flat_item n level) l) ++ sub r.
Proof.
  intros n level l r F. induction F as [| [k v] l Hv F IH]; intros G K; [reflexivity |].
  cbn [forallb fst snd] in G. apply andb_prop in G. destruct G as [G1 G2]. apply andb_prop in G1. destruct G1 as [G0 G1]. cbn [snd] in Hv.
  assert (P : forall r, nc r -> sub (show_item n level (k, v) ++ r) = flat_item n level (k, v) ++ sub r).
  { intros x Hx. unfold show_item, flat_item. cbn [fst snd]. rewrite <- !app_assoc. rewrite sub_nobr by (apply nobr_str; exact G0). f_equal.
    rewrite sub_nobr by reflexivity. f_equal. apply Hv; assumption. }
  destruct l as [| w l]; [exact (P r K) |].
  change (join (comma (Some n) level) (map (show_item n level) ((k, v) :: w :: l))) with (show_item n level (k, v) ++ ("," :: line (Some n) level) ++ join (comma (Some n) level) (map (show_item n level) (w :: l))).
  change (join ("," :: line (Some n) level) (map (flat_item n level) ((k, v) :: w :: l))) with (flat_item n level (k, v) ++ ("," :: line (Some n) level) ++ join ("," :: line (Some n) level) (map (flat_item n level) (w :: l))).
  rewrite <- !app_assoc. rewrite P by (apply nc_comma). f_equal.
  rewrite sub_nobr by (change ("," :: line (Some n) level) with ([","] ++ line (Some n) level); apply nobr_app; [reflexivity | apply space_nobr, space_line]). f_equal. apply IH; assumption.
Qed.
Lemma dumps_lays : forall n v, lays n v.
Proof.
  intros n. induction v using json_ind'; intros level r G K.
  - cbn [dumps dumps_flat]. apply sub_nobr. exact G.
  - cbn [dumps dumps_flat]. apply sub_nobr. apply nobr_str. exact G.
  - cbn [simple] in G. destruct l as [| v l].
    + cbn [dumps dumps_flat app]. change ("[" :: "]" :: r) with ("[" :: [] ++ "]" :: r). rewrite sub_array by (first [reflexivity | exact K]). reflexivity.
    + change (dumps (Some n) level (JList (v :: l))) with ("[" :: line (Some n) (S level) ++ join (comma (Some n) (S level)) (map (dumps (Some n) (S level)) (v :: l)) ++ line (Some n) level ++ ["]"]).
      change (dumps_flat n level (JList (v :: l))) with ("[" :: [] ++ join [","; " "] (map (dumps None (S level)) (v :: l)) ++ [] ++ ["]"]).
      destruct (flat_items n (S level) (S level) (v :: l) G) as [A B].
      replace (("[" :: line (Some n) (S level) ++ join (comma (Some n) (S level)) (map (dumps (Some n) (S level)) (v :: l)) ++ line (Some n) level ++ ["]"]) ++ r)
        with ("[" :: (line (Some n) (S level) ++ join (comma (Some n) (S level)) (map (dumps (Some n) (S level)) (v :: l)) ++ line (Some n) level) ++ "]" :: r)
        by (cbn [app]; f_equal; rewrite <- !app_assoc; reflexivity).
      rewrite sub_array; [| rewrite !forallb_app, A; rewrite !space_inner by apply space_line; reflexivity | exact K]. f_equal.
      change ("[" :: (line (Some n) (S level) ++ join (comma (Some n) (S level)) (map (dumps (Some n) (S level)) (v :: l)) ++ line (Some n) level) ++ ["]"])
        with (["["] ++ (line (Some n) (S level) ++ join (comma (Some n) (S level)) (map (dumps (Some n) (S level)) (v :: l)) ++ line (Some n) level) ++ ["]"]).
      rewrite !flatten_app, B, (flatten_space (line (Some n) (S level))), (flatten_space (line (Some n) level)) by apply space_line. rewrite app_nil_r. reflexivity.
  - destruct l as [| v l].
    + cbn [dumps dumps_flat]. apply sub_nobr. reflexivity.
    + cbn [simple] in G.
      change (dumps (Some n) level (JObj (v :: l))) with (["{"] ++ line (Some n) (S level) ++ join (comma (Some n) (S level)) (map (show_item n (S level)) (v :: l)) ++ line (Some n) level ++ ["}"]).
      change (dumps_flat n level (JObj (v :: l))) with (["{"] ++ line (Some n) (S level) ++ join ("," :: line (Some n) (S level)) (map (flat_item n (S level)) (v :: l)) ++ line (Some n) level ++ ["}"]).
      rewrite <- !app_assoc. rewrite sub_nobr by reflexivity. f_equal. rewrite sub_nobr by (apply space_nobr, space_line). f_equal.
      rewrite lay_obj; [| exact H | exact G | apply nc_line; [reflexivity | discriminate]]. f_equal.
      rewrite sub_nobr by (apply space_nobr, space_line). apply f_equal. apply sub_nobr. reflexivity.
Qed.
