(** Texts of numbers and commands. *)
From Coq Require Import String Ascii.
From Verif Require Import Base SvgModel.
Open Scope char_scope.

Lemma span_app p a b : Forall (fun c => p c = true) a -> (match b with [] => True | c :: _ => p c = false end) -> span p (a ++ b) = (a, b).
Proof.
  induction 1 as [|c a Hc Ha IH]; intros Hb; cbn [app].
  - destruct b as [|c b]; cbn; [reflexivity|]. now rewrite Hb.
  - cbn [span]. rewrite Hc, IH by exact Hb. reflexivity.
Qed.
Lemma span_spec p l : let (a, b) := span p l in l = a ++ b /\ Forall (fun c => p c = true) a /\ match b with [] => True | c :: _ => p c = false end.
Proof.
  induction l as [|c l IH]; cbn [span]; [repeat constructor|]. destruct (p c) eqn:E; [|repeat constructor; exact E]. destruct (span p l) as [a b]. destruct IH as (-> & F & H). repeat split; auto.
Qed.

(** ** Numbers as texts *)
Definition digits (t : text) : Prop := t <> [] /\ Forall (fun c => digit c = true) t.
Definition optsign (t : text) : Prop := t = [] \/ exists c, sign c = true /\ t = [c].
Definition mantissa (t : text) : Prop := digits t \/ exists a b, (a = [] \/ digits a) /\ digits b /\ t = a ++ "." :: b.
Definition exponent (t : text) : Prop := t = [] \/ exists c s d, (c = "e" \/ c = "E") /\ optsign s /\ digits d /\ t = c :: s ++ d.
(** A decimal number: sign, whole part and/or fraction, exponent *)
Definition number (t : text) : Prop := exists s m e, optsign s /\ mantissa m /\ exponent e /\ t = s ++ m ++ e.
(** What can follow a number: no digit, point or exponent (units such as em can) *)
Definition no_digit (l : text) : Prop := match l with [] => True | c :: _ => digit c = false end.
Definition stop (l : text) : Prop := match l with [] => True | c :: r => digit c = false /\ c <> "." /\ (c = "e" \/ c = "E" -> no_digit r /\ match r with [] => True | x :: r' => sign x = true -> no_digit r' end) end.

Lemma eqb_eq a b : Ascii.eqb a b = true <-> a = b. Proof. apply Ascii.eqb_eq. Qed.
Lemma eqb_neq a b : Ascii.eqb a b = false <-> a <> b. Proof. apply Ascii.eqb_neq. Qed.
Lemma digit_not c d : digit c = true -> digit d = false -> Ascii.eqb c d = false.
Proof. intros A B. apply eqb_neq. intros ->. congruence. Qed.
Lemma sign_nodigit c : sign c = true -> digit c = false.
Proof. unfold sign. rewrite orb_true_iff, !eqb_eq. intros [->| ->]; reflexivity. Qed.
Lemma exp_ok e rest : exponent e -> stop rest -> m_exp (e ++ rest) = (e, rest).
Proof.
  intros [->|(c & s & d & Hc & Hs & (Nd & Fd) & ->)] St; cbn [app].
  - destruct rest as [|c r]; [reflexivity|]. destruct St as (_ & _ & A). cbn [m_exp]. destruct (Ascii.eqb c "e" || Ascii.eqb c "E")%bool eqn:Ec; [|reflexivity]. rewrite orb_true_iff, !eqb_eq in Ec. destruct (A Ec) as [A1 A2].
    assert (N : forall u, no_digit u -> span digit u = ([], u)) by (intros [|x u] Hu; [reflexivity|]; cbn [no_digit] in Hu; cbn [span]; now rewrite Hu).
    destruct r as [|x r]; [reflexivity|]. destruct (sign x) eqn:Sx; [rewrite (N r (A2 eq_refl))|rewrite (N (x :: r) A1)]; reflexivity.
  - assert (Ec : (Ascii.eqb c "e" || Ascii.eqb c "E")%bool = true) by (destruct Hc as [->| ->]; reflexivity). cbn [m_exp]. rewrite Ec.
    assert (Sp : span digit (d ++ rest) = (d, rest)) by (apply span_app; [exact Fd|]; destruct rest as [|x r]; [exact I|apply St]).
    destruct Hs as [->|(x & Hx & ->)]; cbn [app].
    + destruct d as [|x d]; [contradiction|]. inversion Fd as [|? ? Hx Fd']; subst. cbn [app]. assert (Sx : sign x = false) by (destruct (sign x) eqn:E; [apply sign_nodigit in E; congruence|reflexivity]). rewrite Sx. change (x :: d ++ rest) with ((x :: d) ++ rest). rewrite Sp. reflexivity.
    + rewrite Hx, Sp. destruct d; [contradiction|]. reflexivity.
Qed.
Lemma exp_head e rest : exponent e -> stop rest -> match e ++ rest with [] => True | c :: _ => digit c = false /\ c <> "." end.
Proof. intros [->|(c & s & d & Hc & _ & _ & ->)] St; cbn [app]; [destruct rest; [exact I|]; split; apply St|]. destruct Hc as [->| ->]; (split; [reflexivity|discriminate]). Qed.
Lemma mantissa_ok m rest : mantissa m -> (match rest with [] => True | c :: _ => digit c = false /\ c <> "." end) -> m_mantissa (m ++ rest) = Some (m, rest).
Proof.
  intros Hm St. unfold m_mantissa. destruct Hm as [[N F]|(a & b & Ha & [Nb Fb] & ->)].
  - rewrite (span_app digit m rest F) by (destruct rest; [exact I|apply St]). destruct m as [|x m]; [contradiction|]. destruct rest as [|c r]; [reflexivity|]. destruct St as [_ St]. apply eqb_neq in St. rewrite St. reflexivity.
  - rewrite <- app_assoc. cbn [app]. rewrite (span_app digit a ("." :: b ++ rest)); [|destruct Ha as [->|[_ Fa]]; [constructor|exact Fa]|reflexivity].
    change (Ascii.eqb "." ".") with true. cbn iota. rewrite (span_app digit b rest Fb) by (destruct rest; [exact I|apply St]). destruct b; [contradiction|]. reflexivity.
Qed.
Lemma mantissa_head m rest : mantissa m -> exists c r, m ++ rest = c :: r /\ sign c = false.
Proof.
  assert (D : forall c, digit c = true -> sign c = false) by (intros c A; destruct (sign c) eqn:E; [apply sign_nodigit in E; congruence|reflexivity]).
  intros [[N F]|(a & b & Ha & _ & ->)].
  - destruct m as [|c m]; [contradiction|]. inversion F; subst. exists c, (m ++ rest). split; [reflexivity|auto].
  - destruct Ha as [->|[N F]]; [exists "."; eexists; split; reflexivity|]. destruct a as [|c a]; [contradiction|]. inversion F; subst. exists c. eexists. split; [reflexivity|auto].
Qed.
Lemma number_ok t rest : number t -> stop rest -> m_coord (t ++ rest) = Some (t, rest).
Proof.
  intros (s & m & e & Hs & Hm & He & ->) St. unfold m_coord. rewrite <- !app_assoc. destruct (mantissa_head m (e ++ rest) Hm) as (c & r & Ec & Sc).
  assert (M : m_mantissa (m ++ e ++ rest) = Some (m, e ++ rest)) by (apply mantissa_ok; [exact Hm|now apply exp_head]).
  destruct Hs as [->|(x & Hx & ->)]; cbn [app].
  - rewrite Ec, Sc. rewrite <- Ec, M, (exp_ok e rest He St). reflexivity.
  - rewrite Hx, M, (exp_ok e rest He St). reflexivity.
Qed.
Lemma number_nonempty t : number t -> t <> [].
Proof. intros (s & m & e & _ & Hm & _ & ->) E. apply app_eq_nil in E as [_ E]. destruct (mantissa_head m e Hm) as (c & r & Ec & _). rewrite Ec in E. discriminate. Qed.

(** ** findall *)
Definition consumes {A} (m : text -> option (A * text)) : Prop := forall l t rest, m l = Some (t, rest) -> (length rest < length l)%nat.
Lemma findall_fuel {A} (m : text -> option (A * text)) : consumes m -> forall n n' l, (length l <= n)%nat -> (length l <= n')%nat -> findall_ m n l = findall_ m n' l.
Proof.
  intros C. induction n as [|n IH]; intros n' l L L'.
  - destruct l; [|cbn in L; lia]. destruct n'; reflexivity.
  - destruct l as [|c r]; [destruct n'; reflexivity|]. destruct n' as [|n']; [cbn in L'; lia|]. cbn [findall_]. destruct (m (c :: r)) as [[t rest]|] eqn:E.
    + apply C in E. cbn in *. f_equal. apply IH; lia.
    + cbn in *. apply IH; lia.
Qed.
Lemma findall_some {A} (m : text -> option (A * text)) l t rest : consumes m -> m l = Some (t, rest) -> findall m l = t :: findall m rest.
Proof.
  intros C E. pose proof (C _ _ _ E) as L. unfold findall. destruct l as [|c r]; [cbn in L; lia|]. change (length (c :: r)) with (S (length r)). cbn [findall_]. rewrite E. f_equal. apply findall_fuel; [exact C| |]; cbn in L; lia.
Qed.
Lemma findall_none {A} (m : text -> option (A * text)) c r : m (c :: r) = None -> findall m (c :: r) = findall m r.
Proof. intros E. unfold findall. change (length (c :: r)) with (S (length r)). cbn [findall_]. now rewrite E. Qed.
Lemma span_len p l : (length (snd (span p l)) <= length l)%nat /\ (fst (span p l) <> [] -> length (snd (span p l)) < length l)%nat.
Proof.
  pose proof (span_spec p l) as H. destruct (span p l) as [a b]. destruct H as (-> & _). cbn [fst snd]. rewrite app_length. split; [lia|]. destruct a; [contradiction|]. cbn. lia.
Qed.
Lemma exp_len l : (length (snd (m_exp l)) <= length l)%nat.
Proof.
  destruct l as [|e r]; [auto|]. cbn [m_exp]. destruct (Ascii.eqb e "e" || Ascii.eqb e "E")%bool; [|auto].
  destruct (match r with [] => ([], []) | c :: r' => if sign c then ([c], r') else ([], r) end) as [s r1] eqn:E. assert (length r1 <= length r)%nat by (destruct r as [|c r']; [injection E as <- <-; auto|destruct (sign c); injection E as <- <-; cbn; lia]).
  destruct (span digit r1) as [d rest] eqn:Ed. pose proof (span_len digit r1) as [L _]. rewrite Ed in L. cbn in L. destruct d; cbn; lia.
Qed.
Lemma mantissa_len l d r : m_mantissa l = Some (d, r) -> (length r < length l)%nat.
Proof.
  unfold m_mantissa. destruct (span digit l) as [a b] eqn:E. pose proof (span_len digit l) as [L1 L2]. rewrite E in L1, L2. cbn [fst snd] in *.
  assert (W : match a with [] => None | _ => Some (a, b) end = Some (d, r) -> (length r < length l)%nat) by (destruct a; [discriminate|]; intros H; injection H as _ <-; apply L2; discriminate).
  destruct b as [|c b]; [exact W|]. destruct (Ascii.eqb c "."); [|exact W]. destruct (span digit b) as [f rest] eqn:Ef. pose proof (span_len digit b) as [L3 _]. rewrite Ef in L3. cbn [fst snd] in L3. destruct f; [exact W|]. intros H. injection H as _ <-. cbn in L1. lia.
Qed.
Lemma coord_consumes : consumes m_coord.
Proof.
  intros l t rest H. unfold m_coord in H. destruct (match l with [] => ([], []) | c :: r => if sign c then ([c], r) else ([], l) end) as [s r1] eqn:E.
  assert (length r1 <= length l)%nat by (destruct l as [|c r']; [injection E as <- <-; auto|destruct (sign c); injection E as <- <-; cbn; lia]).
  destruct (m_mantissa r1) as [[d r2]|] eqn:Em; [|discriminate]. apply mantissa_len in Em. pose proof (exp_len r2) as L. destruct (m_exp r2) as [e r3]. injection H as _ <-. cbn in L. lia.
Qed.
Lemma run_consumes p : consumes (m_run p).
Proof. intros l t rest H. unfold m_run in H. pose proof (span_len p l) as [_ L]. destruct (span p l) as [a b]. destruct a; [discriminate|]. injection H as _ <-. apply L. discriminate. Qed.
Lemma func_consumes : consumes m_func.
Proof.
  intros l t rest H. unfold m_func in H. pose proof (span_len letter l) as [L1 L2]. destruct (span letter l) as [a b]. cbn [fst snd] in *. destruct a as [|x a]; [discriminate|]. destruct b as [|c b]; [discriminate|].
  specialize (L2 ltac:(discriminate)). assert (E : exists P r, Some (P, r) = Some (t, rest) /\ (length r <= length b)%nat).
  { pose proof (span_len (fun c => negb (Ascii.eqb c ")")) b) as [L3 _]. destruct (span (fun c => negb (Ascii.eqb c ")")) b) as [p q]. cbn [snd] in L3.
    destruct c as [[] [] [] [] [] [] [] []]; try discriminate H. destruct q as [|y q]; [discriminate|]. exists (x :: a, p), q. split; [exact H|]. cbn in L3. lia. }
  destruct E as (P & r & E & L). injection E as _ <-. cbn in L2. lia.
Qed.

(** A text that reads as these numbers: junk, and numbers followed by something that ends them *)
Definition junk (c : ascii) : Prop := digit c = false /\ sign c = false /\ c <> ".".
Inductive spells : text -> list text -> Prop :=
| spells_nil : spells [] []
| spells_junk c l ts : junk c -> spells l ts -> spells (c :: l) ts
| spells_num t l ts : number t -> stop l -> spells l ts -> spells (t ++ l) (t :: ts).
Lemma junk_none c l : junk c -> m_coord (c :: l) = None.
Proof.
  intros (D & S & P). unfold m_coord. rewrite S. unfold m_mantissa. cbn [span]. rewrite D. apply eqb_neq in P. rewrite P. reflexivity.
Qed.
Lemma spells_findall l ts : spells l ts -> findall m_coord l = ts.
Proof.
  induction 1 as [|c l ts J S IH|t l ts Nt St S IH]; [reflexivity| |].
  - rewrite findall_none by now apply junk_none. exact IH.
  - rewrite (findall_some m_coord (t ++ l) t l coord_consumes) by now apply number_ok. now rewrite IH.
Qed.
(** ** Blocks: a command letter followed by other text *)
Definition no_cmd (s : text) : Prop := Forall (fun c => cmd_char c = false) s.
Fixpoint blocks (l : list (ascii * text)) : text := match l with [] => [] | (c, s) :: r => c :: s ++ blocks r end.
Lemma run_cmd c l : cmd_char c = true -> match l with [] => True | x :: _ => cmd_char x = false end -> m_run cmd_char (c :: l) = Some ([c], l).
Proof. intros H Hl. unfold m_run. change (c :: l) with ([c] ++ l). rewrite span_app by (auto). reflexivity. Qed.
Lemma cmds_junk s l : no_cmd s -> findall (m_run cmd_char) (s ++ l) = findall (m_run cmd_char) l.
Proof. induction 1 as [|c s Hc Hs IH]; [reflexivity|]. cbn [app]. rewrite findall_none; [exact IH|]. unfold m_run. cbn [span]. now rewrite Hc. Qed.
(** All commands have a letter and a following text that is not empty, except the last one. *)
Definition good_blocks (l : list (ascii * text)) : Prop := Forall (fun b => cmd_char (fst b) = true /\ no_cmd (snd b)) l /\ forall b r, l = r ++ [b] -> Forall (fun b => snd b <> []) r.
Lemma good_tail b l : good_blocks (b :: l) -> good_blocks l.
Proof. intros [F H]. split; [now inversion F|]. intros b' r ->. specialize (H b' (b :: r) eq_refl). now inversion H. Qed.
Lemma blocks_cmds l : good_blocks l -> findall (m_run cmd_char) (blocks l) = map (fun b => [fst b]) l.
Proof.
  induction l as [|[c s] l IH]; intros G; [reflexivity|]. pose proof (proj1 G) as F. inversion F as [|? ? [Hc Hs] F']; subst. cbn [fst snd] in *. cbn [blocks map fst].
  rewrite (findall_some _ (c :: s ++ blocks l) [c] (s ++ blocks l) (run_consumes _)).
  - rewrite cmds_junk by exact Hs. rewrite IH by now apply good_tail in G. reflexivity.
  - apply run_cmd; [exact Hc|]. destruct s as [|x s]; [|inversion Hs; assumption]. cbn [app]. destruct l as [|b' l]; [exact I|]. exfalso.
    destruct (@exists_last _ (b' :: l)) as (r & z & Er); [discriminate|]. pose proof (proj2 G z ((c, []) :: r)) as Q. rewrite Er in Q. specialize (Q eq_refl). inversion Q as [|? ? Q1 _]; subst. now apply Q1.
Qed.
Lemma blocks_seqs l : good_blocks l -> findall (m_run (fun c => negb (cmd_char c))) (blocks l) = filter (fun s => match s with [] => false | _ => true end) (map snd l).
Proof.
  induction l as [|[c s] l IH]; intros G; [reflexivity|]. pose proof (proj1 G) as F. inversion F as [|? ? [Hc Hs] F']; subst. cbn [fst snd] in *. cbn [blocks map snd filter].
  rewrite findall_none by (unfold m_run; cbn [span]; rewrite Hc; reflexivity).
  destruct s as [|x s]; [cbn [app]; apply IH; now apply good_tail in G|].
  rewrite (findall_some _ ((x :: s) ++ blocks l) (x :: s) (blocks l) (run_consumes _)); [rewrite IH by (now apply good_tail in G); reflexivity|].
  unfold m_run. rewrite span_app; [reflexivity| |].
  - eapply Forall_impl; [|exact Hs]. intros y Hy. cbn in Hy. now rewrite Hy.
  - destruct l as [|[c' s'] l]; [exact I|]. cbn [blocks]. inversion F' as [|? ? [Hc' _] _]; subst. cbn in Hc'. now rewrite Hc'.
Qed.
Lemma foldM_ext {A B} (f g : A -> B -> result A) l : (forall a x, In x l -> f a x = g a x) -> forall a, foldM f l a = foldM g l a.
Proof. induction l as [|x l IH]; intros H a; [reflexivity|]. cbn [foldM]. rewrite H by now left. destruct (g a x); cbn [bind]; [|reflexivity]. apply IH. intros; apply H; now right. Qed.
Lemma foldM_app {A B} (f : A -> B -> result A) l1 l2 : forall a, foldM f (l1 ++ l2) a = let* b := foldM f l1 a in foldM f l2 b.
Proof. induction l1 as [|x l IH]; intros a; [reflexivity|]. cbn [foldM app]. destruct (f a x); cbn [bind]; [apply IH|reflexivity]. Qed.

Section Path.
Context {N : Type} (num : text -> N) (add : N -> N -> N).
(** Reading a path command by command *)
Definition is_z (c : ascii) : bool := (Ascii.eqb c "Z" || Ascii.eqb c "z")%bool.
Lemma ends_z cmds c : ends_with_z (cmds ++ [[c]]) = is_z c.
Proof. unfold ends_with_z. rewrite rev_app_distr. cbn [rev app]. destruct c as [[] [] [] [] [] [] [] []]; reflexivity. Qed.
Lemma combine_app_eq {A B} : forall (l1 : list A) (l1' : list B) l2 l2', length l1 = length l1' -> combine (l1 ++ l2) (l1' ++ l2') = combine l1 l1' ++ combine l2 l2'.
Proof. induction l1 as [|x l IH]; intros [|y l'] l2 l2' L; try discriminate; [reflexivity|]. cbn. f_equal. apply IH. now injection L. Qed.
Lemma from_path_blocks l : good_blocks l -> (forall c r, l = r ++ [(c, [])] -> is_z c = true) ->
  from_path num add (blocks l) = foldM (fun xy b => command add [fst b] (coords num (snd b)) xy) l [].
Proof.
  intros G Z. unfold from_path. rewrite (blocks_cmds l G), (blocks_seqs l G). destruct l as [|b0 l0]; [reflexivity|]. destruct (@exists_last _ (b0 :: l0)) as (r & [c s] & E); [discriminate|]. rewrite E in *. clear b0 l0 E.
  rewrite map_app. cbn [map fst]. rewrite ends_z. rewrite map_app, filter_app. cbn [map snd].
  assert (Fr : filter (fun s => match s with [] => false | _ => true end) (map snd r) = map snd r).
  { pose proof (proj2 G (c, s) r eq_refl) as Q. clear -Q. induction Q as [|b r Hb Q IH]; [reflexivity|]. cbn. destruct (snd b); [contradiction|]. now rewrite IH. }
  rewrite Fr. assert (Main : forall tail, foldM (fun xy cp => command add (fst cp) (snd cp) xy) (combine (map (fun b => [fst b]) r ++ [[c]]) (map (coords num) (map snd r) ++ coords num s :: tail)) [] = foldM (fun xy b => command add [fst b] (coords num (snd b)) xy) (r ++ [(c, s)]) []).
  { intros tail. rewrite combine_app_eq by now rewrite !map_length. cbn [combine]. rewrite !foldM_app. cbn [foldM fst snd].
    replace (foldM (fun xy cp => command add (fst cp) (snd cp) xy) (combine (map (fun b => [fst b]) r) (map (coords num) (map snd r))) []) with (foldM (fun xy b => command add [fst b] (coords num (snd b)) xy) r []); [destruct tail; reflexivity|].
    generalize (@nil (N * N)). clear. induction r as [|[c s] r IH]; intros a; [reflexivity|]. cbn [map combine foldM fst snd]. destruct (command add [c] (coords num s) a); cbn [bind]; [apply IH|reflexivity]. }
  destruct s as [|x s].
  - rewrite (Z c r eq_refl). cbn [filter]. rewrite app_nil_r. apply (Main []).
  - cbn [filter]. destruct (is_z c).
    + rewrite map_app. cbn [map]. rewrite <- app_assoc. cbn [app]. apply (Main [[]]).
    + rewrite map_app. cbn [map]. apply (Main []).
Qed.
End Path.
Lemma stop_char c l : digit c = false -> c <> "." -> c <> "e" -> c <> "E" -> stop (c :: l).
Proof. intros A B C D. split; [exact A|]. split; [exact B|]. intros [E|E]; contradiction. Qed.
