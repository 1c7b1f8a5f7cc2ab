(** Properties C77 (metadata values) and C78 (dump). *)
From Coq Require Import String Ascii Lia Lra.
From Verif Require Import Base BaseLemmas ExifModel.
Open Scope char_scope.

(** ** Specification *)
(** the decimal digits of a number, and the time stamp YYYY:MM:DD HH:MM:SS *)
Definition dig (n : nat) : ascii := ascii_of_nat (48 + n).
Definition show2 (n : nat) : text := [dig (n / 10); dig (n mod 10)].
Definition show4 (n : nat) : text := show2 (n / 100) ++ show2 (n mod 100).
Definition stamp (t : datetime) : text := show4 (dY t) ++ ":" :: show2 (dm t) ++ ":" :: show2 (dd t) ++ " " :: show2 (dH t) ++ ":" :: show2 (dM t) ++ ":" :: show2 (dS t).
(** dates of the Gregorian calendar: months of 31 days are 1, 3, 5, 7, 8, 10, 12; February has 29 days if 4 divides the year and 100 does not or 400 does *)
Definition leap_year (y : nat) : Prop := Nat.divide 4 y /\ (~ Nat.divide 100 y \/ Nat.divide 400 y).
Definition day_of (y m d : nat) : Prop := (1 <= d <= 28)%nat \/ (d = 29%nat /\ (m = 2%nat -> leap_year y)) \/ (d = 30%nat /\ m <> 2%nat) \/ (d = 31%nat /\ In m [1; 3; 5; 7; 8; 10; 12]%nat).
Definition a_date (t : datetime) : Prop := (1 <= dY t < 100 * 100)%nat /\ (1 <= dm t <= 12)%nat /\ day_of (dY t) (dm t) (dd t) /\ (dH t <= 23)%nat /\ (dM t <= 59)%nat /\ (dS t <= 59)%nat.
(** fields that can be written with four and two digits *)
Definition writable (t : datetime) : Prop := (dY t < 100 * 100)%nat /\ (dm t < 100)%nat /\ (dd t < 100)%nat /\ (dH t < 100)%nat /\ (dM t < 100)%nat /\ (dS t < 100)%nat.
Definition with_fraction (t : datetime) (us : nat) : datetime := mkdt (dY t) (dm t) (dd t) (dH t) (dM t) (dS t) us.
Definition is_digit (c : ascii) : Prop := exists n, (n < 10)%nat /\ c = dig n.
(** tag of a group *)
Definition tag_is (t : tags) (group name : string) (v : value) : Prop := exists d, lookup (T group) t = Some (GDict d) /\ lookup (T name) d = Some v.
Definition tag_missing (t : tags) (group name : string) : Prop := lookup (T group) t = None \/ exists d, lookup (T group) t = Some (GDict d) /\ lookup (T name) d = None.
(** decode leaves ASCII texts as they are *)
Definition ascii_text (b : text) : Prop := Forall (fun c => (nat_of_ascii c < 128)%nat) b.
Definition decodes (decode : text -> result text) : Prop := forall b, ascii_text b -> decode b = Ok b.

(** ** strptime on time stamps *)
Lemma dig_in n a b : (n < 10)%nat -> digit_in a b (dig n) = if ((a <=? n) && (n <=? b))%nat%bool then Some n else None.
Proof. intros H. do 10 (destruct n as [|n]; [reflexivity|]). lia. Qed.
Lemma two_digits n a b c d rest : (n < 100)%nat -> two a b c d (show2 n ++ rest) = if ((a <=? n / 10) && (n / 10 <=? b) && ((c <=? n mod 10) && (n mod 10 <=? d)))%nat%bool then [(n, rest)] else [].
Proof.
  intros H. assert (H1 : (n / 10 < 10)%nat) by (apply Nat.div_lt_upper_bound; lia). assert (H2 : (n mod 10 < 10)%nat) by (apply Nat.mod_upper_bound; lia). pose proof (Nat.div_mod n 10 ltac:(lia)) as D.
  unfold two, one, show2. cbn [app]. rewrite (dig_in _ _ _ H1). destruct ((a <=? n / 10) && (n / 10 <=? b))%nat%bool; [|reflexivity]. cbn [flat_map fst snd app]. rewrite (dig_in _ _ _ H2). destruct ((c <=? n mod 10) && (n mod 10 <=? d))%nat%bool; [|reflexivity]. cbn [map fst snd app]. rewrite <- D. reflexivity.
Qed.
Lemma one_digit n a b rest : (n < 100)%nat -> exists l, one a b (show2 n ++ rest) = l /\ forall x r, In (x, r) l -> r = dig (n mod 10) :: rest.
Proof.
  intros H. eexists. split; [reflexivity|]. intros x r. unfold one, show2. cbn [app]. destruct (digit_in a b _); [intros [E|[]]; now injection E as <- <-|intros []].
Qed.
(** the field, followed by another character than a digit: nothing else matches *)
Lemma lit_miss (c x : ascii) r : x <> c -> lit c (x :: r) = [].
Proof. intros H. unfold lit. destruct (Ascii.eqb_spec x c); [contradiction|reflexivity]. Qed.
Lemma dig_other n c : (n < 10)%nat -> (nat_of_ascii c < 48 \/ 57 < nat_of_ascii c)%nat -> dig n <> c.
Proof. intros H N E. subst c. unfold dig in N. rewrite nat_ascii_embedding in N by lia. lia. Qed.
Definition digits_left {A} (tail : list (A * text)) : Prop := forall x r, In (x, r) tail -> exists k r', (k < 10)%nat /\ r = dig k :: r'.
Lemma then_lit {A B} (p : parser A) (n : A) (c : ascii) l rest (f : A -> unit -> parser B) tail : (nat_of_ascii c < 48 \/ 57 < nat_of_ascii c)%nat ->
  p l = (n, c :: rest) :: tail -> digits_left tail -> andthen p (fun x => andthen (lit c) (f x)) l = f n tt rest.
Proof.
  intros N E Tl. unfold andthen at 1. rewrite E. cbn [flat_map fst snd]. assert (Z : flat_map (fun x : A * text => andthen (lit c) (f (fst x)) (snd x)) tail = []).
  { clear E. induction tail as [|[x r] tail IH]; [reflexivity|]. cbn [flat_map fst snd]. rewrite IH by (intros ? ? ?; eapply Tl; right; eassumption). destruct (Tl x r (or_introl eq_refl)) as (k & r' & Hk & ->). unfold andthen. rewrite lit_miss by (now apply dig_other). reflexivity. }
  rewrite Z, app_nil_r. unfold andthen, lit. rewrite Ascii.eqb_refl. cbn [flat_map fst snd]. apply app_nil_r.
Qed.
Lemma then_spaces {B} (p : parser nat) (n : nat) rest (f : nat -> unit -> parser B) tail : (forall c r, rest = c :: r -> space c = false) ->
  p (show2 n ++ " " :: rest) = (n, " " :: rest) :: tail -> digits_left tail ->
  andthen p (fun x => andthen pspaces (f x)) (show2 n ++ " " :: rest) = f n tt rest.
Proof.
  intros N E Tl. unfold andthen at 1. rewrite E. cbn [flat_map fst snd]. assert (Z : flat_map (fun x : nat * text => andthen pspaces (f (fst x)) (snd x)) tail = []).
  { clear E. induction tail as [|[x r] tail IH]; [reflexivity|]. cbn [flat_map fst snd]. rewrite IH by (intros ? ? ?; eapply Tl; right; eassumption). destruct (Tl x r (or_introl eq_refl)) as (k & r' & Hk & ->). unfold andthen. assert (Q : pspaces (dig k :: r') = []) by (cbn [pspaces]; do 10 (destruct k as [|k]; [reflexivity|]); lia). rewrite Q. reflexivity. }
  rewrite Z, app_nil_r. unfold andthen. assert (Q : pspaces (" " :: rest) = [(tt, rest)]).
  { cbn [pspaces]. change (space " ") with true. cbn match. destruct rest as [|c r]; [reflexivity|]. cbn [pspaces]. rewrite (N c r eq_refl). reflexivity. }
  rewrite Q. cbn [flat_map fst snd]. apply app_nil_r.
Qed.
Ltac fields n H := unfold alt; rewrite !two_digits by lia; repeat match goal with |- context[one ?a ?b (show2 n ++ ?r)] => destruct (one_digit n a b r ltac:(lia)) as (? & -> & ?) end.
(** all numbers below a bound *)
Lemma below_cases (P : nat -> Prop) m : (forall k, (k < m)%nat -> P k) -> forall n, (n < m)%nat -> P n. Proof. auto. Qed.
Lemma field_month n rest : (1 <= n <= 12)%nat -> exists tail, pm (show2 n ++ rest) = (n, rest) :: tail /\ digits_left tail.
Proof.
  intros H. unfold pm. fields n H. assert (M : (n mod 10 < 10)%nat) by (apply Nat.mod_upper_bound; lia).
  assert (C : exists t, (if ((1 <=? n / 10) && (n / 10 <=? 1) && ((0 <=? n mod 10) && (n mod 10 <=? 2)))%nat%bool then [(n, rest)] else []) ++ (if ((0 <=? n / 10) && (n / 10 <=? 0) && ((1 <=? n mod 10) && (n mod 10 <=? 9)))%nat%bool then [(n, rest)] else []) = [(n, rest)] /\ t = tt).
  { exists tt. split; [|reflexivity]. do 13 (destruct n as [|n]; [try lia; reflexivity|]). lia. }
  destruct C as (_ & C & _). exists x. rewrite app_assoc, C. split; [reflexivity|]. intros y r I. exists (n mod 10)%nat, rest. split; [exact M|now apply (H0 y)].
Qed.
Lemma field_day n rest : (1 <= n <= 31)%nat -> exists tail, pd (show2 n ++ rest) = (n, rest) :: tail /\ digits_left tail.
Proof.
  intros H. unfold pd. fields n H. assert (M : (n mod 10 < 10)%nat) by (apply Nat.mod_upper_bound; lia).
  assert (Sp : andthen (lit " ") (fun _ => one 1 9) (show2 n ++ rest) = []) by (unfold andthen, show2; cbn [app]; rewrite lit_miss; [reflexivity|apply dig_other; [apply Nat.div_lt_upper_bound; lia|left; vm_compute; repeat constructor]]). rewrite Sp, app_nil_r.
  set (A := if ((3 <=? n / 10) && (n / 10 <=? 3) && ((0 <=? n mod 10) && (n mod 10 <=? 1)))%nat%bool then [(n, rest)] else []). set (B := if ((1 <=? n / 10) && (n / 10 <=? 2) && ((0 <=? n mod 10) && (n mod 10 <=? 9)))%nat%bool then [(n, rest)] else []). set (C := if ((0 <=? n / 10) && (n / 10 <=? 0) && ((1 <=? n mod 10) && (n mod 10 <=? 9)))%nat%bool then [(n, rest)] else []).
  assert (D : A ++ B ++ C = [(n, rest)]) by (unfold A, B, C; clear -H; do 32 (destruct n as [|n]; [solve [reflexivity|exfalso; lia]|]); exfalso; lia).
  exists x. rewrite !app_assoc in *. rewrite D. split; [reflexivity|]. intros y r I. exists (n mod 10)%nat, rest. split; [exact M|now apply (H0 y)].
Qed.

Lemma field_hour n rest : (n <= 23)%nat -> exists tail, pH (show2 n ++ rest) = (n, rest) :: tail /\ digits_left tail.
Proof.
  intros H. unfold pH. fields n H. assert (M : (n mod 10 < 10)%nat) by (apply Nat.mod_upper_bound; lia).
  set (A := if ((2 <=? n / 10) && (n / 10 <=? 2) && ((0 <=? n mod 10) && (n mod 10 <=? 3)))%nat%bool then [(n, rest)] else []). set (B := if ((0 <=? n / 10) && (n / 10 <=? 1) && ((0 <=? n mod 10) && (n mod 10 <=? 9)))%nat%bool then [(n, rest)] else []).
  assert (D : A ++ B = [(n, rest)]) by (unfold A, B; clear -H; do 24 (destruct n as [|n]; [solve [reflexivity|exfalso; lia]|]); exfalso; lia).
  exists x. rewrite app_assoc, D. split; [reflexivity|]. intros y r I. exists (n mod 10)%nat, rest. split; [exact M|now apply (H0 y)].
Qed.
Lemma field_minute n rest : (n <= 59)%nat -> exists tail, pM (show2 n ++ rest) = (n, rest) :: tail /\ digits_left tail.
Proof.
  intros H. unfold pM. fields n H. assert (M : (n mod 10 < 10)%nat) by (apply Nat.mod_upper_bound; lia).
  set (B := if ((0 <=? n / 10) && (n / 10 <=? 5) && ((0 <=? n mod 10) && (n mod 10 <=? 9)))%nat%bool then [(n, rest)] else []).
  assert (D : B = [(n, rest)]) by (unfold B; clear -H; do 60 (destruct n as [|n]; [solve [reflexivity|exfalso; lia]|]); exfalso; lia).
  exists x. rewrite D. split; [reflexivity|]. intros y r I. exists (n mod 10)%nat, rest. split; [exact M|now apply (H0 y)].
Qed.
Lemma field_second n rest : (n <= 59)%nat -> exists tail, pS (show2 n ++ rest) = (n, rest) :: tail /\ digits_left tail.
Proof.
  intros H. unfold pS. fields n H. assert (M : (n mod 10 < 10)%nat) by (apply Nat.mod_upper_bound; lia).
  set (A := if ((6 <=? n / 10) && (n / 10 <=? 6) && ((0 <=? n mod 10) && (n mod 10 <=? 1)))%nat%bool then [(n, rest)] else []). set (B := if ((0 <=? n / 10) && (n / 10 <=? 5) && ((0 <=? n mod 10) && (n mod 10 <=? 9)))%nat%bool then [(n, rest)] else []).
  assert (D : A ++ B = [(n, rest)]) by (unfold A, B; clear -H; do 60 (destruct n as [|n]; [solve [reflexivity|exfalso; lia]|]); exfalso; lia).
  exists x. rewrite app_assoc, D. split; [reflexivity|]. intros y r I. exists (n mod 10)%nat, rest. split; [exact M|now apply (H0 y)].
Qed.
Lemma any_two n rest : (n < 100)%nat -> two 0 9 0 9 (show2 n ++ rest) = [(n, rest)].
Proof.
  intros H. rewrite two_digits by exact H. assert (H1 : (n / 10 < 10)%nat) by (apply Nat.div_lt_upper_bound; lia). assert (H2 : (n mod 10 < 10)%nat) by (apply Nat.mod_upper_bound; lia).
  destruct (Nat.leb_spec (n / 10) 9); [|lia]. destruct (Nat.leb_spec (n mod 10) 9); [|lia]. reflexivity.
Qed.
Lemma field_year n rest : (n < 100 * 100)%nat -> pY (show4 n ++ rest) = [(n, rest)].
Proof.
  intros H. assert (H1 : (n / 100 < 100)%nat) by (apply Nat.div_lt_upper_bound; lia). assert (H2 : (n mod 100 < 100)%nat) by (apply Nat.mod_upper_bound; lia). pose proof (Nat.div_mod n 100 ltac:(lia)) as D.
  unfold pY, show4. rewrite <- app_assoc. unfold andthen. rewrite any_two by exact H1. cbn [flat_map fst snd]. rewrite any_two by exact H2. cbn [flat_map fst snd ret app]. rewrite <- D. reflexivity.
Qed.
Lemma show2_first n c r : (n < 100)%nat -> show2 n ++ r = c :: (tl (show2 n) ++ r) -> space c = false.
Proof. intros H E. assert (E' : dig (n / 10) = c) by exact (f_equal (hd c) E). rewrite <- E'. clear E E'. assert (H1 : (n / 10 < 10)%nat) by (apply Nat.div_lt_upper_bound; lia). revert H1. generalize (n / 10)%nat. intros m Hm. do 10 (destruct m as [|m]; [reflexivity|]). lia. Qed.
Lemma divide_mod k n : k <> 0%nat -> (n mod k =? 0)%nat = true <-> Nat.divide k n.
Proof. intros H. rewrite Nat.eqb_eq. apply Nat.mod_divide, H. Qed.
Lemma leap_iff y : leap y = true <-> leap_year y.
Proof. unfold leap, leap_year. rewrite andb_true_iff, orb_true_iff, negb_true_iff, !divide_mod by discriminate. rewrite <- (divide_mod 100 y) by discriminate. rewrite not_true_iff_false. reflexivity. Qed.
Lemma day_iff y m d : (1 <= m <= 12)%nat -> day_of y m d <-> (1 <= d <= month_days y m)%nat.
Proof.
  intros H. unfold day_of, month_days. pose proof (leap_iff y) as L. destruct (leap y).
  - assert (Y : leap_year y) by now apply L. clear L. do 13 (destruct m as [|m]; [try lia; (cbn [In]; split; [intros [?|[[? ?]|[[? ?]|[? ?]]]]; try lia|intros [? ?]; destruct (Nat.le_gt_cases d 28); [left; lia|right]; destruct (Nat.eq_dec d 29); [left; auto|right]; destruct (Nat.eq_dec d 30); [left; split; lia|right; split; lia]])|]). lia.
  - assert (Y : ~ leap_year y) by (intros Q; apply L in Q; discriminate). clear L. do 13 (destruct m as [|m]; [try lia; (cbn [In]; split; [intros [?|[[? ?]|[[? ?]|[? ?]]]]; try lia; exfalso; auto|intros [? ?]; destruct (Nat.le_gt_cases d 28); [left; lia|right]; destruct (Nat.eq_dec d 29); [left; split; [assumption|intros; exfalso; lia]|right]; destruct (Nat.eq_dec d 30); [left; split; lia|right; split; lia]])|]). lia.
Qed.
Lemma month_days_le y m : (month_days y m <= 31)%nat.
Proof. unfold month_days. do 12 (destruct m as [|m]; [try lia; destruct (leap y); lia|]). lia. Qed.
Lemma parse_stamp t rest : a_date t -> exists tail, pstamp (stamp t ++ rest) = (with_fraction t 0, rest) :: tail /\ digits_left tail.
Proof.
  destruct t as [y m d h mi s us]. unfold a_date, stamp, with_fraction. cbn [dY dm dd dH dM dS]. intros (Hy & Hm & Hd & Hh & Hmi & Hs). apply (day_iff y m d Hm) in Hd. pose proof (month_days_le y m) as L.
  unfold pstamp. repeat (rewrite <- app_assoc || rewrite <- app_comm_cons).
  erewrite (then_lit pY y ":"); [|right; vm_compute; lia|apply field_year; lia|intros ? ? []].
  destruct (field_month m (":" :: show2 d ++ " " :: show2 h ++ ":" :: show2 mi ++ ":" :: show2 s ++ rest) Hm) as (t1 & E1 & F1).
  erewrite (then_lit pm m ":"); [|right; vm_compute; lia|exact E1|exact F1].
  destruct (field_day d (" " :: show2 h ++ ":" :: show2 mi ++ ":" :: show2 s ++ rest) ltac:(lia)) as (t2 & E2 & F2).
  erewrite then_spaces; [| |exact E2|exact F2].
  2:{ intros c r E. apply (show2_first h c (":" :: show2 mi ++ ":" :: show2 s ++ rest)); [lia|]. rewrite E. f_equal. injection E as <- E. now rewrite <- E. }
  destruct (field_hour h (":" :: show2 mi ++ ":" :: show2 s ++ rest) Hh) as (t3 & E3 & F3).
  erewrite (then_lit pH h ":"); [|right; vm_compute; lia|exact E3|exact F3].
  destruct (field_minute mi (":" :: show2 s ++ rest) Hmi) as (t4 & E4 & F4).
  erewrite (then_lit pM mi ":"); [|right; vm_compute; lia|exact E4|exact F4].
  destruct (field_second s rest Hs) as (t5 & E5 & F5). unfold andthen. rewrite E5. cbn [flat_map fst snd ret app]. eexists. split; [reflexivity|]. intros x r I. apply in_flat_map in I. destruct I as ([a b] & I & J). cbn in J. destruct J as [J|[]]. injection J as <- <-. apply (F5 a b I).
Qed.
(** ** Texts that are no dates *)
Definition only (p : parser nat) : Prop := forall n rest x r, (n < 100)%nat -> In (x, r) (p (show2 n ++ rest)) -> (x = n /\ r = rest) \/ exists k r', (k < 10)%nat /\ r = dig k :: r'.
Lemma only_two a b c d : only (two a b c d).
Proof. intros n rest x r H I. rewrite two_digits in I by exact H. destruct (_ && _)%bool in I; [|destruct I]. destruct I as [E|[]]. injection E as <- <-. now left. Qed.
Lemma only_one a b : only (one a b).
Proof. intros n rest x r H I. destruct (one_digit n a b rest H) as (l & E & Q). rewrite E in I. right. exists (n mod 10)%nat, rest. split; [apply Nat.mod_upper_bound; lia|now apply (Q x)]. Qed.
Lemma only_alt p q : only p -> only q -> only (alt p q).
Proof. intros P Q n rest x r H I. unfold alt in I. apply in_app_iff in I as [I|I]; [now apply P|now apply Q]. Qed.
Lemma only_blank q : only (andthen (lit " ") q).
Proof. intros n rest x r H I. unfold andthen, show2 in I. cbn [app] in I. rewrite lit_miss in I; [destruct I|]. apply dig_other; [apply Nat.div_lt_upper_bound; lia|left; vm_compute; repeat constructor]. Qed.
Lemma only_then {B} p n rest (c : ascii) (f : nat -> unit -> parser B) z : only p -> (n < 100)%nat -> (nat_of_ascii c < 48 \/ 57 < nat_of_ascii c)%nat ->
  In z (andthen p (fun x => andthen (lit c) (f x)) (show2 n ++ c :: rest)) -> In z (f n tt rest).
Proof.
  intros P H C I. unfold andthen at 1 in I. apply in_flat_map in I as ([x r] & I & J). cbn [fst snd] in J. destruct (P n (c :: rest) x r H I) as [[-> ->]|(k & r' & Hk & ->)].
  - unfold andthen, lit in J. rewrite Ascii.eqb_refl in J. cbn [flat_map fst snd] in J. now rewrite app_nil_r in J.
  - unfold andthen in J. rewrite (lit_miss c (dig k) r' (dig_other k c Hk C)) in J. destruct J.
Qed.
Lemma only_then_blank {B} p n rest (f : nat -> unit -> parser B) z : only p -> (n < 100)%nat -> (forall c r, rest = c :: r -> space c = false) ->
  In z (andthen p (fun x => andthen pspaces (f x)) (show2 n ++ " " :: rest)) -> In z (f n tt rest).
Proof.
  intros P H N I. unfold andthen at 1 in I. apply in_flat_map in I as ([x r] & I & J). cbn [fst snd] in J. destruct (P n (" " :: rest) x r H I) as [[-> ->]|(k & r' & Hk & ->)].
  - unfold andthen in J. assert (Q : pspaces (" " :: rest) = [(tt, rest)]).
    { cbn [pspaces]. change (space " ") with true. cbn match. destruct rest as [|c r]; [reflexivity|]. cbn [pspaces]. rewrite (N c r eq_refl). reflexivity. }
    rewrite Q in J. cbn [flat_map fst snd] in J. now rewrite app_nil_r in J.
  - unfold andthen in J. assert (Q : pspaces (dig k :: r') = []) by (cbn [pspaces]; do 10 (destruct k as [|k]; [reflexivity|]); lia). rewrite Q in J. destruct J.
Qed.
Lemma only_pm : only pm. Proof. exact (only_alt _ _ (only_two 1 1 0 2) (only_alt _ _ (only_two 0 0 1 9) (only_one 1 9))). Qed.
Lemma only_pd : only pd. Proof. exact (only_alt _ _ (only_two 3 3 0 1) (only_alt _ _ (only_two 1 2 0 9) (only_alt _ _ (only_two 0 0 1 9) (only_alt _ _ (only_one 1 9) (only_blank (fun _ => one 1 9)))))). Qed.
Lemma only_pH : only pH. Proof. exact (only_alt _ _ (only_two 2 2 0 3) (only_alt _ _ (only_two 0 1 0 9) (only_one 0 9))). Qed.
Lemma only_pM : only pM. Proof. exact (only_alt _ _ (only_two 0 5 0 9) (only_one 0 9)). Qed.
Lemma only_pS : only pS. Proof. exact (only_alt _ _ (only_two 6 6 0 1) (only_alt _ _ (only_two 0 5 0 9) (only_one 0 9))). Qed.
Lemma only_stamp t rest t' r : writable t -> In (t', r) (pstamp (stamp t ++ rest)) -> (t' = with_fraction t 0 /\ r = rest) \/ exists k r', (k < 10)%nat /\ r = dig k :: r'.
Proof.
  destruct t as [y m d h mi s us]. unfold writable, stamp, with_fraction. cbn [dY dm dd dH dM dS]. intros (Hy & Hm & Hd & Hh & Hmi & Hs). repeat (rewrite <- app_assoc || rewrite <- app_comm_cons). unfold pstamp.
  erewrite (then_lit pY y ":"); [|right; vm_compute; lia|apply field_year; lia|intros ? ? []]. intros I.
  apply (only_then pm m _ ":" _ _ only_pm Hm) in I; [|right; vm_compute; lia].
  apply (only_then_blank pd d _ _ _ only_pd Hd) in I; cycle 1.
  { clear I. intros c r0 E. apply (show2_first h c (":" :: show2 mi ++ ":" :: show2 s ++ rest)); [lia|]. rewrite E. f_equal. injection E as <- E. now rewrite <- E. }
  apply (only_then pH h _ ":" _ _ only_pH Hh) in I; [|right; vm_compute; lia].
  apply (only_then pM mi _ ":" _ _ only_pM Hmi) in I; [|right; vm_compute; lia].
  unfold andthen in I. apply in_flat_map in I as ([x r0] & I & J). cbn [fst snd ret] in J. destruct J as [E|[]]. injection E as <- <-.
  destruct (only_pS s rest x r0 Hs I) as [[-> ->]|(k & r' & Hk & ->)]; [left; split; reflexivity|right; exists k, r'; split; [exact Hk|reflexivity]].
Qed.
Lemma date_valid t f : a_date t -> valid_dt (with_fraction t f) = true.
Proof.
  destruct t as [y m d h mi s us]. unfold a_date, valid_dt, with_fraction. cbn [dY dm dd dH dM dS]. intros (Hy & Hm & Hd & Hh & Hmi & Hs). apply (day_iff y m d Hm) in Hd. rewrite !andb_true_iff. repeat split; apply Nat.leb_le; lia.
Qed.
(** fractions *)
Lemma digits_results n : forall acc l ds r, In (ds, r) (digits_ n acc l) -> exists new, ds = rev acc ++ new /\ l = map dig new ++ r /\ Forall (fun k => (k < 10)%nat) new /\ (1 <= length new <= n)%nat.
Proof.
  induction n as [|n IH]; intros acc [|c l] ds r I; cbn [digits_] in I; try contradiction. destruct (digit_in 0 9 c) as [x|] eqn:D; [|contradiction].
  assert (X : (x < 10)%nat /\ c = dig x). { unfold digit_in in D. destruct (48 <=? nat_of_ascii c)%nat eqn:A; [|discriminate]. destruct (Nat.leb_spec (nat_of_ascii c - 48) 9); [|discriminate]. cbn in D. injection D as <-. split; [lia|]. apply Nat.leb_le in A. unfold dig. replace (48 + (nat_of_ascii c - 48))%nat with (nat_of_ascii c) by lia. symmetry. apply ascii_nat_embedding. }
  destruct X as [X ->]. apply in_app_or in I. destruct I as [I|[I|[]]].
  - destruct (IH _ _ _ _ I) as (new & -> & -> & F & L). exists (x :: new). cbn [rev map app length]. rewrite <- app_assoc. repeat split; auto; lia.
  - injection I as <- <-. exists [x]. cbn [rev map app length]. repeat split; auto; lia.
Qed.
Lemma digits_all n : forall acc ds, Forall (fun k => (k < 10)%nat) ds -> (1 <= length ds <= n)%nat -> exists tail, digits_ n acc (map dig ds) = (rev acc ++ ds, []) :: tail.
Proof.
  induction n as [|n IH]; intros acc [|d ds] F L; cbn [length] in L; try lia. inversion F as [|? ? Hd Fs]; subst. cbn [digits_ map]. rewrite dig_in by exact Hd. destruct (Nat.leb_spec 0 d); [|lia]. destruct (Nat.leb_spec d 9); [|lia]. cbn [andb].
  destruct ds as [|e ds].
  - cbn [map]. destruct n; cbn [digits_ app]; eexists; cbn [rev]; reflexivity.
  - destruct (IH (d :: acc) (e :: ds) Fs ltac:(cbn [length] in *; lia)) as (tail & E). rewrite E. eexists. cbn [rev app]. rewrite <- app_assoc. reflexivity.
Qed.

(** ** Capture time *)
Section Values.
Variable decode : text -> result text.
Variable read_float : text -> result R.
Variable read_int : text -> result Z.
Hypothesis Dec : decodes decode.

Lemma get_tag t group name v : tag_is t group name v -> parse_tag decode t (T name) (T group) = match v with VBytes b => let* s := decode b in Ok (Some (PStr s)) | VTuple [n; d] => if (d =? 0)%Z then Err ZeroDivisionError else Ok (Some (PFloat (IZR n / IZR d))) | VNested [_; _] => Err TypeError | VInt z => Ok (Some (PInt z)) | VTuple l => Ok (Some (PTuple (length l))) | VNested l => Ok (Some (PTuple (length l))) end.
Proof. intros (d & G & L). unfold parse_tag. rewrite G, L. reflexivity. Qed.
Lemma no_tag t group name : tag_missing t group name -> parse_tag decode t (T name) (T group) = Ok None.
Proof. intros [G|(d & G & L)]; unfold parse_tag; rewrite G; [reflexivity|]. now rewrite L. Qed.
Lemma dig_ascii n : (n < 10)%nat -> (nat_of_ascii (dig n) < 128)%nat.
Proof. intros H. unfold dig. rewrite nat_ascii_embedding by lia. lia. Qed.
Lemma show2_ascii n : (n < 100)%nat -> ascii_text (show2 n).
Proof. intros H. constructor; [|constructor; [|constructor]]; apply dig_ascii; [apply Nat.div_lt_upper_bound; lia|apply Nat.mod_upper_bound; lia]. Qed.
Lemma stamp_ascii t : a_date t -> ascii_text (stamp t).
Proof.
  destruct t as [y m d h mi s us]. unfold a_date, stamp, show4. cbn [dY dm dd dH dM dS]. intros (Hy & Hm & Hd & Hh & Hmi & Hs). apply (day_iff y m d Hm) in Hd. pose proof (month_days_le y m).
  assert (C : forall c b, (nat_of_ascii c < 128)%nat -> ascii_text b -> ascii_text (c :: b)) by (intros; constructor; auto). assert (Ap : forall a b, ascii_text a -> ascii_text b -> ascii_text (a ++ b)) by (intros; apply Forall_app; auto).
  repeat (apply Ap || (apply C; [vm_compute; lia|])); apply show2_ascii; try lia; [apply Nat.div_lt_upper_bound; lia|apply Nat.mod_upper_bound; lia].
Qed.
Lemma stamp_nonempty t : exists c r, stamp t = c :: r. Proof. unfold stamp, show4, show2. cbn [app]. eauto. Qed.
(** The capture time is the one written, with the digits of the sub-second tag as decimals of the second. *)
Theorem exif_datetime t d : a_date d -> tag_is t "Exif" "DateTimeOriginal" (VBytes (stamp d)) -> tag_missing t "Exif" "SubSecTimeOriginal" -> datetime_ decode t = Ok (Some (with_fraction d 0)).
Proof.
  intros A E M. unfold datetime_. change Exif_ with (T "Exif"). rewrite (get_tag _ _ _ _ E), (Dec _ (stamp_ascii d A)). cbn [bind]. destruct (stamp_nonempty d) as (c & r & Es). assert (Tr : truthy (PStr (stamp d)) = true) by (rewrite Es; reflexivity). rewrite Tr. cbn [negb]. rewrite (no_tag _ _ _ M). cbn [bind to_str].
  unfold strptime. destruct (parse_stamp d [] A) as (tail & P & _). rewrite app_nil_r in P. rewrite P, (date_valid d 0 A). reflexivity.
Qed.
Theorem exif_datetime_fraction t d ds : a_date d -> tag_is t "Exif" "DateTimeOriginal" (VBytes (stamp d)) -> tag_is t "Exif" "SubSecTimeOriginal" (VBytes (map dig ds)) ->
  Forall (fun k => (k < 10)%nat) ds -> (1 <= length ds <= 6)%nat -> datetime_ decode t = Ok (Some (with_fraction d (number (ds ++ repeat 0%nat (6 - length ds))))).
Proof.
  intros A E F Fd L. unfold datetime_. change Exif_ with (T "Exif"). rewrite (get_tag _ _ _ _ E), (Dec _ (stamp_ascii d A)). cbn [bind]. destruct (stamp_nonempty d) as (c & r & Es). assert (Tr : truthy (PStr (stamp d)) = true) by (rewrite Es; reflexivity). rewrite Tr. cbn [negb]. rewrite (get_tag _ _ _ _ F).
  assert (Ad : ascii_text (map dig ds)) by (apply Forall_map; eapply Forall_impl; [|exact Fd]; intros; now apply dig_ascii). rewrite (Dec _ Ad). cbn [bind]. assert (Tf : truthy (PStr (map dig ds)) = true) by (destruct ds; [cbn in L; lia|reflexivity]). rewrite Tf. cbn [to_str bind].
  unfold strptime, pfraction. destruct (parse_stamp d ("." :: map dig ds) A) as (tail & P & Q). change (stamp d ++ ["."] ++ map dig ds) with (stamp d ++ "." :: map dig ds).
  erewrite (then_lit pstamp (with_fraction d 0) "."); [|left; vm_compute; lia|exact P|exact Q]. unfold andthen, pf. destruct (digits_all 6 [] ds Fd L) as (tl' & G). rewrite G. cbn [map flat_map fst snd rev app ret]. change (mkdt _ _ _ _ _ _ ?f) with (with_fraction d f). 
  rewrite (date_valid d _ A). reflexivity.
Qed.
(** Other sub-second texts are refused, e.g. with more than six digits or blanks. *)
Theorem exif_datetime_refused t d ss : a_date d -> tag_is t "Exif" "DateTimeOriginal" (VBytes (stamp d)) -> tag_is t "Exif" "SubSecTimeOriginal" (VBytes ss) -> ascii_text ss -> ss <> [] ->
  ~ (exists ds, ss = map dig ds /\ Forall (fun k => (k < 10)%nat) ds /\ (length ds <= 6)%nat) -> datetime_ decode t = Err ValueError.
Proof.
  intros A E F Ad Ne N. unfold datetime_. change Exif_ with (T "Exif"). rewrite (get_tag _ _ _ _ E), (Dec _ (stamp_ascii d A)). cbn [bind]. destruct (stamp_nonempty d) as (c & r & Es). assert (Tr : truthy (PStr (stamp d)) = true) by (rewrite Es; reflexivity). rewrite Tr. cbn [negb]. rewrite (get_tag _ _ _ _ F), (Dec _ Ad). cbn [bind].
  assert (Tf : truthy (PStr ss) = true) by (destruct ss; [contradiction|reflexivity]). rewrite Tf. cbn [to_str bind].
  unfold strptime, pfraction. destruct (parse_stamp d ("." :: ss) A) as (tail & P & Q). change (stamp d ++ ["."] ++ ss) with (stamp d ++ "." :: ss).
  erewrite (then_lit pstamp (with_fraction d 0) "."); [|left; vm_compute; lia|exact P|exact Q]. unfold andthen, pf.
  destruct (digits_ 6 [] ss) as [|[ds r'] tl'] eqn:G; [reflexivity|]. cbn [map flat_map fst snd ret app]. destruct r' as [|c' r']; [|reflexivity]. exfalso. destruct (digits_results 6 [] ss ds [] ltac:(rewrite G; now left)) as (new & _ & E2 & F2 & L2). rewrite app_nil_r in E2. apply N. exists new. split; [exact E2|]. split; [exact F2|lia].
Qed.

(** Texts of this form that are no date and time (30 February, 24:00:00, 60 seconds) are refused, with and without sub-seconds. *)
Lemma valid_date t f : writable t -> valid_dt (with_fraction t f) = true -> a_date t.
Proof.
  destruct t as [y m d h mi s us]. unfold writable, a_date, valid_dt, with_fraction. cbn [dY dm dd dH dM dS]. intros W V. rewrite !andb_true_iff, !Nat.leb_le in V.
  destruct V as [[[[[[[V1 V2] V3] V4] V5] V6] V7] V8]. assert (Hm : (1 <= m <= 12)%nat) by lia. repeat split; try lia. apply (day_iff y m d Hm). lia.
Qed.
Lemma writable_ascii t : writable t -> ascii_text (stamp t).
Proof.
  destruct t as [y m d h mi s us]. unfold writable, stamp, show4. cbn [dY dm dd dH dM dS]. intros (Hy & Hm & Hd & Hh & Hmi & Hs).
  assert (C : forall c b, (nat_of_ascii c < 128)%nat -> ascii_text b -> ascii_text (c :: b)) by (intros; constructor; auto). assert (Ap : forall a b, ascii_text a -> ascii_text b -> ascii_text (a ++ b)) by (intros; apply Forall_app; auto).
  repeat (apply Ap || (apply C; [vm_compute; lia|])); apply show2_ascii; try lia; [apply Nat.div_lt_upper_bound; lia|apply Nat.mod_upper_bound; lia].
Qed.
Theorem exif_datetime_no_date t d ss : writable d -> ~ a_date d -> tag_is t "Exif" "DateTimeOriginal" (VBytes (stamp d)) ->
  tag_missing t "Exif" "SubSecTimeOriginal" \/ (ascii_text ss /\ tag_is t "Exif" "SubSecTimeOriginal" (VBytes ss)) -> datetime_ decode t = Err ValueError.
Proof.
  intros W A E F. unfold datetime_. change Exif_ with (T "Exif"). rewrite (get_tag _ _ _ _ E), (Dec _ (writable_ascii d W)). cbn [bind]. destruct (stamp_nonempty d) as (c & r & Es). assert (Tr : truthy (PStr (stamp d)) = true) by (rewrite Es; reflexivity). rewrite Tr. cbn [negb].
  assert (P : strptime pstamp (stamp d) = Err ValueError).
  { unfold strptime. destruct (pstamp (stamp d)) as [|[t' r'] tl'] eqn:G; [reflexivity|]. destruct r' as [|c' r']; [|reflexivity]. destruct (only_stamp d [] t' [] W) as [[-> _]|(k & r'' & _ & Q)]; [rewrite app_nil_r, G; now left| |discriminate]. destruct (valid_dt (with_fraction d 0)) eqn:V; [|reflexivity]. exfalso. exact (A (valid_date d 0 W V)). }
  assert (Q : forall ss, strptime pfraction (stamp d ++ ["."] ++ ss) = Err ValueError).
  { clear F. intros s2. unfold strptime. destruct (pfraction (stamp d ++ ["."] ++ s2)) as [|[t' r'] tl'] eqn:G; [reflexivity|]. destruct r' as [|c' r']; [|reflexivity].
    assert (I : In (t', []) (pfraction (stamp d ++ ["."] ++ s2))) by (rewrite G; now left). unfold pfraction, andthen at 1 in I. apply in_flat_map in I as ([t1 r1] & I & J). cbn [fst snd] in J.
    destruct (only_stamp d _ t1 r1 W I) as [[-> ->]|(k & r'' & Hk & ->)].
    - unfold andthen at 1 in J. cbn [app] in J. unfold lit in J. rewrite Ascii.eqb_refl in J. cbn [flat_map fst snd] in J. rewrite app_nil_r in J. unfold andthen in J. apply in_flat_map in J as ([f r2] & J1 & J2). cbn [fst snd ret] in J2. destruct J2 as [J2|[]]. injection J2 as <- _.
      change (mkdt _ _ _ _ _ _ f) with (with_fraction d f). destruct (valid_dt (with_fraction d f)) eqn:V; [|reflexivity]. exfalso. exact (A (valid_date d f W V)).
    - unfold andthen at 1 in J. rewrite lit_miss in J; [destruct J|]. apply dig_other; [exact Hk|left; vm_compute; lia]. }
  destruct F as [M|[As F]].
  - rewrite (no_tag _ _ _ M). cbn [bind to_str]. now rewrite P.
  - rewrite (get_tag _ _ _ _ F), (Dec _ As). cbn [bind]. destruct (truthy (PStr ss)); cbn [to_str bind]; [rewrite Q|rewrite P]; reflexivity.
Qed.
(** ** Thumbnails *)
(** Without [thumbnail] the groups 1st and thumbnail are dropped and no other; capture times, numbers, makes and models are the same. *)
Theorem exif_thumbnail loaded g : lookup g (new_exif loaded true) = lookup g loaded /\
  (g = T "thumbnail" \/ g = T "1st" -> lookup g (new_exif loaded false) = None) /\ (g <> T "thumbnail" -> g <> T "1st" -> lookup g (new_exif loaded false) = lookup g loaded).
Proof.
  assert (R1 : forall k (d : tags), lookup k (remove k d) = None).
  { intros k d. unfold remove. induction d as [|[k' v] d IH]; [reflexivity|]. cbn [filter fst]. destruct (text_eqb k k') eqn:E; cbn [negb]; [exact IH|]. cbn [lookup]. now rewrite E. }
  assert (R2 : forall g k (d : tags), g <> k -> lookup g (remove k d) = lookup g d).
  { intros g0 k d N. unfold remove. induction d as [|[k' v] d IH]; [reflexivity|]. cbn [filter fst]. destruct (text_eqb k k') eqn:E; cbn [negb lookup].
    - rewrite IH. unfold text_eqb in E. destruct (list_eq_dec ascii_dec k k') as [<-|]; [|discriminate]. unfold text_eqb. destruct (list_eq_dec ascii_dec g0 k); [contradiction|reflexivity].
    - rewrite IH. reflexivity. }
  split; [reflexivity|]. split.
  - intros [->| ->]; unfold new_exif; [|apply R1]. rewrite R2 by discriminate. apply R1.
  - intros N1 N2. unfold new_exif. rewrite !R2 by assumption. reflexivity.
Qed.
(** ** Numbers *)
Definition numeric (t : tags) (name : string) (v : result (option R)) : Prop :=
  (tag_missing t "Exif" name -> v = Ok None) /\
  (forall n d, tag_is t "Exif" name (VTuple [n; d]) -> d <> 0%Z -> v = Ok (if (n =? 0)%Z then None else Some (IZR n / IZR d)%R)) /\
  (forall n, tag_is t "Exif" name (VTuple [n; 0%Z]) -> v = Err ZeroDivisionError) /\
  (forall z, tag_is t "Exif" name (VInt z) -> v = Ok (if (z =? 0)%Z then None else Some (IZR z))).
Lemma truthy_quotient n d : d <> 0%Z -> truthy (PFloat (IZR n / IZR d)) = negb (n =? 0)%Z.
Proof.
  intros Hd. cbn [truthy]. apply IZR_neq in Hd. destruct (Z.eqb_spec n 0) as [->|N].
  - destruct (Reqb_spec (0 / IZR d) 0) as [|K]; [reflexivity|]. exfalso. apply K. field. exact Hd.
  - destruct (Reqb_spec (IZR n / IZR d) 0) as [K|]; [|reflexivity]. exfalso. apply IZR_neq in N. apply N. apply (f_equal (fun x => (x * IZR d)%R)) in K. unfold Rdiv in K. rewrite Rmult_assoc, Rinv_l, Rmult_1_r, Rmult_0_l in K; auto.
Qed.
Lemma numeric_tag t name : numeric t name (let* v := parse_tag decode t (T name) (T "Exif") in unless_false (to_float read_float) v).
Proof.
  split; [intros M; rewrite (no_tag _ _ _ M); reflexivity|]. split; [|split].
  - intros n d E Hd. rewrite (get_tag _ _ _ _ E). destruct (Z.eqb_spec d 0); [contradiction|]. cbn [bind unless_false]. rewrite (truthy_quotient n d Hd). destruct (n =? 0)%Z; reflexivity.
  - intros n E. rewrite (get_tag _ _ _ _ E). reflexivity.
  - intros z E. rewrite (get_tag _ _ _ _ E). cbn [bind unless_false truthy]. destruct (z =? 0)%Z; reflexivity.
Qed.
(** Rational tags give their quotient; missing and zero values None; a zero denominator raises. *)
Theorem exif_numbers t : numeric t "ExposureTime" (exposure decode read_float t) /\ numeric t "FNumber" (aperture decode read_float t) /\ numeric t "FocalLength" (fmm decode read_float t).
Proof. split; [|split]; apply numeric_tag. Qed.
Theorem exif_imgsz t w h : tag_is t "Exif" "PixelXDimension" (VInt w) -> tag_is t "Exif" "PixelYDimension" (VInt h) -> imgsz decode read_int t = Ok (if ((w =? 0) || (h =? 0))%Z%bool then None else Some (w, h)).
Proof.
  intros E F. unfold imgsz. change Exif_ with (T "Exif"). rewrite (get_tag _ _ _ _ E). cbn [bind]. rewrite (get_tag _ _ _ _ F). cbn [bind truthy]. destruct (w =? 0)%Z, (h =? 0)%Z; reflexivity.
Qed.
Theorem exif_imgsz_missing t : tag_missing t "Exif" "PixelXDimension" -> (exists v, parse_tag decode t (T "PixelYDimension") (T "Exif") = Ok v) -> imgsz decode read_int t = Ok None.
Proof. intros M (v & E). unfold imgsz. change Exif_ with (T "Exif"). rewrite (no_tag _ _ _ M). cbn [bind]. rewrite E. reflexivity. Qed.
Theorem exif_iso t z : tag_is t "Exif" "ISOSpeedRatings" (VInt z) -> iso decode read_int t = Ok (if (z =? 0)%Z then None else Some z).
Proof. intros E. unfold iso. change Exif_ with (T "Exif"). rewrite (get_tag _ _ _ _ E). cbn [bind unless_false truthy]. destruct (z =? 0)%Z; reflexivity. Qed.
(** Refuted: the tag may have several values; two film speeds give their quotient. *)
Theorem exif_iso_pair_refuted t a b : (a <> 0)%Z -> (b <> 0)%Z -> tag_is t "Exif" "ISOSpeedRatings" (VTuple [a; b]) -> iso decode read_int t = Ok (Some (Rtrunc (IZR a / IZR b))).
Proof. intros Ha Hb E. unfold iso. change Exif_ with (T "Exif"). rewrite (get_tag _ _ _ _ E). destruct (Z.eqb_spec b 0); [contradiction|]. cbn [bind unless_false]. rewrite (truthy_quotient a b Hb). destruct (Z.eqb_spec a 0); [contradiction|]. reflexivity. Qed.

(** ** Sensor size *)
(** blanks around make and model do not matter *)
Definition sensors : list (text * (Z * Z)) := [(T "NIKON CORPORATION NIKON D2X", (237, 157)); (T "NIKON CORPORATION NIKON D200", (236, 158)); (T "NIKON CORPORATION NIKON D300S", (236, 158));
  (T "NIKON E8700", (88, 66)); (T "Canon Canon EOS 20D", (225, 150)); (T "Canon Canon EOS 40D", (222, 148))]%Z. (* tenths of millimeters *)
Definition blanks (s : text) : Prop := Forall (fun c => space c = true) s.
Definition trimmed (s : text) : Prop := match s with [] => False | c :: _ => space c = false end /\ match rev s with [] => False | c :: _ => space c = false end.
Lemma lstrip_blanks a s : blanks a -> lstrip (a ++ s) = lstrip s.
Proof. induction 1 as [|c a H F IH]; [reflexivity|]. cbn [app lstrip]. rewrite H. exact IH. Qed.
Lemma strip_blanks a s b : blanks a -> blanks b -> trimmed s -> strip (a ++ s ++ b) = s.
Proof.
  intros A B [F L]. unfold strip. rewrite lstrip_blanks by exact A. destruct s as [|c s]; [contradiction|]. cbn [app lstrip]. rewrite F. change (c :: s ++ b) with ((c :: s) ++ b). rewrite rev_app_distr, lstrip_blanks by (now apply Forall_rev). destruct (rev (c :: s)) as [|e r] eqn:E; [contradiction|]. cbn [lstrip]. rewrite L, <- E. apply rev_involutive.
Qed.
Theorem exif_sensorsz t mk md a b a' b' : ascii_text (a ++ mk ++ b) -> ascii_text (a' ++ md ++ b') -> blanks a -> blanks b -> blanks a' -> blanks b' -> trimmed mk -> trimmed md ->
  tag_is t "0th" "Make" (VBytes (a ++ mk ++ b)) -> tag_is t "0th" "Model" (VBytes (a' ++ md ++ b')) -> sensorsz decode t = Ok (lookup (mk ++ " " :: md) sensors).
Proof.
  intros A1 A2 B1 B2 B3 B4 T1 T2 E F. unfold sensorsz, make, model. change Zeroth with (T "0th"). rewrite (get_tag _ _ _ _ E), (Dec _ A1). cbn [bind].
  assert (N : forall x s y, trimmed s -> truthy (PStr (x ++ s ++ y)) = true) by (intros x s y [Q _]; destruct s; [contradiction|]; destruct x; reflexivity).
  unfold unless_false at 1. rewrite (N _ _ _ T1). cbn [bind to_str]. rewrite (get_tag _ _ _ _ F), (Dec _ A2). cbn [bind]. unfold unless_false. rewrite (N _ _ _ T2). cbn [bind to_str]. rewrite !strip_blanks by assumption. reflexivity.
Qed.
End Values.
Print Assumptions exif_datetime_no_date. Print Assumptions exif_thumbnail. Print Assumptions exif_datetime_fraction. Print Assumptions exif_datetime_refused. Print Assumptions exif_numbers. Print Assumptions exif_sensorsz.

(** ** Dump *)
Definition names (d : list (text * value)) : list text := map fst d.
Definition all_groups : list text := [T "0th"; T "1st"; T "Exif"; T "GPS"; T "Interop"].
(** a dict has every key once *)
Definition dicts (t : tags) : Prop := forall g d, In (g, GDict d) t -> NoDup (names d).
(** groups hold dicts *)
Definition grouped (t : tags) : Prop := forall g v, In (g, v) t -> g = T "thumbnail" \/ exists d, v = GDict d.
Lemma text_eqb_spec a b : reflect (a = b) (text_eqb a b).
Proof. unfold text_eqb. destruct (list_eq_dec ascii_dec a b); constructor; auto. Qed.
Lemma key_eqb_spec a b : reflect (a = b) (key_eqb a b).
Proof.
  destruct a as [x|x], b as [y|y]; cbn; try (constructor; discriminate).
  - destruct (text_eqb_spec x y) as [->|N]; constructor; congruence.
  - destruct (Z.eqb_spec x y) as [->|N]; constructor; congruence.
Qed.
Lemma kget_kset {A} k k' (v : A) d : kget k (kset k' v d) = if key_eqb k k' then Some v else kget k d.
Proof.
  induction d as [|[j w] d IH]; cbn [kset kget]; [destruct (key_eqb k k'); reflexivity|]. destruct (key_eqb_spec k' j) as [->|N]; cbn [kget].
  - destruct (key_eqb k j); reflexivity.
  - destruct (key_eqb_spec k j) as [->|M]; [|exact IH]. destruct (key_eqb_spec j k'); [congruence|reflexivity].
Qed.
Lemma kget_kdel {A} k k' (d : list (key * A)) : kget k (kdel k' d) = if key_eqb k k' then None else kget k d.
Proof.
  induction d as [|[j w] d IH]; cbn [kdel filter kget fst]; [destruct (key_eqb k k'); reflexivity|]. fold (kdel k' d). destruct (key_eqb_spec k' j) as [->|N]; cbn [negb kget].
  - rewrite IH. destruct (key_eqb k j); reflexivity.
  - rewrite IH. destruct (key_eqb_spec k j) as [->|M]; [|reflexivity]. destruct (key_eqb_spec j k'); [congruence|reflexivity].
Qed.
Lemma lookup_in {A} k (d : list (text * A)) v : lookup k d = Some v -> In (k, v) d.
Proof. induction d as [|[j w] d IH]; cbn; [discriminate|]. destruct (text_eqb_spec k j) as [->|N]; [intros E; injection E as ->; now left|right; auto]. Qed.
Lemma lookup_nodup {A} k (d : list (text * A)) v : NoDup (map fst d) -> In (k, v) d -> lookup k d = Some v.
Proof.
  induction d as [|[j w] d IH]; cbn; [intros _ []|]. intros N [E|I]; inversion N; subst.
  - injection E as -> ->. destruct (text_eqb_spec k k); [reflexivity|contradiction].
  - destruct (text_eqb_spec k j) as [->|]; [exfalso; apply H1, (in_map fst _ _ I)|auto].
Qed.
Section Dumping.
Variable code_of : ifd -> text -> option Z.
Definition injective (i : ifd) (d : list (text * value)) : Prop := forall n m z, In n (names d) -> In m (names d) -> code_of i n = Some z -> code_of i m = Some z -> n = m.
Lemma recode_ok i l : forall D, NoDup (names l) -> (forall n, kget (Name n) D = lookup n l) ->
  (forall n, In n (names l) -> code_of i n <> None) -> exists D', recode code_of i (map fst l) D = Ok D' /\ (forall n, kget (Name n) D' = None) /\
  (injective i l -> (forall z n, In n (names l) -> code_of i n = Some z -> kget (Code z) D = None) -> forall z v, kget (Code z) D' = Some v <-> kget (Code z) D = Some v \/ exists n, lookup n l = Some v /\ code_of i n = Some z).
Proof.
  induction l as [|[n v] l IH]; intros D N K C; cbn [map recode fst].
  - exists D. split; [reflexivity|]. split; [exact K|]. intros _ _ z w. split; [now left|]. intros [E|(m & E & _)]; [exact E|discriminate].
  - cbn [names map fst] in N. inversion N as [|? ? N1 N2]; subst. destruct (code_of i n) as [z|] eqn:Cn; [|exfalso; apply (C n); [now left|exact Cn]].
    rewrite K. cbn [lookup]. destruct (text_eqb_spec n n); [|contradiction].
    destruct (IH (kset (Code z) v (kdel (Name n) D)) N2) as (D' & E & Nm & G).
    + intros m. rewrite kget_kset. cbn [key_eqb]. rewrite kget_kdel. cbn [key_eqb]. rewrite K. cbn [lookup]. destruct (text_eqb_spec m n) as [->|]; [|reflexivity]. symmetry. destruct (lookup n l) as [w|] eqn:L; [|reflexivity]. exfalso. apply N1, (in_map fst _ _ (lookup_in _ _ _ L)).
    + intros m I. apply C. now right.
    + exists D'. split; [exact E|]. split; [exact Nm|]. intros J F z' w.
      assert (Jl : injective i l) by (intros a b c A B; apply J; now right).
      assert (Fl : forall z0 m, In m (names l) -> code_of i m = Some z0 -> kget (Code z0) (kset (Code z) v (kdel (Name n) D)) = None).
      { intros z0 m I Cm. rewrite kget_kset. destruct (key_eqb_spec (Code z0) (Code z)) as [Q|Q].
        - injection Q as ->. exfalso. apply N1. rewrite (J n m z); auto; [now left|now right].
        - rewrite kget_kdel. cbn [key_eqb]. apply (F z0 m); [now right|exact Cm]. }
      rewrite (G Jl Fl z' w). rewrite kget_kset. destruct (key_eqb_spec (Code z') (Code z)) as [Q|Q].
      * injection Q as ->. rewrite (F z n (or_introl eq_refl) Cn). split.
        -- intros [Ev|(m & L & Cm)]; [injection Ev as <-; right; exists n; cbn [lookup]; destruct (text_eqb_spec n n); [auto|contradiction]|].
           right. exists m. cbn [lookup]. destruct (text_eqb_spec m n) as [->|]; [|auto]. exfalso. apply N1, (in_map fst _ _ (lookup_in _ _ _ L)).
        -- intros [Ev|(m & L & Cm)]; [discriminate|]. cbn [lookup] in L. destruct (text_eqb_spec m n) as [Q|]; [left; exact L|right; eauto].
      * rewrite kget_kdel. cbn [key_eqb]. split.
        -- intros [Ev|(m & L & Cm)]; [now left|]. right. exists m. cbn [lookup]. destruct (text_eqb_spec m n) as [->|]; [congruence|auto].
        -- intros [Ev|(m & L & Cm)]; [now left|]. cbn [lookup] in L. destruct (text_eqb_spec m n) as [Qm|]; [exfalso; apply Q; congruence|]. right. eauto.
Qed.
Lemma recode_fails i n l : forall D, NoDup (names l) -> (forall n, kget (Name n) D = lookup n l) -> In n (names l) -> code_of i n = None -> recode code_of i (map fst l) D = Err ValueError.
Proof.
  induction l as [|[m v] l IH]; intros D N K I C; [destruct I|]. cbn [map recode fst]. cbn [names map fst] in N, I. inversion N as [|? ? N1 N2]; subst. destruct (code_of i m) as [z|] eqn:Cm; [|reflexivity]. rewrite K. cbn [lookup]. destruct (text_eqb_spec m m); [|contradiction].
  apply IH; [exact N2| |destruct I as [->|I]; [congruence|exact I]|exact C].
  intros q. rewrite kget_kset. cbn [key_eqb]. rewrite kget_kdel. cbn [key_eqb]. rewrite K. cbn [lookup]. destruct (text_eqb_spec q m) as [->|]; [|reflexivity]. symmetry. destruct (lookup m l) as [w|] eqn:L; [|reflexivity]. exfalso. apply N1, (in_map fst _ _ (lookup_in _ _ _ L)).
Qed.
Lemma named_lookup (d : list (text * value)) n : kget (Name n) (map (fun e => (Name (fst e), snd e)) d) = lookup n d.
Proof. induction d as [|[m v] d IH]; [reflexivity|]. cbn [map kget key_eqb lookup fst snd]. destruct (text_eqb n m); [reflexivity|exact IH]. Qed.
Lemma named_code (d : list (text * value)) z : kget (Code z) (map (fun e => (Name (fst e), snd e)) d) = None.
Proof. induction d as [|[m v] d IH]; [reflexivity|exact IH]. Qed.
(** what dump accepts: the known groups and tags *)
Definition table (g : text) (i : ifd) : Prop := (g = T "0th" /\ i = ImageIFD) \/ (g = T "1st" /\ i = ImageIFD) \/ (g = T "Exif" /\ i = ExifIFD) \/ (g = T "GPS" /\ i = GPSIFD) \/ (g = T "Interop" /\ i = InteropIFD).
Lemma table_iff g i : ifd_of g = Some i <-> table g i.
Proof.
  unfold ifd_of, table. destruct (text_eqb_spec g (T "0th")) as [->|N1]; [|destruct (text_eqb_spec g (T "1st")) as [->|N2]; [|destruct (text_eqb_spec g (T "Exif")) as [->|N3]; [|destruct (text_eqb_spec g (T "GPS")) as [->|N4]; [|destruct (text_eqb_spec g (T "Interop")) as [->|N5]]]]]; cbn [orb];
    (split; [intros E; try discriminate; injection E as <-; tauto|intros [[Q ->]|[[Q ->]|[[Q ->]|[[Q ->]|[Q ->]]]]]; try reflexivity; solve [contradiction|vm_compute in Q; discriminate]]).
Qed.
Definition valid_group (g : text) (v : gvalue) : Prop := g = T "thumbnail" \/ exists i d, table g i /\ v = GDict d /\ forall n, In n (names d) -> code_of i n <> None.
(** dump raises ValueError if any group or tag is unknown, and succeeds otherwise *)
Theorem dump_accepts t : dicts t -> grouped t -> ((exists r, dump code_of t = Ok r) <-> forall g v, In (g, v) t -> valid_group g v) /\ (forall e, dump code_of t = Err e -> e = ValueError).
Proof.
  induction t as [|[g v] t IH]; intros Dt Gt; [split; [split; [intros _ g v []|intros _; eexists; reflexivity]|discriminate]|].
  destruct IH as [IH1 IH2]; [intros g' d I; apply (Dt g' d); now right|intros g' v' I; apply (Gt g' v'); now right|]. cbn [dump].
  assert (All : (forall g0 v0, In (g0, v0) ((g, v) :: t) -> valid_group g0 v0) <-> valid_group g v /\ forall g0 v0, In (g0, v0) t -> valid_group g0 v0).
  { split; [intros H; split; [apply H; now left|intros; apply H; now right]|]. intros [A B] g0 v0 [E|I]; [injection E as -> ->; exact A|auto]. }
  rewrite All. clear All. destruct (text_eqb_spec g (T "thumbnail")) as [Eg|Ng].
  - assert (V : valid_group g v) by now left. destruct (dump code_of t) as [r|e] eqn:Er; cbn [bind].
    + split; [|discriminate]. split; [intros _; split; [exact V|apply IH1; eauto]|eauto].
    + split; [|intros e' E; injection E as <-; apply (IH2 e eq_refl)]. split; [intros (r & ?); discriminate|]. intros [_ B]. apply IH1 in B. destruct B as (r & ?). discriminate.
  - destruct (Gt g v (or_introl eq_refl)) as [?|(d & ->)]; [contradiction|]. destruct (ifd_of g) as [i|] eqn:Ei.
    2:{ split; [|intros e E; now injection E as <-]. split; [intros (r & ?); discriminate|]. intros [[?|(i & d' & E & _)] _]; [contradiction|apply table_iff in E; congruence]. }
    assert (Dc : (forall n, In n (names d) -> code_of i n <> None) \/ exists n, In n (names d) /\ code_of i n = None).
    { clear. induction (names d) as [|n l IHl]; [left; intros n []|]. destruct (code_of i n) eqn:C; [|right; exists n; split; [now left|exact C]]. destruct IHl as [H|(m & I & Cm)]; [left; intros m [<-|I]; [congruence|auto]|right; exists m; split; [now right|exact Cm]]. }
    pose proof (Dt g d (or_introl eq_refl)) as Nd. destruct Dc as [Dc|(n & I & C)].
    + destruct (recode_ok i d (map (fun e => (Name (fst e), snd e)) d) Nd (named_lookup d) Dc) as (D' & E & _). rewrite E. cbn [bind]. assert (V : valid_group g (GDict d)) by (right; exists i, d; split; [now apply table_iff|auto]).
      destruct (dump code_of t) as [r|e] eqn:Er; cbn [bind].
      * split; [|discriminate]. split; [intros _; split; [exact V|apply IH1; eauto]|eauto].
      * split; [|intros e' E'; injection E' as <-; apply (IH2 e eq_refl)]. split; [intros (r & ?); discriminate|]. intros [_ B]. apply IH1 in B. destruct B as (r & ?). discriminate.
    + rewrite (recode_fails i n d _ Nd (named_lookup d) I C). cbn [bind]. split; [|intros e E; now injection E as <-]. split; [intros (r & ?); discriminate|]. intros [[?|(i' & d' & E & E' & H)] _]; [contradiction|]. injection E' as <-. exfalso. assert (i' = i) by (apply table_iff in E; congruence). subst. exact (H n I C).
Qed.
(** It gives piexif, for each group in their order, exactly the values of the tags under their codes, if these differ. *)
Theorem dump_codes t r : dicts t -> dump code_of t = Ok r -> Forall2 (fun a b => fst b = fst a /\
  (fst a <> T "thumbnail" -> exists i d d', table (fst a) i /\ snd a = GDict d /\ snd b = DDict d' /\ (forall n, kget (Name n) d' = None) /\
    (injective i d -> forall z v, kget (Code z) d' = Some v <-> exists n, lookup n d = Some v /\ code_of i n = Some z))) t r.
Proof.
  revert r. induction t as [|[g v] t IH]; intros r Dt E; cbn [dump] in E; [injection E as <-; constructor|].
  assert (Dt' : dicts t) by (intros g' d I; apply (Dt g' d); now right). destruct (text_eqb_spec g (T "thumbnail")) as [Eg|Ng].
  - destruct (dump code_of t) as [rest|]; [|discriminate]. cbn [bind] in E. injection E as <-. constructor; [|auto]. cbn [fst snd]. split; [reflexivity|intros K; contradiction].
  - destruct (ifd_of g) as [i|] eqn:Ei; [|discriminate]. destruct v as [d|]; [|discriminate]. pose proof (Dt g d (or_introl eq_refl)) as Nd. destruct (recode code_of i (map fst d) _) as [D'|] eqn:Er; [|discriminate]. cbn [bind] in E. destruct (dump code_of t) as [rest|]; [|discriminate]. cbn [bind] in E. injection E as <-. constructor; [|auto]. cbn [fst snd]. split; [reflexivity|]. intros _. exists i, d, D'. split; [now apply table_iff|]. split; [reflexivity|]. split; [reflexivity|].
    assert (Dc : forall n, In n (names d) -> code_of i n <> None) by (intros n I C; rewrite (recode_fails i n d _ Nd (named_lookup d) I C) in Er; discriminate).
    destruct (recode_ok i d _ Nd (named_lookup d) Dc) as (D2 & E2 & Nm & G). rewrite E2 in Er. injection Er as <-. split; [exact Nm|]. intros J z v. rewrite (G J (fun z n _ _ => named_code d z) z v), named_code. split; [intros [?|?]; [discriminate|assumption]|now right].
Qed.
End Dumping.
Print Assumptions dump_accepts. Print Assumptions dump_codes.

(** Non-vacuity *)
Definition ex_tags : tags := [(T "0th", GDict [(T "Make", VBytes (T "NIKON CORPORATION ")); (T "Model", VBytes (T "NIKON D200"))]);
  (T "Exif", GDict [(T "DateTimeOriginal", VBytes (T "2014:10:13 02:03:36")); (T "SubSecTimeOriginal", VBytes (T "28")); (T "ExposureTime", VTuple [1%Z; 80%Z]); (T "ISOSpeedRatings", VInt 200)])].
Example exif_ex : datetime_ (@Ok text) ex_tags = Ok (Some (with_fraction (mkdt (20 * 100 + 14) 10 13 2 3 36 0) (number ([2; 8] ++ repeat 0 (6 - length [2; 8])))))%nat /\ sensorsz (@Ok text) ex_tags = Ok (Some (236, 158)%Z).
Proof.
  split.
  - apply (exif_datetime_fraction (@Ok text)) with (ds := [2; 8]%nat); [intros b _; reflexivity| | | |repeat constructor|cbn; lia].
    + unfold a_date. cbn [dY dm dd dH dM dS]. unfold day_of. repeat split; try lia.
    + eexists. split; reflexivity.
    + eexists. split; reflexivity.
  - apply (exif_sensorsz (@Ok text)) with (mk := T "NIKON CORPORATION") (a := []) (b := [" "]) (md := T "NIKON D200") (a' := []) (b' := []); try (intros b _; reflexivity); try (eexists; split; reflexivity); try (repeat constructor; vm_compute; lia); try (repeat constructor); reflexivity.
Qed.
Example dump_ex : exists r, dump (fun i n => if text_eqb n (T "Make") then Some 271%Z else if text_eqb n (T "Model") then Some 272%Z else match i with ExifIFD => Some (Z.of_nat (length n)) | _ => None end) ex_tags = Ok r.
Proof. eexists. vm_compute. reflexivity. Qed.
Example no_date_ex : writable (mkdt (20 * 100 + 14) 2 29 0 0 0 0) /\ ~ a_date (mkdt (20 * 100 + 14) 2 29 0 0 0 0) /\ a_date (mkdt (20 * 100) 2 29 0 0 0 0) /\ ~ a_date (mkdt (19 * 100) 2 29 0 0 0 0).
Proof.
  assert (L : forall y, a_date (mkdt y 2 29 0 0 0 0) -> leap y = true) by (intros y (_ & _ & D & _); apply leap_iff; destruct D as [D|[[_ D]|[[? _]|[? _]]]]; cbn [dd dm dY] in *; [lia|exact (D eq_refl)|discriminate|discriminate]).
  split; [unfold writable; cbn [dY dm dd dH dM dS]; lia|]. split; [intros A; apply L in A; vm_compute in A; discriminate|]. split; [|intros A; apply L in A; vm_compute in A; discriminate].
  unfold a_date. cbn [dY dm dd dH dM dS]. repeat split; try lia. right; left. split; [reflexivity|]. intros _. apply leap_iff. vm_compute. reflexivity.
Qed.
