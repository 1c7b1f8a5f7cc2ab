(** Property C125: files written by write_pickle and write_json, at every point at which the program can be killed. *)
From Coq Require Import String Ascii Lia.
From Verif Require Import Base FilesModel FilesProofs.
From Verif Require MatcherModel.
Notation length := List.length.

(** What is assumed of pickle and gzip: an object written is read back; from a part of what was written nothing else is read; nothing is read if nothing was written. *)
Definition pickler {obj} (encode : bool -> obj -> result bytes) (empty : bool -> bytes) (decode : bool -> bytes -> result obj) : Prop :=
  (forall gz o b, encode gz o = Ok b -> decode gz b = Ok o) /\
  (forall gz o b w r o', encode gz o = Ok b -> b = w ++ r -> decode gz w = Ok o' -> o' = o) /\
  (forall gz w r, empty gz = w ++ r -> is_ok (decode gz w) = false) /\ empty false = [].

Section P.
Context {obj : Type} (encode : bool -> obj -> result bytes) (empty : bool -> bytes) (decode : bool -> bytes -> result obj).
Notation write := (write_pickle encode empty). Notation read := (read_pickle decode).

Lemma write_save o p gz binary s : exists b, (b = empty gz /\ is_ok (encode gz o) = false \/ encode gz o = Ok b /\ (binary || gz)%bool = true \/ b = [] /\ is_ok (encode gz o) = true /\ (binary || gz)%bool = false) /\
  fst (write o p gz binary s) = fst (save p b s) /\
  (is_ok (encode gz o) && (binary || gz) = true -> snd (write o p gz binary s) = snd (save p b s)) /\
  (is_ok (encode gz o) && (binary || gz) = false -> snd (write o p gz binary s) <> Done tt /\ (snd (save p b s) = Done tt ->
     snd (write o p gz binary s) = Fail (Raised (match encode gz o with Err e => e | Ok _ => TypeError end)))).
Proof.
  unfold write_pickle, save, and_then. destruct (mkdir (tl p) s) as [t r].
  destruct (encode gz o) as [b|e] eqn:E; [destruct (binary || gz)%bool eqn:G|].
  - exists b. split; [right; left; now split|]. destruct r as [u|f]; cbn [fst snd]; [destruct (store p b (final s t)) as [t' r']|]; (split; [reflexivity|]; split; [reflexivity|cbn; discriminate]).
  - exists []. split; [right; right; now repeat split|]. destruct r as [u|f]; cbn [fst snd]; [destruct (store p [] (final s t)) as [t' [r'|r']]|]; (split; [reflexivity|]; split; [cbn; discriminate|]; intros _; split; [discriminate|]); [reflexivity|discriminate..].
  - exists (empty gz). split; [left; now split|]. destruct r as [u|f]; cbn [fst snd]; [destruct (store p (empty gz) (final s t)) as [t' [r'|r']]|]; (split; [reflexivity|]; split; [cbn; discriminate|]; intros _; split; [discriminate|]); [reflexivity|discriminate..].
Qed.
Lemma read_at p gz binary s s' : s' p = s p -> read p gz binary s' = read p gz binary s.
Proof. intros E. unfold read_pickle, open_read. now rewrite E. Qed.
Lemma read_file p gz binary s b : s p = Some (File b) -> (binary || gz)%bool = true -> read p gz binary s = lift (decode gz b).
Proof. intros E G. unfold read_pickle, open_read. now rewrite E, G. Qed.

(** What write_pickle has written is read back; other files are as before, and only directories that contain the file are made. *)
Theorem pickle_read : forall o p gz binary s s', pickler encode empty decode -> tree s ->
  snd (write o p gz binary s) = Done tt -> s' = final s (fst (write o p gz binary s)) ->
  read p gz binary s' = Done o /\ elsewhere p s s' /\ tree s'.
Proof.
  intros o p gz binary s s' [W _] T D ->. destruct (write_save o p gz binary s) as [b [B [F [Y N]]]].
  destruct (is_ok (encode gz o) && (binary || gz))%bool eqn:G; [|destruct (N eq_refl) as [X _]; contradiction].
  apply andb_prop in G. destruct G as [G1 G2]. rewrite G2 in B. destruct B as [[_ B]|[[B _]|[_ [_ B]]]]; [congruence| |discriminate].
  rewrite F. pose proof (save_spec p b s T) as [A C]. rewrite Y in D by reflexivity. destruct (C D) as [C1 _].
  split; [rewrite (read_file _ _ _ _ b C1 G2), (W _ _ _ B); reflexivity|].
  destruct (final_in s (fst (save p b s))) as [E|H]; [|destruct (A _ H) as [? [? _]]; now split].
  rewrite E. split; [intros q _; now left|exact T].
Qed.

(** It returns unless a directory is in the place of the file, or a file in the place of a directory. *)
Theorem pickle_returns : forall o p gz binary s, tree s -> is_ok (encode gz o) = true -> (binary || gz)%bool = true ->
  s p <> Some Dir -> (forall q c, above q p -> s q <> Some (File c)) -> snd (write o p gz binary s) = Done tt.
Proof.
  intros o p gz binary s T E G N A. destruct (write_save o p gz binary s) as [b [_ [_ [Y _]]]]. rewrite Y; [|now rewrite E, G]. now apply save_done.
Qed.

(** Wherever write_pickle is killed, or raises: other files are as before; reading the file gives what it gave before, raises, or gives the object written. *)
Theorem pickle_killed : forall o p gz binary s s', pickler encode empty decode -> tree s -> In s' (fst (write o p gz binary s)) ->
  elsewhere p s s' /\ tree s' /\ (s' p = s p \/ (exists e, read p gz binary s' = Fail e) \/ read p gz binary s' = Done o).
Proof.
  intros o p gz binary s s' [W [P [Z ZF]]] T H. destruct (write_save o p gz binary s) as [b [B [F _]]]. rewrite F in H.
  pose proof (save_spec p b s T) as [A _]. destruct (A _ H) as [T' [E C]]. split; [exact E|]. split; [exact T'|].
  destruct C as [C|[w [r [-> C]]]]; [now left|right]. destruct (binary || gz)%bool eqn:G.
  - rewrite (read_file _ _ _ _ w C G). destruct B as [[B _]|[[B _]|[_ [_ B]]]]; [| |discriminate].
    + left. specialize (Z gz w r (eq_sym B)). destruct (decode gz w); [discriminate|]. now eexists.
    + destruct (decode gz w) as [o'|e] eqn:D; [right|left; now eexists]. now rewrite (P _ _ _ _ _ _ B eq_refl D).
  - left. unfold read_pickle, open_read. rewrite C, G. now eexists.
Qed.

(** Any history of calls that return: each file has the object written to it last. *)
Fixpoint writes (h : list (obj * path * bool)) (s : fs) : option fs :=
  match h with
  | [] => Some s
  | (o, p, gz) :: h => let x := write o p gz true s in match snd x with Done _ => writes h (final s (fst x)) | Fail _ => None end
  end.
Lemma writes_kept : forall h s s' p, pickler encode empty decode -> tree s -> writes h s = Some s' -> (forall o q gz, In (o, q, gz) h -> q <> p) -> s p <> None -> s' p = s p /\ tree s'.
Proof.
  induction h as [|[[o q] gz] h IH]; intros s s' p K T E N M; cbn [writes] in E; [injection E as <-; now split|].
  destruct (snd (write o q gz true s)) as [[]|] eqn:D; [|discriminate]. destruct (pickle_read o q gz true s _ K T D eq_refl) as [_ [EL T']].
  assert (X : final s (fst (write o q gz true s)) p = s p). { destruct (EL p) as [|[? _]]; [intros ->; now apply (N o q gz (or_introl eq_refl)) | assumption | contradiction]. }
  destruct (IH _ s' p K T' E) as [Y ?]; [intros; eapply N; right; eassumption | congruence|]. split; [congruence|assumption].
Qed.
Theorem pickle_history : forall h1 o p gz h2 s s', pickler encode empty decode -> tree s -> writes (h1 ++ (o, p, gz) :: h2) s = Some s' ->
  (forall o' q gz', In (o', q, gz') h2 -> q <> p) -> read p gz true s' = Done o.
Proof.
  induction h1 as [|[[o1 p1] gz1] h1 IH]; intros o p gz h2 s s' K T E N; cbn [app writes] in E.
  - destruct (snd (write o p gz true s)) as [[]|] eqn:D; [|discriminate]. destruct (pickle_read o p gz true s _ K T D eq_refl) as [R [_ T']].
    assert (M : final s (fst (write o p gz true s)) p <> None). { intros M. unfold read_pickle, open_read in R. rewrite M in R. discriminate. }
    destruct (writes_kept h2 _ s' p K T' E N M) as [Y _]. now rewrite (read_at _ _ _ _ _ Y).
  - destruct (snd (write o1 p1 gz1 true s)) as [[]|] eqn:D; [|discriminate]. destruct (pickle_read o1 p1 gz1 true s _ K T D eq_refl) as [_ [_ T']].
    eapply IH; eassumption.
Qed.

(** FINDING: a file is emptied before it is written. If the program is killed then, or the object cannot be pickled, what the file held is lost. *)
Theorem pickle_lost_refuted : forall o p gz binary s old, pickler encode empty decode -> tree s -> s p = Some (File old) ->
  (exists s' e, In s' (fst (write o p gz binary s)) /\ s' p = Some (File []) /\ read p gz binary s' = Fail e) /\
  forall x, encode gz o = Err x -> snd (write o p gz binary s) = Fail (Raised x) /\ exists e, read p gz binary (final s (fst (write o p gz binary s))) = Fail e.
Proof.
  intros o p gz binary s old [W [P [Z ZF]]] T S. destruct (write_save o p gz binary s) as [b [B [F [_ N]]]]. rewrite F.
  pose proof (save_spec p b s T) as [_ A]. pose proof (save_file p b s old T S) as D. destruct (A D) as [C [s1 [C1 C2]]]. split.
  - exists s1. assert (X : exists e, read p gz binary s1 = Fail e). { unfold read_pickle, open_read. rewrite C2. destruct (binary || gz)%bool; [|now eexists]. specialize (Z gz [] (empty gz) eq_refl). destruct (decode gz []); [discriminate|now eexists]. }
    destruct X as [e X]. exists e. now repeat split.
  - intros x E. rewrite E in *. cbn [is_ok andb] in N. destruct (N eq_refl) as [_ N2]. split; [now apply N2|].
    destruct B as [[-> _]|[[B _]|[_ [B _]]]]; [|discriminate..]. unfold read_pickle, open_read. rewrite C. destruct (binary || gz)%bool; [|now eexists].
    specialize (Z gz (empty gz) [] (eq_sym (app_nil_r _))). destruct (decode gz (empty gz)); [discriminate|now eexists].
Qed.
(** FINDING: with binary=False (and no gzip) nothing can be written: TypeError, and an empty file in place of the old one; nor can any file be read. *)
Theorem pickle_text_refuted : forall o p s old b, tree s -> s p = Some (File old) -> encode false o = Ok b ->
  snd (write o p false false s) = Fail (Raised TypeError) /\ final s (fst (write o p false false s)) p = Some (File []) /\ read p false false s = Fail (Raised TypeError).
Proof.
  intros o p s old b T S E. destruct (write_save o p false false s) as [c [B [F [_ N]]]]. rewrite E in *. cbn in B, N.
  destruct B as [[_ B]|[[_ B]|[-> _]]]; [discriminate..|]. pose proof (save_spec p [] s T) as [_ A]. pose proof (save_file p [] s old T S) as D.
  split; [now apply N|]. split; [rewrite F; now apply A|]. unfold read_pickle, open_read. now rewrite S.
Qed.
(** The files of build_keypoints and build_matches (C69, C105) are as their model has them: what it was, an unreadable file, or the object. *)
Definition seen (p : path) (gz : bool) (s : fs) : MatcherModel.file obj :=
  match s p with
  | Some (File b) => match decode gz b with Ok o => MatcherModel.Written o | Err _ => MatcherModel.Partial end
  | Some Dir => MatcherModel.Partial
  | None => MatcherModel.Missing
  end.
Theorem pickle_seen : forall o p gz s s', pickler encode empty decode -> tree s ->
  In s' (fst (write o p gz true s)) -> seen p gz s' = seen p gz s \/ seen p gz s' = MatcherModel.Partial \/ seen p gz s' = MatcherModel.Written o.
Proof.
  intros o p gz s s' [W [P [Z ZF]]] T H. destruct (write_save o p gz true s) as [b [B [F _]]]. rewrite F in H. destruct (save_spec p b s T) as [A _]. destruct (A _ H) as [_ [_ [C|[w [r [-> C]]]]]].
  - left. unfold seen. now rewrite C.
  - right. unfold seen. rewrite C. destruct (decode gz w) as [o'|e] eqn:D; [right|now left]. destruct B as [[B _]|[[B _]|[_ [_ B]]]]; [| |discriminate].
    + specialize (Z gz w r (eq_sym B)). now rewrite D in Z.
    + now rewrite (P _ _ _ _ _ _ B eq_refl D).
Qed.
End P.

(** JSON: the text is made first, so that an object that cannot be written changes nothing. *)
Definition json_codec {obj} (dumps : obj -> result bytes) (loads : bytes -> result obj) : Prop :=
  forall o b, dumps o = Ok b -> loads b = Ok o /\ forall w r o', b = w ++ r -> loads w = Ok o' -> o' = o.
Section J.
Context {obj : Type} (dumps : obj -> result bytes) (loads : bytes -> result obj).
Notation write := (write_json_file dumps). Notation read := (read_json loads).
Theorem json_refused : forall o p s e, dumps o = Err e -> snd (write o p s) = Fail (Raised e) /\ fst (write o p s) = [].
Proof. intros o p s e E. unfold write_json_file. rewrite E. now split. Qed.
Lemma json_save o p s b : dumps o = Ok b -> write o p s = save p b s.
Proof. intros E. unfold write_json_file. now rewrite E. Qed.
Theorem json_returns : forall o p s b, tree s -> dumps o = Ok b -> s p <> Some Dir -> (forall q c, above q p -> s q <> Some (File c)) -> snd (write o p s) = Done tt.
Proof. intros o p s b T E N A. rewrite (json_save _ _ _ _ E). now apply save_done. Qed.
Theorem json_read : forall o p s, json_codec dumps loads -> tree s -> snd (write o p s) = Done tt ->
  let s' := final s (fst (write o p s)) in read p s' = Done o /\ elsewhere p s s' /\ tree s'.
Proof.
  intros o p s K T D. destruct (dumps o) as [b|e] eqn:E; [|destruct (json_refused o p s e E) as [X _]; congruence].
  cbn zeta. rewrite (json_save _ _ _ _ E) in *. pose proof (save_spec p b s T) as [A C]. destruct (C D) as [C1 _].
  split; [unfold read_json, open_read; rewrite C1; destruct (K _ _ E) as [-> _]; reflexivity|].
  destruct (final_in s (fst (save p b s))) as [X|H]; [|destruct (A _ H) as [? [? _]]; now split].
  rewrite X. split; [intros q _; now left|exact T].
Qed.
Theorem json_killed : forall o p s s', json_codec dumps loads -> tree s -> In s' (fst (write o p s)) ->
  elsewhere p s s' /\ tree s' /\ (s' p = s p \/ (exists e, read p s' = Fail e) \/ read p s' = Done o).
Proof.
  intros o p s s' K T H. destruct (dumps o) as [b|e] eqn:E; [|destruct (json_refused o p s e E) as [_ X]; rewrite X in H; destruct H].
  rewrite (json_save _ _ _ _ E) in H. destruct (save_spec p b s T) as [A _]. destruct (A _ H) as [T' [EL C]]. split; [exact EL|]. split; [exact T'|].
  destruct C as [C|[w [r [-> C]]]]; [now left|right]. unfold read_json, open_read. rewrite C. destruct (K _ _ E) as [_ P].
  destruct (loads w) as [o'|e] eqn:D; [right|left; now eexists]. now rewrite (P w r o' eq_refl D).
Qed.
(** FINDING: as for pickles, the file is emptied first. *)
Theorem json_lost_refuted : forall o p s old b, tree s -> s p = Some (File old) -> dumps o = Ok b -> exists s', In s' (fst (write o p s)) /\ s' p = Some (File []).
Proof. intros o p s old b T S E. rewrite (json_save _ _ _ _ E). destruct (save_spec p b s T) as [_ A]. exact (proj2 (A (save_file p b s old T S))). Qed.
End J.
Print Assumptions pickle_read. Print Assumptions pickle_returns. Print Assumptions pickle_killed. Print Assumptions pickle_history. Print Assumptions pickle_lost_refuted. Print Assumptions pickle_text_refuted. Print Assumptions pickle_seen.
Print Assumptions json_refused. Print Assumptions json_returns. Print Assumptions json_read. Print Assumptions json_killed. Print Assumptions json_lost_refuted.

(** Numbers written as so many strokes and a point, gzip as a letter in front; 7 cannot be written *)
Open Scope char_scope.
Fixpoint strokes (n : nat) : bytes := match n with O => ["."] | S n => "I" :: strokes n end.
Fixpoint count (b : bytes) : result nat := match b with ["."] => Ok O | "I" :: b => let* n := count b in Ok (S n) | _ => Err ValueError end.
Definition enc (gz : bool) (n : nat) : result bytes := if Nat.eqb n 7 then Err TypeError else Ok (if gz then "Z" :: strokes n else strokes n).
Definition emp (gz : bool) : bytes := if gz then ["Z"] else [].
Definition dec (gz : bool) (b : bytes) : result nat := if gz then match b with "Z" :: b => count b | _ => Err OtherError end else count b.
Lemma count_strokes n : count (strokes n) = Ok n.
Proof. induction n; [reflexivity|]. cbn [strokes count]. now rewrite IHn. Qed.
Lemma count_part n : forall w r m, strokes n = w ++ r -> count w = Ok m -> m = n.
Proof.
  induction n; intros w r m E C; cbn [strokes] in E.
  - destruct w as [|c w]; [discriminate|]. cbn in E. injection E as <- E. symmetry in E. apply app_eq_nil in E. destruct E as [-> _]. cbn in C. congruence.
  - destruct w as [|c w]; [discriminate|]. cbn in E. injection E as <- E. cbn [count] in C. destruct (count w) as [k|] eqn:D; [|discriminate]. cbn in C. injection C as <-. f_equal. eapply IHn; eassumption.
Qed.
Example strokes_pickler : pickler enc emp dec.
Proof.
  split; [|split; [|split; [|reflexivity]]].
  - intros gz n b. unfold enc, dec. destruct (Nat.eqb n 7); [discriminate|]. intros [= <-]. destruct gz; apply count_strokes.
  - intros gz n b w r m. unfold enc, dec. destruct (Nat.eqb n 7); [discriminate|]. intros [= <-] E D. destruct gz; [|eapply count_part; eassumption].
    destruct w as [|c w]; [discriminate|]. cbn in E. injection E as <- E. eapply count_part; eassumption.
  - intros gz w r E. destruct gz; cbn in E.
    + destruct w as [|c w]; [reflexivity|]. injection E as <- E. symmetry in E. apply app_eq_nil in E. destruct E as [-> _]. reflexivity.
    + symmetry in E. apply app_eq_nil in E. destruct E as [-> _]. reflexivity.
Qed.
Example strokes_json : json_codec (enc false) (dec false).
Proof. intros n b E. split; [apply (proj1 strokes_pickler false n b E)|]. intros w r m. exact (proj1 (proj2 strokes_pickler) false n b w r m E). Qed.
(** an empty file system, with a file "a" of 2 *)
Definition empty_fs : fs := fun p => match p with [] => Some Dir | _ => None end.
Definition one_fs : fs := put ["a"%string] (File (strokes 2)) empty_fs.
Example one_tree : tree one_fs.
Proof. apply (put_file_tree ["a"%string] (strokes 2) empty_fs); [|now left|reflexivity|discriminate]. split; [reflexivity|]. intros x p. cbn. congruence. Qed.
Example files_ex :
  let k := ["k"%string; "d"%string; "c"%string] in
  let (t, r) := write_pickle enc emp 3%nat k true true one_fs in
  r = Done tt /\ read_pickle dec k true true (final one_fs t) = Done 3%nat /\ length t = 8%nat /\
  map (fun s => read_pickle dec k true true s) t = [Fail FileNotFound; Fail FileNotFound; Fail (Raised OtherError); Fail (Raised ValueError); Fail (Raised ValueError); Fail (Raised ValueError); Fail (Raised ValueError); Done 3%nat] /\
  read_pickle dec ["a"%string] false true (final one_fs t) = Done 2%nat.
Proof. vm_compute. repeat split; reflexivity. Qed.
Example history_ex : exists s', writes enc emp ([(1%nat, ["a"%string], false)] ++ (3%nat, ["a"%string], true) :: [(4%nat, ["k"%string; "c"%string], false)]) one_fs = Some s' /\
  read_pickle dec ["a"%string] true true s' = Done 3%nat.
Proof. eexists. split; [vm_compute; reflexivity|]. vm_compute. reflexivity. Qed.
Example lost_ex : snd (write_pickle enc emp 7%nat ["a"%string] false true one_fs) = Fail (Raised TypeError) /\ final one_fs (fst (write_pickle enc emp 7%nat ["a"%string] false true one_fs)) ["a"%string] = Some (File []).
Proof. vm_compute. split; reflexivity. Qed.
Example blocked_ex : snd (write_pickle enc emp 3%nat ["k"%string; "a"%string] false true one_fs) = Fail FileExists.
Proof. vm_compute. reflexivity. Qed.
Example json_ex : snd (write_json_file (enc false) 7%nat ["a"%string] one_fs) = Fail (Raised TypeError) /\ fst (write_json_file (enc false) 7%nat ["a"%string] one_fs) = [] /\
  snd (write_json_file (enc false) 3%nat ["a"%string] one_fs) = Done tt.
Proof. vm_compute. repeat split; reflexivity. Qed.
