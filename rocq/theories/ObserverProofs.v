From Verif Require Import Base BaseLemmas HelpersModel CameraModel ImageModel ImageSpec ImageProofs TemplateModel ObserverModel ObserverSpec.
Open Scope nat_scope.

Lemma set_nth_twice {A} n (v w : A) l : set_nth n v (set_nth n w l) = set_nth n v l.
Proof. revert n. induction l as [|x l IH]; intros [|n]; cbn; auto. now rewrite IH. Qed.

Section G.
Context {V : Type}.
Variable rescale : pic V -> Z * Z -> pic V.
Implicit Types (st : store V) (im : himage V).
Definition sees st im : istate V := mk_istate (held st im) (hi_cam im).

Lemma set_nth_id' {A} i (x : A) l : nth_error l i = Some x -> set_nth i x l = l.
Proof. revert i. induction l as [|y l IH]; intros [|i]; cbn; try discriminate; intros H; [now injection H as ->|]. now rewrite IH. Qed.
Lemma refines st i im box cache : nth_error (imgs st) i = Some im -> (forall k, hi_array im = Some k -> k < length (bufs st)) ->
  match read rescale (hi_file im) box cache (sees st im) with
  | Ok (p, sh, s') => exists a st' im' ext, read_image rescale i box cache st = Ok (a, st') /\ contents st' a = Some p /\
      bufs st' = bufs st ++ ext /\ imgs st' = set_nth i im' (imgs st) /\ hi_file im' = hi_file im /\ hi_cam im' = hi_cam im /\ held st' im' = cached s' /\
      (hi_array im' = hi_array im \/ hi_array im' = Some (length (bufs st)) /\ ext <> []) /\
      (if sh then hi_array im' = Some (a_buf a) else a_buf a = length (bufs st) /\ hi_array im' = hi_array im) /\ a_buf a < length (bufs st')
  | Err e => read_image rescale i box cache st = Err e
  end.
Proof.
  intros E K.
  assert (NE : forall x : pic V, nth_error (bufs st ++ [x]) (length (bufs st)) = Some x) by (intros x; rewrite nth_error_app2 by lia; now rewrite Nat.sub_diag).
  assert (HE : forall x, held (mk_store (bufs st ++ [x]) (imgs st)) im = held st im).
  { intros x. unfold held. cbn [bufs]. destruct (hi_array im) as [k|] eqn:Q; [|reflexivity]. apply nth_error_app1. now apply K. }
  unfold read, read_image. rewrite E. unfold sees. cbn [cached camsz].
  set (size := match held st im with Some a => psize a | None => psize (hi_file im) end).
  set (buf := if negb (size_eqb (hi_cam im) size) then Some (hi_cam im) else None).
  cbv zeta.
  set (win := match box, cache with
     | Some (l, t, r, d), false => Some (to_file l (fst size) (fst (hi_cam im)), to_file t (snd size) (snd (hi_cam im)), to_file (r - l) (fst size) (fst (hi_cam im)), to_file (d - t) (snd size) (snd (hi_cam im)))
     | _, _ => None end).
  assert (NEW : forall h, h = held st im ->
    match (let* (array, new_array, s) := (let* a := gdal_read rescale (hi_file im) win buf in Ok (a, true, if cache then mk_istate (Some a) (hi_cam im) else mk_istate h (hi_cam im))) in
       match box with
       | Some b => if (cache || negb new_array)%bool then Ok (subset b array, (cache || negb new_array)%bool, s) else Ok (array, (cache || negb new_array)%bool, s)
       | None => Ok (array, (cache || negb new_array)%bool, s) end) with
    | Ok (p, sh, s') => exists a st' im' ext,
       (let* a0 := gdal_read rescale (hi_file im) win buf in
        if cache then Ok (mk_arr (length (bufs st)) box, mk_store (bufs st ++ [a0]) (set_nth i (mk_himage (hi_file im) (hi_cam im) (Some (length (bufs st)))) (imgs st)))
        else Ok (mk_arr (length (bufs st)) None, mk_store (bufs st ++ [a0]) (imgs st))) = Ok (a, st') /\ contents st' a = Some p /\
      bufs st' = bufs st ++ ext /\ imgs st' = set_nth i im' (imgs st) /\ hi_file im' = hi_file im /\ hi_cam im' = hi_cam im /\ held st' im' = cached s' /\
      (hi_array im' = hi_array im \/ hi_array im' = Some (length (bufs st)) /\ ext <> []) /\
      (if sh then hi_array im' = Some (a_buf a) else a_buf a = length (bufs st) /\ hi_array im' = hi_array im) /\ a_buf a < length (bufs st')
    | Err e => (let* a0 := gdal_read rescale (hi_file im) win buf in
        if cache then Ok (mk_arr (length (bufs st)) box, mk_store (bufs st ++ [a0]) (set_nth i (mk_himage (hi_file im) (hi_cam im) (Some (length (bufs st)))) (imgs st)))
        else Ok (mk_arr (length (bufs st)) None, mk_store (bufs st ++ [a0]) (imgs st))) = Err e
    end).
  { intros h ->. destruct (gdal_read rescale (hi_file im) win buf) as [a0|e]; cbn [bind]; [|reflexivity]. destruct cache.
    - cbn [orb]. destruct box as [b|].
      + eexists _, _, _, [a0]. split; [reflexivity|]. unfold contents, held. cbn [a_buf a_box bufs imgs hi_file hi_cam hi_array cached view]. rewrite NE.
        split; [reflexivity|]. split; [reflexivity|]. split; [reflexivity|]. split; [reflexivity|]. split; [reflexivity|]. split; [apply NE|]. split; [right; split; [reflexivity|discriminate]|]. split; [reflexivity|]. rewrite app_length. cbn [length]. lia.
      + eexists _, _, _, [a0]. split; [reflexivity|]. unfold contents, held. cbn [a_buf a_box bufs imgs hi_file hi_cam hi_array cached view]. rewrite NE.
        split; [reflexivity|]. split; [reflexivity|]. split; [reflexivity|]. split; [reflexivity|]. split; [reflexivity|]. split; [apply NE|]. split; [right; split; [reflexivity|discriminate]|]. split; [reflexivity|]. rewrite app_length. cbn [length]. lia.
    - cbn [orb negb]. destruct box as [b|].
      + eexists _, _, im, [a0]. split; [reflexivity|]. unfold contents. cbn [a_buf a_box bufs imgs view]. rewrite NE.
        split; [reflexivity|]. split; [reflexivity|]. split; [symmetry; now apply set_nth_id'|]. split; [reflexivity|]. split; [reflexivity|]. split; [cbn [cached]; apply HE|]. split; [now left|]. split; [split; reflexivity|]. rewrite app_length. cbn [length]. lia.
      + eexists _, _, im, [a0]. split; [reflexivity|]. unfold contents. cbn [a_buf a_box bufs imgs view]. rewrite NE.
        split; [reflexivity|]. split; [reflexivity|]. split; [symmetry; now apply set_nth_id'|]. split; [reflexivity|]. split; [reflexivity|]. split; [cbn [cached]; apply HE|]. split; [now left|]. split; [split; reflexivity|]. rewrite app_length. cbn [length]. lia. }
  destruct (hi_array im) as [k|] eqn:A.
  - destruct (nth_error (bufs st) k) as [a0|] eqn:B; [|exfalso; apply nth_error_None in B; specialize (K k eq_refl); lia].
    assert (HS : held st im = Some a0) by (unfold held; now rewrite A). 
    destruct (negb (size_eqb (hi_cam im) size)) eqn:RS.
    + rewrite HS. apply (NEW (Some a0)). now rewrite HS.
    + rewrite HS. cbn [bind orb negb]. replace (cache || true)%bool with true by (destruct cache; reflexivity).
      destruct box as [b|].
      * eexists _, st, im, []. split; [reflexivity|]. unfold contents. cbn [a_buf a_box view cached]. rewrite B, app_nil_r, A.
        split; [reflexivity|]. split; [reflexivity|]. split; [symmetry; now apply set_nth_id'|]. split; [reflexivity|]. split; [reflexivity|]. split; [exact HS|]. split; [now left|]. split; [reflexivity|]. now apply K.
      * eexists _, st, im, []. split; [reflexivity|]. unfold contents. cbn [a_buf a_box view cached]. rewrite B, app_nil_r, A.
        split; [reflexivity|]. split; [reflexivity|]. split; [symmetry; now apply set_nth_id'|]. split; [reflexivity|]. split; [reflexivity|]. split; [exact HS|]. split; [now left|]. split; [reflexivity|]. now apply K.
  - assert (HS : held st im = None) by (unfold held; now rewrite A). rewrite HS. destruct (negb (size_eqb (hi_cam im) size)); apply (NEW None); now rewrite HS.
Qed.

Hypothesis GR : good_rescale rescale.
Definition good_image st im : Prop :=
  proper (hi_file im) /\ positive (hi_cam im) /\
  match hi_array im with Some k => exists p, nth_error (bufs st) k = Some p /\ positive (psize p) /\ p = rescale (hi_file im) (psize p) | None => True end.
Definition good st : Prop := forall i im, nth_error (imgs st) i = Some im -> good_image st im.
Definition distinct st : Prop := forall i j im jm k, nth_error (imgs st) i = Some im -> nth_error (imgs st) j = Some jm ->
  hi_array im = Some k -> hi_array jm = Some k -> i = j.
Lemma good_inv st im : good_image st im -> inv rescale (hi_file im) (sees st im) /\ (forall k, hi_array im = Some k -> k < length (bufs st)).
Proof.
  intros (F & P & A). split.
  - split; [exact P|]. unfold sees, held. cbn [cached]. destruct (hi_array im) as [k|]; [|exact Logic.I]. destruct A as (p & -> & A). exact A.
  - intros k E. rewrite E in A. destruct A as (p & A & _). apply nth_error_Some. congruence.
Qed.
Lemma good_image_ext st st' ext im : bufs st' = bufs st ++ ext -> good_image st im -> good_image st' im.
Proof.
  intros B (F & P & A). split; [exact F|]. split; [exact P|]. destruct (hi_array im) as [k|]; [|exact Logic.I]. destruct A as (p & A & A').
  exists p. split; [|exact A']. rewrite B, nth_error_app1; [exact A|]. apply nth_error_Some. congruence.
Qed.
Lemma inv_read file box cache s p sh s' : proper file -> inv rescale file s -> read rescale file box cache s = Ok (p, sh, s') -> inv rescale file s'.
Proof.
  intros F I0 E. destruct box as [b|].
  - destruct cache.
    + destruct (read_full rescale GR file F (Some b) true s I0 (or_intror eq_refl)) as (sh2 & s2 & E2 & I2 & _). rewrite E in E2. injection E2 as _ _ ->. exact I2.
    + apply read_uncached_state in E. now subst.
  - destruct (read_full rescale GR file F None cache s I0 (or_introl eq_refl)) as (sh2 & s2 & E2 & I2 & _). rewrite E in E2. injection E2 as _ _ ->. exact I2.
Qed.
(** everything about a read *)
Lemma read_facts st i im box cache a st' : good st -> distinct st -> nth_error (imgs st) i = Some im -> read_image rescale i box cache st = Ok (a, st') ->
  exists p sh s' im' ext, read rescale (hi_file im) box cache (sees st im) = Ok (p, sh, s') /\ contents st' a = Some p /\
   bufs st' = bufs st ++ ext /\ imgs st' = set_nth i im' (imgs st) /\ hi_file im' = hi_file im /\ hi_cam im' = hi_cam im /\ held st' im' = cached s' /\
   (if sh then hi_array im' = Some (a_buf a) else a_buf a = length (bufs st) /\ hi_array im' = hi_array im) /\ a_buf a < length (bufs st') /\
   good st' /\ distinct st'.
Proof.
  intros Gd Ds E Rd. destruct (good_inv st im (Gd i im E)) as [I K]. pose proof (refines st i im box cache E K) as RF.
  destruct (read rescale (hi_file im) box cache (sees st im)) as [[[p sh] s']|e] eqn:ER; [|congruence].
  destruct RF as (a2 & st2 & im' & ext & R2 & C & B & Im & F & Cm & H & AR & SH & LT). rewrite Rd in R2. injection R2 as <- <-.
  exists p, sh, s', im', ext. do 9 (split; [assumption || reflexivity|]).
  assert (Li : i < length (imgs st)) by (apply nth_error_Some; congruence).
  assert (Gi : good_image st' im').
  { destruct (Gd i im E) as (PF & PC & _). split; [rewrite F; exact PF|]. split; [rewrite Cm; exact PC|].
    pose proof (inv_read (hi_file im) box cache (sees st im) p sh s' PF I ER) as [_ I2]. rewrite <- H in I2. unfold held in I2.
    destruct (hi_array im') as [k|] eqn:A; [|exact Logic.I].
    destruct (nth_error (bufs st') k) as [q|] eqn:Q.
    - exists q. rewrite F. split; [reflexivity|exact I2].
    - exfalso. apply nth_error_None in Q. rewrite B, app_length in Q. destruct AR as [AR|[AR NE]].
      + symmetry in AR. specialize (K k AR). lia.
      + injection AR as ->. destruct ext; [congruence|]. cbn [length] in Q. lia. }
  split.
  - intros j jm J. rewrite Im in J. destruct (Nat.eq_dec i j) as [->|N].
    + rewrite nth_error_set_nth_eq in J by assumption. injection J as <-. exact Gi.
    + rewrite nth_error_set_nth_neq in J by assumption. apply (good_image_ext st st' ext jm B). now apply (Gd j).
  - assert (FR : forall j jm k, nth_error (imgs st) j = Some jm -> hi_array jm = Some k -> k < length (bufs st)).
    { intros j jm k J A. destruct (good_inv st jm (Gd j jm J)) as [_ KK]. now apply KK. }
    intros j l jm lm k J L A1 A2. rewrite Im in J, L.
    destruct (Nat.eq_dec i j) as [<-|Nj].
    + rewrite nth_error_set_nth_eq in J by assumption. injection J as <-. destruct (Nat.eq_dec i l) as [<-|Nl]; [reflexivity|].
      rewrite nth_error_set_nth_neq in L by assumption. destruct AR as [AR|[AR _]]; rewrite A1 in AR.
      * symmetry in AR. exact (Ds i l im lm k E L AR A2).
      * injection AR as ->. specialize (FR l lm _ L A2). lia.
    + rewrite nth_error_set_nth_neq in J by assumption. destruct (Nat.eq_dec i l) as [<-|Nl].
      * rewrite nth_error_set_nth_eq in L by assumption. injection L as <-. destruct AR as [AR|[AR _]]; rewrite A2 in AR.
        -- symmetry in AR. exact (Ds j i jm im k J E A1 AR).
        -- injection AR as ->. specialize (FR j jm _ J A1). lia.
      * rewrite nth_error_set_nth_neq in L by assumption. exact (Ds j l jm lm k J L A1 A2).
Qed.
Lemma contents_ext st st' ext a : bufs st' = bufs st ++ ext -> a_buf a < length (bufs st) -> contents st' a = contents st a.
Proof. intros B L. unfold contents. rewrite B, nth_error_app1 by assumption. reflexivity. Qed.
End G.
