(** C30: coordinates of a Grid read before its size is set. *)
From Verif Require Import Base BaseLemmas GridModel GridSpec GridProofs RasterModel RasterSpec RasterProofs RasterProofs7 P_Raster.
Open Scope R_scope.

(** FINDING: coordinates that were read before the size is set are those of the old size ever after: for every grid, whatever the new size. *)
Theorem grid_size_stale_refuted : forall s v s1 n s2, gcoherent s -> gget_x s = Ok (v, s1) -> gstep (GSetSize n) s1 = Ok s2 ->
  gget_x s2 = Ok (v, s2) /\ (gnx (og s2) <> gnx (og s) -> (0 <= gnx (og s))%Z -> (0 <= gnx (og s2))%Z -> ~ is_centers (xaxis (og s2)) v).
Proof.
  intros s v s1 n s2 C E1 E2.
  assert (X : ox s1 = Some v) by (unfold gget_x in E1; destruct (ox s) as [w|] eqn:O; [injection E1 as <- <-; exact O|]; destruct (centers (xaxis (og s))); [cbn in E1; injection E1 as <- <-; reflexivity|discriminate]).
  cbn [gstep] in E2. destruct (parse_size n) as [m|]; [|discriminate]. cbn [bind] in E2. injection E2 as <-. split.
  - unfold gget_x. cbn [ox]. now rewrite X.
  - cbn [og]. intros N P P2 [L _]. destruct C as ((v' & s' & E & [L' _]) & _). rewrite E1 in E. injection E as <- <-. cbn [xaxis snd gnx gxlim og] in *.
    assert (O : og s1 = og s) by (unfold gget_x in E1; destruct (ox s); [injection E1 as _ <-; reflexivity|]; destruct (centers (xaxis (og s))); [cbn in E1; injection E1 as _ <-; reflexivity|discriminate]).
    unfold xaxis in L, L'. cbn [snd gnx] in L, L'. apply N. lia.
Qed.
Print Assumptions grid_size_stale_refuted.
Example grid_size_stale_ex : gcoherent g22 /\ exists v s1 s2, gget_x g22 = Ok (v, s1) /\ gstep (GSetSize [4%Z]) s1 = Ok s2 /\ gnx (og s2) = 4%Z.
Proof.
  split; [apply (grid_caches_size_first (2, 2)%Z [0; 2] [0; 2] g22 []); [cbn; lia|cbn; lia|exact g22_new|constructor]|].
  eexists _, _, _. split; [unfold gget_x; cbn [ox g22]; change (xaxis (og g22)) with ((0, 2), 2%Z); rewrite centers02; reflexivity|]. split; reflexivity.
Qed.
