(** Property C10: shake128_4x of src/sha3/fips202x4.c. *)
From Verif Require Import CSem Params Fips202 KeccakSpec KeccakProofs ShakeProofs PropShake Fips202x4 Fips202x4Proofs.

(** ** C10: for every four messages of one length and four output buffers of one length, each
    output is the FIPS 202 SHAKE128 of its own message ([true]: the two 32-byte shuffle tables are
    32-byte aligned, see C31). *)
Theorem C10_shake128_4x : forall o0 o1 o2 o3 i0 i1 i2 i3,
  bytes_ok i0 -> bytes_ok i1 -> bytes_ok i2 -> bytes_ok i3 ->
  zlen i1 = zlen i0 -> zlen i2 = zlen i0 -> zlen i3 = zlen i0 ->
  zlen o1 = zlen o0 -> zlen o2 = zlen o0 -> zlen o3 = zlen o0 ->
  returns (shake128_4x true (o0, o1, o2, o3) (zlen o0) i0 i1 i2 i3 (zlen i0))
    (SHAKE128 i0 (zlen o0), SHAKE128 i1 (zlen o0), SHAKE128 i2 (zlen o0), SHAKE128 i3 (zlen o0)).
Proof.
  intros; apply wp_returns, shake128_4x_wp; auto using zlen_nonneg.
  intros l Hl; by4 Hl; cbn [sel4 Z.eqb Pos.eqb]; auto.
Qed.
Print Assumptions C10_shake128_4x.

(** The same, against the code: four calls of shake128. *)
Theorem C10_equals_four_calls : forall o0 o1 o2 o3 i0 i1 i2 i3,
  bytes_ok i0 -> bytes_ok i1 -> bytes_ok i2 -> bytes_ok i3 ->
  zlen i1 = zlen i0 -> zlen i2 = zlen i0 -> zlen i3 = zlen i0 ->
  zlen o1 = zlen o0 -> zlen o2 = zlen o0 -> zlen o3 = zlen o0 ->
  exists r0 r1 r2 r3,
    returns (shake128_4x true (o0, o1, o2, o3) (zlen o0) i0 i1 i2 i3 (zlen i0)) (r0, r1, r2, r3) /\
    returns (shake128 o0 (zlen o0) i0 (zlen i0)) r0 /\ returns (shake128 o1 (zlen o1) i1 (zlen i1)) r1 /\
    returns (shake128 o2 (zlen o2) i2 (zlen i2)) r2 /\ returns (shake128 o3 (zlen o3) i3 (zlen i3)) r3.
Proof.
  intros o0 o1 o2 o3 i0 i1 i2 i3 B0 B1 B2 B3 I1 I2 I3 O1 O2 O3. do 4 eexists.
  split; [apply C10_shake128_4x; auto|]. rewrite O1, O2, O3.
  split; [now apply C09_shake128|].
  split; [rewrite <- O1; apply C09_shake128; auto|].
  split; [rewrite <- O2; apply C09_shake128; auto|rewrite <- O3; apply C09_shake128; auto].
Qed.
Print Assumptions C10_equals_four_calls.

(** A lane's output does not depend on the other lanes (here lane 0; by symmetry all). *)
Theorem C10_no_cross_lane : forall o0 o1 o2 o3 i0 i1 i2 i3 o1' o2' o3' i1' i2' i3' r r',
  bytes_ok i0 -> bytes_ok i1 -> bytes_ok i2 -> bytes_ok i3 -> bytes_ok i1' -> bytes_ok i2' -> bytes_ok i3' ->
  zlen i1 = zlen i0 -> zlen i2 = zlen i0 -> zlen i3 = zlen i0 ->
  zlen i1' = zlen i0 -> zlen i2' = zlen i0 -> zlen i3' = zlen i0 ->
  zlen o1 = zlen o0 -> zlen o2 = zlen o0 -> zlen o3 = zlen o0 ->
  zlen o1' = zlen o0 -> zlen o2' = zlen o0 -> zlen o3' = zlen o0 ->
  returns (shake128_4x true (o0, o1, o2, o3) (zlen o0) i0 i1 i2 i3 (zlen i0)) r ->
  returns (shake128_4x true (o0, o1', o2', o3') (zlen o0) i0 i1' i2' i3' (zlen i0)) r' ->
  fst (fst (fst r)) = fst (fst (fst r')).
Proof.
  intros until r'. intros ? ? ? ? ? ? ? ? ? ? ? ? ? ? ? ? ? ? ? R R'.
  rewrite (returns_inj _ _ _ R (C10_shake128_4x o0 o1 o2 o3 i0 i1 i2 i3 ltac:(auto) ltac:(auto) ltac:(auto) ltac:(auto)
    ltac:(auto) ltac:(auto) ltac:(auto) ltac:(auto) ltac:(auto) ltac:(auto))).
  rewrite (returns_inj _ _ _ R' (C10_shake128_4x o0 o1' o2' o3' i0 i1' i2' i3' ltac:(auto) ltac:(auto) ltac:(auto) ltac:(auto)
    ltac:(auto) ltac:(auto) ltac:(auto) ltac:(auto) ltac:(auto) ltac:(auto))).
  reflexivity.
Qed.
Print Assumptions C10_no_cross_lane.

(** The hypotheses are met by distinct messages (the run is Fips202x4.shake128_4x_runs). *)
Example C10_nonvacuous : bytes_ok [1; 2] /\ bytes_ok [3; 4] /\ zlen [3; 4] = zlen [1; 2] /\ zlen (uninit 20) = 20.
Proof. repeat split; try reflexivity; repeat constructor; lia. Qed.
