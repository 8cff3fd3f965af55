(** Properties C09, C30: shake128 and shake256 of src/sha3/fips202.c. *)
From Verif Require Import CSem Params Fips202 KeccakSpec KeccakProofs ShakeProofs.

(** ** C09: for every message and output length, exactly the FIPS 202 function
    (KeccakSpec.v), whatever the output buffer held before. *)
Theorem C09_shake128 : forall out inp, bytes_ok inp ->
  returns (shake128 out (zlen out) inp (zlen inp)) (SHAKE128 inp (zlen out)).
Proof. intros; apply wp_returns; rewrite SHAKE128_r; apply shake_wp; auto. Qed.
Print Assumptions C09_shake128.
Theorem C09_shake256 : forall out inp, bytes_ok inp ->
  returns (shake256 out (zlen out) inp (zlen inp)) (SHAKE256 inp (zlen out)).
Proof. intros; apply wp_returns; rewrite SHAKE256_r; apply shake_wp; auto. Qed.
Print Assumptions C09_shake256.

(** ** C30: shorter requests are prefixes of longer ones. *)
Theorem C30_prefix128 : forall out1 out2 inp, bytes_ok inp -> zlen out1 <= zlen out2 ->
  exists r1 r2, returns (shake128 out1 (zlen out1) inp (zlen inp)) r1 /\
                returns (shake128 out2 (zlen out2) inp (zlen inp)) r2 /\
                r1 = firstn (length out1) r2.
Proof.
  intros out1 out2 inp Hi Hl. do 2 eexists; split; [apply C09_shake128; auto|split; [apply C09_shake128; auto|]].
  rewrite SHAKE128_r, (SHAKE_r_prefix 168 inp (zlen out1) (zlen out2)); auto; try lia.
  - unfold zslice, zlen; rewrite Nat2Z.id; reflexivity.
  - pose proof (zlen_nonneg out1); lia.
Qed.
Print Assumptions C30_prefix128.
Theorem C30_prefix256 : forall out1 out2 inp, bytes_ok inp -> zlen out1 <= zlen out2 ->
  exists r1 r2, returns (shake256 out1 (zlen out1) inp (zlen inp)) r1 /\
                returns (shake256 out2 (zlen out2) inp (zlen inp)) r2 /\
                r1 = firstn (length out1) r2.
Proof.
  intros out1 out2 inp Hi Hl. do 2 eexists; split; [apply C09_shake256; auto|split; [apply C09_shake256; auto|]].
  rewrite SHAKE256_r, (SHAKE_r_prefix 136 inp (zlen out1) (zlen out2)); auto; try lia.
  - unfold zslice, zlen; rewrite Nat2Z.id; reflexivity.
  - pose proof (zlen_nonneg out1); lia.
Qed.
Print Assumptions C30_prefix256.

(** shake_absorb followed by shake_squeezeblocks gives the same stream. *)
Theorem C30_absorb_squeeze : forall r out inp n, r = 168 \/ r = 136 -> bytes_ok inp -> 0 <= n ->
  zlen out = n * r ->
  exists s s', returns (shake_absorb r (zrep 25 0) inp (zlen inp)) s /\
    returns (shake_squeezeblocks r out n s)
      (bits_to_bytes (n * r) (KECCAK (1600 - 8 * r) (bytes_to_bits inp ++ [true; true; true; true]) (8 * (n * r))), s').
Proof.
  intros r out inp n Hr Hi Hn Ho.
  assert (Hr8 : exists w, r = 8 * w /\ 1 <= w <= 25)
    by (destruct Hr; subst r; [exists 21|exists 17]; lia).
  destruct Hr8 as (w & Hrw & Hw).
  destruct (keccak_absorb_wp r w inp Hrw Hw Hi) as (s & t & E & Hs & Hok & Hf).
  destruct (squeezeblocks_wp out n s r w _ Hrw Hw Hn ltac:(lia) Hs Hok Hf)
    as ((h, s') & t' & E' & Hh & Hj & _).
  exists s, s'; split; [exists t; exact E|].
  exists t'; unfold shake_squeezeblocks; rewrite E'; f_equal; f_equal.
  change (h = SHAKE_r r inp (n * r)).
  rewrite SHAKE_r_bytes by (auto; nia).
  apply list_ext; [rewrite zlen_ztab; nia|]. intros i Hii; rewrite znth_ztab, Hj by lia.
  destruct (Z.ltb_spec i (n * r)); [reflexivity|lia].
Qed.
Print Assumptions C30_absorb_squeeze.

(** Concrete values (computed independently with Python's hashlib). *)
Example C09_nonvacuous :
  returns (shake256 (uninit 16) 16 [0x61; 0x62; 0x63] 3)
    [0x48; 0x33; 0x66; 0x60; 0x13; 0x60; 0xa8; 0x77; 0x1c; 0x68; 0x63; 0x08; 0x0c; 0xc4; 0x11; 0x4d].
Proof. eexists; vm_compute; reflexivity. Qed.
