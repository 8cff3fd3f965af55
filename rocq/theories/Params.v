(** Build-time configuration of the code: parameter sets, host byte order,
    implementation variants.  Models src/frodo640.c, src/frodo976.c,
    src/frodo1344.c (the #define blocks), src/api_frodo*.h and src/config.h. *)
From Verif Require Import CSem.

(** PARAMS_NBAR is 8 in all three parameter sets (src/frodo640.c:14,
    src/frodo976.c:14, src/frodo1344.c:14). *)
Definition NBAR : Z := 8.
(** BYTES_SEED_A (src/frodo640.c:20, frodo976.c:20, frodo1344.c:20). *)
Definition SEEDA : Z := 16.
(** PARAMS_STRIPE_STEP (src/frodo640.c:18 and the same line of the others). *)
Definition STRIPE : Z := 8.

(** The macros that differ between src/frodo640.c, src/frodo976.c and src/frodo1344.c (lines 12-37 of each) and the CRYPTO_BYTES of src/api_frodo*.h. *)
Record params := {
  pN : Z;              (* PARAMS_N *)
  pD : Z;              (* PARAMS_LOGQ *)
  pB : Z;              (* PARAMS_EXTRACTED_BITS *)
  pCB : Z;             (* CRYPTO_BYTES *)
  pRate : Z;           (* the rate of "shake": SHAKE128_RATE or SHAKE256_RATE *)
  pCDF : list Z        (* CDF_TABLE; CDF_TABLE_LEN is its length *)
}.

(** src/frodo640.c:11-37, src/api_frodo640.h *)
Definition frodo640 : params := {|
  pN := 640; pD := 15; pB := 2; pCB := 16; pRate := 168;
  pCDF := [4643; 13363; 20579; 25843; 29227; 31145; 32103; 32525; 32689; 32745; 32762; 32766; 32767] |}.
(** src/frodo976.c:11-37, src/api_frodo976.h *)
Definition frodo976 : params := {|
  pN := 976; pD := 16; pB := 3; pCB := 24; pRate := 136;
  pCDF := [5638; 15915; 23689; 28571; 31116; 32217; 32613; 32731; 32760; 32766; 32767] |}.
(** src/frodo1344.c:11-37, src/api_frodo1344.h *)
Definition frodo1344 : params := {|
  pN := 1344; pD := 16; pB := 4; pCB := 32; pRate := 136;
  pCDF := [9142; 23462; 30338; 32361; 32725; 32765; 32767] |}.

(** Derived sizes.  PARAMS_N*PARAMS_NBAR *)
Definition NN (P : params) : Z := pN P * NBAR.
(** (PARAMS_LOGQ*PARAMS_N*PARAMS_NBAR)/8 (src/kem.c:83) *)
Definition bytesB (P : params) : Z := (pD P * pN P * NBAR) / 8.
(** (PARAMS_LOGQ*PARAMS_NBAR*PARAMS_NBAR)/8 (src/kem.c:130) *)
Definition bytesC (P : params) : Z := (pD P * NBAR * NBAR) / 8.
(** BYTES_MU (src/frodo640.c:21) *)
Definition bytesMu (P : params) : Z := (pB P * NBAR * NBAR) / 8.
(** BYTES_PKHASH (src/frodo640.c:22) *)
Definition bytesH (P : params) : Z := pCB P.
(** CRYPTO_PUBLICKEYBYTES, CRYPTO_SECRETKEYBYTES, CRYPTO_CIPHERTEXTBYTES:
    src/api_frodo640.h gives the literal numbers; the comments at
    src/kem.c:17-18 give these formulas.  [sizes_*] below check the literals. *)
Definition pkBytes (P : params) : Z := SEEDA + bytesB P.
(** CRYPTO_SECRETKEYBYTES, src/kem.c:18, src/api_frodo640.h:10 *)
Definition skBytes (P : params) : Z := pCB P + pkBytes P + 2 * NN P + bytesH P.
(** CRYPTO_CIPHERTEXTBYTES, src/api_frodo640.h:13 *)
Definition ctBytes (P : params) : Z := bytesB P + bytesC P.

Example sizes_640 : (skBytes frodo640, pkBytes frodo640, ctBytes frodo640) = (19888, 9616, 9720).
Proof. reflexivity. Qed.
Example sizes_976 : (skBytes frodo976, pkBytes frodo976, ctBytes frodo976) = (31296, 15632, 15744).
Proof. reflexivity. Qed.
Example sizes_1344 : (skBytes frodo1344, pkBytes frodo1344, ctBytes frodo1344) = (43088, 21520, 21632).
Proof. reflexivity. Qed.

(** Conditions under which the theorems hold.  The three shipped sets satisfy
    them ([valid_640] ...), and so do toy sizes used for executable examples. *)
Record valid (P : params) : Prop := {
  v_N : 0 < pN P <= 32768;           (* indices fit uint16_t; N*N fits int up to 32768 *)
  v_N16 : pN P mod 16 = 0;           (* all block sizes divide N *)
  v_D : 1 < pD P <= 16;
  v_B : 1 <= pB P < pD P;
  v_B8 : pB P <= 8;                  (* 8 pieces of B bits fit uint64_t *)
  v_CB : 0 < pCB P;
  v_CB2 : pCB P mod 2 = 0;
  v_rate : pRate P = 168 \/ pRate P = 136;
  v_cdf : inrange 32768 (pCDF P);
  v_cdf_len : 1 <= zlen (pCDF P) <= 32768
}.

Ltac solve_valid :=
  constructor; cbn; try lia; try reflexivity; auto;
  repeat constructor; lia.
Lemma valid_640 : valid frodo640. Proof. solve_valid. Qed.
Lemma valid_976 : valid frodo976. Proof. solve_valid. Qed.
Lemma valid_1344 : valid frodo1344. Proof. solve_valid. Qed.

(** A toy parameter set for executable examples. *)
Definition toy : params := {|
  pN := 16; pD := 15; pB := 2; pCB := 16; pRate := 168; pCDF := pCDF frodo640 |}.
Lemma valid_toy : valid toy. Proof. solve_valid. Qed.

(** Host byte order (src/config.h:98-114). *)
Inductive endian := LE | BE.

(** How the host stores a uint16_t: two bytes at increasing addresses. *)
Definition u16_at (en : endian) (b0 b1 : Z) : Z :=
  match en with LE => b0 + 256 * b1 | BE => 256 * b0 + b1 end.
(** Byte k (0 or 1) of a uint16_t as the host stores it. *)
Definition byte_of_u16 (en : endian) (w k : Z) : Z :=
  match en with
  | LE => if k =? 0 then w mod 256 else w / 256
  | BE => if k =? 0 then w / 256 else w mod 256
  end.
(** (uint16_t* ) view of a byte buffer and (uint8_t* ) view of a uint16_t buffer. *)
Definition words_of_bytes (en : endian) (l : list Z) : list Z :=
  ztab (zlen l / 2) (fun i => u16_at en (znth l (2 * i)) (znth l (2 * i + 1))).
(** (uint8_t* ) view of a uint16_t buffer, as in the cast of src/kem.c:44. *)
Definition bytes_of_words (en : endian) (l : list Z) : list Z :=
  ztab (2 * zlen l) (fun i => byte_of_u16 en (znth l (i / 2)) (i mod 2)).

(** LE_TO_UINT16(n), src/config.h:100 (big-endian) and :103 (little-endian).
    The third, byte-wise variant (lines 105-113) computes one of these two
    depending on the host. *)
Definition LE_TO_UINT16 (en : endian) (n : Z) : Z :=
  match en with
  | LE => n
  | BE => Z.lor (Z.shiftl (Z.land (u16 n) 255) 8) (Z.shiftr (Z.land (u16 n) 65280) 8)
  end.
(** UINT16_TO_LE(n), src/config.h:101 and :104. *)
Definition UINT16_TO_LE (en : endian) (n : Z) : Z :=
  match en with
  | LE => n
  | BE => Z.lor (Z.shiftl (Z.land (u16 n) 255) 8) (Z.shiftr (Z.land (u16 n) 65280) 8)
  end.

(** Which matrix code is compiled (src/config.h: _REFERENCE_, _FAST_GENERIC_, _FAST_). *)
Inductive impl := Reference | Optimized | AVX2.
(** How A is generated (src/config.h:82-90). *)
Inductive genA := GenAES | GenSHAKE.
(** Which AES code runs: the portable one, the AES instructions (src/aes/aes.h), or OpenSSL
    (USE_OPENSSL, src/config.h:93-95; the default of the Makefile). *)
Inductive aesimpl := AesC | AesNI | AesEVP.

(** One build: parameter set, host, matrix code, generation of A, AES code (src/config.h:69-114). *)
Record config := {
  cP : params;
  cEn : endian;
  cImpl : impl;
  cGen : genA;
  cAes : aesimpl
}.

(* ------------------------------------------------------------------ *)
(** Facts about the byte-order views. *)
Lemma swap16 n : 0 <= n < 65536 ->
  Z.lor (Z.shiftl (Z.land (u16 n) 255) 8) (Z.shiftr (Z.land (u16 n) 65280) 8)
  = 256 * (n mod 256) + n / 256.
Proof.
  intros H; unfold u16; rewrite (Z.mod_small n) by lia.
  change 255 with (Z.ones 8); rewrite Z.land_ones by lia.
  replace (Z.shiftr (Z.land n 65280) 8) with (n / 256).
  2:{ rewrite Z.shiftr_land; change (Z.shiftr 65280 8) with (Z.ones 8).
      rewrite Z.land_ones by lia; rewrite Z.shiftr_div_pow2 by lia.
      change (2 ^ 8) with 256; rewrite Z.mod_small; [reflexivity|].
      split; [apply Z.div_pos; lia|apply Z.div_lt_upper_bound; lia]. }
  rewrite Z.shiftl_mul_pow2 by lia; change (2 ^ 8) with 256.
  assert (0 <= n / 256 < 256) by
    (split; [apply Z.div_pos; lia|apply Z.div_lt_upper_bound; lia]).
  assert (E : Z.land (n mod 256 * 256) (n / 256) = 0).
  { apply Z.bits_inj'; intros k Hk; rewrite Z.land_spec, Z.bits_0.
    change 256 with (2 ^ 8) at 2; rewrite <- Z.shiftl_mul_pow2 by lia.
    destruct (Z.ltb_spec k 8).
    - rewrite Z.shiftl_spec_low by lia; reflexivity.
    - replace (Z.testbit (n / 256) k) with false; [now rewrite andb_false_r|].
      symmetry; destruct (Z.eq_dec (n / 256) 0) as [->|]; [apply Z.bits_0|].
      apply Z.bits_above_log2; [lia|].
      apply Z.lt_le_trans with 8; [|lia].
      apply Z.log2_lt_pow2; lia. }
  rewrite <- Z.lxor_lor by exact E. rewrite <- Z.add_nocarry_lxor by exact E. lia.
Qed.

Lemma LE_TO_UINT16_word en b0 b1 :
  0 <= b0 < 256 -> 0 <= b1 < 256 -> LE_TO_UINT16 en (u16_at en b0 b1) = b0 + 256 * b1.
Proof.
  intros; destruct en; cbn [LE_TO_UINT16 u16_at]; [reflexivity|].
  rewrite swap16 by lia.
  dlia.
Qed.
Lemma byte_of_UINT16_TO_LE en w k : 0 <= w < 65536 ->
  byte_of_u16 en (UINT16_TO_LE en w) k = byte_of_u16 LE w k.
Proof.
  intros; destruct en; cbn [UINT16_TO_LE byte_of_u16]; [reflexivity|].
  rewrite swap16 by lia.
  assert (0 <= w / 256 < 256) by
    (split; [apply Z.div_pos; lia|apply Z.div_lt_upper_bound; lia]).
  destruct (k =? 0).
  - dlia.
  - dlia.
Qed.
Lemma u16_at_range en b0 b1 : 0 <= b0 < 256 -> 0 <= b1 < 256 -> 0 <= u16_at en b0 b1 < 65536.
Proof. intros; unfold u16_at; destruct en; lia. Qed.
Lemma byte_of_u16_range en w k : 0 <= w < 65536 -> 0 <= byte_of_u16 en w k < 256.
Proof.
  intros; unfold byte_of_u16; destruct en; destruct (k =? 0); dlia.
Qed.
Lemma zlen_words en l : zlen (words_of_bytes en l) = zlen l / 2.
Proof.
  unfold words_of_bytes; rewrite zlen_ztab; [reflexivity|].
  apply Z.div_pos; [apply zlen_nonneg|lia].
Qed.
Lemma zlen_bytes en l : zlen (bytes_of_words en l) = 2 * zlen l.
Proof. unfold bytes_of_words; rewrite zlen_ztab; [reflexivity|]; pose proof (zlen_nonneg l); lia. Qed.
Lemma znth_words en l i : 0 <= i < zlen l / 2 ->
  znth (words_of_bytes en l) i = u16_at en (znth l (2 * i)) (znth l (2 * i + 1)).
Proof. intros; unfold words_of_bytes; now rewrite znth_ztab. Qed.
Lemma znth_bytes en l i : 0 <= i < 2 * zlen l ->
  znth (bytes_of_words en l) i = byte_of_u16 en (znth l (i / 2)) (i mod 2).
Proof. intros; unfold bytes_of_words; now rewrite znth_ztab. Qed.
Lemma inrange_words en l : bytes_ok l -> u16s_ok (words_of_bytes en l).
Proof.
  intros H; apply inrange_ztab; intros i Hi.
  apply u16_at_range; apply inrange_znth_all; auto; lia.
Qed.
Lemma inrange_bytes en l : u16s_ok l -> bytes_ok (bytes_of_words en l).
Proof.
  intros H; apply inrange_ztab; intros i Hi.
  apply byte_of_u16_range; apply inrange_znth_all; auto; lia.
Qed.

Section Derived.
  Variable P : params.
  Hypothesis V : valid P.
  Lemma bytesB_eq : bytesB P = pD P * pN P.
  Proof. unfold bytesB, NBAR; now rewrite Z.div_mul by lia. Qed.
  Lemma bytesC_eq : bytesC P = pD P * 8.
  Proof. unfold bytesC, NBAR; now rewrite Z.div_mul by lia. Qed.
  Lemma bytesMu_eq : bytesMu P = pB P * 8.
  Proof. unfold bytesMu, NBAR; now rewrite Z.div_mul by lia. Qed.
  Lemma NN_eq : NN P = pN P * 8. Proof. reflexivity. Qed.
End Derived.
