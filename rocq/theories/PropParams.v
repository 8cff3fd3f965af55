(** Properties C34 (the shipped parameter sets and the advertised sizes) and C35 (the byte-order
    macros for compilers that do not say which byte order they use). *)
From Verif Require Import CSem Params KeccakSpec FrodoSpec Kem FrodoFacts PropKem.

(** ** C34 *)
(** What an instance of FrodoKEM is called and advertised as: CRYPTO_SECRETKEYBYTES,
    CRYPTO_PUBLICKEYBYTES, CRYPTO_BYTES, CRYPTO_CIPHERTEXTBYTES
    (src/api_frodo640.h:11-14, src/api_frodo976.h:11-14, src/api_frodo1344.h:11-14). *)
Record header := { h_sk : Z; h_pk : Z; h_ss : Z; h_ct : Z }.
Definition header640 : header := {| h_sk := 19888; h_pk := 9616; h_ss := 16; h_ct := 9720 |}.
Definition header976 : header := {| h_sk := 31296; h_pk := 15632; h_ss := 24; h_ct := 15744 |}.
Definition header1344 : header := {| h_sk := 43088; h_pk := 21520; h_ss := 32; h_ct := 21632 |}.
(** The tables of the FrodoKEM specification: level, n, D = log2 q, B, the lengths in bits of the
    session key, and whether the hash is SHAKE256. *)
Record published := { f_n : Z; f_D : Z; f_B : Z; f_len : Z; f_shake256 : bool }.
Definition published640 : published := {| f_n := 640; f_D := 15; f_B := 2; f_len := 128; f_shake256 := false |}.
Definition published976 : published := {| f_n := 976; f_D := 16; f_B := 3; f_len := 192; f_shake256 := true |}.
Definition published1344 : published := {| f_n := 1344; f_D := 16; f_B := 4; f_len := 256; f_shake256 := true |}.

Definition instance (P : params) (F : published) (H : header) : Prop :=
  P = frodo640 /\ F = published640 /\ H = header640 \/
  P = frodo976 /\ F = published976 /\ H = header976 \/
  P = frodo1344 /\ F = published1344 /\ H = header1344.

(** The parameters of the code are the published ones; its hash is SHAKE128 or SHAKE256 as
    published (FIPS 202, KeccakSpec.v); the message has 64 B bits. *)
Theorem C34_published : forall P F H, instance P F H ->
  valid P /\ pN P = f_n F /\ pD P = f_D F /\ pB P = f_B F /\ 8 * pCB P = f_len F /\ 8 * bytesMu P = 64 * f_B F /\
  forall M n, Hash P M n = (if f_shake256 F then SHAKE256 M n else SHAKE128 M n).
Proof.
  intros P F H [(-> & -> & ->)|[(-> & -> & ->)|(-> & -> & ->)]];
    (split; [first [exact valid_640|exact valid_976|exact valid_1344]|]); repeat (split; [reflexivity|]); intros M n; reflexivity.
Qed.
Print Assumptions C34_published.

(** The advertised sizes are those of what the algorithms return, for all randomness, keys,
    messages and ciphertexts; with C05 they are the numbers of bytes the functions write and read. *)
Theorem C34_advertised : forall P F H g, instance P F H ->
  h_pk H = pkBytes P /\ h_sk H = skBytes P /\ h_ct H = ctBytes P /\ h_ss H = pCB P /\
  (forall s seedSE z, zlen s = pCB P ->
     let '(PK, SK) := KeyGen P g s seedSE z in zlen PK = h_pk H /\ zlen SK = h_sk H) /\
  (forall PK mu, let '(CT, SS) := Encaps P g PK mu in zlen CT = h_ct H /\ zlen SS = h_ss H) /\
  (forall SK CT, zlen (Decaps P g SK CT) = h_ss H).
Proof.
  intros P F H g HI. destruct (C34_published P F H HI) as (V & _).
  assert (E : h_pk H = pkBytes P /\ h_sk H = skBytes P /\ h_ct H = ctBytes P /\ h_ss H = pCB P).
  { destruct HI as [(-> & -> & ->)|[(-> & -> & ->)|(-> & -> & ->)]]; repeat split; reflexivity. }
  destruct E as (E1 & E2 & E3 & E4). rewrite E1, E2, E3, E4. clear HI E1 E2 E3 E4. repeat (split; [reflexivity|]). split; [|split].
  - intros s seedSE z Ls. pose proof (KeyGen_parts P g V s seedSE z Ls) as K. destruct (KeyGen P g s seedSE z) as [PK SK].
    destruct K as (L1 & _ & L2 & _). auto.
  - intros PK mu. pose proof (Encaps_shape P g V PK mu) as K. destruct (Encaps P g PK mu) as [CT SS]. destruct K as (L1 & _ & L2 & _). auto.
  - intros SK CT. unfold Decaps. destruct (Encrypt _ _ _ _ _ _) as [[? ?] ?]. apply (F_zlen_Hash P g V). pose proof (v_CB P V). lia.
Qed.
Print Assumptions C34_advertised.
Example C34_instances : instance frodo640 published640 header640 /\ instance frodo976 published976 header976 /\ instance frodo1344 published1344 header1344.
Proof. unfold instance. auto 10. Qed.

(* ------------------------------------------------------------------ *)
(** ** C35 *)
(** The bytes of a uint16_t object at increasing addresses, on a host of byte order en. *)
Definition object_bytes (en : endian) (n : Z) : list Z := bytes_of_words en [n].
(** LE_TO_UINT16(n), the byte-wise variant, src/config.h:106 *)
Definition LE_TO_UINT16_bytewise (en : endian) (n : Z) : Z :=
  Z.lor (znth (object_bytes en n) 0) (Z.shiftl (znth (object_bytes en n) 1) 8).
(** UINT16_TO_LE, the byte-wise variant, src/config.h:107-113: z[0] = x & 0xFF; z[1] = x >> 8 *)
Definition UINT16_TO_LE_bytewise (en : endian) (x : Z) : Z :=
  znth (words_of_bytes en [Z.land x 255; Z.shiftr x 8]) 0.

(** Both variants compute the same function, so it does not matter which one the compiler's
    predefined macros select. *)
Theorem C35_byte_order_macros : forall en n, 0 <= n < 65536 ->
  LE_TO_UINT16_bytewise en n = LE_TO_UINT16 en n /\ UINT16_TO_LE_bytewise en n = UINT16_TO_LE en n.
Proof.
  intros en n Hn.
  assert (L255 : Z.land n 255 = n mod 256) by (change 255 with (Z.ones 8); apply Z.land_ones; lia).
  assert (S8 : Z.shiftr n 8 = n / 256) by (rewrite Z.shiftr_div_pow2 by lia; reflexivity).
  assert (Hq : 0 <= n / 256 < 256) by (split; [apply Z.div_pos; lia|apply Z.div_lt_upper_bound; lia]).
  pose proof (Z.mod_pos_bound n 256 ltac:(lia)) as Hm. pose proof (Z.div_mod n 256 ltac:(lia)) as Hdm.
  assert (LOR : forall a b, 0 <= a < 256 -> Z.lor a (Z.shiftl b 8) = a + 256 * b).
  { intros a b Ha.
    assert (D : Z.land a (Z.shiftl b 8) = 0).
    { apply Z.bits_inj'. intros k Hk. rewrite Z.land_spec, Z.bits_0, Z.shiftl_spec by lia.
      destruct (Z.ltb_spec k 8); [rewrite (Z.testbit_neg_r b) by lia; apply andb_false_r|].
      rewrite <- (Z.mod_small a (2 ^ 8)) by lia. rewrite Z.mod_pow2_bits_high by lia. reflexivity. }
    rewrite <- Z.lxor_lor, <- Z.add_nocarry_lxor by exact D. rewrite Z.shiftl_mul_pow2 by lia. change (2 ^ 8) with 256. lia. }
  unfold LE_TO_UINT16_bytewise, UINT16_TO_LE_bytewise, object_bytes. rewrite L255, S8.
  split.
  - change (znth (bytes_of_words en [n]) 0) with (byte_of_u16 en n 0). change (znth (bytes_of_words en [n]) 1) with (byte_of_u16 en n 1).
    destruct en; cbn [byte_of_u16 Z.eqb LE_TO_UINT16]; rewrite LOR by lia; [lia|]. rewrite swap16 by lia. lia.
  - change (znth (words_of_bytes en [n mod 256; n / 256]) 0) with (u16_at en (n mod 256) (n / 256)).
    destruct en; cbn [u16_at UINT16_TO_LE]; [lia|]. rewrite swap16 by lia. lia.
Qed.
Print Assumptions C35_byte_order_macros.
(** ... and reading a stored word with them gives the little-endian value of its two bytes on every host. *)
Theorem C35_reads_little_endian : forall en b0 b1, 0 <= b0 < 256 -> 0 <= b1 < 256 ->
  LE_TO_UINT16_bytewise en (u16_at en b0 b1) = b0 + 256 * b1.
Proof.
  intros en b0 b1 H0 H1. destruct (C35_byte_order_macros en (u16_at en b0 b1)) as (-> & _); [destruct en; cbn [u16_at]; lia|].
  apply LE_TO_UINT16_word; assumption.
Qed.
Print Assumptions C35_reads_little_endian.
Example C35_run : LE_TO_UINT16_bytewise BE 0x1234 = 0x3412 /\ LE_TO_UINT16_bytewise LE 0x1234 = 0x1234.
Proof. split; reflexivity. Qed.
