(** Model of src/aes/aes_c.c, src/aes/aes_ni.c and src/aes/aes.c. *)
From Verif Require Import CSem Params AesSpec.

(* ================================================================== *)
(** * aes_c.c *)

(** sbox, src/aes/aes_c.c:27-44 *)
Definition sbox : list Z := [
  0x63; 0x7c; 0x77; 0x7b; 0xf2; 0x6b; 0x6f; 0xc5; 0x30; 0x01; 0x67; 0x2b; 0xfe; 0xd7; 0xab; 0x76;
  0xca; 0x82; 0xc9; 0x7d; 0xfa; 0x59; 0x47; 0xf0; 0xad; 0xd4; 0xa2; 0xaf; 0x9c; 0xa4; 0x72; 0xc0;
  0xb7; 0xfd; 0x93; 0x26; 0x36; 0x3f; 0xf7; 0xcc; 0x34; 0xa5; 0xe5; 0xf1; 0x71; 0xd8; 0x31; 0x15;
  0x04; 0xc7; 0x23; 0xc3; 0x18; 0x96; 0x05; 0x9a; 0x07; 0x12; 0x80; 0xe2; 0xeb; 0x27; 0xb2; 0x75;
  0x09; 0x83; 0x2c; 0x1a; 0x1b; 0x6e; 0x5a; 0xa0; 0x52; 0x3b; 0xd6; 0xb3; 0x29; 0xe3; 0x2f; 0x84;
  0x53; 0xd1; 0x00; 0xed; 0x20; 0xfc; 0xb1; 0x5b; 0x6a; 0xcb; 0xbe; 0x39; 0x4a; 0x4c; 0x58; 0xcf;
  0xd0; 0xef; 0xaa; 0xfb; 0x43; 0x4d; 0x33; 0x85; 0x45; 0xf9; 0x02; 0x7f; 0x50; 0x3c; 0x9f; 0xa8;
  0x51; 0xa3; 0x40; 0x8f; 0x92; 0x9d; 0x38; 0xf5; 0xbc; 0xb6; 0xda; 0x21; 0x10; 0xff; 0xf3; 0xd2;
  0xcd; 0x0c; 0x13; 0xec; 0x5f; 0x97; 0x44; 0x17; 0xc4; 0xa7; 0x7e; 0x3d; 0x64; 0x5d; 0x19; 0x73;
  0x60; 0x81; 0x4f; 0xdc; 0x22; 0x2a; 0x90; 0x88; 0x46; 0xee; 0xb8; 0x14; 0xde; 0x5e; 0x0b; 0xdb;
  0xe0; 0x32; 0x3a; 0x0a; 0x49; 0x06; 0x24; 0x5c; 0xc2; 0xd3; 0xac; 0x62; 0x91; 0x95; 0xe4; 0x79;
  0xe7; 0xc8; 0x37; 0x6d; 0x8d; 0xd5; 0x4e; 0xa9; 0x6c; 0x56; 0xf4; 0xea; 0x65; 0x7a; 0xae; 0x08;
  0xba; 0x78; 0x25; 0x2e; 0x1c; 0xa6; 0xb4; 0xc6; 0xe8; 0xdd; 0x74; 0x1f; 0x4b; 0xbd; 0x8b; 0x8a;
  0x70; 0x3e; 0xb5; 0x66; 0x48; 0x03; 0xf6; 0x0e; 0x61; 0x35; 0x57; 0xb9; 0x86; 0xc1; 0x1d; 0x9e;
  0xe1; 0xf8; 0x98; 0x11; 0x69; 0xd9; 0x8e; 0x94; 0x9b; 0x1e; 0x87; 0xe9; 0xce; 0x55; 0x28; 0xdf;
  0x8c; 0xa1; 0x89; 0x0d; 0xbf; 0xe6; 0x42; 0x68; 0x41; 0x99; 0x2d; 0x0f; 0xb0; 0x54; 0xbb; 0x16 ].
(** Rcon, src/aes/aes_c.c:48 *)
Definition Rcon : list Z := [0x8d; 0x01; 0x02; 0x04; 0x08; 0x10; 0x20; 0x40; 0x80; 0x1b; 0x36].

(** getSBoxValue, src/aes/aes_c.c:51-54; the table index is observable *)
Definition getSBoxValue (num : Z) : res Z := rd sbox num.

(** aes128_load_schedule_c (Nk = 4, Nr = 10), src/aes/aes_c.c:58-127, and
    aes256_load_schedule_c (Nk = 8, Nr = 14), src/aes/aes_c.c:131-200: the two
    bodies are textually identical apart from Nk and Nr.  tempa[4] is four values. *)
Definition load_schedule_c (Nk Nr : Z) (Key RoundKey : list Z) : res (list Z) :=
  RoundKey <- for_ 0 Nk (fun i RoundKey =>
      a <- rd Key (i * 4 + 0) ;; RoundKey <- wr RoundKey (i * 4 + 0) a ;;
      a <- rd Key (i * 4 + 1) ;; RoundKey <- wr RoundKey (i * 4 + 1) a ;;
      a <- rd Key (i * 4 + 2) ;; RoundKey <- wr RoundKey (i * 4 + 2) a ;;
      a <- rd Key (i * 4 + 3) ;; wr RoundKey (i * 4 + 3) a) RoundKey ;;
  for_ Nk (4 * (Nr + 1)) (fun i RoundKey =>
      t0 <- rd RoundKey ((i - 1) * 4 + 0) ;;
      t1 <- rd RoundKey ((i - 1) * 4 + 1) ;;
      t2 <- rd RoundKey ((i - 1) * 4 + 2) ;;
      t3 <- rd RoundKey ((i - 1) * 4 + 3) ;;
      '(t0, t1, t2, t3) <- branch (i mod Nk =? 0)
        (let k := t0 in let t0 := t1 in let t1 := t2 in let t2 := t3 in let t3 := k in
         t0 <- getSBoxValue t0 ;;
         t1 <- getSBoxValue t1 ;;
         t2 <- getSBoxValue t2 ;;
         t3 <- getSBoxValue t3 ;;
         rc <- rd Rcon (i / Nk) ;;
         ret (Z.lxor t0 rc, t1, t2, t3))
        (ret (t0, t1, t2, t3)) ;;
      '(t0, t1, t2, t3) <- branch (i mod Nk =? 4)
        (t0 <- getSBoxValue t0 ;;
         t1 <- getSBoxValue t1 ;;
         t2 <- getSBoxValue t2 ;;
         t3 <- getSBoxValue t3 ;;
         ret (t0, t1, t2, t3))
        (ret (t0, t1, t2, t3)) ;;
      x <- rd RoundKey ((i - Nk) * 4 + 0) ;; RoundKey <- wr RoundKey (i * 4 + 0) (Z.lxor x t0) ;;
      x <- rd RoundKey ((i - Nk) * 4 + 1) ;; RoundKey <- wr RoundKey (i * 4 + 1) (Z.lxor x t1) ;;
      x <- rd RoundKey ((i - Nk) * 4 + 2) ;; RoundKey <- wr RoundKey (i * 4 + 2) (Z.lxor x t2) ;;
      x <- rd RoundKey ((i - Nk) * 4 + 3) ;; wr RoundKey (i * 4 + 3) (Z.lxor x t3)) RoundKey.
(** aes128_load_schedule_c, src/aes/aes_c.c:58-127 *)
Definition aes128_load_schedule_c (key schedule : list Z) := load_schedule_c 4 10 key schedule.
(** aes256_load_schedule_c, src/aes/aes_c.c:131-200 *)
Definition aes256_load_schedule_c (key schedule : list Z) := load_schedule_c 8 14 key schedule.

(** ( *state )[i][j] is byte 4*i+j of the 16-byte buffer [state] points to. *)
Definition stix (i j : Z) : Z := 4 * i + j.

(** AddRoundKey, src/aes/aes_c.c:205-215 *)
Definition AddRoundKey (state RoundKey : list Z) (round : Z) : res (list Z) :=
  for_ 0 4 (fun i => for_ 0 4 (fun j state =>
    x <- rd state (stix i j) ;;
    k <- rd RoundKey (round * 4 * 4 + i * 4 + j) ;;
    wr state (stix i j) (Z.lxor x k))) state.

(** SubBytes, src/aes/aes_c.c:220-230 *)
Definition SubBytes (state : list Z) : res (list Z) :=
  for_ 0 4 (fun i => for_ 0 4 (fun j state =>
    x <- rd state (stix j i) ;;
    v <- getSBoxValue x ;;
    wr state (stix j i) v)) state.

(** ShiftRows, src/aes/aes_c.c:236-262 *)
Definition ShiftRows (state : list Z) : res (list Z) :=
  temp <- rd state (stix 0 1) ;;
  x <- rd state (stix 1 1) ;; state <- wr state (stix 0 1) x ;;
  x <- rd state (stix 2 1) ;; state <- wr state (stix 1 1) x ;;
  x <- rd state (stix 3 1) ;; state <- wr state (stix 2 1) x ;;
  state <- wr state (stix 3 1) temp ;;
  temp <- rd state (stix 0 2) ;;
  x <- rd state (stix 2 2) ;; state <- wr state (stix 0 2) x ;;
  state <- wr state (stix 2 2) temp ;;
  temp <- rd state (stix 1 2) ;;
  x <- rd state (stix 3 2) ;; state <- wr state (stix 1 2) x ;;
  state <- wr state (stix 3 2) temp ;;
  temp <- rd state (stix 0 3) ;;
  x <- rd state (stix 3 3) ;; state <- wr state (stix 0 3) x ;;
  x <- rd state (stix 2 3) ;; state <- wr state (stix 3 3) x ;;
  x <- rd state (stix 1 3) ;; state <- wr state (stix 2 3) x ;;
  wr state (stix 1 3) temp.

(** xtime, src/aes/aes_c.c:265-268 *)
Definition xtime (x : Z) : Z :=
  u8 (Z.lxor (Z.shiftl x 1) (Z.land (Z.shiftr x 7) 1 * 27)).

(** MixColumns, src/aes/aes_c.c:272-285 *)
Definition MixColumns (state : list Z) : res (list Z) :=
  for_ 0 4 (fun i state =>
    t <- rd state (stix i 0) ;;
    s0 <- rd state (stix i 0) ;; s1 <- rd state (stix i 1) ;;
    s2 <- rd state (stix i 2) ;; s3 <- rd state (stix i 3) ;;
    let Tmp := Z.lxor (Z.lxor (Z.lxor s0 s1) s2) s3 in
    x <- rd state (stix i 0) ;; y <- rd state (stix i 1) ;;
    let Tm := xtime (Z.lxor x y) in
    x <- rd state (stix i 0) ;; state <- wr state (stix i 0) (Z.lxor x (Z.lxor Tm Tmp)) ;;
    x <- rd state (stix i 1) ;; y <- rd state (stix i 2) ;;
    let Tm := xtime (Z.lxor x y) in
    x <- rd state (stix i 1) ;; state <- wr state (stix i 1) (Z.lxor x (Z.lxor Tm Tmp)) ;;
    x <- rd state (stix i 2) ;; y <- rd state (stix i 3) ;;
    let Tm := xtime (Z.lxor x y) in
    x <- rd state (stix i 2) ;; state <- wr state (stix i 2) (Z.lxor x (Z.lxor Tm Tmp)) ;;
    x <- rd state (stix i 3) ;;
    let Tm := xtime (Z.lxor x t) in
    x <- rd state (stix i 3) ;; wr state (stix i 3) (Z.lxor x (Z.lxor Tm Tmp))) state.

(** Cipher, src/aes/aes_c.c:289-312, on the buffer [state] points to *)
Definition Cipher (state RoundKey : list Z) (Nr : Z) : res (list Z) :=
  state <- AddRoundKey state RoundKey 0 ;;
  state <- for_ 1 Nr (fun round state =>
      state <- SubBytes state ;;
      state <- ShiftRows state ;;
      state <- MixColumns state ;;
      AddRoundKey state RoundKey round) state ;;
  state <- SubBytes state ;;
  state <- ShiftRows state ;;
  AddRoundKey state RoundKey Nr.

(** aes128_enc_c, src/aes/aes_c.c:315-322 (Nr = 10) and aes256_enc_c, 325-333
    (Nr = 14).  The global [state] is set to [output] and used by Cipher; here a
    single thread is modelled (see Conc.v for two threads). *)
Definition aes_enc_c (Nr : Z) (input schedule output : list Z) : res (list Z) :=
  output <- memcpy output 0 input 0 16 ;;
  Cipher output schedule Nr.

(* ================================================================== *)
(** * aes_ni.c.  An __m128i is its 16 bytes in memory order. *)

(** The S-box of the hardware is the one of FIPS 197, table above. *)
Definition hw_sub (x : Z) : Z := znth sbox x.
(** Intel SDM: _mm_xor_si128 (PXOR) *)
Definition mm_xor (a b : list Z) : list Z := ztab 16 (fun i => Z.lxor (znth a i) (znth b i)).
(** _mm_slli_si128(a, n) (PSLLDQ): shift left by n bytes *)
Definition mm_slli_si128 (a : list Z) (n : Z) : list Z :=
  ztab 16 (fun i => if i <? n then 0 else znth a (i - n)).
(** _mm_shuffle_epi32(a, _MM_SHUFFLE(k,k,k,k)) (PSHUFD): dword k everywhere *)
Definition mm_bcast32 (a : list Z) (k : Z) : list Z := ztab 16 (fun i => znth a (4 * k + i mod 4)).
(** _mm_aeskeygenassist_si128(a, rcon) (AESKEYGENASSIST): dwords SubWord(X1),
    RotWord(SubWord(X1)) xor rcon, SubWord(X3), RotWord(SubWord(X3)) xor rcon *)
Definition mm_aeskeygenassist (a : list Z) (rcon : Z) : list Z :=
  ztab 16 (fun i =>
    let d := i / 4 in let b := i mod 4 in
    let src := if d <? 2 then 1 else 3 in
    if d mod 2 =? 0 then hw_sub (znth a (4 * src + b))
    else Z.lxor (hw_sub (znth a (4 * src + (b + 1) mod 4))) (if b =? 0 then rcon else 0)).
(** ShiftRows / SubBytes / MixColumns of the AESENC instruction *)
Definition hw_shiftrows (s : list Z) : list Z := ztab 16 (fun k => znth s ((k + 4 * (k mod 4)) mod 16)).
(** SubBytes of the AESENC and AESENCLAST instructions (Intel SDM) *)
Definition hw_subbytes (s : list Z) : list Z := ztab 16 (fun k => hw_sub (znth s k)).
(** Multiplication by x in GF(2^8), used by MixColumns of the instruction *)
Definition hw_mulx (b : Z) : Z := Z.lxor (2 * b mod 256) (if b <? 128 then 0 else 27).
(** MixColumns of the AESENC instruction (Intel SDM) *)
Definition hw_mixcolumns (s : list Z) : list Z := ztab 16 (fun k =>
  let c := 4 * (k / 4) in
  let a i := znth s (c + (k mod 4 + i) mod 4) in
  Z.lxor (Z.lxor (Z.lxor (Z.lxor (hw_mulx (a 0)) (hw_mulx (a 1))) (a 1)) (a 2)) (a 3)).
(** _mm_aesenc_si128 / _mm_aesenclast_si128 *)
Definition mm_aesenc (s k : list Z) : list Z := mm_xor (hw_mixcolumns (hw_subbytes (hw_shiftrows s))) k.
(** _mm_aesenclast_si128, src/aes/aes_ni.c:76, 90 *)
Definition mm_aesenclast (s k : list Z) : list Z := mm_xor (hw_subbytes (hw_shiftrows s)) k.

(** Every byte initialised (the instruction reads the whole register). *)
Definition all_init (l : list Z) : bool := forallb (fun v => 0 <=? v) l.
(** Unaligned 16-byte load and store at byte offset o of a buffer. *)
Definition loadu128 (l : list Z) (o : Z) : res (list Z) :=
  x <- sub l o 16 ;; if all_init x then ret x else fail UB_uninit.
(** _mm_storeu_si128, src/aes/aes_ni.c:78, 92 *)
Definition storeu128 (l : list Z) (o : Z) (x : list Z) : res (list Z) := put l o x.
(** schedule[i] with schedule = (__m128i * )_schedule: an aligned access; [al] says
    whether the buffer is 16-byte aligned. *)
Definition load128 (al : bool) (l : list Z) (i : Z) : res (list Z) :=
  if al then loadu128 l (16 * i) else fail UB_align.
(** A store to schedule[i], aligned as in [load128]; e.g. src/aes/aes_ni.c:28 *)
Definition store128 (al : bool) (l : list Z) (i : Z) (x : list Z) : res (list Z) :=
  if al then storeu128 l (16 * i) x else fail UB_align.

(** key_expand, src/aes/aes_ni.c:10-16; key_expand1, 19-25 (k = 3 and k = 2) *)
Definition key_expand (k : Z) (key keygened : list Z) : list Z :=
  let key := mm_xor key (mm_slli_si128 key 4) in
  let key := mm_xor key (mm_slli_si128 key 4) in
  let key := mm_xor key (mm_slli_si128 key 4) in
  let keygened := mm_bcast32 keygened k in
  mm_xor key keygened.

(** schedule[i] = key_exp(schedule[i-1], rcon), src/aes/aes_ni.c:28 *)
Definition ni_step (al : bool) (sch : list Z) (i rcon : Z) : res (list Z) :=
  a <- load128 al sch (i - 1) ;;
  b <- load128 al sch (i - 1) ;;
  store128 al sch i (key_expand 3 a (mm_aeskeygenassist b rcon)).
(** aes128_load_schedule_ni, src/aes/aes_ni.c:32-45 *)
Definition aes128_load_schedule_ni (al : bool) (key sch : list Z) : res (list Z) :=
  k <- loadu128 key 0 ;; sch <- store128 al sch 0 k ;;
  sch <- ni_step al sch 1 0x01 ;;
  sch <- ni_step al sch 2 0x02 ;;
  sch <- ni_step al sch 3 0x04 ;;
  sch <- ni_step al sch 4 0x08 ;;
  sch <- ni_step al sch 5 0x10 ;;
  sch <- ni_step al sch 6 0x20 ;;
  sch <- ni_step al sch 7 0x40 ;;
  sch <- ni_step al sch 8 0x80 ;;
  sch <- ni_step al sch 9 0x1b ;;
  ni_step al sch 10 0x36.
(** schedule[i] = key_exp256(schedule[i-2], schedule[i-1], rcon) (k = 3) or
    key_exp256b (k = 2), src/aes/aes_ni.c:29-30 *)
Definition ni_step256 (al : bool) (k : Z) (sch : list Z) (i rcon : Z) : res (list Z) :=
  a <- load128 al sch (i - 2) ;;
  b <- load128 al sch (i - 1) ;;
  store128 al sch i (key_expand k a (mm_aeskeygenassist b rcon)).
(** aes256_load_schedule_ni, src/aes/aes_ni.c:48-65 *)
Definition aes256_load_schedule_ni (al : bool) (key sch : list Z) : res (list Z) :=
  k <- loadu128 key 0 ;; sch <- store128 al sch 0 k ;;
  k <- loadu128 key 16 ;; sch <- store128 al sch 1 k ;;
  sch <- ni_step256 al 3 sch 2 0x01 ;;
  sch <- ni_step256 al 2 sch 3 0x00 ;;
  sch <- ni_step256 al 3 sch 4 0x02 ;;
  sch <- ni_step256 al 2 sch 5 0x00 ;;
  sch <- ni_step256 al 3 sch 6 0x04 ;;
  sch <- ni_step256 al 2 sch 7 0x00 ;;
  sch <- ni_step256 al 3 sch 8 0x08 ;;
  sch <- ni_step256 al 2 sch 9 0x00 ;;
  sch <- ni_step256 al 3 sch 10 0x10 ;;
  sch <- ni_step256 al 2 sch 11 0x00 ;;
  sch <- ni_step256 al 3 sch 12 0x20 ;;
  sch <- ni_step256 al 2 sch 13 0x00 ;;
  ni_step256 al 3 sch 14 0x40.

(** aes128_enc_ni, src/aes/aes_ni.c:68-79 (Nr = 10); aes256_enc_ni, 82-93 (Nr = 14) *)
Definition aes_enc_ni (al : bool) (Nr : Z) (plaintext sch ciphertext : list Z) : res (list Z) :=
  m <- loadu128 plaintext 0 ;;
  k <- load128 al sch 0 ;;
  let m := mm_xor m k in
  m <- for_ 1 Nr (fun i m => k <- load128 al sch i ;; ret (mm_aesenc m k)) m ;;
  k <- load128 al sch Nr ;;
  let m := mm_aesenclast m k in
  storeu128 ciphertext 0 m.

(* ================================================================== *)
(** * OpenSSL

    With USE_OPENSSL the callers use the EVP interface instead of the functions above.  The
    library is not part of the repository; it is modelled by its documentation: the context
    holds the expanded key and EVP_EncryptUpdate encrypts every block as FIPS 197 says.  All
    lengths are multiples of 16, so that nothing is left in the context.  When a call of the
    library fails the code calls handleErrors (src/aes/aes.c:79-83), which aborts the process:
    no value is returned then; that is in OpenSsl.v. *)

(** EVP_CIPHER_CTX_new and EVP_EncryptInit_ex with EVP_aes_128_ecb (Nk = 4, Nr = 10):
    src/frodo_macrify.c:38-41, 140-143, src/frodo_macrify_reference.c:35-38, 93-96;
    with EVP_aes_256_ecb (Nk = 8, Nr = 14): tests/rng.h:31-34 *)
Definition evp_init (Nk Nr : Z) (key ctx : list Z) : res (list Z) :=
  k <- sub key 0 (4 * Nk) ;; if negb (all_init k) then fail UB_uninit else
  put ctx 0 (ztab (16 * (Nr + 1)) (fun i => znth (word (KeyExpansion Nk Nr k) (i / 4)) (i mod 4))).
(** One block of EVP_EncryptUpdate: src/frodo_macrify.c:62, 172,
    src/frodo_macrify_reference.c:39, 97, tests/rng.h:36 *)
Definition evp_block (Nr : Z) (plaintext ctx ciphertext : list Z) : res (list Z) :=
  p <- sub plaintext 0 16 ;; if negb (all_init p) then fail UB_uninit else
  k <- sub ctx 0 (16 * (Nr + 1)) ;; if negb (all_init k) then fail UB_uninit else
  put ciphertext 0 (Cipher_spec Nr (ztab (4 * (Nr + 1)) (fun i => zslice k (4 * i) 4)) p).

(* ================================================================== *)
(** * aes.c.  The schedule of the callers is a local uint8_t array of
    at least 16 bytes; the x86-64 ABI aligns it to 16 bytes, hence [true]. *)

(** AES128_load_schedule, src/aes/aes.c:16-22 *)
Definition AES128_load_schedule (im : aesimpl) (key schedule : list Z) : res (list Z) :=
  match im with
  | AesNI => aes128_load_schedule_ni true key schedule
  | AesEVP => evp_init 4 10 key schedule
  | AesC => aes128_load_schedule_c key schedule
  end.
(** AES256_load_schedule, src/aes/aes.c:47-53 *)
Definition AES256_load_schedule (im : aesimpl) (key schedule : list Z) : res (list Z) :=
  match im with
  | AesNI => aes256_load_schedule_ni true key schedule
  | AesEVP => evp_init 8 14 key schedule
  | AesC => aes256_load_schedule_c key schedule
  end.
(** aes128_enc, src/aes/aes.c:25-31 (Nr = 10); aes256_enc, 56-62 (Nr = 14) *)
Definition aes_enc (im : aesimpl) (Nr : Z) (plaintext schedule ciphertext : list Z) : res (list Z) :=
  match im with
  | AesNI => aes_enc_ni true Nr plaintext schedule ciphertext
  | AesEVP => evp_block Nr plaintext schedule ciphertext
  | AesC => aes_enc_c Nr plaintext schedule ciphertext
  end.
(** AES128_ECB_enc_sch, src/aes/aes.c:34-39 (Nr = 10) and AES256_ECB_enc_sch, 65-70
    (Nr = 14), for distinct plaintext and ciphertext buffers ... *)
Definition AES_ECB_enc_sch (im : aesimpl) (Nr : Z) (plaintext : list Z) (len : Z)
    (schedule ciphertext : list Z) : res (list Z) :=
  assert_ (len mod 16 =? 0) ;;;
  for_ 0 (len / 16) (fun block ciphertext =>
    p <- sub plaintext (16 * block) 16 ;;
    o <- sub ciphertext (16 * block) 16 ;;
    c <- aes_enc im Nr p schedule o ;;
    put ciphertext (16 * block) c) ciphertext.
(** ... and when both are the same buffer (memcpy with equal pointers then copies
    the block onto itself). *)
Definition AES_ECB_enc_sch_inplace (im : aesimpl) (Nr : Z) (buf : list Z) (len : Z)
    (schedule : list Z) : res (list Z) :=
  assert_ (len mod 16 =? 0) ;;;
  for_ 0 (len / 16) (fun block buf =>
    p <- sub buf (16 * block) 16 ;;
    c <- aes_enc im Nr p schedule p ;;
    put buf (16 * block) c) buf.
(** AES128_free_schedule, src/aes/aes.c:42-44 (11 round keys); AES256_free_schedule, 73-75 (15);
    with OpenSSL, EVP_CIPHER_CTX_free, 86-93 *)
Definition AES_free_schedule (schedule : list Z) (n : Z) : res (list Z) := memset schedule 0 0 (16 * n).

Example aes_c_run :
  match (sch <- AES128_load_schedule AesC (zseq 16) (uninit 176) ;;
   AES_ECB_enc_sch AesC 10 (ztab 16 (fun i => 17 * i)) 16 sch (uninit 16)) with
  | Ok v _ => v = [0x69; 0xc4; 0xe0; 0xd8; 0x6a; 0x7b; 0x04; 0x30; 0xd8; 0xcd; 0xb7; 0x80; 0x70; 0xb4; 0xc5; 0x5a]
  | Err _ => False end.
Proof. vm_compute. reflexivity. Qed.
Example aes_ni_run :
  match (sch <- AES256_load_schedule AesNI (zseq 32) (uninit 240) ;;
   AES_ECB_enc_sch AesNI 14 (ztab 16 (fun i => 17 * i)) 16 sch (uninit 16)) with
  | Ok v _ => v = [0x8e; 0xa2; 0xb7; 0xca; 0x51; 0x67; 0x45; 0xbf; 0xea; 0xfc; 0x49; 0x90; 0x4b; 0x49; 0x60; 0x89]
  | Err _ => False end.
Proof. vm_compute. reflexivity. Qed.
