(** What functions leave behind in their local arrays: shake128 and shake256 and the keccak_absorb
    they call, src/sha3/fips202.c:344-367, 401-465, and frodo_mul_add_sa_plus_e,
    src/frodo_macrify.c:126-272; and the last such remains of crypto_kem_keypair, crypto_kem_enc and
    crypto_kem_dec, src/kem.c:64, 135, 236 and 119, 212.

    None of these arrays is cleared before the function returns.  Simplification: the scalars
    (the lanes in KeccakF1600_StatePermute, vector temporaries) are not kept, and what later
    calls do to the dead stack memory is outside C. *)
From Verif Require Import CSem Params Util Fips202 Macrify Kem.

(** The output of a call and the local arrays t and s when it returns,
    src/sha3/fips202.c:403-404, 442-443; and the array t of the keccak_absorb it called when that
    returned, line 347. *)
Record remains := { rm_out : list Z; rm_t : list Z; rm_s : list Z; rm_block : list Z }.

(** keccak_absorb, src/sha3/fips202.c:344-367, as in Fips202.v, but the local array t is part of
    the result. *)
Definition keccak_absorb_left (s : list Z) (r : Z) (m : list Z) (mlen p : Z) : res (list Z * list Z) :=
  '(s, mlen, moff) <- loop (Z.to_nat (mlen / r + 1)) (fun '(s, mlen, moff) =>
      branch (r <=? mlen)
        (s <- for_ 0 (r / 8) (fun i s =>
                x <- rd s i ;; y <- load64 m (moff + 8 * i) ;; wr s i (xor64 x y)) s ;;
         s <- KeccakF1600_StatePermute s ;;
         ret ((s, mlen - r, moff + r), true))
        (ret ((s, mlen, moff), false))) (s, mlen, 0) ;;
  let t := uninit 200 in
  t <- for_ 0 r (fun i t => wr t i 0) t ;;
  t <- for_ 0 mlen (fun i t => x <- rd m (moff + i) ;; wr t i x) t ;;
  t <- wr t mlen p ;;
  x <- rd t (r - 1) ;;
  t <- wr t (r - 1) (u8 (Z.lor x 128)) ;;
  s <- for_ 0 (r / 8) (fun i s =>
    x <- rd s i ;; y <- load64 t (8 * i) ;; wr s i (xor64 x y)) s ;;
  ret (s, t).

(** shake128 / shake256, src/sha3/fips202.c:401-423, 440-465, as in Fips202.v, but the two
    local arrays are part of the result. *)
Definition shake_left (r : Z) (out : list Z) (outlen : Z) (inp : list Z) (inlen : Z) : res remains :=
  s <- (if r =? 168 then ret (zrep 25 0)
        else for_ 0 25 (fun i s => wr s i 0) (uninit 25)) ;;
  let t := uninit r in
  let nblocks := outlen / r in
  '(s, blk) <- keccak_absorb_left s r inp inlen 31 ;;
  '(out, s) <- keccak_squeezeblocks out nblocks s r ;;
  let off := nblocks * r in
  let outlen := outlen - nblocks * r in
  branch (negb (outlen =? 0))
    ('(t, s) <- keccak_squeezeblocks t 1 s r ;;
     out <- for_ 0 outlen (fun i out => x <- rd t i ;; wr out (off + i) x) out ;;
     ret {| rm_out := out; rm_t := t; rm_s := s; rm_block := blk |})
    (ret {| rm_out := out; rm_t := t; rm_s := s; rm_block := blk |}).

(** The portable block multiplication, src/frodo_macrify.c:233-246, as in Macrify.v, with the
    array sp[8] (line 235) of the last iteration. *)
Definition sa_block_left (N i : Z) (A s e : list Z) : res (list Z * list Z) :=
  for_ 0 NBAR (fun j '(e, _) =>
    sp <- for_ 0 8 (fun p sp => x <- rd s (j * N + i + p) ;; wr sp p x) (uninit 8) ;;
    e <- for_ 0 N (fun q e =>
      sum <- rd e (j * N + q) ;;
      sum <- for_ 0 8 (fun p sum =>
               x <- rd sp p ;; a <- rd A (p * N + q) ;; mac sum x a) sum ;;
      wr e (j * N + q) sum) e ;;
    ret (e, sp)) (e, uninit 8).

(** The AVX2 block multiplication, src/frodo_macrify.c:249-263, as in Macrify.v, with the eight
    vectors sp[8] (line 250) of the last iteration. *)
Definition sa_block_avx_left (ebase N i : Z) (A s e : list Z) : res (list Z * list Z) :=
  for_ 0 NBAR (fun j '(e, _) =>
    sp <- for_ 0 8 (fun p sp => x <- rd s (j * N + i + p) ;; put sp (16 * p) (mm256_set1_epi16 x))
             (uninit 128) ;;
    e <- for_step 0 N 16 (fun q e =>
      acc <- mm256_load ebase e (j * N + q) ;;
      acc <- for_ 0 8 (fun p acc =>
               b <- mm256_load 0 A (p * N + q) ;;
               x <- sub sp (16 * p) 16 ;;
               let b := mm256_mullo_epi16 b x in
               ret (mm256_add_epi16 b acc)) acc ;;
      mm256_store ebase e (j * N + q) acc) e ;;
    ret (e, sp)) (e, uninit 128).

(** frodo_mul_add_sa_plus_e, src/frodo_macrify.c:126-272, as in Macrify.v, with the last sp. *)
Definition opt_sa_plus_e_left (en : endian) (g : genA) (im : aesimpl) (avx : bool) (N ebase : Z)
    (out s e seed_A : list Z) : res (list Z * list Z * list Z) :=
  let A := zrep (N * 8) 0 in
  st <- sa_init en g im avx N seed_A ;;
  '(e, A, st, sp) <- for_step 0 N 8 (fun i '(e, A, st, _) =>
    '(A, st) <- sa_rows en im N i A st ;;
    '(e, sp) <- (if avx then sa_block_avx_left ebase N i A s e else sa_block_left N i A s e) ;;
    ret (e, A, st, sp)) (e, A, st, []) ;;
  out <- memcpy out 0 e 0 (N * NBAR) ;;
  gst_free st ;;;
  ret (out, e, sp).

(** frodo_mul_add_sa_plus_e of the configuration; the routine of the reference build,
    src/frodo_macrify_reference.c:72-127, has no array sp. *)
Definition sa_plus_e_left (C : config) (ebase : Z) (out s e seed_A : list Z)
    : res (list Z * list Z * list Z) :=
  match cImpl C with
  | Reference =>
    out <- ref_sa_plus_e (cEn C) (cGen C) (cAes C) (pN (cP C)) out s e seed_A ;; ret (out, e, [])
  | im => opt_sa_plus_e_left (cEn C) (cGen C) (cAes C) (is_avx im) (pN (cP C)) ebase out s e seed_A
  end.

(** shake(&mem[o], n, inp, inlen), src/kem.c:64, 135, 236. *)
Definition shake_to_left (P : params) (mem : list Z) (o n : Z) (inp : list Z) (inlen : Z)
    : res (list Z * remains) :=
  buf <- sub mem o n ;;
  f <- shake_left (pRate P) buf n inp inlen ;;
  mem <- put mem o (rm_out f) ;;
  ret (mem, f).

(** crypto_kem_keypair, src/kem.c:15-75, as in Kem.v, with what its last call of shake
    (line 64) leaves behind. *)
Definition crypto_kem_keypair_left (C : config) (rb : generator) (mem : list Z) (pk sk : Z)
    : res (list Z * kp_locals * Z * remains) :=
  let P := cP C in
  let en := cEn C in
  let CB := pCB P in
  let pk_b := pk + SEEDA in
  let sk_pk := sk + CB in
  let sk_S := sk + CB + pkBytes P in
  let sk_pkh := sk + CB + pkBytes P + 2 * NN P in
  let B := zrep (NN P) 0 in
  let S := zrep (2 * NN P) 0 in
  let randomness := uninit (2 * CB + SEEDA) in
  let shake_input := uninit (1 + CB) in
  (* 35: the return value is ignored *)
  '(randomness, _) <- rb randomness (CB + CB + SEEDA) ;;
  (* 39 *)
  z <- sub randomness (2 * CB) SEEDA ;;
  mem <- shake_to P mem pk SEEDA z SEEDA ;;
  (* 42-47 *)
  shake_input <- wr shake_input 0 95 ;;
  shake_input <- memcpy shake_input 1 randomness CB CB ;;
  S <- shake_words C S (2 * NN P * 2) shake_input (1 + CB) ;;
  S <- le_to_host en S (2 * NN P) ;;
  (* 48-50 *)
  S <- sample_at P S 0 (NN P) ;;
  S <- sample_at P S (NN P) (NN P) ;;
  s <- sub S 0 (NN P) ;;
  e <- sub S (NN P) (NN P) ;;
  seedA <- sub mem pk SEEDA ;;
  B <- as_plus_e C B s e seedA ;;
  (* 53 *)
  b <- sub mem pk_b (pkBytes P - SEEDA) ;;
  b <- frodo_pack b (pkBytes P - SEEDA) B (NN P) (pD P) ;;
  mem <- put mem pk_b b ;;
  (* 56-61 *)
  mem <- memcpy mem sk randomness 0 CB ;;
  mem <- memcpy_in mem sk_pk pk (pkBytes P) ;;
  S <- host_to_le en S (NN P) ;;
  mem <- memcpy mem sk_S (bytes_of_words en S) 0 (2 * NN P) ;;
  (* 64 *)
  h <- sub mem pk (pkBytes P) ;;
  '(mem, f) <- shake_to_left P mem sk_pkh (bytesH P) h (pkBytes P) ;;
  (* 67-70 *)
  S <- clear_words en S 0 (NN P) ;;
  S <- clear_words en S (NN P) (NN P) ;;
  randomness <- clear_at randomness 0 (2 * CB) ;;
  shake_input <- clear_at shake_input 0 (1 + CB) ;;
  ret (mem, {| kp_B := B; kp_S := S; kp_randomness := randomness; kp_shake_input := shake_input |}, 0, f).

(** crypto_kem_enc, src/kem.c:78-150, as in Kem.v, with what its last call of shake
    (line 135) and its call of frodo_mul_add_sa_plus_e (line 119) leave behind. *)
Definition crypto_kem_enc_left (C : config) (rb : generator) (mem : list Z) (ct ss pk : Z)
    : res (list Z * enc_locals * Z * remains * list Z) :=
  let P := cP C in
  let en := cEn C in
  let CB := pCB P in
  let pk_seedA := pk in
  let pk_b := pk + SEEDA in
  let ct_c1 := ct in
  let ct_c2 := ct + bytesB P in
  let B := zrep (NN P) 0 in
  let V := zrep (NBAR * NBAR) 0 in
  let Cm := zrep (NBAR * NBAR) 0 in
  let Bp := zrep (NN P) 0 in
  let Sp := zrep (spLen P) 0 in
  let G2in := uninit (bytesH P + bytesMu P) in
  let G2out := uninit (2 * CB) in
  let Fin := uninit (ctBytes P + CB) in
  let shake_input := uninit (1 + CB) in
  (* 103-108 *)
  x <- sub mem pk (pkBytes P) ;;
  G2in <- shake_to P G2in 0 (bytesH P) x (pkBytes P) ;;
  mu <- sub G2in (bytesH P) (bytesMu P) ;;
  '(mu, _) <- rb mu (bytesMu P) ;;
  G2in <- put G2in (bytesH P) mu ;;
  G2out <- shake_to P G2out 0 (CB + CB) G2in (bytesH P + bytesMu P) ;;
  (* 111-116 *)
  shake_input <- wr shake_input 0 150 ;;
  shake_input <- memcpy shake_input 1 G2out 0 CB ;;
  Sp <- shake_words C Sp (spLen P * 2) shake_input (1 + CB) ;;
  Sp <- le_to_host en Sp (spLen P) ;;
  (* 117-120 *)
  Sp <- sample_at P Sp 0 (NN P) ;;
  Sp <- sample_at P Sp (NN P) (NN P) ;;
  s <- sub Sp 0 (NN P) ;;
  e <- sub Sp (NN P) (NN P) ;;
  seedA <- sub mem pk_seedA SEEDA ;;
  '(Bp, e, sp) <- sa_plus_e_left C (2 * NN P) Bp s e seedA ;;
  Sp <- put Sp (NN P) e ;;
  b <- sub mem ct_c1 (bytesB P) ;;
  b <- frodo_pack b (bytesB P) Bp (NN P) (pD P) ;;
  mem <- put mem ct_c1 b ;;
  (* 123-125 *)
  Sp <- sample_at P Sp (2 * NN P) (NBAR * NBAR) ;;
  b <- sub mem pk_b (pkBytes P - SEEDA) ;;
  B <- frodo_unpack B (NN P) b (pkBytes P - SEEDA) (pD P) ;;
  s <- sub Sp 0 (NN P) ;;
  e <- sub Sp (2 * NN P) (NBAR * NBAR) ;;
  V <- frodo_mul_add_sb_plus_e P V B s e ;;
  (* 128-130 *)
  mu <- sub G2in (bytesH P) (bytesMu P) ;;
  Cm <- frodo_key_encode P Cm mu ;;
  Cm <- frodo_add P V Cm ;;
  b <- sub mem ct_c2 (bytesC P) ;;
  b <- frodo_pack b (bytesC P) Cm (NBAR * NBAR) (pD P) ;;
  mem <- put mem ct_c2 b ;;
  (* 133-135 *)
  Fin <- memcpy Fin 0 mem ct (ctBytes P) ;;
  Fin <- memcpy Fin (ctBytes P) G2out CB CB ;;
  '(mem, f) <- shake_to_left P mem ss CB Fin (ctBytes P + CB) ;;
  (* 138-145 *)
  V <- clear_words en V 0 (NBAR * NBAR) ;;
  Sp <- clear_words en Sp 0 (NN P) ;;
  Sp <- clear_words en Sp (NN P) (NN P) ;;
  Sp <- clear_words en Sp (2 * NN P) (NBAR * NBAR) ;;
  G2in <- clear_at G2in (bytesH P) (bytesMu P) ;;
  G2out <- clear_at G2out 0 (2 * CB) ;;
  Fin <- clear_at Fin (ctBytes P) CB ;;
  shake_input <- clear_at shake_input 0 (1 + CB) ;;
  ret (mem, {| en_B := B; en_V := V; en_C := Cm; en_Bp := Bp; en_Sp := Sp; en_G2in := G2in;
               en_G2out := G2out; en_Fin := Fin; en_shake_input := shake_input |}, 0, f, sp).

(** crypto_kem_dec, src/kem.c:153-252, as in Kem.v, with what its last call of shake
    (line 236) and its call of frodo_mul_add_sa_plus_e (line 212) leave behind. *)
Definition crypto_kem_dec_left (C : config) (mem : list Z) (ss ct sk : Z)
    : res (list Z * dec_locals * Z * remains * list Z) :=
  let P := cP C in
  let en := cEn C in
  let CB := pCB P in
  let ct_c1 := ct in
  let ct_c2 := ct + bytesB P in
  let sk_s := sk in
  let sk_pk := sk + CB in
  let sk_S := sk + CB + pkBytes P in
  let sk_pkh := sk + CB + pkBytes P + 2 * NN P in
  let pk_seedA := sk_pk in
  let pk_b := sk_pk + SEEDA in
  let B := zrep (NN P) 0 in
  let Bp := zrep (NN P) 0 in
  let W := zrep (NBAR * NBAR) 0 in
  let Cm := zrep (NBAR * NBAR) 0 in
  let CC := zrep (NBAR * NBAR) 0 in
  let BBp := zrep (NN P) 0 in
  let Sp := zrep (spLen P) 0 in
  let S := uninit (NN P) in
  let G2in := uninit (bytesH P + bytesMu P) in
  let G2out := uninit (2 * CB) in
  let Fin := uninit (ctBytes P + CB) in
  let shake_input := uninit (1 + CB) in
  (* 187-189 *)
  x <- (if sk_S mod 2 =? 0 then sub mem sk_S (2 * NN P) else Err UB_align) ;;
  let skS := words_of_bytes en x in
  S <- for_ 0 (NN P) (fun i S => w <- rd skS i ;; wr S i (u16 (LE_TO_UINT16 en w))) S ;;
  (* 192-196 *)
  x <- sub mem ct_c1 (bytesB P) ;;
  Bp <- frodo_unpack Bp (NN P) x (bytesB P) (pD P) ;;
  x <- sub mem ct_c2 (bytesC P) ;;
  Cm <- frodo_unpack Cm (NBAR * NBAR) x (bytesC P) (pD P) ;;
  W <- frodo_mul_bs P W Bp S ;;
  W <- frodo_sub P Cm W ;;
  mu <- sub G2in (bytesH P) (bytesMu P) ;;
  mu <- frodo_key_decode P mu W ;;
  G2in <- put G2in (bytesH P) mu ;;
  (* 199-200 *)
  G2in <- memcpy G2in 0 mem sk_pkh (bytesH P) ;;
  G2out <- shake_to P G2out 0 (CB + CB) G2in (bytesH P + bytesMu P) ;;
  (* 203-209 *)
  shake_input <- wr shake_input 0 150 ;;
  shake_input <- memcpy shake_input 1 G2out 0 CB ;;
  Sp <- shake_words C Sp (spLen P * 2) shake_input (1 + CB) ;;
  Sp <- le_to_host en Sp (spLen P) ;;
  (* 209-211 *)
  Sp <- sample_at P Sp 0 (NN P) ;;
  Sp <- sample_at P Sp (NN P) (NN P) ;;
  s <- sub Sp 0 (NN P) ;;
  e <- sub Sp (NN P) (NN P) ;;
  seedA <- sub mem pk_seedA SEEDA ;;
  '(BBp, e, sp) <- sa_plus_e_left C (2 * NN P) BBp s e seedA ;;
  Sp <- put Sp (NN P) e ;;
  (* 214-216 *)
  Sp <- sample_at P Sp (2 * NN P) (NBAR * NBAR) ;;
  x <- sub mem pk_b (pkBytes P - SEEDA) ;;
  B <- frodo_unpack B (NN P) x (pkBytes P - SEEDA) (pD P) ;;
  s <- sub Sp 0 (NN P) ;;
  e <- sub Sp (2 * NN P) (NBAR * NBAR) ;;
  W <- frodo_mul_add_sb_plus_e P W B s e ;;
  (* 219-220 *)
  mu <- sub G2in (bytesH P) (bytesMu P) ;;
  CC <- frodo_key_encode P CC mu ;;
  CC <- frodo_add P W CC ;;
  (* 223-226 *)
  Fin <- memcpy Fin 0 mem ct (ctBytes P) ;;
  BBp <- mask_q P BBp (NN P) ;;
  (* 232-235 *)
  v1 <- ct_verify Bp BBp (NN P) ;;
  v2 <- ct_verify Cm CC (NBAR * NBAR) ;;
  let selector := s8 (Z.lor v1 v2) in
  r <- sub Fin (ctBytes P) CB ;;
  k <- sub G2out CB CB ;;
  s0 <- sub mem sk_s CB ;;
  r <- ct_select r k s0 CB selector ;;
  Fin <- put Fin (ctBytes P) r ;;
  '(mem, f) <- shake_to_left P mem ss CB Fin (ctBytes P + CB) ;;
  (* 238-246 *)
  W <- clear_words en W 0 (NBAR * NBAR) ;;
  Sp <- clear_words en Sp 0 (NN P) ;;
  S <- clear_words en S 0 (NN P) ;;
  Sp <- clear_words en Sp (NN P) (NN P) ;;
  Sp <- clear_words en Sp (2 * NN P) (NBAR * NBAR) ;;
  G2in <- clear_at G2in (bytesH P) (bytesMu P) ;;
  G2out <- clear_at G2out 0 (2 * CB) ;;
  Fin <- clear_at Fin (ctBytes P) CB ;;
  shake_input <- clear_at shake_input 0 (1 + CB) ;;
  ret (mem, {| de_B := B; de_Bp := Bp; de_W := W; de_C := Cm; de_CC := CC; de_BBp := BBp;
               de_Sp := Sp; de_S := S; de_G2in := G2in; de_G2out := G2out; de_Fin := Fin;
               de_shake_input := shake_input |}, 0, f, sp).
