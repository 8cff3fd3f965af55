(** Model of src/kem.c: the three functions of the API.

    The caller's buffers (pk, sk, ct, ss) live in one memory, a list of bytes, and are
    given by their addresses, so that they may overlap in any way.  The address of byte i
    of the memory is i modulo every alignment that occurs (32).  Automatic arrays are
    separate objects; what they hold when the function returns is returned too
    (the [..._locals] records), because the property that secrets are wiped talks about
    it.  The random generator is an external call: [rb buf n] receives the contents of the
    destination and the length and gives the new contents and the return code. *)
From Verif Require Import CSem Params Util Fips202 Macrify.

(** randombytes(buf, n), src/random/random.h: an external function that is given the buffer and the length and returns the buffer and a code. *)
Definition generator : Type := list Z -> Z -> res (list Z * Z).

(** memcpy(mem + d, mem + s, n) within the caller's memory: overlap is undefined. *)
Definition memcpy_in (mem : list Z) (d s n : Z) : res (list Z) :=
  if (d + n <=? s) || (s + n <=? d) then memcpy mem d mem s n else Err UB_overlap.

(** shake is shake128 or shake256 according to the parameter set (src/frodo640.c:29,
    src/frodo976.c:38, src/frodo1344.c:38).  Here with output mem[o..o+n). *)
Definition shake_to (P : params) (mem : list Z) (o n : Z) (inp : list Z) (inlen : Z) : res (list Z) :=
  buf <- sub mem o n ;;
  buf <- shake (pRate P) buf n inp inlen ;;
  put mem o buf.
(** shake((uint8_t* )S, ...) for a uint16_t array S (src/kem.c:44, 113, 206). *)
Definition shake_words (C : config) (S : list Z) (n : Z) (inp : list Z) (inlen : Z) : res (list Z) :=
  b <- shake (pRate (cP C)) (bytes_of_words (cEn C) S) n inp inlen ;;
  ret (words_of_bytes (cEn C) b).
(** frodo_sample_n(&S[o], n) *)
Definition sample_at (P : params) (S : list Z) (o n : Z) : res (list Z) :=
  x <- sub S o n ;; x <- frodo_sample_n (pCDF P) x n ;; put S o x.
(** clear_bytes((uint8_t* )&S[o], 2*n) for a uint16_t array *)
Definition clear_words (en : endian) (S : list Z) (o n : Z) : res (list Z) :=
  x <- sub S o n ;;
  b <- clear_bytes (bytes_of_words en x) (2 * n) ;;
  put S o (words_of_bytes en b).
(** clear_bytes(&b[o], n) for a byte array *)
Definition clear_at (l : list Z) (o n : Z) : res (list Z) :=
  x <- sub l o n ;; x <- clear_bytes x n ;; put l o x.
(** for (i < n) S[i] = UINT16_TO_LE(S[i]), src/kem.c:58-60 *)
Definition host_to_le (en : endian) (S : list Z) (n : Z) : res (list Z) :=
  for_ 0 n (fun i S => x <- rd S i ;; wr S i (u16 (UINT16_TO_LE en x))) S.
(** for (i < N*NBAR) BBp[i] = BBp[i] & ((1 << LOGQ)-1), src/kem.c:227 *)
Definition mask_q (P : params) (B : list Z) (n : Z) : res (list Z) :=
  for_ 0 n (fun i B =>
    x <- rd B i ;; m <- shl32 1 (pD P) ;; m <- i32 (m - 1) ;; wr B i (u16 (Z.land x m))) B.

(** The local arrays of crypto_kem_keypair, src/kem.c:25-32, when it returns. *)
Record kp_locals := {
  kp_B : list Z; kp_S : list Z (* S and E *); kp_randomness : list Z; kp_shake_input : list Z }.

(** crypto_kem_keypair, src/kem.c:15-75 (the Valgrind annotations are no code).  Returns
    the memory, the locals and the return value. *)
Definition crypto_kem_keypair (C : config) (rb : generator) (mem : list Z) (pk sk : Z)
    : res (list Z * kp_locals * Z) :=
  let P := cP C in
  let en := cEn C in
  let CB := pCB P in
  let pk_b := pk + SEEDA in
  let sk_pk := sk + CB in
  let sk_S := sk + CB + pkBytes P in
  let sk_pkh := sk + CB + pkBytes P + 2 * NN P in
  let B := zrep (NN P) 0 in
  let S := zrep (2 * NN P) 0 in
  let randomness := uninit (2 * CB + SEEDA) in
  let shake_input := uninit (1 + CB) in
  (* 35: the return value is ignored *)
  '(randomness, _) <- rb randomness (CB + CB + SEEDA) ;;
  (* 39 *)
  z <- sub randomness (2 * CB) SEEDA ;;
  mem <- shake_to P mem pk SEEDA z SEEDA ;;
  (* 42-47 *)
  shake_input <- wr shake_input 0 95 ;;
  shake_input <- memcpy shake_input 1 randomness CB CB ;;
  S <- shake_words C S (2 * NN P * 2) shake_input (1 + CB) ;;
  S <- le_to_host en S (2 * NN P) ;;
  (* 48-50 *)
  S <- sample_at P S 0 (NN P) ;;
  S <- sample_at P S (NN P) (NN P) ;;
  s <- sub S 0 (NN P) ;;
  e <- sub S (NN P) (NN P) ;;
  seedA <- sub mem pk SEEDA ;;
  B <- as_plus_e C B s e seedA ;;
  (* 53 *)
  b <- sub mem pk_b (pkBytes P - SEEDA) ;;
  b <- frodo_pack b (pkBytes P - SEEDA) B (NN P) (pD P) ;;
  mem <- put mem pk_b b ;;
  (* 56-61 *)
  mem <- memcpy mem sk randomness 0 CB ;;
  mem <- memcpy_in mem sk_pk pk (pkBytes P) ;;
  S <- host_to_le en S (NN P) ;;
  mem <- memcpy mem sk_S (bytes_of_words en S) 0 (2 * NN P) ;;
  (* 64 *)
  h <- sub mem pk (pkBytes P) ;;
  mem <- shake_to P mem sk_pkh (bytesH P) h (pkBytes P) ;;
  (* 67-70 *)
  S <- clear_words en S 0 (NN P) ;;
  S <- clear_words en S (NN P) (NN P) ;;
  randomness <- clear_at randomness 0 (2 * CB) ;;
  shake_input <- clear_at shake_input 0 (1 + CB) ;;
  ret (mem, {| kp_B := B; kp_S := S; kp_randomness := randomness; kp_shake_input := shake_input |}, 0).

(** Sp, Ep and Epp are one array. *)
Definition spLen (P : params) : Z := (2 * pN P + NBAR) * NBAR.

(** The local arrays of crypto_kem_enc, src/kem.c:84-100, when it returns. *)
Record enc_locals := {
  en_B : list Z; en_V : list Z; en_C : list Z; en_Bp : list Z; en_Sp : list Z (* Sp, Ep, Epp *);
  en_G2in : list Z; en_G2out : list Z; en_Fin : list Z; en_shake_input : list Z }.

(** crypto_kem_enc, src/kem.c:78-150 *)
Definition crypto_kem_enc (C : config) (rb : generator) (mem : list Z) (ct ss pk : Z)
    : res (list Z * enc_locals * Z) :=
  let P := cP C in
  let en := cEn C in
  let CB := pCB P in
  let pk_seedA := pk in
  let pk_b := pk + SEEDA in
  let ct_c1 := ct in
  let ct_c2 := ct + bytesB P in
  let B := zrep (NN P) 0 in
  let V := zrep (NBAR * NBAR) 0 in
  let Cm := zrep (NBAR * NBAR) 0 in
  let Bp := zrep (NN P) 0 in
  let Sp := zrep (spLen P) 0 in
  let G2in := uninit (bytesH P + bytesMu P) in
  let G2out := uninit (2 * CB) in
  let Fin := uninit (ctBytes P + CB) in
  let shake_input := uninit (1 + CB) in
  (* 103-108 *)
  x <- sub mem pk (pkBytes P) ;;
  G2in <- shake_to P G2in 0 (bytesH P) x (pkBytes P) ;;
  mu <- sub G2in (bytesH P) (bytesMu P) ;;
  '(mu, _) <- rb mu (bytesMu P) ;;
  G2in <- put G2in (bytesH P) mu ;;
  G2out <- shake_to P G2out 0 (CB + CB) G2in (bytesH P + bytesMu P) ;;
  (* 111-116 *)
  shake_input <- wr shake_input 0 150 ;;
  shake_input <- memcpy shake_input 1 G2out 0 CB ;;
  Sp <- shake_words C Sp (spLen P * 2) shake_input (1 + CB) ;;
  Sp <- le_to_host en Sp (spLen P) ;;
  (* 117-120 *)
  Sp <- sample_at P Sp 0 (NN P) ;;
  Sp <- sample_at P Sp (NN P) (NN P) ;;
  s <- sub Sp 0 (NN P) ;;
  e <- sub Sp (NN P) (NN P) ;;
  seedA <- sub mem pk_seedA SEEDA ;;
  '(Bp, e) <- sa_plus_e C (2 * NN P) Bp s e seedA ;;
  Sp <- put Sp (NN P) e ;;
  b <- sub mem ct_c1 (bytesB P) ;;
  b <- frodo_pack b (bytesB P) Bp (NN P) (pD P) ;;
  mem <- put mem ct_c1 b ;;
  (* 123-125 *)
  Sp <- sample_at P Sp (2 * NN P) (NBAR * NBAR) ;;
  b <- sub mem pk_b (pkBytes P - SEEDA) ;;
  B <- frodo_unpack B (NN P) b (pkBytes P - SEEDA) (pD P) ;;
  s <- sub Sp 0 (NN P) ;;
  e <- sub Sp (2 * NN P) (NBAR * NBAR) ;;
  V <- frodo_mul_add_sb_plus_e P V B s e ;;
  (* 128-130 *)
  mu <- sub G2in (bytesH P) (bytesMu P) ;;
  Cm <- frodo_key_encode P Cm mu ;;
  Cm <- frodo_add P V Cm ;;
  b <- sub mem ct_c2 (bytesC P) ;;
  b <- frodo_pack b (bytesC P) Cm (NBAR * NBAR) (pD P) ;;
  mem <- put mem ct_c2 b ;;
  (* 133-135 *)
  Fin <- memcpy Fin 0 mem ct (ctBytes P) ;;
  Fin <- memcpy Fin (ctBytes P) G2out CB CB ;;
  mem <- shake_to P mem ss CB Fin (ctBytes P + CB) ;;
  (* 138-145 *)
  V <- clear_words en V 0 (NBAR * NBAR) ;;
  Sp <- clear_words en Sp 0 (NN P) ;;
  Sp <- clear_words en Sp (NN P) (NN P) ;;
  Sp <- clear_words en Sp (2 * NN P) (NBAR * NBAR) ;;
  G2in <- clear_at G2in (bytesH P) (bytesMu P) ;;
  G2out <- clear_at G2out 0 (2 * CB) ;;
  Fin <- clear_at Fin (ctBytes P) CB ;;
  shake_input <- clear_at shake_input 0 (1 + CB) ;;
  ret (mem, {| en_B := B; en_V := V; en_C := Cm; en_Bp := Bp; en_Sp := Sp; en_G2in := G2in;
               en_G2out := G2out; en_Fin := Fin; en_shake_input := shake_input |}, 0).

(** The local arrays of crypto_kem_dec, src/kem.c:155-182, when it returns. *)
Record dec_locals := {
  de_B : list Z; de_Bp : list Z; de_W : list Z; de_C : list Z; de_CC : list Z; de_BBp : list Z;
  de_Sp : list Z (* Sp, Ep, Epp *); de_S : list Z; de_G2in : list Z; de_G2out : list Z;
  de_Fin : list Z; de_shake_input : list Z }.

(** crypto_kem_dec, src/kem.c:153-252.  sk_S points to uint16_t: the address must be even
    (line 168). *)
Definition crypto_kem_dec (C : config) (mem : list Z) (ss ct sk : Z)
    : res (list Z * dec_locals * Z) :=
  let P := cP C in
  let en := cEn C in
  let CB := pCB P in
  let ct_c1 := ct in
  let ct_c2 := ct + bytesB P in
  let sk_s := sk in
  let sk_pk := sk + CB in
  let sk_S := sk + CB + pkBytes P in
  let sk_pkh := sk + CB + pkBytes P + 2 * NN P in
  let pk_seedA := sk_pk in
  let pk_b := sk_pk + SEEDA in
  let B := zrep (NN P) 0 in
  let Bp := zrep (NN P) 0 in
  let W := zrep (NBAR * NBAR) 0 in
  let Cm := zrep (NBAR * NBAR) 0 in
  let CC := zrep (NBAR * NBAR) 0 in
  let BBp := zrep (NN P) 0 in
  let Sp := zrep (spLen P) 0 in
  let S := uninit (NN P) in
  let G2in := uninit (bytesH P + bytesMu P) in
  let G2out := uninit (2 * CB) in
  let Fin := uninit (ctBytes P + CB) in
  let shake_input := uninit (1 + CB) in
  (* 187-189 *)
  x <- (if sk_S mod 2 =? 0 then sub mem sk_S (2 * NN P) else Err UB_align) ;;
  let skS := words_of_bytes en x in
  S <- for_ 0 (NN P) (fun i S => w <- rd skS i ;; wr S i (u16 (LE_TO_UINT16 en w))) S ;;
  (* 192-196 *)
  x <- sub mem ct_c1 (bytesB P) ;;
  Bp <- frodo_unpack Bp (NN P) x (bytesB P) (pD P) ;;
  x <- sub mem ct_c2 (bytesC P) ;;
  Cm <- frodo_unpack Cm (NBAR * NBAR) x (bytesC P) (pD P) ;;
  W <- frodo_mul_bs P W Bp S ;;
  W <- frodo_sub P Cm W ;;
  mu <- sub G2in (bytesH P) (bytesMu P) ;;
  mu <- frodo_key_decode P mu W ;;
  G2in <- put G2in (bytesH P) mu ;;
  (* 199-200 *)
  G2in <- memcpy G2in 0 mem sk_pkh (bytesH P) ;;
  G2out <- shake_to P G2out 0 (CB + CB) G2in (bytesH P + bytesMu P) ;;
  (* 203-209 *)
  shake_input <- wr shake_input 0 150 ;;
  shake_input <- memcpy shake_input 1 G2out 0 CB ;;
  Sp <- shake_words C Sp (spLen P * 2) shake_input (1 + CB) ;;
  Sp <- le_to_host en Sp (spLen P) ;;
  (* 209-211 *)
  Sp <- sample_at P Sp 0 (NN P) ;;
  Sp <- sample_at P Sp (NN P) (NN P) ;;
  s <- sub Sp 0 (NN P) ;;
  e <- sub Sp (NN P) (NN P) ;;
  seedA <- sub mem pk_seedA SEEDA ;;
  '(BBp, e) <- sa_plus_e C (2 * NN P) BBp s e seedA ;;
  Sp <- put Sp (NN P) e ;;
  (* 214-216 *)
  Sp <- sample_at P Sp (2 * NN P) (NBAR * NBAR) ;;
  x <- sub mem pk_b (pkBytes P - SEEDA) ;;
  B <- frodo_unpack B (NN P) x (pkBytes P - SEEDA) (pD P) ;;
  s <- sub Sp 0 (NN P) ;;
  e <- sub Sp (2 * NN P) (NBAR * NBAR) ;;
  W <- frodo_mul_add_sb_plus_e P W B s e ;;
  (* 219-220 *)
  mu <- sub G2in (bytesH P) (bytesMu P) ;;
  CC <- frodo_key_encode P CC mu ;;
  CC <- frodo_add P W CC ;;
  (* 223-226 *)
  Fin <- memcpy Fin 0 mem ct (ctBytes P) ;;
  BBp <- mask_q P BBp (NN P) ;;
  (* 232-235 *)
  v1 <- ct_verify Bp BBp (NN P) ;;
  v2 <- ct_verify Cm CC (NBAR * NBAR) ;;
  let selector := s8 (Z.lor v1 v2) in
  r <- sub Fin (ctBytes P) CB ;;
  k <- sub G2out CB CB ;;
  s0 <- sub mem sk_s CB ;;
  r <- ct_select r k s0 CB selector ;;
  Fin <- put Fin (ctBytes P) r ;;
  mem <- shake_to P mem ss CB Fin (ctBytes P + CB) ;;
  (* 238-246 *)
  W <- clear_words en W 0 (NBAR * NBAR) ;;
  Sp <- clear_words en Sp 0 (NN P) ;;
  S <- clear_words en S 0 (NN P) ;;
  Sp <- clear_words en Sp (NN P) (NN P) ;;
  Sp <- clear_words en Sp (2 * NN P) (NBAR * NBAR) ;;
  G2in <- clear_at G2in (bytesH P) (bytesMu P) ;;
  G2out <- clear_at G2out 0 (2 * CB) ;;
  Fin <- clear_at Fin (ctBytes P) CB ;;
  shake_input <- clear_at shake_input 0 (1 + CB) ;;
  ret (mem, {| de_B := B; de_Bp := Bp; de_W := W; de_C := Cm; de_CC := CC; de_BBp := BBp;
               de_Sp := Sp; de_S := S; de_G2in := G2in; de_G2out := G2out; de_Fin := Fin;
               de_shake_input := shake_input |}, 0).
