(** The strings that the three API functions hash: src/kem.c with a record of its calls of shake. *)
From Verif Require Import CSem Params Util Fips202 Macrify Kem RowQueries.

(** shake(out, n, inp, inlen) in line [line] of src/kem.c:39-236 (not a row of A). *)
Definition ask (P : params) (line : Z) (inp : list Z) (inlen n : Z) : query :=
  {| q_line := line; q_rate := pRate P; q_in := zslice inp 0 inlen; q_out := n |}.

(** crypto_kem_keypair, src/kem.c:15-75, as in Kem.v, with its calls of shake. *)
Definition crypto_kem_keypair_asks (C : config) (rb : generator) (mem : list Z) (pk sk : Z)
    : res (list Z * kp_locals * Z * list query) :=
  let P := cP C in
  let en := cEn C in
  let CB := pCB P in
  let pk_b := pk + SEEDA in
  let sk_pk := sk + CB in
  let sk_S := sk + CB + pkBytes P in
  let sk_pkh := sk + CB + pkBytes P + 2 * NN P in
  let B := zrep (NN P) 0 in
  let S := zrep (2 * NN P) 0 in
  let randomness := uninit (2 * CB + SEEDA) in
  let shake_input := uninit (1 + CB) in
  (* 35: the return value is ignored *)
  '(randomness, _) <- rb randomness (CB + CB + SEEDA) ;;
  (* 39 *)
  z <- sub randomness (2 * CB) SEEDA ;;
  let q1 := ask P 39 z SEEDA SEEDA in
  mem <- shake_to P mem pk SEEDA z SEEDA ;;
  (* 42-47 *)
  shake_input <- wr shake_input 0 95 ;;
  shake_input <- memcpy shake_input 1 randomness CB CB ;;
  let q2 := ask P 44 shake_input (1 + CB) (2 * NN P * 2) in
  S <- shake_words C S (2 * NN P * 2) shake_input (1 + CB) ;;
  S <- le_to_host en S (2 * NN P) ;;
  (* 48-50 *)
  S <- sample_at P S 0 (NN P) ;;
  S <- sample_at P S (NN P) (NN P) ;;
  s <- sub S 0 (NN P) ;;
  e <- sub S (NN P) (NN P) ;;
  seedA <- sub mem pk SEEDA ;;
  '(B, qA) <- as_plus_e_asks C B s e seedA ;;
  (* 53 *)
  b <- sub mem pk_b (pkBytes P - SEEDA) ;;
  b <- frodo_pack b (pkBytes P - SEEDA) B (NN P) (pD P) ;;
  mem <- put mem pk_b b ;;
  (* 56-61 *)
  mem <- memcpy mem sk randomness 0 CB ;;
  mem <- memcpy_in mem sk_pk pk (pkBytes P) ;;
  S <- host_to_le en S (NN P) ;;
  mem <- memcpy mem sk_S (bytes_of_words en S) 0 (2 * NN P) ;;
  (* 64 *)
  h <- sub mem pk (pkBytes P) ;;
  let q3 := ask P 64 h (pkBytes P) (bytesH P) in
  mem <- shake_to P mem sk_pkh (bytesH P) h (pkBytes P) ;;
  (* 67-70 *)
  S <- clear_words en S 0 (NN P) ;;
  S <- clear_words en S (NN P) (NN P) ;;
  randomness <- clear_at randomness 0 (2 * CB) ;;
  shake_input <- clear_at shake_input 0 (1 + CB) ;;
  ret (mem, {| kp_B := B; kp_S := S; kp_randomness := randomness; kp_shake_input := shake_input |}, 0,
       [q1] ++ [q2] ++ qA ++ [q3]).

(** crypto_kem_enc, src/kem.c:78-150, as in Kem.v, with its calls of shake. *)
Definition crypto_kem_enc_asks (C : config) (rb : generator) (mem : list Z) (ct ss pk : Z)
    : res (list Z * enc_locals * Z * list query) :=
  let P := cP C in
  let en := cEn C in
  let CB := pCB P in
  let pk_seedA := pk in
  let pk_b := pk + SEEDA in
  let ct_c1 := ct in
  let ct_c2 := ct + bytesB P in
  let B := zrep (NN P) 0 in
  let V := zrep (NBAR * NBAR) 0 in
  let Cm := zrep (NBAR * NBAR) 0 in
  let Bp := zrep (NN P) 0 in
  let Sp := zrep (spLen P) 0 in
  let G2in := uninit (bytesH P + bytesMu P) in
  let G2out := uninit (2 * CB) in
  let Fin := uninit (ctBytes P + CB) in
  let shake_input := uninit (1 + CB) in
  (* 103-108 *)
  x <- sub mem pk (pkBytes P) ;;
  let q1 := ask P 103 x (pkBytes P) (bytesH P) in
  G2in <- shake_to P G2in 0 (bytesH P) x (pkBytes P) ;;
  mu <- sub G2in (bytesH P) (bytesMu P) ;;
  '(mu, _) <- rb mu (bytesMu P) ;;
  G2in <- put G2in (bytesH P) mu ;;
  let q2 := ask P 108 G2in (bytesH P + bytesMu P) (CB + CB) in
  G2out <- shake_to P G2out 0 (CB + CB) G2in (bytesH P + bytesMu P) ;;
  (* 111-116 *)
  shake_input <- wr shake_input 0 150 ;;
  shake_input <- memcpy shake_input 1 G2out 0 CB ;;
  let q3 := ask P 113 shake_input (1 + CB) (spLen P * 2) in
  Sp <- shake_words C Sp (spLen P * 2) shake_input (1 + CB) ;;
  Sp <- le_to_host en Sp (spLen P) ;;
  (* 117-120 *)
  Sp <- sample_at P Sp 0 (NN P) ;;
  Sp <- sample_at P Sp (NN P) (NN P) ;;
  s <- sub Sp 0 (NN P) ;;
  e <- sub Sp (NN P) (NN P) ;;
  seedA <- sub mem pk_seedA SEEDA ;;
  '(Bp, e, qA) <- sa_plus_e_asks C (2 * NN P) Bp s e seedA ;;
  Sp <- put Sp (NN P) e ;;
  b <- sub mem ct_c1 (bytesB P) ;;
  b <- frodo_pack b (bytesB P) Bp (NN P) (pD P) ;;
  mem <- put mem ct_c1 b ;;
  (* 123-125 *)
  Sp <- sample_at P Sp (2 * NN P) (NBAR * NBAR) ;;
  b <- sub mem pk_b (pkBytes P - SEEDA) ;;
  B <- frodo_unpack B (NN P) b (pkBytes P - SEEDA) (pD P) ;;
  s <- sub Sp 0 (NN P) ;;
  e <- sub Sp (2 * NN P) (NBAR * NBAR) ;;
  V <- frodo_mul_add_sb_plus_e P V B s e ;;
  (* 128-130 *)
  mu <- sub G2in (bytesH P) (bytesMu P) ;;
  Cm <- frodo_key_encode P Cm mu ;;
  Cm <- frodo_add P V Cm ;;
  b <- sub mem ct_c2 (bytesC P) ;;
  b <- frodo_pack b (bytesC P) Cm (NBAR * NBAR) (pD P) ;;
  mem <- put mem ct_c2 b ;;
  (* 133-135 *)
  Fin <- memcpy Fin 0 mem ct (ctBytes P) ;;
  Fin <- memcpy Fin (ctBytes P) G2out CB CB ;;
  let q4 := ask P 135 Fin (ctBytes P + CB) CB in
  mem <- shake_to P mem ss CB Fin (ctBytes P + CB) ;;
  (* 138-145 *)
  V <- clear_words en V 0 (NBAR * NBAR) ;;
  Sp <- clear_words en Sp 0 (NN P) ;;
  Sp <- clear_words en Sp (NN P) (NN P) ;;
  Sp <- clear_words en Sp (2 * NN P) (NBAR * NBAR) ;;
  G2in <- clear_at G2in (bytesH P) (bytesMu P) ;;
  G2out <- clear_at G2out 0 (2 * CB) ;;
  Fin <- clear_at Fin (ctBytes P) CB ;;
  shake_input <- clear_at shake_input 0 (1 + CB) ;;
  ret (mem, {| en_B := B; en_V := V; en_C := Cm; en_Bp := Bp; en_Sp := Sp; en_G2in := G2in;
               en_G2out := G2out; en_Fin := Fin; en_shake_input := shake_input |}, 0,
       [q1] ++ [q2] ++ [q3] ++ qA ++ [q4]).

(** crypto_kem_dec, src/kem.c:153-252, as in Kem.v, with its calls of shake. *)
Definition crypto_kem_dec_asks (C : config) (mem : list Z) (ss ct sk : Z)
    : res (list Z * dec_locals * Z * list query) :=
  let P := cP C in
  let en := cEn C in
  let CB := pCB P in
  let ct_c1 := ct in
  let ct_c2 := ct + bytesB P in
  let sk_s := sk in
  let sk_pk := sk + CB in
  let sk_S := sk + CB + pkBytes P in
  let sk_pkh := sk + CB + pkBytes P + 2 * NN P in
  let pk_seedA := sk_pk in
  let pk_b := sk_pk + SEEDA in
  let B := zrep (NN P) 0 in
  let Bp := zrep (NN P) 0 in
  let W := zrep (NBAR * NBAR) 0 in
  let Cm := zrep (NBAR * NBAR) 0 in
  let CC := zrep (NBAR * NBAR) 0 in
  let BBp := zrep (NN P) 0 in
  let Sp := zrep (spLen P) 0 in
  let S := uninit (NN P) in
  let G2in := uninit (bytesH P + bytesMu P) in
  let G2out := uninit (2 * CB) in
  let Fin := uninit (ctBytes P + CB) in
  let shake_input := uninit (1 + CB) in
  (* 187-189 *)
  x <- (if sk_S mod 2 =? 0 then sub mem sk_S (2 * NN P) else Err UB_align) ;;
  let skS := words_of_bytes en x in
  S <- for_ 0 (NN P) (fun i S => w <- rd skS i ;; wr S i (u16 (LE_TO_UINT16 en w))) S ;;
  (* 192-196 *)
  x <- sub mem ct_c1 (bytesB P) ;;
  Bp <- frodo_unpack Bp (NN P) x (bytesB P) (pD P) ;;
  x <- sub mem ct_c2 (bytesC P) ;;
  Cm <- frodo_unpack Cm (NBAR * NBAR) x (bytesC P) (pD P) ;;
  W <- frodo_mul_bs P W Bp S ;;
  W <- frodo_sub P Cm W ;;
  mu <- sub G2in (bytesH P) (bytesMu P) ;;
  mu <- frodo_key_decode P mu W ;;
  G2in <- put G2in (bytesH P) mu ;;
  (* 199-200 *)
  G2in <- memcpy G2in 0 mem sk_pkh (bytesH P) ;;
  let q1 := ask P 201 G2in (bytesH P + bytesMu P) (CB + CB) in
  G2out <- shake_to P G2out 0 (CB + CB) G2in (bytesH P + bytesMu P) ;;
  (* 203-209 *)
  shake_input <- wr shake_input 0 150 ;;
  shake_input <- memcpy shake_input 1 G2out 0 CB ;;
  let q2 := ask P 206 shake_input (1 + CB) (spLen P * 2) in
  Sp <- shake_words C Sp (spLen P * 2) shake_input (1 + CB) ;;
  Sp <- le_to_host en Sp (spLen P) ;;
  (* 209-211 *)
  Sp <- sample_at P Sp 0 (NN P) ;;
  Sp <- sample_at P Sp (NN P) (NN P) ;;
  s <- sub Sp 0 (NN P) ;;
  e <- sub Sp (NN P) (NN P) ;;
  seedA <- sub mem pk_seedA SEEDA ;;
  '(BBp, e, qA) <- sa_plus_e_asks C (2 * NN P) BBp s e seedA ;;
  Sp <- put Sp (NN P) e ;;
  (* 214-216 *)
  Sp <- sample_at P Sp (2 * NN P) (NBAR * NBAR) ;;
  x <- sub mem pk_b (pkBytes P - SEEDA) ;;
  B <- frodo_unpack B (NN P) x (pkBytes P - SEEDA) (pD P) ;;
  s <- sub Sp 0 (NN P) ;;
  e <- sub Sp (2 * NN P) (NBAR * NBAR) ;;
  W <- frodo_mul_add_sb_plus_e P W B s e ;;
  (* 219-220 *)
  mu <- sub G2in (bytesH P) (bytesMu P) ;;
  CC <- frodo_key_encode P CC mu ;;
  CC <- frodo_add P W CC ;;
  (* 223-226 *)
  Fin <- memcpy Fin 0 mem ct (ctBytes P) ;;
  BBp <- mask_q P BBp (NN P) ;;
  (* 232-235 *)
  v1 <- ct_verify Bp BBp (NN P) ;;
  v2 <- ct_verify Cm CC (NBAR * NBAR) ;;
  let selector := s8 (Z.lor v1 v2) in
  r <- sub Fin (ctBytes P) CB ;;
  k <- sub G2out CB CB ;;
  s0 <- sub mem sk_s CB ;;
  r <- ct_select r k s0 CB selector ;;
  Fin <- put Fin (ctBytes P) r ;;
  let q3 := ask P 236 Fin (ctBytes P + CB) CB in
  mem <- shake_to P mem ss CB Fin (ctBytes P + CB) ;;
  (* 238-246 *)
  W <- clear_words en W 0 (NBAR * NBAR) ;;
  Sp <- clear_words en Sp 0 (NN P) ;;
  S <- clear_words en S 0 (NN P) ;;
  Sp <- clear_words en Sp (NN P) (NN P) ;;
  Sp <- clear_words en Sp (2 * NN P) (NBAR * NBAR) ;;
  G2in <- clear_at G2in (bytesH P) (bytesMu P) ;;
  G2out <- clear_at G2out 0 (2 * CB) ;;
  Fin <- clear_at Fin (ctBytes P) CB ;;
  shake_input <- clear_at shake_input 0 (1 + CB) ;;
  ret (mem, {| de_B := B; de_Bp := Bp; de_W := W; de_C := Cm; de_CC := CC; de_BBp := BBp;
               de_Sp := Sp; de_S := S; de_G2in := G2in; de_G2out := G2out; de_Fin := Fin;
               de_shake_input := shake_input |}, 0,
       [q1] ++ [q2] ++ qA ++ [q3]).
