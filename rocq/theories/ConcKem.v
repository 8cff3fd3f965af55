(** The three functions of the API as thread programs.

    Kem.v models them for one thread, with the caller's memory as a value; here every access
    to the caller's memory is a sequence of byte actions.  A callee that works on a part of
    that memory (hashing, unpacking) is modelled as reading it, computing, and writing it back;
    packing, which builds its output up from zero, has the accesses of the source.
    The automatic arrays of a call are its own.  The one global of the library is [state] in
    aes_c.c: a build that generates A with the portable AES sets it and then relies on it;
    [me] stands for the address this thread stores there.  If another thread has stored its own
    in between, the outcome is [UB_race] (ConcAes.v has the details of what happens then). *)
From Verif Require Import CSem Params Util Fips202 Macrify Kem Conc ConcProofs.

(** Whether the build uses the global of src/aes/aes_c.c:22: portable AES, and A generated with AES. *)
Definition uses_state (C : config) : bool :=
  match cGen C, cAes C with GenAES, AesC => true | _, _ => false end.
(** The generation of A: state = ... and its use (src/aes/aes_c.c:318, 329, 205-312), with a race as described above. *)
Definition with_state {A} (C : config) (me : Z) (m : res A) : prog A :=
  if uses_state C then Gst me (Gld (fun p => if p =? me then loc m else Fault UB_race)) else loc m.

(** shake(out, n, inp, inlen) with the output in the caller's memory *)
Definition shake_to_p (P : params) (o n : Z) (inp : list Z) (inlen : Z) : prog unit :=
  buf <~ load o n ;;
  buf <~ loc (shake (pRate P) buf n inp inlen) ;;
  store o buf.
(** A loop of which the body says whether it goes on, with a bound as in CSem.loop. *)
Fixpoint ploop {S} (fuel : nat) (body : S -> prog (S * bool)) (s : S) : prog S :=
  match fuel with
  | O => Fault OutOfFuel
  | Datatypes.S f => x <~ body s ;; if snd x then ploop f body (fst x) else Ret (fst x)
  end.
(** One iteration of the inner loop of frodo_pack, src/util.c:36-53, with out[i] in the caller's
    memory, at o + i: a load and a store.  State: j, w, bits, b. *)
Definition pack_inner_p (o : Z) (inp : list Z) (inlen lsb i : Z) (st : Z * Z * Z * Z) : prog (Z * Z * Z * Z * bool) :=
  let '(j, w, bits, b) := st in
  if b <? 8 then
    let nbits := if 8 - b <? bits then 8 - b else bits in
    m1 <~ loc (shl32 1 nbits) ;;
    let mask := u16 (m1 - 1) in
    w1 <~ loc (shr32 w (bits - nbits)) ;;
    let t := u8 (Z.land w1 mask) in
    Ld (o + i) (fun v =>
    t1 <~ loc (shl32 t (8 - b - nbits)) ;;
    o1 <~ loc (i32 (v + t1)) ;;
    St (o + i) (u8 o1) (
    let b := u8 (b + nbits) in
    let bits := u8 (bits - nbits) in
    m2 <~ loc (shl32 mask bits) ;;
    let w := u16 (Z.land w (Z.lnot m2)) in
    if bits =? 0 then
      if j <? inlen then w <~ loc (rd inp j) ;; Ret (j + 1, w, lsb, b, true) else Ret (j, w, bits, b, false)
    else Ret (j, w, bits, b, true)))
  else Ret (st, false).
(** One iteration of the outer loop, src/util.c:23-58.  State: i, j, w, bits. *)
Definition pack_outer_p (o outlen : Z) (inp : list Z) (inlen lsb : Z) (st : Z * Z * Z * Z) : prog (Z * Z * Z * Z * bool) :=
  let '(i, j, w, bits) := st in
  if (i <? outlen) && ((j <? inlen) || ((j =? inlen) && (0 <? bits))) then
    '(j, w, bits, b) <~ ploop 64 (pack_inner_p o inp inlen lsb i) (j, w, bits, 0) ;;
    if b =? 8 then Ret (i + 1, j, w, bits, true) else Ret (i, j, w, bits, true)
  else Ret (st, false).
(** frodo_pack(out, outlen, in, inlen, lsb), src/util.c:13-59, with the output in the caller's memory *)
Definition pack_to_p (o n : Z) (inp : list Z) (inlen lsb : Z) : prog unit :=
  store o (zrep n 0) ~;;
  ploop (Z.to_nat (n + 3)) (pack_outer_p o n inp inlen lsb) (0, 0, 0, 0) ~;;
  Ret tt.

(** crypto_kem_keypair, src/kem.c:15-75 *)
Definition keypair_p (C : config) (me : Z) (rb : generator) (pk sk : Z) : prog Z :=
  let P := cP C in
  let en := cEn C in
  let CB := pCB P in
  let pk_b := pk + SEEDA in
  let sk_pk := sk + CB in
  let sk_S := sk + CB + pkBytes P in
  let sk_pkh := sk + CB + pkBytes P + 2 * NN P in
  let B := zrep (NN P) 0 in
  let S := zrep (2 * NN P) 0 in
  let randomness := uninit (2 * CB + SEEDA) in
  let shake_input := uninit (1 + CB) in
  '(randomness, _) <~ loc (rb randomness (CB + CB + SEEDA)) ;;
  z <~ loc (sub randomness (2 * CB) SEEDA) ;;
  shake_to_p P pk SEEDA z SEEDA ~;;
  shake_input <~ loc (wr shake_input 0 95) ;;
  shake_input <~ loc (memcpy shake_input 1 randomness CB CB) ;;
  S <~ loc (shake_words C S (2 * NN P * 2) shake_input (1 + CB)) ;;
  S <~ loc (le_to_host en S (2 * NN P)) ;;
  S <~ loc (sample_at P S 0 (NN P)) ;;
  S <~ loc (sample_at P S (NN P) (NN P)) ;;
  s <~ loc (sub S 0 (NN P)) ;;
  e <~ loc (sub S (NN P) (NN P)) ;;
  seedA <~ load pk SEEDA ;;
  B <~ with_state C me (as_plus_e C B s e seedA) ;;
  pack_to_p pk_b (pkBytes P - SEEDA) B (NN P) (pD P) ~;;
  x <~ loc (sub randomness 0 CB) ;; store sk x ~;;
  (if (sk_pk + pkBytes P <=? pk) || (pk + pkBytes P <=? sk_pk)
   then x <~ load pk (pkBytes P) ;; store sk_pk x else Fault UB_overlap) ~;;
  S <~ loc (host_to_le en S (NN P)) ;;
  x <~ loc (sub (bytes_of_words en S) 0 (2 * NN P)) ;; store sk_S x ~;;
  h <~ load pk (pkBytes P) ;;
  shake_to_p P sk_pkh (bytesH P) h (pkBytes P) ~;;
  S <~ loc (clear_words en S 0 (NN P)) ;;
  S <~ loc (clear_words en S (NN P) (NN P)) ;;
  randomness <~ loc (clear_at randomness 0 (2 * CB)) ;;
  shake_input <~ loc (clear_at shake_input 0 (1 + CB)) ;;
  Ret 0.

(** crypto_kem_enc, src/kem.c:78-150, after its first load of the public key, x. *)
Definition enc_rest (C : config) (me : Z) (rb : generator) (ct ss pk : Z) (x : list Z) : prog Z :=
  let P := cP C in
  let en := cEn C in
  let CB := pCB P in
  let pk_seedA := pk in
  let pk_b := pk + SEEDA in
  let ct_c1 := ct in
  let ct_c2 := ct + bytesB P in
  let B := zrep (NN P) 0 in
  let V := zrep (NBAR * NBAR) 0 in
  let Cm := zrep (NBAR * NBAR) 0 in
  let Bp := zrep (NN P) 0 in
  let Sp := zrep (spLen P) 0 in
  let G2in := uninit (bytesH P + bytesMu P) in
  let G2out := uninit (2 * CB) in
  let Fin := uninit (ctBytes P + CB) in
  let shake_input := uninit (1 + CB) in
  G2in <~ loc (shake_to P G2in 0 (bytesH P) x (pkBytes P)) ;;
  mu <~ loc (sub G2in (bytesH P) (bytesMu P)) ;;
  '(mu, _) <~ loc (rb mu (bytesMu P)) ;;
  G2in <~ loc (put G2in (bytesH P) mu) ;;
  G2out <~ loc (shake_to P G2out 0 (CB + CB) G2in (bytesH P + bytesMu P)) ;;
  shake_input <~ loc (wr shake_input 0 150) ;;
  shake_input <~ loc (memcpy shake_input 1 G2out 0 CB) ;;
  Sp <~ loc (shake_words C Sp (spLen P * 2) shake_input (1 + CB)) ;;
  Sp <~ loc (le_to_host en Sp (spLen P)) ;;
  Sp <~ loc (sample_at P Sp 0 (NN P)) ;;
  Sp <~ loc (sample_at P Sp (NN P) (NN P)) ;;
  s <~ loc (sub Sp 0 (NN P)) ;;
  e <~ loc (sub Sp (NN P) (NN P)) ;;
  seedA <~ load pk_seedA SEEDA ;;
  '(Bp, e) <~ with_state C me (sa_plus_e C (2 * NN P) Bp s e seedA) ;;
  Sp <~ loc (put Sp (NN P) e) ;;
  pack_to_p ct_c1 (bytesB P) Bp (NN P) (pD P) ~;;
  Sp <~ loc (sample_at P Sp (2 * NN P) (NBAR * NBAR)) ;;
  b <~ load pk_b (pkBytes P - SEEDA) ;;
  B <~ loc (frodo_unpack B (NN P) b (pkBytes P - SEEDA) (pD P)) ;;
  s <~ loc (sub Sp 0 (NN P)) ;;
  e <~ loc (sub Sp (2 * NN P) (NBAR * NBAR)) ;;
  V <~ loc (frodo_mul_add_sb_plus_e P V B s e) ;;
  mu <~ loc (sub G2in (bytesH P) (bytesMu P)) ;;
  Cm <~ loc (frodo_key_encode P Cm mu) ;;
  Cm <~ loc (frodo_add P V Cm) ;;
  pack_to_p ct_c2 (bytesC P) Cm (NBAR * NBAR) (pD P) ~;;
  x <~ load ct (ctBytes P) ;; Fin <~ loc (put Fin 0 x) ;;
  Fin <~ loc (memcpy Fin (ctBytes P) G2out CB CB) ;;
  shake_to_p P ss CB Fin (ctBytes P + CB) ~;;
  V <~ loc (clear_words en V 0 (NBAR * NBAR)) ;;
  Sp <~ loc (clear_words en Sp 0 (NN P)) ;;
  Sp <~ loc (clear_words en Sp (NN P) (NN P)) ;;
  Sp <~ loc (clear_words en Sp (2 * NN P) (NBAR * NBAR)) ;;
  G2in <~ loc (clear_at G2in (bytesH P) (bytesMu P)) ;;
  G2out <~ loc (clear_at G2out 0 (2 * CB)) ;;
  Fin <~ loc (clear_at Fin (ctBytes P) CB) ;;
  shake_input <~ loc (clear_at shake_input 0 (1 + CB)) ;;
  Ret 0.
(** crypto_kem_enc, src/kem.c:78-150 *)
Definition enc_p (C : config) (me : Z) (rb : generator) (ct ss pk : Z) : prog Z :=
  x <~ load pk (pkBytes (cP C)) ;; enc_rest C me rb ct ss pk x.

(** crypto_kem_dec, src/kem.c:153-252 *)
Definition dec_p (C : config) (me : Z) (ss ct sk : Z) : prog Z :=
  let P := cP C in
  let en := cEn C in
  let CB := pCB P in
  let ct_c1 := ct in
  let ct_c2 := ct + bytesB P in
  let sk_s := sk in
  let sk_pk := sk + CB in
  let sk_S := sk + CB + pkBytes P in
  let sk_pkh := sk + CB + pkBytes P + 2 * NN P in
  let pk_seedA := sk_pk in
  let pk_b := sk_pk + SEEDA in
  let B := zrep (NN P) 0 in
  let Bp := zrep (NN P) 0 in
  let W := zrep (NBAR * NBAR) 0 in
  let Cm := zrep (NBAR * NBAR) 0 in
  let CC := zrep (NBAR * NBAR) 0 in
  let BBp := zrep (NN P) 0 in
  let Sp := zrep (spLen P) 0 in
  let S := uninit (NN P) in
  let G2in := uninit (bytesH P + bytesMu P) in
  let G2out := uninit (2 * CB) in
  let Fin := uninit (ctBytes P + CB) in
  let shake_input := uninit (1 + CB) in
  x <~ (if sk_S mod 2 =? 0 then load sk_S (2 * NN P) else Fault UB_align) ;;
  let skS := words_of_bytes en x in
  S <~ loc (for_ 0 (NN P) (fun i S => w <- rd skS i ;; wr S i (u16 (LE_TO_UINT16 en w))) S) ;;
  x <~ load ct_c1 (bytesB P) ;;
  Bp <~ loc (frodo_unpack Bp (NN P) x (bytesB P) (pD P)) ;;
  x <~ load ct_c2 (bytesC P) ;;
  Cm <~ loc (frodo_unpack Cm (NBAR * NBAR) x (bytesC P) (pD P)) ;;
  W <~ loc (frodo_mul_bs P W Bp S) ;;
  W <~ loc (frodo_sub P Cm W) ;;
  mu <~ loc (sub G2in (bytesH P) (bytesMu P)) ;;
  mu <~ loc (frodo_key_decode P mu W) ;;
  G2in <~ loc (put G2in (bytesH P) mu) ;;
  x <~ load sk_pkh (bytesH P) ;; G2in <~ loc (put G2in 0 x) ;;
  G2out <~ loc (shake_to P G2out 0 (CB + CB) G2in (bytesH P + bytesMu P)) ;;
  shake_input <~ loc (wr shake_input 0 150) ;;
  shake_input <~ loc (memcpy shake_input 1 G2out 0 CB) ;;
  Sp <~ loc (shake_words C Sp (spLen P * 2) shake_input (1 + CB)) ;;
  Sp <~ loc (le_to_host en Sp (spLen P)) ;;
  Sp <~ loc (sample_at P Sp 0 (NN P)) ;;
  Sp <~ loc (sample_at P Sp (NN P) (NN P)) ;;
  s <~ loc (sub Sp 0 (NN P)) ;;
  e <~ loc (sub Sp (NN P) (NN P)) ;;
  seedA <~ load pk_seedA SEEDA ;;
  '(BBp, e) <~ with_state C me (sa_plus_e C (2 * NN P) BBp s e seedA) ;;
  Sp <~ loc (put Sp (NN P) e) ;;
  Sp <~ loc (sample_at P Sp (2 * NN P) (NBAR * NBAR)) ;;
  x <~ load pk_b (pkBytes P - SEEDA) ;;
  B <~ loc (frodo_unpack B (NN P) x (pkBytes P - SEEDA) (pD P)) ;;
  s <~ loc (sub Sp 0 (NN P)) ;;
  e <~ loc (sub Sp (2 * NN P) (NBAR * NBAR)) ;;
  W <~ loc (frodo_mul_add_sb_plus_e P W B s e) ;;
  mu <~ loc (sub G2in (bytesH P) (bytesMu P)) ;;
  CC <~ loc (frodo_key_encode P CC mu) ;;
  CC <~ loc (frodo_add P W CC) ;;
  x <~ load ct (ctBytes P) ;; Fin <~ loc (put Fin 0 x) ;;
  BBp <~ loc (mask_q P BBp (NN P)) ;;
  v1 <~ loc (ct_verify Bp BBp (NN P)) ;;
  v2 <~ loc (ct_verify Cm CC (NBAR * NBAR)) ;;
  let selector := s8 (Z.lor v1 v2) in
  r <~ loc (sub Fin (ctBytes P) CB) ;;
  k <~ loc (sub G2out CB CB) ;;
  s0 <~ load sk_s CB ;;
  r <~ loc (ct_select r k s0 CB selector) ;;
  Fin <~ loc (put Fin (ctBytes P) r) ;;
  shake_to_p P ss CB Fin (ctBytes P + CB) ~;;
  W <~ loc (clear_words en W 0 (NBAR * NBAR)) ;;
  Sp <~ loc (clear_words en Sp 0 (NN P)) ;;
  S <~ loc (clear_words en S 0 (NN P)) ;;
  Sp <~ loc (clear_words en Sp (NN P) (NN P)) ;;
  Sp <~ loc (clear_words en Sp (2 * NN P) (NBAR * NBAR)) ;;
  G2in <~ loc (clear_at G2in (bytesH P) (bytesMu P)) ;;
  G2out <~ loc (clear_at G2out 0 (2 * CB)) ;;
  Fin <~ loc (clear_at Fin (ctBytes P) CB) ;;
  shake_input <~ loc (clear_at shake_input 0 (1 + CB)) ;;
  Ret 0.
