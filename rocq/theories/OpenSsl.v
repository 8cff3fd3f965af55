(** The API functions of the builds with OpenSSL, including what happens when a call of the
    library fails.

    Every call of the library whose result the code looks at is followed by a test of that
    result; on failure handleErrors (src/aes/aes.c:79-83) prints the error and calls abort().
    Aes.v and Macrify.v leave failures out.  Here the library may fail at any call, as an
    oracle [ok] says: [ok k] is whether the k-th call of the library (counted from 0) succeeds.
    A run keeps the list of the calls made so far.  What a successful call computes is
    taken from Aes.v ([AesEVP]).  The trace of memory accesses is dropped here. *)
From Verif Require Import CSem Params Util Fips202 Fips202x4 Aes Macrify Kem Rng.

(** The calls of the library: EVP_CIPHER_CTX_new, EVP_EncryptInit_ex, EVP_EncryptUpdate on so
    many bytes, EVP_CIPHER_CTX_free. *)
Inductive evp_call := CtxNew | EncryptInit | EncryptUpdate (len : Z) | CtxFree.

(** A run returns a value, or abort() was called, or its behaviour is undefined; with the
    calls made, the failed one included. *)
Inductive outcome (A : Type) :=
| Returns (a : A) (calls : list evp_call)
| Aborts (calls : list evp_call)
| Undefined (e : err).
Arguments Returns {A}. Arguments Aborts {A}. Arguments Undefined {A}.
(** A computation, given the calls made before it. *)
Definition ev (A : Type) : Type := list evp_call -> outcome A.
(** No call of the library. *)
Definition eret {A} (a : A) : ev A := fun l => Returns a l.
(** One computation after another; abort() ends it. *)
Definition ebind {A B} (m : ev A) (f : A -> ev B) : ev B := fun l =>
  match m l with
  | Returns a l' => f a l'
  | Aborts l' => Aborts l'
  | Undefined e => Undefined e
  end.
(** C code that does not use the library. *)
Definition lift {A} (m : res A) : ev A := fun l => match m with Ok a _ => Returns a l | Err e => Undefined e end.
Notation "x <~ m ;; k" := (ebind m (fun x => k)) (at level 61, m at next level, right associativity).
Notation "' p <~ m ;; k" := (ebind m (fun x => match x with p => k end))
  (at level 61, p pattern, m at next level, right associativity).
(** A call whose result is tested: if (1 != EVP_...(...)) handleErrors();
    EVP_CIPHER_CTX_free returns nothing. *)
Definition evp (ok : Z -> bool) (c : evp_call) : ev unit := fun l =>
  match c with
  | CtxFree => Returns tt (l ++ [c])
  | _ => if ok (zlen l) then Returns tt (l ++ [c]) else Aborts (l ++ [c])
  end.
(** for (i = lo; i < hi; i += step), as [for_step] in CSem.v *)
Fixpoint efor_n {S} (n : nat) (i step : Z) (body : Z -> S -> ev S) (s : S) : ev S :=
  match n with
  | O => eret s
  | Datatypes.S n' => s' <~ body i s ;; efor_n n' (i + step) step body s'
  end.
(** The counted loop. *)
Definition efor_step {S} (lo hi step : Z) (body : Z -> S -> ev S) (s : S) : ev S :=
  efor_n (Z.to_nat ((hi - lo + step - 1) / step)) lo step body s.

(* ================================================================== *)
(** * src/frodo_macrify_reference.c *)

(** Generation of A with AES: src/frodo_macrify_reference.c:19-41 (24-29 the template) and
    77-99; the SHAKE branch is that of Macrify.v. *)
Definition evp_ref_genA (ok : Z -> bool) (en : endian) (g : genA) (N : Z) (seed_A : list Z) : ev (list Z) :=
  match g with
  | GenAES =>
    let A := zrep (N * N) 0 in
    A <~ lift (for_ 0 N (fun i A =>
           for_step 0 N STRIPE (fun j A =>
             A <- wr A (i * N + j) (u16 (UINT16_TO_LE en i)) ;;
             wr A (i * N + j + 1) (u16 (UINT16_TO_LE en j))) A) A) ;;
    _ <~ evp ok CtxNew ;;
    _ <~ evp ok EncryptInit ;;
    sch <~ lift (AES128_load_schedule AesEVP seed_A (uninit 176)) ;;
    _ <~ evp ok (EncryptUpdate (N * N * 2)) ;;
    b <~ lift (AES_ECB_enc_sch_inplace AesEVP 10 (bytes_of_words en A) (N * N * 2) sch) ;;
    _ <~ evp ok CtxFree ;;
    _ <~ lift (AES_free_schedule sch 11) ;;
    lift (le_to_host en (words_of_bytes en b) (N * N))
  | GenSHAKE => lift (ref_genA en GenSHAKE AesEVP N seed_A)
  end.

(** frodo_mul_add_as_plus_e, src/frodo_macrify_reference.c:14-69 *)
Definition evp_ref_as_plus_e (ok : Z -> bool) (en : endian) (g : genA) (N : Z)
    (out s e seed_A : list Z) : ev (list Z) :=
  A <~ evp_ref_genA ok en g N seed_A ;;
  out <~ lift (memcpy out 0 e 0 (NBAR * N)) ;;
  lift (for_ 0 N (fun i out =>
    for_ 0 NBAR (fun k out =>
      sum <- for_ 0 N (fun j sum =>
               a <- rd A (i * N + j) ;; b <- rd s (k * N + j) ;; mac sum a b) 0 ;;
      add_to out (i * NBAR + k) sum) out) out).

(** frodo_mul_add_sa_plus_e, src/frodo_macrify_reference.c:72-127 *)
Definition evp_ref_sa_plus_e (ok : Z -> bool) (en : endian) (g : genA) (N : Z)
    (out s e seed_A : list Z) : ev (list Z) :=
  A <~ evp_ref_genA ok en g N seed_A ;;
  out <~ lift (memcpy out 0 e 0 (NBAR * N)) ;;
  lift (for_ 0 N (fun i out =>
    for_ 0 NBAR (fun k out =>
      sum <- for_ 0 N (fun j sum =>
               a <- rd A (j * N + i) ;; b <- rd s (k * N + j) ;; mac sum a b) 0 ;;
      add_to out (k * N + i) sum) out) out).

(* ================================================================== *)
(** * src/frodo_macrify.c *)

(** EVP_CIPHER_CTX_new and EVP_EncryptInit_ex come first: src/frodo_macrify.c:38-41, 140-143.
    The rest of the initialisation is in Macrify.v ([as_init], [sa_init]). *)
Definition evp_open (ok : Z -> bool) (g : genA) : ev unit :=
  match g with
  | GenAES => _ <~ evp ok CtxNew ;; evp ok EncryptInit
  | GenSHAKE => eret tt
  end.
(** as_plus_e, one block of four rows: src/frodo_macrify.c:51-63 *)
Definition evp_as_rows (ok : Z -> bool) (en : endian) (N i : Z) (a_row : list Z) (st : gst)
    : ev (list Z * gst) :=
  match st with
  | GsAES sch temp =>
    temp <~ lift (for_step 0 N STRIPE (fun j temp =>
              temp <- wr temp (j + 0 * N) (u16 (UINT16_TO_LE en (i + 0))) ;;
              temp <- wr temp (j + 1 * N) (u16 (UINT16_TO_LE en (i + 1))) ;;
              temp <- wr temp (j + 2 * N) (u16 (UINT16_TO_LE en (i + 2))) ;;
              wr temp (j + 3 * N) (u16 (UINT16_TO_LE en (i + 3)))) temp) ;;
    _ <~ evp ok (EncryptUpdate (4 * N * 2)) ;;
    b <~ lift (AES_ECB_enc_sch AesEVP 10 (bytes_of_words en temp) (4 * N * 2) sch (bytes_of_words en a_row)) ;;
    eret (words_of_bytes en b, GsAES sch temp)
  | _ => lift (as_rows en AesEVP N i a_row st)
  end.
(** AES128_free_schedule at the end: src/frodo_macrify.c:119-121, 268-270, src/aes/aes.c:86-88 *)
Definition evp_gst_free (ok : Z -> bool) (st : gst) : ev unit :=
  match st with
  | GsAES sch _ => _ <~ evp ok CtxFree ;; _ <~ lift (AES_free_schedule sch 11) ;; eret tt
  | _ => eret tt
  end.

(** frodo_mul_add_as_plus_e, src/frodo_macrify.c:21-123 *)
Definition evp_opt_as_plus_e (ok : Z -> bool) (en : endian) (g : genA) (avx : bool) (N : Z)
    (out s e seed_A : list Z) : ev (list Z) :=
  let a_row := zrep (4 * N) 0 in
  out <~ lift (for_step 0 (N * NBAR) 2 (fun i out => x <- sub e i 2 ;; put out i x) out) ;;
  _ <~ evp_open ok g ;;
  st <~ lift (as_init en g AesEVP avx N seed_A) ;;
  '(out, a_row, st) <~ efor_step 0 N 4 (fun i '(out, a_row, st) =>
    '(a_row, st) <~ evp_as_rows ok en N i a_row st ;;
    a_row <~ lift (le_to_host en a_row (4 * N)) ;;
    out <~ lift (for_ 0 NBAR (fun k out =>
      '(sum0, sum1, sum2, sum3) <- for_ 0 N (fun j '(sum0, sum1, sum2, sum3) =>
          sp <- rd s (k * N + j) ;;
          a0 <- rd a_row (0 * N + j) ;; sum0 <- mac sum0 a0 sp ;;
          a1 <- rd a_row (1 * N + j) ;; sum1 <- mac sum1 a1 sp ;;
          a2 <- rd a_row (2 * N + j) ;; sum2 <- mac sum2 a2 sp ;;
          a3 <- rd a_row (3 * N + j) ;; sum3 <- mac sum3 a3 sp ;;
          ret (sum0, sum1, sum2, sum3)) (0, 0, 0, 0) ;;
      out <- add_to out ((i + 0) * NBAR + k) sum0 ;;
      out <- add_to out ((i + 2) * NBAR + k) sum2 ;;
      out <- add_to out ((i + 1) * NBAR + k) sum1 ;;
      add_to out ((i + 3) * NBAR + k) sum3) out) ;;
    eret (out, a_row, st)) (out, a_row, st) ;;
  _ <~ evp_gst_free ok st ;;
  eret out.

(** sa_plus_e, one block of eight rows: src/frodo_macrify.c:160-173 *)
Definition evp_sa_rows (ok : Z -> bool) (en : endian) (N i : Z) (A : list Z) (st : gst)
    : ev (list Z * gst) :=
  match st with
  | GsAES sch Ainit =>
    Ainit <~ lift (for_ 0 8 (fun q Ainit =>
               for_step 0 N 8 (fun p Ainit =>
                 wr Ainit (q * N + p) (u16 (UINT16_TO_LE en (i + q)))) Ainit) Ainit) ;;
    _ <~ evp ok (EncryptUpdate (8 * N * 2)) ;;
    b <~ lift (AES_ECB_enc_sch AesEVP 10 (bytes_of_words en Ainit) (8 * N * 2) sch (bytes_of_words en A)) ;;
    eret (words_of_bytes en b, GsAES sch Ainit)
  | _ => lift (sa_rows en AesEVP N i A st)
  end.

(** frodo_mul_add_sa_plus_e, src/frodo_macrify.c:126-272 *)
Definition evp_opt_sa_plus_e (ok : Z -> bool) (en : endian) (g : genA) (avx : bool) (N ebase : Z)
    (out s e seed_A : list Z) : ev (list Z * list Z) :=
  let A := zrep (N * 8) 0 in
  _ <~ evp_open ok g ;;
  st <~ lift (sa_init en g AesEVP avx N seed_A) ;;
  '(e, A, st) <~ efor_step 0 N 8 (fun i '(e, A, st) =>
    '(A, st) <~ evp_sa_rows ok en N i A st ;;
    e <~ lift (if avx then sa_block_avx ebase N i A s e else sa_block N i A s e) ;;
    eret (e, A, st)) (e, A, st) ;;
  out <~ lift (memcpy out 0 e 0 (N * NBAR)) ;;
  _ <~ evp_gst_free ok st ;;
  eret (out, e).

(** frodo_mul_add_as_plus_e and frodo_mul_add_sa_plus_e of the build, as in Macrify.v *)
Definition evp_as_plus_e (ok : Z -> bool) (C : config) (out s e seed_A : list Z) : ev (list Z) :=
  match cImpl C with
  | Reference => evp_ref_as_plus_e ok (cEn C) (cGen C) (pN (cP C)) out s e seed_A
  | im => evp_opt_as_plus_e ok (cEn C) (cGen C) (is_avx im) (pN (cP C)) out s e seed_A
  end.
Definition evp_sa_plus_e (ok : Z -> bool) (C : config) (ebase : Z) (out s e seed_A : list Z) : ev (list Z * list Z) :=
  match cImpl C with
  | Reference => out <~ evp_ref_sa_plus_e ok (cEn C) (cGen C) (pN (cP C)) out s e seed_A ;; eret (out, e)
  | im => evp_opt_sa_plus_e ok (cEn C) (cGen C) (is_avx im) (pN (cP C)) ebase out s e seed_A
  end.

(* ================================================================== *)
(** * src/kem.c, statement by statement as in Kem.v *)

(** crypto_kem_keypair, src/kem.c:15-75 *)
Definition evp_keypair (ok : Z -> bool) (C : config) (rb : generator) (mem : list Z) (pk sk : Z)
    : ev (list Z * kp_locals * Z) :=
  let P := cP C in
  let en := cEn C in
  let CB := pCB P in
  let pk_b := pk + SEEDA in
  let sk_pk := sk + CB in
  let sk_S := sk + CB + pkBytes P in
  let sk_pkh := sk + CB + pkBytes P + 2 * NN P in
  let B := zrep (NN P) 0 in
  let S := zrep (2 * NN P) 0 in
  let randomness := uninit (2 * CB + SEEDA) in
  let shake_input := uninit (1 + CB) in
  (* 35: the return value is ignored *)
  '(randomness, _) <~ lift (rb randomness (CB + CB + SEEDA)) ;;
  (* 39 *)
  z <~ lift (sub randomness (2 * CB) SEEDA) ;;
  mem <~ lift (shake_to P mem pk SEEDA z SEEDA) ;;
  (* 42-47 *)
  shake_input <~ lift (wr shake_input 0 95) ;;
  shake_input <~ lift (memcpy shake_input 1 randomness CB CB) ;;
  S <~ lift (shake_words C S (2 * NN P * 2) shake_input (1 + CB)) ;;
  S <~ lift (le_to_host en S (2 * NN P)) ;;
  (* 48-50 *)
  S <~ lift (sample_at P S 0 (NN P)) ;;
  S <~ lift (sample_at P S (NN P) (NN P)) ;;
  s <~ lift (sub S 0 (NN P)) ;;
  e <~ lift (sub S (NN P) (NN P)) ;;
  seedA <~ lift (sub mem pk SEEDA) ;;
  B <~ evp_as_plus_e ok C B s e seedA ;;
  (* 53 *)
  b <~ lift (sub mem pk_b (pkBytes P - SEEDA)) ;;
  b <~ lift (frodo_pack b (pkBytes P - SEEDA) B (NN P) (pD P)) ;;
  mem <~ lift (put mem pk_b b) ;;
  (* 56-61 *)
  mem <~ lift (memcpy mem sk randomness 0 CB) ;;
  mem <~ lift (memcpy_in mem sk_pk pk (pkBytes P)) ;;
  S <~ lift (host_to_le en S (NN P)) ;;
  mem <~ lift (memcpy mem sk_S (bytes_of_words en S) 0 (2 * NN P)) ;;
  (* 64 *)
  h <~ lift (sub mem pk (pkBytes P)) ;;
  mem <~ lift (shake_to P mem sk_pkh (bytesH P) h (pkBytes P)) ;;
  (* 67-70 *)
  S <~ lift (clear_words en S 0 (NN P)) ;;
  S <~ lift (clear_words en S (NN P) (NN P)) ;;
  randomness <~ lift (clear_at randomness 0 (2 * CB)) ;;
  shake_input <~ lift (clear_at shake_input 0 (1 + CB)) ;;
  eret (mem, {| kp_B := B; kp_S := S; kp_randomness := randomness; kp_shake_input := shake_input |}, 0).

(** crypto_kem_enc, src/kem.c:78-150 *)
Definition evp_enc (ok : Z -> bool) (C : config) (rb : generator) (mem : list Z) (ct ss pk : Z)
    : ev (list Z * enc_locals * Z) :=
  let P := cP C in
  let en := cEn C in
  let CB := pCB P in
  let pk_seedA := pk in
  let pk_b := pk + SEEDA in
  let ct_c1 := ct in
  let ct_c2 := ct + bytesB P in
  let B := zrep (NN P) 0 in
  let V := zrep (NBAR * NBAR) 0 in
  let Cm := zrep (NBAR * NBAR) 0 in
  let Bp := zrep (NN P) 0 in
  let Sp := zrep (spLen P) 0 in
  let G2in := uninit (bytesH P + bytesMu P) in
  let G2out := uninit (2 * CB) in
  let Fin := uninit (ctBytes P + CB) in
  let shake_input := uninit (1 + CB) in
  (* 103-108 *)
  x <~ lift (sub mem pk (pkBytes P)) ;;
  G2in <~ lift (shake_to P G2in 0 (bytesH P) x (pkBytes P)) ;;
  mu <~ lift (sub G2in (bytesH P) (bytesMu P)) ;;
  '(mu, _) <~ lift (rb mu (bytesMu P)) ;;
  G2in <~ lift (put G2in (bytesH P) mu) ;;
  G2out <~ lift (shake_to P G2out 0 (CB + CB) G2in (bytesH P + bytesMu P)) ;;
  (* 111-116 *)
  shake_input <~ lift (wr shake_input 0 150) ;;
  shake_input <~ lift (memcpy shake_input 1 G2out 0 CB) ;;
  Sp <~ lift (shake_words C Sp (spLen P * 2) shake_input (1 + CB)) ;;
  Sp <~ lift (le_to_host en Sp (spLen P)) ;;
  (* 117-120 *)
  Sp <~ lift (sample_at P Sp 0 (NN P)) ;;
  Sp <~ lift (sample_at P Sp (NN P) (NN P)) ;;
  s <~ lift (sub Sp 0 (NN P)) ;;
  e <~ lift (sub Sp (NN P) (NN P)) ;;
  seedA <~ lift (sub mem pk_seedA SEEDA) ;;
  '(Bp, e) <~ evp_sa_plus_e ok C (2 * NN P) Bp s e seedA ;;
  Sp <~ lift (put Sp (NN P) e) ;;
  b <~ lift (sub mem ct_c1 (bytesB P)) ;;
  b <~ lift (frodo_pack b (bytesB P) Bp (NN P) (pD P)) ;;
  mem <~ lift (put mem ct_c1 b) ;;
  (* 123-125 *)
  Sp <~ lift (sample_at P Sp (2 * NN P) (NBAR * NBAR)) ;;
  b <~ lift (sub mem pk_b (pkBytes P - SEEDA)) ;;
  B <~ lift (frodo_unpack B (NN P) b (pkBytes P - SEEDA) (pD P)) ;;
  s <~ lift (sub Sp 0 (NN P)) ;;
  e <~ lift (sub Sp (2 * NN P) (NBAR * NBAR)) ;;
  V <~ lift (frodo_mul_add_sb_plus_e P V B s e) ;;
  (* 128-130 *)
  mu <~ lift (sub G2in (bytesH P) (bytesMu P)) ;;
  Cm <~ lift (frodo_key_encode P Cm mu) ;;
  Cm <~ lift (frodo_add P V Cm) ;;
  b <~ lift (sub mem ct_c2 (bytesC P)) ;;
  b <~ lift (frodo_pack b (bytesC P) Cm (NBAR * NBAR) (pD P)) ;;
  mem <~ lift (put mem ct_c2 b) ;;
  (* 133-135 *)
  Fin <~ lift (memcpy Fin 0 mem ct (ctBytes P)) ;;
  Fin <~ lift (memcpy Fin (ctBytes P) G2out CB CB) ;;
  mem <~ lift (shake_to P mem ss CB Fin (ctBytes P + CB)) ;;
  (* 138-145 *)
  V <~ lift (clear_words en V 0 (NBAR * NBAR)) ;;
  Sp <~ lift (clear_words en Sp 0 (NN P)) ;;
  Sp <~ lift (clear_words en Sp (NN P) (NN P)) ;;
  Sp <~ lift (clear_words en Sp (2 * NN P) (NBAR * NBAR)) ;;
  G2in <~ lift (clear_at G2in (bytesH P) (bytesMu P)) ;;
  G2out <~ lift (clear_at G2out 0 (2 * CB)) ;;
  Fin <~ lift (clear_at Fin (ctBytes P) CB) ;;
  shake_input <~ lift (clear_at shake_input 0 (1 + CB)) ;;
  eret (mem, {| en_B := B; en_V := V; en_C := Cm; en_Bp := Bp; en_Sp := Sp; en_G2in := G2in;
               en_G2out := G2out; en_Fin := Fin; en_shake_input := shake_input |}, 0).

(** crypto_kem_dec, src/kem.c:153-252 *)
Definition evp_dec (ok : Z -> bool) (C : config) (mem : list Z) (ss ct sk : Z)
    : ev (list Z * dec_locals * Z) :=
  let P := cP C in
  let en := cEn C in
  let CB := pCB P in
  let ct_c1 := ct in
  let ct_c2 := ct + bytesB P in
  let sk_s := sk in
  let sk_pk := sk + CB in
  let sk_S := sk + CB + pkBytes P in
  let sk_pkh := sk + CB + pkBytes P + 2 * NN P in
  let pk_seedA := sk_pk in
  let pk_b := sk_pk + SEEDA in
  let B := zrep (NN P) 0 in
  let Bp := zrep (NN P) 0 in
  let W := zrep (NBAR * NBAR) 0 in
  let Cm := zrep (NBAR * NBAR) 0 in
  let CC := zrep (NBAR * NBAR) 0 in
  let BBp := zrep (NN P) 0 in
  let Sp := zrep (spLen P) 0 in
  let S := uninit (NN P) in
  let G2in := uninit (bytesH P + bytesMu P) in
  let G2out := uninit (2 * CB) in
  let Fin := uninit (ctBytes P + CB) in
  let shake_input := uninit (1 + CB) in
  (* 187-189 *)
  x <~ lift ((if sk_S mod 2 =? 0 then sub mem sk_S (2 * NN P) else Err UB_align)) ;;
  let skS := words_of_bytes en x in
  S <~ lift (for_ 0 (NN P) (fun i S => w <- rd skS i ;; wr S i (u16 (LE_TO_UINT16 en w))) S) ;;
  (* 192-196 *)
  x <~ lift (sub mem ct_c1 (bytesB P)) ;;
  Bp <~ lift (frodo_unpack Bp (NN P) x (bytesB P) (pD P)) ;;
  x <~ lift (sub mem ct_c2 (bytesC P)) ;;
  Cm <~ lift (frodo_unpack Cm (NBAR * NBAR) x (bytesC P) (pD P)) ;;
  W <~ lift (frodo_mul_bs P W Bp S) ;;
  W <~ lift (frodo_sub P Cm W) ;;
  mu <~ lift (sub G2in (bytesH P) (bytesMu P)) ;;
  mu <~ lift (frodo_key_decode P mu W) ;;
  G2in <~ lift (put G2in (bytesH P) mu) ;;
  (* 199-200 *)
  G2in <~ lift (memcpy G2in 0 mem sk_pkh (bytesH P)) ;;
  G2out <~ lift (shake_to P G2out 0 (CB + CB) G2in (bytesH P + bytesMu P)) ;;
  (* 203-209 *)
  shake_input <~ lift (wr shake_input 0 150) ;;
  shake_input <~ lift (memcpy shake_input 1 G2out 0 CB) ;;
  Sp <~ lift (shake_words C Sp (spLen P * 2) shake_input (1 + CB)) ;;
  Sp <~ lift (le_to_host en Sp (spLen P)) ;;
  (* 209-211 *)
  Sp <~ lift (sample_at P Sp 0 (NN P)) ;;
  Sp <~ lift (sample_at P Sp (NN P) (NN P)) ;;
  s <~ lift (sub Sp 0 (NN P)) ;;
  e <~ lift (sub Sp (NN P) (NN P)) ;;
  seedA <~ lift (sub mem pk_seedA SEEDA) ;;
  '(BBp, e) <~ evp_sa_plus_e ok C (2 * NN P) BBp s e seedA ;;
  Sp <~ lift (put Sp (NN P) e) ;;
  (* 214-216 *)
  Sp <~ lift (sample_at P Sp (2 * NN P) (NBAR * NBAR)) ;;
  x <~ lift (sub mem pk_b (pkBytes P - SEEDA)) ;;
  B <~ lift (frodo_unpack B (NN P) x (pkBytes P - SEEDA) (pD P)) ;;
  s <~ lift (sub Sp 0 (NN P)) ;;
  e <~ lift (sub Sp (2 * NN P) (NBAR * NBAR)) ;;
  W <~ lift (frodo_mul_add_sb_plus_e P W B s e) ;;
  (* 219-220 *)
  mu <~ lift (sub G2in (bytesH P) (bytesMu P)) ;;
  CC <~ lift (frodo_key_encode P CC mu) ;;
  CC <~ lift (frodo_add P W CC) ;;
  (* 223-226 *)
  Fin <~ lift (memcpy Fin 0 mem ct (ctBytes P)) ;;
  BBp <~ lift (mask_q P BBp (NN P)) ;;
  (* 232-235 *)
  v1 <~ lift (ct_verify Bp BBp (NN P)) ;;
  v2 <~ lift (ct_verify Cm CC (NBAR * NBAR)) ;;
  let selector := s8 (Z.lor v1 v2) in
  r <~ lift (sub Fin (ctBytes P) CB) ;;
  k <~ lift (sub G2out CB CB) ;;
  s0 <~ lift (sub mem sk_s CB) ;;
  r <~ lift (ct_select r k s0 CB selector) ;;
  Fin <~ lift (put Fin (ctBytes P) r) ;;
  mem <~ lift (shake_to P mem ss CB Fin (ctBytes P + CB)) ;;
  (* 238-246 *)
  W <~ lift (clear_words en W 0 (NBAR * NBAR)) ;;
  Sp <~ lift (clear_words en Sp 0 (NN P)) ;;
  S <~ lift (clear_words en S 0 (NN P)) ;;
  Sp <~ lift (clear_words en Sp (NN P) (NN P)) ;;
  Sp <~ lift (clear_words en Sp (2 * NN P) (NBAR * NBAR)) ;;
  G2in <~ lift (clear_at G2in (bytesH P) (bytesMu P)) ;;
  G2out <~ lift (clear_at G2out 0 (2 * CB)) ;;
  Fin <~ lift (clear_at Fin (ctBytes P) CB) ;;
  shake_input <~ lift (clear_at shake_input 0 (1 + CB)) ;;
  eret (mem, {| de_B := B; de_Bp := Bp; de_W := W; de_C := Cm; de_CC := CC; de_BBp := BBp;
               de_Sp := Sp; de_S := S; de_G2in := G2in; de_G2out := G2out; de_Fin := Fin;
               de_shake_input := shake_input |}, 0).

(** AES256_ECB of the known-answer tests' generator, tests/rng.h:27-40 *)
Definition evp_AES256_ECB (ok : Z -> bool) (key ctr buffer : list Z) : ev (list Z) :=
  _ <~ evp ok CtxNew ;;
  _ <~ evp ok EncryptInit ;;
  schedule <~ lift (AES256_load_schedule AesEVP key (uninit 240)) ;;
  _ <~ evp ok (EncryptUpdate 16) ;;
  buffer <~ lift (AES_ECB_enc_sch AesEVP 14 ctr 16 schedule buffer) ;;
  _ <~ evp ok CtxFree ;;
  _ <~ lift (AES_free_schedule schedule 15) ;;
  eret buffer.
