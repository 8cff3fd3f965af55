(** Model of the matrix arithmetic: src/frodo_macrify.c (optimized, portable and AVX2)
    and src/frodo_macrify_reference.c.

    Simplifications.  [uint16_t]/[int16_t] arrays are lists of raw 16-bit values; an
    [int16_t] operand is read through [s16].  A [(uint8_t* )] view of such an array is
    [bytes_of_words en], the way back is [words_of_bytes en].  With OpenSSL
    the calls of the EVP interface take the place of AES128_load_schedule, AES128_ECB_enc_sch
    and AES128_free_schedule (see Aes.v).  Wiping the AES key schedule at the end
    (AES128_free_schedule) is modelled for its memory accesses; the schedule is then
    out of scope.  The constant return value 1 is not modelled. *)
From Verif Require Import CSem Params Fips202 Fips202x4 Aes.

(** The (uint16_t* ) store seed_A_origin[0] = UINT16_TO_LE(i) into the 18-byte buffer
    seed_A_separated, e.g. src/frodo_macrify_reference.c:46. *)
Definition set_origin (en : endian) (sep : list Z) (i : Z) : res (list Z) :=
  put sep 0 (bytes_of_words en [u16 (UINT16_TO_LE en i)]).
(** One call shake128((unsigned char* )(A + row*N), 2N, seed_A_separated, 18), e.g.
    src/frodo_macrify_reference.c:47. *)
Definition shake_row (en : endian) (N : Z) (A : list Z) (row : Z) (sep : list Z) : res (list Z) :=
  r <- sub A (row * N) N ;;
  o <- shake128 (bytes_of_words en r) (2 * N) sep 18 ;;
  put A (row * N) (words_of_bytes en o).
(** One call shake128_4x into rows r0..r0+3 of A, e.g. src/frodo_macrify.c:96-97.  [al]:
    see Fips202x4.v. *)
Definition shake_4rows (al : bool) (en : endian) (N : Z) (A : list Z) (r0 : Z)
    (sep0 sep1 sep2 sep3 : list Z) : res (list Z) :=
  x0 <- sub A ((r0 + 0) * N) N ;; x1 <- sub A ((r0 + 1) * N) N ;;
  x2 <- sub A ((r0 + 2) * N) N ;; x3 <- sub A ((r0 + 3) * N) N ;;
  '(o0, o1, o2, o3) <- shake128_4x al (bytes_of_words en x0, bytes_of_words en x1,
                         bytes_of_words en x2, bytes_of_words en x3) (2 * N)
                         sep0 sep1 sep2 sep3 18 ;;
  A <- put A ((r0 + 0) * N) (words_of_bytes en o0) ;;
  A <- put A ((r0 + 1) * N) (words_of_bytes en o1) ;;
  A <- put A ((r0 + 2) * N) (words_of_bytes en o2) ;;
  put A ((r0 + 3) * N) (words_of_bytes en o3).

(** for (i = 0; i < n; i++) A[i] = LE_TO_UINT16(A[i]);
    src/frodo_macrify_reference.c:50-52, 108-110; src/frodo_macrify.c:100-102;
    src/kem.c:45-47, 114-116, 207-209. *)
Definition le_to_host (en : endian) (A : list Z) (n : Z) : res (list Z) :=
  for_ 0 n (fun i A => x <- rd A i ;; wr A i (u16 (LE_TO_UINT16 en x))) A.

(** sum += x * y with sum uint16_t, x int16_t (raw), y uint16_t (raw): the product and
    the sum are ints. *)
Definition mac (sum x y : Z) : res Z :=
  p <- i32 (s16 x * y) ;; t <- i32 (sum + p) ;; ret (u16 t).
(** out[i] += v *)
Definition add_to (out : list Z) (i v : Z) : res (list Z) :=
  o <- rd out i ;; t <- i32 (o + v) ;; wr out i (u16 t).

(* ================================================================== *)
(** * src/frodo_macrify_reference.c *)

(** Generation of A: src/frodo_macrify_reference.c:19-52 and, identically, 77-110. *)
Definition ref_genA (en : endian) (g : genA) (im : aesimpl) (N : Z) (seed_A : list Z) : res (list Z) :=
  let A := zrep (N * N) 0 in
  A <- match g with
  | GenAES =>
    A <- for_ 0 N (fun i A =>
           for_step 0 N STRIPE (fun j A =>
             A <- wr A (i * N + j) (u16 (UINT16_TO_LE en i)) ;;
             wr A (i * N + j + 1) (u16 (UINT16_TO_LE en j))) A) A ;;
    sch <- AES128_load_schedule im seed_A (uninit 176) ;;
    b <- AES_ECB_enc_sch_inplace im 10 (bytes_of_words en A) (N * N * 2) sch ;;
    AES_free_schedule sch 11 ;;;
    ret (words_of_bytes en b)
  | GenSHAKE =>
    sep <- memcpy (uninit 18) 2 seed_A 0 SEEDA ;;
    '(A, sep) <- for_ 0 N (fun i '(A, sep) =>
           sep <- set_origin en sep (u16 i) ;;
           A <- shake_row en N A i sep ;;
           ret (A, sep)) (A, sep) ;;
    ret A
  end ;;
  le_to_host en A (N * N).

(** frodo_mul_add_as_plus_e, src/frodo_macrify_reference.c:14-69 *)
Definition ref_as_plus_e (en : endian) (g : genA) (im : aesimpl) (N : Z)
    (out s e seed_A : list Z) : res (list Z) :=
  A <- ref_genA en g im N seed_A ;;
  out <- memcpy out 0 e 0 (NBAR * N) ;;
  for_ 0 N (fun i out =>
    for_ 0 NBAR (fun k out =>
      sum <- for_ 0 N (fun j sum =>
               a <- rd A (i * N + j) ;; b <- rd s (k * N + j) ;; mac sum a b) 0 ;;
      add_to out (i * NBAR + k) sum) out) out.

(** frodo_mul_add_sa_plus_e, src/frodo_macrify_reference.c:72-127 *)
Definition ref_sa_plus_e (en : endian) (g : genA) (im : aesimpl) (N : Z)
    (out s e seed_A : list Z) : res (list Z) :=
  A <- ref_genA en g im N seed_A ;;
  out <- memcpy out 0 e 0 (NBAR * N) ;;
  for_ 0 N (fun i out =>
    for_ 0 NBAR (fun k out =>
      sum <- for_ 0 N (fun j sum =>
               a <- rd A (j * N + i) ;; b <- rd s (k * N + j) ;; mac sum a b) 0 ;;
      add_to out (k * N + i) sum) out) out.

(* ================================================================== *)
(** * src/frodo_macrify.c *)

(** State of the row generator across the blocks of rows: the AES schedule and the
    template array, or the seed buffers. *)
Inductive gst :=
| GsAES (sch temp : list Z)
| GsSHAKE (sep : list Z)
| GsSHAKE4 (sep0 sep1 sep2 sep3 : list Z).

(** The calls of shake128 for [R] consecutive rows starting with row [i] of the whole
    matrix: src/frodo_macrify.c:70-77 (R = 4) and 182-197 (R = 8), written as a loop. *)
Definition shake_rows (en : endian) (N R i : Z) (A sep : list Z) : res (list Z * list Z) :=
  for_ 0 R (fun q '(A, sep) =>
    sep <- set_origin en sep (i + q) ;;
    A <- shake_row en N A q sep ;;
    ret (A, sep)) (A, sep).

(** as_plus_e, before the loop over rows: src/frodo_macrify.c:32-49 (AES), 64-68 (SHAKE),
    79-90 (four-way SHAKE). *)
Definition as_init (en : endian) (g : genA) (im : aesimpl) (avx : bool) (N : Z) (seed_A : list Z) : res gst :=
  match g with
  | GenAES =>
    let temp := zrep (4 * N) 0 in
    sch <- AES128_load_schedule im seed_A (uninit 176) ;;
    temp <- for_step 0 N STRIPE (fun j temp =>
              temp <- wr temp (j + 1 + 0 * N) (u16 (UINT16_TO_LE en j)) ;;
              temp <- wr temp (j + 1 + 1 * N) (u16 (UINT16_TO_LE en j)) ;;
              temp <- wr temp (j + 1 + 2 * N) (u16 (UINT16_TO_LE en j)) ;;
              wr temp (j + 1 + 3 * N) (u16 (UINT16_TO_LE en j))) temp ;;
    ret (GsAES sch temp)
  | GenSHAKE =>
    if avx then
      sep0 <- memcpy (uninit 18) 2 seed_A 0 SEEDA ;;
      sep1 <- memcpy (uninit 18) 2 seed_A 0 SEEDA ;;
      sep2 <- memcpy (uninit 18) 2 seed_A 0 SEEDA ;;
      sep3 <- memcpy (uninit 18) 2 seed_A 0 SEEDA ;;
      ret (GsSHAKE4 sep0 sep1 sep2 sep3)
    else
      sep <- memcpy (uninit 18) 2 seed_A 0 SEEDA ;;
      ret (GsSHAKE sep)
  end.
(** as_plus_e, one block of four rows: src/frodo_macrify.c:51-63, 69-77, 91-97. *)
Definition as_rows (en : endian) (im : aesimpl) (N i : Z) (a_row : list Z) (st : gst)
    : res (list Z * gst) :=
  match st with
  | GsAES sch temp =>
    temp <- for_step 0 N STRIPE (fun j temp =>
              temp <- wr temp (j + 0 * N) (u16 (UINT16_TO_LE en (i + 0))) ;;
              temp <- wr temp (j + 1 * N) (u16 (UINT16_TO_LE en (i + 1))) ;;
              temp <- wr temp (j + 2 * N) (u16 (UINT16_TO_LE en (i + 2))) ;;
              wr temp (j + 3 * N) (u16 (UINT16_TO_LE en (i + 3)))) temp ;;
    b <- AES_ECB_enc_sch im 10 (bytes_of_words en temp) (4 * N * 2) sch (bytes_of_words en a_row) ;;
    ret (words_of_bytes en b, GsAES sch temp)
  | GsSHAKE sep =>
    '(a_row, sep) <- shake_rows en N 4 i a_row sep ;;
    ret (a_row, GsSHAKE sep)
  | GsSHAKE4 sep0 sep1 sep2 sep3 =>
    sep0 <- set_origin en sep0 (i + 0) ;;
    sep1 <- set_origin en sep1 (i + 1) ;;
    sep2 <- set_origin en sep2 (i + 2) ;;
    sep3 <- set_origin en sep3 (i + 3) ;;
    a_row <- shake_4rows true en N a_row 0 sep0 sep1 sep2 sep3 ;;
    ret (a_row, GsSHAKE4 sep0 sep1 sep2 sep3)
  end.
(** AES128_free_schedule at the end: src/frodo_macrify.c:119-121, 268-270. *)
Definition gst_free (st : gst) : res unit :=
  match st with
  | GsAES sch _ => AES_free_schedule sch 11 ;;; ret tt
  | _ => ret tt
  end.

(** frodo_mul_add_as_plus_e, src/frodo_macrify.c:21-123.  The copy of e to out through
    uint32_t pointers (lines 28-30) moves two elements at a time. *)
Definition opt_as_plus_e (en : endian) (g : genA) (im : aesimpl) (avx : bool) (N : Z)
    (out s e seed_A : list Z) : res (list Z) :=
  let a_row := zrep (4 * N) 0 in
  out <- for_step 0 (N * NBAR) 2 (fun i out => x <- sub e i 2 ;; put out i x) out ;;
  st <- as_init en g im avx N seed_A ;;
  '(out, a_row, st) <- for_step 0 N 4 (fun i '(out, a_row, st) =>
    '(a_row, st) <- as_rows en im N i a_row st ;;
    a_row <- le_to_host en a_row (4 * N) ;;
    out <- for_ 0 NBAR (fun k out =>
      '(sum0, sum1, sum2, sum3) <- for_ 0 N (fun j '(sum0, sum1, sum2, sum3) =>
          sp <- rd s (k * N + j) ;;
          a0 <- rd a_row (0 * N + j) ;; sum0 <- mac sum0 a0 sp ;;
          a1 <- rd a_row (1 * N + j) ;; sum1 <- mac sum1 a1 sp ;;
          a2 <- rd a_row (2 * N + j) ;; sum2 <- mac sum2 a2 sp ;;
          a3 <- rd a_row (3 * N + j) ;; sum3 <- mac sum3 a3 sp ;;
          ret (sum0, sum1, sum2, sum3)) (0, 0, 0, 0) ;;
      out <- add_to out ((i + 0) * NBAR + k) sum0 ;;
      out <- add_to out ((i + 2) * NBAR + k) sum2 ;;
      out <- add_to out ((i + 1) * NBAR + k) sum1 ;;
      add_to out ((i + 3) * NBAR + k) sum3) out ;;
    ret (out, a_row, st)) (out, a_row, st) ;;
  gst_free st ;;;
  ret out.

(** sa_plus_e, before the loop: src/frodo_macrify.c:135-157 (AES), 175-178 (SHAKE),
    199-210 (four-way SHAKE). *)
Definition sa_init (en : endian) (g : genA) (im : aesimpl) (avx : bool) (N : Z) (seed_A : list Z) : res gst :=
  match g with
  | GenAES =>
    sch <- AES128_load_schedule im seed_A (uninit 176) ;;
    let Ainit := zrep (N * 8) 0 in
    Ainit <- for_step 0 N 8 (fun j Ainit =>
              Ainit <- wr Ainit (0 * N + j + 1) (u16 (UINT16_TO_LE en j)) ;;
              Ainit <- wr Ainit (1 * N + j + 1) (u16 (UINT16_TO_LE en j)) ;;
              Ainit <- wr Ainit (2 * N + j + 1) (u16 (UINT16_TO_LE en j)) ;;
              Ainit <- wr Ainit (3 * N + j + 1) (u16 (UINT16_TO_LE en j)) ;;
              Ainit <- wr Ainit (4 * N + j + 1) (u16 (UINT16_TO_LE en j)) ;;
              Ainit <- wr Ainit (5 * N + j + 1) (u16 (UINT16_TO_LE en j)) ;;
              Ainit <- wr Ainit (6 * N + j + 1) (u16 (UINT16_TO_LE en j)) ;;
              wr Ainit (7 * N + j + 1) (u16 (UINT16_TO_LE en j))) Ainit ;;
    ret (GsAES sch Ainit)
  | GenSHAKE =>
    if avx then
      sep0 <- memcpy (uninit 18) 2 seed_A 0 SEEDA ;;
      sep1 <- memcpy (uninit 18) 2 seed_A 0 SEEDA ;;
      sep2 <- memcpy (uninit 18) 2 seed_A 0 SEEDA ;;
      sep3 <- memcpy (uninit 18) 2 seed_A 0 SEEDA ;;
      ret (GsSHAKE4 sep0 sep1 sep2 sep3)
    else
      sep <- memcpy (uninit 18) 2 seed_A 0 SEEDA ;;
      ret (GsSHAKE sep)
  end.
(** sa_plus_e, one block of eight rows: src/frodo_macrify.c:160-173, 181-197, 213-228. *)
Definition sa_rows (en : endian) (im : aesimpl) (N i : Z) (A : list Z) (st : gst)
    : res (list Z * gst) :=
  match st with
  | GsAES sch Ainit =>
    Ainit <- for_ 0 8 (fun q Ainit =>
               for_step 0 N 8 (fun p Ainit =>
                 wr Ainit (q * N + p) (u16 (UINT16_TO_LE en (i + q)))) Ainit) Ainit ;;
    b <- AES_ECB_enc_sch im 10 (bytes_of_words en Ainit) (8 * N * 2) sch (bytes_of_words en A) ;;
    ret (words_of_bytes en b, GsAES sch Ainit)
  | GsSHAKE sep =>
    '(A, sep) <- shake_rows en N 8 i A sep ;;
    ret (A, GsSHAKE sep)
  | GsSHAKE4 sep0 sep1 sep2 sep3 =>
    sep0 <- set_origin en sep0 (i + 0) ;;
    sep1 <- set_origin en sep1 (i + 1) ;;
    sep2 <- set_origin en sep2 (i + 2) ;;
    sep3 <- set_origin en sep3 (i + 3) ;;
    A <- shake_4rows true en N A 0 sep0 sep1 sep2 sep3 ;;
    sep0 <- set_origin en sep0 (i + 4) ;;
    sep1 <- set_origin en sep1 (i + 5) ;;
    sep2 <- set_origin en sep2 (i + 6) ;;
    sep3 <- set_origin en sep3 (i + 7) ;;
    A <- shake_4rows true en N A 4 sep0 sep1 sep2 sep3 ;;
    ret (A, GsSHAKE4 sep0 sep1 sep2 sep3)
  end.

(** The portable block multiplication, src/frodo_macrify.c:233-246: e += S'[., i..i+7] * A. *)
Definition sa_block (N i : Z) (A s e : list Z) : res (list Z) :=
  for_ 0 NBAR (fun j e =>
    sp <- for_ 0 8 (fun p sp => x <- rd s (j * N + i + p) ;; wr sp p x) (uninit 8) ;;
    for_ 0 N (fun q e =>
      sum <- rd e (j * N + q) ;;
      sum <- for_ 0 8 (fun p sum =>
               x <- rd sp p ;; a <- rd A (p * N + q) ;; mac sum x a) sum ;;
      wr e (j * N + q) sum) e) e.

(** AVX2 intrinsics on 256-bit vectors seen as 16 lanes of 16 bits (lists of 16 values).
    _mm256_load_si256 / _mm256_store_si256 require a 32-byte aligned address: [base] is
    the address of element 0 of the array. *)
Definition mm256_load (base : Z) (l : list Z) (i : Z) : res (list Z) :=
  if (base + 2 * i) mod 32 =? 0 then sub l i 16 else Err UB_align.
(** _mm256_store_si256 to a uint16_t array, aligned as in [mm256_load]; src/frodo_macrify.c:249-263 *)
Definition mm256_store (base : Z) (l : list Z) (i : Z) (v : list Z) : res (list Z) :=
  if (base + 2 * i) mod 32 =? 0 then put l i v else Err UB_align.
(** _mm256_set1_epi16, src/frodo_macrify.c:249-263 *)
Definition mm256_set1_epi16 (x : Z) : list Z := zrep 16 x.
(** low 16 bits of the 16x16-bit product; sum modulo 2^16 *)
Definition mm256_mullo_epi16 (a b : list Z) : list Z := ztab 16 (fun t => u16 (znth a t * znth b t)).
(** _mm256_add_epi16, src/frodo_macrify.c:249-263 *)
Definition mm256_add_epi16 (a b : list Z) : list Z := ztab 16 (fun t => u16 (znth a t + znth b t)).

(** The AVX2 block multiplication, src/frodo_macrify.c:249-263.  A is declared 32-byte
    aligned (line 133), so its base address is 0 modulo 32; [ebase] is the address of e. *)
Definition sa_block_avx (ebase N i : Z) (A s e : list Z) : res (list Z) :=
  for_ 0 NBAR (fun j e =>
    sp <- for_ 0 8 (fun p sp => x <- rd s (j * N + i + p) ;; put sp (16 * p) (mm256_set1_epi16 x))
             (uninit 128) ;;
    for_step 0 N 16 (fun q e =>
      acc <- mm256_load ebase e (j * N + q) ;;
      acc <- for_ 0 8 (fun p acc =>
               b <- mm256_load 0 A (p * N + q) ;;
               x <- sub sp (16 * p) 16 ;;
               let b := mm256_mullo_epi16 b x in
               ret (mm256_add_epi16 b acc)) acc ;;
      mm256_store ebase e (j * N + q) acc) e) e.

(** frodo_mul_add_sa_plus_e, src/frodo_macrify.c:126-272.  Returns out and the
    overwritten e. *)
Definition opt_sa_plus_e (en : endian) (g : genA) (im : aesimpl) (avx : bool) (N ebase : Z)
    (out s e seed_A : list Z) : res (list Z * list Z) :=
  let A := zrep (N * 8) 0 in
  st <- sa_init en g im avx N seed_A ;;
  '(e, A, st) <- for_step 0 N 8 (fun i '(e, A, st) =>
    '(A, st) <- sa_rows en im N i A st ;;
    e <- (if avx then sa_block_avx ebase N i A s e else sa_block N i A s e) ;;
    ret (e, A, st)) (e, A, st) ;;
  out <- memcpy out 0 e 0 (N * NBAR) ;;
  gst_free st ;;;
  ret (out, e).

(* ================================================================== *)
(** * The routine that is compiled in, by configuration *)
Definition is_avx (im : impl) : bool := match im with AVX2 => true | _ => false end.
(** frodo_mul_add_as_plus_e *)
Definition as_plus_e (C : config) (out s e seed_A : list Z) : res (list Z) :=
  match cImpl C with
  | Reference => ref_as_plus_e (cEn C) (cGen C) (cAes C) (pN (cP C)) out s e seed_A
  | im => opt_as_plus_e (cEn C) (cGen C) (cAes C) (is_avx im) (pN (cP C)) out s e seed_A
  end.
(** frodo_mul_add_sa_plus_e; the reference leaves e alone. *)
Definition sa_plus_e (C : config) (ebase : Z) (out s e seed_A : list Z) : res (list Z * list Z) :=
  match cImpl C with
  | Reference => out <- ref_sa_plus_e (cEn C) (cGen C) (cAes C) (pN (cP C)) out s e seed_A ;; ret (out, e)
  | im => opt_sa_plus_e (cEn C) (cGen C) (cAes C) (is_avx im) (pN (cP C)) ebase out s e seed_A
  end.

(* ================================================================== *)
(** * Functions that are the same in both files *)

(** frodo_mul_bs, src/frodo_macrify.c:275-290, src/frodo_macrify_reference.c:130-145 *)
Definition frodo_mul_bs (P : params) (out b s : list Z) : res (list Z) :=
  let N := pN P in
  for_ 0 NBAR (fun i out =>
    for_ 0 NBAR (fun j out =>
      out <- wr out (i * NBAR + j) 0 ;;
      out <- for_ 0 N (fun k out =>
               o <- rd out (i * NBAR + j) ;;
               x <- rd b (i * N + k) ;; y <- rd s (j * N + k) ;;
               v <- mac o y x ;;
               wr out (i * NBAR + j) v) out ;;
      o <- rd out (i * NBAR + j) ;;
      m <- shl32 1 (pD P) ;; m <- i32 (m - 1) ;;
      wr out (i * NBAR + j) (u16 (Z.land o m))) out) out.

(** frodo_mul_add_sb_plus_e, src/frodo_macrify.c:293-308, reference 148-163 *)
Definition frodo_mul_add_sb_plus_e (P : params) (out b s e : list Z) : res (list Z) :=
  let N := pN P in
  for_ 0 NBAR (fun k out =>
    for_ 0 NBAR (fun i out =>
      x <- rd e (k * NBAR + i) ;;
      out <- wr out (k * NBAR + i) x ;;
      out <- for_ 0 N (fun j out =>
               o <- rd out (k * NBAR + i) ;;
               x <- rd s (k * N + j) ;; y <- rd b (j * NBAR + i) ;;
               v <- mac o x y ;;
               wr out (k * NBAR + i) v) out ;;
      o <- rd out (k * NBAR + i) ;;
      m <- shl32 1 (pD P) ;; m <- i32 (m - 1) ;;
      wr out (k * NBAR + i) (u16 (Z.land o m))) out) out.

(** frodo_add, src/frodo_macrify.c:311-319, reference 166-174, as the KEM calls it:
    with out and b the same array (src/kem.c:129, 221). *)
Definition frodo_add (P : params) (a b : list Z) : res (list Z) :=
  for_ 0 (NBAR * NBAR) (fun i b =>
    x <- rd a i ;; y <- rd b i ;;
    t <- i32 (x + y) ;;
    m <- shl32 1 (pD P) ;; m <- i32 (m - 1) ;;
    wr b i (u16 (Z.land t m))) b.
(** frodo_sub, src/frodo_macrify.c:322-330, reference 177-185, called with out and b the
    same array (src/kem.c:196). *)
Definition frodo_sub (P : params) (a b : list Z) : res (list Z) :=
  for_ 0 (NBAR * NBAR) (fun i b =>
    x <- rd a i ;; y <- rd b i ;;
    t <- i32 (x - y) ;;
    m <- shl32 1 (pD P) ;; m <- i32 (m - 1) ;;
    wr b i (u16 (Z.land t m))) b.

(** frodo_key_encode, src/frodo_macrify.c:333-350, reference 188-205.  [inp] is the byte
    view of the argument, the only way it is read. *)
Definition frodo_key_encode (P : params) (out inp : list Z) : res (list Z) :=
  let nwords := (NBAR * NBAR) / 8 in
  m <- shl64 1 (pB P) ;;
  let mask := u64 (m - 1) in
  '(out, pos) <- for_ 0 nwords (fun i '(out, pos) =>
    temp <- for_ 0 (pB P) (fun j temp =>
              x <- rd inp (i * pB P + j) ;;
              y <- shl64 x (8 * j) ;;
              ret (Z.lor temp y)) 0 ;;
    '(out, pos, temp) <- for_ 0 8 (fun j '(out, pos, temp) =>
              v <- shl64 (Z.land temp mask) (pD P - pB P) ;;
              out <- wr out pos (u16 v) ;;
              temp <- shr64 temp (pB P) ;;
              ret (out, pos + 1, temp)) (out, pos, temp) ;;
    ret (out, pos)) (out, 0) ;;
  ret out.

(** frodo_key_decode, src/frodo_macrify.c:353-371, reference 208-226.  [out] is the byte
    view of the result, the only way it is written.  maskq is the uint16_t
    (1 << LOGQ) - 1, maskex the uint16_t (1 << EXTRACTED_BITS) - 1. *)
Definition frodo_key_decode (P : params) (out inp : list Z) : res (list Z) :=
  let nwords := (NBAR * NBAR) / 8 in
  mx <- shl32 1 (pB P) ;; mx <- i32 (mx - 1) ;;
  mq <- shl32 1 (pD P) ;; mq <- i32 (mq - 1) ;;
  let maskex := u16 mx in
  let maskq := u16 mq in
  '(out, index) <- for_ 0 nwords (fun i '(out, index) =>
    '(templong, index) <- for_ 0 8 (fun j '(templong, index) =>
              x <- rd inp index ;;
              h <- shl32 1 (pD P - pB P - 1) ;;
              t <- i32 (Z.land x maskq + h) ;;
              t <- shr32 t (pD P - pB P) ;;
              let temp := u16 t in
              y <- shl64 (Z.land temp maskex) (pB P * j) ;;
              ret (Z.lor templong y, index + 1)) (0, index) ;;
    out <- for_ 0 (pB P) (fun j out =>
              y <- shr64 templong (8 * j) ;;
              wr out (i * pB P + j) (u8 (Z.land y 255))) out ;;
    ret (out, index)) (out, 0) ;;
  ret out.

(* ------------------------------------------------------------------ *)
(** Smoke tests: all builds agree on a small matrix (N = 16). *)
Definition toycfg (en : endian) (im : impl) (g : genA) (a : aesimpl) : config :=
  {| cP := toy; cEn := en; cImpl := im; cGen := g; cAes := a |}.
(** The value of a run that has one (for the examples). *)
Definition okv {A} (m : res A) : option A := match m with Ok v _ => Some v | Err _ => None end.
Example as_run :
  let s := ztab 128 (fun i => (i * i * 7919) mod 65536) in
  let e := ztab 128 (fun i => (i * 31) mod 65536) in
  let r := okv (as_plus_e (toycfg LE Reference GenAES AesC) (uninit 128) s e (zseq 16)) in
  let r2 := okv (as_plus_e (toycfg BE Optimized GenAES AesNI) (uninit 128) s e (zseq 16)) in
  r <> None /\ r = r2.
Proof. vm_compute. split; [congruence|reflexivity]. Qed.
Example sa_run :
  let s := ztab 128 (fun i => (i * i * 7919) mod 65536) in
  let e := ztab 128 (fun i => (i * 31) mod 65536) in
  let r := option_map fst (okv (sa_plus_e (toycfg LE Reference GenAES AesC) 0 (uninit 128) s e (zseq 16))) in
  let r2 := option_map fst (okv (sa_plus_e (toycfg LE AVX2 GenAES AesNI) 0 (uninit 128) s e (zseq 16))) in
  r <> None /\ r = r2.
Proof. vm_compute. split; [congruence|reflexivity]. Qed.
