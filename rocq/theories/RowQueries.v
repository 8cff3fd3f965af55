(** The strings hashed with SHAKE128 for the rows of A: src/frodo_macrify.c and
    src/frodo_macrify_reference.c as in Macrify.v, with a record of their calls of shake128 and shake128_4x. *)
From Verif Require Import CSem Params Fips202 Fips202x4 Aes Macrify.

(** One call: the line of src/kem.c (39, 44, 64, 103, 108, 113, 135, 201, 206, 236) or 0 for a row of A,
    the rate (168: SHAKE128, 136: SHAKE256), the bytes that are hashed and the number of output bytes. *)
Record query := { q_line : Z; q_rate : Z; q_in : list Z; q_out : Z }.
(** shake128(row, 2N, seed_A_separated, 18), e.g. src/frodo_macrify_reference.c:47, or one of the four lanes
    of shake128_4x, e.g. src/frodo_macrify.c:96-97. *)
Definition ask_row (N : Z) (sep : list Z) : query :=
  {| q_line := 0; q_rate := 168; q_in := zslice sep 0 18; q_out := 2 * N |}.

(** src/frodo_macrify_reference.c:19-52 and 77-110; with AES nothing is hashed. *)
Definition ref_genA_asks (en : endian) (g : genA) (im : aesimpl) (N : Z) (seed_A : list Z) : res (list Z * list query) :=
  match g with
  | GenAES => A <- ref_genA en GenAES im N seed_A ;; ret (A, [])
  | GenSHAKE =>
    let A := zrep (N * N) 0 in
    sep <- memcpy (uninit 18) 2 seed_A 0 SEEDA ;;
    '(A, sep, qs) <- for_ 0 N (fun i '(A, sep, qs) =>
           sep <- set_origin en sep (u16 i) ;;
           A <- shake_row en N A i sep ;;
           ret (A, sep, qs ++ [ask_row N sep])) (A, sep, []) ;;
    A <- le_to_host en A (N * N) ;;
    ret (A, qs)
  end.
(** frodo_mul_add_as_plus_e, src/frodo_macrify_reference.c:14-69 *)
Definition ref_as_plus_e_asks (en : endian) (g : genA) (im : aesimpl) (N : Z)
    (out s e seed_A : list Z) : res (list Z * list query) :=
  '(A, qs) <- ref_genA_asks en g im N seed_A ;;
  out <- memcpy out 0 e 0 (NBAR * N) ;;
  out <- for_ 0 N (fun i out =>
    for_ 0 NBAR (fun k out =>
      sum <- for_ 0 N (fun j sum =>
               a <- rd A (i * N + j) ;; b <- rd s (k * N + j) ;; mac sum a b) 0 ;;
      add_to out (i * NBAR + k) sum) out) out ;;
  ret (out, qs).
(** frodo_mul_add_sa_plus_e, src/frodo_macrify_reference.c:72-127 *)
Definition ref_sa_plus_e_asks (en : endian) (g : genA) (im : aesimpl) (N : Z)
    (out s e seed_A : list Z) : res (list Z * list query) :=
  '(A, qs) <- ref_genA_asks en g im N seed_A ;;
  out <- memcpy out 0 e 0 (NBAR * N) ;;
  out <- for_ 0 N (fun i out =>
    for_ 0 NBAR (fun k out =>
      sum <- for_ 0 N (fun j sum =>
               a <- rd A (j * N + i) ;; b <- rd s (k * N + j) ;; mac sum a b) 0 ;;
      add_to out (k * N + i) sum) out) out ;;
  ret (out, qs).

(** src/frodo_macrify.c:70-77 (R = 4) and 182-197 (R = 8), written as a loop. *)
Definition shake_rows_asks (en : endian) (N R i : Z) (A sep : list Z) : res (list Z * list Z * list query) :=
  for_ 0 R (fun q '(A, sep, qs) =>
    sep <- set_origin en sep (i + q) ;;
    A <- shake_row en N A q sep ;;
    ret (A, sep, qs ++ [ask_row N sep])) (A, sep, []).
(** One block of four rows of as_plus_e: src/frodo_macrify.c:51-63, 69-77, 91-97. *)
Definition as_rows_asks (en : endian) (im : aesimpl) (N i : Z) (a_row : list Z) (st : gst)
    : res (list Z * gst * list query) :=
  match st with
  | GsAES _ _ => '(a_row, st) <- as_rows en im N i a_row st ;; ret (a_row, st, [])
  | GsSHAKE sep =>
    '(a_row, sep, qs) <- shake_rows_asks en N 4 i a_row sep ;;
    ret (a_row, GsSHAKE sep, qs)
  | GsSHAKE4 sep0 sep1 sep2 sep3 =>
    sep0 <- set_origin en sep0 (i + 0) ;;
    sep1 <- set_origin en sep1 (i + 1) ;;
    sep2 <- set_origin en sep2 (i + 2) ;;
    sep3 <- set_origin en sep3 (i + 3) ;;
    a_row <- shake_4rows true en N a_row 0 sep0 sep1 sep2 sep3 ;;
    ret (a_row, GsSHAKE4 sep0 sep1 sep2 sep3, [ask_row N sep0; ask_row N sep1; ask_row N sep2; ask_row N sep3])
  end.
(** frodo_mul_add_as_plus_e, src/frodo_macrify.c:21-123 *)
Definition opt_as_plus_e_asks (en : endian) (g : genA) (im : aesimpl) (avx : bool) (N : Z)
    (out s e seed_A : list Z) : res (list Z * list query) :=
  let a_row := zrep (4 * N) 0 in
  out <- for_step 0 (N * NBAR) 2 (fun i out => x <- sub e i 2 ;; put out i x) out ;;
  st <- as_init en g im avx N seed_A ;;
  '(out, a_row, st, qs) <- for_step 0 N 4 (fun i '(out, a_row, st, qs) =>
    '(a_row, st, qs1) <- as_rows_asks en im N i a_row st ;;
    a_row <- le_to_host en a_row (4 * N) ;;
    out <- for_ 0 NBAR (fun k out =>
      '(sum0, sum1, sum2, sum3) <- for_ 0 N (fun j '(sum0, sum1, sum2, sum3) =>
          sp <- rd s (k * N + j) ;;
          a0 <- rd a_row (0 * N + j) ;; sum0 <- mac sum0 a0 sp ;;
          a1 <- rd a_row (1 * N + j) ;; sum1 <- mac sum1 a1 sp ;;
          a2 <- rd a_row (2 * N + j) ;; sum2 <- mac sum2 a2 sp ;;
          a3 <- rd a_row (3 * N + j) ;; sum3 <- mac sum3 a3 sp ;;
          ret (sum0, sum1, sum2, sum3)) (0, 0, 0, 0) ;;
      out <- add_to out ((i + 0) * NBAR + k) sum0 ;;
      out <- add_to out ((i + 2) * NBAR + k) sum2 ;;
      out <- add_to out ((i + 1) * NBAR + k) sum1 ;;
      add_to out ((i + 3) * NBAR + k) sum3) out ;;
    ret (out, a_row, st, qs ++ qs1)) (out, a_row, st, []) ;;
  gst_free st ;;;
  ret (out, qs).
(** One block of eight rows of sa_plus_e: src/frodo_macrify.c:160-173, 181-197, 213-228. *)
Definition sa_rows_asks (en : endian) (im : aesimpl) (N i : Z) (A : list Z) (st : gst)
    : res (list Z * gst * list query) :=
  match st with
  | GsAES _ _ => '(A, st) <- sa_rows en im N i A st ;; ret (A, st, [])
  | GsSHAKE sep =>
    '(A, sep, qs) <- shake_rows_asks en N 8 i A sep ;;
    ret (A, GsSHAKE sep, qs)
  | GsSHAKE4 sep0 sep1 sep2 sep3 =>
    sep0 <- set_origin en sep0 (i + 0) ;;
    sep1 <- set_origin en sep1 (i + 1) ;;
    sep2 <- set_origin en sep2 (i + 2) ;;
    sep3 <- set_origin en sep3 (i + 3) ;;
    A <- shake_4rows true en N A 0 sep0 sep1 sep2 sep3 ;;
    let qs := [ask_row N sep0; ask_row N sep1; ask_row N sep2; ask_row N sep3] in
    sep0 <- set_origin en sep0 (i + 4) ;;
    sep1 <- set_origin en sep1 (i + 5) ;;
    sep2 <- set_origin en sep2 (i + 6) ;;
    sep3 <- set_origin en sep3 (i + 7) ;;
    A <- shake_4rows true en N A 4 sep0 sep1 sep2 sep3 ;;
    ret (A, GsSHAKE4 sep0 sep1 sep2 sep3, qs ++ [ask_row N sep0; ask_row N sep1; ask_row N sep2; ask_row N sep3])
  end.
(** frodo_mul_add_sa_plus_e, src/frodo_macrify.c:126-272 *)
Definition opt_sa_plus_e_asks (en : endian) (g : genA) (im : aesimpl) (avx : bool) (N ebase : Z)
    (out s e seed_A : list Z) : res (list Z * list Z * list query) :=
  let A := zrep (N * 8) 0 in
  st <- sa_init en g im avx N seed_A ;;
  '(e, A, st, qs) <- for_step 0 N 8 (fun i '(e, A, st, qs) =>
    '(A, st, qs1) <- sa_rows_asks en im N i A st ;;
    e <- (if avx then sa_block_avx ebase N i A s e else sa_block N i A s e) ;;
    ret (e, A, st, qs ++ qs1)) (e, A, st, []) ;;
  out <- memcpy out 0 e 0 (N * NBAR) ;;
  gst_free st ;;;
  ret (out, e, qs).

(** frodo_mul_add_as_plus_e, the routine that is compiled in: src/frodo_macrify.c:21-123 or
    src/frodo_macrify_reference.c:14-69 *)
Definition as_plus_e_asks (C : config) (out s e seed_A : list Z) : res (list Z * list query) :=
  match cImpl C with
  | Reference => ref_as_plus_e_asks (cEn C) (cGen C) (cAes C) (pN (cP C)) out s e seed_A
  | im => opt_as_plus_e_asks (cEn C) (cGen C) (cAes C) (is_avx im) (pN (cP C)) out s e seed_A
  end.
(** frodo_mul_add_sa_plus_e, likewise: src/frodo_macrify.c:126-272 or src/frodo_macrify_reference.c:72-127 *)
Definition sa_plus_e_asks (C : config) (ebase : Z) (out s e seed_A : list Z) : res (list Z * list Z * list query) :=
  match cImpl C with
  | Reference =>
    '(out, qs) <- ref_sa_plus_e_asks (cEn C) (cGen C) (cAes C) (pN (cP C)) out s e seed_A ;; ret (out, e, qs)
  | im => opt_sa_plus_e_asks (cEn C) (cGen C) (cAes C) (is_avx im) (pN (cP C)) ebase out s e seed_A
  end.
