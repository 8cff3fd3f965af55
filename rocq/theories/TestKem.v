(** Model of kem_test, the self test of tests/test_kem.c:22-87 (compiled by test_KEM640.c,
    test_KEM976.c and test_KEM1344.c).  Left out: printing, the annotations of the valgrind build (see PropTestCT.v).  kem_bench
    and main (:90-124) are in Bench.v. *)
From Verif Require Import CSem Params Kem.

(** Where the arrays pk, sk, ss_encap, ss_decap and ct are in memory (:24-27). *)
Record tframe := { t_pk : Z; t_sk : Z; t_sse : Z; t_ssd : Z; t_ct : Z }.

(** *pos as a uint32_t read from bytes[4] (:28-29), in the byte order of the host. *)
Definition u32_at (en : endian) (b0 b1 b2 b3 : Z) : Z :=
  match en with
  | LE => b0 + 256 * (b1 + 256 * (b2 + 256 * b3))
  | BE => b3 + 256 * (b2 + 256 * (b1 + 256 * b0))
  end.
(** ((uint16_t* )ct)[pos] ^= pos, :64: pos is truncated to 16 bits by the assignment. *)
Definition xor_word (en : endian) (mem : list Z) (ct pos : Z) : res (list Z) :=
  (if ct mod 2 =? 0 then ret tt else Err UB_align) ;;;
  x <- rd mem (ct + 2 * pos) ;;
  y <- rd mem (ct + 2 * pos + 1) ;;
  let w := u16 (Z.lxor (u16_at en x y) pos) in
  mem <- wr mem (ct + 2 * pos) (byte_of_u16 en w 0) ;;
  wr mem (ct + 2 * pos + 1) (byte_of_u16 en w 1).
(** memcmp(mem + a, mem + b, n) == 0 *)
Definition same_in (mem : list Z) (a b n : Z) : res bool :=
  x <- sub mem a n ;; y <- sub mem b n ;;
  ret (if list_eq_dec Z.eq_dec x y then true else false).
(** One turn of the loop, :46-81.  [rk], [re] and [rp]: what randombytes does when it is called
    by keypair, by enc, and at :59.  The value is the memory and whether the turn passed; the
    codes the API returns are not looked at. *)
Definition kem_turn (C : config) (fr : tframe) (rk re rp : generator) (mem : list Z) : res (list Z * bool) :=
  let P := cP C in
  '(mem, _, _) <- crypto_kem_keypair C rk mem (t_pk fr) (t_sk fr) ;;
  '(mem, _, _) <- crypto_kem_enc C re mem (t_ct fr) (t_sse fr) (t_pk fr) ;;
  '(mem, _, _) <- crypto_kem_dec C mem (t_ssd fr) (t_ct fr) (t_sk fr) ;;
  same <- same_in mem (t_sse fr) (t_ssd fr) (pCB P) ;;
  branch (negb same) (ret (mem, false))
 ('(bytes, _) <- rp (uninit 4) 4 ;;
  b0 <- rd bytes 0 ;; b1 <- rd bytes 1 ;; b2 <- rd bytes 2 ;; b3 <- rd bytes 3 ;;
  let pos := u32_at (cEn C) b0 b1 b2 b3 mod (ctBytes P / 2) in
  pos <- branch (pos =? 0) (ret 1) (ret pos) ;;
  mem <- xor_word (cEn C) mem (t_ct fr) pos ;;
  '(mem, _, _) <- crypto_kem_dec C mem (t_ssd fr) (t_ct fr) (t_sk fr) ;;
  x <- sub mem (t_ct fr) (ctBytes P) ;;
  Fin <- memcpy (uninit (ctBytes P + pCB P)) 0 x 0 (ctBytes P) ;;
  x <- sub mem (t_sk fr) (pCB P) ;;
  Fin <- memcpy Fin (ctBytes P) x 0 (pCB P) ;;
  mem <- shake_to P mem (t_sse fr) (pCB P) Fin (ctBytes P + pCB P) ;;
  same <- same_in mem (t_sse fr) (t_ssd fr) (pCB P) ;;
  branch (negb same) (ret (mem, false)) (ret (mem, true))).
(** for (int i = 0; i < iterations; i++), :45-82; [rb]: the generator at the k-th call *)
Fixpoint kem_loop (n : nat) (C : config) (fr : tframe) (rb : Z -> generator) (k : Z) (mem : list Z) : res bool :=
  match n with
  | O => ret true
  | Datatypes.S n =>
    '(mem, ok) <- kem_turn C fr (rb k) (rb (k + 1)) (rb (k + 2)) mem ;;
    branch ok (kem_loop n C fr rb (k + 3) mem) (ret false)
  end.
(** kem_test, tests/test_kem.c:22-87 *)
Definition kem_test (C : config) (fr : tframe) (rb : Z -> generator) (iterations : Z) (mem : list Z) : res bool :=
  kem_loop (Z.to_nat iterations) C fr rb 0 mem.
