(** Model of src/util.c and src/noise.c. *)
From Verif Require Import CSem Params.

(** frodo_pack, src/util.c:13-59.
    State of the inner loop: output buffer, j, w, bits, b. *)
Definition pack_st : Type := list Z * Z * Z * Z * Z.

(** One iteration of the inner "while (b < 8)" loop, src/util.c:36-53. *)
Definition pack_inner (inp : list Z) (inlen lsb i : Z) (st : pack_st) : res (pack_st * bool) :=
  let '(out, j, w, bits, b) := st in
  branch (b <? 8)
    (nbits <- branch (8 - b <? bits) (ret (8 - b)) (ret bits) ;;
     m1 <- shl32 1 nbits ;;
     let mask := u16 (m1 - 1) in
     w1 <- shr32 w (bits - nbits) ;;
     let t := u8 (Z.land w1 mask) in
     o <- rd out i ;;
     t1 <- shl32 t (8 - b - nbits) ;;
     o1 <- i32 (o + t1) ;;
     out <- wr out i (u8 o1) ;;
     let b := u8 (b + nbits) in
     let bits := u8 (bits - nbits) in
     m2 <- shl32 mask bits ;;
     let w := u16 (Z.land w (Z.lnot m2)) in
     branch (bits =? 0)
       (branch (j <? inlen)
          (w <- rd inp j ;; ret ((out, j + 1, w, lsb, b), true))
          (ret ((out, j, w, bits, b), false)))
       (ret ((out, j, w, bits, b), true)))
    (ret (st, false)).

(** One iteration of the outer loop, src/util.c:23-58. *)
Definition pack_outer (outlen : Z) (inp : list Z) (inlen lsb : Z)
    (st : list Z * Z * Z * Z * Z) : res (list Z * Z * Z * Z * Z * bool) :=
  let '(out, i, j, w, bits) := st in
  branch ((i <? outlen) && ((j <? inlen) || ((j =? inlen) && (0 <? bits))))
    ('(out, j, w, bits, b) <- loop 64 (pack_inner inp inlen lsb i) (out, j, w, bits, 0) ;;
     branch (b =? 8)
       (ret ((out, i + 1, j, w, bits), true))
       (ret ((out, i, j, w, bits), true)))
    (ret (st, false)).

(** The whole function; [out] is the previous contents of the output buffer.
    The bound on the number of iterations is generous: Theorem
    [frodo_pack_correct] shows it is never reached. *)
Definition frodo_pack (out : list Z) (outlen : Z) (inp : list Z) (inlen lsb : Z) : res (list Z) :=
  out <- memset out 0 0 outlen ;;
  '(out, _, _, _, _) <- loop (Z.to_nat (outlen + 3)) (pack_outer outlen inp inlen lsb)
                          (out, 0, 0, 0, 0) ;;
  ret out.

(** frodo_unpack, src/util.c:62-108: inner loop 85-102. *)
Definition unpack_inner (inp : list Z) (inlen lsb i : Z) (st : pack_st) : res (pack_st * bool) :=
  let '(out, j, w, bits, b) := st in
  branch (b <? lsb)
    (nbits <- branch (lsb - b <? bits) (ret (lsb - b)) (ret bits) ;;
     m1 <- shl32 1 nbits ;;
     let mask := u16 (m1 - 1) in
     w1 <- shr32 w (bits - nbits) ;;
     let t := u8 (Z.land w1 mask) in
     o <- rd out i ;;
     t1 <- shl32 t (lsb - b - nbits) ;;
     o1 <- i32 (o + t1) ;;
     out <- wr out i (u16 o1) ;;
     let b := u8 (b + nbits) in
     let bits := u8 (bits - nbits) in
     m2 <- shl32 mask bits ;;
     let w := u8 (Z.land w (Z.lnot m2)) in
     branch (bits =? 0)
       (branch (j <? inlen)
          (w <- rd inp j ;; ret ((out, j + 1, w, 8, b), true))
          (ret ((out, j, w, bits, b), false)))
       (ret ((out, j, w, bits, b), true)))
    (ret (st, false)).

(** Outer loop, src/util.c:72-107. *)
Definition unpack_outer (outlen : Z) (inp : list Z) (inlen lsb : Z)
    (st : list Z * Z * Z * Z * Z) : res (list Z * Z * Z * Z * Z * bool) :=
  let '(out, i, j, w, bits) := st in
  branch ((i <? outlen) && ((j <? inlen) || ((j =? inlen) && (0 <? bits))))
    ('(out, j, w, bits, b) <- loop 64 (unpack_inner inp inlen lsb i) (out, j, w, bits, 0) ;;
     branch (b =? lsb)
       (ret ((out, i + 1, j, w, bits), true))
       (ret ((out, i, j, w, bits), true)))
    (ret (st, false)).

(** frodo_unpack, src/util.c:62-108 *)
Definition frodo_unpack (out : list Z) (outlen : Z) (inp : list Z) (inlen lsb : Z) : res (list Z) :=
  out <- memset out 0 0 outlen ;;
  '(out, _, _, _, _) <- loop (Z.to_nat (outlen + 3)) (unpack_outer outlen inp inlen lsb)
                          (out, 0, 0, 0, 0) ;;
  ret out.

(** ct_verify, src/util.c:111-122.  Returns the int8_t value. *)
Definition ct_verify (a b : list Z) (len : Z) : res Z :=
  r <- for_ 0 len (fun i r =>
         x <- rd a i ;; y <- rd b i ;;
         ret (u16 (Z.lor r (Z.lxor x y)))) 0 ;;
  n1 <- i32 (- s16 (Z.shiftr r 1)) ;;
  n2 <- i32 (- s16 (Z.land r 1)) ;;
  sh <- shr32 (Z.lor n1 n2) 15 ;;
  let r := u16 sh in
  ret (s8 r).

(** ct_select, src/util.c:125-132; [selector] is the int8_t value. *)
Definition ct_select (r a b : list Z) (len selector : Z) : res (list Z) :=
  for_ 0 len (fun i r =>
    x <- rd a i ;; y <- rd b i ;;
    wr r i (u8 (Z.lor (Z.land (Z.lnot selector) x) (Z.land selector y)))) r.

(** clear_bytes, src/util.c:135-143. *)
Definition clear_bytes (mem : list Z) (n : Z) : res (list Z) :=
  for_ 0 n (fun i mem => wr mem i 0) mem.

(** frodo_sample_n, src/noise.c:10-29.  [cdf] is CDF_TABLE, its length is
    CDF_TABLE_LEN. *)
Definition frodo_sample_n (cdf : list Z) (s : list Z) (n : Z) : res (list Z) :=
  for_ 0 n (fun i s =>
    x <- rd s i ;;
    prnd0 <- shr32 x 1 ;;
    let prnd := u16 prnd0 in
    y <- rd s i ;;
    let sign := u16 (Z.land y 1) in
    sample <- for_ 0 (zlen cdf - 1) (fun j sample =>
                c <- rd cdf j ;;
                d <- i32 (c - prnd) ;;
                h <- shr32 (u16 d) 15 ;;
                v <- i32 (sample + h) ;;
                ret (u16 v)) 0 ;;
    v <- i32 (Z.lxor (- sign) sample + sign) ;;
    wr s i (u16 v)) s.

(* ------------------------------------------------------------------ *)
(** Smoke tests of the definitions. *)
Example pack_run :
  frodo_pack (uninit 15) 15 [1; 2; 3; 4; 5; 6; 7; 32767] 8 15 =
  frodo_pack (zrep 15 77) 15 [32769; 2; 3; 4; 5; 6; 7; 32767] 8 15.
Proof. vm_compute. reflexivity. Qed.
