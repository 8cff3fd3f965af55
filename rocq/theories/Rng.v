(** Model of tests/rng.c and AES256_ECB of tests/rng.h (standalone AES): the deterministic
    generator behind the known-answer tests. *)
From Verif Require Import CSem Params Aes.

(** DRBG_ctx, tests/rng.h:52-56, tests/rng.c:12 *)
Record drbg := { d_Key : list Z; d_V : list Z; d_reseed : Z }.

(** AES256_ECB, tests/rng.h:20-26, 42 *)
Definition AES256_ECB (im : aesimpl) (key ctr buffer : list Z) : res (list Z) :=
  schedule <- AES256_load_schedule im key (uninit 240) ;;
  buffer <- AES_ECB_enc_sch im 14 ctr 16 schedule buffer ;;
  AES_free_schedule schedule 15 ;;;
  ret buffer.

(** for (j = 15; j >= 0; j--) if (V[j] == 0xff) V[j] = 0; else { V[j]++; break; },
    tests/rng.c:40-47 and 74-81 *)
Definition increment (V : list Z) : res (list Z) :=
  '(V, _) <- loop 17 (fun '(V, j) =>
    if 0 <=? j then
      x <- rd V j ;;
      branch (x =? 255)
        (V <- wr V j 0 ;; ret ((V, j - 1), true))
        (V <- wr V j (u8 (x + 1)) ;; ret ((V, j), false))
    else ret ((V, j), false)) (V, 15) ;;
  ret V.

(** AES256_CTR_DRBG_Update, tests/rng.c:65-90.  Returns Key and V. *)
Definition AES256_CTR_DRBG_Update (im : aesimpl) (provided_data : option (list Z)) (Key V : list Z)
    : res (list Z * list Z) :=
  '(temp, V) <- for_ 0 3 (fun i '(temp, V) =>
      V <- increment V ;;
      t <- sub temp (16 * i) 16 ;;
      t <- AES256_ECB im Key V t ;;
      temp <- put temp (16 * i) t ;;
      ret (temp, V)) (uninit 48, V) ;;
  temp <- (match provided_data with
           | None => ret temp
           | Some d => for_ 0 48 (fun i temp => x <- rd temp i ;; y <- rd d i ;; wr temp i (Z.lxor x y)) temp
           end) ;;
  Key <- memcpy Key 0 temp 0 32 ;;
  V <- memcpy V 0 temp 32 16 ;;
  ret (Key, V).

(** randombytes_init, tests/rng.c:14-30 *)
Definition randombytes_init (im : aesimpl) (st : drbg) (entropy_input : list Z) (personalization_string : option (list Z))
    : res drbg :=
  seed_material <- memcpy (uninit 48) 0 entropy_input 0 48 ;;
  seed_material <- (match personalization_string with
    | None => ret seed_material
    | Some p => for_ 0 48 (fun i s => x <- rd s i ;; y <- rd p i ;; wr s i (Z.lxor x y)) seed_material
    end) ;;
  Key <- memset (d_Key st) 0 0 32 ;;
  V <- memset (d_V st) 0 0 16 ;;
  '(Key, V) <- AES256_CTR_DRBG_Update im (Some seed_material) Key V ;;
  ret {| d_Key := Key; d_V := V; d_reseed := 1 |}.

(** randombytes, tests/rng.c:32-63.  [i] is an int. *)
Definition randombytes_drbg (im : aesimpl) (st : drbg) (x : list Z) (xlen : Z) : res (list Z * Z * drbg) :=
  let block := uninit 16 in
  '(x, i, xlen, V, block) <- loop (Datatypes.S (Z.to_nat (xlen / 16 + 1))) (fun '(x, i, xlen, V, block) =>
      if 0 <? xlen then
        V <- increment V ;;
        block <- AES256_ECB im (d_Key st) V block ;;
        branch (15 <? xlen)
          (x <- memcpy x i block 0 16 ;;
           i <- i32 (i + 16) ;;
           ret ((x, i, xlen - 16, V, block), true))
          (x <- memcpy x i block 0 xlen ;;
           ret ((x, i, 0, V, block), true))
      else ret ((x, i, xlen, V, block), false)) (x, 0, xlen, d_V st, block) ;;
  '(Key, V) <- AES256_CTR_DRBG_Update im None (d_Key st) V ;;
  r <- i32 (d_reseed st + 1) ;;
  ret (x, 0, {| d_Key := Key; d_V := V; d_reseed := r |}).
