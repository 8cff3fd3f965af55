(** The SHAKE functions of src/sha3/fips202.h and src/sha3/fips202x4.h that hand out the stream
    block by block, called any number of times on one state. *)
From Verif Require Import CSem Params Fips202 Fips202x4.

(** shake128_squeezeblocks4x, src/sha3/fips202x4.c:138-141: outlen is a number of bytes, and what
    does not fill a block of 168 bytes is left out. *)
Definition shake128_squeezeblocks4x (al : bool) (out : list Z * list Z * list Z * list Z) (outlen : Z)
    (ss : list Z) : res ((list Z * list Z * list Z * list Z) * list Z) :=
  keccak_squeezeblocks4x al out (outlen / 168) ss 168.

(** A caller that squeezes again and again: for each request (buffer, number of blocks) one call of
    shake128_squeezeblocks or shake256_squeezeblocks on the same state.  The buffers are distinct
    objects; the result is what they hold afterwards. *)
Fixpoint squeezes (r : Z) (s : list Z) (reqs : list (list Z * Z)) : res (list (list Z)) :=
  match reqs with
  | [] => ret []
  | (out, n) :: reqs' =>
      '(out, s) <- shake_squeezeblocks r out n s ;;
      outs <- squeezes r s reqs' ;;
      ret (out :: outs)
  end.

(** The same caller of the four-way function: a request is four buffers and a number of bytes. *)
Fixpoint squeezes4x (al : bool) (ss : list Z) (reqs : list ((list Z * list Z * list Z * list Z) * Z))
    : res (list (list Z * list Z * list Z * list Z)) :=
  match reqs with
  | [] => ret []
  | (out, n) :: reqs' =>
      '(out, ss) <- shake128_squeezeblocks4x al out n ss ;;
      outs <- squeezes4x al ss reqs' ;;
      ret (out :: outs)
  end.
