(** Specification of bit packing, independent of the code.

    A list of [D]-bit integers denotes the bit string obtained by writing each
    element with its most significant bit first (FrodoKEM specification,
    Algorithm 3 and 4).  Re-reading that bit string in chunks of another width
    is both packing (width D -> 8) and unpacking (8 -> D). *)
From Verif Require Import ZList.

(** Bit number [k] of the bit string denoted by the list [l] of [D]-bit
    integers; 0 beyond the end. *)
Definition stream_bit (D : Z) (l : list Z) (k : Z) : Z :=
  Z.b2z (Z.testbit (znth l (k / D)) (D - 1 - k mod D)).

(** The [n] integers of width [D2] that spell the same bit string, cut or
    padded with zero bits to [n * D2] bits. *)
Definition repack (D1 D2 n : Z) (l : list Z) : list Z :=
  ztab n (fun m => zsum D2 (fun t => stream_bit D1 l (D2 * m + t) * 2 ^ (D2 - 1 - t))).

(** Pack to bytes, unpack from bytes. *)
Definition pack_spec (D outlen : Z) (l : list Z) : list Z := repack D 8 outlen l.
Definition unpack_spec (D outlen : Z) (l : list Z) : list Z := repack 8 D outlen l.

(** Noise sampling (FrodoKEM specification, Algorithm 5): a 16-bit word gives
    a sign (its low bit) and a magnitude, the number of table entries (without
    the last one) that are smaller than the upper 15 bits. *)
Definition sample_mag (cdf : list Z) (r : Z) : Z :=
  Z.of_nat (length (filter (fun c => c <? r / 2) (removelast cdf))).
Definition sample_spec (cdf : list Z) (r : Z) : Z :=
  if Z.even r then sample_mag cdf r else - sample_mag cdf r.
