(** Specification of the matrix arithmetic of FrodoKEM (specification, section
    "Pseudorandom matrix generation", "Matrix encoding of bit strings"), stated with
    plain integers.  Independent of the model of the C code. *)
From Verif Require Import CSem Params AesSpec KeccakSpec.

(** The two bytes of a 16-bit integer, low byte first; and back. *)
Definition le16 (w : Z) : list Z := [w mod 256; (w / 256) mod 256].
Definition word16 (bytes : list Z) (k : Z) : Z := znth bytes (2 * k) + 256 * znth bytes (2 * k + 1).

(** Frodo.Gen with AES128 (specification, algorithm "Frodo.Gen using AES128"): row i,
    columns 8m..8m+7 of A are the eight 16-bit words of AES128(seedA, i || 8m || 0..0). *)
Definition A_aes (seedA : list Z) (i j : Z) : Z :=
  word16 (AES128 seedA (le16 i ++ le16 (8 * (j / 8)) ++ zrep 12 0)) (j mod 8).
(** Frodo.Gen with SHAKE128: row i of A is SHAKE128(i || seedA, 16n) cut in 16-bit words. *)
Definition A_shake (n : Z) (seedA : list Z) (i j : Z) : Z :=
  word16 (SHAKE128 (le16 i ++ seedA) (2 * n)) j.
Definition A_spec (g : genA) (n : Z) (seedA : list Z) (i j : Z) : Z :=
  match g with GenAES => A_aes seedA i j | GenSHAKE => A_shake n seedA i j end.

(** Entry (i,k) of A*S + E and of S'*A + E' over the integers; S and S' are given by
    their rows of length n (S transposed), E and E' row by row. *)
Definition AS_E (n : Z) (A : Z -> Z -> Z) (St E : list Z) (i k : Z) : Z :=
  znth E (8 * i + k) + zsum n (fun j => A i j * znth St (k * n + j)).
Definition SA_E (n : Z) (A : Z -> Z -> Z) (S' E' : list Z) (k i : Z) : Z :=
  znth E' (k * n + i) + zsum n (fun j => znth S' (k * n + j) * A j i).

(** Arithmetic in Z_q, q = 2^D, on flat lists of 64 = 8*8 entries.  b is 8 x n and s the
    transpose of an n x 8 matrix; s' is 8 x n and b n x 8. *)
Definition BS_spec (q n : Z) (b s : list Z) : list Z :=
  ztab 64 (fun t => zsum n (fun k => znth b ((t / 8) * n + k) * znth s ((t mod 8) * n + k)) mod q).
Definition SB_E_spec (q n : Z) (s' b e : list Z) : list Z :=
  ztab 64 (fun t => (znth e t + zsum n (fun j => znth s' ((t / 8) * n + j) * znth b (j * 8 + t mod 8))) mod q).
Definition add_spec (q : Z) (a b : list Z) : list Z := ztab 64 (fun t => (znth a t + znth b t) mod q).
Definition sub_spec (q : Z) (a b : list Z) : list Z := ztab 64 (fun t => (znth a t - znth b t) mod q).

(** Messages are bit strings, byte by byte with the least significant bit first.  Bit k of
    the string written in words of W bits, and the string cut in n words of W2 bits. *)
Definition lsb_bit (W : Z) (l : list Z) (k : Z) : Z := Z.b2z (Z.testbit (znth l (k / W)) (k mod W)).
Definition regroup (W1 W2 n : Z) (l : list Z) : list Z :=
  ztab n (fun m => zsum W2 (fun t => lsb_bit W1 l (W2 * m + t) * 2 ^ t)).
(** Frodo.Encode: the message is cut in 64 B-bit integers k; entry = k * q / 2^B. *)
Definition encode_spec (D B : Z) (mu : list Z) : list Z :=
  map (fun k => k * 2 ^ (D - B)) (regroup 8 B 64 mu).
(** Frodo.Decode: dc(c) = floor(c * 2^B / q + 1/2) mod 2^B, and the message from the
    B-bit integers. *)
Definition dc (D B c : Z) : Z := ((2 * (c mod 2 ^ D) * 2 ^ B + 2 ^ D) / (2 * 2 ^ D)) mod 2 ^ B.
Definition decode_spec (D B : Z) (c : list Z) : list Z := regroup B 8 (8 * B) (map (dc D B) c).

(** A*S + E (n x 8) and S'*A + E' (8 x n), entries modulo m, as flat row-major lists. *)
Definition AS_plus_E (m n : Z) (A : Z -> Z -> Z) (St E : list Z) : list Z :=
  ztab (n * 8) (fun t => AS_E n A St E (t / 8) (t mod 8) mod m).
Definition SA_plus_E (m n : Z) (A : Z -> Z -> Z) (S' E' : list Z) : list Z :=
  ztab (8 * n) (fun t => SA_E n A S' E' (t / n) (t mod n) mod m).
