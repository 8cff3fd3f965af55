(** Specification for property C47: four Keccak states that are used byte by byte.
    A state is a string of 200 bytes. *)
From Verif Require Import ZList KeccakSpec.

(** FIPS 202, 3.3: Keccak-p[1600, nr] runs the rounds 24 - nr, ..., 23. *)
Definition keccak_p (nr : Z) (s : list bool) : list bool :=
  to_string (fold_left Rnd (map (fun i => 24 - nr + i) (zseq nr)) (of_string s)).
(** The same on bytes (FIPS 202, B.1). *)
Definition permute (nr : Z) (S : list Z) : list Z := bits_to_bytes 200 (keccak_p nr (bytes_to_bits S)).

(** The bytes [d] XORed into the state from byte [off] on. *)
Definition add_at (off : Z) (d S : list Z) : list Z :=
  ztab (zlen S) (fun k => if (off <=? k) && (k <? off + zlen d) then Z.lxor (znth S k) (znth d (k - off)) else znth S k).
(** The bytes [d] written into the state from byte [off] on. *)
Definition put_at (off : Z) (d S : list Z) : list Z := zsplice S off d.
(** n bytes from [off] on. *)
Definition get_at (off n : Z) (S : list Z) : list Z := zslice S off n.
Definition xor_bytes (a b : list Z) : list Z := ztab (zlen a) (fun j => Z.lxor (znth a j) (znth b j)).

(** Data for all four states: lanes of 8 bytes, those of state l start at lane l * [ofs] of the data. *)
Definition part (data : list Z) (cnt ofs l : Z) : list Z := zslice data (8 * (l * ofs)) (8 * cnt).

(** A buffer for all four states, with p l written at lane l * ofs. *)
Definition put_parts (ofs : Z) (p : Z -> list Z) (out : list Z) : list Z :=
  put_at (8 * (3 * ofs)) (p 3) (put_at (8 * (2 * ofs)) (p 2) (put_at (8 * (1 * ofs)) (p 1) (put_at (8 * (0 * ofs)) (p 0) out))).

(** Absorbing blocks of cnt lanes: block i of state l starts at lane i * los + l * lop of the data; every
    block is followed by a permutation of nr rounds. *)
Definition absorb1 (nr : Z) (data : list Z) (cnt lop los l : Z) (S : list Z) (i : Z) : list Z :=
  permute nr (add_at 0 (part (skipn (Z.to_nat (8 * (i * los))) data) cnt lop l) S).
Definition absorbn (nr : Z) (data : list Z) (cnt lop los n l : Z) (S : list Z) : list Z :=
  fold_left (absorb1 nr data cnt lop los l) (zseq n) S.
(** The number of blocks in [len] bytes: as many as fit. *)
Definition blocks (cnt lop los len : Z) : Z :=
  if len <? 8 * (3 * lop + cnt) then 0 else (len - 8 * (3 * lop + cnt)) / (8 * los) + 1.

(** Where byte k of state l is kept: the lanes of the four states are interleaved. *)
Definition pos (l k : Z) : Z := 32 * (k / 8) + 8 * l + k mod 8.
Definition inst (l : Z) (ss : list Z) : list Z := ztab 200 (fun k => znth ss (pos l k)).
