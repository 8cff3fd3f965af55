(** FIPS 202 (SHA-3 standard), bit by bit: Keccak-p[1600,24], the sponge
    construction with pad10*1, SHAKE128 and SHAKE256.  Independent of the code.
    Section numbers refer to FIPS 202 (August 2015). *)
From Verif Require Import ZList.

(** 3.1: a state array A[x,y,z], 0 <= x,y < 5, 0 <= z < w = 64. *)
Definition sarray := Z -> Z -> Z -> bool.
(** 3.1.2: string to state array, A[x,y,z] = S[w(5y+x)+z]. *)
Definition of_string (s : list bool) : sarray :=
  fun x y z => nth (Z.to_nat (64 * (5 * y + x) + z)) s false.
(** 3.1.3: state array to string. *)
Definition to_string (A : sarray) : list bool :=
  ztab 1600 (fun k => A ((k / 64) mod 5) (k / 320) (k mod 64)).

(** 3.2.1 theta *)
Definition thetaC (A : sarray) (x z : Z) : bool :=
  xorb (xorb (xorb (xorb (A x 0 z) (A x 1 z)) (A x 2 z)) (A x 3 z)) (A x 4 z).
Definition thetaD (A : sarray) (x z : Z) : bool :=
  xorb (thetaC A ((x - 1) mod 5) z) (thetaC A ((x + 1) mod 5) ((z - 1) mod 64)).
Definition theta (A : sarray) : sarray := fun x y z => xorb (A x y z) (thetaD A x z).

(** 3.2.2 rho: offsets (t+1)(t+2)/2 along the walk (x,y) := (y, 2x+3y) from (1,0). *)
Fixpoint rho_walk (n : nat) (t x y : Z) : list (Z * Z * Z) :=
  match n with
  | O => []
  | S n' => (x, y, (t + 1) * (t + 2) / 2) :: rho_walk n' (t + 1) y ((2 * x + 3 * y) mod 5)
  end.
Definition rho_table : list (Z * Z * Z) := rho_walk 24 0 1 0.
Definition rho_off (x y : Z) : Z :=
  match find (fun '(x', y', _) => (x' =? x) && (y' =? y)) rho_table with
  | Some (_, _, o) => o
  | None => 0
  end.
Definition rho (A : sarray) : sarray := fun x y z => A x y ((z - rho_off x y) mod 64).

(** 3.2.3 pi *)
Definition pi_ (A : sarray) : sarray := fun x y z => A ((x + 3 * y) mod 5) x z.

(** 3.2.4 chi *)
Definition chi (A : sarray) : sarray := fun x y z =>
  xorb (A x y z) (andb (xorb (A ((x + 1) mod 5) y z) true) (A ((x + 2) mod 5) y z)).

(** 3.2.5 iota; rc(t) by the 8-bit LFSR of Algorithm 5: R is the list of bits R[0..7]. *)
Definition lfsr_step (R : list bool) : list bool :=
  let R := false :: R in                       (* R = 0 || R *)
  let b i := nth i R false in
  let R8 := b 8%nat in
  let R' := [xorb (b 0%nat) R8; b 1%nat; b 2%nat; b 3%nat;
             xorb (b 4%nat) R8; xorb (b 5%nat) R8; xorb (b 6%nat) R8; b 7%nat] in
  R'.                                          (* Trunc_8 *)
Fixpoint iter {A} (n : nat) (f : A -> A) (x : A) : A :=
  match n with O => x | S n' => iter n' f (f x) end.
Definition rc (t : Z) : bool :=
  nth 0 (iter (Z.to_nat (t mod 255)) lfsr_step [true; false; false; false; false; false; false; false]) false.
(** RC[2^j - 1] = rc(j + 7 ir), all other bits 0. *)
Definition RCbit (ir z : Z) : bool :=
  existsb (fun j => (z =? 2 ^ j - 1) && rc (j + 7 * ir)) (zseq 7).
Definition iota_ (ir : Z) (A : sarray) : sarray := fun x y z =>
  if (x =? 0) && (y =? 0) then xorb (A x y z) (RCbit ir z) else A x y z.

(** 3.3 Keccak-p[1600, 24] = Keccak-f[1600] *)
Definition Rnd (A : sarray) (ir : Z) : sarray := iota_ ir (chi (pi_ (rho (theta A)))).
Definition keccak_f_array (A : sarray) : sarray := fold_left Rnd (zseq 24) A.
Definition keccak_f (s : list bool) : list bool := to_string (keccak_f_array (of_string s)).

(** 4, 5.1: sponge with pad10*1.  [pad10s1 x m] is the padding string for message
    length m: 1 0^j 1 with j = (-m-2) mod x. *)
Definition pad10s1 (x m : Z) : list bool :=
  true :: zrep ((- m - 2) mod x) false ++ [true].

Fixpoint xorl (a b : list bool) : list bool :=
  match a, b with
  | x :: a', y :: b' => xorb x y :: xorl a' b'
  | _, _ => []
  end.

(** Algorithm 8, absorbing: P is cut into r-bit blocks. *)
Fixpoint absorb (n : nat) (r : Z) (P : list bool) (S : list bool) : list bool :=
  match n with
  | O => S
  | Datatypes.S n' =>
      absorb n' r (skipn (Z.to_nat r) P)
        (keccak_f (xorl S (firstn (Z.to_nat r) P ++ zrep (1600 - r) false)))
  end.
(** squeezing [n] blocks of r bits *)
Fixpoint squeeze (n : nat) (r : Z) (S : list bool) : list bool :=
  match n with
  | O => []
  | Datatypes.S n' => firstn (Z.to_nat r) S ++ squeeze n' r (keccak_f S)
  end.
Definition sponge (r : Z) (N : list bool) (d : Z) : list bool :=
  let P := N ++ pad10s1 r (zlen N) in
  firstn (Z.to_nat d)
    (squeeze (Z.to_nat ((d + r - 1) / r)) r
       (absorb (Z.to_nat (zlen P / r)) r P (zrep 1600 false))).

(** 5.2, 6.2: KECCAK[c](N, d) = SPONGE[Keccak-f, pad10*1, 1600-c](N, d);
    SHAKE128(M, d) = KECCAK[256](M || 1111, d), SHAKE256(M, d) = KECCAK[512](M || 1111, d). *)
Definition KECCAK (c : Z) (N : list bool) (d : Z) : list bool := sponge (1600 - c) N d.
Definition SHAKE128_bits (M : list bool) (d : Z) := KECCAK 256 (M ++ [true; true; true; true]) d.
Definition SHAKE256_bits (M : list bool) (d : Z) := KECCAK 512 (M ++ [true; true; true; true]) d.

(** B.1: bytes to bits, least significant bit first, and back. *)
Definition bits_of (w v : Z) : list bool := ztab w (Z.testbit v).
Definition bytes_to_bits (l : list Z) : list bool := flat_map (bits_of 8) l.
Definition bit_at (s : list bool) (k : Z) : Z := Z.b2z (nth (Z.to_nat k) s false).
Definition bits_to_bytes (n : Z) (s : list bool) : list Z :=
  ztab n (fun i => zsum 8 (fun t => bit_at s (8 * i + t) * 2 ^ t)).

(** Byte-oriented SHAKE: message bytes, output length in bytes. *)
Definition SHAKE128 (M : list Z) (n : Z) : list Z :=
  bits_to_bytes n (SHAKE128_bits (bytes_to_bits M) (8 * n)).
Definition SHAKE256 (M : list Z) (n : Z) : list Z :=
  bits_to_bytes n (SHAKE256_bits (bytes_to_bits M) (8 * n)).
