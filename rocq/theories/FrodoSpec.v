(** The FrodoKEM algorithms (FrodoKEM specification, "FrodoKEM.KeyGen", ".Encaps",
    ".Decaps"), with matrices as flat row-major lists of integers and arithmetic modulo
    q = 2^D.  Independent of the model of the C code; uses only the parameter record, the
    bit-packing, SHAKE, AES and matrix specifications. *)
From Verif Require Import CSem Params UtilSpec KeccakSpec AesSpec MatrixSpec.

Section Spec.
Variables (P : params) (g : genA).
Let n := pN P.
Let D := pD P.
Let q := 2 ^ pD P.
Let CB := pCB P.          (* len_s = len_seedSE = len_k = len_pkh = len_ss, in bytes *)

(** SHAKE128 for FrodoKEM-640, SHAKE256 for the other two. *)
Definition Hash (M : list Z) (len : Z) : list Z :=
  if pRate P =? 168 then SHAKE128 M len else SHAKE256 M len.

(** Frodo.SampleMatrix: [cnt] samples from the 16-bit words of [r] from word [from] on.
    The entries are signed integers. *)
Definition SampleMatrix (r : list Z) (from cnt : Z) : list Z :=
  ztab cnt (fun i => sample_spec (pCDF P) (word16 r (from + i))).

(** Frodo.Pack and Frodo.Unpack *)
Definition Pack (M : list Z) : list Z := pack_spec D (D * zlen M / 8) M.
Definition Unpack (cnt : Z) (b : list Z) : list Z := unpack_spec D cnt b.

(** A signed integer as two bytes, low byte first, and back (the encoding of S^T in the
    secret key). *)
Definition signed16 (w : Z) : Z := if w <? 32768 then w else w - 65536.
Definition bytes_of_S (St : list Z) : list Z := flat_map (fun x => le16 (x mod 65536)) St.
Definition S_of_bytes (b : list Z) : list Z := ztab (8 * n) (fun i => signed16 (word16 b i)).

(** FrodoKEM.KeyGen, from the random strings s, seedSE and z. *)
Definition KeyGen (s seedSE z : list Z) : list Z * list Z :=
  let seedA := Hash z 16 in
  let r := Hash (95 :: seedSE) (2 * (16 * n)) in
  let St := SampleMatrix r 0 (8 * n) in
  let E := SampleMatrix r (8 * n) (8 * n) in
  let B := AS_plus_E q n (A_spec g n seedA) St E in
  let pk := seedA ++ Pack B in
  let pkh := Hash pk CB in
  (pk, s ++ pk ++ bytes_of_S St ++ pkh).

(** What Encaps and Decaps share: from (pkh, mu) to the matrices of the ciphertext and k. *)
Definition Encrypt (seedA b pkh mu : list Z) : list Z * list Z * list Z :=
  let G2 := Hash (pkh ++ mu) (2 * CB) in
  let seedSE := firstn (Z.to_nat CB) G2 in
  let k := skipn (Z.to_nat CB) G2 in
  let r := Hash (150 :: seedSE) (2 * (16 * n + 64)) in
  let S' := SampleMatrix r 0 (8 * n) in
  let E' := SampleMatrix r (8 * n) (8 * n) in
  let E'' := SampleMatrix r (16 * n) 64 in
  let B' := SA_plus_E q n (A_spec g n seedA) S' E' in
  let B := Unpack (8 * n) b in
  let V := SB_E_spec q n S' B E'' in
  let C := add_spec q V (encode_spec D (pB P) mu) in
  (B', C, k).

(** FrodoKEM.Encaps, from the public key and the random message mu. *)
Definition Encaps (pk mu : list Z) : list Z * list Z :=
  let seedA := firstn 16 pk in
  let b := skipn 16 pk in
  let pkh := Hash pk CB in
  let '(B', C, k) := Encrypt seedA b pkh mu in
  let ct := Pack B' ++ Pack C in
  (ct, Hash (ct ++ k) CB).

(** The parts of a secret key s || seedA || b || S^T || pkh and of a ciphertext c1 || c2. *)
Definition part (l : list Z) (from len : Z) : list Z := firstn (Z.to_nat len) (skipn (Z.to_nat from) l).
Definition sk_s (sk : list Z) := part sk 0 CB.
Definition sk_pk (sk : list Z) := part sk CB (16 + D * n).
Definition sk_seedA (sk : list Z) := part sk CB 16.
Definition sk_b (sk : list Z) := part sk (CB + 16) (D * n).
Definition sk_St (sk : list Z) := S_of_bytes (part sk (CB + 16 + D * n) (16 * n)).
Definition sk_pkh (sk : list Z) := part sk (CB + 16 + D * n + 16 * n) CB.
Definition ct_B (ct : list Z) := Unpack (8 * n) (part ct 0 (D * n)).
Definition ct_C (ct : list Z) := Unpack 64 (part ct (D * n) (D * 8)).

(** The message Decaps recovers: decode (C - B'S). *)
Definition Decrypt (sk ct : list Z) : list Z :=
  decode_spec D (pB P) (sub_spec q (ct_C ct) (BS_spec q n (ct_B ct) (sk_St sk))).

(** FrodoKEM.Decaps *)
Definition Decaps (sk ct : list Z) : list Z :=
  let mu' := Decrypt sk ct in
  let '(B'', C', k') := Encrypt (sk_seedA sk) (sk_b sk) (sk_pkh sk) mu' in
  let kbar := if list_eq_dec Z.eq_dec (ct_B ct ++ ct_C ct) (B'' ++ C') then k' else sk_s sk in
  Hash (ct ++ kbar) CB.

(** The received ciphertext is accepted: it is the re-encryption of the recovered message,
    byte for byte. *)
Definition reencrypt (sk mu : list Z) : list Z :=
  let '(B'', C', _) := Encrypt (sk_seedA sk) (sk_b sk) (sk_pkh sk) mu in Pack B'' ++ Pack C'.
Definition accepted (sk ct : list Z) : Prop := ct = reencrypt sk (Decrypt sk ct).
(** The key k' that belongs to a message. *)
Definition key_of (sk mu : list Z) : list Z := skipn (Z.to_nat CB) (Hash (sk_pkh sk ++ mu) (2 * CB)).

(** The accumulated noise S'E + E'' - E'S of an encryption of mu to the key made from
    seedSE, entry t of 64. *)
Definition noise (seedSE pkh mu : list Z) (t : Z) : Z :=
  let r := Hash (95 :: seedSE) (2 * (16 * n)) in
  let St := SampleMatrix r 0 (8 * n) in
  let E := SampleMatrix r (8 * n) (8 * n) in
  let r' := Hash (150 :: firstn (Z.to_nat CB) (Hash (pkh ++ mu) (2 * CB))) (2 * (16 * n + 64)) in
  let S' := SampleMatrix r' 0 (8 * n) in
  let E' := SampleMatrix r' (8 * n) (8 * n) in
  let E'' := SampleMatrix r' (16 * n) 64 in
  let i := t / 8 in
  let k := t mod 8 in
  zsum n (fun j => znth S' (i * n + j) * znth E (8 * j + k)) + znth E'' t
  - zsum n (fun j => znth E' (i * n + j) * znth St (k * n + j)).
End Spec.
