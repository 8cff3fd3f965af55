(** CTR_DRBG with AES-256 and no derivation function (NIST SP 800-90A Rev. 1, 10.2.1), no
    additional input.  The counter V is an integer modulo 2^128. *)
From Verif Require Import ZList AesSpec.

(** A 128-bit integer as 16 bytes, most significant first, and back. *)
Definition be128 (v : Z) : list Z := ztab 16 (fun i => (v / 2 ^ (8 * (15 - i))) mod 256).
Definition int_of_be (b : list Z) : Z := fold_left (fun a x => 256 * a + x) b 0.

(** 10.2.1.2 CTR_DRBG_Update: three blocks Block_Encrypt(Key, V+1), (V+2), (V+3). *)
Definition keystream (Key : list Z) (V n : Z) : list Z :=
  concat (ztab n (fun i => AES256 Key (be128 ((V + 1 + i) mod 2 ^ 128)))).
Definition xor_bytes (a b : list Z) : list Z := ztab (zlen a) (fun i => Z.lxor (znth a i) (znth b i)).
Definition Update (data Key : list Z) (V : Z) : list Z * Z :=
  let temp := xor_bytes (keystream Key V 3) data in
  (firstn 32 temp, int_of_be (skipn 32 temp)).
(** 10.2.1.3.1 CTR_DRBG_Instantiate *)
Definition Instantiate (entropy personalization : list Z) : list Z * Z :=
  Update (xor_bytes entropy personalization) (zrep 32 0) 0.
(** 10.2.1.5.1 CTR_DRBG_Generate of n bytes *)
Definition Generate (st : list Z * Z) (n : Z) : list Z * (list Z * Z) :=
  let '(Key, V) := st in
  let blocks := (n + 15) / 16 in
  (firstn (Z.to_nat n) (keystream Key V blocks),
   Update (zrep 48 0) Key ((V + blocks) mod 2 ^ 128)).
(** A sequence of requests. *)
Fixpoint Requests (st : list Z * Z) (ns : list Z) : list (list Z) :=
  match ns with
  | [] => []
  | n :: ns => let '(out, st) := Generate st n in out :: Requests st ns
  end.
