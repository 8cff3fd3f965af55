(** Vocabulary for the rate of decryption failures: all byte strings of a length, counting,
    and the public-key encryption inside FrodoKEM with the pseudorandom strings that feed the
    sampler as explicit inputs.  Independent of the model of the C code. *)
From Verif Require Import CSem Params UtilSpec KeccakSpec AesSpec MatrixSpec FrodoSpec.

(** All byte strings of length m, and how many elements of a list have a property. *)
Fixpoint bytestrings (m : nat) : list (list Z) :=
  match m with O => [[]] | Datatypes.S m => flat_map (fun b => map (cons b) (bytestrings m)) (zseq 256) end.
Definition count {A} (p : A -> bool) (l : list A) : Z := zlen (filter p l).

Section PKE.
Variables (P : params) (g : genA).
Let n := pN P.
Let q := 2 ^ pD P.
(** FrodoPKE key generation (specification, algorithm "FrodoPKE.KeyGen") from the sampler input
    r, 32n bytes: B = AS + E and S^T. *)
Definition pke_keygen (seedA r : list Z) : list Z * list Z :=
  let St := SampleMatrix P r 0 (8 * n) in
  let E := SampleMatrix P r (8 * n) (8 * n) in
  (AS_plus_E q n (A_spec g n seedA) St E, St).
(** FrodoPKE.Enc from the sampler input r', 32n + 128 bytes: B' = S'A + E' and
    C = S'B + E'' + Encode(mu). *)
Definition pke_enc (seedA B r' mu : list Z) : list Z * list Z :=
  let S' := SampleMatrix P r' 0 (8 * n) in
  let E' := SampleMatrix P r' (8 * n) (8 * n) in
  let E'' := SampleMatrix P r' (16 * n) 64 in
  (SA_plus_E q n (A_spec g n seedA) S' E', add_spec q (SB_E_spec q n S' B E'') (encode_spec (pD P) (pB P) mu)).
(** FrodoPKE.Dec: Decode(C - B'S) *)
Definition pke_dec (St : list Z) (c : list Z * list Z) : list Z :=
  decode_spec (pD P) (pB P) (sub_spec q (snd c) (BS_spec q n (fst c) St)).
(** Does decrypting the encryption of mu give something else? *)
Definition pke_fails (seedA mu : list Z) (rr : list Z * list Z) : bool :=
  let '(B, St) := pke_keygen seedA (fst rr) in
  if list_eq_dec Z.eq_dec (pke_dec St (pke_enc seedA B (snd rr) mu)) mu then false else true.
End PKE.
