(** What a known-answer file of FrodoKEM is and when it is right, independently of the program
    that checks it. *)
From Coq Require Import String.
From Verif Require Import ZList Str Params DrbgSpec FrodoSpec.
Local Open Scope Z_scope.

(** m occurs somewhere in s. *)
Definition occurs (m s : list Z) : Prop := exists a b, s = a ++ m ++ b.

(** Hexadecimal text, in either case, two digits a byte. *)
Definition hexchar (c n : Z) : Prop :=
  c = znth (str "0123456789ABCDEF") n \/ c = znth (str "0123456789abcdef") n.
Inductive spells : list Z -> list Z -> Prop :=
| spells_nil : spells [] []
| spells_cons c d t b x : hexchar c (b / 16) -> hexchar d (b mod 16) -> spells t x -> spells (c :: d :: t) (b :: x).
(** A decimal number below 2^31. *)
Definition decimal (t : list Z) : Prop :=
  t <> [] /\ Forall (fun c => 48 <= c <= 57) t /\ fold_left (fun v c => 10 * v + (c - 48)) t 0 < 2 ^ 31.

(** One record: the seed and the four published values. *)
Record answers := { k_seed : list Z; k_pk : list Z; k_sk : list Z; k_ct : list Z; k_ss : list Z }.
Definition field (n : Z) (x : list Z) : Prop := zlen x = n /\ bytes_ok x.
Definition well_formed (P : params) (r : answers) : Prop :=
  field 48 (k_seed r) /\ field (pkBytes P) (k_pk r) /\ field (skBytes P) (k_sk r) /\
  field (ctBytes P) (k_ct r) /\ field (pCB P) (k_ss r).
(** A line "name = hexadecimal value". *)
Definition line (name : string) (x t : list Z) : Prop := exists h, spells h x /\ t = str name ++ h ++ [10].
(** The six lines of a record. *)
Definition written (P : params) (r : answers) (t : list Z) : Prop :=
  well_formed P r /\
  exists n l1 l2 l3 l4 l5, decimal n /\
    line "seed = " (k_seed r) l1 /\ line "pk = " (k_pk r) l2 /\ line "sk = " (k_sk r) l3 /\
    line "ct = " (k_ct r) l4 /\ line "ss = " (k_ss r) l5 /\
    t = str "count = " ++ n ++ [10] ++ l1 ++ l2 ++ l3 ++ l4 ++ l5.
(** A response file: records, with any text around them that has no "count = " in it. *)
Inductive response_file (P : params) : list answers -> list Z -> Prop :=
| file_end text : ~ occurs (str "count = ") text -> response_file P [] text
| file_record r rs text t f : ~ occurs (str "count = ") text -> written P r t -> response_file P rs f ->
    response_file P (r :: rs) (text ++ t ++ f).

(** The published values are those of the standard and the specification: with CTR_DRBG seeded
    with the seed, the first request gives the randomness of KeyGen, the second that of Encaps. *)
Definition right (P : params) (g : genA) (r : answers) : Prop :=
  let st := Instantiate (k_seed r) (zrep 48 0) in
  let '(rnd, st) := Generate st (2 * pCB P + 16) in
  let '(PK, SK) := KeyGen P g (zslice rnd 0 (pCB P)) (zslice rnd (pCB P) (pCB P)) (zslice rnd (2 * pCB P) 16) in
  let '(mu, _) := Generate st (bytesMu P) in
  let '(CT, SS) := Encaps P g PK mu in
  k_pk r = PK /\ k_sk r = SK /\ k_ct r = CT /\ k_ss r = SS.
(** Decapsulation of the published ciphertext gives the published secret. *)
Definition decapsulates (P : params) (g : genA) (r : answers) : Prop :=
  Decaps P g (k_sk r) (k_ct r) = k_ss r.
