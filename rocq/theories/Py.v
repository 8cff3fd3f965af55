(** Model of python3/frodokem.py, the reference implementation shipped with the code.

    Python integers are unbounded: Z.  bytes, bytearray and lists are lists; a
    bitstring.BitArray is the list of its bits.  An expression can raise; [let*] is
    sequencing.  The libraries are trusted and modelled by what they are documented to
    compute: hashes.SHAKE128/SHAKE256 by FIPS 202, the AES cipher by FIPS 197,
    struct and bitstring as described beside each definition. *)
From Verif Require Import ZList KeccakSpec AesSpec.

(** Exceptions of Python that the modelled code could raise. *)
Inductive pyexc := IndexError | AssertionError | StructError | ValueError | ZeroDivisionError
  | InexactFloat (* not a Python exception: the model does not cover a rounded float *).
(** The value of an expression, or the exception it raises. *)
Inductive py (A : Type) := PyOk (a : A) | Raise (e : pyexc).
Arguments PyOk {A} _. Arguments Raise {A} _.
(** Evaluation in sequence; an exception ends it. *)
Definition pybind {A B} (m : py A) (f : A -> py B) : py B := match m with PyOk a => f a | Raise e => Raise e end.
Notation "'let*' x ':=' m 'in' k" := (pybind m (fun x => k)) (at level 200, x pattern, m at level 100, k at level 200, right associativity).
(** assert c *)
Definition pyassert (c : bool) : py unit := if c then PyOk tt else Raise AssertionError.

(** l[i] and l[i] = v, with Python's negative indices. *)
Definition pyidx {A} (l : list A) (i : Z) : Z := if i <? 0 then zlen l + i else i.
(** l[i] *)
Definition pyget {A} (l : list A) (i : Z) : py A :=
  let k := pyidx l i in
  if (0 <=? k) && (k <? zlen l) then match nth_error l (Z.to_nat k) with Some x => PyOk x | None => Raise IndexError end
  else Raise IndexError.
(** l[i] = v *)
Definition pyset {A} (l : list A) (i : Z) (v : A) : py (list A) :=
  let k := pyidx l i in
  if (0 <=? k) && (k <? zlen l) then PyOk (zset l k v) else Raise IndexError.
(** M[i][j] and M[i][j] = v for a list of lists (the rows are distinct objects). *)
Definition pyget2 {A} (M : list (list A)) (i j : Z) : py A := let* r := pyget M i in pyget r j.
(** M[i][j] = v *)
Definition pyset2 {A} (M : list (list A)) (i j : Z) (v : A) : py (list (list A)) :=
  let* r := pyget M i in let* r := pyset r j v in pyset M i r.
(** l[a:b] for 0 <= a <= b *)
Definition pyslice {A} (l : list A) (a b : Z) : list A := zslice l a (b - a).

(** for i in range(a, a + k): the variables assigned in the body are the state. *)
Fixpoint pyfor_n {S} (k : nat) (i : Z) (f : Z -> S -> py S) (s : S) : py S :=
  match k with O => PyOk s | Datatypes.S k' => let* s := f i s in pyfor_n k' (i + 1) f s end.
(** for i in range(n) *)
Definition pyfor {S} (n : Z) (f : Z -> S -> py S) (s : S) : py S := pyfor_n (Z.to_nat n) 0 f s.
(** for j in range(0, n, 8) *)
Definition pyfor8 {S} (n : Z) (f : Z -> S -> py S) (s : S) : py S := pyfor ((n + 7) / 8) (fun j => f (8 * j)) s.
(** [e for i in range(n)] *)
Definition pylist {A} (n : Z) (e : Z -> py A) : py (list A) := pyfor n (fun i l => let* x := e i in PyOk (l ++ [x])) [].

(** a / b is a float.  With |a| <= 2^53 and b a power of two (at most 2^53) the float is the
    exact quotient; the model covers only this case.  The value is kept as the pair. *)
Definition pydiv (a b : Z) : py (Z * Z) :=
  if b =? 0 then Raise ZeroDivisionError
  else if (Z.abs a <=? 2 ^ 53) && (0 <? b) && (b <=? 2 ^ 53) && (2 ^ Z.log2 b =? b) then PyOk (a, b) else Raise InexactFloat.
(** int(x): towards zero *)
Definition pyint (x : Z * Z) : Z := Z.quot (fst x) (snd x).
(** round(x): to nearest, ties to even *)
Definition pyround (x : Z * Z) : Z :=
  let '(a, b) := x in
  let f := a / b in
  let r := 2 * (a - f * b) in
  if r <? b then f else if b <? r then f + 1 else if Z.even f then f else f + 1.
(** x == y for a float x and an integer y *)
Definition pyfeq (x : Z * Z) (y : Z) : bool := fst x =? y * snd x.

(** struct.unpack_from('<H', buf, off)[0] and struct.pack_into('<H', buf, off, v) *)
Definition unpack_H (buf : list Z) (off : Z) : py Z :=
  if (0 <=? off) && (off + 2 <=? zlen buf) then PyOk (znth buf off + 256 * znth buf (off + 1)) else Raise StructError.
(** struct.pack_into('<H', buf, off, v), python3/frodokem.py:412-413, 429 *)
Definition pack_H (buf : list Z) (off v : Z) : py (list Z) :=
  if (0 <=? off) && (off + 2 <=? zlen buf) && (0 <=? v) && (v <? 65536)
  then PyOk (zset (zset buf off (v mod 256)) (off + 1) (v / 256)) else Raise StructError.

(** bitstring: bit 0 is the most significant bit of the first byte. *)
Definition bits_of_bytes (b : list Z) : list Z :=
  ztab (8 * zlen b) (fun k => Z.b2z (Z.testbit (znth b (k / 8)) (7 - k mod 8))).
(** x.bytes *)
Definition bits_to_bytes (b : list Z) : py (list Z) :=
  if zlen b mod 8 =? 0 then PyOk (ztab (zlen b / 8) (fun m => zsum 8 (fun t => znth b (8 * m + t) * 2 ^ (7 - t)))) else Raise ValueError.
(** BitArray(intle = x, length = 16) *)
Definition bits_intle16 (x : Z) : py (list Z) :=
  if (-32768 <=? x) && (x <? 32768) then PyOk (bits_of_bytes [(x mod 65536) mod 256; (x mod 65536) / 256]) else Raise ValueError.
(** read('intle:16') of a stream: the value and the new position *)
Definition read_intle16 (b : list Z) (pos : Z) : py (Z * Z) :=
  if (0 <=? pos) && (pos + 16 <=? zlen b) then
    let lo := zsum 8 (fun t => znth b (pos + t) * 2 ^ (7 - t)) in
    let hi := zsum 8 (fun t => znth b (pos + 8 + t) * 2 ^ (7 - t)) in
    let w := lo + 256 * hi in
    PyOk (if w <? 32768 then w else w - 65536, pos + 16)
  else Raise ValueError.
(** bytearray.append(v), bytearray[i] = v *)
Definition pybyte (v : Z) : py Z := if (0 <=? v) && (v <? 256) then PyOk v else Raise ValueError.

(** The AES cipher of the library on one block *)
Definition lib_aes128 (key msg : list Z) : py (list Z) :=
  if (zlen key =? 16) && (zlen msg =? 16) then PyOk (AES128 key msg) else Raise ValueError.

(** self.gen, python3/frodokem.py:28-43 *)
Inductive pygen := Gen_AES128 | Gen_SHAKE128.
(** self.shake, set by the setParams methods (python3/frodokem.py:48-157) *)
Inductive pyshake := Shake128 | Shake256.
(** The attributes of a FrodoKEM object that the methods use. *)
Record frodo := {
  T_chi : list Z; fD : Z; fq : Z; fn : Z; nbar : Z; mbar : Z; fB : Z;
  len_seedA_bytes : Z; len_z_bytes : Z; len_mu_bytes : Z; len_seedSE_bytes : Z; len_s_bytes : Z; len_k_bytes : Z;
  len_pkh_bytes : Z; len_ss_bytes : Z; len_chi_bytes : Z;
  fshake : pyshake; fgen : pygen;
  len_sk_bytes : Z; len_pk_bytes : Z; len_ct_bytes : Z }.

(** sum(chi[1:z+1]) *)
Definition pysum (l : list Z) : Z := fold_left Z.add l 0.
(** __cdf_zero_centred_symmetric, python3/frodokem.py:202-212 *)
Definition cdf_zero_centred_symmetric (chi : list Z) : py (list Z) :=
  let T := ztab (zlen chi) (fun i => i) in
  let* c0 := pyget chi 0 in
  let* h := pydiv c0 2 in
  let* T := pyset T 0 (pyint h - 1) in
  pyfor (zlen chi - 1) (fun y T =>
    let z := y + 1 in
    let* t0 := pyget T 0 in
    pyset T z (t0 + pysum (pyslice chi 1 (z + 1)))) T.

(** What the three setParams methods have in common, python3/frodokem.py:48-83, 85-120,
    122-157: [len] is len_mu = len_seedSE = len_s = len_k = len_pkh = len_ss in bits. *)
Definition setParams (g : pygen) (chi : list Z) (D q n B len : Z) (sh : pyshake) (lsk lpk lct lss : Z) : py frodo :=
  let* T := cdf_zero_centred_symmetric chi in
  let* seedA := pydiv 128 8 in
  let* l := pydiv len 8 in
  let* x := pydiv 16 8 in
  PyOk {| T_chi := T; fD := D; fq := q; fn := n; nbar := 8; mbar := 8; fB := B;
     len_seedA_bytes := pyint seedA; len_z_bytes := pyint seedA; len_mu_bytes := pyint l; len_seedSE_bytes := pyint l;
     len_s_bytes := pyint l; len_k_bytes := pyint l; len_pkh_bytes := pyint l; len_ss_bytes := lss;
     len_chi_bytes := pyint x; fshake := sh; fgen := g;
     len_sk_bytes := lsk; len_pk_bytes := lpk; len_ct_bytes := lct |}.
(** setParamsFrodo640, 976, 1344, python3/frodokem.py:48-157 *)
Definition setParamsFrodo640 g := setParams g [9288; 8720; 7216; 5264; 3384; 1918; 958; 422; 164; 56; 17; 4; 1] 15 32768 640 2 128 Shake128 19888 9616 9720 16.
(** setParamsFrodo976, python3/frodokem.py:85-120 *)
Definition setParamsFrodo976 g := setParams g [11278; 10277; 7774; 4882; 2545; 1101; 396; 118; 29; 6; 1] 16 65536 976 3 192 Shake256 31296 15632 15744 24.
(** setParamsFrodo1344, python3/frodokem.py:122-157 *)
Definition setParamsFrodo1344 g := setParams g [18286; 14320; 6876; 2023; 364; 40; 2] 16 65536 1344 4 256 Shake256 43088 21520 21632 32.

(** __shake128, __shake256, python3/frodokem.py:178-192 *)
Definition lib_shake (s : pyshake) (msg : list Z) (digest_len : Z) : list Z :=
  match s with Shake128 => SHAKE128 msg digest_len | Shake256 => SHAKE256 msg digest_len end.

(** A list of rows. *)
Definition matrix := list (list Z).
(** len(X[0]) *)
Definition ncols (X : matrix) : py Z := let* r := pyget X 0 in PyOk (zlen r).
(** [[v for j in range(c)] for i in range(r)] *)
Definition mconst (r c v : Z) : matrix := ztab r (fun _ => zrep c v).

(** __matrix_mul, python3/frodokem.py:214-227 *)
Definition matrix_mul (X : frodo) (A Bm : matrix) : py matrix :=
  let* cA := ncols A in
  let* cB := ncols Bm in
  let* _ := pyassert (cA =? zlen Bm) in
  pyfor (zlen A) (fun i R =>
    pyfor cB (fun j R =>
      let* R := pyfor cA (fun k R =>
          let* x := pyget2 A i k in let* y := pyget2 Bm k j in
          let* r := pyget2 R i j in pyset2 R i j (r + x * y)) R in
      let* r := pyget2 R i j in pyset2 R i j (r mod fq X)) R) (mconst (zlen A) cB 0).
(** __matrix_add, __matrix_sub, python3/frodokem.py:229-245 *)
Definition matrix_zip (op : Z -> Z -> Z) (X : frodo) (A Bm : matrix) : py matrix :=
  let* cA := ncols A in
  let* cB := ncols Bm in
  let* _ := pyassert ((cA =? cB) && (zlen A =? zlen Bm)) in
  pylist (zlen A) (fun i => pylist cA (fun j =>
    let* x := pyget2 A i j in let* y := pyget2 Bm i j in PyOk (op x y mod fq X))).
(** __matrix_add, python3/frodokem.py:229-236 *)
Definition matrix_add := matrix_zip Z.add.
(** __matrix_sub, python3/frodokem.py:238-245 *)
Definition matrix_sub := matrix_zip Z.sub.
(** __matrix_transpose, python3/frodokem.py:247-251 *)
Definition matrix_transpose (A : matrix) : py matrix :=
  let* c := ncols A in
  pylist c (fun i => pylist (zlen A) (fun j => pyget2 A j i)).

(** __bytes_to_bit_array, python3/frodokem.py:253-261 *)
Definition bytes_to_bit_array (b : list Z) : py (list Z) :=
  pyfor (zlen b) (fun i bits =>
    pyfor 8 (fun l bits =>
      let* x := pyget b i in
      pyset bits (8 * i + l) (if (Z.shiftr x l) mod 2 =? 0 then 0 else 1)) bits) (zrep (8 * zlen b) 0).
(** __bit_array_to_bytes, python3/frodokem.py:306-313 *)
Definition bit_array_to_bytes (b : list Z) : py (list Z) :=
  let* h := pydiv (zlen b) 8 in
  pyfor (pyint h) (fun i B =>
    pyfor 8 (fun l B =>
      let* x := pyget b (8 * i + l) in
      if x =? 0 then PyOk B
      else let* y := pyget B i in let* v := pybyte (Z.lor y (Z.shiftl 1 l)) in pyset B i v) B) (zrep (pyint h) 0).
(** __ctverify, python3/frodokem.py:263-275 *)
Definition ctverify (a b : matrix) : py bool :=
  let* r := pyfor (zlen a) (fun i r =>
    let* row := pyget a i in
    pyfor (zlen row) (fun j r =>
      let* x := pyget2 a i j in let* y := pyget2 b i j in PyOk (Z.lor r (Z.lxor x y))) r) 0 in
  PyOk (r =? 0).
(** __ctselect, python3/frodokem.py:277-286 *)
Definition ctselect (a b : list Z) (selector : bool) : py (list Z) :=
  let* mask := pyfor 8 (fun i mask => PyOk (Z.lor mask (Z.shiftl (Z.b2z selector) i))) 0 in
  pyfor (zlen a) (fun i r =>
    let* x := pyget a i in let* y := pyget b i in
    let* v := pybyte (Z.lor (Z.land x mask) (Z.land y (Z.lnot mask))) in
    PyOk (r ++ [v])) [].

(** encode, python3/frodokem.py:288-304 *)
Definition py_encode (X : frodo) (k : list Z) : py matrix :=
  let* kbits := bytes_to_bit_array k in
  pyfor (mbar X) (fun i K =>
    pyfor (nbar X) (fun j K =>
      let* tmp := pyfor (fB X) (fun l tmp =>
          let* x := pyget kbits ((i * nbar X + j) * fB X + l) in
          PyOk (if x =? 0 then tmp else tmp + 2 ^ l)) 0 in
      let* h := pydiv (fq X) (2 ^ fB X) in
      pyset2 K i j (tmp * pyint h)) K) (mconst (mbar X) (nbar X) 0).
(** decode, python3/frodokem.py:315-334 *)
Definition py_decode (X : frodo) (K : matrix) : py (list Z) :=
  let* k := pyfor (mbar X) (fun i k =>
    pyfor (nbar X) (fun j k =>
      let* x := pyget2 K i j in
      let* h := pydiv (x * 2 ^ fB X) (fq X) in
      let tmp := pyround h mod 2 ^ fB X in
      let* st := pyfor (fB X) (fun l '(tmpbits, tmp) =>
          let* tmpbits := pyset tmpbits l (tmp mod 2) in PyOk (tmpbits, Z.shiftr tmp 1)) (zrep (fB X) 0, tmp) in
      let tmpbits := fst st in
      pyfor (fB X) (fun l k =>
          let* v := pyget tmpbits l in
          pyset k ((i * nbar X + j) * fB X + l) (if v =? 0 then 0 else 1)) k) k)
    (zrep (fB X * mbar X * nbar X) 0) in
  bit_array_to_bytes k.
(** pack, python3/frodokem.py:336-356 *)
Definition py_pack (X : frodo) (C : matrix) : py (list Z) :=
  let n1 := zlen C in
  let* n2 := ncols C in
  let* b := pyfor n1 (fun i b =>
    pyfor n2 (fun j b =>
      let* tmp := pyget2 C i j in
      let* st := pyfor (fD X) (fun l '(c, tmp) =>
          let* c := pyset c l (tmp mod 2) in PyOk (c, Z.shiftr tmp 1)) (zrep (fD X) 0, tmp) in
      let c := fst st in
      pyfor (fD X) (fun l b =>
          let* v := pyget c (fD X - 1 - l) in
          pyset b ((i * n2 + j) * fD X + l) (if v =? 0 then 0 else 1)) b) b)
    (zrep (fD X * n1 * n2) 0) in
  bits_to_bytes b.
(** unpack, python3/frodokem.py:358-370 *)
Definition py_unpack (X : frodo) (b : list Z) (n1 n2 : Z) : py matrix :=
  let bbits := bits_of_bytes b in
  pyfor n1 (fun i C =>
    pyfor n2 (fun j C =>
      pyfor (fD X) (fun l C =>
        let* v := pyget bbits ((i * n2 + j) * fD X + l) in
        if v =? 0 then PyOk C
        else let* c := pyget2 C i j in pyset2 C i j (c + 2 ^ (fD X - 1 - l))) C) C) (mconst n1 n2 0).
(** sample, python3/frodokem.py:372-389 *)
Definition py_sample (X : frodo) (r : Z) : py Z :=
  let t := Z.shiftr r 1 in
  let* e := pyfor (zlen (T_chi X) - 1) (fun z e =>
      let* c := pyget (T_chi X) z in PyOk (if c <? t then e + 1 else e)) 0 in
  PyOk ((-1) ^ (r mod 2) * e).
(** sample_matrix, python3/frodokem.py:391-401.  The placeholder None is 0. *)
Definition py_sample_matrix (X : frodo) (r : list Z) (n1 n2 : Z) : py matrix :=
  pyfor n1 (fun i E =>
    pyfor n2 (fun j E =>
      let* x := pyget r (i * n2 + j) in
      let* e := py_sample X x in pyset2 E i j e) E) (mconst n1 n2 0).
(** genAES128, python3/frodokem.py:403-420 *)
Definition py_genAES128 (X : frodo) (seedA : list Z) : py matrix :=
  pyfor (fn X) (fun i A =>
    pyfor8 (fn X) (fun j A =>
      let* b := pack_H (zrep 16 0) 0 i in
      let* b := pack_H b 2 j in
      let* c := lib_aes128 seedA b in
      pyfor 8 (fun k A =>
        let* w := unpack_H c (2 * k) in pyset2 A i (j + k) (w mod fq X)) A) A) (mconst (fn X) (fn X) 0).
(** genSHAKE128, python3/frodokem.py:422-438 *)
Definition py_genSHAKE128 (X : frodo) (seedA : list Z) : py matrix :=
  pyfor (fn X) (fun i A =>
    let* tmp := pack_H (zrep 2 0) 0 i in
    let b := tmp ++ seedA in
    let* h := pydiv (16 * fn X) 8 in
    let tmp := lib_shake Shake128 b (pyint h) in
    let* c := pylist (fn X) (fun j => unpack_H tmp (2 * j)) in
    pyfor (fn X) (fun j A =>
      let* w := pyget c j in pyset2 A i j (w mod fq X)) A) (mconst (fn X) (fn X) 0).
(** self.gen(seedA), python3/frodokem.py:28-43 *)
Definition py_gen (X : frodo) (seedA : list Z) : py matrix :=
  match fgen X with Gen_AES128 => py_genAES128 X seedA | Gen_SHAKE128 => py_genSHAKE128 X seedA end.

(** [struct.unpack_from('<H', rbytes, 2*i)[0] for i in range(cnt)] *)
Definition parse_r (rbytes : list Z) (cnt : Z) : py (list Z) := pylist cnt (fun i => unpack_H rbytes (2 * i)).

(** kem_keygen, python3/frodokem.py:440-486.  self.randombytes is an external call.
    Printing of intermediate values is left out. *)
Definition kem_keygen (X : frodo) (randombytes : Z -> py (list Z)) : py (list Z * list Z) :=
  let* rnd := randombytes (len_s_bytes X + len_seedSE_bytes X + len_z_bytes X) in
  let s := pyslice rnd 0 (len_s_bytes X) in
  let seedSE := pyslice rnd (len_s_bytes X) (len_s_bytes X + len_seedSE_bytes X) in
  let z := pyslice rnd (len_s_bytes X + len_seedSE_bytes X) (len_s_bytes X + len_seedSE_bytes X + len_z_bytes X) in
  let seedA := lib_shake (fshake X) z (len_seedA_bytes X) in
  let* A := py_gen X seedA in
  let rbytes := lib_shake (fshake X) ([0x5f] ++ seedSE) (2 * fn X * nbar X * len_chi_bytes X) in
  let* r := parse_r rbytes (2 * fn X * nbar X) in
  let* St := py_sample_matrix X (pyslice r 0 (fn X * nbar X)) (nbar X) (fn X) in
  let* Sm := matrix_transpose St in
  let* E := py_sample_matrix X (pyslice r (fn X * nbar X) (2 * fn X * nbar X)) (fn X) (nbar X) in
  let* AS := matrix_mul X A Sm in
  let* B := matrix_add X AS E in
  let* b := py_pack X B in
  let pkh := lib_shake (fshake X) (seedA ++ b) (len_pkh_bytes X) in
  let pk := seedA ++ b in
  let* _ := pyassert (zlen pk =? len_pk_bytes X) in
  let sk := bits_of_bytes (s ++ seedA ++ b) in
  let* sk := pyfor (nbar X) (fun i sk =>
    pyfor (fn X) (fun j sk =>
      let* x := pyget2 St i j in let* y := bits_intle16 x in PyOk (sk ++ y)) sk) sk in
  let sk := sk ++ bits_of_bytes pkh in
  let* sk := bits_to_bytes sk in
  let* _ := pyassert (zlen sk =? len_sk_bytes X) in
  PyOk (pk, sk).

(** The lines that kem_encaps and kem_decaps have in common (python3/frodokem.py:502-536
    and 598-628): from pkh and mu to B' (B''), C (C') and k. *)
Definition py_encrypt (X : frodo) (seedA b pkh mu : list Z) : py (matrix * matrix * list Z) :=
  let seedSE_k := lib_shake (fshake X) (pkh ++ mu) (len_seedSE_bytes X + len_k_bytes X) in
  let seedSE := pyslice seedSE_k 0 (len_seedSE_bytes X) in
  let k := pyslice seedSE_k (len_seedSE_bytes X) (len_seedSE_bytes X + len_k_bytes X) in
  let rbytes := lib_shake (fshake X) ([0x96] ++ seedSE) ((2 * mbar X * fn X + mbar X * mbar X) * len_chi_bytes X) in
  let* r := parse_r rbytes (2 * mbar X * fn X + mbar X * nbar X) in
  let* S' := py_sample_matrix X (pyslice r 0 (mbar X * fn X)) (mbar X) (fn X) in
  let* E' := py_sample_matrix X (pyslice r (mbar X * fn X) (2 * mbar X * fn X)) (mbar X) (fn X) in
  let* A := py_gen X seedA in
  let* SA := matrix_mul X S' A in
  let* B' := matrix_add X SA E' in
  let* E'' := py_sample_matrix X (pyslice r (2 * mbar X * fn X) (2 * mbar X * fn X + mbar X * nbar X)) (mbar X) (nbar X) in
  let* B := py_unpack X b (fn X) (nbar X) in
  let* SB := matrix_mul X S' B in
  let* V := matrix_add X SB E'' in
  let* M := py_encode X mu in
  let* C := matrix_add X V M in
  PyOk (B', C, k).
(** kem_encaps, python3/frodokem.py:488-546 (lines 502-536 are [py_encrypt]; there c1 is
    packed before E'' is sampled, which makes no difference because neither has effects). *)
Definition kem_encaps (X : frodo) (randombytes : Z -> py (list Z)) (pk : list Z) : py (list Z * list Z) :=
  let* h := pydiv (fD X * fn X * nbar X) 8 in
  let* _ := pyassert (pyfeq h (zlen pk - len_seedA_bytes X)) in
  let seedA := pyslice pk 0 (len_seedA_bytes X) in
  let b := pyslice pk (len_seedA_bytes X) (zlen pk) in
  let* mu := randombytes (len_mu_bytes X) in
  let pkh := lib_shake (fshake X) pk (len_pkh_bytes X) in
  let* (B', C, k) := py_encrypt X seedA b pkh mu in
  let* c1 := py_pack X B' in
  let* c2 := py_pack X C in
  let ss := lib_shake (fshake X) (c1 ++ c2 ++ k) (len_ss_bytes X) in
  let ct := c1 ++ c2 in
  let* _ := pyassert (zlen ct =? len_ct_bytes X) in
  let* _ := pyassert (zlen ss =? len_ss_bytes X) in
  PyOk (ct, ss).
(** kem_decaps, python3/frodokem.py:548-639 *)
Definition kem_decaps (X : frodo) (sk ct : list Z) : py (list Z) :=
  let* _ := pyassert (zlen ct =? len_ct_bytes X) in
  let offset := 0 in
  let* h := pydiv (mbar X * fn X * fD X) 8 in let length := pyint h in
  let c1 := pyslice ct offset (offset + length) in
  let offset := offset + length in
  let* h := pydiv (mbar X * nbar X * fD X) 8 in let length := pyint h in
  let c2 := pyslice ct offset (offset + length) in
  let* _ := pyassert (zlen sk =? len_sk_bytes X) in
  let offset := 0 in let length := len_s_bytes X in
  let s := pyslice sk offset (offset + length) in
  let offset := offset + length in let length := len_seedA_bytes X in
  let seedA := pyslice sk offset (offset + length) in
  let offset := offset + length in
  let* h := pydiv (fD X * fn X * nbar X) 8 in let length := pyint h in
  let b := pyslice sk offset (offset + length) in
  let offset := offset + length in
  let* h := pydiv (fn X * nbar X * 16) 8 in let length := pyint h in
  let Sbytes := bits_of_bytes (pyslice sk offset (offset + length)) in
  let* st := pyfor (nbar X) (fun i st => pyfor (fn X) (fun j '(St, pos) =>
      let* rd := read_intle16 Sbytes pos in
      let* St := pyset2 St i j (fst rd) in PyOk (St, snd rd)) st) (mconst (nbar X) (fn X) 0, 0) in
  let* Sm := matrix_transpose (fst st) in
  let offset := offset + length in let length := len_pkh_bytes X in
  let pkh := pyslice sk offset (offset + length) in
  let* B' := py_unpack X c1 (mbar X) (fn X) in
  let* C := py_unpack X c2 (mbar X) (nbar X) in
  let* BS := matrix_mul X B' Sm in
  let* M := matrix_sub X C BS in
  let* mu' := py_decode X M in
  let* (B'', C', k') := py_encrypt X seedA b pkh mu' in
  let* use_k' := ctverify (B' ++ C) (B'' ++ C') in
  let* kbar := ctselect k' s use_k' in
  let ss := lib_shake (fshake X) (c1 ++ c2 ++ kbar) (len_ss_bytes X) in
  let* _ := pyassert (zlen ss =? len_ss_bytes X) in
  PyOk ss.
