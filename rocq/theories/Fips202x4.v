(** Model of src/sha3/fips202x4.c and of the part of
    src/sha3/keccak4x/KeccakP-1600-times4-SIMD256.c it calls. *)
From Verif Require Import CSem Params Fips202.

(* ------------------------------------------------------------------ *)
(** * 256-bit registers: four 64-bit lanes, lane 0 the least significant *)

(** V256 (__m256i), src/sha3/keccak4x/KeccakP-1600-times4-SIMD256.c:35 *)
Definition V256 : Type := Z * Z * Z * Z.
(** The l-th 64-bit lane of a register. *)
Definition lane (v : V256) (l : Z) : Z :=
  let '(a, b, c, d) := v in
  if l =? 0 then a else if l =? 1 then b else if l =? 2 then c else d.
(** A register from its lanes. *)
Definition mkV (f : Z -> Z) : V256 := (f 0, f 1, f 2, f 3).

(** The AVX2 intrinsics behind the macros of KeccakP-1600-times4-SIMD256.c:39-56
    (semantics from the Intel intrinsics guide). *)
(** XOR256: _mm256_xor_si256 *)
Definition XOR256 (a b : V256) : V256 := mkV (fun l => Z.lxor (lane a l) (lane b l)).
(** ANDnu256: _mm256_andnot_si256, (~a) & b *)
Definition ANDnu256 (a b : V256) : V256 := mkV (fun l => and64 (not64 (lane a l)) (lane b l)).
(** _mm256_or_si256, _mm256_slli_epi64, _mm256_srli_epi64 *)
Definition mm256_or (a b : V256) : V256 := mkV (fun l => Z.lor (lane a l) (lane b l)).
(** _mm256_slli_epi64, src/sha3/keccak4x/KeccakP-1600-times4-SIMD256.c:46 *)
Definition mm256_slli_epi64 (a : V256) (n : Z) : V256 := mkV (fun l => u64 (Z.shiftl (lane a l) n)).
(** _mm256_srli_epi64, src/sha3/keccak4x/KeccakP-1600-times4-SIMD256.c:46 *)
Definition mm256_srli_epi64 (a : V256) (n : Z) : V256 := mkV (fun l => Z.shiftr (lane a l) n).
(** ROL64in256 *)
Definition ROL64in256 (a : V256) (o : Z) : V256 :=
  mm256_or (mm256_slli_epi64 a o) (mm256_srli_epi64 a (64 - o)).
(** CONST256_64: _mm256_broadcast_sd *)
Definition CONST256_64 (c : Z) : V256 := mkV (fun _ => c).
(** Byte [k] (0..31) of a register. *)
Definition vbyte (v : V256) (k : Z) : Z := (lane v (k / 8) / 2 ^ (8 * (k mod 8))) mod 256.
(** _mm256_shuffle_epi8: within each 16-byte half, byte k of the result is the source
    byte selected by the low four bits of control byte k, or 0 if its bit 7 is set. *)
Definition mm256_shuffle_epi8 (a c : V256) : V256 :=
  let f k := if 128 <=? vbyte c k then 0 else vbyte a (16 * (k / 16) + vbyte c k mod 16) in
  mkV (fun l => f (8 * l) + f (8 * l + 1) * 2 ^ 8 + f (8 * l + 2) * 2 ^ 16 + f (8 * l + 3) * 2 ^ 24 +
                f (8 * l + 4) * 2 ^ 32 + f (8 * l + 5) * 2 ^ 40 + f (8 * l + 6) * 2 ^ 48 + f (8 * l + 7) * 2 ^ 56).
(** rho8 and rho56, KeccakP-1600-times4-SIMD256.c:49-50. *)
Definition rho8 : V256 := (0x0605040302010007, 0x0E0D0C0B0A09080F, 0x1615141312111017, 0x1E1D1C1B1A19181F).
(** rho56, src/sha3/keccak4x/KeccakP-1600-times4-SIMD256.c:50 *)
Definition rho56 : V256 := (0x0007060504030201, 0x080F0E0D0C0B0A09, 0x1017161514131211, 0x181F1E1D1C1B1A19).
(** ROL64in256_8, ROL64in256_56 *)
Definition ROL64in256_8 (a : V256) : V256 := mm256_shuffle_epi8 a rho8.
(** ROL64in256_56, src/sha3/keccak4x/KeccakP-1600-times4-SIMD256.c:48 *)
Definition ROL64in256_56 (a : V256) : V256 := mm256_shuffle_epi8 a rho56.

(** LOAD256(state[i]) and STORE256(state[i], v) on the state seen as 100 64-bit words
    (laneIndex, KeccakP-1600-times4-SIMD256.c:37; x86 is little-endian). The state is an
    array of __m256i, hence aligned. *)
Definition load256 (ss : list Z) (i : Z) : res V256 :=
  a <- rd ss (4 * i) ;; b <- rd ss (4 * i + 1) ;; c <- rd ss (4 * i + 2) ;; d <- rd ss (4 * i + 3) ;;
  ret (a, b, c, d).
(** STORE256, src/sha3/keccak4x/KeccakP-1600-times4-SIMD256.c:51 *)
Definition store256 (ss : list Z) (i : Z) (v : V256) : res (list Z) :=
  ss <- wr ss (4 * i) (lane v 0) ;; ss <- wr ss (4 * i + 1) (lane v 1) ;;
  ss <- wr ss (4 * i + 2) (lane v 2) ;; wr ss (4 * i + 3) (lane v 3).

(** The 25 registers A.. (or E..), and Ca..Cu. *)
Definition vlanes : Type := V256 * V256 * V256 * V256 * V256 * V256 * V256 * V256 * V256 * V256 *
  V256 * V256 * V256 * V256 * V256 * V256 * V256 * V256 * V256 * V256 * V256 * V256 * V256 * V256 * V256.
(** Ca..Cu, src/sha3/keccak4x/KeccakP-1600-times4-SIMD256.c:455 *)
Definition vcols : Type := V256 * V256 * V256 * V256 * V256.

(** prepareTheta, KeccakP-1600-times4-SIMD256.c:464-469. *)
Definition prepareTheta (st : vlanes) : vcols :=
  let '(Aba, Abe, Abi, Abo, Abu, Aga, Age, Agi, Ago, Agu, Aka, Ake, Aki, Ako, Aku, Ama, Ame, Ami, Amo, Amu, Asa, Ase, Asi, Aso, Asu) := st in
  let Ca := XOR256 Aba (XOR256 Aga (XOR256 Aka (XOR256 Ama Asa))) in
  let Ce := XOR256 Abe (XOR256 Age (XOR256 Ake (XOR256 Ame Ase))) in
  let Ci := XOR256 Abi (XOR256 Agi (XOR256 Aki (XOR256 Ami Asi))) in
  let Co := XOR256 Abo (XOR256 Ago (XOR256 Ako (XOR256 Amo Aso))) in
  let Cu := XOR256 Abu (XOR256 Agu (XOR256 Aku (XOR256 Amu Asu))) in
  (Ca, Ce, Ci, Co, Cu).

(** #define thetaRhoPiChiIotaPrepareTheta(i, A, E), KeccakP-1600-times4-SIMD256.c:473-590,
    statement by statement; [rc] is KeccakF1600RoundConstants[i], [st] the 25 variables A..,
    [c] the variables Ca..Cu.  Returns E.. and the new Ca..Cu. *)
Definition thetaRhoPiChiIotaPrepareTheta (rc : Z) (st : vlanes) (c : vcols) : vlanes * vcols :=
  let '(Aba, Abe, Abi, Abo, Abu, Aga, Age, Agi, Ago, Agu, Aka, Ake, Aki, Ako, Aku, Ama, Ame, Ami, Amo, Amu, Asa, Ase, Asi, Aso, Asu) := st in
  let '(Ca, Ce, Ci, Co, Cu) := c in
  let Ce1 := ROL64in256 Ce 1 in
  let Da := XOR256 Cu Ce1 in
  let Ci1 := ROL64in256 Ci 1 in
  let De := XOR256 Ca Ci1 in
  let Co1 := ROL64in256 Co 1 in
  let Di := XOR256 Ce Co1 in
  let Cu1 := ROL64in256 Cu 1 in
  let Do := XOR256 Ci Cu1 in
  let Ca1 := ROL64in256 Ca 1 in
  let Du := XOR256 Co Ca1 in
  let Aba := XOR256 Aba Da in
  let Bba := Aba in
  let Age := XOR256 Age De in
  let Bbe := ROL64in256 Age 44 in
  let Aki := XOR256 Aki Di in
  let Bbi := ROL64in256 Aki 43 in
  let Eba := XOR256 Bba (ANDnu256 Bbe Bbi) in
  let Eba := XOR256 Eba (CONST256_64 rc) in
  let Ca := Eba in
  let Amo := XOR256 Amo Do in
  let Bbo := ROL64in256 Amo 21 in
  let Ebe := XOR256 Bbe (ANDnu256 Bbi Bbo) in
  let Ce := Ebe in
  let Asu := XOR256 Asu Du in
  let Bbu := ROL64in256 Asu 14 in
  let Ebi := XOR256 Bbi (ANDnu256 Bbo Bbu) in
  let Ci := Ebi in
  let Ebo := XOR256 Bbo (ANDnu256 Bbu Bba) in
  let Co := Ebo in
  let Ebu := XOR256 Bbu (ANDnu256 Bba Bbe) in
  let Cu := Ebu in
  let Abo := XOR256 Abo Do in
  let Bga := ROL64in256 Abo 28 in
  let Agu := XOR256 Agu Du in
  let Bge := ROL64in256 Agu 20 in
  let Aka := XOR256 Aka Da in
  let Bgi := ROL64in256 Aka 3 in
  let Ega := XOR256 Bga (ANDnu256 Bge Bgi) in
  let Ca := XOR256 Ca Ega in
  let Ame := XOR256 Ame De in
  let Bgo := ROL64in256 Ame 45 in
  let Ege := XOR256 Bge (ANDnu256 Bgi Bgo) in
  let Ce := XOR256 Ce Ege in
  let Asi := XOR256 Asi Di in
  let Bgu := ROL64in256 Asi 61 in
  let Egi := XOR256 Bgi (ANDnu256 Bgo Bgu) in
  let Ci := XOR256 Ci Egi in
  let Ego := XOR256 Bgo (ANDnu256 Bgu Bga) in
  let Co := XOR256 Co Ego in
  let Egu := XOR256 Bgu (ANDnu256 Bga Bge) in
  let Cu := XOR256 Cu Egu in
  let Abe := XOR256 Abe De in
  let Bka := ROL64in256 Abe 1 in
  let Agi := XOR256 Agi Di in
  let Bke := ROL64in256 Agi 6 in
  let Ako := XOR256 Ako Do in
  let Bki := ROL64in256 Ako 25 in
  let Eka := XOR256 Bka (ANDnu256 Bke Bki) in
  let Ca := XOR256 Ca Eka in
  let Amu := XOR256 Amu Du in
  let Bko := ROL64in256_8 Amu in
  let Eke := XOR256 Bke (ANDnu256 Bki Bko) in
  let Ce := XOR256 Ce Eke in
  let Asa := XOR256 Asa Da in
  let Bku := ROL64in256 Asa 18 in
  let Eki := XOR256 Bki (ANDnu256 Bko Bku) in
  let Ci := XOR256 Ci Eki in
  let Eko := XOR256 Bko (ANDnu256 Bku Bka) in
  let Co := XOR256 Co Eko in
  let Eku := XOR256 Bku (ANDnu256 Bka Bke) in
  let Cu := XOR256 Cu Eku in
  let Abu := XOR256 Abu Du in
  let Bma := ROL64in256 Abu 27 in
  let Aga := XOR256 Aga Da in
  let Bme := ROL64in256 Aga 36 in
  let Ake := XOR256 Ake De in
  let Bmi := ROL64in256 Ake 10 in
  let Ema := XOR256 Bma (ANDnu256 Bme Bmi) in
  let Ca := XOR256 Ca Ema in
  let Ami := XOR256 Ami Di in
  let Bmo := ROL64in256 Ami 15 in
  let Eme := XOR256 Bme (ANDnu256 Bmi Bmo) in
  let Ce := XOR256 Ce Eme in
  let Aso := XOR256 Aso Do in
  let Bmu := ROL64in256_56 Aso in
  let Emi := XOR256 Bmi (ANDnu256 Bmo Bmu) in
  let Ci := XOR256 Ci Emi in
  let Emo := XOR256 Bmo (ANDnu256 Bmu Bma) in
  let Co := XOR256 Co Emo in
  let Emu := XOR256 Bmu (ANDnu256 Bma Bme) in
  let Cu := XOR256 Cu Emu in
  let Abi := XOR256 Abi Di in
  let Bsa := ROL64in256 Abi 62 in
  let Ago := XOR256 Ago Do in
  let Bse := ROL64in256 Ago 55 in
  let Aku := XOR256 Aku Du in
  let Bsi := ROL64in256 Aku 39 in
  let Esa := XOR256 Bsa (ANDnu256 Bse Bsi) in
  let Ca := XOR256 Ca Esa in
  let Ama := XOR256 Ama Da in
  let Bso := ROL64in256 Ama 41 in
  let Ese := XOR256 Bse (ANDnu256 Bsi Bso) in
  let Ce := XOR256 Ce Ese in
  let Ase := XOR256 Ase De in
  let Bsu := ROL64in256 Ase 2 in
  let Esi := XOR256 Bsi (ANDnu256 Bso Bsu) in
  let Ci := XOR256 Ci Esi in
  let Eso := XOR256 Bso (ANDnu256 Bsu Bsa) in
  let Co := XOR256 Co Eso in
  let Esu := XOR256 Bsu (ANDnu256 Bsa Bse) in
  let Cu := XOR256 Cu Esu in
  ((Eba, Ebe, Ebi, Ebo, Ebu, Ega, Ege, Egi, Ego, Egu, Eka, Eke, Eki, Eko, Eku, Ema, Eme, Emi, Emo, Emu, Esa, Ese, Esi, Eso, Esu),
   (Ca, Ce, Ci, Co, Cu)).

(** #define thetaRhoPiChiIota(i, A, E), KeccakP-1600-times4-SIMD256.c:594-686. *)
Definition thetaRhoPiChiIota (rc : Z) (st : vlanes) (c : vcols) : vlanes :=
  let '(Aba, Abe, Abi, Abo, Abu, Aga, Age, Agi, Ago, Agu, Aka, Ake, Aki, Ako, Aku, Ama, Ame, Ami, Amo, Amu, Asa, Ase, Asi, Aso, Asu) := st in
  let '(Ca, Ce, Ci, Co, Cu) := c in
  let Ce1 := ROL64in256 Ce 1 in
  let Da := XOR256 Cu Ce1 in
  let Ci1 := ROL64in256 Ci 1 in
  let De := XOR256 Ca Ci1 in
  let Co1 := ROL64in256 Co 1 in
  let Di := XOR256 Ce Co1 in
  let Cu1 := ROL64in256 Cu 1 in
  let Do := XOR256 Ci Cu1 in
  let Ca1 := ROL64in256 Ca 1 in
  let Du := XOR256 Co Ca1 in
  let Aba := XOR256 Aba Da in
  let Bba := Aba in
  let Age := XOR256 Age De in
  let Bbe := ROL64in256 Age 44 in
  let Aki := XOR256 Aki Di in
  let Bbi := ROL64in256 Aki 43 in
  let Eba := XOR256 Bba (ANDnu256 Bbe Bbi) in
  let Eba := XOR256 Eba (CONST256_64 rc) in
  let Amo := XOR256 Amo Do in
  let Bbo := ROL64in256 Amo 21 in
  let Ebe := XOR256 Bbe (ANDnu256 Bbi Bbo) in
  let Asu := XOR256 Asu Du in
  let Bbu := ROL64in256 Asu 14 in
  let Ebi := XOR256 Bbi (ANDnu256 Bbo Bbu) in
  let Ebo := XOR256 Bbo (ANDnu256 Bbu Bba) in
  let Ebu := XOR256 Bbu (ANDnu256 Bba Bbe) in
  let Abo := XOR256 Abo Do in
  let Bga := ROL64in256 Abo 28 in
  let Agu := XOR256 Agu Du in
  let Bge := ROL64in256 Agu 20 in
  let Aka := XOR256 Aka Da in
  let Bgi := ROL64in256 Aka 3 in
  let Ega := XOR256 Bga (ANDnu256 Bge Bgi) in
  let Ame := XOR256 Ame De in
  let Bgo := ROL64in256 Ame 45 in
  let Ege := XOR256 Bge (ANDnu256 Bgi Bgo) in
  let Asi := XOR256 Asi Di in
  let Bgu := ROL64in256 Asi 61 in
  let Egi := XOR256 Bgi (ANDnu256 Bgo Bgu) in
  let Ego := XOR256 Bgo (ANDnu256 Bgu Bga) in
  let Egu := XOR256 Bgu (ANDnu256 Bga Bge) in
  let Abe := XOR256 Abe De in
  let Bka := ROL64in256 Abe 1 in
  let Agi := XOR256 Agi Di in
  let Bke := ROL64in256 Agi 6 in
  let Ako := XOR256 Ako Do in
  let Bki := ROL64in256 Ako 25 in
  let Eka := XOR256 Bka (ANDnu256 Bke Bki) in
  let Amu := XOR256 Amu Du in
  let Bko := ROL64in256_8 Amu in
  let Eke := XOR256 Bke (ANDnu256 Bki Bko) in
  let Asa := XOR256 Asa Da in
  let Bku := ROL64in256 Asa 18 in
  let Eki := XOR256 Bki (ANDnu256 Bko Bku) in
  let Eko := XOR256 Bko (ANDnu256 Bku Bka) in
  let Eku := XOR256 Bku (ANDnu256 Bka Bke) in
  let Abu := XOR256 Abu Du in
  let Bma := ROL64in256 Abu 27 in
  let Aga := XOR256 Aga Da in
  let Bme := ROL64in256 Aga 36 in
  let Ake := XOR256 Ake De in
  let Bmi := ROL64in256 Ake 10 in
  let Ema := XOR256 Bma (ANDnu256 Bme Bmi) in
  let Ami := XOR256 Ami Di in
  let Bmo := ROL64in256 Ami 15 in
  let Eme := XOR256 Bme (ANDnu256 Bmi Bmo) in
  let Aso := XOR256 Aso Do in
  let Bmu := ROL64in256_56 Aso in
  let Emi := XOR256 Bmi (ANDnu256 Bmo Bmu) in
  let Emo := XOR256 Bmo (ANDnu256 Bmu Bma) in
  let Emu := XOR256 Bmu (ANDnu256 Bma Bme) in
  let Abi := XOR256 Abi Di in
  let Bsa := ROL64in256 Abi 62 in
  let Ago := XOR256 Ago Do in
  let Bse := ROL64in256 Ago 55 in
  let Aku := XOR256 Aku Du in
  let Bsi := ROL64in256 Aku 39 in
  let Esa := XOR256 Bsa (ANDnu256 Bse Bsi) in
  let Ama := XOR256 Ama Da in
  let Bso := ROL64in256 Ama 41 in
  let Ese := XOR256 Bse (ANDnu256 Bsi Bso) in
  let Ase := XOR256 Ase De in
  let Bsu := ROL64in256 Ase 2 in
  let Esi := XOR256 Bsi (ANDnu256 Bso Bsu) in
  let Eso := XOR256 Bso (ANDnu256 Bsu Bsa) in
  let Esu := XOR256 Bsu (ANDnu256 Bsa Bse) in
  (Eba, Ebe, Ebi, Ebo, Ebu, Ega, Ege, Egi, Ego, Egu, Eka, Eke, Eki, Eko, Eku, Ema, Eme, Emi, Emo, Emu, Esa, Ese, Esi, Eso, Esu).

(** KeccakF1600RoundConstants, KeccakP-1600-times4-SIMD256.c:687-711. *)
Definition KeccakF1600RoundConstants : list Z :=
  [1; 32898; 9223372036854808714; 9223372039002292224; 32907; 2147483649; 9223372039002292353; 9223372036854808585; 138; 136; 2147516425; 2147483658; 2147516555; 9223372036854775947; 9223372036854808713; 9223372036854808579; 9223372036854808578; 9223372036854775936; 32778; 9223372039002259466; 9223372039002292353; 9223372036854808704; 2147483649; 9223372039002292232].

(** rounds24 with KeccakP1600times4_fullUnrolling, KeccakP-1600-unrolling.macros:17-41
    (the variables A.. and E.. alternate; both are [st] here). *)
Definition rounds24 (st : vlanes) : res vlanes :=
  let c := prepareTheta st in
  rc <- rd KeccakF1600RoundConstants 0 ;;
  let '(st, c) := thetaRhoPiChiIotaPrepareTheta rc st c in
  rc <- rd KeccakF1600RoundConstants 1 ;;
  let '(st, c) := thetaRhoPiChiIotaPrepareTheta rc st c in
  rc <- rd KeccakF1600RoundConstants 2 ;;
  let '(st, c) := thetaRhoPiChiIotaPrepareTheta rc st c in
  rc <- rd KeccakF1600RoundConstants 3 ;;
  let '(st, c) := thetaRhoPiChiIotaPrepareTheta rc st c in
  rc <- rd KeccakF1600RoundConstants 4 ;;
  let '(st, c) := thetaRhoPiChiIotaPrepareTheta rc st c in
  rc <- rd KeccakF1600RoundConstants 5 ;;
  let '(st, c) := thetaRhoPiChiIotaPrepareTheta rc st c in
  rc <- rd KeccakF1600RoundConstants 6 ;;
  let '(st, c) := thetaRhoPiChiIotaPrepareTheta rc st c in
  rc <- rd KeccakF1600RoundConstants 7 ;;
  let '(st, c) := thetaRhoPiChiIotaPrepareTheta rc st c in
  rc <- rd KeccakF1600RoundConstants 8 ;;
  let '(st, c) := thetaRhoPiChiIotaPrepareTheta rc st c in
  rc <- rd KeccakF1600RoundConstants 9 ;;
  let '(st, c) := thetaRhoPiChiIotaPrepareTheta rc st c in
  rc <- rd KeccakF1600RoundConstants 10 ;;
  let '(st, c) := thetaRhoPiChiIotaPrepareTheta rc st c in
  rc <- rd KeccakF1600RoundConstants 11 ;;
  let '(st, c) := thetaRhoPiChiIotaPrepareTheta rc st c in
  rc <- rd KeccakF1600RoundConstants 12 ;;
  let '(st, c) := thetaRhoPiChiIotaPrepareTheta rc st c in
  rc <- rd KeccakF1600RoundConstants 13 ;;
  let '(st, c) := thetaRhoPiChiIotaPrepareTheta rc st c in
  rc <- rd KeccakF1600RoundConstants 14 ;;
  let '(st, c) := thetaRhoPiChiIotaPrepareTheta rc st c in
  rc <- rd KeccakF1600RoundConstants 15 ;;
  let '(st, c) := thetaRhoPiChiIotaPrepareTheta rc st c in
  rc <- rd KeccakF1600RoundConstants 16 ;;
  let '(st, c) := thetaRhoPiChiIotaPrepareTheta rc st c in
  rc <- rd KeccakF1600RoundConstants 17 ;;
  let '(st, c) := thetaRhoPiChiIotaPrepareTheta rc st c in
  rc <- rd KeccakF1600RoundConstants 18 ;;
  let '(st, c) := thetaRhoPiChiIotaPrepareTheta rc st c in
  rc <- rd KeccakF1600RoundConstants 19 ;;
  let '(st, c) := thetaRhoPiChiIotaPrepareTheta rc st c in
  rc <- rd KeccakF1600RoundConstants 20 ;;
  let '(st, c) := thetaRhoPiChiIotaPrepareTheta rc st c in
  rc <- rd KeccakF1600RoundConstants 21 ;;
  let '(st, c) := thetaRhoPiChiIotaPrepareTheta rc st c in
  rc <- rd KeccakF1600RoundConstants 22 ;;
  let '(st, c) := thetaRhoPiChiIotaPrepareTheta rc st c in
  rc <- rd KeccakF1600RoundConstants 23 ;;
  ret (thetaRhoPiChiIota rc st c).

(** KeccakP1600times4_PermuteAll_24rounds, KeccakP-1600-times4-SIMD256.c:802-813 with copyFromState
    (:714-739) and copyToState (:741-766).  [al]: the tables rho8 and rho56, which are read with
    aligned 32-byte loads (:41, :47-50), lie on 32-byte boundaries; the source does not ask for it. *)
Definition KeccakP1600times4_PermuteAll_24rounds (al : bool) (ss : list Z) : res (list Z) :=
  (if al then ret tt else Err UB_align) ;;;
  Aba <- load256 ss 0 ;;
  Abe <- load256 ss 1 ;;
  Abi <- load256 ss 2 ;;
  Abo <- load256 ss 3 ;;
  Abu <- load256 ss 4 ;;
  Aga <- load256 ss 5 ;;
  Age <- load256 ss 6 ;;
  Agi <- load256 ss 7 ;;
  Ago <- load256 ss 8 ;;
  Agu <- load256 ss 9 ;;
  Aka <- load256 ss 10 ;;
  Ake <- load256 ss 11 ;;
  Aki <- load256 ss 12 ;;
  Ako <- load256 ss 13 ;;
  Aku <- load256 ss 14 ;;
  Ama <- load256 ss 15 ;;
  Ame <- load256 ss 16 ;;
  Ami <- load256 ss 17 ;;
  Amo <- load256 ss 18 ;;
  Amu <- load256 ss 19 ;;
  Asa <- load256 ss 20 ;;
  Ase <- load256 ss 21 ;;
  Asi <- load256 ss 22 ;;
  Aso <- load256 ss 23 ;;
  Asu <- load256 ss 24 ;;
  st <- rounds24 (Aba, Abe, Abi, Abo, Abu, Aga, Age, Agi, Ago, Agu, Aka, Ake, Aki, Ako, Aku, Ama, Ame, Ami, Amo, Amu, Asa, Ase, Asi, Aso, Asu) ;;
  let '(Aba, Abe, Abi, Abo, Abu, Aga, Age, Agi, Ago, Agu, Aka, Ake, Aki, Ako, Aku, Ama, Ame, Ami, Amo, Amu, Asa, Ase, Asi, Aso, Asu) := st in
  ss <- store256 ss 0 Aba ;;
  ss <- store256 ss 1 Abe ;;
  ss <- store256 ss 2 Abi ;;
  ss <- store256 ss 3 Abo ;;
  ss <- store256 ss 4 Abu ;;
  ss <- store256 ss 5 Aga ;;
  ss <- store256 ss 6 Age ;;
  ss <- store256 ss 7 Agi ;;
  ss <- store256 ss 8 Ago ;;
  ss <- store256 ss 9 Agu ;;
  ss <- store256 ss 10 Aka ;;
  ss <- store256 ss 11 Ake ;;
  ss <- store256 ss 12 Aki ;;
  ss <- store256 ss 13 Ako ;;
  ss <- store256 ss 14 Aku ;;
  ss <- store256 ss 15 Ama ;;
  ss <- store256 ss 16 Ame ;;
  ss <- store256 ss 17 Ami ;;
  ss <- store256 ss 18 Amo ;;
  ss <- store256 ss 19 Amu ;;
  ss <- store256 ss 20 Asa ;;
  ss <- store256 ss 21 Ase ;;
  ss <- store256 ss 22 Asi ;;
  ss <- store256 ss 23 Aso ;;
  ss <- store256 ss 24 Asu ;;
  ret ss.

(* ------------------------------------------------------------------ *)
(** * src/sha3/fips202x4.c *)

(** load64 and store64 (src/sha3/fips202x4.c:10-29) are the functions of fips202.c
    (src/sha3/fips202.c:22-41) again: [load64], [store64]. *)

(** ss[4*i+l] ^= load64(m + off + 8*i), src/sha3/fips202x4.c:51-54 *)
Definition xor_in (ss : list Z) (j : Z) (m : list Z) (off : Z) : res (list Z) :=
  x <- rd ss j ;; y <- load64 m off ;; wr ss j (xor64 x y).

(** keccak_absorb4x, src/sha3/fips202x4.c:37-97.  [moff] is how far m0..m3 have moved. *)
Definition keccak_absorb4x (al : bool) (ss : list Z) (r : Z) (m0 m1 m2 m3 : list Z) (mlen p : Z)
    : res (list Z) :=
  let xor4 (n0 n1 n2 n3 : list Z) (off : Z) := for_ 0 (r / 8) (fun i ss =>
       ss <- xor_in ss (4 * i) n0 (off + 8 * i) ;;
       ss <- xor_in ss (4 * i + 1) n1 (off + 8 * i) ;;
       ss <- xor_in ss (4 * i + 2) n2 (off + 8 * i) ;;
       xor_in ss (4 * i + 3) n3 (off + 8 * i)) in
  '(ss, mlen, moff) <- loop (Z.to_nat (mlen / r + 1)) (fun '(ss, mlen, moff) =>
      branch (r <=? mlen)
        (ss <- xor4 m0 m1 m2 m3 moff ss ;;
         ss <- KeccakP1600times4_PermuteAll_24rounds al ss ;;
         ret ((ss, mlen - r, moff + r), true))
        (ret ((ss, mlen, moff), false))) (ss, mlen, 0) ;;
  let t := uninit 200 in
  '(t0, t1, t2, t3) <- for_ 0 r (fun i '(t0, t1, t2, t3) =>
      t0 <- wr t0 i 0 ;; t1 <- wr t1 i 0 ;; t2 <- wr t2 i 0 ;; t3 <- wr t3 i 0 ;;
      ret (t0, t1, t2, t3)) (t, t, t, t) ;;
  '(t0, t1, t2, t3) <- for_ 0 mlen (fun i '(t0, t1, t2, t3) =>
      x0 <- rd m0 (moff + i) ;; t0 <- wr t0 i x0 ;;
      x1 <- rd m1 (moff + i) ;; t1 <- wr t1 i x1 ;;
      x2 <- rd m2 (moff + i) ;; t2 <- wr t2 i x2 ;;
      x3 <- rd m3 (moff + i) ;; t3 <- wr t3 i x3 ;;
      ret (t0, t1, t2, t3)) (t0, t1, t2, t3) ;;
  t0 <- wr t0 mlen p ;; t1 <- wr t1 mlen p ;; t2 <- wr t2 mlen p ;; t3 <- wr t3 mlen p ;;
  x0 <- rd t0 (r - 1) ;; t0 <- wr t0 (r - 1) (u8 (Z.lor x0 128)) ;;
  x1 <- rd t1 (r - 1) ;; t1 <- wr t1 (r - 1) (u8 (Z.lor x1 128)) ;;
  x2 <- rd t2 (r - 1) ;; t2 <- wr t2 (r - 1) (u8 (Z.lor x2 128)) ;;
  x3 <- rd t3 (r - 1) ;; t3 <- wr t3 (r - 1) (u8 (Z.lor x3 128)) ;;
  xor4 t0 t1 t2 t3 0 ss.

(** keccak_squeezeblocks4x, src/sha3/fips202x4.c:100-121.  The four output buffers are
    distinct objects; [hoff] is how far h0..h3 have moved. *)
Definition keccak_squeezeblocks4x (al : bool) (h : list Z * list Z * list Z * list Z) (nblocks : Z)
    (ss : list Z) (r : Z) : res ((list Z * list Z * list Z * list Z) * list Z) :=
  '(h, ss, _, _) <- loop (Z.to_nat (nblocks + 1)) (fun '(h, ss, nblocks, hoff) =>
      branch (0 <? nblocks)
        (ss <- KeccakP1600times4_PermuteAll_24rounds al ss ;;
         h <- for_ 0 (Z.shiftr r 3) (fun i '(h0, h1, h2, h3) =>
                x0 <- rd ss (4 * i) ;; h0 <- store64 h0 (hoff + 8 * i) x0 ;;
                x1 <- rd ss (4 * i + 1) ;; h1 <- store64 h1 (hoff + 8 * i) x1 ;;
                x2 <- rd ss (4 * i + 2) ;; h2 <- store64 h2 (hoff + 8 * i) x2 ;;
                x3 <- rd ss (4 * i + 3) ;; h3 <- store64 h3 (hoff + 8 * i) x3 ;;
                ret (h0, h1, h2, h3)) h ;;
         ret ((h, ss, nblocks - 1, hoff + r), true))
        (ret ((h, ss, nblocks, hoff), false))) (h, ss, nblocks, 0) ;;
  ret (h, ss).

(** shake128_absorb4x, src/sha3/fips202x4.c:126-135.  s[i] = s[i] ^ s[i] zeroes the state
    whatever it held (the caller passes an uninitialised array); modelled as storing 0. *)
Definition shake128_absorb4x (al : bool) (ss in0 in1 in2 in3 : list Z) (inlen : Z) : res (list Z) :=
  ss <- for_ 0 25 (fun i ss => store256 ss i (0, 0, 0, 0)) ss ;;
  keccak_absorb4x al ss 168 in0 in1 in2 in3 inlen 31.

(** shake128_4x, src/sha3/fips202x4.c:145-175. *)
Definition shake128_4x (al : bool) (out : list Z * list Z * list Z * list Z) (outlen : Z)
    (in0 in1 in2 in3 : list Z) (inlen : Z) : res (list Z * list Z * list Z * list Z) :=
  let t := uninit 168 in
  ss <- shake128_absorb4x al (uninit 100) in0 in1 in2 in3 inlen ;;
  '(out, ss) <- keccak_squeezeblocks4x al out (outlen / 168) ss 168 ;;
  let off := (outlen / 168) * 168 in
  branch (negb (outlen mod 168 =? 0))
    ('((t0, t1, t2, t3), ss) <- keccak_squeezeblocks4x al (t, t, t, t) 1 ss 168 ;;
     for_ 0 (outlen mod 168) (fun i '(o0, o1, o2, o3) =>
        x0 <- rd t0 i ;; o0 <- wr o0 (off + i) x0 ;;
        x1 <- rd t1 i ;; o1 <- wr o1 (off + i) x1 ;;
        x2 <- rd t2 i ;; o2 <- wr o2 (off + i) x2 ;;
        x3 <- rd t3 i ;; o3 <- wr o3 (off + i) x3 ;;
        ret (o0, o1, o2, o3)) out)
    (ret out).

(** The model runs: lane 0 of a four-way call equals the single call. *)
Example shake128_4x_runs :
  valof ([], [], [], []) (shake128_4x true (uninit 20, uninit 20, uninit 20, uninit 20) 20 [1; 2] [3; 4] [5; 6] [7; 8] 2)
  = (valof [] (shake128 (uninit 20) 20 [1; 2] 2), valof [] (shake128 (uninit 20) 20 [3; 4] 2),
     valof [] (shake128 (uninit 20) 20 [5; 6] 2), valof [] (shake128 (uninit 20) 20 [7; 8] 2)).
Proof. vm_compute. reflexivity. Qed.
