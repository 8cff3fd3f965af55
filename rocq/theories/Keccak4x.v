(** Model of the rest of src/sha3/keccak4x/KeccakP-1600-times4-SIMD256.c and of KeccakP-1600-times4-SnP.h:
    the functions that src/sha3/fips202x4.c does not call.

    [ss] is the object [states], 800 bytes; it is 32-byte aligned (KeccakP1600times4_statesAlignment,
    KeccakP-1600-times4-SnP.h:26).  Accesses through UINT64 and V256 pointers are little-endian
    (KeccakP-1600-times4-SIMD256.c:27-30).  Data pointers are cast to UINT64 pointers whatever their
    alignment; x86 allows this, and the model does too.  Data and output buffers are objects of their own.
    Counters of type unsigned int that are only compared with and subtracted from are plain integers. *)
From Verif Require Import CSem Params Fips202 Fips202x4.

(** laneIndex, KeccakP-1600-times4-SIMD256.c:37, times the 8 bytes of a lane. *)
Definition laneAddr (instanceIndex lanePosition : Z) : Z := 8 * (lanePosition * 4 + instanceIndex).

(** A 256-bit register from 32 bytes at offset o, and back (LOAD256, LOAD256u, STORE256, STORE256u,
    KeccakP-1600-times4-SIMD256.c:43-44, 51-52). *)
Definition loadu256 (m : list Z) (o : Z) : res V256 :=
  a <- load64 m o ;; b <- load64 m (o + 8) ;; c <- load64 m (o + 16) ;; d <- load64 m (o + 24) ;; ret (a, b, c, d).
(** STORE256u, src/sha3/keccak4x/KeccakP-1600-times4-SIMD256.c:52 *)
Definition storeu256 (m : list Z) (o : Z) (v : V256) : res (list Z) :=
  m <- store64 m o (lane v 0) ;; m <- store64 m (o + 8) (lane v 1) ;;
  m <- store64 m (o + 16) (lane v 2) ;; store64 m (o + 24) (lane v 3).
(** stateAsLanes[i] as a V256. *)
Definition load256b (ss : list Z) (i : Z) : res V256 := loadu256 ss (32 * i).
(** STORE256 to stateAsLanes[i], src/sha3/keccak4x/KeccakP-1600-times4-SIMD256.c:51 *)
Definition store256b (ss : list Z) (i : Z) (v : V256) : res (list Z) := storeu256 ss (32 * i) v.

(** The intrinsics behind UNPACKL, UNPACKH, PERM128 and SHUFFLE64, KeccakP-1600-times4-SIMD256.c:56-59
    (semantics from the Intel intrinsics guide). *)
Definition UNPACKL (a b : V256) : V256 := (lane a 0, lane b 0, lane a 2, lane b 2).
(** UNPACKH, src/sha3/keccak4x/KeccakP-1600-times4-SIMD256.c:57 *)
Definition UNPACKH (a b : V256) : V256 := (lane a 1, lane b 1, lane a 3, lane b 3).
(** _mm256_permute2f128_ps: each half of the result is one of the four halves of a and b, or zero. *)
Definition half128 (a b : V256) (ctl : Z) : Z * Z :=
  if Z.testbit ctl 3 then (0, 0)
  else let v := if Z.testbit ctl 1 then b else a in
       if Z.testbit ctl 0 then (lane v 2, lane v 3) else (lane v 0, lane v 1).
(** PERM128, src/sha3/keccak4x/KeccakP-1600-times4-SIMD256.c:58 *)
Definition PERM128 (a b : V256) (c : Z) : V256 :=
  let '(x0, x1) := half128 a b c in let '(x2, x3) := half128 a b (c / 16) in (x0, x1, x2, x3).
(** _mm256_shuffle_pd *)
Definition SHUFFLE64 (a b : V256) (c : Z) : V256 :=
  (if Z.testbit c 0 then lane a 1 else lane a 0, if Z.testbit c 1 then lane b 1 else lane b 0,
   if Z.testbit c 2 then lane a 3 else lane a 2, if Z.testbit c 3 then lane b 3 else lane b 2).
(** UNINTLEAVE, KeccakP-1600-times4-SIMD256.c:61-68, and INTLEAVE, :70-77, on lanes0..lanes3. *)
Definition UNINTLEAVE (lanes0 lanes1 lanes2 lanes3 : V256) : V256 * V256 * V256 * V256 :=
  let lanesL01 := UNPACKL lanes0 lanes1 in
  let lanesH01 := UNPACKH lanes0 lanes1 in
  let lanesL23 := UNPACKL lanes2 lanes3 in
  let lanesH23 := UNPACKH lanes2 lanes3 in
  (PERM128 lanesL01 lanesL23 0x20, PERM128 lanesH01 lanesH23 0x20,
   PERM128 lanesL01 lanesL23 0x31, PERM128 lanesH01 lanesH23 0x31).
(** INTLEAVE, src/sha3/keccak4x/KeccakP-1600-times4-SIMD256.c:70-77 *)
Definition INTLEAVE (lanes0 lanes1 lanes2 lanes3 : V256) : V256 * V256 * V256 * V256 :=
  let lanesL01 := PERM128 lanes0 lanes2 0x20 in
  let lanesH01 := PERM128 lanes1 lanes3 0x20 in
  let lanesL23 := PERM128 lanes0 lanes2 0x31 in
  let lanesH23 := PERM128 lanes1 lanes3 0x31 in
  (SHUFFLE64 lanesL01 lanesH01 0x00, SHUFFLE64 lanesL01 lanesH01 0x0F,
   SHUFFLE64 lanesL23 lanesH23 0x00, SHUFFLE64 lanesL23 lanesH23 0x0F).

(* ------------------------------------------------------------------ *)
(** * One instance, byte by byte *)

(** KeccakP1600times4_InitializeAll, KeccakP-1600-times4-SIMD256.c:83-86. *)
Definition InitializeAll (ss : list Z) : res (list Z) := memset ss 0 0 800.

(** KeccakP1600times4_AddByte, KeccakP-1600-times4-SnP.h:34-35. *)
Definition AddByte (ss : list Z) (instanceIndex byte offset : Z) : res (list Z) :=
  let a := instanceIndex * 8 + (offset / 8) * 4 * 8 + offset mod 8 in
  x <- rd ss a ;; wr ss a (u8 (Z.lxor x byte)).

(** bytesInLane, KeccakP-1600-times4-SIMD256.c:97-100 and again at :177-179, :270-272, :351-354. *)
Definition first_bytes (offsetInLane sizeLeft : Z) : res Z :=
  let bytesInLane := 8 - offsetInLane in branch (sizeLeft <? bytesInLane) (ret sizeLeft) (ret bytesInLane).

(** KeccakP1600times4_AddBytes, KeccakP-1600-times4-SIMD256.c:88-121.  [cur] is curData - data. *)
Definition AddBytes (ss : list Z) (instanceIndex : Z) (data : list Z) (offset length : Z) : res (list Z) :=
  let lanePosition := offset / 8 in
  let offsetInLane := offset mod 8 in
  '(ss, sizeLeft, lanePosition, cur) <-
    branch ((0 <? length) && negb (offsetInLane =? 0))
      (bytesInLane <- first_bytes offsetInLane length ;;
       lane <- memcpy (zrep 8 0) offsetInLane data 0 bytesInLane ;;
       x <- load64 ss (laneAddr instanceIndex lanePosition) ;;
       y <- load64 lane 0 ;;
       ss <- store64 ss (laneAddr instanceIndex lanePosition) (xor64 x y) ;;
       ret (ss, length - bytesInLane, lanePosition + 1, bytesInLane))
      (ret (ss, length, lanePosition, 0)) ;;
  '(ss, sizeLeft, lanePosition, cur) <-
    loop (Z.to_nat (sizeLeft / 8 + 1)) (fun '(ss, sizeLeft, lanePosition, cur) =>
      branch (8 <=? sizeLeft)
        (y <- load64 data cur ;;
         x <- load64 ss (laneAddr instanceIndex lanePosition) ;;
         ss <- store64 ss (laneAddr instanceIndex lanePosition) (xor64 x y) ;;
         ret ((ss, sizeLeft - 8, lanePosition + 1, cur + 8), true))
        (ret ((ss, sizeLeft, lanePosition, cur), false))) (ss, sizeLeft, lanePosition, cur) ;;
  branch (0 <? sizeLeft)
    (lane <- memcpy (zrep 8 0) 0 data cur sizeLeft ;;
     x <- load64 ss (laneAddr instanceIndex lanePosition) ;;
     y <- load64 lane 0 ;;
     store64 ss (laneAddr instanceIndex lanePosition) (xor64 x y))
    (ret ss).

(** KeccakP1600times4_OverwriteBytes, KeccakP-1600-times4-SIMD256.c:168-197. *)
Definition OverwriteBytes (ss : list Z) (instanceIndex : Z) (data : list Z) (offset length : Z) : res (list Z) :=
  let lanePosition := offset / 8 in
  let offsetInLane := offset mod 8 in
  '(ss, sizeLeft, lanePosition, cur) <-
    branch ((0 <? length) && negb (offsetInLane =? 0))
      (bytesInLane <- first_bytes offsetInLane length ;;
       ss <- memcpy ss (laneAddr instanceIndex lanePosition + offsetInLane) data 0 bytesInLane ;;
       ret (ss, length - bytesInLane, lanePosition + 1, bytesInLane))
      (ret (ss, length, lanePosition, 0)) ;;
  '(ss, sizeLeft, lanePosition, cur) <-
    loop (Z.to_nat (sizeLeft / 8 + 1)) (fun '(ss, sizeLeft, lanePosition, cur) =>
      branch (8 <=? sizeLeft)
        (y <- load64 data cur ;;
         ss <- store64 ss (laneAddr instanceIndex lanePosition) y ;;
         ret ((ss, sizeLeft - 8, lanePosition + 1, cur + 8), true))
        (ret ((ss, sizeLeft, lanePosition, cur), false))) (ss, sizeLeft, lanePosition, cur) ;;
  branch (0 <? sizeLeft)
    (memcpy ss (laneAddr instanceIndex lanePosition) data cur sizeLeft)
    (ret ss).

(** KeccakP1600times4_OverwriteWithZeroes, KeccakP-1600-times4-SIMD256.c:244-259. *)
Definition OverwriteWithZeroes (ss : list Z) (instanceIndex byteCount : Z) : res (list Z) :=
  '(ss, sizeLeft, lanePosition) <-
    loop (Z.to_nat (byteCount / 8 + 1)) (fun '(ss, sizeLeft, lanePosition) =>
      branch (8 <=? sizeLeft)
        (ss <- store64 ss (laneAddr instanceIndex lanePosition) 0 ;;
         ret ((ss, sizeLeft - 8, lanePosition + 1), true))
        (ret ((ss, sizeLeft, lanePosition), false))) (ss, byteCount, 0) ;;
  branch (0 <? sizeLeft) (memset ss (laneAddr instanceIndex lanePosition) 0 sizeLeft) (ret ss).

(** KeccakP1600times4_ExtractBytes, KeccakP-1600-times4-SIMD256.c:261-289.  Returns the buffer [data]. *)
Definition ExtractBytes (ss : list Z) (instanceIndex : Z) (data : list Z) (offset length : Z) : res (list Z) :=
  let lanePosition := offset / 8 in
  let offsetInLane := offset mod 8 in
  '(data, sizeLeft, lanePosition, cur) <-
    branch ((0 <? length) && negb (offsetInLane =? 0))
      (bytesInLane <- first_bytes offsetInLane length ;;
       data <- memcpy data 0 ss (laneAddr instanceIndex lanePosition + offsetInLane) bytesInLane ;;
       ret (data, length - bytesInLane, lanePosition + 1, bytesInLane))
      (ret (data, length, lanePosition, 0)) ;;
  '(data, sizeLeft, lanePosition, cur) <-
    loop (Z.to_nat (sizeLeft / 8 + 1)) (fun '(data, sizeLeft, lanePosition, cur) =>
      branch (8 <=? sizeLeft)
        (x <- load64 ss (laneAddr instanceIndex lanePosition) ;;
         data <- store64 data cur x ;;
         ret ((data, sizeLeft - 8, lanePosition + 1, cur + 8), true))
        (ret ((data, sizeLeft, lanePosition, cur), false))) (data, sizeLeft, lanePosition, cur) ;;
  branch (0 <? sizeLeft)
    (memcpy data cur ss (laneAddr instanceIndex lanePosition) sizeLeft)
    (ret data).

(** do { *(curOutput++) = *(curInput++) ^ (unsigned char)lane; lane >>= 8; } while (--n != 0),
    KeccakP-1600-times4-SIMD256.c:356-359, :373-376; n > 0. *)
Definition xor_out (input output : list Z) (cur lane n : Z) : res (list Z) :=
  '(output, _) <- for_ 0 n (fun i '(output, lane) =>
      x <- rd input (cur + i) ;;
      output <- wr output (cur + i) (u8 (Z.lxor x (u8 lane))) ;;
      lane <- shr64 lane 8 ;;
      ret (output, lane)) (output, lane) ;;
  ret output.

(** KeccakP1600times4_ExtractAndAddBytes, KeccakP-1600-times4-SIMD256.c:341-378.  Returns [output].
    [cur] is curInput - input = curOutput - output. *)
Definition ExtractAndAddBytes (ss : list Z) (instanceIndex : Z) (input output : list Z) (offset length : Z)
    : res (list Z) :=
  let lanePosition := offset / 8 in
  let offsetInLane := offset mod 8 in
  '(output, sizeLeft, lanePosition, cur) <-
    branch ((0 <? length) && negb (offsetInLane =? 0))
      (x <- load64 ss (laneAddr instanceIndex lanePosition) ;;
       lane <- shr64 x (8 * offsetInLane) ;;
       bytesInLane <- first_bytes offsetInLane length ;;
       output <- xor_out input output 0 lane bytesInLane ;;
       ret (output, length - bytesInLane, lanePosition + 1, bytesInLane))
      (ret (output, length, lanePosition, 0)) ;;
  '(output, sizeLeft, lanePosition, cur) <-
    loop (Z.to_nat (sizeLeft / 8 + 1)) (fun '(output, sizeLeft, lanePosition, cur) =>
      branch (8 <=? sizeLeft)
        (y <- load64 input cur ;;
         x <- load64 ss (laneAddr instanceIndex lanePosition) ;;
         output <- store64 output cur (xor64 y x) ;;
         ret ((output, sizeLeft - 8, lanePosition + 1, cur + 8), true))
        (ret ((output, sizeLeft, lanePosition, cur), false))) (output, sizeLeft, lanePosition, cur) ;;
  branch (negb (sizeLeft =? 0))
    (lane <- load64 ss (laneAddr instanceIndex lanePosition) ;;
     xor_out input output cur lane sizeLeft)
    (ret output).

(* ------------------------------------------------------------------ *)
(** * All instances, lane by lane *)

(** The statements behind the macro definitions of the four ...LanesAll functions
    (KeccakP-1600-times4-SIMD256.c:145-163, :221-239, :318-336, :421-439 are the same text): [one] is
    Xor_In, OverWr, Extr or ExtrXor, and [four] is Xor_In4, OverWr4, Extr4 or ExtrXor4. *)
Definition lanes_all (one four : Z -> list Z -> res (list Z)) (laneCount : Z) (s : list Z) : res (list Z) :=
  branch (16 <=? laneCount)
    (s <- four 0 s ;; s <- four 4 s ;; s <- four 8 s ;; s <- four 12 s ;;
     branch (20 <=? laneCount)
       (s <- four 16 s ;; for_ 20 laneCount one s)
       (for_ 16 laneCount one s))
    (for_ 0 laneCount one s).

(** curData1, curData2, curData3 (e.g. KeccakP-1600-times4-SIMD256.c:128-130): byte offsets in unsigned int. *)
Definition dataOffset (l laneOffset : Z) : Z := u32 (u32 (laneOffset * l) * 8).

(** LOAD4_64(curData3[i], curData2[i], curData1[i], curData0[i]), KeccakP-1600-times4-SIMD256.c:45, 133, with
    the data moved by [o] bytes. *)
Definition gather (data : list Z) (o laneOffset i : Z) : res V256 :=
  d3 <- load64 data (o + dataOffset 3 laneOffset + 8 * i) ;;
  d2 <- load64 data (o + dataOffset 2 laneOffset + 8 * i) ;;
  d1 <- load64 data (o + dataOffset 1 laneOffset + 8 * i) ;;
  d0 <- load64 data (o + 8 * i) ;;
  ret (d0, d1, d2, d3).

(** KeccakP1600times4_AddLanesAll, KeccakP-1600-times4-SIMD256.c:123-166, on data + o. *)
Definition AddLanesAll (ss data : list Z) (o laneCount laneOffset : Z) : res (list Z) :=
  let Xor_In i ss :=
    v <- gather data o laneOffset i ;; x <- load256b ss i ;; store256b ss i (XOR256 x v) in
  let XOReq i v ss := x <- load256b ss i ;; store256b ss i (XOR256 x v) in
  let Xor_In4 i ss :=
    lanes0 <- loadu256 data (o + 8 * i) ;;
    lanes1 <- loadu256 data (o + dataOffset 1 laneOffset + 8 * i) ;;
    lanes2 <- loadu256 data (o + dataOffset 2 laneOffset + 8 * i) ;;
    lanes3 <- loadu256 data (o + dataOffset 3 laneOffset + 8 * i) ;;
    let '(lanes0, lanes1, lanes2, lanes3) := INTLEAVE lanes0 lanes1 lanes2 lanes3 in
    ss <- XOReq (i + 0) lanes0 ss ;; ss <- XOReq (i + 1) lanes1 ss ;;
    ss <- XOReq (i + 2) lanes2 ss ;; XOReq (i + 3) lanes3 ss in
  lanes_all Xor_In Xor_In4 laneCount ss.

(** KeccakP1600times4_OverwriteLanesAll, KeccakP-1600-times4-SIMD256.c:199-242. *)
Definition OverwriteLanesAll (ss data : list Z) (laneCount laneOffset : Z) : res (list Z) :=
  let OverWr i ss := v <- gather data 0 laneOffset i ;; store256b ss i v in
  let OverWr4 i ss :=
    lanes0 <- loadu256 data (8 * i) ;;
    lanes1 <- loadu256 data (dataOffset 1 laneOffset + 8 * i) ;;
    lanes2 <- loadu256 data (dataOffset 2 laneOffset + 8 * i) ;;
    lanes3 <- loadu256 data (dataOffset 3 laneOffset + 8 * i) ;;
    let '(lanes0, lanes1, lanes2, lanes3) := INTLEAVE lanes0 lanes1 lanes2 lanes3 in
    ss <- store256b ss (i + 0) lanes0 ;; ss <- store256b ss (i + 1) lanes1 ;;
    ss <- store256b ss (i + 2) lanes2 ;; store256b ss (i + 3) lanes3 in
  lanes_all OverWr OverWr4 laneCount ss.

(** KeccakP1600times4_ExtractLanesAll, KeccakP-1600-times4-SIMD256.c:291-339.  Returns [data]. *)
Definition ExtractLanesAll (ss data : list Z) (laneCount laneOffset : Z) : res (list Z) :=
  let Extr i data :=
    x <- load64 ss (8 * (4 * i)) ;; data <- store64 data (8 * i) x ;;
    x <- load64 ss (8 * (4 * i + 1)) ;; data <- store64 data (dataOffset 1 laneOffset + 8 * i) x ;;
    x <- load64 ss (8 * (4 * i + 2)) ;; data <- store64 data (dataOffset 2 laneOffset + 8 * i) x ;;
    x <- load64 ss (8 * (4 * i + 3)) ;; store64 data (dataOffset 3 laneOffset + 8 * i) x in
  let Extr4 i data :=
    lanes0 <- load256b ss (i + 0) ;; lanes1 <- load256b ss (i + 1) ;;
    lanes2 <- load256b ss (i + 2) ;; lanes3 <- load256b ss (i + 3) ;;
    let '(lanes0, lanes1, lanes2, lanes3) := UNINTLEAVE lanes0 lanes1 lanes2 lanes3 in
    data <- storeu256 data (8 * i) lanes0 ;;
    data <- storeu256 data (dataOffset 1 laneOffset + 8 * i) lanes1 ;;
    data <- storeu256 data (dataOffset 2 laneOffset + 8 * i) lanes2 ;;
    storeu256 data (dataOffset 3 laneOffset + 8 * i) lanes3 in
  lanes_all Extr Extr4 laneCount data.

(** KeccakP1600times4_ExtractAndAddLanesAll, KeccakP-1600-times4-SIMD256.c:380-442.  Returns [output]. *)
Definition ExtractAndAddLanesAll (ss input output : list Z) (laneCount laneOffset : Z) : res (list Z) :=
  let ExtrXor i output :=
    y <- load64 input (8 * i) ;; x <- load64 ss (8 * (4 * i)) ;;
    output <- store64 output (8 * i) (xor64 y x) ;;
    y <- load64 input (dataOffset 1 laneOffset + 8 * i) ;; x <- load64 ss (8 * (4 * i + 1)) ;;
    output <- store64 output (dataOffset 1 laneOffset + 8 * i) (xor64 y x) ;;
    y <- load64 input (dataOffset 2 laneOffset + 8 * i) ;; x <- load64 ss (8 * (4 * i + 2)) ;;
    output <- store64 output (dataOffset 2 laneOffset + 8 * i) (xor64 y x) ;;
    y <- load64 input (dataOffset 3 laneOffset + 8 * i) ;; x <- load64 ss (8 * (4 * i + 3)) ;;
    store64 output (dataOffset 3 laneOffset + 8 * i) (xor64 y x) in
  let ExtrXor4 i output :=
    lanes0 <- load256b ss (i + 0) ;; lanes1 <- load256b ss (i + 1) ;;
    lanes2 <- load256b ss (i + 2) ;; lanes3 <- load256b ss (i + 3) ;;
    let '(lanes0, lanes1, lanes2, lanes3) := UNINTLEAVE lanes0 lanes1 lanes2 lanes3 in
    lanesL01 <- loadu256 input (8 * i) ;;
    lanesH01 <- loadu256 input (dataOffset 1 laneOffset + 8 * i) ;;
    lanesL23 <- loadu256 input (dataOffset 2 laneOffset + 8 * i) ;;
    lanesH23 <- loadu256 input (dataOffset 3 laneOffset + 8 * i) ;;
    output <- storeu256 output (8 * i) (XOR256 lanes0 lanesL01) ;;
    output <- storeu256 output (dataOffset 1 laneOffset + 8 * i) (XOR256 lanes1 lanesH01) ;;
    output <- storeu256 output (dataOffset 2 laneOffset + 8 * i) (XOR256 lanes2 lanesL23) ;;
    storeu256 output (dataOffset 3 laneOffset + 8 * i) (XOR256 lanes3 lanesH23) in
  lanes_all ExtrXor ExtrXor4 laneCount output.

(* ------------------------------------------------------------------ *)
(** * Permutations and absorbing *)

(** copyFromState, KeccakP-1600-times4-SIMD256.c:714-739, and copyToState, :741-766. *)
Definition copyFromState (ss : list Z) : res vlanes :=
  Aba <- load256b ss 0 ;;
  Abe <- load256b ss 1 ;;
  Abi <- load256b ss 2 ;;
  Abo <- load256b ss 3 ;;
  Abu <- load256b ss 4 ;;
  Aga <- load256b ss 5 ;;
  Age <- load256b ss 6 ;;
  Agi <- load256b ss 7 ;;
  Ago <- load256b ss 8 ;;
  Agu <- load256b ss 9 ;;
  Aka <- load256b ss 10 ;;
  Ake <- load256b ss 11 ;;
  Aki <- load256b ss 12 ;;
  Ako <- load256b ss 13 ;;
  Aku <- load256b ss 14 ;;
  Ama <- load256b ss 15 ;;
  Ame <- load256b ss 16 ;;
  Ami <- load256b ss 17 ;;
  Amo <- load256b ss 18 ;;
  Amu <- load256b ss 19 ;;
  Asa <- load256b ss 20 ;;
  Ase <- load256b ss 21 ;;
  Asi <- load256b ss 22 ;;
  Aso <- load256b ss 23 ;;
  Asu <- load256b ss 24 ;;
  ret (Aba, Abe, Abi, Abo, Abu, Aga, Age, Agi, Ago, Agu, Aka, Ake, Aki, Ako, Aku, Ama, Ame, Ami, Amo, Amu, Asa, Ase, Asi, Aso, Asu).
(** copyToState, src/sha3/keccak4x/KeccakP-1600-times4-SIMD256.c:741-766 *)
Definition copyToState (ss : list Z) (st : vlanes) : res (list Z) :=
  let '(Aba, Abe, Abi, Abo, Abu, Aga, Age, Agi, Ago, Agu, Aka, Ake, Aki, Ako, Aku, Ama, Ame, Ami, Amo, Amu, Asa, Ase, Asi, Aso, Asu) := st in
  ss <- store256b ss 0 Aba ;;
  ss <- store256b ss 1 Abe ;;
  ss <- store256b ss 2 Abi ;;
  ss <- store256b ss 3 Abo ;;
  ss <- store256b ss 4 Abu ;;
  ss <- store256b ss 5 Aga ;;
  ss <- store256b ss 6 Age ;;
  ss <- store256b ss 7 Agi ;;
  ss <- store256b ss 8 Ago ;;
  ss <- store256b ss 9 Agu ;;
  ss <- store256b ss 10 Aka ;;
  ss <- store256b ss 11 Ake ;;
  ss <- store256b ss 12 Aki ;;
  ss <- store256b ss 13 Ako ;;
  ss <- store256b ss 14 Aku ;;
  ss <- store256b ss 15 Ama ;;
  ss <- store256b ss 16 Ame ;;
  ss <- store256b ss 17 Ami ;;
  ss <- store256b ss 18 Amo ;;
  ss <- store256b ss 19 Amu ;;
  ss <- store256b ss 20 Asa ;;
  ss <- store256b ss 21 Ase ;;
  ss <- store256b ss 22 Asi ;;
  ss <- store256b ss 23 Aso ;;
  ss <- store256b ss 24 Asu ;;
  ret ss.

(** rounds12 with KeccakP1600times4_fullUnrolling, KeccakP-1600-unrolling.macros:44-57. *)
Definition rounds12 (st : vlanes) : res vlanes :=
  let c := prepareTheta st in
  rc <- rd KeccakF1600RoundConstants 12 ;;
  let '(st, c) := thetaRhoPiChiIotaPrepareTheta rc st c in
  rc <- rd KeccakF1600RoundConstants 13 ;;
  let '(st, c) := thetaRhoPiChiIotaPrepareTheta rc st c in
  rc <- rd KeccakF1600RoundConstants 14 ;;
  let '(st, c) := thetaRhoPiChiIotaPrepareTheta rc st c in
  rc <- rd KeccakF1600RoundConstants 15 ;;
  let '(st, c) := thetaRhoPiChiIotaPrepareTheta rc st c in
  rc <- rd KeccakF1600RoundConstants 16 ;;
  let '(st, c) := thetaRhoPiChiIotaPrepareTheta rc st c in
  rc <- rd KeccakF1600RoundConstants 17 ;;
  let '(st, c) := thetaRhoPiChiIotaPrepareTheta rc st c in
  rc <- rd KeccakF1600RoundConstants 18 ;;
  let '(st, c) := thetaRhoPiChiIotaPrepareTheta rc st c in
  rc <- rd KeccakF1600RoundConstants 19 ;;
  let '(st, c) := thetaRhoPiChiIotaPrepareTheta rc st c in
  rc <- rd KeccakF1600RoundConstants 20 ;;
  let '(st, c) := thetaRhoPiChiIotaPrepareTheta rc st c in
  rc <- rd KeccakF1600RoundConstants 21 ;;
  let '(st, c) := thetaRhoPiChiIotaPrepareTheta rc st c in
  rc <- rd KeccakF1600RoundConstants 22 ;;
  let '(st, c) := thetaRhoPiChiIotaPrepareTheta rc st c in
  rc <- rd KeccakF1600RoundConstants 23 ;;
  ret (thetaRhoPiChiIota rc st c).

(** KeccakP1600times4_PermuteAll_24rounds and _12rounds, KeccakP-1600-times4-SIMD256.c:802-826; [al] as in
    Fips202x4.v.  (Fips202x4.v has the first one with the state as 100 words.) *)
Definition PermuteAll (rounds : vlanes -> res vlanes) (al : bool) (ss : list Z) : res (list Z) :=
  (if al then ret tt else Err UB_align) ;;;
  st <- copyFromState ss ;; st <- rounds st ;; copyToState ss st.
(** KeccakP1600times4_PermuteAll_24rounds, src/sha3/keccak4x/KeccakP-1600-times4-SIMD256.c:802-813 *)
Definition PermuteAll_24rounds : bool -> list Z -> res (list Z) := PermuteAll rounds24.
(** KeccakP1600times4_PermuteAll_12rounds, src/sha3/keccak4x/KeccakP-1600-times4-SIMD256.c:815-826 *)
Definition PermuteAll_12rounds : bool -> list Z -> res (list Z) := PermuteAll rounds12.

(** The 21 XOR_In statements, KeccakP-1600-times4-SIMD256.c:881-904 and :983-1006, with the four data
    pointers moved by [o] bytes. *)
Definition xor_in21 (data : list Z) (o laneOffsetParallel : Z) (st : vlanes) : res vlanes :=
  let XOR_In Xxx argIndex := v <- gather data o laneOffsetParallel argIndex ;; ret (XOR256 Xxx v) in
  let '(Aba, Abe, Abi, Abo, Abu, Aga, Age, Agi, Ago, Agu, Aka, Ake, Aki, Ako, Aku, Ama, Ame, Ami, Amo, Amu, Asa, Ase, Asi, Aso, Asu) := st in
  Aba <- XOR_In Aba 0 ;;
  Abe <- XOR_In Abe 1 ;;
  Abi <- XOR_In Abi 2 ;;
  Abo <- XOR_In Abo 3 ;;
  Abu <- XOR_In Abu 4 ;;
  Aga <- XOR_In Aga 5 ;;
  Age <- XOR_In Age 6 ;;
  Agi <- XOR_In Agi 7 ;;
  Ago <- XOR_In Ago 8 ;;
  Agu <- XOR_In Agu 9 ;;
  Aka <- XOR_In Aka 10 ;;
  Ake <- XOR_In Ake 11 ;;
  Aki <- XOR_In Aki 12 ;;
  Ako <- XOR_In Ako 13 ;;
  Aku <- XOR_In Aku 14 ;;
  Ama <- XOR_In Ama 15 ;;
  Ame <- XOR_In Ame 16 ;;
  Ami <- XOR_In Ami 17 ;;
  Amo <- XOR_In Amo 18 ;;
  Amu <- XOR_In Amu 19 ;;
  Asa <- XOR_In Asa 20 ;;
  ret (Aba, Abe, Abi, Abo, Abu, Aga, Age, Agi, Ago, Agu, Aka, Ake, Aki, Ako, Aku, Ama, Ame, Ami, Amo, Amu, Asa, Ase, Asi, Aso, Asu).

(** KeccakF1600times4_FastLoop_Absorb, KeccakP-1600-times4-SIMD256.c:828-928, and
    KeccakP1600times4_12rounds_FastLoop_Absorb, :930-1030 (the same text with the other number of rounds).
    Returns the states and the number of bytes.  [o] is curData0 - dataStart, or data - dataStart, in bytes:
    in the first branch a UINT64 pointer moves by laneOffsetSerial elements, in the second the number of bytes
    is computed in unsigned int.  dataByteLen is a size_t and wraps around.  [fuel] bounds the number of
    iterations in the model. *)
Definition FastLoop_Absorb (rounds : vlanes -> res vlanes) (al : bool) (fuel : nat) (ss : list Z)
    (laneCount laneOffsetParallel laneOffsetSerial : Z) (data : list Z) (dataByteLen : Z) : res (list Z * Z) :=
  let need := u32 (u32 (u32 (laneOffsetParallel * 3) + laneCount) * 8) in
  let used := u32 (laneOffsetSerial * 8) in
  branch (laneCount =? 21)
    (st <- copyFromState ss ;;
     '(st, _, o) <- loop fuel (fun '(st, dataByteLen, o) =>
        branch (need <=? dataByteLen)
          (st <- xor_in21 data o laneOffsetParallel st ;;
           (if al then ret tt else Err UB_align) ;;;
           st <- rounds st ;;
           ret ((st, u64 (dataByteLen - used), o + 8 * laneOffsetSerial), true))
          (ret ((st, dataByteLen, o), false))) (st, dataByteLen, 0) ;;
     ss <- copyToState ss st ;;
     ret (ss, o))
    ('(ss, _, o) <- loop fuel (fun '(ss, dataByteLen, o) =>
        branch (need <=? dataByteLen)
          (ss <- AddLanesAll ss data o laneCount laneOffsetParallel ;;
           ss <- PermuteAll rounds al ss ;;
           ret ((ss, u64 (dataByteLen - used), o + used), true))
          (ret ((ss, dataByteLen, o), false))) (ss, dataByteLen, 0) ;;
     ret (ss, o)).
