(** Model of src/sha3/fips202.c. *)
From Verif Require Import CSem Params.

(** uint64_t operators used by the permutation. *)
Definition xor64 (a b : Z) : Z := Z.lxor a b.
(** & on uint64_t, e.g. src/sha3/fips202.c:143 *)
Definition and64 (a b : Z) : Z := Z.land a b.
(** ~ on uint64_t, e.g. src/sha3/fips202.c:143 *)
Definition not64 (a : Z) : Z := Z.lxor a 18446744073709551615.
(** #define ROL(a, offset), src/sha3/fips202.c:19 *)
Definition ROL (a n : Z) : Z := Z.lxor (u64 (Z.shiftl a n)) (Z.shiftr a (64 - n)).

(** load64(m + off), src/sha3/fips202.c:22-30 *)
Definition load64 (m : list Z) (off : Z) : res Z :=
  for_ 0 8 (fun i r => b <- rd m (off + i) ;; x <- shl64 b (8 * i) ;; ret (Z.lor r x)) 0.

(** store64(h + off, u), src/sha3/fips202.c:33-41 *)
Definition store64 (h : list Z) (off u : Z) : res (list Z) :=
  '(h, _) <- for_ 0 8 (fun i '(h, u) =>
       h <- wr h (off + i) (u8 u) ;;
       u <- shr64 u 8 ;;
       ret (h, u)) (h, u) ;;
  ret h.

(** KeccakF_RoundConstants, src/sha3/fips202.c:44-70 *)
Definition KeccakF_RoundConstants : list Z :=
  [1; 32898; 9223372036854808714; 9223372039002292224; 32907; 2147483649; 9223372039002292353; 9223372036854808585; 138; 136; 2147516425; 2147483658; 2147516555; 9223372036854775947; 9223372036854808713; 9223372036854808579; 9223372036854808578; 9223372036854775936; 32778; 9223372039002259466; 9223372039002292353; 9223372036854808704; 2147483649; 9223372039002292232].

(** The 25 local variables Aba, Abe, ..., Asu. *)
Definition lanes : Type := Z * Z * Z * Z * Z * Z * Z * Z * Z * Z * Z * Z * Z * Z * Z * Z * Z * Z * Z * Z * Z * Z * Z * Z * Z.

(** First round of an iteration of the main loop, src/sha3/fips202.c:119-212,
    statement by statement; [rc] is KeccakF_RoundConstants[round].  After it only
    the variables E.. are live. *)
Definition keccak_roundA (rc : Z) (st : lanes) : lanes :=
  let '(Aba, Abe, Abi, Abo, Abu, Aga, Age, Agi, Ago, Agu, Aka, Ake, Aki, Ako, Aku, Ama, Ame, Ami, Amo, Amu, Asa, Ase, Asi, Aso, Asu) := st in
  (* prepareTheta *)
  let BCa := xor64 (xor64 (xor64 (xor64 Aba Aga) Aka) Ama) Asa in
  let BCe := xor64 (xor64 (xor64 (xor64 Abe Age) Ake) Ame) Ase in
  let BCi := xor64 (xor64 (xor64 (xor64 Abi Agi) Aki) Ami) Asi in
  let BCo := xor64 (xor64 (xor64 (xor64 Abo Ago) Ako) Amo) Aso in
  let BCu := xor64 (xor64 (xor64 (xor64 Abu Agu) Aku) Amu) Asu in
  (* thetaRhoPiChiIotaPrepareTheta(round  , A, E) *)
  let Da := xor64 BCu (ROL BCe 1) in
  let De := xor64 BCa (ROL BCi 1) in
  let Di := xor64 BCe (ROL BCo 1) in
  let Do := xor64 BCi (ROL BCu 1) in
  let Du := xor64 BCo (ROL BCa 1) in
  let Aba := xor64 Aba Da in
  let BCa := Aba in
  let Age := xor64 Age De in
  let BCe := ROL Age 44 in
  let Aki := xor64 Aki Di in
  let BCi := ROL Aki 43 in
  let Amo := xor64 Amo Do in
  let BCo := ROL Amo 21 in
  let Asu := xor64 Asu Du in
  let BCu := ROL Asu 14 in
  let Eba := xor64 BCa (and64 (not64 BCe) BCi) in
  let Eba := xor64 Eba rc in
  let Ebe := xor64 BCe (and64 (not64 BCi) BCo) in
  let Ebi := xor64 BCi (and64 (not64 BCo) BCu) in
  let Ebo := xor64 BCo (and64 (not64 BCu) BCa) in
  let Ebu := xor64 BCu (and64 (not64 BCa) BCe) in
  let Abo := xor64 Abo Do in
  let BCa := ROL Abo 28 in
  let Agu := xor64 Agu Du in
  let BCe := ROL Agu 20 in
  let Aka := xor64 Aka Da in
  let BCi := ROL Aka 3 in
  let Ame := xor64 Ame De in
  let BCo := ROL Ame 45 in
  let Asi := xor64 Asi Di in
  let BCu := ROL Asi 61 in
  let Ega := xor64 BCa (and64 (not64 BCe) BCi) in
  let Ege := xor64 BCe (and64 (not64 BCi) BCo) in
  let Egi := xor64 BCi (and64 (not64 BCo) BCu) in
  let Ego := xor64 BCo (and64 (not64 BCu) BCa) in
  let Egu := xor64 BCu (and64 (not64 BCa) BCe) in
  let Abe := xor64 Abe De in
  let BCa := ROL Abe 1 in
  let Agi := xor64 Agi Di in
  let BCe := ROL Agi 6 in
  let Ako := xor64 Ako Do in
  let BCi := ROL Ako 25 in
  let Amu := xor64 Amu Du in
  let BCo := ROL Amu 8 in
  let Asa := xor64 Asa Da in
  let BCu := ROL Asa 18 in
  let Eka := xor64 BCa (and64 (not64 BCe) BCi) in
  let Eke := xor64 BCe (and64 (not64 BCi) BCo) in
  let Eki := xor64 BCi (and64 (not64 BCo) BCu) in
  let Eko := xor64 BCo (and64 (not64 BCu) BCa) in
  let Eku := xor64 BCu (and64 (not64 BCa) BCe) in
  let Abu := xor64 Abu Du in
  let BCa := ROL Abu 27 in
  let Aga := xor64 Aga Da in
  let BCe := ROL Aga 36 in
  let Ake := xor64 Ake De in
  let BCi := ROL Ake 10 in
  let Ami := xor64 Ami Di in
  let BCo := ROL Ami 15 in
  let Aso := xor64 Aso Do in
  let BCu := ROL Aso 56 in
  let Ema := xor64 BCa (and64 (not64 BCe) BCi) in
  let Eme := xor64 BCe (and64 (not64 BCi) BCo) in
  let Emi := xor64 BCi (and64 (not64 BCo) BCu) in
  let Emo := xor64 BCo (and64 (not64 BCu) BCa) in
  let Emu := xor64 BCu (and64 (not64 BCa) BCe) in
  let Abi := xor64 Abi Di in
  let BCa := ROL Abi 62 in
  let Ago := xor64 Ago Do in
  let BCe := ROL Ago 55 in
  let Aku := xor64 Aku Du in
  let BCi := ROL Aku 39 in
  let Ama := xor64 Ama Da in
  let BCo := ROL Ama 41 in
  let Ase := xor64 Ase De in
  let BCu := ROL Ase 2 in
  let Esa := xor64 BCa (and64 (not64 BCe) BCi) in
  let Ese := xor64 BCe (and64 (not64 BCi) BCo) in
  let Esi := xor64 BCi (and64 (not64 BCo) BCu) in
  let Eso := xor64 BCo (and64 (not64 BCu) BCa) in
  let Esu := xor64 BCu (and64 (not64 BCa) BCe) in
  (Eba, Ebe, Ebi, Ebo, Ebu, Ega, Ege, Egi, Ego, Egu, Eka, Eke, Eki, Eko, Eku, Ema, Eme, Emi, Emo, Emu, Esa, Ese, Esi, Eso, Esu).

(** Second round, src/sha3/fips202.c:214-307; [rc] is KeccakF_RoundConstants[round+1]. *)
Definition keccak_roundB (rc : Z) (st : lanes) : lanes :=
  let '(Eba, Ebe, Ebi, Ebo, Ebu, Ega, Ege, Egi, Ego, Egu, Eka, Eke, Eki, Eko, Eku, Ema, Eme, Emi, Emo, Emu, Esa, Ese, Esi, Eso, Esu) := st in
  (* prepareTheta *)
  let BCa := xor64 (xor64 (xor64 (xor64 Eba Ega) Eka) Ema) Esa in
  let BCe := xor64 (xor64 (xor64 (xor64 Ebe Ege) Eke) Eme) Ese in
  let BCi := xor64 (xor64 (xor64 (xor64 Ebi Egi) Eki) Emi) Esi in
  let BCo := xor64 (xor64 (xor64 (xor64 Ebo Ego) Eko) Emo) Eso in
  let BCu := xor64 (xor64 (xor64 (xor64 Ebu Egu) Eku) Emu) Esu in
  (* thetaRhoPiChiIotaPrepareTheta(round+1, E, A) *)
  let Da := xor64 BCu (ROL BCe 1) in
  let De := xor64 BCa (ROL BCi 1) in
  let Di := xor64 BCe (ROL BCo 1) in
  let Do := xor64 BCi (ROL BCu 1) in
  let Du := xor64 BCo (ROL BCa 1) in
  let Eba := xor64 Eba Da in
  let BCa := Eba in
  let Ege := xor64 Ege De in
  let BCe := ROL Ege 44 in
  let Eki := xor64 Eki Di in
  let BCi := ROL Eki 43 in
  let Emo := xor64 Emo Do in
  let BCo := ROL Emo 21 in
  let Esu := xor64 Esu Du in
  let BCu := ROL Esu 14 in
  let Aba := xor64 BCa (and64 (not64 BCe) BCi) in
  let Aba := xor64 Aba rc in
  let Abe := xor64 BCe (and64 (not64 BCi) BCo) in
  let Abi := xor64 BCi (and64 (not64 BCo) BCu) in
  let Abo := xor64 BCo (and64 (not64 BCu) BCa) in
  let Abu := xor64 BCu (and64 (not64 BCa) BCe) in
  let Ebo := xor64 Ebo Do in
  let BCa := ROL Ebo 28 in
  let Egu := xor64 Egu Du in
  let BCe := ROL Egu 20 in
  let Eka := xor64 Eka Da in
  let BCi := ROL Eka 3 in
  let Eme := xor64 Eme De in
  let BCo := ROL Eme 45 in
  let Esi := xor64 Esi Di in
  let BCu := ROL Esi 61 in
  let Aga := xor64 BCa (and64 (not64 BCe) BCi) in
  let Age := xor64 BCe (and64 (not64 BCi) BCo) in
  let Agi := xor64 BCi (and64 (not64 BCo) BCu) in
  let Ago := xor64 BCo (and64 (not64 BCu) BCa) in
  let Agu := xor64 BCu (and64 (not64 BCa) BCe) in
  let Ebe := xor64 Ebe De in
  let BCa := ROL Ebe 1 in
  let Egi := xor64 Egi Di in
  let BCe := ROL Egi 6 in
  let Eko := xor64 Eko Do in
  let BCi := ROL Eko 25 in
  let Emu := xor64 Emu Du in
  let BCo := ROL Emu 8 in
  let Esa := xor64 Esa Da in
  let BCu := ROL Esa 18 in
  let Aka := xor64 BCa (and64 (not64 BCe) BCi) in
  let Ake := xor64 BCe (and64 (not64 BCi) BCo) in
  let Aki := xor64 BCi (and64 (not64 BCo) BCu) in
  let Ako := xor64 BCo (and64 (not64 BCu) BCa) in
  let Aku := xor64 BCu (and64 (not64 BCa) BCe) in
  let Ebu := xor64 Ebu Du in
  let BCa := ROL Ebu 27 in
  let Ega := xor64 Ega Da in
  let BCe := ROL Ega 36 in
  let Eke := xor64 Eke De in
  let BCi := ROL Eke 10 in
  let Emi := xor64 Emi Di in
  let BCo := ROL Emi 15 in
  let Eso := xor64 Eso Do in
  let BCu := ROL Eso 56 in
  let Ama := xor64 BCa (and64 (not64 BCe) BCi) in
  let Ame := xor64 BCe (and64 (not64 BCi) BCo) in
  let Ami := xor64 BCi (and64 (not64 BCo) BCu) in
  let Amo := xor64 BCo (and64 (not64 BCu) BCa) in
  let Amu := xor64 BCu (and64 (not64 BCa) BCe) in
  let Ebi := xor64 Ebi Di in
  let BCa := ROL Ebi 62 in
  let Ego := xor64 Ego Do in
  let BCe := ROL Ego 55 in
  let Eku := xor64 Eku Du in
  let BCi := ROL Eku 39 in
  let Ema := xor64 Ema Da in
  let BCo := ROL Ema 41 in
  let Ese := xor64 Ese De in
  let BCu := ROL Ese 2 in
  let Asa := xor64 BCa (and64 (not64 BCe) BCi) in
  let Ase := xor64 BCe (and64 (not64 BCi) BCo) in
  let Asi := xor64 BCi (and64 (not64 BCo) BCu) in
  let Aso := xor64 BCo (and64 (not64 BCu) BCa) in
  let Asu := xor64 BCu (and64 (not64 BCa) BCe) in
  (Aba, Abe, Abi, Abo, Abu, Aga, Age, Agi, Ago, Agu, Aka, Ake, Aki, Ako, Aku, Ama, Ame, Ami, Amo, Amu, Asa, Ase, Asi, Aso, Asu).

(** KeccakF1600_StatePermute, src/sha3/fips202.c:73-338. *)
Definition KeccakF1600_StatePermute (state : list Z) : res (list Z) :=
  Aba <- rd state 0 ;;
  Abe <- rd state 1 ;;
  Abi <- rd state 2 ;;
  Abo <- rd state 3 ;;
  Abu <- rd state 4 ;;
  Aga <- rd state 5 ;;
  Age <- rd state 6 ;;
  Agi <- rd state 7 ;;
  Ago <- rd state 8 ;;
  Agu <- rd state 9 ;;
  Aka <- rd state 10 ;;
  Ake <- rd state 11 ;;
  Aki <- rd state 12 ;;
  Ako <- rd state 13 ;;
  Aku <- rd state 14 ;;
  Ama <- rd state 15 ;;
  Ame <- rd state 16 ;;
  Ami <- rd state 17 ;;
  Amo <- rd state 18 ;;
  Amu <- rd state 19 ;;
  Asa <- rd state 20 ;;
  Ase <- rd state 21 ;;
  Asi <- rd state 22 ;;
  Aso <- rd state 23 ;;
  Asu <- rd state 24 ;;
  '(Aba, Abe, Abi, Abo, Abu, Aga, Age, Agi, Ago, Agu, Aka, Ake, Aki, Ako, Aku, Ama, Ame, Ami, Amo, Amu, Asa, Ase, Asi, Aso, Asu) <- for_step 0 24 2 (fun round st =>
      rc0 <- rd KeccakF_RoundConstants round ;;
      rc1 <- rd KeccakF_RoundConstants (round + 1) ;;
      ret (keccak_roundB rc1 (keccak_roundA rc0 st))) (Aba, Abe, Abi, Abo, Abu, Aga, Age, Agi, Ago, Agu, Aka, Ake, Aki, Ako, Aku, Ama, Ame, Ami, Amo, Amu, Asa, Ase, Asi, Aso, Asu) ;;
  state <- wr state 0 Aba ;;
  state <- wr state 1 Abe ;;
  state <- wr state 2 Abi ;;
  state <- wr state 3 Abo ;;
  state <- wr state 4 Abu ;;
  state <- wr state 5 Aga ;;
  state <- wr state 6 Age ;;
  state <- wr state 7 Agi ;;
  state <- wr state 8 Ago ;;
  state <- wr state 9 Agu ;;
  state <- wr state 10 Aka ;;
  state <- wr state 11 Ake ;;
  state <- wr state 12 Aki ;;
  state <- wr state 13 Ako ;;
  state <- wr state 14 Aku ;;
  state <- wr state 15 Ama ;;
  state <- wr state 16 Ame ;;
  state <- wr state 17 Ami ;;
  state <- wr state 18 Amo ;;
  state <- wr state 19 Amu ;;
  state <- wr state 20 Asa ;;
  state <- wr state 21 Ase ;;
  state <- wr state 22 Asi ;;
  state <- wr state 23 Aso ;;
  state <- wr state 24 Asu ;;
  ret state.

(** keccak_absorb, src/sha3/fips202.c:344-367.  The moving pointer [m] is the
    offset [moff] into the input buffer. *)
Definition keccak_absorb (s : list Z) (r : Z) (m : list Z) (mlen p : Z) : res (list Z) :=
  '(s, mlen, moff) <- loop (Z.to_nat (mlen / r + 1)) (fun '(s, mlen, moff) =>
      branch (r <=? mlen)
        (s <- for_ 0 (r / 8) (fun i s =>
                x <- rd s i ;; y <- load64 m (moff + 8 * i) ;; wr s i (xor64 x y)) s ;;
         s <- KeccakF1600_StatePermute s ;;
         ret ((s, mlen - r, moff + r), true))
        (ret ((s, mlen, moff), false))) (s, mlen, 0) ;;
  let t := uninit 200 in
  t <- for_ 0 r (fun i t => wr t i 0) t ;;
  t <- for_ 0 mlen (fun i t => x <- rd m (moff + i) ;; wr t i x) t ;;
  t <- wr t mlen p ;;
  x <- rd t (r - 1) ;;
  t <- wr t (r - 1) (u8 (Z.lor x 128)) ;;
  for_ 0 (r / 8) (fun i s =>
    x <- rd s i ;; y <- load64 t (8 * i) ;; wr s i (xor64 x y)) s.

(** keccak_squeezeblocks(h, nblocks, s, r), src/sha3/fips202.c:370-384.  Returns h and s.
    The moving pointer [h] is the offset [hoff]. *)
Definition keccak_squeezeblocks (h : list Z) (nblocks : Z) (s : list Z) (r : Z)
    : res (list Z * list Z) :=
  '(h, s, _, _) <- loop (Z.to_nat (nblocks + 1)) (fun '(h, s, nblocks, hoff) =>
      branch (0 <? nblocks)
        (s <- KeccakF1600_StatePermute s ;;
         h <- for_ 0 (Z.shiftr r 3) (fun i h =>
                x <- rd s i ;; store64 h (hoff + 8 * i) x) h ;;
         ret ((h, s, nblocks - 1, hoff + r), true))
        (ret ((h, s, nblocks, hoff), false))) (h, s, nblocks, 0) ;;
  ret (h, s).

(** shake128_absorb / shake256_absorb, src/sha3/fips202.c:389-392, 428-431 (r is the rate). *)
Definition shake_absorb (r : Z) (s inp : list Z) (inlen : Z) : res (list Z) :=
  keccak_absorb s r inp inlen 31.
(** shake128_squeezeblocks / shake256_squeezeblocks, src/sha3/fips202.c:395-398, 434-437. *)
Definition shake_squeezeblocks (r : Z) (out : list Z) (nblocks : Z) (s : list Z)
  : res (list Z * list Z) := keccak_squeezeblocks out nblocks s r.

(** shake128, src/sha3/fips202.c:401-423 (r = SHAKE128_RATE = 168) and
    shake256, src/sha3/fips202.c:440-465 (r = SHAKE256_RATE = 136); the two bodies
    differ only in how the state is zeroed (initialiser versus loop). *)
Definition shake (r : Z) (out : list Z) (outlen : Z) (inp : list Z) (inlen : Z) : res (list Z) :=
  s <- (if r =? 168 then ret (zrep 25 0)
        else for_ 0 25 (fun i s => wr s i 0) (uninit 25)) ;;
  let t := uninit r in
  let nblocks := outlen / r in
  s <- keccak_absorb s r inp inlen 31 ;;
  '(out, s) <- keccak_squeezeblocks out nblocks s r ;;
  let off := nblocks * r in
  let outlen := outlen - nblocks * r in
  branch (negb (outlen =? 0))
    ('(t, s) <- keccak_squeezeblocks t 1 s r ;;
     for_ 0 outlen (fun i out => x <- rd t i ;; wr out (off + i) x) out)
    (ret out).

(** shake128, src/sha3/fips202.c:401-423 *)
Definition shake128 := shake 168.
(** shake256, src/sha3/fips202.c:440-465 *)
Definition shake256 := shake 136.

(* ------------------------------------------------------------------ *)
(** Known answers (FIPS 202 example values, computed independently). *)
Definition valof {A} (d : A) (m : res A) : A := match m with Ok a _ => a | Err _ => d end.
Example shake128_empty :
  valof [] (shake128 (uninit 16) 16 [] 0) =
  [0x7f; 0x9c; 0x2b; 0xa4; 0xe8; 0x8f; 0x82; 0x7d; 0x61; 0x60; 0x45; 0x50; 0x76; 0x05; 0x85; 0x3e].
Proof. vm_compute. reflexivity. Qed.
