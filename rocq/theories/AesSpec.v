(** FIPS 197 (AES), encryption direction, independent of the code.
    Section numbers refer to FIPS 197. *)
From Verif Require Import ZList.

(** 4.2: GF(2^8), polynomials modulo m(x) = x^8 + x^4 + x^3 + x + 1 (0x11b). *)
Definition mulx (b : Z) : Z :=
  let d := 2 * b in if d <? 256 then d else Z.lxor d 283.
Fixpoint gmul_n (n : nat) (a b : Z) : Z :=   (* a times (the low n bits of b) *)
  match n with
  | O => 0
  | S n' => Z.lxor (if Z.testbit b 0 then a else 0) (gmul_n n' (mulx a) (b / 2))
  end.
Definition gmul (a b : Z) : Z := gmul_n 8 a b.
(** Multiplicative inverse, 0 for 0. *)
Definition ginv (a : Z) : Z :=
  match find (fun x => gmul a x =? 1) (zseq 256) with Some x => x | None => 0 end.

(** 5.1.1: the S-box: inverse, then the affine map with constant 0x63. *)
Definition affine (b : Z) : Z :=
  zsum 8 (fun i => Z.b2z (xorb (xorb (xorb (xorb (xorb (Z.testbit b i)
     (Z.testbit b ((i + 4) mod 8))) (Z.testbit b ((i + 5) mod 8)))
     (Z.testbit b ((i + 6) mod 8))) (Z.testbit b ((i + 7) mod 8))) (Z.testbit 99 i)) * 2 ^ i).
Definition Sbox (a : Z) : Z := affine (ginv a).

(** 3.4: the state is a 4x4 matrix filled column by column: s[r,c] = in[r + 4c].
    Here a state is that list of 16 bytes. *)
Definition SubBytes_spec (s : list Z) : list Z := map Sbox s.
(** 5.1.2: s'[r,c] = s[r, (c + r) mod 4]. *)
Definition ShiftRows_spec (s : list Z) : list Z :=
  ztab 16 (fun k => let r := k mod 4 in let c := k / 4 in znth s (r + 4 * ((c + r) mod 4))).
(** 5.1.3: each column is multiplied by the circulant matrix of {02} {03} {01} {01}. *)
Definition MixColumns_spec (s : list Z) : list Z :=
  ztab 16 (fun k => let r := k mod 4 in let c := k / 4 in
    let m j := gmul (znth [2; 3; 1; 1] ((j - r) mod 4)) (znth s (j + 4 * c)) in
    Z.lxor (Z.lxor (Z.lxor (m 0) (m 1)) (m 2)) (m 3)).
(** 5.1.4 *)
Definition xorlist (a b : list Z) : list Z := ztab (zlen a) (fun k => Z.lxor (znth a k) (znth b k)).
Definition AddRoundKey_spec (s k : list Z) : list Z := xorlist s k.

(** 5.2: key expansion.  A word is a list of 4 bytes; [w] is the list of words
    produced so far, so the next index is its length. *)
Definition RotWord (w : list Z) : list Z := [znth w 1; znth w 2; znth w 3; znth w 0].
Definition SubWord (w : list Z) : list Z := map Sbox w.
Fixpoint xpow (n : nat) : Z := match n with O => 1 | S n' => mulx (xpow n') end.
Definition Rcon_spec (i : Z) : list Z := [xpow (Z.to_nat (i - 1)); 0; 0; 0].
Definition word (w : list (list Z)) (i : Z) : list Z := nth (Z.to_nat i) w [].
Definition next_word (Nk : Z) (w : list (list Z)) : list Z :=
  let i := zlen w in
  let temp := word w (i - 1) in
  let temp := if i mod Nk =? 0 then xorlist (SubWord (RotWord temp)) (Rcon_spec (i / Nk))
              else if (6 <? Nk) && (i mod Nk =? 4) then SubWord temp else temp in
  xorlist (word w (i - Nk)) temp.
Fixpoint expand (n : nat) (Nk : Z) (w : list (list Z)) : list (list Z) :=
  match n with O => w | S n' => expand n' Nk (w ++ [next_word Nk w]) end.
Definition KeyExpansion (Nk Nr : Z) (key : list Z) : list (list Z) :=
  expand (Z.to_nat (4 * (Nr + 1) - Nk)) Nk (ztab Nk (fun i => zslice key (4 * i) 4)).
(** The 16 bytes w[4 round .. 4 round + 3]. *)
Definition round_key (w : list (list Z)) (round : Z) : list Z :=
  ztab 16 (fun k => znth (word w (4 * round + k / 4)) (k mod 4)).

(** 5.1: the cipher, Nr rounds. *)
Definition round_spec (w : list (list Z)) (s : list Z) (round : Z) : list Z :=
  AddRoundKey_spec (MixColumns_spec (ShiftRows_spec (SubBytes_spec s))) (round_key w round).
Definition Cipher_spec (Nr : Z) (w : list (list Z)) (inp : list Z) : list Z :=
  let s := AddRoundKey_spec inp (round_key w 0) in
  let s := fold_left (round_spec w) (map (fun i => i + 1) (zseq (Nr - 1))) s in
  AddRoundKey_spec (ShiftRows_spec (SubBytes_spec s)) (round_key w Nr).

Definition AES128 (key block : list Z) : list Z := Cipher_spec 10 (KeyExpansion 4 10 key) block.
Definition AES256 (key block : list Z) : list Z := Cipher_spec 14 (KeyExpansion 8 14 key) block.

(** FIPS 197 Appendix C.1 and C.3. *)
Example aes128_C1 :
  AES128 (zseq 16) (ztab 16 (fun i => 17 * i)) =
  [0x69; 0xc4; 0xe0; 0xd8; 0x6a; 0x7b; 0x04; 0x30; 0xd8; 0xcd; 0xb7; 0x80; 0x70; 0xb4; 0xc5; 0x5a].
Proof. vm_compute. reflexivity. Qed.
Example aes256_C3 :
  AES256 (zseq 32) (ztab 16 (fun i => 17 * i)) =
  [0x8e; 0xa2; 0xb7; 0xca; 0x51; 0x67; 0x45; 0xbf; 0xea; 0xfc; 0x49; 0x90; 0x4b; 0x49; 0x60; 0x89].
Proof. vm_compute. reflexivity. Qed.

(** ECB mode: every 16-byte block of the input on its own. *)
Definition ECB (E : list Z -> list Z) (inp : list Z) : list Z :=
  concat (ztab (zlen inp / 16) (fun i => E (zslice inp (16 * i) 16))).
