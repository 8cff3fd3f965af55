(** A process on Windows that uses the library: the three functions of src/kem.c, called one after another,
    with src/random/random.c (Windows) as the random generator. *)
From Verif Require Import CSem Params Random Kem Process.

(** Its memory, the number of calls of BCryptGenRandom so far, and the number of bytes they have delivered.
    random.c keeps no state on Windows (the static variable is under NIX, src/random/random.c:12-16). *)
Record wprocess := mkw { w_mem : list Z; w_reqs : nat; w_pos : Z }.

(** randombytes as src/kem.c:35, 104 calls it, src/random/random.c:28-34, 60.  [ok i] says whether call i of
    BCryptGenRandom succeeds; it then stores the next bytes of the stream [st]. *)
Definition win_random (st : Z -> Z) (ok : nat -> bool) (p : wprocess) : generator :=
  randombytes_win (fun i => st (w_pos p + i)) (ok (w_reqs p)).
(** The position in the stream after a request of n bytes, src/random/random.c:32. *)
Definition win_pos (ok : nat -> bool) (p : wprocess) (n : Z) : Z := if ok (w_reqs p) then w_pos p + n else w_pos p.

(** One action; the result is the code returned (0 for a store) and the process afterwards.
    crypto_kem_keypair, crypto_kem_enc, crypto_kem_dec: src/kem.c:15-75, 78-150, 153-252 *)
Definition win_act (C : config) (st : Z -> Z) (ok : nat -> bool) (a : action) (p : wprocess) : res (Z * wprocess) :=
  match a with
  | AKeyPair pk sk =>
      '(mem, _, rc) <- crypto_kem_keypair C (win_random st ok p) (w_mem p) pk sk ;;
      ret (rc, mkw mem (S (w_reqs p)) (win_pos ok p (2 * pCB (cP C) + SEEDA)))
  | AEnc ct ss pk =>
      '(mem, _, rc) <- crypto_kem_enc C (win_random st ok p) (w_mem p) ct ss pk ;;
      ret (rc, mkw mem (S (w_reqs p)) (win_pos ok p (bytesMu (cP C))))
  | ADec ss ct sk =>
      '(mem, _, rc) <- crypto_kem_dec C (w_mem p) ss ct sk ;;
      ret (rc, mkw mem (w_reqs p) (w_pos p))
  | AStore a x =>
      mem <- put (w_mem p) a x ;;
      ret (0, mkw mem (w_reqs p) (w_pos p))
  end.
(** Actions one after another: a caller of src/kem.c:15-252. *)
Fixpoint win_acts (C : config) (st : Z -> Z) (ok : nat -> bool) (l : list action) (p : wprocess) : res (list Z * wprocess) :=
  match l with
  | [] => ret ([], p)
  | a :: l =>
      '(rc, p) <- win_act C st ok a p ;;
      '(rcs, p) <- win_acts C st ok l p ;;
      ret (rc :: rcs, p)
  end.
