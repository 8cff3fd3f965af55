(** A process that uses the library: the three functions of src/kem.c, called one after another,
    with src/random/random.c (Unix) as the random generator. *)
From Verif Require Import CSem Params Random Kem.

(** What the process does: the three calls of the API, and stores into its own memory. *)
Inductive action :=
| AKeyPair (pk sk : Z)
| AEnc (ct ss pk : Z)
| ADec (ss ct sk : Z)
| AStore (a : Z) (x : list Z).
(** Its memory, the static variable [lock] of random.c:15, and the operating system. *)
Record process := mkp { p_mem : list Z; p_lock : Z; p_os : os }.

(** randombytes as src/kem.c:35, 104 calls it.  Each function makes one request: it gets random.c
    and the system in their present state and leaves them in the state of [after_random].  (The
    request is for an array that has not been written.) *)
Definition random_c (st : Z -> Z) (p : process) : generator := fun buf n =>
  '(buf, rc, _, _) <- randombytes_nix st (p_os p) (p_lock p) buf n ;; ret (buf, rc).
(** lock and the system after a request of n bytes, src/random/random.c:28-61. *)
Definition after_random (st : Z -> Z) (p : process) (n : Z) : res (Z * os) :=
  '(_, _, lock, s) <- randombytes_nix st (p_os p) (p_lock p) (uninit n) n ;; ret (lock, s).

(** One action; the result is the code returned (0 for a store) and the process afterwards.
    crypto_kem_keypair, crypto_kem_enc, crypto_kem_dec: src/kem.c:15-75, 78-150, 153-252 *)
Definition act (C : config) (st : Z -> Z) (a : action) (p : process) : res (Z * process) :=
  match a with
  | AKeyPair pk sk =>
      '(mem, _, rc) <- crypto_kem_keypair C (random_c st p) (p_mem p) pk sk ;;
      '(lock, s) <- after_random st p (2 * pCB (cP C) + SEEDA) ;;
      ret (rc, mkp mem lock s)
  | AEnc ct ss pk =>
      '(mem, _, rc) <- crypto_kem_enc C (random_c st p) (p_mem p) ct ss pk ;;
      '(lock, s) <- after_random st p (bytesMu (cP C)) ;;
      ret (rc, mkp mem lock s)
  | ADec ss ct sk =>
      '(mem, _, rc) <- crypto_kem_dec C (p_mem p) ss ct sk ;;
      ret (rc, mkp mem (p_lock p) (p_os p))
  | AStore a x =>
      mem <- put (p_mem p) a x ;;
      ret (0, mkp mem (p_lock p) (p_os p))
  end.
(** Actions one after another. *)
Fixpoint acts (C : config) (st : Z -> Z) (l : list action) (p : process) : res (list Z * process) :=
  match l with
  | [] => ret ([], p)
  | a :: l =>
      '(rc, p) <- act C st a p ;;
      '(rcs, p) <- acts C st l p ;;
      ret (rc :: rcs, p)
  end.
