(** The API called by several threads together with the random.c that all of them use (Unix).

    ConcKem.v has the API as threads with a generator of random bytes given to each of them;
    ConcRandom.v has randombytes as threads that share [lock] and the device.  Here a thread
    runs crypto_kem_keypair, crypto_kem_enc or crypto_kem_dec (src/kem.c:15-252) and, where
    that calls randombytes, it runs src/random/random.c:28-61 with the other threads.

    The arrays the random bytes go to, [randomness] (src/kem.c:28) and mu in G2in
    (src/kem.c:91, 93), are local variables: they lie in a memory of their own, one for all
    threads' buffers, and not in the memory of the API's arguments.  The computations on
    local objects between the last load and the call of randombytes (the hash of pk,
    src/kem.c:103) take no action and are placed after the call. *)
From Verif Require Import CSem Params Macrify Kem Conc ConcKem Random ConcRandom.

(** A generator that delivers r. *)
Definition given (r : list Z) : generator := fun _ _ => ret (r, 0).

(** Where a thread is: before its request for random bytes, in it, after it. *)
Inductive phase :=
| Before (p : prog (list Z)) (k : list Z -> list Z -> prog Z)
| Asking (k : list Z -> prog Z)
| After (p : prog Z).

(** The calls: crypto_kem_keypair(pk, sk), crypto_kem_enc(ct, ss, pk), crypto_kem_dec(ss, ct, sk). *)
Inductive acall :=
| AKeyPair (pk sk : Z)
| AEnc (ct ss pk : Z)
| ADec (ss ct sk : Z).
(** The thread at its first statement: src/kem.c:15, :78, :153.  randombytes is called at :35,
    before any access to memory, and at :104, after the load of pk. *)
Definition start_thread (C : config) (mc : Z * acall) : phase :=
  match snd mc with
  | AKeyPair pk sk => Before (Ret []) (fun _ r => keypair_p C (fst mc) (given r) pk sk)
  | AEnc ct ss pk => Before (load pk (pkBytes (cP C))) (fun x r => enc_rest C (fst mc) (given r) ct ss pk x)
  | ADec ss ct sk => After (dec_p C (fst mc) ss ct sk)
  end.

(** The memory of the arguments, the global of aes_c.c, the threads, and the state of random.c. *)
Record xworld := mkx { x_mem : list Z; x_g : Z; x_thr : list phase; x_rng : rworld }.
(** Thread i becomes p. *)
Fixpoint set_ph (l : list phase) (i : nat) (p : phase) : list phase :=
  match l, i with
  | [], _ => []
  | _ :: l, O => p :: l
  | q :: l, Datatypes.S i => q :: set_ph l i p
  end.
(** The turn of thread i, with the operating system's answer should it make a system call.
    [rqs]: for each thread the address of its buffer and the number of bytes it asks for. *)
Definition xturn (st : Z -> Z) (rqs : list (Z * Z)) (ia : nat * answer) (w : xworld) : xworld :=
  let i := fst ia in
  match nth_error (x_thr w) i with
  | None => w
  | Some (Before (Ret x) k) => mkx (x_mem w) (x_g w) (set_ph (x_thr w) i (Asking (k x))) (x_rng w)
  | Some (Before p k) =>
      let '(p', mem', g') := step p (x_mem w) (x_g w) in mkx mem' g' (set_ph (x_thr w) i (Before p' k)) (x_rng w)
  | Some (Asking k) =>
      match nth_error (rw_calls (x_rng w)) i, nth_error rqs i with
      | Some c, Some (b, n) =>
          match rc_pc c with
          | PRet _ => mkx (x_mem w) (x_g w) (set_ph (x_thr w) i (After (k (zslice (rw_mem (x_rng w)) b n)))) (x_rng w)
          | PFault e => mkx (x_mem w) (x_g w) (set_ph (x_thr w) i (After (Fault e))) (x_rng w)
          | _ => mkx (x_mem w) (x_g w) (x_thr w) (rturn st ia (x_rng w))
          end
      | _, _ => w
      end
  | Some (After p) =>
      let '(p', mem', g') := step p (x_mem w) (x_g w) in mkx mem' g' (set_ph (x_thr w) i (After p')) (x_rng w)
  end.
(** All turns of a schedule. *)
Definition xexec (st : Z -> Z) (rqs : list (Z * Z)) (sched : list (nat * answer)) (w : xworld) : xworld :=
  fold_left (fun w ia => xturn st rqs ia w) sched w.
(** How thread i ended, if it has. *)
Definition result (w : xworld) (i : nat) : option (res Z) :=
  match nth_error (x_thr w) i with Some (After p) => ended p | _ => None end.
