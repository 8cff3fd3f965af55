(** Calls of the API that interrupt each other in one thread: signal handlers (Unix).

    A handler that calls crypto_kem_keypair, crypto_kem_enc or crypto_kem_dec (src/kem.c:15-252)
    may run at any moment of a call that the same thread has begun, also in the middle of
    src/random/random.c:28-61, whose [lock] both use.  The interrupted call goes on when the
    handler has returned; a handler can itself be interrupted.

    Simplified: the loads and stores are those the source asks for, in its order; that [lock]
    (src/random/random.c:15) is not volatile, so that a compiler could keep it in a register
    over an access, is not modelled. *)
From Verif Require Import CSem Kem Conc ConcKem Random ConcRandom ConcLib.

(** What can happen next (src/kem.c:15-252, src/random/random.c:28-61): the call that is running takes one action, with the operating system's
    answer should it be a system call; or the next call is made, by the program if no call is
    in progress, by a handler otherwise. *)
Inductive event := Goes (a : answer) | Comes.
(** The library with all calls, those that have begun and not returned, the innermost first, and
    the number of calls made so far (src/kem.c:15, :78, :153). *)
Record sworld := mks { s_lib : xworld; s_open : list nat; s_next : nat }.
(** One event.  A call returns with its last action (src/kem.c:74, :149, :251). *)
Definition sstep (st : Z -> Z) (rqs : list (Z * Z)) (w : sworld) (e : event) : sworld :=
  match e with
  | Comes =>
      if (s_next w <? length (x_thr (s_lib w)))%nat then mks (s_lib w) (s_next w :: s_open w) (Datatypes.S (s_next w)) else w
  | Goes a =>
      match s_open w with
      | [] => w
      | i :: l =>
          let x := xturn st rqs (i, a) (s_lib w) in
          mks x (match result x i with Some _ => l | None => i :: l end) (s_next w)
      end
  end.
(** A list of events (src/kem.c:15-252). *)
Definition srun (st : Z -> Z) (rqs : list (Z * Z)) (evs : list event) (w : sworld) : sworld := fold_left (sstep st rqs) evs w.
