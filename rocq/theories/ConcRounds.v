(** Programs that start threads, wait for them, and start threads again (Unix).

    In ConcHist.v no thread may write where another thread reads or writes.  A program whose
    threads hand keys and ciphertexts to one another needs some synchronisation for that.  Here
    it has rounds: the threads of a round run together as in ConcHist.v, the program waits until
    all of them have ended (pthread_join), and the next round begins, with new threads, in the
    memory and with the state of random.c (src/random/random.c:15, [lock], and the system's
    descriptors) that the last round has left.  Threads that go on and meet at a barrier are the
    same: between two actions a thread has no state of its own in this model.

    The buffers for random bytes are local variables (src/kem.c:28, 91): every round has its own. *)
From Verif Require Import CSem Params Macrify Kem Conc ConcKem Random ConcRandom ConcLib Process ConcHist.

(** The memory for the buffers for random bytes, the buffers (address, length), and the threads:
    what each stores in the global of aes_c.c, and its actions with the numbers of their buffers. *)
Record round := mkround { r_stk : list Z; r_rqs : list (Z * Z); r_thr : list (Z * list (nat * action)) }.
(** What one round leaves to the next: the memory, the global of aes_c.c, [lock], the open
    descriptors of the device, and the position in its stream. *)
Record shared := mksh { s_mem : list Z; s_g : Z; s_lock : Z; s_fds : list Z; s_pos : Z }.

(** The round begins. *)
Definition begin_round (rd : round) (s : shared) : hworld :=
  mkh (s_mem s) (s_g s) (map fresh (r_thr rd)) (mkrw (r_stk rd) (s_lock s) (s_fds s) (s_pos s) (map rcall_start (r_rqs rd))).
(** All threads have ended. *)
Definition all_ended (w : hworld) : bool :=
  forallb (fun t => match t_now t, t_left t with None, [] => true | _, _ => false end) (h_thr w).
(** The round under a schedule: the codes returned in each thread and what is left, if the threads
    have ended when the schedule does. *)
Definition run_round (C : config) (st : Z -> Z) (rd : round) (sched : list (nat * answer)) (s : shared)
    : option (list (list Z) * shared) :=
  let w := hexec C st (r_rqs rd) sched (begin_round rd s) in
  if all_ended w
  then Some (map t_codes (h_thr w), mksh (h_mem w) (h_g w) (rw_lock (h_rng w)) (rw_open (h_rng w)) (rw_pos (h_rng w)))
  else None.
(** The rounds one after another, each under its schedule. *)
Fixpoint run_rounds (C : config) (st : Z -> Z) (l : list (round * list (nat * answer))) (s : shared)
    : option (list (list (list Z)) * shared) :=
  match l with
  | [] => Some ([], s)
  | (rd, sched) :: l =>
      match run_round C st rd sched s with
      | None => None
      | Some (cs, s) => match run_rounds C st l s with None => None | Some (css, s) => Some (cs :: css, s) end
      end
  end.
