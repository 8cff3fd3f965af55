(** Threads that use the library again and again on a machine with relaxed memory, together with the
    random.c that all of them use (Unix).

    As in ConcHist.v a thread runs a list of actions: calls of crypto_kem_keypair, crypto_kem_enc,
    crypto_kem_dec (src/kem.c:15-252) and stores into its memory.  As in RelaxedLib.v the accesses to the
    arguments' memory are those of Relaxed.v, those to [lock] (src/random/random.c:15, 28-61) those of
    RelaxedRandom.v.  What a thread has come to know of the memory and of [lock] it knows in its later
    actions, too. *)
From Verif Require Import CSem Params Macrify Kem Conc ConcKem Random ConcRandom ConcLib Process ConcHist Relaxed RelaxedRandom RelaxedLib.

(** The size of the arguments' memory, its messages, the threads, each with its view of the memory and the
    time of the newest message for [lock] that it knows of, and the state of random.c. *)
Record yhworld := mkyh { yh_len : Z; yh_msgs : list message; yh_thr : list (hthread * view * Z); yh_rng : lkworld }.
(** Thread i becomes x. *)
Fixpoint set_yh (l : list (hthread * view * Z)) (i : nat) (x : hthread * view * Z) : list (hthread * view * Z) :=
  match l, i with
  | [], _ => []
  | _ :: l, O => x :: l
  | y :: l, Datatypes.S i => y :: set_yh l i x
  end.
(** Call s of randombytes is made by a thread that knows of the message for [lock] at time T. *)
Definition aware (w : lkworld) (s : nat) (T : Z) : lkworld :=
  match nth_error (lk_calls w) s with
  | Some (c, U) => mklk (lk_mem w) (lk_msgs w) (lk_open w) (lk_pos w) (set_lk (lk_calls w) s (c, Z.max U T))
  | None => w
  end.
(** The turn of thread i, with the time t for its access and the operating system's answer should it make
    a system call.  [rqs]: the addresses and the lengths of the buffers for random bytes. *)
Definition yh_turn (C : config) (st : Z -> Z) (rqs : list (Z * Z)) (x : nat * answer * Z) (w : yhworld) : yhworld :=
  let '(i, a, t) := x in
  match nth_error (yh_thr w) i with
  | None => w
  | Some (h, V, T) =>
      let upd_thr ms h' V' T' r := mkyh (yh_len w) ms (set_yh (yh_thr w) i (h', V', T')) r in
      match t_now h with
      | None =>
          match t_left h with
          | [] => w
          | (s, ac) :: l => upd_thr (yh_msgs w) (mkt (t_me h) (Some (s, start_action C (t_me h) ac)) l (t_codes h)) V T (yh_rng w)
          end
      | Some (s, Before (Ret x) k) => upd_thr (yh_msgs w) (now h (Some (s, Asking (k x)))) V T (aware (yh_rng w) s T)
      | Some (s, Before p k) =>
          let '(ms, p', V') := access (yh_len w) (yh_msgs w) p V t in upd_thr ms (now h (Some (s, Before p' k))) V' T (yh_rng w)
      | Some (s, Asking k) =>
          match nth_error (lk_calls (yh_rng w)) s, nth_error rqs s with
          | Some (c, U), Some (b, n) =>
              match rc_pc c with
              | PRet _ => upd_thr (yh_msgs w) (now h (Some (s, After (k (zslice (lk_mem (yh_rng w)) b n))))) V U (yh_rng w)
              | PFault e => upd_thr (yh_msgs w) (now h (Some (s, After (Fault e)))) V U (yh_rng w)
              | _ => mkyh (yh_len w) (yh_msgs w) (yh_thr w) (lk_turn st (s, a, t) (yh_rng w))
              end
          | _, _ => w
          end
      | Some (s, After (Ret v)) => upd_thr (yh_msgs w) (mkt (t_me h) None (t_left h) (t_codes h ++ [v])) V T (yh_rng w)
      | Some (s, After p) =>
          let '(ms, p', V') := access (yh_len w) (yh_msgs w) p V t in upd_thr ms (now h (Some (s, After p'))) V' T (yh_rng w)
      end
  end.
(** All turns of a schedule. *)
Definition yh_exec (C : config) (st : Z -> Z) (rqs : list (Z * Z)) (sched : list (nat * answer * Z)) (w : yhworld) : yhworld :=
  fold_left (fun w x => yh_turn C st rqs x w) sched w.
(** The threads start; they know what their starter knows: V of the memory, T of [lock]. *)
Definition yh_start (len : Z) (ms : list message) (V : view) (T : Z) (ls : list (Z * list (nat * action))) (r : lkworld) : yhworld :=
  mkyh len ms (map (fun ml => (fresh ml, V, T)) ls) r.
