(** The API called by several threads on a machine with relaxed memory, together with the random.c
    that all of them use (Unix).

    As in ConcLib.v a thread runs crypto_kem_keypair, crypto_kem_enc or crypto_kem_dec
    (src/kem.c:15-252) and, where that calls randombytes, src/random/random.c:28-61 with the other
    threads.  The accesses to the arguments' memory are those of Relaxed.v, those to [lock]
    those of RelaxedRandom.v; the buffers for the random bytes are local variables of each thread. *)
From Verif Require Import CSem Params Macrify Kem Conc ConcKem Random ConcRandom ConcLib Relaxed RelaxedRandom.

(** The size of the arguments' memory, its messages, the threads with their views, and the state of
    random.c. *)
Record ylworld := mkyl { yl_len : Z; yl_msgs : list message; yl_thr : list (phase * view); yl_rng : lkworld }.
(** Thread i becomes x. *)
Fixpoint set_yl (l : list (phase * view)) (i : nat) (x : phase * view) : list (phase * view) :=
  match l, i with
  | [], _ => []
  | _ :: l, O => x :: l
  | y :: l, Datatypes.S i => y :: set_yl l i x
  end.
(** One access of a program with the view V and the time t (Relaxed.v): the messages, what is left, the view. *)
Definition access {A} (len : Z) (ms : list message) (p : prog A) (V : view) (t : Z) : list message * prog A * view :=
  let w := rx_turn (0%nat, t) (mkrx len ms [(p, V)]) in
  match rx_thr w with (p', V') :: _ => (rx_msgs w, p', V') | [] => (ms, p, V) end.
(** The turn of thread i, with the time t for its access and the operating system's answer a should it make
    a system call.  [rqs]: for each thread the address of its buffer and the number of bytes it asks for. *)
Definition yl_turn (st : Z -> Z) (rqs : list (Z * Z)) (x : nat * answer * Z) (w : ylworld) : ylworld :=
  let '(i, a, t) := x in
  let upd_thr ms y := mkyl (yl_len w) ms (set_yl (yl_thr w) i y) (yl_rng w) in
  match nth_error (yl_thr w) i with
  | None => w
  | Some (Before (Ret x) k, V) => upd_thr (yl_msgs w) (Asking (k x), V)
  | Some (Before p k, V) => let '(ms, p', V') := access (yl_len w) (yl_msgs w) p V t in upd_thr ms (Before p' k, V')
  | Some (Asking k, V) =>
      match nth_error (lk_calls (yl_rng w)) i, nth_error rqs i with
      | Some (c, _), Some (b, n) =>
          match rc_pc c with
          | PRet _ => upd_thr (yl_msgs w) (After (k (zslice (lk_mem (yl_rng w)) b n)), V)
          | PFault e => upd_thr (yl_msgs w) (After (Fault e), V)
          | _ => mkyl (yl_len w) (yl_msgs w) (yl_thr w) (lk_turn st (i, a, t) (yl_rng w))
          end
      | _, _ => w
      end
  | Some (After p, V) => let '(ms, p', V') := access (yl_len w) (yl_msgs w) p V t in upd_thr ms (After p', V')
  end.
(** All turns of a schedule. *)
Definition yl_exec (st : Z -> Z) (rqs : list (Z * Z)) (sched : list (nat * answer * Z)) (w : ylworld) : ylworld :=
  fold_left (fun w x => yl_turn st rqs x w) sched w.
(** The threads start; they know what their starter knows: V of the memory, T of [lock]. *)
Definition yl_start (C : config) (len : Z) (ms : list message) (V : view) (cs : list (Z * acall)) (r : lkworld) : ylworld :=
  mkyl len ms (map (fun mc => (start_thread C mc, V)) cs) r.
