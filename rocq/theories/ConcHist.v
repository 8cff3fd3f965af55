(** Threads that use the library again and again, together (Unix).

    ConcLib.v has threads that make one call each; here a thread runs a list of actions: calls of
    crypto_kem_keypair, crypto_kem_enc, crypto_kem_dec (src/kem.c:15-252) and stores into its
    memory, and the next action begins when the last has ended.  All threads share the random.c
    of ConcRandom.v (src/random/random.c:15, 28-61) and the global of aes_c.c.

    Every action of every thread has its own buffer for random bytes.  In the C code the buffers
    of two calls of one thread may lie at the same place of its stack, one after the other. *)
From Verif Require Import CSem Params Macrify Kem Conc ConcKem Random ConcRandom ConcLib Process.

(** What the thread will store in the global of aes_c.c, what it is doing (the number of the
    buffer for random bytes, and where it is), what it has still to do, and the codes returned. *)
Record hthread := mkt { t_me : Z; t_now : option (nat * phase); t_left : list (nat * action); t_codes : list Z }.
(** An action at its first statement: src/kem.c:15, :78, :153; randombytes is called at :35,
    before any access to memory, and at :104, after the load of pk. *)
Definition start_action (C : config) (me : Z) (a : action) : phase :=
  match a with
  | AKeyPair pk sk => Before (Ret []) (fun _ r => keypair_p C me (given r) pk sk)
  | AEnc ct ss pk => Before (load pk (pkBytes (cP C))) (fun x r => enc_rest C me (given r) ct ss pk x)
  | ADec ss ct sk => After (dec_p C me ss ct sk)
  | AStore a x => After (store a x ~;; Ret 0)
  end.

(** The memory, the global of aes_c.c, the threads, and the state of random.c. *)
Record hworld := mkh { h_mem : list Z; h_g : Z; h_thr : list hthread; h_rng : rworld }.
(** Thread i becomes t. *)
Fixpoint set_ht (l : list hthread) (i : nat) (t : hthread) : list hthread :=
  match l, i with
  | [], _ => []
  | _ :: l, O => t :: l
  | q :: l, Datatypes.S i => q :: set_ht l i t
  end.
(** The thread t, now doing n. *)
Definition now (t : hthread) (n : option (nat * phase)) : hthread := mkt (t_me t) n (t_left t) (t_codes t).
(** One action of a thread, with the operating system's answer should it be a system call.
    [rqs]: the addresses and the lengths of the buffers for random bytes. *)
Definition hstep (C : config) (st : Z -> Z) (rqs : list (Z * Z)) (an : answer) (t : hthread) (mem : list Z) (g : Z) (r : rworld)
    : hthread * list Z * Z * rworld :=
  match t_now t with
  | None =>
      match t_left t with
      | [] => (t, mem, g, r)
      | (s, a) :: l => (mkt (t_me t) (Some (s, start_action C (t_me t) a)) l (t_codes t), mem, g, r)
      end
  | Some (s, Before (Ret x) k) => (now t (Some (s, Asking (k x))), mem, g, r)
  | Some (s, Before p k) =>
      let '(p', mem', g') := step p mem g in (now t (Some (s, Before p' k)), mem', g', r)
  | Some (s, Asking k) =>
      match nth_error (rw_calls r) s, nth_error rqs s with
      | Some c, Some (b, n) =>
          match rc_pc c with
          | PRet _ => (now t (Some (s, After (k (zslice (rw_mem r) b n)))), mem, g, r)
          | PFault e => (now t (Some (s, After (Fault e))), mem, g, r)
          | _ => (t, mem, g, rturn st (s, an) r)
          end
      | _, _ => (t, mem, g, r)
      end
  | Some (s, After (Ret v)) => (mkt (t_me t) None (t_left t) (t_codes t ++ [v]), mem, g, r)
  | Some (s, After p) =>
      let '(p', mem', g') := step p mem g in (now t (Some (s, After p')), mem', g', r)
  end.
(** The turn of thread i. *)
Definition hturn (C : config) (st : Z -> Z) (rqs : list (Z * Z)) (ia : nat * answer) (w : hworld) : hworld :=
  match nth_error (h_thr w) (fst ia) with
  | None => w
  | Some t =>
      let '(t', mem', g', r') := hstep C st rqs (snd ia) t (h_mem w) (h_g w) (h_rng w) in
      mkh mem' g' (set_ht (h_thr w) (fst ia) t') r'
  end.
(** All turns of a schedule. *)
Definition hexec (C : config) (st : Z -> Z) (rqs : list (Z * Z)) (sched : list (nat * answer)) (w : hworld) : hworld :=
  fold_left (fun w ia => hturn C st rqs ia w) sched w.
(** Threads that have not begun. *)
Definition fresh (ml : Z * list (nat * action)) : hthread := mkt (fst ml) None (snd ml) [].
(** The thread has done the first n of its actions, and is between two of them. *)
Definition between (w : hworld) (i n : nat) : Prop :=
  exists t, nth_error (h_thr w) i = Some t /\ t_now t = None /\ length (t_codes t) = n.
