(** Processes that fork: a process with one thread uses the API (src/kem.c) and, between two
    calls, may fork, close a descriptor or open some other file.  Every process has its own copy
    of the memory, of the static variable [lock] (src/random/random.c:15) and of the table of
    descriptors; what has been handed out of the random device is common to all.  The actions of
    the processes interleave as in ConcRandom.v: every load and store of [lock], every system
    call and every test of the outer loop of randombytes is one action.  What a function computes
    apart from its one request for random bytes works on memory that no other process sees, so it
    is one action, done when the bytes are there.  A process that is killed is one that gets no
    turn any more.  A fork() that fails is not modelled: it is a program without that fork. *)
From Verif Require Import CSem Params Random Kem ConcRandom Process.

(** What a process does.  The application's part is not code of /repo. *)
Inductive faction :=
| FCall (a : action)                  (* src/kem.c:15-75, 78-150, 153-252, or a store of the application *)
| FFork (child : list faction)        (* fork(); the child does [child] *)
| FClose (fd : Z)                     (* close(fd) *)
| FOther (fd : Z).                    (* open() of another file, which gets the number fd *)
(** Between two calls; in a call that waits for its random bytes (the number of the action, the
    action, the call of randombytes and its buffer); after undefined behaviour. *)
Inductive fnow :=
| NIdle
| NDraw (s : nat) (a : action) (c : rcall) (buf : list Z)
| NDead (e : err).
(** A process: memory, lock (src/random/random.c:15), descriptors of the device, descriptors of
    other files, where it is, what is left to do, the codes returned; and, for the statement of
    theorems only, the actions done by it and its ancestors before it was created, with their
    numbers, and how many of them are its ancestors'. *)
Record fproc := mkf {
  f_mem : list Z; f_lock : Z; f_fds : list Z; f_other : list Z; f_now : fnow; f_left : list faction;
  f_codes : list Z; f_done : list (nat * action); f_inh : nat }.
(** All processes, how much of the device's stream and of the other files has been handed out, and
    the number of the next action (for the statement only). *)
Record fworld := mkfw { fw_procs : list fproc; fw_pos : Z; fw_opos : Z; fw_count : nat }.

(** How many random bytes a function asks for: src/kem.c:35, 104 *)
Definition asks (P : params) (a : action) : option Z :=
  match a with
  | AKeyPair _ _ => Some (2 * pCB P + SEEDA)
  | AEnc _ _ _ => Some (bytesMu P)
  | _ => None
  end.
(** The function when randombytes has stored buf and returned rc: src/kem.c:15-75, 78-150, 153-252 *)
Definition perform (C : config) (a : action) (buf : list Z) (rc : Z) (mem : list Z) : res (list Z * Z) :=
  match a with
  | AKeyPair pk sk => '(mem, _, v) <- crypto_kem_keypair C (fun _ _ => ret (buf, rc)) mem pk sk ;; ret (mem, v)
  | AEnc ct ss pk => '(mem, _, v) <- crypto_kem_enc C (fun _ _ => ret (buf, rc)) mem ct ss pk ;; ret (mem, v)
  | ADec ss ct sk => '(mem, _, v) <- crypto_kem_dec C mem ss ct sk ;; ret (mem, v)
  | AStore a x => mem <- put mem a x ;; ret (mem, 0)
  end.
(** ... and the process afterwards; l is left to do. *)
Definition complete (C : config) (s : nat) (a : action) (buf : list Z) (rc : Z) (l : list faction) (p : fproc) : fproc :=
  match perform C a buf rc (f_mem p) with
  | Ok (mem, v) _ => mkf mem (f_lock p) (f_fds p) (f_other p) NIdle l (f_codes p ++ [v]) (f_done p ++ [(s, a)]) (f_inh p)
  | Err e => mkf (f_mem p) (f_lock p) (f_fds p) (f_other p) (NDead e) l (f_codes p) (f_done p) (f_inh p)
  end.
(** The process, now at n with l left to do. *)
Definition moved (p : fproc) (n : fnow) (l : list faction) : fproc :=
  mkf (f_mem p) (f_lock p) (f_fds p) (f_other p) n l (f_codes p) (f_done p) (f_inh p).
(** The process with other descriptors. *)
Definition descr (p : fproc) (fds other : list Z) (l : list faction) : fproc :=
  mkf (f_mem p) (f_lock p) fds other NIdle l (f_codes p) (f_done p) (f_inh p).
(** The list of descriptors without fd. *)
Definition without (fd : Z) (l : list Z) : list Z := filter (fun x => negb (x =? fd)) l.
(** One action of a process: the process, the child it makes, the two positions, whether an
    action of the API or a store begins.  [st] is the stream of the device, [file] what reading the
    other files gives.  src/random/random.c:28-61 is [rstep] of ConcRandom.v; read() (:50) on the
    number of another file reads that file. *)
Definition fstep (C : config) (st file : Z -> Z) (an : answer) (p : fproc) (pos opos : Z) (n : nat)
    : fproc * list fproc * Z * Z * nat :=
  match f_now p with
  | NDead _ => (p, [], pos, opos, n)
  | NIdle =>
      match f_left p with
      | [] => (p, [], pos, opos, n)
      | FCall a :: l =>
          match asks (cP C) a with
          | Some k => (moved p (NDraw n a (rcall_start (0, k)) (uninit k)) l, [], pos, opos, Datatypes.S n)
          | None => (complete C n a [] 0 l p, [], pos, opos, Datatypes.S n)
          end
      | FFork child :: l =>
          (moved p NIdle l,
           [mkf (f_mem p) (f_lock p) (f_fds p) (f_other p) NIdle child (f_codes p) (f_done p) (length (f_done p))],
           pos, opos, n)
      | FClose fd :: l => (descr p (without fd (f_fds p)) (without fd (f_other p)) l, [], pos, opos, n)
      | FOther fd :: l => (descr p (f_fds p) (fd :: f_other p) l, [], pos, opos, n)
      end
  | NDraw s a c buf =>
      match rc_pc c with
      | PRet v => (complete C s a buf v (f_left p) p, [], pos, opos, n)
      | PFault e => (moved p (NDead e) (f_left p), [], pos, opos, n)
      | PRead fd =>
          if is_open (f_other p) fd then
            let '(c', buf', lock, _, opos') := rstep file an c buf (f_lock p) (f_other p) opos in
            (mkf (f_mem p) lock (f_fds p) (f_other p) (NDraw s a c' buf') (f_left p) (f_codes p) (f_done p) (f_inh p),
             [], pos, opos', n)
          else
            let '(c', buf', lock, fds, pos') := rstep st an c buf (f_lock p) (f_fds p) pos in
            (mkf (f_mem p) lock fds (f_other p) (NDraw s a c' buf') (f_left p) (f_codes p) (f_done p) (f_inh p),
             [], pos', opos, n)
      | _ =>
          let '(c', buf', lock, fds, pos') := rstep st an c buf (f_lock p) (f_fds p) pos in
          (mkf (f_mem p) lock fds (f_other p) (NDraw s a c' buf') (f_left p) (f_codes p) (f_done p) (f_inh p),
           [], pos', opos, n)
      end
  end.
(** Process i becomes p. *)
Fixpoint set_proc (l : list fproc) (i : nat) (p : fproc) : list fproc :=
  match l, i with
  | [], _ => []
  | _ :: l, O => p :: l
  | d :: l, Datatypes.S i => d :: set_proc l i p
  end.
(** One action of process i, with the answer of the system; a new process comes last. *)
Definition fturn (C : config) (st file : Z -> Z) (ia : nat * answer) (w : fworld) : fworld :=
  match nth_error (fw_procs w) (fst ia) with
  | None => w
  | Some p =>
      let '(p', new, pos, opos, n) := fstep C st file (snd ia) p (fw_pos w) (fw_opos w) (fw_count w) in
      mkfw (set_proc (fw_procs w) (fst ia) p' ++ new) pos opos n
  end.
(** All actions of a schedule. *)
Definition fexec (C : config) (st file : Z -> Z) (sched : list (nat * answer)) (w : fworld) : fworld :=
  fold_left (fun w ia => fturn C st file ia w) sched w.
(** One process, about to do prog. *)
Definition fstart (mem : list Z) (lock : Z) (fds : list Z) (pos : Z) (prog : list faction) : fworld :=
  mkfw [mkf mem lock fds [] NIdle prog [] [] 0] pos 0 0.
