(** randombytes on Unix (src/random/random.c:28-61) called by several threads.

    The calls share the static variable [lock] (:15), the memory and the operating system.
    Every load and store of [lock], every system call and every test of the outer loop is one
    action; a schedule says which call performs the next action and what the operating system
    answers if it is a system call.  Actions take effect at once and in program order: the
    data race on [lock], which C11 leaves undefined, is taken as sequentially consistent.
    read() stores its bytes in one action (no other call works on that buffer).  A thread that
    makes several calls is the case where the schedule starts one call after another has ended.
    delay() (:22-25) has no effect and is omitted. *)
From Verif Require Import CSem Random.

(** Where a call is. *)
Inductive rpc :=
| PTest              (* :39  if (lock == -1) *)
| POpen              (* :41  open("/dev/urandom", O_RDONLY) *)
| PStore (fd : Z)    (* :41  lock = fd *)
| PDelay             (* :42  if (lock == -1) delay *)
| PAgain             (* :45  while (lock == -1) *)
| PWhile             (* :48  while (n > 0) *)
| PLock              (* :50  the argument lock of read *)
| PRead (fd : Z)     (* :50  read(fd, random_array+count, n), :51-54, :55-56 *)
| PRet (v : Z)       (* :60  return *)
| PFault (e : err).  (* undefined behaviour *)
(** random_array, where the call is, and its variables n and count (:37). *)
Record rcall := mkc { rc_buf : Z; rc_pc : rpc; rc_n : Z; rc_count : Z }.

(** An answer of the operating system.  open() gives a descriptor or fails; read() as in
    Random.v, and it fails (EBADF) on a number that is not an open descriptor. *)
Record answer := { an_open : option nat; an_read : read_answer }.
(** The memory, lock, the open descriptors of /dev/urandom, how much of its stream has been
    handed out, and the calls. *)
Record rworld := mkrw { rw_mem : list Z; rw_lock : Z; rw_open : list Z; rw_pos : Z; rw_calls : list rcall }.

(** fd is an open descriptor of the device. *)
Definition is_open (fds : list Z) (fd : Z) : bool := existsb (Z.eqb fd) fds.
(** The call c, now at p. *)
Definition at_ (c : rcall) (p : rpc) : rcall := mkc (rc_buf c) p (rc_n c) (rc_count c).

(** One action of a call. *)
Definition rstep (st : Z -> Z) (a : answer) (c : rcall) (mem : list Z) (lock : Z) (fds : list Z) (pos : Z)
    : rcall * list Z * Z * list Z * Z :=
  match rc_pc c with
  | PTest => (at_ c (if lock =? -1 then POpen else PWhile), mem, lock, fds, pos)
  | POpen => match an_open a with
             | None => (at_ c (PStore (-1)), mem, lock, fds, pos)
             | Some fd => (at_ c (PStore (Z.of_nat fd)), mem, lock, Z.of_nat fd :: fds, pos)
             end
  | PStore fd => (at_ c PDelay, mem, fd, fds, pos)
  | PDelay => (at_ c PAgain, mem, lock, fds, pos)
  | PAgain => (at_ c (if lock =? -1 then POpen else PWhile), mem, lock, fds, pos)
  | PWhile => (at_ c (if 0 <? rc_n c then PLock else PRet 0), mem, lock, fds, pos)
  | PLock => (at_ c (PRead lock), mem, lock, fds, pos)
  | PRead fd =>
      match (if is_open fds fd then an_read a else RErr) with
      | RErr => (at_ c PLock, mem, lock, fds, pos)
      | RGive k =>
          let r := Z.max 0 (Z.min k (rc_n c)) in
          match (m <- put mem (rc_buf c + rc_count c) (ztab r (fun i => st (pos + i))) ;;
                 count <- i32 (rc_count c + r) ;;
                 n <- i32 (rc_n c - r) ;;
                 ret (m, count, n)) with
          | Ok (m, count, n) _ => (mkc (rc_buf c) PWhile n count, m, lock, fds, pos + r)
          | Err e => (at_ c (PFault e), mem, lock, fds, pos)
          end
      end
  | PRet v => (c, mem, lock, fds, pos)
  | PFault e => (c, mem, lock, fds, pos)
  end.
(** Call i becomes c. *)
Fixpoint set_call (l : list rcall) (i : nat) (c : rcall) : list rcall :=
  match l, i with
  | [], _ => []
  | _ :: l, O => c :: l
  | d :: l, Datatypes.S i => d :: set_call l i c
  end.
(** One action of call i, with the answer of the system. *)
Definition rturn (st : Z -> Z) (ia : nat * answer) (w : rworld) : rworld :=
  match nth_error (rw_calls w) (fst ia) with
  | None => w
  | Some c =>
      let '(c', mem, lock, fds, pos) := rstep st (snd ia) c (rw_mem w) (rw_lock w) (rw_open w) (rw_pos w) in
      mkrw mem lock fds pos (set_call (rw_calls w) (fst ia) c')
  end.
(** All actions of a schedule. *)
Definition rexec (st : Z -> Z) (sched : list (nat * answer)) (w : rworld) : rworld :=
  fold_left (fun w ia => rturn st ia w) sched w.
(** randombytes(random_array, nbytes) at its first statement: n = (int)nbytes, count = 0 (:37). *)
Definition rcall_start (rq : Z * Z) : rcall := mkc (fst rq) PTest (to_int (snd rq)) 0.

(** Two calls, and a schedule where both open the device and the second finds the descriptor
    of the first. *)
Example rexec_run :
  let ok fd k := {| an_open := Some fd; an_read := RGive k |} in
  let s := map (fun i => (i, ok (3 + i)%nat 2)) [0;1;0;1;0;1;0;0;1;1;0;0;1;1;0;0;1;1;0;0;0;0;0;1]%nat in
  let w := rexec (fun p => 100 + p) s (mkrw (zrep 8 0) (-1) [] 0 (map rcall_start [(0, 3); (4, 2)])) in
  rw_mem w = [100; 101; 104; 0; 102; 103; 0; 0] /\ rw_open w = [4; 3] /\
  map rc_pc (rw_calls w) = [PRet 0; PRet 0].
Proof. vm_compute. repeat split; reflexivity. Qed.
