(** randombytes on Unix (src/random/random.c:28-61) called by several threads on a machine with
    relaxed memory.

    ConcRandom.v takes the accesses to the static variable [lock] (:15) as sequentially consistent.
    Here they are those of Relaxed.v: [lock] is a set of messages, a load takes any of them that is
    not older than what the thread knows, and a store adds one at any later time.  The actions,
    the operating system and the rest of the memory are those of ConcRandom.v: no two calls work on the same
    buffer, and each thread reads its own. *)
From Verif Require Import CSem Random ConcRandom Relaxed.

(** The address of [lock], which no byte of the memory has. *)
Definition lock_at : Z := -2.
(** The memory, the messages, the open descriptors of the device, its position, and the calls, each
    with the time of the newest message for [lock] that its thread knows of. *)
Record lkworld := mklk { lk_mem : list Z; lk_msgs : list message; lk_open : list Z; lk_pos : Z; lk_calls : list (rcall * Z) }.
(** Call i becomes x. *)
Fixpoint set_lk (l : list (rcall * Z)) (i : nat) (x : rcall * Z) : list (rcall * Z) :=
  match l, i with
  | [], _ => []
  | _ :: l, O => x :: l
  | y :: l, Datatypes.S i => y :: set_lk l i x
  end.
(** What an action does with [lock]: load it (:39, :42, :45, :50), store it (:41), or neither. *)
Inductive use := Loads | Stores (fd : Z) | Neither.
Definition use_of (p : rpc) : use :=
  match p with PTest | PDelay | PAgain | PLock => Loads | PStore fd => Stores fd | _ => Neither end.
(** The turn of call i, with the answer of the system and the time t for its access to [lock]: if t is
    not allowed nothing happens. *)
Definition lk_turn (st : Z -> Z) (iat : nat * answer * Z) (w : lkworld) : lkworld :=
  let '(i, a, t) := iat in
  match nth_error (lk_calls w) i with
  | None => w
  | Some (c, V) =>
      let go v V' ms := let '(c', mem, _, fds, pos) := rstep st a c (lk_mem w) v (lk_open w) (lk_pos w) in
                        mklk mem ms fds pos (set_lk (lk_calls w) i (c', V')) in
      match use_of (rc_pc c) with
      | Loads => if V <=? t then match lookup (lk_msgs w) lock_at t with Some v => go v t (lk_msgs w) | None => w end else w
      | Stores fd => if V <? t then match lookup (lk_msgs w) lock_at t with
                                    | Some _ => w | None => go 0 t ((lock_at, t, fd) :: lk_msgs w) end else w
      | Neither => go 0 V (lk_msgs w)
      end
  end.
(** All turns of a schedule. *)
Definition lk_exec (st : Z -> Z) (sched : list (nat * answer * Z)) (w : lkworld) : lkworld :=
  fold_left (fun w x => lk_turn st x w) sched w.
(** The time of the newest message for [lock]. *)
Fixpoint newest (ms : list message) (t0 : Z) : Z :=
  match ms with
  | [] => t0
  | (b, u, _) :: ms => if b =? lock_at then Z.max u (newest ms t0) else newest ms t0
  end.
(** A turn at which the thread sees the newest message, and its store comes after it. *)
Definition prompt_turn (st : Z -> Z) (ia : nat * answer) (w : lkworld) : lkworld :=
  match nth_error (lk_calls w) (fst ia) with
  | None => w
  | Some (c, V) => lk_turn st (ia, newest (lk_msgs w) V + match use_of (rc_pc c) with Stores _ => 1 | _ => 0 end) w
  end.
Definition prompt_exec (st : Z -> Z) (sched : list (nat * answer)) (w : lkworld) : lkworld :=
  fold_left (fun w ia => prompt_turn st ia w) sched w.

(** Two calls; the second still sees -1 after the first has stored a descriptor, opens the device
    again, stores its descriptor before that of the first, and reads with the other one. *)
Example lk_run :
  let ok fd k := {| an_open := Some fd; an_read := RGive k |} in
  let s := map (fun x => (Z.to_nat (fst (fst x)), ok (Z.to_nat (fst (snd (fst x)))) (snd (snd (fst x))), snd x)) [(0, (3, 2), 0); (0, (3, 2), 0); (0, (3, 2), 9); (1, (4, 2), 0); (1, (4, 2), 0); (1, (4, 2), 5); (1, (4, 2), 5); (1, (4, 2), 9);
            (1, (4, 2), 0); (1, (4, 2), 9); (1, (4, 2), 0); (1, (4, 2), 0); (0, (3, 2), 9); (0, (3, 2), 9); (0, (3, 1), 0); (0, (3, 1), 9); (0, (3, 1), 0); (0, (3, 1), 0)] in
  let w := lk_exec (fun p => 100 + p) s (mklk (zrep 8 0) [(lock_at, 0, -1)] [] 0 (map (fun rq => (rcall_start rq, 0)) [(0, 1); (4, 2)])) in
  lk_mem w = [102; 0; 0; 0; 100; 101; 0; 0] /\ lk_open w = [4; 3] /\ lk_msgs w = [(lock_at, 5, 4); (lock_at, 9, 3); (lock_at, 0, -1)] /\
  map (fun x => rc_pc (fst x)) (lk_calls w) = [PRet 0; PRet 0].
Proof. vm_compute. repeat split; reflexivity. Qed.
