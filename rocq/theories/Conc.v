(** Threads that share memory.

    A thread is a program whose only actions are loads and stores of single bytes of the
    shared memory and of the one global variable of the library, [state] (src/aes/aes_c.c:22).
    Local computation happens between the actions.  A schedule says which thread performs the
    next action; every sequence of threads is a schedule.  Actions take effect at once and in
    program order (sequential consistency).  Larger accesses are sequences of byte accesses, so
    that other threads may run in the middle of them. *)
From Verif Require Import CSem.

(** A thread: it has ended with a value or a fault, or its next action is a load or a store of a byte, or a load or a store of the global (src/aes/aes_c.c:22). *)
Inductive prog (A : Type) : Type :=
| Ret (a : A)
| Fault (e : err)
| Ld (a : Z) (k : Z -> prog A)
| St (a v : Z) (k : prog A)
| Gld (k : Z -> prog A)
| Gst (v : Z) (k : prog A).
Arguments Ret {A}. Arguments Fault {A}. Arguments Ld {A}. Arguments St {A}. Arguments Gld {A}. Arguments Gst {A}.

(** One program after another. *)
Fixpoint pbind {A B} (p : prog A) (f : A -> prog B) : prog B :=
  match p with
  | Ret a => f a
  | Fault e => Fault e
  | Ld a k => Ld a (fun v => pbind (k v) f)
  | St a v k => St a v (pbind k f)
  | Gld k => Gld (fun v => pbind (k v) f)
  | Gst v k => Gst v (pbind k f)
  end.
(** A computation on the thread's own objects. *)
Definition loc {A} (m : res A) : prog A := match m with Ok a _ => Ret a | Err e => Fault e end.

Declare Scope cp_scope.
Delimit Scope cp_scope with cp.
Notation "x <~ m ;; k" := (pbind m (fun x => k)) (at level 61, m at next level, right associativity) : cp_scope.
Notation "' p <~ m ;; k" := (pbind m (fun x => match x with p => k end)) (at level 61, p pattern, m at next level, right associativity) : cp_scope.
Notation "m ~;; k" := (pbind m (fun _ => k)) (at level 61, right associativity) : cp_scope.
Open Scope cp_scope.

(** Loads and stores of several bytes. *)
Fixpoint ldn (a : Z) (n : nat) : prog (list Z) :=
  match n with O => Ret [] | Datatypes.S n => Ld a (fun v => l <~ ldn (a + 1) n ;; Ret (v :: l)) end.
(** Stores of the bytes l from a on. *)
Fixpoint stn (a : Z) (l : list Z) : prog unit :=
  match l with [] => Ret tt | v :: l => St a v (stn (a + 1) l) end.
(** A load of n bytes: n actions. *)
Definition load (a n : Z) : prog (list Z) := if 0 <=? n then ldn a (Z.to_nat n) else Fault UB_oob.
(** A store of several bytes: one action each. *)
Definition store (a : Z) (l : list Z) : prog unit := stn a l.

(** The loop behind [pfor]. *)
Fixpoint pfor_n {S} (n : nat) (i : Z) (body : Z -> S -> prog S) (s : S) : prog S :=
  match n with O => Ret s | Datatypes.S n' => s' <~ body i s ;; pfor_n n' (i + 1) body s' end.
(** for (i = lo; i < hi; i++) *)
Definition pfor {S} (lo hi : Z) (body : Z -> S -> prog S) (s : S) : prog S := pfor_n (Z.to_nat (hi - lo)) lo body s.

(** One action of a thread. *)
Definition in_mem (mem : list Z) (a : Z) : bool := (0 <=? a) && (a <? zlen mem).
(** The next action of p: what is left of p, the memory and the global. *)
Definition step {A} (p : prog A) (mem : list Z) (g : Z) : prog A * list Z * Z :=
  match p with
  | Ret a => (Ret a, mem, g)
  | Fault e => (Fault e, mem, g)
  | Ld a k => if in_mem mem a then (k (znth mem a), mem, g) else (Fault UB_oob, mem, g)
  | St a v k => if in_mem mem a then (k, zset mem a v, g) else (Fault UB_oob, mem, g)
  | Gld k => (k g, mem, g)
  | Gst v k => (k, mem, v)
  end.

(** The machine: any number of threads. *)
Record world (A : Type) := mkw { w_mem : list Z; w_g : Z; w_thr : list (prog A) }.
Arguments mkw {A}. Arguments w_mem {A}. Arguments w_g {A}. Arguments w_thr {A}.
(** Thread i becomes p. *)
Fixpoint set_thr {A} (l : list (prog A)) (i : nat) (p : prog A) : list (prog A) :=
  match l, i with
  | [], _ => []
  | _ :: l, O => p :: l
  | q :: l, Datatypes.S i => q :: set_thr l i p
  end.
(** Thread i performs its next action. *)
Definition turn {A} (i : nat) (w : world A) : world A :=
  match nth_error (w_thr w) i with
  | None => w
  | Some p => let '(p', mem', g') := step p (w_mem w) (w_g w) in mkw mem' g' (set_thr (w_thr w) i p')
  end.
(** All actions of a schedule, in its order. *)
Definition exec {A} (sched : list nat) (w : world A) : world A := fold_left (fun w i => turn i w) sched w.

(** How a thread ended, if it has. *)
Definition ended {A} (p : prog A) : option (res A) :=
  match p with Ret a => Some (ret a) | Fault e => Some (Err e) | _ => None end.

(** The program run alone to its end: its result, the memory and the global afterwards. *)
Fixpoint solo {A} (p : prog A) (mem : list Z) (g : Z) : res A * list Z * Z :=
  match p with
  | Ret a => (ret a, mem, g)
  | Fault e => (Err e, mem, g)
  | Ld a k => if in_mem mem a then solo (k (znth mem a)) mem g else (Err UB_oob, mem, g)
  | St a v k => if in_mem mem a then solo k (zset mem a v) g else (Err UB_oob, mem, g)
  | Gld k => solo (k g) mem g
  | Gst v k => solo k mem v
  end.
(** ... and how many actions that takes. *)
Fixpoint actions {A} (p : prog A) (mem : list Z) (g : Z) : nat :=
  match p with
  | Ret _ | Fault _ => O
  | Ld a k => Datatypes.S (if in_mem mem a then actions (k (znth mem a)) mem g else O)
  | St a v k => Datatypes.S (if in_mem mem a then actions k (zset mem a v) g else O)
  | Gld k => Datatypes.S (actions (k g) mem g)
  | Gst v k => Datatypes.S (actions k mem v)
  end.

(** Run alone from [mem], the program reads only R, writes only W, and does not touch the
    global. *)
Fixpoint obeys {A} (R W : Z -> Prop) (p : prog A) (mem : list Z) : Prop :=
  match p with
  | Ret _ | Fault _ => True
  | Ld a k => in_mem mem a = true /\ R a /\ obeys R W (k (znth mem a)) mem
  | St a v k => in_mem mem a = true /\ W a /\ obeys R W k (zset mem a v)
  | Gld _ | Gst _ _ => False
  end.
