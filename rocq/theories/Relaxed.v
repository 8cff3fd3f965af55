(** Threads on a machine with relaxed memory.

    Conc.v has one memory in which every store is seen by all threads at once.  Processors and
    compilers give less: a thread may go on reading an old value after another thread has stored a
    new one, and the threads may see stores to different bytes in different orders.  Here the memory
    is a set of messages (address, time, value), and a thread has a view: for every address the time
    of the newest message it knows of.  A load may take any message for its address that is not older
    than the view; a store adds a message at any time after the view; nothing else orders messages (the
    relaxed accesses of C11, and of the "promising" semantics without promises).  Which thread is
    next and which message or time it takes is for the schedule to say.  Waiting for a thread
    (pthread_join) makes its view known; without it nothing does.

    The programs are those of Conc.v and ConcKem.v: src/kem.c:15-252 byte access by byte access. *)
From Verif Require Import CSem Conc.

(** Messages: address, time and value. *)
Definition message : Type := Z * Z * Z.
(** The global of src/aes/aes_c.c:22 has an address that no byte of the memory has. *)
Definition global_at : Z := -1.
(** The message for address a at time t. *)
Fixpoint lookup (ms : list message) (a t : Z) : option Z :=
  match ms with
  | [] => None
  | (b, u, v) :: ms => if (b =? a) && (u =? t) then Some v else lookup ms a t
  end.
(** What a thread knows. *)
Definition view : Type := Z -> Z.
(** The view, with time t for address a. *)
Definition upd (V : view) (a t : Z) : view := fun b => if b =? a then t else V b.

(** The size of the memory, the messages, and the threads with their views. *)
Record rxworld (A : Type) := mkrx { rx_len : Z; rx_msgs : list message; rx_thr : list (prog A * view) }.
Arguments mkrx {A}. Arguments rx_len {A}. Arguments rx_msgs {A}. Arguments rx_thr {A}.
(** Thread i becomes x. *)
Fixpoint set_rx {A} (l : list (prog A * view)) (i : nat) (x : prog A * view) : list (prog A * view) :=
  match l, i with
  | [], _ => []
  | _ :: l, O => x :: l
  | y :: l, Datatypes.S i => y :: set_rx l i x
  end.

(** A load from address a of the message at time t, if the view allows it: what is left of the thread. *)
Definition rx_load {A} (ms : list message) (V : view) (a t : Z) (k : Z -> prog A) : option (prog A * view) :=
  if V a <=? t then match lookup ms a t with Some v => Some (k v, upd V a t) | None => None end else None.
(** A store of v to address a at time t, if it is after the view and there is no other at that time. *)
Definition rx_store {A} (ms : list message) (V : view) (a t v : Z) (k : prog A) : option (list message * (prog A * view)) :=
  if V a <? t then match lookup ms a t with Some _ => None | None => Some ((a, t, v) :: ms, (k, upd V a t)) end else None.
(** The turn of thread i with the time t for its action: if t is not allowed nothing happens. *)
Definition rx_turn {A} (it : nat * Z) (w : rxworld A) : rxworld A :=
  let '(i, t) := it in
  let inside a := (0 <=? a) && (a <? rx_len w) in
  let ld V a k := match rx_load (rx_msgs w) V a t k with
                  | Some x => mkrx (rx_len w) (rx_msgs w) (set_rx (rx_thr w) i x) | None => w end in
  let st V a v k := match rx_store (rx_msgs w) V a t v k with
                    | Some (ms, x) => mkrx (rx_len w) ms (set_rx (rx_thr w) i x) | None => w end in
  match nth_error (rx_thr w) i with
  | None => w
  | Some (p, V) =>
      match p with
      | Ret _ | Fault _ => w
      | Ld a k => if inside a then ld V a k else mkrx (rx_len w) (rx_msgs w) (set_rx (rx_thr w) i (Fault UB_oob, V))
      | St a v k => if inside a then st V a v k else mkrx (rx_len w) (rx_msgs w) (set_rx (rx_thr w) i (Fault UB_oob, V))
      | Gld k => ld V global_at k
      | Gst v k => st V global_at v k
      end
  end.
(** All turns of a schedule. *)
Definition rx_exec {A} (sched : list (nat * Z)) (w : rxworld A) : rxworld A := fold_left (fun w it => rx_turn it w) sched w.

(** What one who knows V can read at address a. *)
Definition readable (ms : list message) (V : view) (a v : Z) : Prop := exists t, V a <= t /\ lookup ms a t = Some v.
(** What one who knew V knows after waiting for the threads. *)
Definition joined {A} (V : view) (thr : list (prog A * view)) : view := fun a => fold_right Z.max (V a) (map (fun x => snd x a) thr).
(** For one who knows V the memory is mem: at every address the message at the time V says carries
    the byte of mem, and there is no newer one. *)
Definition shows (ms : list message) (V : view) (mem : list Z) : Prop :=
  forall a, 0 <= a < zlen mem -> lookup ms a (V a) = Some (znth mem a) /\ forall t, V a < t -> lookup ms a t = None.
(** The messages of a program that starts: all bytes of its memory, and the global, at time 0. *)
Definition first_messages (mem : list Z) (g : Z) : list message :=
  (global_at, 0, g) :: map (fun a => (a, 0, znth mem a)) (ztab (zlen mem) (fun a => a)).
