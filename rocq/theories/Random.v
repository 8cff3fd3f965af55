(** Model of src/random/random.c.

    The operating system is an oracle: a list of results of open() and a list of results
    of read() (the schedule), and the stream of bytes /dev/urandom will deliver,
    [st : Z -> Z].  When the code makes a system call and the list is used up, the outcome
    is [OutOfFuel]: the code is still waiting. *)
From Verif Require Import CSem.

(** One answer of read(fd, buf, n): an error (-1), or at most [k] bytes: it stores and
    returns min(k, n) bytes, the next ones of the stream.  k = 0 is end of file. *)
Inductive read_answer := RErr | RGive (k : Z).
(** What the system will answer to open() and to read(), and how much of the stream has been read. *)
Record os := { os_open : list Z; os_read : list read_answer; os_pos : Z }.

(** (int)nbytes: conversion to a 32-bit int wraps (gcc, clang, MSVC). *)
Definition to_int (x : Z) : Z := let y := x mod 4294967296 in if y <? 2147483648 then y else y - 4294967296.

(** do lock = open(..); while (lock == -1), random.c:40-45.  delay() (:22-25) has no
    effect and is omitted. *)
Fixpoint open_retry (o : list Z) : res (Z * list Z) :=
  match o with
  | [] => Err OutOfFuel
  | fd :: o => branch (fd =? -1) (open_retry o) (ret (fd, o))
  end.
(** do r = read(lock, random_array+count, n); while (r == -1), random.c:49-54.  Returns
    the buffer, r, the remaining schedule and the stream position. *)
Fixpoint read_retry (st : Z -> Z) (a : list read_answer) (pos : Z) (buf : list Z) (count n : Z)
    : res (list Z * Z * list read_answer * Z) :=
  match a with
  | [] => Err OutOfFuel
  | RErr :: a => emit (EBr true) ;;; read_retry st a pos buf count n
  | RGive k :: a =>
      let r := Z.min k n in
      buf <- put buf count (ztab r (fun i => st (pos + i))) ;;
      emit (EBr false) ;;;
      ret (buf, r, a, pos + r)
  end.
(** randombytes on Unix, random.c:28-61.  [lock] is the static variable.  Returns the
    buffer, the return value, lock and the system's state.  The while loop runs at most
    once per answer, hence the bound. *)
Definition randombytes_nix (st : Z -> Z) (s : os) (lock : Z) (buf : list Z) (nbytes : Z)
    : res (list Z * Z * Z * os) :=
  let n := to_int nbytes in
  '(lock, o) <- branch (lock =? -1) (open_retry (os_open s)) (ret (lock, os_open s)) ;;
  '(buf, count, n, a, pos) <- loop (Datatypes.S (length (os_read s))) (fun '(buf, count, n, a, pos) =>
      if 0 <? n then
        '(buf, r, a, pos) <- read_retry st a pos buf count n ;;
        count <- i32 (count + r) ;;
        n <- i32 (n - r) ;;
        ret ((buf, count, n, a, pos), true)
      else ret ((buf, count, n, a, pos), false)) (buf, 0, n, os_read s, os_pos s) ;;
  ret (buf, 0, lock, {| os_open := o; os_read := a; os_pos := pos |}).

(** randombytes on Windows, random.c:31-34, 60.  BCryptGenRandom gets the length as a 32-bit
    unsigned long; [ok] says whether it succeeds, and on failure it stores nothing. *)
Definition randombytes_win (st : Z -> Z) (ok : bool) (buf : list Z) (nbytes : Z) : res (list Z * Z) :=
  let n := nbytes mod 4294967296 in
  if ok then buf <- put buf 0 (ztab n st) ;; ret (buf, 0)
  else ret (buf, 1).
