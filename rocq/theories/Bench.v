(** Model of tests/ds_benchmark.h and of kem_bench and main of tests/test_kem.c:90-124.

    The clocks are oracles: every turn of a measuring loop takes one [reading] from a list.  Simplified:
    the type double is the rational numbers (no rounding; the integers that are converted to double are
    exact up to 2^53), a square root is represented by its square, printing by the record of the numbers
    that are printed. *)
From Coq Require Export QArith.
From Verif Require Import CSem Params Kem TestKem.
Open Scope Z_scope.

(** The targets of src/config.h:16-53 that differ in ds_benchmark.h:75-89. *)
Inductive target := NixAMD64 | NixX86 | NixARM | Windows.
(** What the clocks show around one run of the operation, ds_benchmark.h:108-110, 117-118: the time of day
    (seconds and microseconds) and the cycle counter of the processor, before and after. *)
Record reading := { c_sec0 : Z; c_usec0 : Z; c_tsc0 : Z; c_tsc1 : Z; c_sec1 : Z; c_usec1 : Z }.

(** Conversions to int32_t (long on Windows) and int64_t that wrap, ds_benchmark.h:68-69, 121-122. *)
Definition s32 (x : Z) : Z := let y := x mod 4294967296 in if y <? 2147483648 then y else y - 4294967296.
Definition s64 (x : Z) : Z := let y := u64 x in if y <? 9223372036854775808 then y else y - 18446744073709551616.

(** gettimeofday for Windows, ds_benchmark.h:55-71: from FILETIME (100 ns units since 1601) and the
    milliseconds of SYSTEMTIME; (long) is 32 bits wide there. *)
Definition win_gettimeofday (filetime ms : Z) : Z * Z :=
  (s32 (u64 (filetime - 116444736000000000) / 10000000), s32 (ms * 1000)).

(** rdtsc(), ds_benchmark.h:75-89, from the counter of the processor.  On AMD64 the constraint "=A" stands
    for one of rax and rdx; compilers take rax, where the instruction leaves the low 32 bits (x86: edx:eax).
    Simplified: on ARM, where the cycle figures are not printed, it is the counter too. *)
Definition rdtsc (T : target) (tsc : Z) : Z :=
  match T with NixAMD64 => tsc mod 4294967296 | _ => u64 tsc end.

(** The timer variables, ds_benchmark.h:92-106 (_bench_time_cumulative is a sum of integers). *)
Record timer := { b_n : Z; b_cum : Z; b_cmean : Q; b_cM2 : Q; b_tmean : Q; b_tM2 : Q; b_tcum : Z }.
(** DEFINE_TIMER_VARIABLES and INITIALIZE_TIMER, ds_benchmark.h:92-106. *)
Definition init_timer : timer :=
  {| b_n := 0; b_cum := 0; b_cmean := 0; b_cM2 := 0; b_tmean := 0; b_tM2 := 0; b_tcum := 0 |}.

(** A result of the type long (and time_t), which has W bits, ds_benchmark.h:128. *)
Definition long (W x : Z) : res Z := if (- 2 ^ (W - 1) <=? x) && (x <? 2 ^ (W - 1)) then ret x else Err UB_overflow.
(** tv_sec * 1000000 + tv_usec, ds_benchmark.h:128. *)
Definition usecs (W sec usec : Z) : res Z := x <- long W (sec * 1000000) ;; long W (x + usec).
(** _bench_cycles_diff, ds_benchmark.h:120-122 (conversions between uint64_t and int64_t wrap). *)
Definition cycles_diff (T : target) (c : reading) : Z :=
  let s := rdtsc T (c_tsc0 c) in
  let e := rdtsc T (c_tsc1 c) in
  let e := if e <? s then u64 (e + 4294967296) else e in
  s64 (e - s).

(** STOP_TIMER, ds_benchmark.h:116-132. *)
Definition stop_timer (W : Z) (T : target) (c : reading) (t : timer) : res timer :=
  let n := b_n t + 1 in
  let d := cycles_diff T c in
  let delta := (inject_Z d - b_cmean t)%Q in
  let cmean := (b_cmean t + delta / inject_Z n)%Q in
  let cM2 := (b_cM2 t + delta * (inject_Z d - cmean))%Q in
  e <- usecs W (c_sec1 c) (c_usec1 c) ;;
  s <- usecs W (c_sec0 c) (c_usec0 c) ;;
  x <- long W (e - s) ;;
  let tdelta := (inject_Z x - b_tmean t)%Q in
  let tmean := (b_tmean t + tdelta / inject_Z n)%Q in
  let tM2 := (b_tM2 t + tdelta * (inject_Z x - tmean))%Q in
  ret {| b_n := n; b_cum := u64 (b_cum t + d); b_cmean := cmean; b_cM2 := cM2; b_tmean := tmean; b_tM2 := tM2; b_tcum := b_tcum t + x |}.

(** FINALIZE_TIMER and PRINT_TIMER_AVG, ds_benchmark.h:134-155: iterations, total time in seconds, mean and
    (squared) standard deviation of the time in microseconds, mean and (squared) standard deviation of the
    cycles; the last two are not printed on ARM. *)
Record figures := { f_n : Z; f_total : Q; f_tmean : Q; f_tvar : Q; f_cycles : option (Q * Q) }.
Definition print_timer (T : target) (t : timer) : figures :=
  let cvar := if b_n t =? 2 then 0%Q else (b_cM2 t / inject_Z (b_n t))%Q in
  let tvar := if b_n t =? 2 then 0%Q else (b_tM2 t / inject_Z (b_n t))%Q in
  {| f_n := b_n t; f_total := (inject_Z (b_tcum t) / inject_Z 1000000)%Q; f_tmean := b_tmean t; f_tvar := tvar;
     f_cycles := match T with NixARM => None | _ => Some ((inject_Z (b_cum t) / inject_Z (b_n t))%Q, cvar) end |}.

(** (uint64_t)_bench_time_cumulative: undefined if the integral part is not in the range (C11 6.3.1.4). *)
Definition to_u64 (x : Z) : res Z := if (0 <=? x) && (x <? 18446744073709551616) then ret x else Err UB_overflow.

(** The loop of TIME_OPERATION_SECONDS, ds_benchmark.h:175-179.  [op k] is the operation when it is run after k
    other calls; the readings that are left over are returned. *)
Fixpoint time_loop {A} (W : Z) (T : target) (op : Z -> A -> res A) (goal : Z) (cl : list reading) (k : Z) (t : timer) (a : A)
    : res (A * timer * Z * list reading) :=
  x <- to_u64 (b_tcum t) ;;
  if x <? goal then
    match cl with
    | [] => Err OutOfFuel
    | c :: cl => a <- op k a ;; t <- stop_timer W T c t ;; time_loop W T op goal cl (k + 1) t a
    end
  else ret (a, t, k, cl).
(** TIME_OPERATION_SECONDS, ds_benchmark.h:170-182; 1000000 * secs is an int. *)
Definition time_seconds {A} (W : Z) (T : target) (op : Z -> A -> res A) (secs : Z) (cl : list reading) (k : Z) (a : A)
    : res (A * figures * Z * list reading) :=
  goal <- i32 (1000000 * secs) ;;
  '(a, t, k, cl) <- time_loop W T op (u64 goal) cl k init_timer a ;;
  ret (a, print_timer T t, k, cl).
(** TIME_OPERATION_ITERATIONS, ds_benchmark.h:157-168 (not used in this repository). *)
Fixpoint time_for {A} (W : Z) (T : target) (op : Z -> A -> res A) (n : nat) (cl : list reading) (k : Z) (t : timer) (a : A)
    : res (A * timer * Z * list reading) :=
  match n with
  | O => ret (a, t, k, cl)
  | Datatypes.S n =>
    match cl with
    | [] => Err OutOfFuel
    | c :: cl => a <- op k a ;; t <- stop_timer W T c t ;; time_for W T op n cl (k + 1) t a
    end
  end.
Definition time_iterations {A} (W : Z) (T : target) (op : Z -> A -> res A) (it : Z) (cl : list reading) (k : Z) (a : A)
    : res (A * figures * Z * list reading) :=
  '(a, t, k, cl) <- time_for W T op (Z.to_nat it) cl k init_timer a ;;
  ret (a, print_timer T t, k, cl).

(** The operations of kem_bench, tests/test_kem.c:97-103, with the generator at the k-th call. *)
Definition op_keypair (C : config) (fr : tframe) (rb : Z -> generator) (k : Z) (mem : list Z) : res (list Z) :=
  '(mem, _, _) <- crypto_kem_keypair C (rb k) mem (t_pk fr) (t_sk fr) ;; ret mem.
Definition op_enc (C : config) (fr : tframe) (rb : Z -> generator) (k : Z) (mem : list Z) : res (list Z) :=
  '(mem, _, _) <- crypto_kem_enc C (rb k) mem (t_ct fr) (t_sse fr) (t_pk fr) ;; ret mem.
Definition op_dec (C : config) (fr : tframe) (k : Z) (mem : list Z) : res (list Z) :=
  '(mem, _, _) <- crypto_kem_dec C mem (t_ssd fr) (t_ct fr) (t_sk fr) ;; ret mem.
(** kem_bench, tests/test_kem.c:90-104: the memory at the end and the three lines printed. *)
Definition kem_bench (W : Z) (T : target) (C : config) (fr : tframe) (rb : Z -> generator) (seconds : Z) (cl : list reading) (k : Z)
    (mem : list Z) : res (list Z * (figures * figures * figures)) :=
  '(mem, f1, k, cl) <- time_seconds W T (op_keypair C fr rb) seconds cl k mem ;;
  mem <- op_keypair C fr rb k mem ;;
  '(mem, f2, k, cl) <- time_seconds W T (op_enc C fr rb) seconds cl (k + 1) mem ;;
  mem <- op_enc C fr rb k mem ;;
  '(mem, f3, k, cl) <- time_seconds W T (op_dec C fr) seconds cl (k + 1) mem ;;
  ret (mem, (f1, f2, f3)).
(** main, tests/test_kem.c:107-124: EXIT_SUCCESS or EXIT_FAILURE.  [nobench]: argv[1] is "nobench".  kem_bench has its
    own arrays, at [fr'] in [mem']; [rb'] is the generator as kem_test leaves it. *)
Definition test_main (W : Z) (T : target) (C : config) (fr fr' : tframe) (rb rb' : Z -> generator) (nobench : bool) (cl : list reading)
    (mem mem' : list Z) : res Z :=
  ok <- kem_test C fr rb 100 mem ;;
  if negb ok then ret 1
  else if nobench then ret 0
  else ('(_, _) <- kem_bench W T C fr' rb' 1 cl 0 mem' ;; ret 0).
