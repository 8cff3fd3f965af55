(** Model of the known-answer-test programs tests/PQCtestKAT_kem{640,976,1344}{,_shake}.c.
    The six files differ in the names of the algorithm, of the response file and of the three
    API functions only; line numbers are those of PQCtestKAT_kem640.c.

    The response file is the list of its remaining bytes: fgetc takes the first one and returns
    EOF (-1) when there is none.  Left out: the messages printed, the construction of the file
    name (:41), fclose (:125), and fprintBstr, which is never called. *)
From Coq Require Import String.
From Verif Require Import CSem Str Params Aes Rng Kem.
Local Open Scope Z_scope.

(** What is left of the response file. *)
Definition stream := list Z.

(** ** FindMarker, :137-172 *)
Definition MAX_MARKER_LEN : Z := 50.
(** strncmp(a, b, n) == 0, from position i on *)
Fixpoint strncmp (n : nat) (i : Z) (a b : list Z) : res bool :=
  match n with
  | O => ret true
  | Datatypes.S n =>
    x <- rd a i ;;
    y <- rd b i ;;
    branch (x =? y) (branch (x =? 0) (ret true) (strncmp n (i + 1) a b)) (ret false)
  end.
(** for ( i=0; i<len; i++ ) { curr_line = fgetc(infile); line[i] = curr_line; if (curr_line == EOF) return 0; }, :148-154 *)
Fixpoint fill (n : nat) (i : Z) (f : stream) (line : list Z) : res (option (stream * list Z)) :=
  match n with
  | O => ret (Some (f, line))
  | Datatypes.S n =>
    match f with
    | [] => line <- wr line i (u8 (-1)) ;; ret None
    | c :: f => line <- wr line i c ;; fill n (i + 1) f line
    end
  end.
(** while ( 1 ), :157-168.  [marker] includes its NUL.  Every turn takes one byte of the file. *)
Fixpoint slide (len : Z) (marker : list Z) (f : stream) (line : list Z) : res (Z * stream) :=
  e <- strncmp (Z.to_nat len) 0 line marker ;;
  branch e (ret (1, f))
   (line <- for_ 0 (len - 1) (fun i line => x <- rd line (i + 1) ;; wr line i x) line ;;
    match f with
    | [] => line <- wr line (len - 1) (u8 (-1)) ;; ret (0, [])
    | c :: f =>
      line <- wr line (len - 1) c ;;
      line <- wr line len 0 ;;
      slide len marker f line
    end).
(** FindMarker: the value returned and the rest of the file *)
Definition FindMarker (f : stream) (marker : list Z) : res (Z * stream) :=
  let line := uninit MAX_MARKER_LEN in
  let len := zlen marker in
  let len := if MAX_MARKER_LEN - 1 <? len then MAX_MARKER_LEN - 1 else len in
  r <- fill (Z.to_nat len) 0 f line ;;
  match r with
  | None => ret (0, [])
  | Some (f, line) =>
    line <- wr line len 0 ;;
    slide len (marker ++ [0]) f line
  end.

(** ** ReadHex, :177-219 *)
(** isxdigit in the C locale *)
Definition isxdigit (ch : Z) : bool :=
  (48 <=? ch) && (ch <=? 57) || (65 <=? ch) && (ch <=? 70) || (97 <=? ch) && (ch <=? 102).
(** ich, the value of a digit, :202-209 *)
Definition ich_of (ch : Z) : Z :=
  if (48 <=? ch) && (ch <=? 57) then u8 (ch - 48)
  else if (65 <=? ch) && (ch <=? 70) then u8 (ch - 65 + 10)
  else if (97 <=? ch) && (ch <=? 102) then u8 (ch - 97 + 10)
  else 0.
(** The digit is shifted in, :211-213 *)
Definition shift_in (A : list Z) (Length ich : Z) : res (list Z) :=
  A <- for_ 0 (Length - 1) (fun i A =>
    x <- rd A i ;; y <- rd A (i + 1) ;;
    wr A i (u8 (Z.lor (Z.shiftl x 4) (Z.shiftr y 4)))) A ;;
  x <- rd A (Length - 1) ;;
  wr A (Length - 1) (u8 (Z.lor (Z.shiftl x 4) ich)).
(** while ( (ch = fgetc(infile)) != EOF ), :190-214 *)
Fixpoint hex_loop (Length : Z) (f : stream) (started : bool) (A : list Z) : res (list Z * stream) :=
  match f with
  | [] => ret (A, [])
  | ch :: f =>
    branch (negb (isxdigit ch))
      (branch (negb started)
         (branch (ch =? 10) (ret (A, f)) (hex_loop Length f started A))
         (ret (A, f)))
      (A <- shift_in A Length (ich_of ch) ;;
       hex_loop Length f true A)
  end.
(** ReadHex: the value returned, the array and the rest of the file *)
Definition ReadHex (f : stream) (A : list Z) (Length : Z) (marker : list Z) : res (Z * list Z * stream) :=
  branch (Length =? 0)
    (A <- wr A 0 0 ;; ret (1, A, f))
    (A <- memset A 0 0 Length ;;
     '(found, f) <- FindMarker f marker ;;
     branch (negb (found =? 0))
       ('(A, f) <- hex_loop Length f false A ;; ret (1, A, f))
       (ret (0, A, f))).

(** ** fscanf(fp_rsp, "%d", &count), :51 *)
Definition isspace (c : Z) : bool := (c =? 32) || (9 <=? c) && (c <=? 13).
(** A decimal digit, as %d reads it. *)
Definition isdigit (c : Z) : bool := (48 <=? c) && (c <=? 57).
(** White space before the number, skipped by %d. *)
Fixpoint skip_space (f : stream) : stream :=
  match f with
  | [] => []
  | c :: f' => if isspace c then skip_space f' else f
  end.
(** The digits at the head of the file: their value continuing from v, how many, and the rest. *)
Fixpoint digits (v : Z) (n : Z) (f : stream) : Z * Z * stream :=
  match f with
  | [] => (v, n, [])
  | c :: f' => if isdigit c then digits (10 * v + (c - 48)) (n + 1) f' else (v, n, f)
  end.
(** An optional sign; true for minus. *)
Definition sign (f : stream) : bool * stream :=
  match f with
  | [] => (false, [])
  | c :: f' => if c =? 43 then (false, f') else if c =? 45 then (true, f') else (false, f)
  end.
(** None: fscanf does not return 1.  A number that does not fit an int is undefined behaviour
    (C11 7.21.6.2p10). *)
Definition fscanf_d (f : stream) : res (option Z * stream) :=
  let f := skip_space f in
  let '(neg, f) := sign f in
  let '(v, n, f) := digits 0 0 f in
  if n =? 0 then ret (None, f)
  else v <- i32 (if neg then - v else v) ;; ret (Some v, f).

(** ** main, :29-130 *)
(** memcmp(mem + a, x, n) == 0 *)
Definition memcmp_eq (mem : list Z) (a : Z) (x : list Z) (n : Z) : res bool :=
  y <- sub mem a n ;; x <- sub x 0 n ;;
  ret (if list_eq_dec Z.eq_dec y x then true else false).
(** The generator linked into the program is that of tests/rng.c.  An API function makes one
    request: it gets the generator in state d, and leaves it in the state of [after_request]. *)
Definition rng_of (im : aesimpl) (d : drbg) : generator := fun buf n =>
  '(buf, rc, _) <- randombytes_drbg im d buf n ;; ret (buf, rc).
(** The state of the generator after a request of n bytes, tests/rng.c:32-63. *)
Definition after_request (im : aesimpl) (d : drbg) (n : Z) : res drbg :=
  '(_, _, d) <- randombytes_drbg im d (uninit n) n ;; ret d.
(** Where main's arrays pk, sk, ct, ss and ss1 are in memory (:35-38). *)
Record frame := { a_pk : Z; a_sk : Z; a_ct : Z; a_ss : Z; a_ss1 : Z }.

(** The values main returns, :19-23 *)
Definition KAT_SUCCESS : Z := 0.
(** :20 *)
Definition KAT_FILE_OPEN_ERROR : Z := -1.
(** :21 *)
Definition KAT_VERIFICATION_ERROR : Z := -2.
(** :22 *)
Definition KAT_DATA_ERROR : Z := -3.
(** :23 *)
Definition KAT_CRYPTO_FAILURE : Z := -4.
(** A turn of the loop ends with the value main returns, or goes on. *)
Inductive turn := Stop (code : Z) | Next (f : stream) (mem : list Z) (d : drbg).
(** The body of the do loop, :50-122 *)
Definition kat_turn (C : config) (im : aesimpl) (fr : frame) (f : stream) (mem : list Z) (d : drbg) : res turn :=
  let P := cP C in
  '(found, f) <- FindMarker f (str "count = ") ;;
  branch (found =? 0) (ret (Stop KAT_SUCCESS))
 ('(count, f) <- fscanf_d f ;;
  match count with
  | None => ret (Stop KAT_SUCCESS)
  | Some _ =>
  '(ok, seed, f) <- ReadHex f (uninit 48) 48 (str "seed = ") ;;
  branch (ok =? 0) (ret (Stop KAT_DATA_ERROR))
 (d <- randombytes_init im d seed None ;;
  '(mem, _, rc) <- crypto_kem_keypair C (rng_of im d) mem (a_pk fr) (a_sk fr) ;;
  d <- after_request im d (2 * pCB P + SEEDA) ;;
  branch (negb (rc =? 0)) (ret (Stop KAT_CRYPTO_FAILURE))
 ('(ok, pk_rsp, f) <- ReadHex f (uninit (pkBytes P)) (pkBytes P) (str "pk = ") ;;
  branch (ok =? 0) (ret (Stop KAT_DATA_ERROR))
 ('(ok, sk_rsp, f) <- ReadHex f (uninit (skBytes P)) (skBytes P) (str "sk = ") ;;
  branch (ok =? 0) (ret (Stop KAT_DATA_ERROR))
 (same <- memcmp_eq mem (a_pk fr) pk_rsp (pkBytes P) ;;
  branch (negb same) (ret (Stop KAT_VERIFICATION_ERROR))
 (same <- memcmp_eq mem (a_sk fr) sk_rsp (skBytes P) ;;
  branch (negb same) (ret (Stop KAT_VERIFICATION_ERROR))
 ('(mem, _, rc) <- crypto_kem_enc C (rng_of im d) mem (a_ct fr) (a_ss fr) (a_pk fr) ;;
  d <- after_request im d (bytesMu P) ;;
  branch (negb (rc =? 0)) (ret (Stop KAT_CRYPTO_FAILURE))
 ('(ok, ct_rsp, f) <- ReadHex f (uninit (ctBytes P)) (ctBytes P) (str "ct = ") ;;
  branch (ok =? 0) (ret (Stop KAT_DATA_ERROR))
 ('(ok, ss_rsp, f) <- ReadHex f (uninit (pCB P)) (pCB P) (str "ss = ") ;;
  branch (ok =? 0) (ret (Stop KAT_DATA_ERROR))
 (same <- memcmp_eq mem (a_ct fr) ct_rsp (ctBytes P) ;;
  branch (negb same) (ret (Stop KAT_VERIFICATION_ERROR))
 (same <- memcmp_eq mem (a_ss fr) ss_rsp (pCB P) ;;
  branch (negb same) (ret (Stop KAT_VERIFICATION_ERROR))
 ('(mem, _, rc) <- crypto_kem_dec C mem (a_ss1 fr) (a_ct fr) (a_sk fr) ;;
  branch (negb (rc =? 0)) (ret (Stop KAT_CRYPTO_FAILURE))
 (ss1 <- sub mem (a_ss1 fr) (pCB P) ;;
  same <- memcmp_eq mem (a_ss fr) ss1 (pCB P) ;;
  branch (negb same) (ret (Stop KAT_CRYPTO_FAILURE))
 (ret (Next f mem d))))))))))))))
  end).
(** do ... while ( !done ), :49-123: a turn that goes on has taken bytes from the file, so one
    more turn than the file has bytes is enough. *)
Fixpoint kat_loop (fuel : nat) (C : config) (im : aesimpl) (fr : frame) (f : stream) (mem : list Z) (d : drbg) : res Z :=
  match fuel with
  | O => Err OutOfFuel
  | Datatypes.S fuel =>
    t <- kat_turn C im fr f mem d ;;
    match t with
    | Stop code => ret code
    | Next f mem d => kat_loop fuel C im fr f mem d
    end
  end.
(** main; None: the response file cannot be opened (:42-45) *)
Definition kat_main (C : config) (im : aesimpl) (fr : frame) (file : option stream) (mem : list Z) (d : drbg) : res Z :=
  match file with
  | None => ret KAT_FILE_OPEN_ERROR
  | Some f => kat_loop (Datatypes.S (List.length f)) C im fr f mem d
  end.
