(** Model of the Makefile, of the preprocessor part of src/config.h and of linking: which code
    a program gets for which options, also when object files of earlier runs of make are
    still there.

    Left out: the compiler's own options (CC, EXTRA_CFLAGS, -march, the Valgrind build), the
    places of OpenSSL's files, and variables of the Makefile set on the command line
    other than the four options below.  Symbols of the C library are left out too. *)
From Coq Require Import String List Bool ZArith.
From Verif Require Import CSem Params.
Import ListNotations.
Local Open Scope string_scope.
Local Infix "=?" := String.eqb.

(** The options of make (README.md:126); an option that is not given is empty. *)
Record options := { ARCH : string; OPT_LEVEL : string; GENERATION_A : string; USE_OPENSSL : string }.

(** Makefile:10-19 *)
Definition ARCHITECTURE (o : options) : string :=
  let r := "_AMD64_" in
  if ARCH o =? "x64" then "_AMD64_"
  else if ARCH o =? "x86" then "_X86_"
  else if ARCH o =? "ARM" then "_ARM_"
  else r.
(** Makefile:10-33, the assignments in their order *)
Definition USE_OPT_LEVEL (o : options) : string :=
  let u := "" in
  let u := if ARCH o =? "x64" then u
           else if ARCH o =? "x86" then "_FAST_GENERIC_"
           else if ARCH o =? "ARM" then "_FAST_GENERIC_"
           else u in
  let u := if ARCHITECTURE o =? "_AMD64_" then "_FAST_" else u in
  if OPT_LEVEL o =? "REFERENCE" then "_REFERENCE_"
  else if OPT_LEVEL o =? "FAST_GENERIC" then "_FAST_GENERIC_"
  else if OPT_LEVEL o =? "FAST" then (if ARCHITECTURE o =? "_AMD64_" then "_FAST_" else u)
  else u.
(** Makefile:35-40 *)
Definition USE_GENERATION_A (o : options) : string :=
  let g := "_AES128_FOR_A_" in
  if GENERATION_A o =? "AES128" then "_AES128_FOR_A_"
  else if GENERATION_A o =? "SHAKE128" then "_SHAKE128_FOR_A_"
  else g.
(** Makefile:46-49 *)
Definition USING_OPENSSL (o : options) : string :=
  if USE_OPENSSL o =? "FALSE" then "NO_OPENSSL" else "_USE_OPENSSL_".
(** The macros defined on the command line of the compiler, Makefile:69 *)
Definition defines (o : options) : list string :=
  ["NIX"; ARCHITECTURE o; USE_OPT_LEVEL o; USE_GENERATION_A o; USING_OPENSSL o].

(** defined(m) *)
Definition has (D : list string) (m : string) : bool := existsb (String.eqb m) D.
(** src/config.h:16-95: the macros after it; None: an #error is reached.  The compiler is
    taken to be a supported one (:31-39), ALIGN_HEADER and ALIGN_FOOTER are left out; the byte
    order (:98-114) is that of the host. *)
Definition config_h (D : list string) : option (list string) :=
  (* :16-22 *)
  if has D "WINDOWS" || has D "NIX" then
  (* :48-56 *)
  if has D "_AMD64_" || has D "_X86_" || has D "_ARM_" then
  (* :69-79 *)
  let impl := if has D "_FAST_" then Some ["USE_AVX2"; "AES_ENABLE_NI"; "USE_FAST"]
              else if has D "_FAST_GENERIC_" then Some ["USE_FAST_GENERIC"]
              else if has D "_REFERENCE_" then Some ["USE_REFERENCE"]
              else None in
  (* :83-89 *)
  let gen := if has D "_AES128_FOR_A_" then Some ["USE_AES128_FOR_A"]
             else if has D "_SHAKE128_FOR_A_" then Some ["USE_SHAKE128_FOR_A"]
             else None in
  (* :93-95 *)
  let ossl := if has D "_USE_OPENSSL_" then ["USE_OPENSSL"] else [] in
  match impl, gen with Some i, Some g => Some (D ++ i ++ g ++ ossl)%list | _, _ => None end
  else None else None.

(** ** Object files *)
Inductive variant := V640 | V976 | V1344.
(** The object files of Makefile:90-161. *)
Inductive obj :=
| OFrodo (v : variant)  (* frodo640.o, frodo976.o, frodo1344.o *)
| OUtil | ORandom
| OAes | OAesC | OAesNI
| OFips202 | OFips202x4 | OKeccak4x.
(** All of them. *)
Definition all_objs : list obj :=
  [OFrodo V640; OFrodo V976; OFrodo V1344; OUtil; ORandom; OAes; OAesC; OAesNI; OFips202; OFips202x4; OKeccak4x].
(** Equality of variants is decidable. *)
Definition variant_eq_dec (a b : variant) : {a = b} + {a <> b}. Proof. decide equality. Defined.
(** Equality of object files is decidable. *)
Definition obj_eq_dec (a b : obj) : {a = b} + {a <> b}. Proof. decide equality; apply variant_eq_dec. Defined.
(** x is one of l. *)
Definition mem_obj (x : obj) (l : list obj) : bool := existsb (fun y => if obj_eq_dec x y then true else false) l.

(** The prerequisites of lib640, lib976 and lib1344, Makefile:109-161.  KEM_FRODO640_OBJS is
    frodo640.o util.o, and so on. *)
Definition AES_NI_OBJS (o : options) : list obj := if USE_OPT_LEVEL o =? "_FAST_" then [OAesNI] else [].
(** Makefile:133-143 *)
Definition SHAKEx4_OBJS (o : options) : list obj :=
  if USE_OPT_LEVEL o =? "_FAST_" then (if GENERATION_A o =? "SHAKE128" then [OFips202x4; OKeccak4x] else []) else [].
(** The members of frodo640/libfrodo.a and so on, Makefile:145-161 *)
Definition lib_objs (v : variant) (o : options) : list obj :=
  ([OFrodo v; OUtil; ORandom; OAes; OAesC] ++ AES_NI_OBJS o ++ [OFips202] ++ SHAKEx4_OBJS o)%list.
(** lib640_for_KATs and so on, Makefile:168-178: without random.o *)
Definition kat_objs (v : variant) (o : options) : list obj :=
  ([OFrodo v; OUtil; OAes; OAesC] ++ AES_NI_OBJS o ++ [OFips202] ++ SHAKEx4_OBJS o)%list.

(** ** Runs of make

    The object files that exist, with the macros (after config.h) each was compiled with, and
    the directories frodo640, frodo976, frodo1344, each with the members of its
    libfrodo_for_testing.a (none: there is no such file).  libfrodo.a need not be kept: it is made
    anew before every use.  The sources do not change; an object file is made when it does not
    exist and is otherwise taken as it is (Makefile:90-119 names only sources and headers as
    prerequisites). *)
Definition files := obj -> option (list string).
(** The members of an archive, with the macros each was compiled with. *)
Definition archive := list (obj * list string).
(** What is in the directory of the source. *)
Record state := { st_objs : files; st_dir : variant -> option archive }.
(** A fresh copy of the source. *)
Definition nothing : state := {| st_objs := fun _ => None; st_dir := fun _ => None |}.
(** What happens in runs of make, in the order in which it happens. *)
Inductive event :=
| Make (o : options) (objs : list obj)  (* make with options o needs objs and gets that far *)
| Lib (v : variant)                     (* the recipe of lib640 and so on: Makefile:145-149 *)
| Kats (o : options) (v : variant)      (* the recipe of lib640_for_KATs and so on, with options o: Makefile:168-170 *)
| Gone (objs : list obj)                (* object files are removed: make clean, Makefile:214-216, or otherwise *)
| Rmdir (v : variant).                  (* a directory is removed: make clean, or otherwise *)
Definition compile1 (M : list string) (fs : files) (x : obj) : files :=
  fun y => match fs y with Some m => Some m | None => if obj_eq_dec x y then Some M else None end.
(** Directory v becomes a. *)
Definition set_dir (d : variant -> option archive) (v : variant) (a : option archive) : variant -> option archive :=
  fun w => if variant_eq_dec v w then a else d w.
(** The archive, made of the objects named, in a state of the object files. *)
Fixpoint archive_of (fs : files) (l : list obj) : option archive :=
  match l with
  | [] => Some []
  | x :: l => match fs x, archive_of fs l with Some M, Some a => Some ((x, M) :: a) | _, _ => None end
  end.
(** ar rcs (Makefile:54): a member of that name is replaced where it is, a new one is added at the end. *)
Fixpoint ar_r1 (a : archive) (m : obj * list string) : archive :=
  match a with
  | [] => [m]
  | m' :: a => if obj_eq_dec (fst m') (fst m) then m :: a else m' :: ar_r1 a m
  end.
(** ar rcs with several members. *)
Definition ar_r (a new : archive) : archive := fold_left ar_r1 new a.
(** What an event changes. *)
Definition event_step (st : state) (e : event) : state :=
  let fs := st_objs st in
  match e with
  | Make o objs =>
      {| st_objs := match config_h (defines o) with Some M => fold_left (compile1 M) objs fs | None => fs end;
         st_dir := st_dir st |}
  | Lib v => {| st_objs := fs; st_dir := set_dir (st_dir st) v (Some []) |}
  | Kats o v =>
      (* without the directory or an object file ar fails *)
      {| st_objs := fs;
         st_dir := match st_dir st v, archive_of fs (kat_objs v o) with
                   | Some a, Some new => set_dir (st_dir st) v (Some (ar_r a new))
                   | _, _ => st_dir st
                   end |}
  | Gone objs => {| st_objs := fun y => if mem_obj y objs then None else fs y; st_dir := st_dir st |}
  | Rmdir v => {| st_objs := fs; st_dir := set_dir (st_dir st) v None |}
  end.
(** The files after a history. *)
Definition after_all (h : list event) : state := fold_left event_step h nothing.
(** The object files after a history. *)
Definition after (h : list event) : files := st_objs (after_all h).
(** The members of libfrodo_for_testing.a. *)
Definition kat_archive (h : list event) (v : variant) : option archive := st_dir (after_all h) v.

(** ** Symbols *)
Inductive sym :=
| s_keypair (v : variant) | s_enc (v : variant) | s_dec (v : variant)  (* crypto_kem_keypair_Frodo640, ... *)
| s_CDF_TABLE | s_CDF_TABLE_LEN | s_frodo_sample_n
| s_frodo_mul_add_as_plus_e | s_frodo_mul_add_sa_plus_e | s_frodo_mul_bs | s_frodo_mul_add_sb_plus_e
| s_frodo_add | s_frodo_sub | s_frodo_key_encode | s_frodo_key_decode
| s_frodo_pack | s_frodo_unpack | s_ct_verify | s_ct_select | s_clear_bytes
| s_randombytes
| s_AES128_load_schedule | s_AES128_ECB_enc_sch | s_AES128_free_schedule
| s_AES256_load_schedule | s_AES256_ECB_enc_sch | s_AES256_free_schedule
| s_handleErrors
| s_aes128_load_schedule_c | s_aes256_load_schedule_c | s_aes128_enc_c | s_aes256_enc_c
| s_aes128_load_schedule_ni | s_aes256_load_schedule_ni | s_aes128_enc_ni | s_aes256_enc_ni
| s_KeccakF1600_StatePermute
| s_shake128_absorb | s_shake128_squeezeblocks | s_shake128
| s_shake256_absorb | s_shake256_squeezeblocks | s_shake256
| s_shake128_absorb4x | s_shake128_squeezeblocks4x | s_shake128_4x
| s_PermuteAll_24rounds      (* KeccakP1600times4_PermuteAll_24rounds *)
| s_keccak4x_other           (* the other functions of KeccakP-1600-times4-SIMD256.c, as one symbol *)
| s_EVP_CIPHER_CTX_new | s_EVP_CIPHER_CTX_free | s_EVP_EncryptInit_ex | s_EVP_EncryptUpdate
| s_EVP_aes_128_ecb | s_EVP_aes_256_ecb | s_ERR_print_errors_fp
| s_DRBG_ctx | s_randombytes_init | s_AES256_CTR_DRBG_Update | s_main.
(** Equality of symbols is decidable. *)
Definition sym_eq_dec (a b : sym) : {a = b} + {a <> b}. Proof. decide equality; apply variant_eq_dec. Defined.
(** x is one of l. *)
Definition mem_sym (x : sym) (l : list sym) : bool := existsb (fun y => if sym_eq_dec x y then true else false) l.

(** shake in frodo640.c:29, frodo976.c:29, frodo1344.c:29 *)
Definition s_shake (v : variant) : sym := match v with V640 => s_shake128 | _ => s_shake256 end.
(** What frodo_macrify.c:7-17,32-99,119-121,135-230,268-270 and frodo_macrify_reference.c:7-11,
    21-49,65-67,79-107,123-125 call for the generation of A. *)
Definition gen_refs (M : list string) : list sym :=
  if has M "USE_AES128_FOR_A" then
    if negb (has M "USE_OPENSSL") then [s_AES128_load_schedule; s_AES128_ECB_enc_sch; s_AES128_free_schedule]
    else [s_EVP_CIPHER_CTX_new; s_handleErrors; s_EVP_EncryptInit_ex; s_EVP_aes_128_ecb; s_EVP_EncryptUpdate; s_AES128_free_schedule]
  else if has M "USE_REFERENCE" then [s_shake128]
  else if negb (has M "USE_AVX2") then [s_shake128] else [s_shake128_4x].
(** The symbols an object file defines and those it uses without defining them. *)
Definition defs (x : obj) (M : list string) : list sym :=
  match x with
  | OFrodo v => [s_keypair v; s_enc v; s_dec v; s_CDF_TABLE; s_CDF_TABLE_LEN; s_frodo_sample_n;
      s_frodo_mul_add_as_plus_e; s_frodo_mul_add_sa_plus_e; s_frodo_mul_bs; s_frodo_mul_add_sb_plus_e;
      s_frodo_add; s_frodo_sub; s_frodo_key_encode; s_frodo_key_decode]
  | OUtil => [s_frodo_pack; s_frodo_unpack; s_ct_verify; s_ct_select; s_clear_bytes]
  | ORandom => [s_randombytes]
  | OAes => (* src/aes/aes.c:14-96 *)
      if negb (has M "USE_OPENSSL") then [s_AES128_load_schedule; s_AES128_ECB_enc_sch; s_AES128_free_schedule;
        s_AES256_load_schedule; s_AES256_ECB_enc_sch; s_AES256_free_schedule]
      else [s_handleErrors; s_AES128_free_schedule; s_AES256_free_schedule]
  | OAesC => [s_aes128_load_schedule_c; s_aes256_load_schedule_c; s_aes128_enc_c; s_aes256_enc_c]
  | OAesNI => [s_aes128_load_schedule_ni; s_aes256_load_schedule_ni; s_aes128_enc_ni; s_aes256_enc_ni]
  | OFips202 => [s_KeccakF1600_StatePermute; s_shake128_absorb; s_shake128_squeezeblocks; s_shake128;
      s_shake256_absorb; s_shake256_squeezeblocks; s_shake256]
  | OFips202x4 => [s_shake128_absorb4x; s_shake128_squeezeblocks4x; s_shake128_4x]
  | OKeccak4x => [s_PermuteAll_24rounds; s_keccak4x_other]
  end.
(** The symbols an object file uses: src/kem.c, src/frodo_macrify*.c, src/aes/aes.c:14-96, src/sha3/fips202x4.c *)
Definition refs (x : obj) (M : list string) : list sym :=
  match x with
  | OFrodo v => (* kem.c, and the generation of A *)
      ([s_randombytes; s_shake v; s_frodo_pack; s_frodo_unpack; s_ct_verify; s_ct_select; s_clear_bytes] ++ gen_refs M)%list
  | OAes =>
      if negb (has M "USE_OPENSSL") then
        if has M "AES_ENABLE_NI"
        then [s_aes128_load_schedule_ni; s_aes128_enc_ni; s_aes256_load_schedule_ni; s_aes256_enc_ni]
        else [s_aes128_load_schedule_c; s_aes128_enc_c; s_aes256_load_schedule_c; s_aes256_enc_c]
      else [s_ERR_print_errors_fp; s_EVP_CIPHER_CTX_free]
  | OFips202x4 => [s_PermuteAll_24rounds] (* src/sha3/fips202x4.c:33-34 *)
  | _ => []
  end.
(** -lcrypto, Makefile:73-78 *)
Definition openssl_syms (o : options) : list sym :=
  if USE_OPENSSL o =? "FALSE" then []
  else [s_EVP_CIPHER_CTX_new; s_EVP_CIPHER_CTX_free; s_EVP_EncryptInit_ex; s_EVP_EncryptUpdate; s_EVP_aes_128_ecb;
        s_EVP_aes_256_ecb; s_ERR_print_errors_fp].

(** ** Linking

    A program: the object it is made of besides the archive (what it defines and what it
    uses), the members of the archive and the libraries.  A member is loaded when a symbol
    that is used and not yet defined is defined by it. *)
Definition defines_some (needed have : list sym) (m : obj * list string) : bool :=
  existsb (fun s => mem_sym s needed && negb (mem_sym s have)) (defs (fst m) (snd m)).
(** The symbols defined by the members l. *)
Definition all_defs (l : archive) : list sym := concat (map (fun m => defs (fst m) (snd m)) l).
(** The symbols used by the members l. *)
Definition all_refs (l : archive) : list sym := concat (map (fun m => refs (fst m) (snd m)) l).
(** One more member per step, the first that is needed. *)
Fixpoint load (fuel : nat) (md mr : list sym) (ar loaded : archive) : archive :=
  match fuel with
  | O => loaded
  | Datatypes.S fuel =>
    match find (defines_some (mr ++ all_refs loaded)%list (md ++ all_defs loaded)%list) ar with
    | None => loaded
    | Some m => load fuel md mr ar (loaded ++ [m])%list
    end
  end.
(** No symbol is there twice. *)
Fixpoint nodup_sym (l : list sym) : bool := match l with [] => true | s :: l => negb (mem_sym s l) && nodup_sym l end.
(** The loaded members; None: a symbol stays undefined or is defined twice. *)
Definition link (md mr : list sym) (ar : archive) (libs : list sym) : option archive :=
  let l := load (List.length ar) md mr ar [] in
  if forallb (fun s => mem_sym s (md ++ all_defs l ++ libs)) (mr ++ all_refs l)%list && nodup_sym (md ++ all_defs l)%list
  then Some l else None.

(** The two kinds of programs: frodo640/test_KEM and so on (Makefile:163-166; the program uses
    the API, randombytes and shake, tests/test_kem.c) and frodo640/PQCtestKAT_kem (Makefile:180-189;
    tests/rng.c is compiled with it). *)
Inductive program := TestKEM | TestKAT.
(** The members of the archive a program is linked with. *)
Definition prog_objs (p : program) := match p with TestKEM => lib_objs | TestKAT => kat_objs end.
(** The symbols the program itself defines: tests/test_kem.c, tests/rng.c *)
Definition prog_defs (p : program) : list sym :=
  match p with
  | TestKEM => [s_main]
  | TestKAT => [s_main; s_DRBG_ctx; s_randombytes_init; s_randombytes; s_AES256_CTR_DRBG_Update]
  end.
(** The symbols the program itself uses: tests/test_kem.c, tests/PQCtestKAT_kem640.c, tests/rng.h *)
Definition prog_refs (p : program) (v : variant) (M : list string) : list sym :=
  match p with
  | TestKEM => [s_keypair v; s_enc v; s_dec v; s_randombytes; s_shake v]
  | TestKAT => (* tests/rng.h:20-42 *)
      ([s_keypair v; s_enc v; s_dec v] ++
       if negb (has M "USE_OPENSSL") then [s_AES256_load_schedule; s_AES256_ECB_enc_sch; s_AES256_free_schedule]
       else [s_EVP_CIPHER_CTX_new; s_handleErrors; s_EVP_EncryptInit_ex; s_EVP_aes_256_ecb; s_EVP_EncryptUpdate; s_EVP_CIPHER_CTX_free])%list
  end.
(** What happens before a program is linked: its object files and its archive. *)
Definition before_link (o : options) (p : program) (v : variant) : list event :=
  match p with
  | TestKEM => [Make o (lib_objs v o); Lib v]
  | TestKAT => [Make o (kat_objs v o); Kats o v]
  end.
(** make with options o for the program p of the variant v, after the history h: the members of
    the program.  For TestKAT the directory of the variant must be there: make KATS alone does not
    make it. *)
Definition build (h : list event) (o : options) (p : program) (v : variant) : option archive :=
  match config_h (defines o) with
  | None => None
  | Some M =>
    let h' := (h ++ before_link o p v)%list in
    let libs := openssl_syms o in
    match p with
    | TestKEM =>
        match archive_of (after h') (lib_objs v o) with
        | Some ar => link (prog_defs p) (prog_refs p v M) ar libs
        | None => None
        end
    | TestKAT =>
        match kat_archive h' v with
        | Some ar => link (prog_defs p) (prog_refs p v M) ar libs
        | None => None
        end
    end
  end.

(** ** Visual Studio

    VisualStudio/frodoKEM-640.vcxproj and the other two: the source files that are not excluded
    (:40-79) and the definitions (:163, :187, :213, :241), the same for both configurations; the
    projects test_kem/test_KEM640.vcxproj and so on have the same definitions and take the
    library.  Libraries of the system are left out. *)
Inductive platform := Win32 | X64.
(** PreprocessorDefinitions, VisualStudio/frodoKEM-640.vcxproj:163, 187, 213, 241 *)
Definition vs_defines (pl : platform) : list string :=
  ["WINDOWS"; match pl with Win32 => "_X86_" | X64 => "_AMD64_" end; "_FAST_GENERIC_"; "_AES128_FOR_A_"].
(** The source files of the project, VisualStudio/frodoKEM-640.vcxproj:40-79 *)
Definition vs_objs (v : variant) : list obj := [OAes; OAesC; OAesNI; OFrodo v; ORandom; OFips202; OUtil].
(** The library the project makes. *)
Definition vs_lib (pl : platform) (v : variant) : option archive :=
  match config_h (vs_defines pl) with Some M => Some (map (fun x => (x, M)) (vs_objs v)) | None => None end.

(** ** The code that runs in a program *)
(** The macros with which the member that defines s was compiled. *)
Definition definer (l : archive) (s : sym) : option (obj * list string) :=
  find (fun m => mem_sym s (defs (fst m) (snd m))) l.
(** src/frodo640.c, src/frodo976.c, src/frodo1344.c *)
Definition params_of (v : variant) : params := match v with V640 => frodo640 | V976 => frodo976 | V1344 => frodo1344 end.
(** frodo640.c:41-45; frodo_macrify.c:16 and the places listed at [gen_refs]; aes.c:14-31.
    If A is not generated with AES, the value of cAes has no meaning. *)
Definition code_of (en : endian) (v : variant) (l : archive) : option config :=
  match definer l (s_keypair v) with
  | None => None
  | Some (_, M) =>
    let aes := if has M "USE_OPENSSL" then AesEVP
               else match definer l s_AES128_ECB_enc_sch with
                    | Some (_, Ma) => if has Ma "AES_ENABLE_NI" then AesNI else AesC
                    | None => AesC
                    end in
    Some {| cP := params_of v; cEn := en;
            cImpl := if has M "USE_REFERENCE" then Reference else if has M "USE_AVX2" then AVX2 else Optimized;
            cGen := if has M "USE_AES128_FOR_A" then GenAES else GenSHAKE;
            cAes := aes |}
  end.
