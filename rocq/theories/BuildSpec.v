(** Specification for Build.v: what README.md:42-62 and 121-143 promise about the options of make,
    and which run of make an object file comes from. *)
From Coq Require Import String List Bool.
From Verif Require Import Params Build.
Import ListNotations.
Local Open Scope string_scope.
Local Infix "=?" := String.eqb.

(** AES128 is the default for the generation of A. *)
Definition gen_named (o : options) : genA := if GENERATION_A o =? "SHAKE128" then GenSHAKE else GenAES.
(** The fast code is for x64, the default; on other architectures it is replaced by the
    optimized portable code. *)
Definition impl_named (o : options) : impl :=
  if OPT_LEVEL o =? "REFERENCE" then Reference
  else if OPT_LEVEL o =? "FAST_GENERIC" then Optimized
  else if (ARCH o =? "x86") || (ARCH o =? "ARM") then Optimized else AVX2.
(** OpenSSL's AES is the default. *)
Definition own_aes (o : options) : bool := USE_OPENSSL o =? "FALSE".
Definition aes_named (o : options) : aesimpl :=
  if own_aes o then match impl_named o with AVX2 => AesNI | _ => AesC end else AesEVP.

(** After the history h the object file x is not there: it was removed after every run of make
    that needed it. *)
Definition absent (h : list event) (x : obj) : Prop :=
  forall a o l b, h = (a ++ Make o l :: b)%list -> In x l -> exists l', In (Gone l') b /\ In x l'.
(** After the history h the object file x is there, and it was made by a run of make with the
    options o. *)
Definition made_by (h : list event) (x : obj) (o : options) : Prop :=
  exists h1 l h2, h = (h1 ++ Make o l :: h2)%list /\ In x l /\ absent h1 x /\
    forall l', In (Gone l') h2 -> ~ In x l'.

(** What is left of earlier runs in the archive that the KAT program is linked with: make KATS adds to
    libfrodo_for_testing.a and does not make it anew. *)
Definition left (h : list event) (p : program) (v : variant) (x : obj) : Prop :=
  p = TestKAT /\ exists a M, kat_archive h v = Some a /\ In (x, M) a.
(** When a program links: [o], [ofr] and [oa] are the options of the run that links it and of the
    runs that made frodo640.o (976, 1344) and aes.o; [h] is what happened before. *)
Definition links (h : list event) (p : program) (v : variant) (o ofr oa : options) : Prop :=
  let ni := impl_named o = AVX2 \/ left h p v OAesNI in
  let x4 := (impl_named o = AVX2 /\ gen_named o = GenSHAKE) \/ left h p v OFips202x4 in
  match gen_named ofr with
  | GenAES => own_aes ofr = own_aes oa /\
              (own_aes ofr = true -> impl_named oa = AVX2 -> ni) /\ (own_aes ofr = false -> own_aes o = false)
  | GenSHAKE => impl_named ofr = AVX2 -> x4
  end /\
  match p with
  | TestKEM => True
  | TestKAT => (exists a, kat_archive h v = Some a) /\
               own_aes o = own_aes oa /\ (own_aes o = true -> impl_named oa = AVX2 -> ni)
  end.

(** make clean, Makefile:214-216 *)
Definition make_clean : list event := [Gone all_objs; Rmdir V640; Rmdir V976; Rmdir V1344].
(** The first part of make, that is make all: lib640 lib976 lib1344 (Makefile:88); the programs follow. *)
Definition make_libs (o : options) : list event :=
  concat (map (fun v => [Make o (lib_objs v o); Lib v]) [V640; V976; V1344]).
