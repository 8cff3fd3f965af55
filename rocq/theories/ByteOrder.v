(** Which definitions of the byte-order macros a build gets (src/config.h:98-114). *)
From Coq Require Import String.
From Verif Require Import CSem Params Build.
Local Open Scope string_scope.

(** The value of the compiler's macro __BYTE_ORDER__ (src/config.h:99, 102): __ORDER_BIG_ENDIAN__,
    __ORDER_LITTLE_ENDIAN__ or another. *)
Inductive order := BigEndian | LittleEndian | OtherOrder.
(** The three places where the macros are defined: src/config.h:100-101, 103-104, 106-113. *)
Inductive place := Swapping | Plain | Bytewise.
(** The conditions of src/config.h:99, 102, 105 for a compiler that tells [bo] (None: __BYTE_ORDER__ is not
    defined) and the macros [D] of the command line, which give TARGET (src/config.h:48-56). *)
Definition selected (bo : option order) (D : list string) : place :=
  match bo with
  | Some BigEndian => Swapping
  | _ =>
      if (has D "_AMD64_" || has D "_X86_")%bool then Plain
      else match bo with Some LittleEndian => Plain | _ => Bytewise end
  end.
(** LE_TO_UINT16(n) of each place on a host of byte order [en]; in the third, n is an object and its bytes are
    read, src/config.h:100, 103, 106. *)
Definition le_to_uint16 (p : place) (en : endian) (n : Z) : Z :=
  match p with
  | Swapping => Z.lor (Z.shiftl (Z.land (u16 n) 255) 8) (Z.shiftr (Z.land (u16 n) 65280) 8)
  | Plain => n
  | Bytewise => Z.lor (byte_of_u16 en n 0) (Z.shiftl (byte_of_u16 en n 1) 8)
  end.
(** UINT16_TO_LE(x) of each place, src/config.h:101, 104, 107-113: the third one makes an object of the bytes
    x & 0xFF and x >> 8. *)
Definition uint16_to_le (p : place) (en : endian) (x : Z) : Z :=
  match p with
  | Swapping => Z.lor (Z.shiftl (Z.land (u16 x) 255) 8) (Z.shiftr (Z.land (u16 x) 65280) 8)
  | Plain => x
  | Bytewise => u16_at en (u8 (Z.land x 255)) (u8 (Z.shiftr x 8))
  end.

(** * The second test for the byte order, that of the four-way permutation
    (src/sha3/keccak4x/brg_endian.h, included by KeccakP-1600-times4-SIMD256.c:27) *)

(** The macros that are defined where the header is included, with their values.  A simplification: the value of each is an
    integer; one that is defined as another text would not pass the comparison of the preprocessor. *)
Definition macros := string -> option Z.
Definition defined (M : macros) (s : string) : bool := match M s with Some _ => true | None => false end.
(** src/sha3/keccak4x/brg_endian.h:32-33 *)
Definition IS_BIG_ENDIAN : Z := 4321.
Definition IS_LITTLE_ENDIAN : Z := 1234.
(** PLATFORM_BYTE_ORDER while the header is read: its definition if there is one, and whether it was defined again as something
    else.  A compiler reports that and goes on with the later definition. *)
Record pbo := { pbo_value : option Z; pbo_again : bool }.
(** One line #define PLATFORM_BYTE_ORDER v, src/sha3/keccak4x/brg_endian.h:60 and the others. *)
Definition define (v : Z) (P : pbo) : pbo :=
  {| pbo_value := Some v;
     pbo_again := (pbo_again P || match pbo_value P with Some w => negb (w =? v)%Z | None => false end)%bool |}.
(** One of the four forms, src/sha3/keccak4x/brg_endian.h:58-68, 70-80, 82-92, 94-104: the three names
    are [big], [little] and [order_]. *)
Definition brg_form (M : macros) (big little order_ : string) (P : pbo) : pbo :=
  match M big, M little with
  | Some b, Some l =>
      match M order_ with
      | Some v => if (v =? b)%Z then define IS_BIG_ENDIAN P else if (v =? l)%Z then define IS_LITTLE_ENDIAN P else P
      | None => P
      end
  | Some _, None => define IS_BIG_ENDIAN P
  | None, Some _ => define IS_LITTLE_ENDIAN P
  | None, None => P
  end.
(** The names of src/sha3/keccak4x/brg_endian.h:110-114. *)
Definition little_machines : list string :=
  ["__alpha__"; "__alpha"; "i386"; "__i386__"; "_M_I86"; "_M_IX86"; "__OS2__"; "sun386"; "__TURBOC__"; "vax"; "vms"; "VMS";
   "__VMS"; "_M_X64"].
(** The names of src/sha3/keccak4x/brg_endian.h:117-123. *)
Definition big_machines : list string :=
  ["AMIGA"; "applec"; "__AS400__"; "_CRAY"; "__hppa"; "__hp9000"; "ibm370"; "mc68000"; "m68k"; "__MRC__"; "__MVS__";
   "__MWERKS__"; "sparc"; "__sparc"; "SYMANTEC_C"; "__VOS__"; "__TIGCC__"; "__TANDEM"; "THINK_C"; "__VMCMS__"; "_AIX"].
(** src/sha3/keccak4x/brg_endian.h:108-140.  The conditions of lines 132 and 134 are the constants 1 and 0; None as
    the value at the end is the #error of line 137. *)
Definition brg_machine (M : macros) (P : pbo) : pbo :=
  match pbo_value P with
  | Some _ => P
  | None =>
      if existsb (defined M) little_machines then define IS_LITTLE_ENDIAN P
      else if existsb (defined M) big_machines then define IS_BIG_ENDIAN P
      else if defined M "__arm__" then
        if defined M "__BIG_ENDIAN" then define IS_BIG_ENDIAN P else define IS_LITTLE_ENDIAN P
      else if true then define IS_LITTLE_ENDIAN P
      else if false then define IS_BIG_ENDIAN P
      else P
  end.
(** The header, src/sha3/keccak4x/brg_endian.h:58-140; PLATFORM_BYTE_ORDER is not defined before. *)
Definition brg_endian_h (M : macros) : pbo :=
  brg_machine M
    (brg_form M "__BIG_ENDIAN__" "__LITTLE_ENDIAN__" "__BYTE_ORDER__"
      (brg_form M "__BIG_ENDIAN" "__LITTLE_ENDIAN" "__BYTE_ORDER"
        (brg_form M "_BIG_ENDIAN" "_LITTLE_ENDIAN" "_BYTE_ORDER"
          (brg_form M "BIG_ENDIAN" "LITTLE_ENDIAN" "BYTE_ORDER" {| pbo_value := None; pbo_again := false |})))).
(** Does src/sha3/keccak4x/KeccakP-1600-times4-SIMD256.c:27-30 let the compilation go on?  Neither the #error of the header nor its own. *)
Definition simd256_accepts (M : macros) : bool :=
  match pbo_value (brg_endian_h M) with Some v => (v =? IS_LITTLE_ENDIAN)%Z | None => false end.
