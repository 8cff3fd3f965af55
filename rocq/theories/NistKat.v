(** Model of python3/nist_kat.py and of the constructor of python3/frodokem.py:19-46. *)
From Coq Require Import String.
From Verif Require Import ZList Str Py.
Local Open Scope Z_scope.

(** bytes.fromhex of upper-case text, and .hex().upper() *)
Definition digit_value (c : Z) : Z := if c <? 58 then c - 48 else c - 55.
(** The bytes of upper-case hexadecimal text *)
Fixpoint from_hex (t : list Z) : list Z :=
  match t with a :: b :: t => (16 * digit_value a + digit_value b) :: from_hex t | _ => [] end.
(** bytes.fromhex(s), python3/nist_kat.py:37-46 *)
Definition fromhex (s : string) : list Z := from_hex (str s).
(** x.hex().upper(), python3/nist_kat.py:19-23 *)
Definition hex_upper (x : list Z) : list Z :=
  concat (map (fun b => [znth (str "0123456789ABCDEF") (b / 16); znth (str "0123456789ABCDEF") (b mod 16)]) x).

(** FrodoKEM(variant), python3/frodokem.py:19-46: the parameter set and generator chosen by the
    name.  None: the object gets no parameters (the statement [assert "Unknown variant"] at :45
    asserts a non-empty string and never raises).  The warning is left out. *)
Definition FrodoKEM (variant : list Z) : py (option frodo) :=
  let is s := if list_eq_dec Z.eq_dec variant (str s) then true else false in
  let some m := let* X := m in PyOk (Some X) in
  if is "FrodoKEM-640-AES"%string then some (setParamsFrodo640 Gen_AES128)
  else if is "FrodoKEM-640-SHAKE"%string then some (setParamsFrodo640 Gen_SHAKE128)
  else if is "FrodoKEM-976-AES"%string then some (setParamsFrodo976 Gen_AES128)
  else if is "FrodoKEM-976-SHAKE"%string then some (setParamsFrodo976 Gen_SHAKE128)
  else if is "FrodoKEM-1344-AES"%string then some (setParamsFrodo1344 Gen_AES128)
  else if is "FrodoKEM-1344-SHAKE"%string then some (setParamsFrodo1344 Gen_SHAKE128)
  else PyOk None.

(** NISTRNG, python3/nist_kat.py:27-60 *)
Definition possible_outputs : list (list (list Z)) :=
  [ [ fromhex "7C9935A0B07694AA0C6D10E4DB6B1ADD2FD81A25CCB148032DCD739936737F2DB505D7CFAD1B497499323C8686325E47";
      fromhex "33B3C07507E4201748494D832B6EE2A6" ];
    [ fromhex "7C9935A0B07694AA0C6D10E4DB6B1ADD2FD81A25CCB148032DCD739936737F2DB505D7CFAD1B497499323C8686325E4792F267AAFA3F87CA60D01CB54F29202A";
      fromhex "EB4A7C66EF4EBA2DDB38C88D8BC706B1D639002198172A7B" ];
    [ fromhex "7C9935A0B07694AA0C6D10E4DB6B1ADD2FD81A25CCB148032DCD739936737F2DB505D7CFAD1B497499323C8686325E4792F267AAFA3F87CA60D01CB54F29202A3E784CCB7EBCDCFD45542B7F6AF77874";
      fromhex "8BF0F459F0FB3EA8D32764C259AE631178976BAF3683D33383188A65A4C2449B" ] ].
(** self.current_outputs *)
Definition nistrng := option (list (list Z)).
(** The loop at :53-55: the last entry whose first output has length n. *)
Definition select_outputs (n : Z) : nistrng :=
  fold_left (fun cur o => match o with x :: _ => if n =? zlen x then Some o else cur | [] => cur end) possible_outputs None.
(** randombytes, :50-60 *)
Definition nist_randombytes (cur : nistrng) (n : Z) : py (list Z * nistrng) :=
  let cur := match cur with None => select_outputs n | Some _ => cur end in
  match cur with
  | None => Raise AssertionError
  | Some [] => Raise AssertionError
  | Some (x :: rest) => let* _ := pyassert (n =? zlen x) in PyOk (x, Some rest)
  end.
(** The generator as the methods of FrodoKEM see it, each of which makes one request, and its
    state after that request. *)
Definition rng_bytes (cur : nistrng) (n : Z) : py (list Z) := let* (r, _) := nist_randombytes cur n in PyOk r.
(** The state of the generator after a request of n bytes, python3/nist_kat.py:50-60 *)
Definition rng_after (cur : nistrng) (n : Z) : py nistrng := let* (_, cur) := nist_randombytes cur n in PyOk cur.

(** print *)
Definition println (t : list Z) : list Z := t ++ [10].
(** NISTKAT.run, python3/nist_kat.py:9-25: what it prints, and whether the assertion at its end
    holds.  (If something raises before, what was printed until then is not modelled.) *)
Definition NISTKAT_run (variant : list Z) (X : frodo) : py (list Z * bool) :=
  let rng : nistrng := None in
  let out := println (str "===============================================") ++ println variant ++
             println (str "count = 0") ++ println (str "seed = <unspecified>") in
  let* (pk, sk) := kem_keygen X (rng_bytes rng) in
  let* rng := rng_after rng (len_s_bytes X + len_seedSE_bytes X + len_z_bytes X) in
  let out := out ++ println (str "pk = " ++ hex_upper pk) ++ println (str "sk = " ++ hex_upper sk) in
  let* (ct, ss_e) := kem_encaps X (rng_bytes rng) pk in
  let out := out ++ println (str "ct = " ++ hex_upper ct) ++ println (str "ss = " ++ hex_upper ss_e) in
  let* ss_d := kem_decaps X sk ct in
  PyOk (out, if list_eq_dec Z.eq_dec (hex_upper ss_e) (hex_upper ss_d) then true else false).
(** The main program, :62-69: the six variants in turn, until an assertion fails. *)
Definition variants : list string :=
  ["FrodoKEM-640-AES"; "FrodoKEM-640-SHAKE"; "FrodoKEM-976-AES"; "FrodoKEM-976-SHAKE"; "FrodoKEM-1344-AES"; "FrodoKEM-1344-SHAKE"]%string.
(** The statements of the main program from some variant on, python3/nist_kat.py:62-69 *)
Fixpoint nist_main_from (vs : list string) (out : list Z) : py (list Z * bool) :=
  match vs with
  | [] => PyOk (out, true)
  | v :: vs =>
    let* X := FrodoKEM (str v) in
    match X with
    | None => Raise ValueError (* not reached: an object without parameters *)
    | Some X =>
      let* (t, ok) := NISTKAT_run (str v) X in
      if ok then nist_main_from vs (out ++ t) else PyOk (out ++ t, false)
    end
  end.
(** The main program, python3/nist_kat.py:62-69 *)
Definition nist_main : py (list Z * bool) := nist_main_from variants [].
