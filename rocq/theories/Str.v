(** String literals as lists of bytes. *)
From Coq Require Import ZArith List Ascii String.
Import ListNotations.
(** A string literal as bytes, without the final NUL. *)
Definition str (s : string) : list Z := map (fun c => Z.of_nat (nat_of_ascii c)) (list_ascii_of_string s).
