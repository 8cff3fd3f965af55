(** Property C35: the byte-order macros a build gets are right for its host. *)
From Coq Require Import String.
From Verif Require Import CSem Params Build PropParams ByteOrder.
Local Open Scope string_scope.
Local Open Scope Z_scope.

(** Is the compiler right about the host, where it tells the byte order?  Where it does not, a build for x86 or x64 (also one
    that gives no architecture, or an unknown one) must be for a little-endian host. *)
Definition right_about (bo : option order) (arch : string) (en : endian) : Prop :=
  match bo with
  | Some BigEndian => en = BE
  | Some LittleEndian => en = LE
  | _ => arch = "ARM" \/ en = LE
  end.
Lemma target_arm o : (has (defines o) "_AMD64_" || has (defines o) "_X86_")%bool = negb (String.eqb (ARCH o) "ARM").
Proof.
  unfold defines, ARCHITECTURE, USE_OPT_LEVEL, USE_GENERATION_A, USING_OPENSSL, ARCHITECTURE.
  destruct (String.eqb_spec (ARCH o) "x64") as [E|E]; [rewrite E|destruct (String.eqb_spec (ARCH o) "x86") as [E'|E']; [rewrite E'|destruct (String.eqb_spec (ARCH o) "ARM")]].
  all: destruct (String.eqb (OPT_LEVEL o) "REFERENCE"), (String.eqb (OPT_LEVEL o) "FAST_GENERIC"), (String.eqb (OPT_LEVEL o) "FAST"), (String.eqb (GENERATION_A o) "AES128"), (String.eqb (GENERATION_A o) "SHAKE128"), (String.eqb (USE_OPENSSL o) "FALSE"); reflexivity.
Qed.

(** With every set of options of make and every compiler that is right about the host: a word whose two bytes in memory are b0
    and b1 is converted to b0 + 256 b1, and a number that is converted and stored has its low byte first. *)
Theorem C35_selected : forall bo o en, right_about bo (ARCH o) en ->
  let p := selected bo (defines o) in
  (forall b0 b1, 0 <= b0 < 256 -> 0 <= b1 < 256 -> le_to_uint16 p en (u16_at en b0 b1) = b0 + 256 * b1) /\
  (forall x, 0 <= x < 65536 -> object_bytes en (uint16_to_le p en x) = [x mod 256; x / 256]).
Proof.
  intros bo o en H p.
  assert (E : (forall n, 0 <= n < 65536 -> le_to_uint16 p en n = LE_TO_UINT16 en n) /\ (forall n, 0 <= n < 65536 -> uint16_to_le p en n = UINT16_TO_LE en n)).
  { assert (K : p = Bytewise \/ (p = Plain /\ en = LE) \/ (p = Swapping /\ en = BE)).
    { subst p. unfold selected, right_about in *. rewrite target_arm. destruct bo as [[| |]|]; subst; auto.
      - destruct (negb _); auto.
      - destruct H as [->| ->]; [left; reflexivity|]. destruct (negb _); auto.
      - destruct H as [->| ->]; [left; reflexivity|]. destruct (negb _); auto. }
    destruct K as [-> |[(-> & ->)|(-> & ->)]]; [|split; reflexivity|split; reflexivity].
    split; intros n Hn; [exact (proj1 (C35_byte_order_macros en n Hn))|]. rewrite <- (proj2 (C35_byte_order_macros en n Hn)).
    unfold UINT16_TO_LE_bytewise. change (znth (words_of_bytes en [?a; ?b]) 0) with (u16_at en a b).
    assert (L255 : Z.land n 255 = n mod 256) by (change 255 with (Z.ones 8); apply Z.land_ones; lia).
    assert (S8 : Z.shiftr n 8 = n / 256) by (rewrite Z.shiftr_div_pow2 by lia; reflexivity).
    cbn [uint16_to_le]. rewrite L255, S8. unfold u8. rewrite Z.mod_mod by lia. rewrite (Z.mod_small (n / 256)); [reflexivity|].
    split; [apply Z.div_pos; lia|apply Z.div_lt_upper_bound; lia]. }
  destruct E as (E1 & E2). split.
  - intros b0 b1 H0 H1. rewrite E1 by (destruct en; cbn [u16_at]; lia). apply LE_TO_UINT16_word; assumption.
  - intros x Hx. rewrite E2 by exact Hx. unfold object_bytes.
    change (bytes_of_words en [?n]) with [byte_of_u16 en n 0; byte_of_u16 en n 1]. rewrite !byte_of_UINT16_TO_LE by exact Hx. reflexivity.
Qed.
Print Assumptions C35_selected.
(** A big-endian host whose compiler tells its order, and one whose compiler does not. *)
Definition plain_options (arch : string) : options := {| ARCH := arch; OPT_LEVEL := "REFERENCE"; GENERATION_A := ""; USE_OPENSSL := "" |}.
Example C35_selected_hyps :
  right_about (Some BigEndian) (ARCH (plain_options "")) BE /\ selected (Some BigEndian) (defines (plain_options "")) = Swapping /\
  right_about None (ARCH (plain_options "ARM")) BE /\ selected None (defines (plain_options "ARM")) = Bytewise /\
  right_about (Some LittleEndian) (ARCH (plain_options "x64")) LE /\ selected (Some LittleEndian) (defines (plain_options "x64")) = Plain.
Proof. repeat split; try reflexivity. left; reflexivity. Qed.
(** On a big-endian host with a compiler that does not tell the byte order the build must be given ARCH=ARM: one without an
    architecture is taken for x64, and its words are not converted. *)
Theorem C35_unknown_architecture_refuted : exists o, ARCH o = "" /\ config_h (defines o) <> None /\
  le_to_uint16 (selected None (defines o)) BE (u16_at BE 1 0) <> 1.
Proof. exists (plain_options ""). split; [reflexivity|]. split; vm_compute; discriminate. Qed.
Print Assumptions C35_unknown_architecture_refuted.

(** * The four-way permutation asks a second time *)

(** Do the three symbols of the form [pre]SYMBOL[post] agree with a host of byte order [en]?  If the names of both orders are
    defined, they are different, and the order in use, if it is given, is that of the host; if only one is, it is that of the
    host. *)
Definition agrees (en : endian) (M : macros) (pre post : string) : Prop :=
  match M (pre ++ "BIG_ENDIAN" ++ post), M (pre ++ "LITTLE_ENDIAN" ++ post) with
  | Some b, Some l =>
      b <> l /\ match M (pre ++ "BYTE_ORDER" ++ post) with Some v => v = match en with LE => l | BE => b end | None => True end
  | Some _, None => en = BE
  | None, Some _ => en = LE
  | None, None => True
  end.
(** ... and do they tell the byte order? *)
Definition tells (M : macros) (pre post : string) : Prop :=
  match M (pre ++ "BIG_ENDIAN" ++ post), M (pre ++ "LITTLE_ENDIAN" ++ post) with
  | Some _, Some _ => M (pre ++ "BYTE_ORDER" ++ post) <> None
  | None, None => False
  | _, _ => True
  end.
(** The four forms of a symbol. *)
Definition four_forms : list (string * string) := [("", ""); ("_", ""); ("__", ""); ("__", "__")].
(** Names that compilers define for machines of one byte order. *)
Definition names_little : list string :=
  ["__alpha__"; "__alpha"; "i386"; "__i386__"; "_M_I86"; "_M_IX86"; "__OS2__"; "sun386"; "__TURBOC__"; "vax"; "vms"; "VMS";
   "__VMS"; "_M_X64"].
Definition names_big : list string :=
  ["AMIGA"; "applec"; "__AS400__"; "_CRAY"; "__hppa"; "__hp9000"; "ibm370"; "mc68000"; "m68k"; "__MRC__"; "__MVS__";
   "__MWERKS__"; "sparc"; "__sparc"; "SYMANTEC_C"; "__VOS__"; "__TIGCC__"; "__TANDEM"; "THINK_C"; "__VMCMS__"; "_AIX"].
(** The macros are those of a compiler for a host of order [en]: every form agrees, and no name of a machine of the other order
    is defined. *)
Definition compiler_for (en : endian) (M : macros) : Prop :=
  Forall (fun f => agrees en M (fst f) (snd f)) four_forms /\
  Forall (fun m => M m = None) (match en with LE => names_big | BE => names_little end).
Definition told_by_form (M : macros) : Prop := Exists (fun f => tells M (fst f) (snd f)) four_forms.
Definition told_by_machine (M : macros) : Prop := Exists (fun m => M m <> None) names_big.

Definition of_host (en : endian) (P : pbo) : Prop :=
  pbo_again P = false /\ (pbo_value P = None \/ pbo_value P = Some (match en with LE => 1234 | BE => 4321 end)).
Lemma brg_form_spec en M pre post P : agrees en M pre post -> of_host en P ->
  of_host en (brg_form M (pre ++ "BIG_ENDIAN" ++ post) (pre ++ "LITTLE_ENDIAN" ++ post) (pre ++ "BYTE_ORDER" ++ post) P) /\
  (tells M pre post \/ pbo_value P <> None ->
   pbo_value (brg_form M (pre ++ "BIG_ENDIAN" ++ post) (pre ++ "LITTLE_ENDIAN" ++ post) (pre ++ "BYTE_ORDER" ++ post) P) <> None).
Proof.
  unfold agrees, tells, brg_form, of_host, define, IS_BIG_ENDIAN, IS_LITTLE_ENDIAN. intros A (H0 & H1).
  destruct (M (pre ++ "BIG_ENDIAN" ++ post)) as [b|], (M (pre ++ "LITTLE_ENDIAN" ++ post)) as [l|].
  - destruct A as (D & A). destruct (M (pre ++ "BYTE_ORDER" ++ post)) as [v|].
    + destruct en; subst v.
      * rewrite (proj2 (Z.eqb_neq l b)) by congruence. rewrite Z.eqb_refl. cbn. rewrite H0. destruct H1 as [-> | ->]; cbn; (split; [split; auto|discriminate]).
      * rewrite Z.eqb_refl. cbn. rewrite H0. destruct H1 as [-> | ->]; cbn; (split; [split; auto|discriminate]).
    + split; [split; assumption|]. intros [T|T]; [congruence|exact T].
  - subst en. cbn. rewrite H0. destruct H1 as [-> | ->]; cbn; (split; [split; auto|discriminate]).
  - subst en. cbn. rewrite H0. destruct H1 as [-> | ->]; cbn; (split; [split; auto|discriminate]).
  - split; [split; assumption|]. intros [[]|T]; exact T.
Qed.
Definition after_forms (M : macros) : pbo :=
  brg_form M "__BIG_ENDIAN__" "__LITTLE_ENDIAN__" "__BYTE_ORDER__"
    (brg_form M "__BIG_ENDIAN" "__LITTLE_ENDIAN" "__BYTE_ORDER"
      (brg_form M "_BIG_ENDIAN" "_LITTLE_ENDIAN" "_BYTE_ORDER"
        (brg_form M "BIG_ENDIAN" "LITTLE_ENDIAN" "BYTE_ORDER" {| pbo_value := None; pbo_again := false |}))).
Lemma after_forms_spec en M : Forall (fun f => agrees en M (fst f) (snd f)) four_forms ->
  of_host en (after_forms M) /\ (told_by_form M -> pbo_value (after_forms M) <> None).
Proof.
  intros H. unfold four_forms in H.
  inversion H as [|f0 l0 A0 R0]; subst; inversion R0 as [|f1 l1 A1 R1]; subst; inversion R1 as [|f2 l2 A2 R2]; subst; inversion R2 as [|f3 l3 A3 R3]; subst.
  cbn [fst snd] in *.
  assert (K : of_host en {| pbo_value := None; pbo_again := false |}) by (split; [reflexivity|left; reflexivity]).
  destruct (brg_form_spec _ _ _ _ _ A0 K) as (K0 & T0). destruct (brg_form_spec _ _ _ _ _ A1 K0) as (K1 & T1).
  destruct (brg_form_spec _ _ _ _ _ A2 K1) as (K2 & T2). destruct (brg_form_spec _ _ _ _ _ A3 K2) as (K3 & T3).
  split; [exact K3|]. intros T. apply T3. unfold told_by_form, four_forms in T.
  inversion T as [f l T'|f l T']; subst; cbn [fst snd] in *; [right; apply T2; right; apply T1; right; apply T0; left; exact T'|].
  inversion T' as [f l S'|f l S']; subst; cbn [fst snd] in *; [right; apply T2; right; apply T1; left; exact S'|].
  inversion S' as [f l U'|f l U']; subst; cbn [fst snd] in *; [right; apply T2; left; exact U'|].
  inversion U' as [f l V'|f l V']; subst; cbn [fst snd] in *; [left; exact V'|]. inversion V'.
Qed.
Lemma machines_named : little_machines = names_little /\ big_machines = names_big.
Proof. split; reflexivity. Qed.
Lemma none_defined M l : Forall (fun m => M m = None) l -> existsb (defined M) l = false.
Proof. induction 1 as [|m l E _ IH]; [reflexivity|]. cbn [existsb]. unfold defined at 1. rewrite E. exact IH. Qed.
Lemma some_defined M l : Exists (fun m => M m <> None) l -> existsb (defined M) l = true.
Proof.
  induction 1 as [m l E|m l _ IH]; cbn [existsb].
  - unfold defined at 1. destruct (M m); [reflexivity|congruence].
  - rewrite IH. apply Bool.orb_true_r.
Qed.

(** Whatever is defined, the header decides: its own #error, which asks the user to edit it, is never reached. *)
Theorem C35_keccak4x_decides : forall M,
  pbo_value (brg_endian_h M) = Some 1234 \/ pbo_value (brg_endian_h M) = Some 4321.
Proof.
  intros M. unfold brg_endian_h. fold (after_forms M).
  assert (F : forall b l o P, (pbo_value P = None \/ pbo_value P = Some 1234 \/ pbo_value P = Some 4321) ->
    let Q := brg_form M b l o P in pbo_value Q = None \/ pbo_value Q = Some 1234 \/ pbo_value Q = Some 4321).
  { intros b l o P H. unfold brg_form, define, IS_BIG_ENDIAN, IS_LITTLE_ENDIAN.
    destruct (M b), (M l); [destruct (M o); [destruct (_ =? _)%Z; [|destruct (_ =? _)%Z]|]| | |]; cbn; auto. }
  assert (K : pbo_value (after_forms M) = None \/ pbo_value (after_forms M) = Some 1234 \/ pbo_value (after_forms M) = Some 4321)
    by (unfold after_forms; do 4 apply F; left; reflexivity).
  unfold brg_machine, define, IS_BIG_ENDIAN, IS_LITTLE_ENDIAN.
  destruct K as [K|[K|K]]; rewrite K; [|rewrite K; auto..].
  destruct (existsb _ _); [auto|]. destruct (existsb _ _); [auto|]. destruct (defined M _); [destruct (defined M _)|]; auto.
Qed.
Print Assumptions C35_keccak4x_decides.

(** With the compiler of a little-endian host the four-way permutation is compiled, and no macro is defined twice: if the order
    is told, or the host is not an ARM whose compiler names both orders without telling which is in use. *)
Theorem C35_keccak4x_accepts : forall M, compiler_for LE M ->
  (told_by_form M \/ M "__arm__" = None \/ M "__BIG_ENDIAN" = None \/ Exists (fun m => M m <> None) names_little) ->
  simd256_accepts M = true /\ pbo_again (brg_endian_h M) = false.
Proof.
  intros M (HF & HM) HT. destruct (after_forms_spec LE M HF) as ((N & V) & T).
  unfold simd256_accepts, brg_endian_h. fold (after_forms M). unfold brg_machine.
  rewrite (proj1 machines_named), (proj2 machines_named).
  destruct V as [V|V]; rewrite V; [|rewrite V; split; [reflexivity|exact N]].
  destruct (existsb (defined M) names_little) eqn:EL; [unfold define; cbn; rewrite N, V; split; reflexivity|].
  rewrite (none_defined _ _ HM).
  destruct (defined M "__arm__") eqn:EA; [|unfold define; cbn; rewrite N, V; split; reflexivity].
  destruct (defined M "__BIG_ENDIAN") eqn:EB; [|unfold define; cbn; rewrite N, V; split; reflexivity].
  exfalso. unfold defined in EA, EB. destruct HT as [HT|[HT|[HT|HT]]].
  - exact (T HT V).
  - rewrite HT in EA. discriminate.
  - rewrite HT in EB. discriminate.
  - rewrite (some_defined _ _ HT) in EL. discriminate.
Qed.
Print Assumptions C35_keccak4x_accepts.

(** With the compiler of a big-endian host that tells the order, or names one of the machines of the list, it is refused. *)
Theorem C35_keccak4x_refuses : forall M, compiler_for BE M -> told_by_form M \/ told_by_machine M ->
  simd256_accepts M = false /\ pbo_again (brg_endian_h M) = false.
Proof.
  intros M (HF & HM) HT. destruct (after_forms_spec BE M HF) as ((N & V) & T).
  unfold simd256_accepts, brg_endian_h. fold (after_forms M). unfold brg_machine.
  rewrite (proj1 machines_named), (proj2 machines_named).
  destruct V as [V|V]; rewrite V; [|rewrite V; split; [reflexivity|exact N]].
  rewrite (none_defined _ _ HM). destruct HT as [HT|HT]; [destruct (T HT V)|].
  rewrite (some_defined _ _ HT). unfold define; cbn; rewrite N, V; split; reflexivity.
Qed.
Print Assumptions C35_keccak4x_refuses.
(** What glibc's endian.h defines, with the order [v], and a compiler for a SPARC that defines its name only. *)
Definition glibc_macros (v : Z) : macros := fun s =>
  if (String.eqb s "BIG_ENDIAN" || String.eqb s "__BIG_ENDIAN")%bool then Some 4321
  else if (String.eqb s "LITTLE_ENDIAN" || String.eqb s "__LITTLE_ENDIAN")%bool then Some 1234
  else if (String.eqb s "BYTE_ORDER" || String.eqb s "__BYTE_ORDER")%bool then Some v else None.
Definition sparc_macros : macros := fun s => if String.eqb s "__sparc" then Some 1 else None.
Example C35_keccak4x_hyps :
  (compiler_for LE (glibc_macros 1234) /\ told_by_form (glibc_macros 1234)) /\
  (compiler_for BE (glibc_macros 4321) /\ told_by_form (glibc_macros 4321)) /\
  (compiler_for BE sparc_macros /\ told_by_machine sparc_macros).
Proof.
  assert (D1 : 4321 <> 1234) by discriminate.
  split; [|split]; (split; [split; repeat constructor; try exact D1|]).
  - apply Exists_cons_hd. cbn. discriminate.
  - apply Exists_cons_hd. cbn. discriminate.
  - unfold told_by_machine, names_big. do 13 apply Exists_cons_tl. apply Exists_cons_hd. cbn. discriminate.
Qed.
(** The default of the header is little-endian, so the refusal does not cover a big-endian host whose compiler defines none of
    these names: it is taken for little-endian and nothing is reported. *)
Theorem C35_keccak4x_default_refuted : exists M, compiler_for BE M /\ simd256_accepts M = true /\ pbo_again (brg_endian_h M) = false.
Proof. exists (fun _ => None). split; [split; repeat constructor|split; reflexivity]. Qed.
Print Assumptions C35_keccak4x_default_refuted.
(** The condition of C35_keccak4x_accepts for ARM is needed: a little-endian ARM whose compiler defines the names of both orders
    and not the order in use is refused. *)
Theorem C35_keccak4x_arm_refuted : exists M, compiler_for LE M /\ simd256_accepts M = false.
Proof.
  exists (fun s => if String.eqb s "__arm__" then Some 1 else if String.eqb s "__BIG_ENDIAN" then Some 4321 else if String.eqb s "__LITTLE_ENDIAN" then Some 1234 else None).
  assert (D1 : 4321 <> 1234) by discriminate.
  split; [split; repeat constructor; exact D1|reflexivity].
Qed.
Print Assumptions C35_keccak4x_arm_refuted.
