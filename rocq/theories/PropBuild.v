(** C48: what make builds, for all options and after any history of runs of make. *)
From Coq Require Import String List.
From Verif Require Import CSem Params Kem FrodoSpec KemWp PropKem Build BuildSpec BuildProofs.
Import ListNotations.
Local Open Scope string_scope.

(** A build whose three functions are FrodoKEM with parameters P and the generator g of A, for
    all inputs (the vocabulary is that of C05). *)
Definition is_frodokem (C : config) (P : params) (g : genA) : Prop :=
  (forall rb rc mem pk sk s seedSE z,
    bytestr (pCB P) s -> bytestr (pCB P) seedSE -> bytestr 16 z ->
    delivers rb (2 * pCB P + 16) (s ++ seedSE ++ z)%list rc ->
    region mem pk (pkBytes P) -> region mem sk (skBytes P) -> disjoint pk (pkBytes P) sk (skBytes P) ->
    let '(PK, SK) := KeyGen P g s seedSE z in
    exists l, returns (crypto_kem_keypair C rb mem pk sk) (stored (stored mem pk PK) sk SK, l, 0%Z)) /\
  (forall rb rc mem ct ss pk PK mu,
    bytestr (bytesMu P) mu -> delivers rb (bytesMu P) mu rc ->
    holds mem pk (pkBytes P) PK -> bytes_ok PK ->
    region mem ct (ctBytes P) -> region mem ss (pCB P) -> disjoint ct (ctBytes P) pk (pkBytes P) ->
    let '(CT, SS) := Encaps P g PK mu in
    exists l, returns (crypto_kem_enc C rb mem ct ss pk) (stored (stored mem ct CT) ss SS, l, 0%Z)) /\
  (forall mem ss ct sk CT SK,
    holds mem sk (skBytes P) SK -> bytes_ok SK -> (sk mod 2 = 0)%Z ->
    holds mem ct (ctBytes P) CT -> bytes_ok CT -> region mem ss (pCB P) ->
    exists l, returns (crypto_kem_dec C mem ss ct sk) (stored mem ss (Decaps P g SK CT), l, 0%Z)).

Lemma frodokem_build C P g : valid P -> cP C = P -> cGen C = g -> build_ok C -> is_frodokem C P g.
Proof.
  intros V <- <- Hb. split; [|split]; intros.
  - eapply C05_keypair; eassumption.
  - eapply C05_enc; eassumption.
  - eapply C05_dec; eassumption.
Qed.
Lemma params_of_valid v : valid (params_of v).
Proof. destruct v; [exact valid_640|exact valid_976|exact valid_1344]. Qed.

(** make clean and then make, with any options whatever: it succeeds, and the programs contain the code
    and compute the function that the options name. *)
Theorem C48_clean : forall h o p v en,
  exists l C, build (h ++ make_clean ++ make_libs o)%list o p v = Some l /\ code_of en v l = Some C /\
    cP C = params_of v /\ cEn C = en /\ cImpl C = impl_named o /\ cGen C = gen_named o /\
    (cGen C = GenAES -> cAes C = aes_named o) /\
    (en = LE \/ impl_named o = Reference -> is_frodokem C (params_of v) (gen_named o)).
Proof.
  intros h o p v en. destruct (in_prog_objs p v o) as (If & Ia).
  pose proof (clean_made h o p v _ If) as Hf. pose proof (clean_made h o p v _ Ia) as Ha.
  destruct (proj2 (build_links (h ++ make_clean ++ make_libs o) o p v o o Hf Ha)
                  (links_same _ p v o (fun _ => clean_dir h o v))) as (l & Hl).
  destruct (build_code _ o p v l en Hl) as (C & ofr & oa & HC & Hf' & Ha' & E1 & E2 & E3 & E4 & E5).
  rewrite <- (made_by_unique _ _ _ _ Hf Hf') in E3, E4. rewrite <- (made_by_unique _ _ _ _ Ha Ha') in E5.
  exists l, C. repeat (split; [assumption|]). intros Hen.
  apply frodokem_build; [apply params_of_valid|exact E1|exact E4|]. intros Hi. rewrite E2. rewrite E3 in Hi. tauto.
Qed.
Print Assumptions C48_clean.

(** After any history, whatever is left of earlier runs, object files or members of archives: a program
    that links has the code named by the options of the runs that made its frodo*.o and aes.o, and
    computes the function named by those that made frodo*.o.  A mixture never gives anything else. *)
Theorem C48_history : forall h o p v l en,
  build h o p v = Some l ->
  let h' := (h ++ before_link o p v)%list in
  exists C ofr oa, code_of en v l = Some C /\ made_by h' (OFrodo v) ofr /\ made_by h' OAes oa /\
    cP C = params_of v /\ cEn C = en /\ cImpl C = impl_named ofr /\ cGen C = gen_named ofr /\
    (cGen C = GenAES -> cAes C = aes_named oa) /\
    (en = LE \/ impl_named ofr = Reference -> is_frodokem C (params_of v) (gen_named ofr)).
Proof.
  intros h o p v l en H h'. destruct (build_code _ o p v l en H) as (C & ofr & oa & HC & Hf & Ha & E1 & E2 & E3 & E4 & E5).
  exists C, ofr, oa. repeat (split; [assumption|]). intros Hen.
  apply frodokem_build; [apply params_of_valid|exact E1|exact E4|]. intros Hi. rewrite E2. rewrite E3 in Hi. tauto.
Qed.
Print Assumptions C48_history.
(** The run that made an object file is determined by the history. *)
Theorem C48_made_once : forall h x o o', made_by h x o -> made_by h x o' -> o = o'.
Proof. exact made_by_unique. Qed.
Print Assumptions C48_made_once.

(** When the object files of different runs link. *)
Theorem C48_links : forall h o p v ofr oa,
  let h' := (h ++ before_link o p v)%list in
  made_by h' (OFrodo v) ofr -> made_by h' OAes oa ->
  ((exists l, build h o p v = Some l) <-> links h p v o ofr oa).
Proof. exact build_links. Qed.
Print Assumptions C48_links.

(** Without make clean the options of the last run do not count: "make" and then "make
    GENERATION_A=SHAKE128" succeeds for all variants and both kinds of programs, and gives programs
    that generate A with AES. *)
Definition default_options : options := {| ARCH := ""; OPT_LEVEL := ""; GENERATION_A := ""; USE_OPENSSL := "" |}.
Definition shake_options : options := {| ARCH := ""; OPT_LEVEL := ""; GENERATION_A := "SHAKE128"; USE_OPENSSL := "" |}.
Theorem C48_last_options_refuted : forall p v en,
  exists l C, build (make_clean ++ make_libs default_options ++ make_libs shake_options)%list shake_options p v = Some l /\
    code_of en v l = Some C /\ gen_named shake_options = GenSHAKE /\ cGen C = GenAES.
Proof. intros p v en. destruct p, v; (eexists; eexists; split; [vm_compute; reflexivity|]; repeat split; reflexivity). Qed.
Print Assumptions C48_last_options_refuted.

(** A program that uses two variants does not link, whatever it consists of besides and with whatever
    archives (README.md:158-159 asks to add the libraries of all three to a project): frodo640.o,
    frodo976.o and frodo1344.o define the same symbols. *)
Definition uses (mr : list sym) (v : variant) : Prop := In (s_keypair v) mr \/ In (s_enc v) mr \/ In (s_dec v) mr.
Theorem C48_two_variants_refuted : forall own_defs own_refs archives libs v w,
  v <> w -> uses own_refs v -> uses own_refs w ->
  (* the API is not defined elsewhere *)
  (forall u s, In s [s_keypair u; s_enc u; s_dec u] -> ~ In s own_defs /\ ~ In s libs) ->
  link own_defs own_refs archives libs = None.
Proof. intros; eapply link_two; eassumption. Qed.
Print Assumptions C48_two_variants_refuted.

(** The Visual Studio solution, both platforms and configurations: the test program of each variant,
    and a program that uses the API of one variant and has the libraries of all three, link and
    contain the optimized portable code with the portable AES. *)
Theorem C48_visual_studio : forall pl v,
  exists A640 A976 A1344, vs_lib pl V640 = Some A640 /\ vs_lib pl V976 = Some A976 /\ vs_lib pl V1344 = Some A1344 /\
  let A := match v with V640 => A640 | V976 => A976 | V1344 => A1344 end in
  let C := {| cP := params_of v; cEn := LE; cImpl := Optimized; cGen := GenAES; cAes := AesC |} in
  (exists l, link (prog_defs TestKEM) (prog_refs TestKEM v []) A [] = Some l /\ code_of LE v l = Some C) /\
  (exists l, link [s_main] [s_keypair v; s_enc v; s_dec v] (A640 ++ A976 ++ A1344)%list [] = Some l /\ code_of LE v l = Some C) /\
  is_frodokem C (params_of v) GenAES.
Proof.
  intros pl v. eexists; eexists; eexists.
  split; [destruct pl; reflexivity|]. split; [destruct pl; reflexivity|]. split; [destruct pl; reflexivity|].
  cbv zeta. split; [|split].
  - destruct pl, v; (eexists; split; [vm_compute; reflexivity|reflexivity]).
  - destruct pl, v; (eexists; split; [vm_compute; reflexivity|reflexivity]).
  - apply frodokem_build; [apply params_of_valid|reflexivity|reflexivity|]. intros _; reflexivity.
Qed.
Print Assumptions C48_visual_studio.

(** Mixtures: object files of a run for x64 and of later ones without OpenSSL and for ARM. *)
Example C48_nonvacuous :
  let own := {| ARCH := ""; OPT_LEVEL := ""; GENERATION_A := ""; USE_OPENSSL := "FALSE" |} in
  let arm := {| ARCH := "ARM"; OPT_LEVEL := "FAST"; GENERATION_A := "SHAKE128"; USE_OPENSSL := "FALSE" |} in
  let h1 := [Make default_options (lib_objs V640 default_options); Make own [OFrodo V976]] in
  let h2 := [Make own (lib_objs V640 own); Gone [OFrodo V640]; Make arm [OFrodo V1344]; Lib V1344] in
  (* frodo976.o calls functions that the aes.o of the first run does not have *)
  build h1 own TestKEM V976 = None /\
  (* frodo1344.o for ARM and SHAKE, aes.o for x64 *)
  (exists l C, build h2 own TestKAT V1344 = Some l /\ code_of LE V1344 l = Some C /\ cImpl C = Optimized /\ cGen C = GenSHAKE) /\
  (* frodo640.o made anew *)
  (exists l C, build h2 own TestKEM V640 = Some l /\ code_of LE V640 l = Some C /\ cImpl C = AVX2 /\ cAes C = AesNI).
Proof.
  split; [vm_compute; reflexivity|].
  split; (eexists; eexists; split; [vm_compute; reflexivity|]; repeat split; reflexivity).
Qed.
(** The archive for the KATs: make KATS alone fails after make clean; and after a full make with the options
    for x64 and SHAKE128, a KAT program of a later make KATS for AES links because the archive still has
    fips202x4.o. *)
Example C48_archive :
  let x4 := {| ARCH := ""; OPT_LEVEL := ""; GENERATION_A := "SHAKE128"; USE_OPENSSL := "FALSE" |} in
  let own := {| ARCH := ""; OPT_LEVEL := ""; GENERATION_A := ""; USE_OPENSSL := "FALSE" |} in
  build make_clean own TestKAT V640 = None /\
  build (make_clean ++ make_libs x4)%list own TestKAT V640 = None /\
  (exists l C, build (make_clean ++ make_libs x4 ++ before_link x4 TestKAT V640)%list own TestKAT V640 = Some l /\
     code_of LE V640 l = Some C /\ cImpl C = AVX2 /\ cGen C = GenSHAKE).
Proof.
  split; [vm_compute; reflexivity|]. split; [vm_compute; reflexivity|].
  eexists; eexists; split; [vm_compute; reflexivity|]; repeat split; reflexivity.
Qed.
