(** C40: python3/nist_kat.py prints the first test vector of the C known-answer tests. *)
From Coq Require Import String.
From Verif Require Import CSem Str KeccakSpec KeccakProofs AesSpec Params Aes DrbgSpec Rng RngProofs FrodoSpec FrodoFacts Kem KemWp PropMatrix PropKem PropRng
  Kat KatSpec KatProofs PropKat Py PyProofs PyKem PropPy NistKat.
Local Open Scope Z_scope.
Local Opaque SHAKE128 SHAKE256 AES128 AES256.

(** The seed of the first test vector (count = 0) of NIST's KAT files. *)
Definition nist_seed : list Z :=
  fromhex "061550234D158C5EC95595FE04EF7A25767F2E24CC2BC479D09D86DC9ABCFDE7056A8C266F9EF97ED08541DBD2E1FFA1".
Definition name (w : which) (g : genA) : string :=
  match w, g with
  | Frodo640, GenAES => "FrodoKEM-640-AES" | Frodo640, GenSHAKE => "FrodoKEM-640-SHAKE"
  | Frodo976, GenAES => "FrodoKEM-976-AES" | Frodo976, GenSHAKE => "FrodoKEM-976-SHAKE"
  | Frodo1344, GenAES => "FrodoKEM-1344-AES" | Frodo1344, GenSHAKE => "FrodoKEM-1344-SHAKE"
  end.
(** The outputs hard-coded for a parameter set: for key generation and for encapsulation. *)
Definition hard_coded (w : which) : list (list Z) :=
  nth (match w with Frodo640 => 0 | Frodo976 => 1 | Frodo1344 => 2 end)%nat possible_outputs [].
(** What is printed for a record, with the given text on the line of the seed. *)
Definition printed (w : which) (g : genA) (seed : list Z) (r : answers) : list Z :=
  str "===============================================" ++ [10] ++ str (name w g) ++ [10] ++
  str "count = 0" ++ [10] ++ str "seed = " ++ seed ++ [10] ++
  str "pk = " ++ hex (k_pk r) ++ [10] ++ str "sk = " ++ hex (k_sk r) ++ [10] ++
  str "ct = " ++ hex (k_ct r) ++ [10] ++ str "ss = " ++ hex (k_ss r) ++ [10].

Lemma all_bytes l : forallb (fun x => (0 <=? x) && (x <? 256)) l = true -> bytes_ok l.
Proof. rewrite forallb_forall. intros H. apply Forall_forall. intros x Hx. specialize (H x Hx). lia. Qed.
Lemma nist_seed_ok : bytestr 48 nist_seed.
Proof. split; [vm_compute; reflexivity|]. apply all_bytes. vm_compute. reflexivity. Qed.
(** Running the generator of the C tests. *)
Lemma run_returns (m : res (list (list Z))) v :
  match m with Ok x _ => if list_eq_dec (list_eq_dec Z.eq_dec) x v then true else false | Err _ => false end = true -> returns m v.
Proof. destruct m as [x tr|]; [|discriminate]. destruct (list_eq_dec _ x v) as [->|]; [|discriminate]. intros _. exists tr. reflexivity. Qed.
Lemma drbg_run w : returns (session AesC drbg0 nist_seed None (map uninit (map (@zlen Z) (hard_coded w)))) (hard_coded w).
Proof. apply run_returns. destruct w; vm_compute; reflexivity. Qed.

(** ** The hard-coded bytes are what CTR_DRBG delivers after seeding with that seed. *)
Theorem C40_hard_coded : forall w,
  let P := c_params w in
  hard_coded w = Requests (Instantiate nist_seed (zrep 48 0)) [2 * pCB P + 16; bytesMu P].
Proof.
  intros w P. pose proof (drbg_run w) as R.
  pose proof (C24_sequence AesC drbg0 nist_seed None (map uninit (map (@zlen Z) (hard_coded w)))) as S.
  rewrite (returns_inj _ _ _ R (S (conj eq_refl eq_refl) nist_seed_ok ltac:(intros ? E; discriminate E) ltac:(destruct w; vm_compute; congruence)
    ltac:(intros b Hb; destruct w; cbn in Hb; decompose [or] Hb; subst; try contradiction; vm_compute; reflexivity))).
  destruct w; reflexivity.
Qed.
Print Assumptions C40_hard_coded.

(** ** The constructor: the six names give the six variants. *)
Theorem C40_constructor : forall w g, FrodoKEM (str (name w g)) = let* X := py_object w g in PyOk (Some X).
Proof. intros w g. destruct w, g; vm_compute; reflexivity. Qed.
Print Assumptions C40_constructor.
(** Any other name is accepted without an exception, and gives an object without parameters. *)
Theorem C40_unknown_raises_refuted : exists v, (forall w g, v <> str (name w g)) /\ FrodoKEM v = PyOk None.
Proof.
  exists (str "FrodoKEM-512-AES"). split; [|vm_compute; reflexivity].
  intros w g E. destruct w, g; vm_compute in E; discriminate E.
Qed.
Print Assumptions C40_unknown_raises_refuted.

Lemma hex_upper_hex x : hex_upper x = hex x.
Proof. reflexivity. Qed.
Lemma hex_inj x y : bytes_ok x -> bytes_ok y -> hex x = hex y -> x = y.
Proof.
  intros Hx. revert y. induction Hx as [|b x Hb Hx IH]; intros y Hy E; destruct Hy as [|c y Hc Hy]; try discriminate E; [reflexivity|].
  cbn in E. injection E as E1 E2 E3.
  assert (D : forall m n, 0 <= m < 16 -> 0 <= n < 16 -> hexdigit m = hexdigit n -> m = n).
  { intros m n Hm Hn Em. apply (f_equal digit_value) in Em.
    assert (K : forall k, 0 <= k < 16 -> digit_value (hexdigit k) = k).
    { intros k Hk. assert (H : forallb (fun k => digit_value (hexdigit k) =? k) (zseq 16) = true) by (vm_compute; reflexivity).
      rewrite forallb_forall in H. apply Z.eqb_eq, H. unfold zseq. apply in_map_iff. exists (Z.to_nat k). split; [lia|apply in_seq; lia]. }
    rewrite !K in Em by assumption. exact Em. }
  apply D in E1; [|dlia..]. apply D in E2; [|dlia..].
  rewrite (IH y Hy E3). f_equal. dlia.
Qed.
Lemma record_noise_bytes w : forall x, In x (hard_coded w) -> bytes_ok x.
Proof.
  intros x Hx. apply all_bytes. assert (H : forallb (forallb (fun x => (0 <=? x) && (x <? 256))) (hard_coded w) = true) by (destruct w; vm_compute; reflexivity).
  rewrite forallb_forall in H. apply H, Hx.
Qed.
Lemma hard_coded_pair w : exists rnd mu, hard_coded w = [rnd; mu] /\ zlen rnd = 2 * pCB (c_params w) + 16 /\ zlen mu = bytesMu (c_params w).
Proof. destruct w; eexists _, _; (split; [reflexivity|]); split; vm_compute; reflexivity. Qed.
Lemma select_hard w : select_outputs (2 * pCB (c_params w) + 16) = Some (hard_coded w).
Proof. destruct w; vm_compute; reflexivity. Qed.

(** The noise of the exchange made from the hard-coded bytes is strictly within the bound, so that
    decryption succeeds. *)
Definition quiet (w : which) (g : genA) : Prop :=
  let P := c_params w in
  let rnd := nth 0 (hard_coded w) [] in
  let mu := nth 1 (hard_coded w) [] in
  let seedSE := zslice rnd (pCB P) (pCB P) in
  let PK := fst (KeyGen P g (zslice rnd 0 (pCB P)) seedSE (zslice rnd (2 * pCB P) 16)) in
  forall t, 0 <= t < 64 -> Z.abs (noise P seedSE (Hash P PK (pCB P)) mu t) < 2 ^ (pD P - pB P - 1).

(** ** One run: it raises nothing before its final assertion and prints the record that the
    standard and the specification prescribe for the seed. *)
Theorem C40_run : forall w g X, py_object w g = PyOk X ->
  exists r ok, NISTKAT_run (str (name w g)) X = PyOk (printed w g (str "<unspecified>") r, ok) /\
    k_seed r = nist_seed /\ well_formed (c_params w) r /\ right (c_params w) g r /\
    (ok = true <-> kem_decaps X (k_sk r) (k_ct r) = PyOk (k_ss r)) /\
    (quiet w g -> ok = true /\ decapsulates (c_params w) g r).
Proof.
  intros w g X EX. pose proof (object_ok w g X EX) as OK. pose proof (c_params_valid w) as V. set (P := c_params w) in *.
  destruct (hard_coded_pair w) as (rnd & mu & Eh & Lr & Lm). fold P in Lr, Lm. pose proof (record_noise_bytes w) as Bb. rewrite Eh in Bb.
  pose proof (Bb rnd ltac:(cbn; auto)) as Br. pose proof (Bb mu ltac:(cbn; auto)) as Bm.
  pose proof (C40_hard_coded w) as HC. cbv zeta in HC. fold P in HC. rewrite Eh in HC. cbn [Requests] in HC.
  pose proof (values_shape P g nist_seed V ltac:(unfold P; destruct w; vm_compute; reflexivity) nist_seed_ok) as VS.
  unfold values in VS.
  destruct (Generate (Instantiate nist_seed (zrep 48 0)) (2 * pCB P + 16)) as [rnd' st] eqn:EG1. cbv beta iota in HC.
  destruct (Generate st (bytesMu P)) as [mu' st'] eqn:EG2. cbv beta iota in HC. injection HC as <- <-. cbn [fst] in VS.
  pose proof (v_CB _ V) as HCB.
  set (s := zslice rnd 0 (pCB P)) in *. set (se := zslice rnd (pCB P) (pCB P)) in *. set (z := zslice rnd (2 * pCB P) 16) in *.
  assert (Ls : zlen s = pCB P) by (apply zlen_zslice; lia). assert (Lse : zlen se = pCB P) by (apply zlen_zslice; lia). assert (Lz : zlen z = 16) by (apply zlen_zslice; lia).
  assert (Bs : bytes_ok s) by (apply inrange_zslice; exact Br).
  assert (Er : rnd = s ++ se ++ z).
  { apply list_ext; [rewrite !zlen_app; lia|]. intros i Hi. destruct (Z.lt_ge_cases i (pCB P)).
    - rewrite znth_app1 by lia. unfold s. rewrite znth_zslice by lia. f_equal.
    - rewrite znth_app2 by lia. rewrite Ls. destruct (Z.lt_ge_cases i (2 * pCB P)).
      + rewrite znth_app1 by lia. unfold se. rewrite znth_zslice by lia. f_equal. lia.
      + rewrite znth_app2 by lia. rewrite Lse. unfold z. rewrite znth_zslice by lia. f_equal. lia. }
  assert (R1 : nist_randombytes None (2 * pCB P + 16) = PyOk (rnd, Some [mu])).
  { unfold nist_randombytes. unfold P. rewrite (select_hard w), Eh. fold P. rewrite pyassert_true by (apply Z.eqb_eq; lia). reflexivity. }
  assert (R2 : nist_randombytes (Some [mu]) (bytesMu P) = PyOk (mu, Some [])).
  { unfold nist_randombytes. rewrite pyassert_true by (apply Z.eqb_eq; lia). reflexivity. }
  assert (K1 : rng_bytes None (pCB P + pCB P + 16) = PyOk (s ++ se ++ z)).
  { unfold rng_bytes. replace (pCB P + pCB P + 16) with (2 * pCB P + 16) by lia. rewrite R1, <- Er. reflexivity. }
  pose proof (keygen_eq X P g V OK (rng_bytes None) s se z K1 Ls Lse Lz Bs) as KG.
  destruct (KeyGen P g s se z) as [PK SK] eqn:EK. destruct (Encaps P g PK mu) as [CT SS] eqn:EE. destruct VS as (F1 & F2 & F3 & F4).
  assert (K2 : rng_bytes (Some [mu]) (bytesMu P) = PyOk mu) by (unfold rng_bytes; rewrite R2; reflexivity).
  pose proof (encaps_eq X P g V OK (rng_bytes (Some [mu])) PK mu (proj1 F1) K2 Lm) as KE. rewrite EE in KE.
  pose proof (decaps_eq X P g V OK SK CT (proj1 F2) (proj2 F2) (proj1 F3)) as KD.
  assert (BSD : bytes_ok (Decaps_with P g (Decrypt_even P SK CT) SK CT)) by (unfold Decaps_with; destruct (Encrypt P g _ _ _ _) as [[? ?] ?]; apply (F_Hash_ok P g V)).
  set (SD := Decaps_with P g (Decrypt_even P SK CT) SK CT) in *. clearbody SD.
  exists {| k_seed := nist_seed; k_pk := PK; k_sk := SK; k_ct := CT; k_ss := SS |}, (if list_eq_dec Z.eq_dec (hex_upper SS) (hex_upper SD) then true else false).
  cbn [k_seed k_pk k_sk k_ct k_ss].
  split; [|split; [reflexivity|split; [|split; [|split]]]].
  - unfold NISTKAT_run. rewrite KG. cbn [pybind]. rewrite (ok_s _ _ _ OK), (ok_seedSE _ _ _ OK), (ok_z _ _ _ OK).
    unfold rng_after. replace (pCB P + pCB P + 16) with (2 * pCB P + 16) by lia. rewrite R1. cbn [pybind]. rewrite KE. cbn [pybind]. rewrite KD. cbn [pybind].
    unfold printed, println. cbn [k_pk k_sk k_ct k_ss]. rewrite !hex_upper_hex. f_equal. f_equal.
    change (str "seed = <unspecified>") with (str "seed = " ++ str "<unspecified>"). rewrite !app_assoc. reflexivity.
  - split; [exact nist_seed_ok|]. unfold field. auto.
  - unfold right. cbn [k_seed k_pk k_sk k_ct k_ss]. rewrite EG1. fold s se z. rewrite EK, EG2, EE. auto.
  - rewrite KD. destruct (list_eq_dec Z.eq_dec (hex_upper SS) (hex_upper SD)) as [E|E]; split; intros H; try discriminate; try reflexivity.
    + apply hex_inj in E; [congruence|exact (proj2 F4)|exact BSD].
    + exfalso. apply E. injection H as ->. reflexivity.
  - intros Q. unfold quiet in Q. rewrite Eh in Q. cbn [nth] in Q. cbv zeta in Q. fold P in Q. fold s se z in Q. rewrite EK in Q. cbn [fst] in Q.
    assert (Bse : bytestr (pCB P) se) by (split; [exact Lse|apply inrange_zslice; exact Br]). assert (Bz : bytestr 16 z) by (split; [exact Lz|apply inrange_zslice; exact Br]).
    assert (K1' : rng_bytes None (2 * pCB P + 16) = PyOk (s ++ se ++ z)) by (rewrite <- K1; f_equal; lia).
    pose proof (C23_exchange w g X EX (rng_bytes None) (rng_bytes (Some [mu])) s se z mu PK SK CT SS (conj Ls Bs) Bse Bz (conj Lm Bm) K1' K2 KG KE Q) as KX.
    rewrite KX in KD. injection KD as <-. split; [destruct (list_eq_dec Z.eq_dec (hex_upper SS) (hex_upper SS)); [reflexivity|contradiction]|].
    unfold decapsulates. cbn [k_sk k_ct k_ss].
    pose proof (Decrypt_Encaps P g V s se z mu Ls Lm Bm) as HD. pose proof (Encaps_reencrypt P g V s se z mu Ls) as HR. rewrite EK, EE in HD, HR. destruct HR as (HR & HSS).
    assert (Ed : Decrypt P SK CT = mu) by (apply HD; intros t Ht; exists 0; specialize (Q t Ht); lia).
    destruct (Decaps_cases P g V SK CT (proj1 F3) (proj2 F3)) as (H1 & _). rewrite H1, Ed; [symmetry; exact HSS|]. unfold accepted. rewrite Ed. exact HR.
Qed.
Print Assumptions C40_run.

(** ** Put the seed on its line, and the known-answer program of the C code, in any build for this
    variant, finds nothing wrong in what Python printed: it returns 0, or -4 if the ciphertext
    does not decapsulate (which the noise of this exchange decides). *)
Theorem C40_accepted_by_C : forall w g X C im fr mem d text ok,
  py_object w g = PyOk X -> NISTKAT_run (str (name w g)) X = PyOk (text, ok) ->
  cP C = c_params w -> cGen C = g -> setting C fr mem d ->
  exists a b c, text = a ++ str "seed = <unspecified>" ++ b /\
    returns (kat_main C im fr (Some (a ++ str "seed = " ++ hex nist_seed ++ b)) mem d) c /\ (c = 0 \/ c = -4) /\
    (quiet w g -> c = 0 /\ ok = true).
Proof.
  intros w g X C im fr mem d text ok EX ER EP EG S.
  destruct (C40_run w g X EX) as (r & ok' & ER' & Es & W & R & _ & HQ). rewrite ER in ER'. injection ER' as -> ->.
  set (hd := str "===============================================" ++ [10] ++ str (name w g) ++ [10]).
  set (rest := [10] ++ str "pk = " ++ hex (k_pk r) ++ [10] ++ str "sk = " ++ hex (k_sk r) ++ [10] ++ str "ct = " ++ hex (k_ct r) ++ [10] ++ str "ss = " ++ hex (k_ss r) ++ [10]).
  set (f := (hd ++ str "count = 0" ++ [10]) ++ str "seed = " ++ hex nist_seed ++ rest).
  assert (Hf : f = hd ++ record_text r ++ []).
  { unfold f, record_text, rest. rewrite Es, app_nil_r. change (str "count = 0") with (str "count = " ++ str "0"). rewrite <- !app_assoc. reflexivity. }
  assert (Bf : bytes_ok f).
  { rewrite Hf. apply inrange_app; [unfold hd; repeat (apply inrange_app); first [apply str_bytes|repeat constructor; lia]|]. apply inrange_app; [apply (record_bytes (c_params w)), W|constructor]. }
  assert (RF : response_file (cP C) [r] f).
  { rewrite EP, Hf. constructor; [|apply record_written, W|constructor].
    - apply find_none. unfold hd. destruct w, g; vm_compute; reflexivity.
    - apply find_none. vm_compute. reflexivity. }
  destruct (C38_verdict C im fr mem d [r] f S Bf RF) as (c & Rc & H0 & H2 & H4 & Hc). rewrite EP, EG in *.
  exists (hd ++ str "count = 0" ++ [10]), rest, c. split; [|split; [exact Rc|split]].
  - unfold printed, hd, rest. change (str "seed = <unspecified>") with (str "seed = " ++ str "<unspecified>"). rewrite <- !app_assoc. reflexivity.
  - destruct Hc as [Hc|[Hc|Hc]]; [left; exact Hc| |right; exact Hc]. exfalso. specialize (H2 Hc). inversion H2 as [? ? N|? ? N]; subst; [contradiction|inversion N].
  - intros Q. destruct (HQ Q) as (Ho & Hd). split; [|exact Ho]. apply H0. constructor; [split; assumption|constructor].
Qed.
Print Assumptions C40_accepted_by_C.

(** ** The whole program: the six records, in this order, one after the other.  It stops at a
    variant only if the final assertion of that variant fails. *)
Definition six : list (which * genA) :=
  [(Frodo640, GenAES); (Frodo640, GenSHAKE); (Frodo976, GenAES); (Frodo976, GenSHAKE); (Frodo1344, GenAES); (Frodo1344, GenSHAKE)].
Lemma main_from vs : exists rs,
  Forall2 (fun '(w, g) r => k_seed r = nist_seed /\ right (c_params w) g r) vs rs /\
  (Forall (fun '(w, g) => quiet w g) vs -> forall out, nist_main_from (map (fun '(w, g) => name w g) vs) out =
   PyOk (out ++ concat (map (fun '((w, g), r) => printed w g (str "<unspecified>") r) (combine vs rs)), true)).
Proof.
  induction vs as [|[w g] vs IH].
  - exists []. split; [constructor|]. intros _ out. cbn. rewrite app_nil_r. reflexivity.
  - destruct (C23_parameters w g) as (X & EX & _). destruct (C40_run w g X EX) as (r & ok & ER & Es & W & R & _ & HQ).
    destruct IH as (rs & F & H). exists (r :: rs). split; [constructor; [auto|exact F]|].
    intros A out. inversion A as [|? ? Ao Aos]; subst. cbn [map nist_main_from]. rewrite C40_constructor, EX. cbn [pybind]. rewrite ER. cbn [pybind].
    rewrite (proj1 (HQ Ao)), (H Aos). cbn [combine map concat]. rewrite <- !app_assoc. reflexivity.
Qed.
Theorem C40_main : exists rs,
  Forall2 (fun '(w, g) r => k_seed r = nist_seed /\ right (c_params w) g r) six rs /\
  ((forall w g, quiet w g) ->
   nist_main = PyOk (concat (map (fun '((w, g), r) => printed w g (str "<unspecified>") r) (combine six rs)), true)).
Proof.
  destruct (main_from six) as (rs & F & H). exists rs. split; [exact F|]. intros Q. apply (H ltac:(repeat constructor; apply Q) []).
Qed.
Print Assumptions C40_main.

(** A setting for the C side of C40_accepted_by_C. *)
Example C40_hyps : cP kat640 = c_params Frodo640 /\ cGen kat640 = GenSHAKE /\ setting kat640 frame640 (uninit 60000) drbg0.
Proof. split; [reflexivity|]. split; [reflexivity|exact setting640]. Qed.
(** A request of a length nobody makes is refused. *)
Example C40_other_length : nist_randombytes None 47 = Raise AssertionError /\ nist_randombytes (Some [[1; 2]]) 3 = Raise AssertionError.
Proof. split; vm_compute; reflexivity. Qed.
