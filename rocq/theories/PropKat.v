(** C38: the known-answer-test programs accept exactly the right response files. *)
From Coq Require Import Ascii String.
From Verif Require Import CSem Str Params Aes DrbgSpec Rng RngProofs FrodoSpec FrodoFacts Kem KemWp PropMatrix PropKem PropRng Kat KatSpec KatProofs.
Local Open Scope Z_scope.

(** main's arrays: inside the memory, pairwise disjoint, sk at an even address. *)
Definition arrays (P : params) (mem : list Z) (fr : frame) : Prop :=
  region mem (a_pk fr) (pkBytes P) /\ region mem (a_sk fr) (skBytes P) /\ region mem (a_ct fr) (ctBytes P) /\
  region mem (a_ss fr) (pCB P) /\ region mem (a_ss1 fr) (pCB P) /\
  ForallOrdPairs (fun x y => disjoint (fst x) (snd x) (fst y) (snd y))
    [(a_pk fr, pkBytes P); (a_sk fr, skBytes P); (a_ct fr, ctBytes P); (a_ss fr, pCB P); (a_ss1 fr, pCB P)] /\
  a_sk fr mod 2 = 0.
(** A run of the program: shipped or other valid parameters, a supported build, any contents of
    the memory and of the generator's context. *)
Definition setting (C : config) (fr : frame) (mem : list Z) (d : drbg) : Prop :=
  valid (cP C) /\ build_ok C /\ 2 * pCB (cP C) + 16 < 2 ^ 31 /\ arrays (cP C) mem fr /\ ctx d.

(** The verdict on a well-formed response file: 0 (success) exactly when every record has the
    values of the standard and the specification and its ciphertext decapsulates to its secret;
    -2 only if some published value is wrong, -4 only if a right record fails to decapsulate. *)
Theorem C38_verdict : forall C im fr mem d rs f, setting C fr mem d -> bytes_ok f -> response_file (cP C) rs f ->
  exists c, returns (kat_main C im fr (Some f) mem d) c /\
    (c = 0 <-> Forall (fun r => right (cP C) (cGen C) r /\ decapsulates (cP C) (cGen C) r) rs) /\
    (c = -2 -> Exists (fun r => ~ right (cP C) (cGen C) r) rs) /\
    (c = -4 -> Exists (fun r => right (cP C) (cGen C) r /\ ~ decapsulates (cP C) (cGen C) r) rs) /\
    (c = 0 \/ c = -2 \/ c = -4).
Proof.
  intros C im fr mem d rs f (V & Hb & Hn & Fo & Hc) Bf Hf.
  destruct (verdict_file C rs V f (Datatypes.S (List.length f)) Hf ltac:(lia)) as (c & E & H).
  pose proof (kat_loop_ok C im fr V Hb Hn (Datatypes.S (List.length f)) f mem d ltac:(lia) Fo Hc Bf) as L. rewrite E in L.
  exists c. split; [apply wp_returns, L|exact H].
Qed.
Print Assumptions C38_verdict.

(** Every file whatever: the program ends, without undefined behaviour, with one of its codes; the
    only exception is a "count = " followed by a number that does not fit an int. *)
Theorem C38_total : forall C im fr mem d f, setting C fr mem d -> bytes_ok f ->
  kat_main C im fr (Some f) mem d = Err UB_overflow \/
  exists c, returns (kat_main C im fr (Some f) mem d) c /\ (c = 0 \/ c = -2 \/ c = -3 \/ c = -4).
Proof.
  intros C im fr mem d f (V & Hb & Hn & Fo & Hc) Bf.
  pose proof (kat_loop_ok C im fr V Hb Hn (Datatypes.S (List.length f)) f mem d ltac:(lia) Fo Hc Bf) as L.
  destruct (verdict C _ f) as [c|]; [|left; exact L]. right. exists c. destruct L as (L & H). split; [apply wp_returns, L|exact H].
Qed.
Print Assumptions C38_total.

(** The verdict on any file depends on the parameter set and the generator of A only: not on the
    byte order, the implementation level, the AES implementations or the initial memory. *)
Theorem C38_same_verdict : forall C1 C2 im1 im2 fr1 fr2 mem1 mem2 d1 d2 f c,
  setting C1 fr1 mem1 d1 -> setting C2 fr2 mem2 d2 -> cP C1 = cP C2 -> cGen C1 = cGen C2 -> bytes_ok f ->
  returns (kat_main C1 im1 fr1 (Some f) mem1 d1) c -> returns (kat_main C2 im2 fr2 (Some f) mem2 d2) c.
Proof.
  intros C1 C2 im1 im2 fr1 fr2 mem1 mem2 d1 d2 f c (V1 & Hb1 & Hn1 & Fo1 & Hc1) (V2 & Hb2 & Hn2 & Fo2 & Hc2) EP EG Bf R.
  pose proof (kat_loop_ok C1 im1 fr1 V1 Hb1 Hn1 (Datatypes.S (List.length f)) f mem1 d1 ltac:(lia) Fo1 Hc1 Bf) as L1.
  pose proof (kat_loop_ok C2 im2 fr2 V2 Hb2 Hn2 (Datatypes.S (List.length f)) f mem2 d2 ltac:(lia) Fo2 Hc2 Bf) as L2.
  pose proof (verdict_same C1 C2 EP EG (Datatypes.S (List.length f)) f) as E.
  rewrite E in L2. unfold kat_main in *. destruct (verdict C1 _ f) as [c'|].
  - destruct L1 as (L1 & _), L2 as (L2 & _). apply wp_returns in L1. apply wp_returns in L2. rewrite (returns_inj _ _ _ R L1). exact L2.
  - destruct R as (t & R). rewrite L1 in R. discriminate R.
Qed.
Print Assumptions C38_same_verdict.

Lemma app_eq_len {A} (a a' b b' : list A) : zlen a = zlen a' -> a ++ b = a' ++ b' -> a = a' /\ b = b'.
Proof.
  revert a'. induction a as [|x a IH]; intros [|x' a'] L E; rewrite ?zlen_cons, ?zlen_nil in L; try (pose proof (zlen_nonneg a); lia); try (pose proof (zlen_nonneg a'); lia).
  - split; [reflexivity|exact E].
  - injection E as -> E. destruct (IH a' ltac:(lia) E) as (-> & ->). auto.
Qed.
(** FindMarker stops after the first occurrence of the marker, or at the end of the file if there is none. *)
Theorem C38_find : forall m f, 1 <= zlen m <= 49 -> Forall (fun c => 0 < c) m -> bytes_ok f ->
  (forall a b, f = a ++ m ++ b -> (forall a' b', f = a' ++ m ++ b' -> zlen a <= zlen a') -> returns (FindMarker f m) (1, b)) /\
  (~ occurs m f -> returns (FindMarker f m) (0, [])).
Proof.
  intros m f Lm Pm Bf. pose proof (FindMarker_wp m Lm Pm f Bf) as W. unfold found in W. split.
  - intros a b Ef Hmin. apply wp_returns. eapply wp_mono; [exact W|]. intros r ->.
    destruct (find m f) as [b'|] eqn:E; [|exfalso; apply find_none in E; apply E; exists a, b; exact Ef].
    destruct (find_first m f b' E) as (a' & Ef' & Hmin'). f_equal.
    assert (La : zlen a = zlen a') by (specialize (Hmin a' b' Ef'); specialize (Hmin' a b Ef); lia).
    rewrite Ef in Ef'. apply (app_eq_len a a' _ _ La) in Ef'. destruct Ef' as (_ & Ef'). apply app_inv_head in Ef'. congruence.
  - intros H. apply find_none in H. rewrite H in W. apply wp_returns, W.
Qed.
Print Assumptions C38_find.

(** A byte that is no hexadecimal digit. *)
Definition nohex (c : Z) : Prop := forall n, 0 <= n < 16 -> ~ hexchar c n.
Lemma nohex_ok c : nohex c -> isxdigit c = false.
Proof.
  intros H. destruct (isxdigit c) eqn:E; [exfalso|reflexivity]. unfold isxdigit in E.
  assert (D : (48 <= c <= 57) \/ (65 <= c <= 70) \/ (97 <= c <= 102)) by lia.
  apply (H (if c <=? 57 then c - 48 else if c <=? 70 then c - 55 else c - 87)).
  - destruct (Z.leb_spec c 57); [lia|]. destruct (Z.leb_spec c 70); lia.
  - destruct D as [D|[D|D]].
    + left. replace (c <=? 57) with true by lia. assert (X : c = 48 \/ c = 49 \/ c = 50 \/ c = 51 \/ c = 52 \/ c = 53 \/ c = 54 \/ c = 55 \/ c = 56 \/ c = 57) by lia.
      repeat (destruct X as [->|X]; [reflexivity|]). subst c. reflexivity.
    + left. replace (c <=? 57) with false by lia. replace (c <=? 70) with true by lia. assert (X : c = 65 \/ c = 66 \/ c = 67 \/ c = 68 \/ c = 69 \/ c = 70) by lia.
      repeat (destruct X as [->|X]; [reflexivity|]). subst c. reflexivity.
    + right. replace (c <=? 57) with false by lia. replace (c <=? 70) with false by lia. assert (X : c = 97 \/ c = 98 \/ c = 99 \/ c = 100 \/ c = 101 \/ c = 102) by lia.
      repeat (destruct X as [->|X]; [reflexivity|]). subst c. reflexivity.
Qed.
(** ReadHex of L bytes: the first run of hexadecimal digits on the line of the marker, as a
    big-endian number modulo 2^(8L).  So too few digits, or too many, are accepted. *)
Theorem C38_readhex : forall m L A gap junk h ds e f,
  1 <= zlen m <= 49 -> Forall (fun c => 0 < c) m -> 1 <= L -> zlen A = L ->
  (forall a b, gap ++ m ++ junk ++ h ++ e :: f = a ++ m ++ b -> zlen gap <= zlen a) ->
  Forall (fun c => nohex c /\ c <> 10) junk ->
  h <> [] -> Forall2 hexchar h ds -> Forall (fun n => 0 <= n < 16) ds -> nohex e ->
  bytes_ok (gap ++ m ++ junk ++ h ++ e :: f) ->
  exists x, returns (ReadHex (gap ++ m ++ junk ++ h ++ e :: f) A L m) (1, x, f) /\ bytestr L x /\
    int_of_be x = fold_left (fun v n => 16 * v + n) ds 0 mod 2 ^ (8 * L).
Proof.
  intros m L A gap junk h ds e f Lm Pm HL LA Hmin Hj Hne Hh Hds He Bf. apply nohex_ok in He.
  assert (Hj' : Forall (fun c => isxdigit c = false /\ c <> 10) junk) by (eapply Forall_impl; [|exact Hj]; intros c (X & Y); split; [apply nohex_ok, X|exact Y]). clear Hj. rename Hj' into Hj.
  set (s := gap ++ m ++ junk ++ h ++ e :: f) in *.
  pose proof (ReadHex_wp s A L m HL LA Lm Pm Bf) as W. unfold read_hex in W.
  destruct (find m s) as [r|] eqn:E; [|exfalso; apply find_none in E; apply E; exists gap, (junk ++ h ++ e :: f); reflexivity].
  assert (Er : r = junk ++ h ++ e :: f).
  { destruct (find_first m s r E) as (a & Ea & Hm). specialize (Hm gap (junk ++ h ++ e :: f) eq_refl). specialize (Hmin a r Ea).
    unfold s in Ea. apply app_eq_len in Ea; [|lia]. destruct Ea as (_ & Ea). apply app_inv_head in Ea. congruence. }
  subst r. rewrite (hextext_skip junk _ Hj) in W.
  assert (Eh : hextext (h ++ e :: f) = hexrun (h ++ e :: f)).
  { destruct Hh as [|c n h ds Hc Hh]; [contradiction|]. inversion Hds as [|? ? Hn _]; subst. destruct (hexchar_ok c n Hn Hc) as (X & _).
    cbn [app hextext]. rewrite X. reflexivity. }
  rewrite Eh, (hexrun_digits h ds e f Hh Hds He) in W. cbn [fst snd] in W.
  exists (be_bytes L (hexval 0 ds)). split; [apply wp_returns, W|]. split; [split; [apply zlen_be_bytes; lia|apply be_bytes_ok]|].
  apply int_be_bytes; [lia|apply hexval_nonneg; [exact Hds|lia]].
Qed.
Print Assumptions C38_readhex.

(** For every list of seeds there is a response file whose records have these seeds and are right. *)
Definition hexdigit (n : Z) : Z := znth (str "0123456789ABCDEF") n.
Definition hex (x : list Z) : list Z := concat (map (fun b => [hexdigit (b / 16); hexdigit (b mod 16)]) x).
Lemma hex_spells x : spells (hex x) x.
Proof. induction x as [|b x IH]; cbn; constructor; try (left; reflexivity). exact IH. Qed.
Lemma hexdigit_byte n : 0 <= n < 16 -> 0 <= hexdigit n < 256.
Proof. intros Hn. apply (hexchar_ok (hexdigit n) n Hn). left. reflexivity. Qed.
Lemma hex_bytes x : bytes_ok x -> bytes_ok (hex x).
Proof.
  intros H. induction H as [|b x Hb H IH]; cbn; [constructor|].
  constructor; [apply hexdigit_byte; dlia|]. constructor; [apply hexdigit_byte; dlia|exact IH].
Qed.
Definition record_text (r : answers) : list Z :=
  str "count = " ++ str "0" ++ [10] ++ (str "seed = " ++ hex (k_seed r) ++ [10]) ++ (str "pk = " ++ hex (k_pk r) ++ [10]) ++
  (str "sk = " ++ hex (k_sk r) ++ [10]) ++ (str "ct = " ++ hex (k_ct r) ++ [10]) ++ (str "ss = " ++ hex (k_ss r) ++ [10]).
Lemma str_bytes s : bytes_ok (str s).
Proof.
  unfold str. induction (list_ascii_of_string s) as [|c l IH]; cbn [map]; [constructor|]. constructor; [|exact IH].
  pose proof (Ascii.nat_ascii_bounded c). lia.
Qed.
Lemma record_written P r : well_formed P r -> written P r (record_text r).
Proof.
  intros H. split; [exact H|]. eexists _, _, _, _, _, _. split; [|repeat (split; [eexists; split; [apply hex_spells|reflexivity]|]); reflexivity].
  split; [discriminate|]. split; [repeat constructor; cbn; lia|cbn; lia].
Qed.
Lemma record_bytes P r : well_formed P r -> bytes_ok (record_text r).
Proof.
  intros ((_ & H1) & (_ & H2) & (_ & H3) & (_ & H4) & (_ & H5)).
  assert (B10 : bytes_ok [10]) by (repeat constructor; lia).
  unfold record_text. repeat (apply inrange_app; [first [apply str_bytes|exact B10|repeat (apply inrange_app); first [apply str_bytes|exact B10|apply hex_bytes; assumption]]|]).
  repeat (apply inrange_app); first [apply str_bytes|exact B10|apply hex_bytes; assumption].
Qed.
Theorem C38_right_files : forall P g seeds, valid P -> 2 * pCB P + 16 < 2 ^ 31 -> Forall (bytestr 48) seeds ->
  exists rs f, response_file P rs f /\ bytes_ok f /\ map k_seed rs = seeds /\ Forall (right P g) rs.
Proof.
  intros P g seeds V Hn H. induction H as [|seed seeds Hs H IH].
  - exists [], []. split; [constructor|]. { intros (a & b & E). destruct a; discriminate E. } split; [constructor|]. split; [reflexivity|constructor].
  - destruct IH as (rs & f & Hf & Bf & Em & Hr).
    pose proof (values_shape P g seed V Hn Hs) as S. destruct (values P g seed) as [[[PK SK] CT] SS] eqn:EV. destruct S as (S1 & S2 & S3 & S4).
    set (r := {| k_seed := seed; k_pk := PK; k_sk := SK; k_ct := CT; k_ss := SS |}).
    assert (W : well_formed P r) by (unfold well_formed, field, bytestr in *; cbn [k_seed k_pk k_sk k_ct k_ss r]; tauto).
    exists (r :: rs), ([10] ++ record_text r ++ f). split; [|split; [|split]].
    + constructor; [|apply record_written, W|exact Hf]. intros (a & b & E). destruct a as [|? [|? ?]]; discriminate E.
    + apply inrange_app; [repeat constructor; lia|]. apply inrange_app; [apply (record_bytes P), W|exact Bf].
    + cbn [map k_seed r]. f_equal. exact Em.
    + constructor; [|exact Hr]. apply right_values. exact EV.
Qed.
Print Assumptions C38_right_files.

(** A setting: FrodoKEM-640 with SHAKE, nothing initialised. *)
Definition kat640 : config := {| cP := frodo640; cEn := LE; cImpl := Reference; cGen := GenSHAKE; cAes := AesC |}.
Definition frame640 : frame := {| a_pk := 0; a_sk := 10000; a_ct := 30000; a_ss := 40000; a_ss1 := 50000 |}.
Definition drbg0 : drbg := {| d_Key := uninit 32; d_V := uninit 16; d_reseed := 0 |}.
Lemma setting640 : setting kat640 frame640 (uninit 60000) drbg0.
Proof.
  split; [apply valid_640|]. split; [intros H; exfalso; apply H; reflexivity|]. split; [cbn; lia|]. split; [|split; reflexivity].
  assert (L : zlen (uninit 60000) = 60000) by (apply zlen_uninit; lia). unfold arrays, region. rewrite L. cbn [cP kat640 frame640 a_pk a_sk a_ct a_ss a_ss1].
  repeat (split; [vm_compute; split; congruence|]). split; [|reflexivity].
  repeat (apply FOP_cons; [repeat (apply Forall_cons; [left; vm_compute; congruence|]); apply Forall_nil|]). apply FOP_nil.
Qed.
(** The hypotheses of C38_verdict hold of a file with two right records ... *)
Example C38_verdict_hyps : setting kat640 frame640 (uninit 60000) drbg0 /\
  exists rs f, response_file frodo640 rs f /\ bytes_ok f /\ Forall (right frodo640 GenSHAKE) rs /\ zlen rs = 2.
Proof.
  split; [exact setting640|].
  destruct (C38_right_files frodo640 GenSHAKE [zrep 48 7; ztab 48 (fun i => i)] valid_640 ltac:(cbn; lia)) as (rs & f & H1 & H2 & H3 & H4).
  { repeat constructor; try reflexivity; try (apply inrange_ztab; intros; lia); try (vm_compute; congruence). }
  exists rs, f. split; [exact H1|]. split; [exact H2|]. split; [exact H4|].
  rewrite <- (zlen_map k_seed rs), H3. reflexivity.
Qed.
(** ... and of one with a wrong record. *)
Example C38_verdict_wrong : exists r f, response_file frodo640 [r] f /\ bytes_ok f /\ ~ right frodo640 GenSHAKE r.
Proof.
  destruct (C38_right_files frodo640 GenSHAKE [ztab 48 (fun i => i)] valid_640 ltac:(cbn; lia)) as (rs & f & H1 & H2 & H3 & H4).
  { apply Forall_cons; [split; [reflexivity|apply inrange_ztab; intros; lia]|apply Forall_nil]. }
  inversion H1 as [|r rs' text t f' Ht Hw Hf']; subst; [discriminate H3|]. inversion H4 as [|? ? Hr _]; subst.
  destruct Hw as ((W1 & W2 & W3 & W4 & W5) & _).
  set (x := znth (k_ss r) 0). assert (Hx : 0 <= x < 256) by (apply (inrange_znth_all 256); [lia|exact (proj2 W5)]).
  set (r' := {| k_seed := k_seed r; k_pk := k_pk r; k_sk := k_sk r; k_ct := k_ct r; k_ss := zset (k_ss r) 0 (255 - x) |}).
  assert (W : well_formed frodo640 r').
  { split; [exact W1|]. split; [exact W2|]. split; [exact W3|]. split; [exact W4|].
    split; [cbn [k_ss r']; rewrite zlen_zset; exact (proj1 W5)|apply inrange_zset; [exact (proj2 W5)|lia]]. }
  exists r', ([10] ++ record_text r' ++ []). split; [constructor|split].
  - intros (a & b & E). destruct a as [|? [|? ?]]; discriminate E.
  - apply record_written, W.
  - constructor. intros (a & b & E). destruct a; discriminate E.
  - apply inrange_app; [repeat constructor; lia|]. apply inrange_app; [apply (record_bytes frodo640), W|constructor].
  - rewrite right_values in *. cbn [k_seed k_pk k_sk k_ct k_ss r']. rewrite Hr. intros E.
    pose proof (f_equal (fun v => znth (snd v) 0) E) as E0. cbn [snd] in E0.
    rewrite znth_zset_eq in E0 by (rewrite (proj1 W5); cbn; lia). fold x in E0. lia.
Qed.
Example C38_readhex_short :
  returns (ReadHex (str "x spk : pk = " ++ str "0aF" ++ [10; 65]) (uninit 4) 4 (str "pk = ")) (1, [0; 0; 0; 175], [65]).
Proof. eexists. vm_compute. reflexivity. Qed.

(** What the program does not notice.  A file without any record passes ... *)
Theorem C38_no_records : forall C im fr mem d f, setting C fr mem d -> bytes_ok f -> ~ occurs (str "count = ") f ->
  returns (kat_main C im fr (Some f) mem d) 0.
Proof.
  intros C im fr mem d f S Bf H. destruct (C38_verdict C im fr mem d [] f S Bf (file_end _ f H)) as (c & R & E & _).
  destruct E as (_ & E). rewrite (E ltac:(constructor)) in R. exact R.
Qed.
Print Assumptions C38_no_records.
(** ... and so does one cut off after a "count = ", whatever records were to follow. *)
Theorem C38_only_complete_refuted : exists C im fr mem d f, setting C fr mem d /\ bytes_ok f /\
  occurs (str "count = ") f /\ returns (kat_main C im fr (Some f) mem d) 0.
Proof.
  exists kat640, AesC, frame640, (uninit 60000), drbg0, (str "# FrodoKEM-640-SHAKE" ++ [10; 10] ++ str "count = ").
  split; [exact setting640|split; [|split]].
  - apply inrange_app; [apply str_bytes|]. apply inrange_app; [repeat constructor; lia|apply str_bytes].
  - exists (str "# FrodoKEM-640-SHAKE" ++ [10; 10]), []. rewrite app_nil_r, <- app_assoc. reflexivity.
  - eexists. vm_compute. reflexivity.
Qed.
Print Assumptions C38_only_complete_refuted.
