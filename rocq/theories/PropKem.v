(** Properties of the three API functions: C01-C07, C18, C21, C25, C27-C29, C31, C32.

    The caller's buffers are ranges of one byte memory [mem], given by their addresses. *)
From Verif Require Import CSem Params Util UtilSpec UtilProofs KeccakSpec AesSpec MatrixSpec Macrify
  MatrixProofs MatrixProofs2 EncodeProofs PropMatrix FrodoSpec Kem KemProofs KemWp FrodoFacts.

(** ** Vocabulary of the statements *)
Definition bytestr (n : Z) (l : list Z) : Prop := zlen l = n /\ bytes_ok l.
(** n bytes at address a lie inside the memory; they hold the byte string x. *)
Definition region (mem : list Z) (a n : Z) : Prop := 0 <= a /\ a + n <= zlen mem.
Definition holds (mem : list Z) (a n : Z) (x : list Z) : Prop := region mem a n /\ zslice mem a n = x.
Definition disjoint (a n b m : Z) : Prop := a + n <= b \/ b + m <= a.
(** Asked for n bytes, the generator delivers r with return code rc. *)
Definition delivers (rb : generator) (n : Z) (r : list Z) (rc : Z) : Prop := returns (rb (uninit n) n) (r, rc).
(** The memory after storing x at a. *)
Definition stored (mem : list Z) (a : Z) (x : list Z) : list Z := zsplice mem a x.
(** [stored] really means: x at [a], everything else as before. *)
Theorem stored_spec : forall mem a x i, region mem a (zlen x) -> 0 <= i < zlen mem ->
  zlen (stored mem a x) = zlen mem /\
  znth (stored mem a x) i = if (a <=? i) && (i <? a + zlen x) then znth x (i - a) else znth mem i.
Proof.
  intros mem a x i (H1 & H2) Hi; split; [apply zlen_zsplice; lia|]. unfold stored; rewrite znth_zsplice by lia. reflexivity.
Qed.

(* ------------------------------------------------------------------ *)
(** ** C05: the code computes the FrodoKEM algorithms *)
Theorem C05_keypair : forall C rb rc mem pk sk s seedSE z,
  let P := cP C in
  valid P ->
  bytestr (pCB P) s -> bytestr (pCB P) seedSE -> bytestr 16 z ->
  delivers rb (2 * pCB P + 16) (s ++ seedSE ++ z) rc ->
  region mem pk (pkBytes P) -> region mem sk (skBytes P) -> disjoint pk (pkBytes P) sk (skBytes P) ->
  let '(PK, SK) := KeyGen P (cGen C) s seedSE z in
  exists l, returns (crypto_kem_keypair C rb mem pk sk) (stored (stored mem pk PK) sk SK, l, 0).
Proof.
  intros C rb rc mem pk sk s seedSE z P V (Ls & Bs) (Lse & Bse) (Lz & Bz) Hrb (Hpk & Hpk2) (Hsk & Hsk2) Hd.
  pose proof (keypair_wp C V rb rc mem pk sk s seedSE z Ls Lse Lz Bs Bse Bz Hrb Hpk Hpk2 Hsk Hsk2 Hd) as H.
  fold P in H. destruct (KeyGen P (cGen C) s seedSE z) as [PK SK]. apply wp_returns_ex in H.
  destruct H as ([[m l] r] & HR & -> & -> & _). exists l; exact HR.
Qed.
Print Assumptions C05_keypair.
Theorem C05_enc : forall C rb rc mem ct ss pk PK mu,
  let P := cP C in
  valid P -> build_ok C ->
  bytestr (bytesMu P) mu -> delivers rb (bytesMu P) mu rc ->
  holds mem pk (pkBytes P) PK -> bytes_ok PK ->
  region mem ct (ctBytes P) -> region mem ss (pCB P) -> disjoint ct (ctBytes P) pk (pkBytes P) ->
  let '(CT, SS) := Encaps P (cGen C) PK mu in
  exists l, returns (crypto_kem_enc C rb mem ct ss pk) (stored (stored mem ct CT) ss SS, l, 0).
Proof.
  intros C rb rc mem ct ss pk PK mu P V Hb (Lmu & Bmu) Hrb ((Hpk & Hpk2) & <-) Bpk (Hct & Hct2) (Hss & Hss2) Hd.
  assert (Hd' : ct + bytesB P <= pk + 16 \/ pk + pkBytes P <= ct).
  { destruct (sizes C V) as (_ & H & _). unfold disjoint, ctBytes in Hd. pose proof (bytesC_eq P). fold P in H. lia. }
  pose proof (enc_wp C V rb rc mem ct ss pk mu Hb Lmu Bmu Hrb Hpk Hpk2 Bpk Hct Hct2 Hss Hss2 Hd') as H.
  fold P in H. destruct (Encaps P (cGen C) (zslice mem pk (pkBytes P)) mu) as [CT SS]. apply wp_returns_ex in H.
  destruct H as ([[m l] r] & HR & -> & -> & _). exists l; exact HR.
Qed.
Print Assumptions C05_enc.
Theorem C05_dec : forall C mem ss ct sk CT SK,
  let P := cP C in
  valid P -> build_ok C ->
  holds mem sk (skBytes P) SK -> bytes_ok SK -> sk mod 2 = 0 ->
  holds mem ct (ctBytes P) CT -> bytes_ok CT -> region mem ss (pCB P) ->
  exists l, returns (crypto_kem_dec C mem ss ct sk) (stored mem ss (Decaps P (cGen C) SK CT), l, 0).
Proof.
  intros C mem ss ct sk CT SK P V Hb ((Hsk & Hsk2) & <-) Bsk Hal ((Hct & Hct2) & <-) Bct (Hss & Hss2).
  pose proof (dec_wp C V mem ss ct sk Hb Hsk Hsk2 Bsk Hal Hct Hct2 Bct Hss Hss2) as H.
  cbv zeta in H. apply wp_returns_ex in H. destruct H as ([[m l] r] & HR & -> & -> & _). exists l; exact HR.
Qed.
Print Assumptions C05_dec.

(** A setting in which the hypotheses hold: FrodoKEM-976 with SHAKE on a big-endian host,
    reference build, uninitialised output buffers. *)
Definition C976 : config := {| cP := frodo976; cEn := BE; cImpl := Reference; cGen := GenSHAKE; cAes := AesC |}.
Definition rand976 : generator := fun buf n => Ok (ztab n (fun i => (i * 7 + 3) mod 256), 0) [].
Lemma bytestr_ztab n f : 0 <= n -> (forall i, 0 <= f i < 256) -> bytestr n (ztab n f).
Proof. intros; split; [apply zlen_ztab; lia|apply inrange_ztab; auto]. Qed.
Lemma mod256 x : 0 <= x mod 256 < 256. Proof. apply Z.mod_pos_bound; lia. Qed.
Example C05_keypair_hyps :
  let r := ztab 64 (fun i => (i * 7 + 3) mod 256) in
  bytestr 24 (zslice r 0 24) /\ bytestr 24 (zslice r 24 24) /\ bytestr 16 (zslice r 48 16) /\
  delivers rand976 64 (zslice r 0 24 ++ zslice r 24 24 ++ zslice r 48 16) 0 /\
  region (uninit 60000) 16 (pkBytes frodo976) /\ region (uninit 60000) 20000 (skBytes frodo976) /\
  disjoint 16 (pkBytes frodo976) 20000 (skBytes frodo976).
Proof.
  intros r. assert (Lr : zlen r = 64) by (apply zlen_ztab; lia).
  assert (Br : bytes_ok r) by (apply inrange_ztab; intros; apply mod256).
  assert (L : zlen (uninit 60000) = 60000) by (apply zlen_uninit; lia).
  repeat split; try (apply zlen_zslice; lia); try (apply inrange_zslice; exact Br);
    try (unfold region; rewrite L); try (unfold disjoint); try (cbn; lia).
  exists []. reflexivity.
Qed.
Definition mem976 : list Z := ztab 100000 (fun i => (i * i + 5) mod 256).
Example C05_enc_dec_hyps :
  bytestr (bytesMu frodo976) (ztab 24 (fun i => (i * 7 + 3) mod 256)) /\
  delivers rand976 (bytesMu frodo976) (ztab 24 (fun i => (i * 7 + 3) mod 256)) 0 /\
  holds mem976 20000 (pkBytes frodo976) (zslice mem976 20000 15632) /\ bytes_ok (zslice mem976 20000 15632) /\
  holds mem976 50000 (skBytes frodo976) (zslice mem976 50000 31296) /\ bytes_ok (zslice mem976 50000 31296) /\
  holds mem976 1000 (ctBytes frodo976) (zslice mem976 1000 15744) /\ bytes_ok (zslice mem976 1000 15744) /\
  region mem976 0 24 /\ disjoint 1000 (ctBytes frodo976) 20000 (pkBytes frodo976) /\ build_ok C976.
Proof.
  assert (L : zlen mem976 = 100000) by (apply zlen_ztab; lia).
  assert (Bm : bytes_ok mem976) by (apply inrange_ztab; intros; apply mod256).
  split; [apply (bytestr_ztab 24); [lia|intros; apply mod256]|].
  split; [exists []; reflexivity|].
  unfold holds, region, disjoint. rewrite L.
  repeat split; try (apply inrange_zslice; exact Bm); try reflexivity; try (cbn; lia). intros H; exfalso; apply H; reflexivity.
Qed.

(* ------------------------------------------------------------------ *)
(** ** C04: exact output sizes, every byte determined, nothing else touched *)
Theorem C04_keypair : forall C rb rc s seedSE z,
  let P := cP C in
  valid P -> bytestr (pCB P) s -> bytestr (pCB P) seedSE -> bytestr 16 z ->
  delivers rb (2 * pCB P + 16) (s ++ seedSE ++ z) rc ->
  exists PK SK, bytestr (pkBytes P) PK /\ bytestr (skBytes P) SK /\
  forall mem pk sk, region mem pk (pkBytes P) -> region mem sk (skBytes P) -> disjoint pk (pkBytes P) sk (skBytes P) ->
  exists mem' l, returns (crypto_kem_keypair C rb mem pk sk) (mem', l, 0) /\ zlen mem' = zlen mem /\
    forall i, 0 <= i < zlen mem -> znth mem' i =
      if (pk <=? i) && (i <? pk + pkBytes P) then znth PK (i - pk)
      else if (sk <=? i) && (i <? sk + skBytes P) then znth SK (i - sk) else znth mem i.
Proof.
  intros C rb rc s seedSE z P V Hs Hse Hz Hrb.
  pose proof (fun mem pk sk => C05_keypair C rb rc mem pk sk s seedSE z V Hs Hse Hz Hrb) as H. fold P in H.
  pose proof (KeyGen_parts P (cGen C) V s seedSE z (proj1 Hs)) as K.
  destruct (KeyGen P (cGen C) s seedSE z) as [PK SK]. destruct K as (L1 & B1 & L2 & B2 & _).
  exists PK, SK. split; [split; auto|]. split; [split; [auto|apply B2, Hs]|].
  intros mem pk sk (Hpk & Hpk2) (Hsk & Hsk2) Hd. destruct (H mem pk sk) as (l & HR); [split; auto|split; auto|auto|].
  exists (stored (stored mem pk PK) sk SK), l. split; [exact HR|].
  assert (Lm : zlen (stored mem pk PK) = zlen mem) by (apply zlen_zsplice; lia).
  split; [unfold stored at 1; rewrite zlen_zsplice; lia|].
  intros i Hi. destruct (stored_spec (stored mem pk PK) sk SK i) as (_ & E1); [split; lia|lia|]. rewrite E1.
  destruct (stored_spec mem pk PK i) as (_ & E2); [split; lia|lia|]. rewrite E2, L1, L2. unfold disjoint in Hd.
  destruct (Z.leb_spec pk i), (Z.ltb_spec i (pk + pkBytes P)), (Z.leb_spec sk i), (Z.ltb_spec i (sk + skBytes P)); cbn [andb]; try reflexivity; lia.
Qed.
Print Assumptions C04_keypair.
Theorem C04_enc : forall C rb rc PK mu,
  let P := cP C in
  valid P -> build_ok C -> bytestr (pkBytes P) PK -> bytestr (bytesMu P) mu -> delivers rb (bytesMu P) mu rc ->
  exists CT SS, bytestr (ctBytes P) CT /\ bytestr (pCB P) SS /\
  forall mem ct ss pk, holds mem pk (pkBytes P) PK -> region mem ct (ctBytes P) -> region mem ss (pCB P) ->
    disjoint ct (ctBytes P) pk (pkBytes P) -> disjoint ss (pCB P) ct (ctBytes P) ->
  exists mem' l, returns (crypto_kem_enc C rb mem ct ss pk) (mem', l, 0) /\ zlen mem' = zlen mem /\
    forall i, 0 <= i < zlen mem -> znth mem' i =
      if (ct <=? i) && (i <? ct + ctBytes P) then znth CT (i - ct)
      else if (ss <=? i) && (i <? ss + pCB P) then znth SS (i - ss) else znth mem i.
Proof.
  intros C rb rc PK mu P V Hb (LPK & BPK) Hmu Hrb.
  pose proof (fun mem ct ss pk => C05_enc C rb rc mem ct ss pk PK mu V Hb Hmu Hrb) as H. fold P in H.
  pose proof (Encaps_shape P (cGen C) V PK mu) as K.
  destruct (Encaps P (cGen C) PK mu) as [CT SS]. destruct K as (L1 & B1 & L2 & B2).
  exists CT, SS. split; [split; auto|]. split; [split; auto|].
  intros mem ct ss pk Hpk (Hct & Hct2) (Hss & Hss2) Hd Hd2. destruct (H mem ct ss pk) as (l & HR); [auto|auto|split; auto|split; auto|auto|].
  exists (stored (stored mem ct CT) ss SS), l. split; [exact HR|].
  assert (Lm : zlen (stored mem ct CT) = zlen mem) by (apply zlen_zsplice; lia).
  split; [unfold stored at 1; rewrite zlen_zsplice; lia|].
  intros i Hi. destruct (stored_spec (stored mem ct CT) ss SS i) as (_ & E1); [split; lia|lia|]. rewrite E1.
  destruct (stored_spec mem ct CT i) as (_ & E2); [split; lia|lia|]. rewrite E2, L1, L2. unfold disjoint in Hd2.
  destruct (Z.leb_spec ct i), (Z.ltb_spec i (ct + ctBytes P)), (Z.leb_spec ss i), (Z.ltb_spec i (ss + pCB P)); cbn [andb]; try reflexivity; lia.
Qed.
Print Assumptions C04_enc.

(* ------------------------------------------------------------------ *)
(** ** C03: decapsulation of arbitrary bytes *)
(** [returns] excludes every error of the semantics: out-of-bounds access, uninitialised
    read, signed overflow, bad shift, misalignment, overlapping memcpy, non-termination. *)
Theorem C03_dec_total : forall C mem ss ct sk CT SK,
  let P := cP C in
  valid P -> build_ok C ->
  holds mem sk (skBytes P) SK -> bytes_ok SK -> sk mod 2 = 0 ->
  holds mem ct (ctBytes P) CT -> bytes_ok CT -> region mem ss (pCB P) ->
  exists mem' l, returns (crypto_kem_dec C mem ss ct sk) (mem', l, 0) /\ zlen mem' = zlen mem /\
    bytes_ok (zslice mem' ss (pCB P)) /\
    forall i, 0 <= i < zlen mem -> ~ (ss <= i < ss + pCB P) -> znth mem' i = znth mem i.
Proof.
  intros C mem ss ct sk CT SK P V Hb Hsk Bsk Hal Hct Bct (Hss & Hss2).
  destruct (C05_dec C mem ss ct sk CT SK V Hb Hsk Bsk Hal Hct Bct (conj Hss Hss2)) as (l & HR). fold P in HR.
  pose proof (v_CB P V).
  assert (LD : zlen (Decaps P (cGen C) SK CT) = pCB P).
  { unfold Decaps. destruct (Encrypt _ _ _ _ _ _) as [[? ?] ?]. apply (F_zlen_Hash P (cGen C) V); lia. }
  exists (stored mem ss (Decaps P (cGen C) SK CT)), l. split; [exact HR|].
  split; [apply zlen_zsplice; lia|]. split.
  - unfold stored. rewrite <- LD at 1. rewrite zsplice_slice_same by lia.
    unfold Decaps. destruct (Encrypt _ _ _ _ _ _) as [[? ?] ?]. apply (F_Hash_ok P (cGen C) V).
  - intros i Hi Hn. destruct (stored_spec mem ss (Decaps P (cGen C) SK CT) i) as (_ & ->); [split; lia|lia|].
    rewrite LD. destruct (Z.leb_spec ss i), (Z.ltb_spec i (ss + pCB P)); cbn [andb]; try reflexivity; lia.
Qed.
Print Assumptions C03_dec_total.

(* ------------------------------------------------------------------ *)
(** ** C02: implicit rejection is exact *)
Theorem C02_implicit_rejection : forall C mem ss ct sk CT SK,
  let P := cP C in
  valid P -> build_ok C ->
  holds mem sk (skBytes P) SK -> bytes_ok SK -> sk mod 2 = 0 ->
  holds mem ct (ctBytes P) CT -> bytes_ok CT -> region mem ss (pCB P) ->
  let mu' := Decrypt P SK CT in
  exists k l, returns (crypto_kem_dec C mem ss ct sk) (stored mem ss (Hash P (CT ++ k) (pCB P)), l, 0) /\
    (CT = reencrypt P (cGen C) SK mu' -> k = key_of P SK mu') /\
    (CT <> reencrypt P (cGen C) SK mu' -> k = sk_s P SK).
Proof.
  intros C mem ss ct sk CT SK P V Hb Hsk Bsk Hal Hct Bct Hss mu'.
  destruct (C05_dec C mem ss ct sk CT SK V Hb Hsk Bsk Hal Hct Bct Hss) as (l & HR). fold P in HR.
  assert (LCT : zlen CT = ctBytes P).
  { destruct Hct as ((? & ?) & <-). destruct (F_sizes P (cGen C) V) as (?&?&?&?&?&?&?&?&?&?&?&?). apply zlen_zslice; lia. }
  destruct (Decaps_cases P (cGen C) V SK CT LCT Bct) as (H1 & H2).
  destruct (list_eq_dec Z.eq_dec CT (reencrypt P (cGen C) SK mu')) as [E|E].
  - exists (key_of P SK mu'), l. rewrite (H1 E) in HR. split; [exact HR|]. split; [reflexivity|contradiction].
  - exists (sk_s P SK), l. rewrite (H2 E) in HR. split; [exact HR|]. split; [contradiction|reflexivity].
Qed.
Print Assumptions C02_implicit_rejection.

(* ------------------------------------------------------------------ *)
(** ** C28: at most one ciphertext is accepted per recovered message *)
Theorem C28_unique_ciphertext : forall P g SK CT1 CT2,
  accepted P g SK CT1 -> accepted P g SK CT2 -> Decrypt P SK CT1 = Decrypt P SK CT2 -> CT1 = CT2.
Proof. unfold accepted; intros P g SK CT1 CT2 E1 E2 E. rewrite E1, E2, E. reflexivity. Qed.
Print Assumptions C28_unique_ciphertext.
(** At the API: a byte string that differs from an accepted ciphertext but decrypts to the
    same message gets the rejection secret. *)
Theorem C28_modified_rejected : forall C mem ss ct sk CT CT' SK,
  let P := cP C in
  valid P -> build_ok C ->
  accepted P (cGen C) SK CT -> CT' <> CT -> Decrypt P SK CT' = Decrypt P SK CT ->
  holds mem sk (skBytes P) SK -> bytes_ok SK -> sk mod 2 = 0 ->
  holds mem ct (ctBytes P) CT' -> bytes_ok CT' -> region mem ss (pCB P) ->
  exists l, returns (crypto_kem_dec C mem ss ct sk) (stored mem ss (Hash P (CT' ++ sk_s P SK) (pCB P)), l, 0).
Proof.
  intros C mem ss ct sk CT CT' SK P V Hb HA Hne HD Hsk Bsk Hal Hct Bct Hss.
  destruct (C02_implicit_rejection C mem ss ct sk CT' SK V Hb Hsk Bsk Hal Hct Bct Hss) as (k & l & HR & _ & Hk).
  exists l. fold P in HR, Hk. rewrite <- Hk; [exact HR|]. intros E. apply Hne.
  apply (C28_unique_ciphertext P (cGen C) SK); auto.
Qed.
Print Assumptions C28_modified_rejected.
(** Accepted ciphertexts exist: every encapsulation to a generated key with tolerable
    noise is one (and every encapsulation is the re-encryption of its message). *)
Theorem C28_honest_accepted : forall P g s seedSE z mu,
  valid P -> zlen s = pCB P -> zlen mu = bytesMu P -> bytes_ok mu ->
  let '(PK, SK) := KeyGen P g s seedSE z in
  let '(CT, SS) := Encaps P g PK mu in
  (forall t, 0 <= t < 64 -> tolerated (pD P) (pB P) (noise P seedSE (Hash P PK (pCB P)) mu t)) ->
  accepted P g SK CT.
Proof.
  intros P g s seedSE z mu V Ls Lmu Bmu.
  pose proof (Decrypt_Encaps P g V s seedSE z mu Ls Lmu Bmu) as HD.
  pose proof (Encaps_reencrypt P g V s seedSE z mu Ls) as HR.
  destruct (KeyGen P g s seedSE z) as [PK SK]. destruct (Encaps P g PK mu) as [CT SS].
  intros Ht. apply HD in Ht. destruct HR as (HR & _). unfold accepted. rewrite Ht. exact HR.
Qed.
Print Assumptions C28_honest_accepted.

(* ------------------------------------------------------------------ *)
(** ** C01: agreement under the exact noise condition *)
(** Key generation, encapsulation and decapsulation may run in different processes with
    different builds (C1, C2, C3) and different memories; pk, ct, sk are copied between
    them. *)
Lemma read_stored mem a n x : zlen x = n -> region mem a n -> zslice (stored mem a x) a n = x.
Proof. intros <- (? & ?); apply zsplice_slice_same; lia. Qed.
Lemma read_stored_other mem a x b m : region mem a (zlen x) -> region mem b m -> 0 <= m -> disjoint a (zlen x) b m ->
  zslice (stored mem a x) b m = zslice mem b m.
Proof. intros (? & ?) (? & ?) ? Hd; apply zslice_zsplice_other; try lia. unfold disjoint in Hd; lia. Qed.

Section C01.
Variables (C1 C2 C3 : config) (rb1 rb2 : generator) (rc1 rc2 : Z).
Variables (mem1 mem2 mem3 : list Z) (pk1 sk1 pk2 ct2 ss2 sk3 ct3 ss3 : Z) (s seedSE z mu : list Z).
Let P := cP C1.
Definition C01_setting (mem1' mem2' : list Z) : Prop :=
  valid P /\ cP C2 = P /\ cP C3 = P /\ cGen C2 = cGen C1 /\ cGen C3 = cGen C1 /\ build_ok C2 /\ build_ok C3 /\
  bytestr (pCB P) s /\ bytestr (pCB P) seedSE /\ bytestr 16 z /\ bytestr (bytesMu P) mu /\
  delivers rb1 (2 * pCB P + 16) (s ++ seedSE ++ z) rc1 /\ delivers rb2 (bytesMu P) mu rc2 /\
  (* process 1 makes a key pair *)
  region mem1 pk1 (pkBytes P) /\ region mem1 sk1 (skBytes P) /\ disjoint pk1 (pkBytes P) sk1 (skBytes P) /\
  (exists l, returns (crypto_kem_keypair C1 rb1 mem1 pk1 sk1) (mem1', l, 0)) /\
  (* process 2 encapsulates to that public key *)
  holds mem2 pk2 (pkBytes P) (zslice mem1' pk1 (pkBytes P)) /\
  region mem2 ct2 (ctBytes P) /\ region mem2 ss2 (pCB P) /\
  disjoint ct2 (ctBytes P) pk2 (pkBytes P) /\ disjoint ss2 (pCB P) ct2 (ctBytes P) /\
  (exists l, returns (crypto_kem_enc C2 rb2 mem2 ct2 ss2 pk2) (mem2', l, 0)) /\
  (* process 3 has the secret key and the ciphertext *)
  holds mem3 sk3 (skBytes P) (zslice mem1' sk1 (skBytes P)) /\ sk3 mod 2 = 0 /\
  holds mem3 ct3 (ctBytes P) (zslice mem2' ct2 (ctBytes P)) /\ region mem3 ss3 (pCB P).

Lemma C01_values mem1' mem2' : C01_setting mem1' mem2' ->
  let PK := fst (KeyGen P (cGen C1) s seedSE z) in
  let SK := snd (KeyGen P (cGen C1) s seedSE z) in
  let CT := fst (Encaps P (cGen C1) PK mu) in
  let SS := snd (Encaps P (cGen C1) PK mu) in
  zslice mem1' pk1 (pkBytes P) = PK /\ zslice mem1' sk1 (skBytes P) = SK /\
  zslice mem2' ct2 (ctBytes P) = CT /\ zslice mem2' ss2 (pCB P) = SS /\ bytes_ok SK /\ bytes_ok CT /\ zlen CT = ctBytes P.
Proof.
  intros (V & EP2 & EP3 & Eg2 & Eg3 & Hb2 & Hb3 & Hs & Hse & Hz & Hmu & Hrb1 & Hrb2 & Rpk1 & Rsk1 & D1 & (l1 & R1) &
    Hpk2 & Rct2 & Rss2 & D2 & D3 & (l2 & R2) & Hsk3 & Hal & Hct3 & Rss3).
  pose proof (C05_keypair C1 rb1 rc1 mem1 pk1 sk1 s seedSE z V Hs Hse Hz Hrb1 Rpk1 Rsk1 D1) as K. fold P in K.
  pose proof (KeyGen_parts P (cGen C1) V s seedSE z (proj1 Hs)) as KP.
  destruct (KeyGen P (cGen C1) s seedSE z) as [PK SK]. cbn [fst snd].
  destruct KP as (LPK & BPK & LSK & BSK & _). destruct K as (l1' & K).
  pose proof (returns_inj _ _ _ R1 K) as E1; injection E1; intros _ ->. clear E1 K.
  assert (Rsk1' : region (stored mem1 pk1 PK) sk1 (skBytes P)).
  { destruct Rsk1 as (H1 & H2), Rpk1. split; [exact H1|]. unfold stored; rewrite zlen_zsplice; lia. }
  assert (Rpk1' : region (stored mem1 pk1 PK) pk1 (pkBytes P)).
  { destruct Rpk1 as (H1 & H2). split; [exact H1|]. unfold stored; rewrite zlen_zsplice; lia. }
  assert (EPK : zslice (stored (stored mem1 pk1 PK) sk1 SK) pk1 (pkBytes P) = PK).
  { rewrite read_stored_other; [apply read_stored; auto|rewrite LSK; exact Rsk1'|exact Rpk1'|rewrite <- LPK; apply zlen_nonneg|].
    rewrite LSK. unfold disjoint in *; lia. }
  assert (ESK : zslice (stored (stored mem1 pk1 PK) sk1 SK) sk1 (skBytes P) = SK) by (apply read_stored; auto).
  rewrite EPK, ESK in *.
  pose proof (C05_enc C2 rb2 rc2 mem2 ct2 ss2 pk2 PK mu) as K. rewrite EP2, Eg2 in K.
  specialize (K V Hb2 Hmu Hrb2 Hpk2 BPK Rct2 Rss2 D2).
  pose proof (Encaps_shape P (cGen C1) V PK mu) as KS.
  destruct (Encaps P (cGen C1) PK mu) as [CT SS]. cbn [fst snd].
  destruct KS as (LCT & BCT & LSS & BSS). destruct K as (l2' & K).
  pose proof (returns_inj _ _ _ R2 K) as E1; injection E1; intros _ ->. clear E1 K.
  assert (Rss2' : region (stored mem2 ct2 CT) ss2 (pCB P)).
  { destruct Rss2 as (H1 & H2), Rct2. split; [exact H1|]. unfold stored; rewrite zlen_zsplice; lia. }
  assert (Rct2' : region (stored mem2 ct2 CT) ct2 (ctBytes P)).
  { destruct Rct2 as (H1 & H2). split; [exact H1|]. unfold stored; rewrite zlen_zsplice; lia. }
  split; [reflexivity|]. split; [reflexivity|]. split.
  { rewrite read_stored_other; [apply read_stored; auto|rewrite LSS; exact Rss2'|exact Rct2'|rewrite <- LCT; apply zlen_nonneg|].
    rewrite LSS. exact D3. }
  split; [apply read_stored; auto|]. split; [apply BSK, Hs|auto].
Qed.

(** If the noise of this exchange is tolerable, both sides get the same secret; if not,
    the recovered message is wrong. *)
Theorem C01_agreement : forall mem1' mem2', C01_setting mem1' mem2' ->
  let PK := zslice mem1' pk1 (pkBytes P) in
  let SK := zslice mem1' sk1 (skBytes P) in
  let CT := zslice mem2' ct2 (ctBytes P) in
  let ok := forall t, 0 <= t < 64 -> tolerated (pD P) (pB P) (noise P seedSE (Hash P PK (pCB P)) mu t) in
  (ok -> exists l, returns (crypto_kem_dec C3 mem3 ss3 ct3 sk3)
                           (stored mem3 ss3 (zslice mem2' ss2 (pCB P)), l, 0)) /\
  (~ ok -> Decrypt P SK CT <> mu).
Proof.
  intros mem1' mem2' HS. destruct (C01_values _ _ HS) as (E1 & E2 & E3 & E4 & BSK & BCT & LCT).
  cbv zeta. rewrite E1, E2, E3, E4.
  destruct HS as (V & EP2 & EP3 & Eg2 & Eg3 & Hb2 & Hb3 & Hs & Hse & Hz & Hmu & Hrb1 & Hrb2 & Rpk1 & Rsk1 & D1 & (l1 & R1) &
    Hpk2 & Rct2 & Rss2 & D2 & D3 & (l2 & R2) & Hsk3 & Hal & Hct3 & Rss3).
  pose proof (Decrypt_Encaps P (cGen C1) V s seedSE z mu (proj1 Hs) (proj1 Hmu) (proj2 Hmu)) as HD.
  pose proof (Encaps_reencrypt P (cGen C1) V s seedSE z mu (proj1 Hs)) as HR.
  rewrite E2 in Hsk3. rewrite E3 in Hct3.
  destruct (KeyGen P (cGen C1) s seedSE z) as [PK SK]. cbn [fst snd] in *.
  destruct (Encaps P (cGen C1) PK mu) as [CT SS]. cbn [fst snd] in *. destruct HR as (HR & HS).
  split; [|intros Hn E; apply Hn, HD, E].
  intros Hok. apply HD in Hok.
  pose proof (C05_dec C3 mem3 ss3 ct3 sk3 CT SK) as K. rewrite EP3, Eg3 in K.
  specialize (K V Hb3 Hsk3 BSK Hal Hct3 BCT Rss3).
  destruct (Decaps_cases P (cGen C1) V SK CT LCT BCT) as (H1 & _).
  rewrite H1 in K; [rewrite Hok, <- HS in K; exact K|]. unfold accepted. rewrite Hok; exact HR.
Qed.
End C01.
Print Assumptions C01_agreement.

(** The setting is met: three builds of toy-size FrodoKEM.  (mem1' and mem2' are what C05
    says the two calls return.) *)
Lemma C01_setting_exists : forall C1 C2 C3 s seedSE z mu rc1 rc2, valid (cP C1) -> cP C2 = cP C1 -> cP C3 = cP C1 ->
  cGen C2 = cGen C1 -> cGen C3 = cGen C1 -> build_ok C2 -> build_ok C3 ->
  bytestr (pCB (cP C1)) s -> bytestr (pCB (cP C1)) seedSE -> bytestr 16 z -> bytestr (bytesMu (cP C1)) mu ->
  let P := cP C1 in
  let L := skBytes P + pkBytes P + ctBytes P + pCB P in
  exists mem3 mem1' mem2',
  C01_setting C1 C2 C3 (fun _ _ => Ok (s ++ seedSE ++ z, rc1) []) (fun _ _ => Ok (mu, rc2) [])
    rc1 rc2 (uninit L) (fst (KeyGen P (cGen C1) s seedSE z) ++ uninit (skBytes P + ctBytes P + pCB P)) mem3 0 (pkBytes P)
    0 (pkBytes P) (pkBytes P + ctBytes P) 0 (skBytes P) (skBytes P + ctBytes P) s seedSE z mu mem1' mem2'.
Proof.
  intros C1 C2 C3 s seedSE z mu rc1 rc2 V E2 E3 G2 G3 Hb2 Hb3 Hs Hse Hz Hmu P L.
  destruct (F_sizes P (cGen C1) V) as (HN & HD & HB & HCB & HDN & ENN & EbB & EbC & EbMu & Epk & Esk & Ect).
  pose proof (KeyGen_parts P (cGen C1) V s seedSE z (proj1 Hs)) as KP.
  assert (LL : zlen (uninit L) = L) by (apply zlen_uninit; unfold L; lia).
  pose proof (C05_keypair C1 (fun _ _ => Ok (s ++ seedSE ++ z, rc1) []) rc1 (uninit L) 0 (pkBytes P) s seedSE z V Hs Hse Hz) as R1.
  fold P in R1. unfold region in R1; rewrite LL in R1.
  specialize (R1 ltac:(exists []; reflexivity) ltac:(unfold L; lia) ltac:(unfold L; lia) ltac:(left; lia)).
  destruct (KeyGen P (cGen C1) s seedSE z) as [PK SK]. destruct KP as (LPK & BPK & LSK & BSK & _). destruct R1 as (l1 & R1). cbn [fst].
  set (mem2 := PK ++ uninit (skBytes P + ctBytes P + pCB P)).
  assert (L2 : zlen mem2 = L) by (unfold mem2; rewrite zlen_app, zlen_uninit; unfold L; lia).
  assert (EPK : zslice (stored (stored (uninit L) 0 PK) (pkBytes P) SK) 0 (pkBytes P) = PK).
  { rewrite read_stored_other; [apply read_stored; [auto|split; [lia|rewrite ?LL; unfold L; lia]]|..].
    - split; [lia|]. unfold stored; rewrite zlen_zsplice; rewrite ?LL; unfold L; lia.
    - split; [lia|]. unfold stored; rewrite zlen_zsplice; rewrite ?LL; unfold L; lia.
    - lia.
    - right; lia. }
  assert (Hpk2 : holds mem2 0 (pkBytes P) PK).
  { split; [split; lia|]. unfold mem2; apply zslice_app1; lia. }
  pose proof (C05_enc C2 (fun _ _ => Ok (mu, rc2) []) rc2 mem2 (pkBytes P) (pkBytes P + ctBytes P) 0 PK mu) as R2.
  rewrite E2, G2 in R2. fold P in R2. unfold region in R2; rewrite L2 in R2.
  specialize (R2 V Hb2 Hmu ltac:(exists []; reflexivity) Hpk2 BPK ltac:(unfold L; lia) ltac:(unfold L; lia) ltac:(right; lia)).
  pose proof (Encaps_shape P (cGen C1) V PK mu) as KS.
  destruct (Encaps P (cGen C1) PK mu) as [CT SS]. destruct KS as (LCT & BCT & LSS & BSS). destruct R2 as (l2 & R2).
  exists (SK ++ CT ++ uninit (pCB P)). eexists; eexists. unfold C01_setting. fold P.
  split; [exact V|]. split; [exact E2|]. split; [exact E3|]. split; [exact G2|]. split; [exact G3|]. split; [exact Hb2|]. split; [exact Hb3|].
  split; [exact Hs|]. split; [exact Hse|]. split; [exact Hz|]. split; [exact Hmu|].
  split; [exists []; reflexivity|]. split; [exists []; reflexivity|].
  split; [split; [lia|rewrite ?LL; unfold L; lia]|]. split; [split; [lia|rewrite ?LL; unfold L; lia]|].
  split; [left; lia|]. split; [exists l1; exact R1|].
  split; [rewrite EPK; exact Hpk2|]. split; [split; unfold L in *; lia|]. split; [split; unfold L in *; lia|].
  split; [right; lia|]. split; [right; lia|]. split; [exists l2; exact R2|].
  assert (ESK : zslice (stored (stored (uninit L) 0 PK) (pkBytes P) SK) (pkBytes P) (skBytes P) = SK).
  { apply read_stored; [auto|]. split; [lia|]. unfold stored; rewrite zlen_zsplice; rewrite ?LL; unfold L; lia. }
  rewrite ESK.
  assert (ECT : zslice (stored (stored mem2 (pkBytes P) CT) (pkBytes P + ctBytes P) SS) (pkBytes P) (ctBytes P) = CT).
  { rewrite read_stored_other; [apply read_stored; [auto|split; unfold L in *; lia]|..].
    - split; [lia|]. unfold stored; rewrite zlen_zsplice; unfold L in *; lia.
    - split; [lia|]. unfold stored; rewrite zlen_zsplice; unfold L in *; lia.
    - lia.
    - right; lia. }
  rewrite ECT.
  split; [split; [split; [lia|rewrite !zlen_app, zlen_uninit; lia]|apply zslice_app1; lia]|].
  split; [reflexivity|].
  split; [split; [split; [lia|rewrite !zlen_app, zlen_uninit; lia]|apply zslice_mid; lia]|].
  split; [lia|rewrite !zlen_app, zlen_uninit; lia].
Qed.

(* ------------------------------------------------------------------ *)
(** ** C27: worst-case noise *)
Definition t_max (P : params) : Z := zlen (pCDF P) - 1.
Lemma noise_bound P seedSE pkh mu t : valid P -> Z.abs (noise P seedSE pkh mu t) <= 2 * pN P * (t_max P) ^ 2 + t_max P.
Proof.
  intros V. pose proof (v_N P V). pose proof (v_cdf_len P V). unfold noise; cbv zeta.
  assert (H1 : forall f h, (forall j, Z.abs (f j) <= t_max P) -> (forall j, Z.abs (h j) <= t_max P) ->
    Z.abs (zsum (pN P) (fun j => f j * h j)) <= pN P * (t_max P) ^ 2).
  { intros f h Hf Hh. apply zsum_bound; [lia|]. intros j _. rewrite Z.abs_mul, Z.pow_2_r.
    apply Z.mul_le_mono_nonneg; auto using Z.abs_nonneg. }
  match goal with |- Z.abs (zsum _ ?f + ?x - zsum _ ?h) <= _ =>
    assert (A1 : Z.abs (zsum (pN P) f) <= pN P * t_max P ^ 2) by (apply H1; intros; apply sample_range; exact V);
    assert (A2 : Z.abs (zsum (pN P) h) <= pN P * t_max P ^ 2) by (apply H1; intros; apply sample_range; exact V);
    assert (A3 : Z.abs x <= t_max P) by (apply sample_range; exact V) end.
  lia.
Qed.
(** If the bound fits, decryption of every encapsulation succeeds. *)
Theorem C27_no_failure : forall P g s seedSE z mu,
  valid P -> 2 * pN P * (t_max P) ^ 2 + t_max P < 2 ^ (pD P - pB P - 1) ->
  zlen s = pCB P -> zlen mu = bytesMu P -> bytes_ok mu ->
  let '(PK, SK) := KeyGen P g s seedSE z in
  let '(CT, SS) := Encaps P g PK mu in
  Decrypt P SK CT = mu /\ Decaps P g SK CT = SS.
Proof.
  intros P g s seedSE z mu V Hb Ls Lmu Bmu.
  pose proof (Decrypt_Encaps P g V s seedSE z mu Ls Lmu Bmu) as HD.
  pose proof (Encaps_reencrypt P g V s seedSE z mu Ls) as HR.
  destruct (KeyGen P g s seedSE z) as [PK SK]. pose proof (Encaps_shape P g V PK mu) as HS.
  destruct (Encaps P g PK mu) as [CT SS]. destruct HS as (LCT & BCT & _). destruct HR as (HR & HR2).
  assert (E : Decrypt P SK CT = mu).
  { apply HD. intros t Ht. exists 0. pose proof (noise_bound P seedSE (Hash P PK (pCB P)) mu t V). lia. }
  split; [exact E|]. destruct (Decaps_cases P g V SK CT LCT BCT) as (H1 & _).
  rewrite H1, E, HR2; [reflexivity|]. unfold accepted; rewrite E; exact HR.
Qed.
Print Assumptions C27_no_failure.
(** A parameter set that meets the bound... *)
Definition toy_small : params := {| pN := 16; pD := 15; pB := 2; pCB := 16; pRate := 168; pCDF := pCDF frodo976 |}.
Example C27_met : valid toy_small /\ 2 * pN toy_small * (t_max toy_small) ^ 2 + t_max toy_small < 2 ^ (pD toy_small - pB toy_small - 1).
Proof. split; [solve_valid|reflexivity]. Qed.
(** ... and the shipped ones, which do not: correctness is statistical. *)
Theorem C27_shipped : forall P, P = frodo640 \/ P = frodo976 \/ P = frodo1344 ->
  2 ^ (pD P - pB P - 1) <= 2 * pN P * (t_max P) ^ 2 + t_max P.
Proof. intros P [-> | [-> | -> ]]; vm_compute; discriminate. Qed.
Print Assumptions C27_shipped.
Theorem C27_coefficients : forall r from cnt i,
  Z.abs (znth (SampleMatrix frodo640 r from cnt) i) <= 12 /\
  Z.abs (znth (SampleMatrix frodo976 r from cnt) i) <= 10 /\
  Z.abs (znth (SampleMatrix frodo1344 r from cnt) i) <= 6.
Proof.
  intros. split; [exact (sample_range frodo640 valid_640 r from cnt i)|].
  split; [exact (sample_range frodo976 valid_976 r from cnt i)|exact (sample_range frodo1344 valid_1344 r from cnt i)].
Qed.
Print Assumptions C27_coefficients.
(** The bounds are attained. *)
Example C27_attained : sample_spec (pCDF frodo640) 65535 = -12 /\ sample_spec (pCDF frodo976) 65534 = 10 /\ sample_spec (pCDF frodo1344) 65535 = -6.
Proof. repeat split. Qed.

(* ------------------------------------------------------------------ *)
(** ** C06, C07, C29 at the API: builds, byte orders, in-place update *)
(** Any two builds with the same parameters and matrix generation, each either the
    reference code on any host or optimized/AVX2 code on a little-endian host. *)
Definition same_scheme (C1 C2 : config) : Prop := cP C1 = cP C2 /\ cGen C1 = cGen C2.
Theorem C06_C07_keypair : forall C1 C2 rb rc mem pk sk s seedSE z,
  same_scheme C1 C2 -> let P := cP C1 in valid P ->
  bytestr (pCB P) s -> bytestr (pCB P) seedSE -> bytestr 16 z ->
  delivers rb (2 * pCB P + 16) (s ++ seedSE ++ z) rc ->
  region mem pk (pkBytes P) -> region mem sk (skBytes P) -> disjoint pk (pkBytes P) sk (skBytes P) ->
  exists mem' l1 l2, returns (crypto_kem_keypair C1 rb mem pk sk) (mem', l1, 0) /\
                     returns (crypto_kem_keypair C2 rb mem pk sk) (mem', l2, 0).
Proof.
  intros C1 C2 rb rc mem pk sk s seedSE z (EP & Eg) P V Hs Hse Hz Hrb Rpk Rsk Hd.
  pose proof (C05_keypair C1 rb rc mem pk sk s seedSE z V Hs Hse Hz Hrb Rpk Rsk Hd) as K1.
  pose proof (C05_keypair C2 rb rc mem pk sk s seedSE z) as K2. cbv zeta in K1, K2. rewrite <- EP, <- Eg in K2.
  specialize (K2 V Hs Hse Hz Hrb Rpk Rsk Hd). destruct (KeyGen (cP C1) (cGen C1) s seedSE z) as [PK SK].
  destruct K1 as (l1 & K1), K2 as (l2 & K2). eauto.
Qed.
Print Assumptions C06_C07_keypair.
Theorem C06_C07_C29_enc : forall C1 C2 rb rc mem ct ss pk PK mu,
  same_scheme C1 C2 -> let P := cP C1 in valid P -> build_ok C1 -> build_ok C2 ->
  bytestr (bytesMu P) mu -> delivers rb (bytesMu P) mu rc ->
  holds mem pk (pkBytes P) PK -> bytes_ok PK ->
  region mem ct (ctBytes P) -> region mem ss (pCB P) -> disjoint ct (ctBytes P) pk (pkBytes P) ->
  exists mem' l1 l2, returns (crypto_kem_enc C1 rb mem ct ss pk) (mem', l1, 0) /\
                     returns (crypto_kem_enc C2 rb mem ct ss pk) (mem', l2, 0).
Proof.
  intros C1 C2 rb rc mem ct ss pk PK mu (EP & Eg) P V Hb1 Hb2 Hmu Hrb Hpk Bpk Rct Rss Hd.
  pose proof (C05_enc C1 rb rc mem ct ss pk PK mu V Hb1 Hmu Hrb Hpk Bpk Rct Rss Hd) as K1.
  pose proof (C05_enc C2 rb rc mem ct ss pk PK mu) as K2. cbv zeta in K1, K2. rewrite <- EP, <- Eg in K2.
  specialize (K2 V Hb2 Hmu Hrb Hpk Bpk Rct Rss Hd). destruct (Encaps (cP C1) (cGen C1) PK mu) as [CT SS].
  destruct K1 as (l1 & K1), K2 as (l2 & K2). eauto.
Qed.
Print Assumptions C06_C07_C29_enc.
Theorem C06_C07_C29_dec : forall C1 C2 mem ss ct sk CT SK,
  same_scheme C1 C2 -> let P := cP C1 in valid P -> build_ok C1 -> build_ok C2 ->
  holds mem sk (skBytes P) SK -> bytes_ok SK -> sk mod 2 = 0 ->
  holds mem ct (ctBytes P) CT -> bytes_ok CT -> region mem ss (pCB P) ->
  exists mem' l1 l2, returns (crypto_kem_dec C1 mem ss ct sk) (mem', l1, 0) /\
                     returns (crypto_kem_dec C2 mem ss ct sk) (mem', l2, 0).
Proof.
  intros C1 C2 mem ss ct sk CT SK (EP & Eg) P V Hb1 Hb2 Hsk Bsk Hal Hct Bct Rss.
  pose proof (C05_dec C1 mem ss ct sk CT SK V Hb1 Hsk Bsk Hal Hct Bct Rss) as K1.
  pose proof (C05_dec C2 mem ss ct sk CT SK) as K2. cbv zeta in K1, K2. rewrite <- EP, <- Eg in K2.
  specialize (K2 V Hb2 Hsk Bsk Hal Hct Bct Rss). destruct K1 as (l1 & K1), K2 as (l2 & K2). eauto.
Qed.
Print Assumptions C06_C07_C29_dec.
Example same_scheme_ok : same_scheme C976 {| cP := frodo976; cEn := LE; cImpl := AVX2; cGen := GenSHAKE; cAes := AesNI |}.
Proof. split; reflexivity. Qed.

(* ------------------------------------------------------------------ *)
(** ** C18: secrets are wiped before returning *)
(** In all three functions the arrays marked "contains secret data" in the source are zero
    on return; of those holding secrets next to public data (randomness, G2in, Fin) the
    secret part is zero and the rest is the public value shown. *)
Theorem C18_keypair : forall C rb rc mem pk sk s seedSE z,
  let P := cP C in
  valid P -> bytestr (pCB P) s -> bytestr (pCB P) seedSE -> bytestr 16 z ->
  delivers rb (2 * pCB P + 16) (s ++ seedSE ++ z) rc ->
  region mem pk (pkBytes P) -> region mem sk (skBytes P) -> disjoint pk (pkBytes P) sk (skBytes P) ->
  exists mem' l, returns (crypto_kem_keypair C rb mem pk sk) (mem', l, 0) /\
    kp_S l = zrep (2 * (pN P * 8)) 0 /\ kp_randomness l = zrep (2 * pCB P) 0 ++ z /\ kp_shake_input l = zrep (1 + pCB P) 0.
Proof.
  intros C rb rc mem pk sk s seedSE z P V (Ls & Bs) (Lse & Bse) (Lz & Bz) Hrb (Hpk & Hpk2) (Hsk & Hsk2) Hd.
  pose proof (keypair_wp C V rb rc mem pk sk s seedSE z Ls Lse Lz Bs Bse Bz Hrb Hpk Hpk2 Hsk Hsk2 Hd) as H.
  apply wp_returns_ex in H. destruct H as ([[m l] r] & HR & -> & -> & HW). eexists; exists l; split; [exact HR|exact HW].
Qed.
Print Assumptions C18_keypair.
Theorem C18_enc : forall C rb rc mem ct ss pk PK mu,
  let P := cP C in
  valid P -> build_ok C -> bytestr (bytesMu P) mu -> delivers rb (bytesMu P) mu rc ->
  holds mem pk (pkBytes P) PK -> bytes_ok PK ->
  region mem ct (ctBytes P) -> region mem ss (pCB P) -> disjoint ct (ctBytes P) pk (pkBytes P) ->
  exists mem' l, returns (crypto_kem_enc C rb mem ct ss pk) (mem', l, 0) /\
    en_V l = zrep 64 0 /\ en_Sp l = zrep (16 * pN P + 64) 0 /\
    en_G2in l = Hash P PK (pCB P) ++ zrep (bytesMu P) 0 /\ en_G2out l = zrep (2 * pCB P) 0 /\
    en_Fin l = fst (Encaps P (cGen C) PK mu) ++ zrep (pCB P) 0 /\ en_shake_input l = zrep (1 + pCB P) 0.
Proof.
  intros C rb rc mem ct ss pk PK mu P V Hb (Lmu & Bmu) Hrb ((Hpk & Hpk2) & <-) Bpk (Hct & Hct2) (Hss & Hss2) Hd.
  destruct (sizes C V) as (_ & H & _ & _ & _ & _ & _ & _ & _ & _ & _ & _ & Esp & _).
  assert (Hd' : ct + bytesB P <= pk + 16 \/ pk + pkBytes P <= ct).
  { unfold disjoint, ctBytes in Hd. pose proof (bytesC_eq P). fold P in H. lia. }
  pose proof (enc_wp C V rb rc mem ct ss pk mu Hb Lmu Bmu Hrb Hpk Hpk2 Bpk Hct Hct2 Hss Hss2 Hd') as K. fold P in K, Esp.
  destruct (Encaps P (cGen C) (zslice mem pk (pkBytes P)) mu) as [CT SS]. apply wp_returns_ex in K.
  destruct K as ([[m l] r] & HR & -> & -> & HW). eexists; exists l; split; [exact HR|].
  destruct HW as (W1 & W2 & W3 & W4 & W5 & W6 & _). fold P in W2. rewrite Esp in W2. cbn [fst]. auto 10.
Qed.
Print Assumptions C18_enc.
(** Decapsulation: what is not wiped (BBp, CC) is the re-encryption of the recovered
    message.  When the ciphertext is accepted that is the received ciphertext, i.e.
    public; when it is rejected it depends on the secret key.  The source does not mark
    these two arrays as secret. *)
Theorem C18_dec : forall C mem ss ct sk CT SK,
  let P := cP C in
  valid P -> build_ok C ->
  holds mem sk (skBytes P) SK -> bytes_ok SK -> sk mod 2 = 0 ->
  holds mem ct (ctBytes P) CT -> bytes_ok CT -> region mem ss (pCB P) ->
  exists mem' l, returns (crypto_kem_dec C mem ss ct sk) (mem', l, 0) /\
    de_W l = zrep 64 0 /\ de_Sp l = zrep (16 * pN P + 64) 0 /\ de_S l = zrep (pN P * 8) 0 /\
    de_G2in l = sk_pkh P SK ++ zrep (bytesMu P) 0 /\ de_G2out l = zrep (2 * pCB P) 0 /\
    de_Fin l = CT ++ zrep (pCB P) 0 /\ de_shake_input l = zrep (1 + pCB P) 0 /\
    Pack P (de_BBp l) ++ Pack P (de_CC l) = reencrypt P (cGen C) SK (Decrypt P SK CT).
Proof.
  intros C mem ss ct sk CT SK P V Hb ((Hsk & Hsk2) & <-) Bsk Hal ((Hct & Hct2) & <-) Bct (Hss & Hss2).
  pose proof (dec_wp C V mem ss ct sk Hb Hsk Hsk2 Bsk Hal Hct Hct2 Bct Hss Hss2) as K. cbv zeta in K. fold P in K.
  destruct (sizes C V) as (_ & _ & _ & _ & _ & _ & _ & _ & _ & _ & _ & _ & Esp & _). fold P in Esp.
  apply wp_returns_ex in K. destruct K as ([[m l] r] & HR & -> & -> & HW). eexists; exists l; split; [exact HR|].
  unfold de_wiped in HW. fold P in HW. unfold reencrypt.
  destruct (Encrypt P (cGen C) _ _ _ _) as [[B2 C2] k].
  destruct HW as (W1 & W2 & W3 & W4 & W5 & W6 & W7 & _ & _ & _ & W8 & W9). rewrite Esp in W2. rewrite W8, W9. auto 10.
Qed.
Print Assumptions C18_dec.

(* ------------------------------------------------------------------ *)
(** ** C21: a failure of the generator is not reported *)
(** Whatever the return code: success, and the bytes in the buffer are used. *)
Theorem C21_failure_ignored : forall C rb rc mem pk sk s seedSE z,
  let P := cP C in
  valid P -> bytestr (pCB P) s -> bytestr (pCB P) seedSE -> bytestr 16 z ->
  rc <> 0 -> delivers rb (2 * pCB P + 16) (s ++ seedSE ++ z) rc ->
  region mem pk (pkBytes P) -> region mem sk (skBytes P) -> disjoint pk (pkBytes P) sk (skBytes P) ->
  exists mem' l, returns (crypto_kem_keypair C rb mem pk sk) (mem', l, 0).
Proof.
  intros C rb rc mem pk sk s seedSE z P V Hs Hse Hz _ Hrb Rpk Rsk Hd.
  pose proof (C05_keypair C rb rc mem pk sk s seedSE z V Hs Hse Hz Hrb Rpk Rsk Hd) as K. cbv zeta in K.
  destruct (KeyGen _ _ _ _ _) as [PK SK]. destruct K as (l & K). eauto.
Qed.
Print Assumptions C21_failure_ignored.
Theorem C21_enc_failure_ignored : forall C rb rc mem ct ss pk PK mu,
  let P := cP C in
  valid P -> build_ok C -> bytestr (bytesMu P) mu -> rc <> 0 -> delivers rb (bytesMu P) mu rc ->
  holds mem pk (pkBytes P) PK -> bytes_ok PK ->
  region mem ct (ctBytes P) -> region mem ss (pCB P) -> disjoint ct (ctBytes P) pk (pkBytes P) ->
  exists mem' l, returns (crypto_kem_enc C rb mem ct ss pk) (mem', l, 0).
Proof.
  intros C rb rc mem ct ss pk PK mu P V Hb Hmu _ Hrb Hpk Bpk Rct Rss Hd.
  pose proof (C05_enc C rb rc mem ct ss pk PK mu V Hb Hmu Hrb Hpk Bpk Rct Rss Hd) as K. cbv zeta in K.
  destruct (Encaps _ _ _ _) as [CT SS]. destruct K as (l & K). eauto.
Qed.
Print Assumptions C21_enc_failure_ignored.
(** So the property one would want, "if the generator fails, the call does not return
    success", is refuted. *)
Definition rand_fails : generator := fun buf n => Ok (zrep n 0, 1) [].
Theorem C21_failure_reported_refuted :
  ~ (forall C rb mem pk sk mem' l, valid (cP C) ->
       (forall buf n, exists b, returns (rb buf n) (b, 1)) ->
       ~ returns (crypto_kem_keypair C rb mem pk sk) (mem', l, 0)).
Proof.
  intros H.
  destruct (C21_failure_ignored C976 rand_fails 1 (uninit 60000) 16 20000 (zrep 24 0) (zrep 24 0) (zrep 16 0)) as (m & l & K).
  - exact valid_976.
  - split; [reflexivity|apply inrange_zrep0; lia].
  - split; [reflexivity|apply inrange_zrep0; lia].
  - split; [reflexivity|apply inrange_zrep0; lia].
  - lia.
  - exists []. reflexivity.
  - split; [lia|]. rewrite zlen_uninit; cbn; lia.
  - split; [lia|]. rewrite zlen_uninit; cbn; lia.
  - left; cbn; lia.
  - apply (H C976 rand_fails (uninit 60000) 16 20000 m l valid_976); [|exact K].
    intros buf n; exists (zrep n 0), []; reflexivity.
Qed.
Print Assumptions C21_failure_reported_refuted.

(* ------------------------------------------------------------------ *)
(** ** C25: secret key layout *)
Theorem C25_layout : forall C rb rc mem pk sk s seedSE z,
  let P := cP C in
  valid P -> bytestr (pCB P) s -> bytestr (pCB P) seedSE -> bytestr 16 z ->
  delivers rb (2 * pCB P + 16) (s ++ seedSE ++ z) rc ->
  region mem pk (pkBytes P) -> region mem sk (skBytes P) -> disjoint pk (pkBytes P) sk (skBytes P) ->
  exists mem' l seedA b St E, returns (crypto_kem_keypair C rb mem pk sk) (mem', l, 0) /\
    let PK := zslice mem' pk (pkBytes P) in
    PK = seedA ++ b /\ zlen seedA = 16 /\
    zslice mem' sk (skBytes P) = s ++ PK ++ flat_map (fun x => le16 (x mod 65536)) St ++ Hash P PK (pCB P) /\
    zlen St = pN P * 8 /\ zlen E = pN P * 8 /\
    (forall i, Z.abs (znth St i) <= t_max P /\ Z.abs (znth E i) <= t_max P) /\
    forall i k, 0 <= i < pN P -> 0 <= k < 8 ->
      znth (unpack_spec (pD P) (pN P * 8) b) (8 * i + k) =
      (zsum (pN P) (fun j => A_spec (cGen C) (pN P) seedA i j * znth St (k * pN P + j)) + znth E (8 * i + k)) mod 2 ^ pD P.
Proof.
  intros C rb rc mem pk sk s seedSE z P V Hs Hse Hz Hrb Rpk Rsk Hd.
  pose proof (C05_keypair C rb rc mem pk sk s seedSE z V Hs Hse Hz Hrb Rpk Rsk Hd) as K. cbv zeta in K. fold P in K.
  pose proof (KeyGen_parts P (cGen C) V s seedSE z (proj1 Hs)) as KP.
  assert (EK : KeyGen P (cGen C) s seedSE z = KeyGen P (cGen C) s seedSE z) by reflexivity.
  unfold KeyGen in EK at 2. cbv zeta in EK.
  destruct (KeyGen P (cGen C) s seedSE z) as [PK SK]. injection EK; intros ESK EPK'. clear EK.
  destruct KP as (LPK & BPK & LSK & BSK & EPK & LB & EU & _). destruct K as (l & K).
  destruct (F_sizes P (cGen C) V) as (HN & _).
  set (St := SampleMatrix P (Hash P (95 :: seedSE) (2 * (16 * pN P))) 0 (8 * pN P)) in *.
  set (E := SampleMatrix P (Hash P (95 :: seedSE) (2 * (16 * pN P))) (8 * pN P) (8 * pN P)) in *.
  eexists; exists l, (Hash P z 16). eexists. exists St, E. split; [exact K|].
  assert (Rsk' : region (stored mem pk PK) sk (skBytes P)).
  { destruct Rsk as (H1 & H2), Rpk. split; [exact H1|]. unfold stored; rewrite zlen_zsplice; lia. }
  assert (Rpk' : region (stored mem pk PK) pk (pkBytes P)).
  { destruct Rpk as (H1 & H2). split; [exact H1|]. unfold stored; rewrite zlen_zsplice; lia. }
  assert (E1 : zslice (stored (stored mem pk PK) sk SK) pk (pkBytes P) = PK).
  { rewrite read_stored_other; [apply read_stored; auto|rewrite LSK; exact Rsk'|exact Rpk'|rewrite <- LPK; apply zlen_nonneg|].
    rewrite LSK. unfold disjoint in *; lia. }
  assert (E2 : zslice (stored (stored mem pk PK) sk SK) sk (skBytes P) = SK) by (apply read_stored; auto).
  cbv zeta. rewrite E1, E2. split; [exact EPK|]. split; [apply (F_zlen_Hash P (cGen C) V); lia|].
  split; [rewrite ESK, <- EPK'; reflexivity|].
  split; [unfold St, SampleMatrix; rewrite zlen_ztab; lia|]. split; [unfold E, SampleMatrix; rewrite zlen_ztab; lia|].
  split; [intros i; split; apply (sample_range P V)|].
  intros i k Hi Hk. replace (pN P * 8) with (8 * pN P) by lia. fold (Unpack P (8 * pN P)).
  change (unpack_spec (pD P) (8 * pN P) ?b) with (Unpack P (8 * pN P) b). rewrite EU.
  unfold AS_plus_E. rewrite znth_ztab by lia. replace ((8 * i + k) / 8) with i by dlia. replace ((8 * i + k) mod 8) with k by dlia.
  unfold AS_E. f_equal. lia.
Qed.
Print Assumptions C25_layout.

(* ------------------------------------------------------------------ *)
(** ** C31: alignment *)
(** Decapsulation needs the secret key at an even address; every misaligned call is
    undefined, every aligned call is defined (C03_dec_total). *)
Theorem C31_dec_misaligned : forall C mem ss ct sk,
  valid (cP C) -> sk mod 2 = 1 -> crypto_kem_dec C mem ss ct sk = Err UB_align.
Proof.
  intros C mem ss ct sk V H. unfold crypto_kem_dec; cbv zeta. rewrite (even_sk C V), H. reflexivity.
Qed.
Print Assumptions C31_dec_misaligned.
