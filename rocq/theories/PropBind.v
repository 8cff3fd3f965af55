(** C51: what a shared secret commits to.

    Two parties that end with the same shared secret agree on the ciphertext and on the
    public key, unless two given, different byte strings have the same hash value.  The
    theorems name these byte strings: that some collision exists would say nothing. *)
From Verif Require Import CSem Params Util UtilSpec UtilProofs KeccakSpec AesSpec MatrixSpec Macrify
  MatrixProofs MatrixProofs2 EncodeProofs PropMatrix FrodoSpec Kem KemProofs KemWp FrodoFacts PropKem.

(** ** Specification *)
(** x and y are different strings with the same n bytes of SHAKE output. *)
Definition collision (P : params) (n : Z) (x y : list Z) : Prop := x <> y /\ Hash P x n = Hash P y n.
(** x and y are different strings and the second halves of their 2n bytes of output are equal. *)
Definition half_collision (P : params) (n : Z) (x y : list Z) : Prop :=
  x <> y /\ skipn (Z.to_nat n) (Hash P x (2 * n)) = skipn (Z.to_nat n) (Hash P y (2 * n)).
(** The key k that a sender derives for the public key PK and the message mu. *)
Definition sender_k (P : params) (PK mu : list Z) : list Z :=
  skipn (Z.to_nat (pCB P)) (Hash P (Hash P PK (pCB P) ++ mu) (2 * pCB P)).
(** What the holder of SK hashes for CT: the ciphertext and the derived key, or, if CT is not
    the re-encryption, the ciphertext and the secret string s. *)
Definition receiver_k (P : params) (g : genA) (SK CT : list Z) : list Z :=
  if list_eq_dec Z.eq_dec CT (reencrypt P g SK (Decrypt P SK CT))
  then skipn (Z.to_nat (pCB P)) (Hash P (sk_pkh P SK ++ Decrypt P SK CT) (2 * pCB P))
  else sk_s P SK.

(** Calls of the API, each in some memory at some addresses. *)
Definition made (C : config) (s PK SK : list Z) : Prop :=
  exists rb rc seedSE z mem pk sk mem' l,
    bytestr (pCB (cP C)) s /\ bytestr (pCB (cP C)) seedSE /\ bytestr 16 z /\
    delivers rb (2 * pCB (cP C) + 16) (s ++ seedSE ++ z) rc /\
    region mem pk (pkBytes (cP C)) /\ region mem sk (skBytes (cP C)) /\
    disjoint pk (pkBytes (cP C)) sk (skBytes (cP C)) /\
    returns (crypto_kem_keypair C rb mem pk sk) (mem', l, 0) /\
    zslice mem' pk (pkBytes (cP C)) = PK /\ zslice mem' sk (skBytes (cP C)) = SK.
Definition sent (C : config) (PK mu CT SS : list Z) : Prop :=
  exists rb rc mem ct ss pk mem' l,
    bytestr (bytesMu (cP C)) mu /\ delivers rb (bytesMu (cP C)) mu rc /\
    holds mem pk (pkBytes (cP C)) PK /\ bytes_ok PK /\
    region mem ct (ctBytes (cP C)) /\ region mem ss (pCB (cP C)) /\
    disjoint ct (ctBytes (cP C)) pk (pkBytes (cP C)) /\ disjoint ss (pCB (cP C)) ct (ctBytes (cP C)) /\
    returns (crypto_kem_enc C rb mem ct ss pk) (mem', l, 0) /\
    zslice mem' ct (ctBytes (cP C)) = CT /\ zslice mem' ss (pCB (cP C)) = SS.
Definition received (C : config) (SK CT SS : list Z) : Prop :=
  exists mem ss ct sk mem' l,
    holds mem sk (skBytes (cP C)) SK /\ bytes_ok SK /\
    holds mem ct (ctBytes (cP C)) CT /\ bytes_ok CT /\ region mem ss (pCB (cP C)) /\
    returns (crypto_kem_dec C mem ss ct sk) (mem', l, 0) /\ zslice mem' ss (pCB (cP C)) = SS.

(** ** Proofs *)
Lemma bytestr_holds mem a n x : holds mem a n x -> 0 <= n -> zlen x = n.
Proof. intros ((? & ?) & <-) ?. apply zlen_zslice; lia. Qed.

Lemma received_value C SK CT SS : valid (cP C) -> build_ok C -> received C SK CT SS ->
  zlen CT = ctBytes (cP C) /\ bytes_ok CT /\ zlen SK = skBytes (cP C) /\
  SS = Hash (cP C) (CT ++ receiver_k (cP C) (cGen C) SK CT) (pCB (cP C)).
Proof.
  intros V Hb (mem & ss & ct & sk & mem' & l & Hsk & Bsk & Hct & Bct & Hss & HR & ES).
  destruct (F_sizes (cP C) (cGen C) V) as (HN & HD & HB & HCB & HDN & ENN & EbB & EbC & EbMu & Epk & Esk & Ect).
  assert (LCT : zlen CT = ctBytes (cP C)) by (apply (bytestr_holds _ _ _ _ Hct); lia).
  assert (LSK : zlen SK = skBytes (cP C)) by (apply (bytestr_holds _ _ _ _ Hsk); lia).
  split; [exact LCT|]. split; [exact Bct|]. split; [exact LSK|].
  destruct (Z.eq_dec (sk mod 2) 1) as [Ho|Ho].
  { rewrite (C31_dec_misaligned C mem ss ct sk V Ho) in HR. destruct HR as (t & HR); discriminate HR. }
  assert (Hal : sk mod 2 = 0) by (pose proof (Z.mod_pos_bound sk 2 ltac:(lia)); lia).
  destruct (C05_dec C mem ss ct sk CT SK V Hb Hsk Bsk Hal Hct Bct Hss) as (l' & HR').
  pose proof (returns_inj _ _ _ HR HR') as E. apply (f_equal (fun x => fst (fst x))) in E. cbn [fst] in E.
  destruct (Decaps_cases (cP C) (cGen C) V SK CT LCT Bct) as (H1 & H2).
  assert (LD : zlen (Decaps (cP C) (cGen C) SK CT) = pCB (cP C)).
  { unfold receiver_k in *. destruct (list_eq_dec Z.eq_dec CT (reencrypt (cP C) (cGen C) SK (Decrypt (cP C) SK CT))) as [A|A].
    - rewrite (H1 A). apply F_zlen_Hash; [exact (cGen C)|exact V|lia].
    - rewrite (H2 A). apply F_zlen_Hash; [exact (cGen C)|exact V|lia]. }
  rewrite <- ES, E, read_stored by (auto; rewrite LD; auto).
  unfold receiver_k. destruct (list_eq_dec Z.eq_dec CT _) as [A|A]; [rewrite (H1 A)|rewrite (H2 A)]; reflexivity.
Qed.

Lemma sent_value C PK mu CT SS : valid (cP C) -> build_ok C -> sent C PK mu CT SS ->
  zlen CT = ctBytes (cP C) /\ zlen mu = bytesMu (cP C) /\ CT = fst (Encaps (cP C) (cGen C) PK mu) /\
  SS = Hash (cP C) (CT ++ sender_k (cP C) PK mu) (pCB (cP C)).
Proof.
  intros V Hb (rb & rc & mem & ct & ss & pk & mem' & l & Hmu & Hrb & Hpk & Bpk & Hct & Hss & Hd & Hd2 & HR & EC & ES).
  pose proof (C05_enc C rb rc mem ct ss pk PK mu V Hb Hmu Hrb Hpk Bpk Hct Hss Hd) as K.
  pose proof (Encaps_shape (cP C) (cGen C) V PK mu) as Sh.
  assert (EV : snd (Encaps (cP C) (cGen C) PK mu) =
    Hash (cP C) (fst (Encaps (cP C) (cGen C) PK mu) ++ sender_k (cP C) PK mu) (pCB (cP C))).
  { unfold Encaps, sender_k.
    pose proof (Encrypt_shape (cP C) (cGen C) V (firstn 16 PK) (skipn 16 PK) (Hash (cP C) PK (pCB (cP C))) mu) as HE.
    destruct (Encrypt (cP C) (cGen C) (firstn 16 PK) (skipn 16 PK) (Hash (cP C) PK (pCB (cP C))) mu) as [[B' C'] k].
    destruct HE as (_ & _ & _ & _ & ->). reflexivity. }
  destruct (Encaps (cP C) (cGen C) PK mu) as [CT' SS']. cbn [fst snd] in *.
  destruct Sh as (L1 & _ & L2 & _). destruct K as (l' & HR').
  pose proof (returns_inj _ _ _ HR HR') as E. apply (f_equal (fun x => fst (fst x))) in E. cbn [fst] in E.
  assert (Rss : region (stored mem ct CT') ss (pCB (cP C))).
  { destruct Hss, Hct. split; [lia|]. unfold stored; rewrite zlen_zsplice; lia. }
  assert (Rct : region (stored mem ct CT') ct (ctBytes (cP C))).
  { destruct Hct. split; [lia|]. unfold stored; rewrite zlen_zsplice; lia. }
  destruct (F_sizes (cP C) (cGen C) V) as (HN & HD & HB & HCB & HDN & ENN & EbB & EbC & EbMu & Epk & Esk & Ect).
  assert (ECT : CT = CT').
  { rewrite <- EC, E. rewrite read_stored_other; rewrite ?L2; auto; [|lia]. apply read_stored; auto. }
  subst CT'. split; [exact L1|]. split; [apply Hmu|]. split; [reflexivity|].
  rewrite <- EV, <- ES, E. apply read_stored; auto.
Qed.
Lemma made_value C s PK SK : valid (cP C) -> made C s PK SK ->
  zlen s = pCB (cP C) /\ sk_s (cP C) SK = s /\ sk_pk (cP C) SK = PK /\ sk_pkh (cP C) SK = Hash (cP C) PK (pCB (cP C)).
Proof.
  intros V (rb & rc & seedSE & z & mem & pk & sk & mem' & l & Hs & Hse & Hz & Hrb & Rpk & Rsk & Hd & HR & EP & ES).
  pose proof (C05_keypair C rb rc mem pk sk s seedSE z V Hs Hse Hz Hrb Rpk Rsk Hd) as K.
  pose proof (KeyGen_parts (cP C) (cGen C) V s seedSE z (proj1 Hs)) as KP.
  destruct (KeyGen (cP C) (cGen C) s seedSE z) as [PK' SK']. cbv zeta in KP.
  destruct KP as (LP & _ & LS & _ & _ & _ & _ & E1 & E2 & _ & _ & _ & E3). destruct K as (l' & HR').
  pose proof (returns_inj _ _ _ HR HR') as E. apply (f_equal (fun x => fst (fst x))) in E. cbn [fst] in E.
  destruct (F_sizes (cP C) (cGen C) V) as (HN & HD & HB & HCB & HDN & ENN & EbB & EbC & EbMu & Epk & Esk & Ect).
  assert (Rsk' : region (stored mem pk PK') sk (skBytes (cP C))).
  { destruct Rsk, Rpk. split; [lia|]. unfold stored; rewrite zlen_zsplice; lia. }
  assert (Rpk' : region (stored mem pk PK') pk (pkBytes (cP C))).
  { destruct Rpk. split; [lia|]. unfold stored; rewrite zlen_zsplice; lia. }
  assert (EPK : PK = PK').
  { rewrite <- EP, E. rewrite read_stored_other; rewrite ?LS; auto; [|lia|unfold disjoint in *; lia]. apply read_stored; auto. }
  assert (ESK : SK = SK') by (rewrite <- ES, E; apply read_stored; auto).
  rewrite EPK, ESK. split; [apply Hs|]. auto.
Qed.

(** ** C51: theorems *)
(** A shared secret commits to the ciphertext, whatever the two secret keys are (also
    malformed or chosen by an adversary) and whatever was received. *)
Theorem C51_ciphertext : forall C1 C2 SK1 SK2 CT1 CT2 SS,
  valid (cP C1) -> cP C2 = cP C1 -> build_ok C1 -> build_ok C2 ->
  received C1 SK1 CT1 SS -> received C2 SK2 CT2 SS -> CT1 <> CT2 ->
  collision (cP C1) (pCB (cP C1)) (CT1 ++ receiver_k (cP C1) (cGen C1) SK1 CT1) (CT2 ++ receiver_k (cP C1) (cGen C2) SK2 CT2).
Proof.
  intros C1 C2 SK1 SK2 CT1 CT2 SS V EP B1 B2 R1 R2 Hne.
  destruct (received_value C1 SK1 CT1 SS V B1 R1) as (L1 & _ & _ & E1).
  assert (V2 : valid (cP C2)) by (rewrite EP; exact V).
  destruct (received_value C2 SK2 CT2 SS V2 B2 R2) as (L2 & _ & _ & E2). rewrite EP in *.
  split; [|congruence]. intros E. apply app_eq_len in E; [|lia]. tauto.
Qed.
Print Assumptions C51_ciphertext.

(** Sender and receiver: a receiver with a key pair made by the library ends with the
    sender's secret only if it received the sender's ciphertext, holds the key the sender
    meant and recovered the sender's message.  The exceptions are given strings that collide,
    or a rejection secret s that is equal to the sender's derived key. *)
Theorem C51_sender_receiver : forall C1 C2 C3 PK1 mu CT1 s PK2 SK2 CT2 SS,
  let P := cP C1 in
  valid P -> cP C2 = P -> cP C3 = P -> build_ok C1 -> build_ok C3 ->
  sent C1 PK1 mu CT1 SS -> made C2 s PK2 SK2 -> received C3 SK2 CT2 SS ->
  let mu2 := Decrypt P SK2 CT2 in
  (CT2 = CT1 /\ PK2 = PK1 /\ mu2 = mu) \/
  collision P (pCB P) (CT1 ++ sender_k P PK1 mu) (CT2 ++ receiver_k P (cGen C3) SK2 CT2) \/
  half_collision P (pCB P) (Hash P PK1 (pCB P) ++ mu) (Hash P PK2 (pCB P) ++ mu2) \/
  collision P (pCB P) PK1 PK2 \/
  (CT2 = CT1 /\ CT2 <> reencrypt P (cGen C3) SK2 mu2 /\ s = sender_k P PK1 mu).
Proof.
  intros C1 C2 C3 PK1 mu CT1 s PK2 SK2 CT2 SS P V EP2 EP3 B1 B3 HS HM HR mu2.
  destruct (sent_value C1 PK1 mu CT1 SS V B1 HS) as (L1 & Lmu & _ & E1).
  assert (V2 : valid (cP C2)) by (rewrite EP2; exact V).
  assert (V3 : valid (cP C3)) by (rewrite EP3; exact V).
  destruct (made_value C2 s PK2 SK2 V2 HM) as (_ & Es & _ & Eh).
  destruct (received_value C3 SK2 CT2 SS V3 B3 HR) as (L2 & _ & _ & E2).
  rewrite EP2, EP3 in *. fold P in E1, L1, Lmu.
  destruct (list_eq_dec Z.eq_dec (CT1 ++ sender_k P PK1 mu) (CT2 ++ receiver_k P (cGen C3) SK2 CT2)) as [E|E].
  2:{ right; left. split; [exact E|congruence]. }
  apply app_eq_len in E; [|lia]. destruct E as (EC & Ek).
  unfold receiver_k in Ek. fold mu2 in Ek.
  destruct (list_eq_dec Z.eq_dec CT2 (reencrypt P (cGen C3) SK2 mu2)) as [A|A].
  2:{ do 4 right. split; [auto|]. split; [exact A|congruence]. }
  rewrite Eh in Ek.
  destruct (list_eq_dec Z.eq_dec (Hash P PK1 (pCB P) ++ mu) (Hash P PK2 (pCB P) ++ mu2)) as [E|E].
  2:{ right; right; left. split; [exact E|exact Ek]. }
  destruct (F_sizes P (cGen C1) V) as (_ & _ & _ & HCB & _).
  apply app_eq_len in E; [|rewrite !(F_zlen_Hash P (cGen C1) V) by lia; reflexivity]. destruct E as (EH & Em).
  destruct (list_eq_dec Z.eq_dec PK1 PK2) as [E|E].
  - left. auto.
  - do 3 right. left. split; [exact E|exact EH].
Qed.
Print Assumptions C51_sender_receiver.

(** Two senders end with the same secret only if they sent the same message to the same key. *)
Theorem C51_senders : forall C1 C2 PK1 PK2 mu1 mu2 CT1 CT2 SS,
  let P := cP C1 in
  valid P -> cP C2 = P -> build_ok C1 -> build_ok C2 ->
  sent C1 PK1 mu1 CT1 SS -> sent C2 PK2 mu2 CT2 SS ->
  (CT1 = CT2 /\ PK1 = PK2 /\ mu1 = mu2) \/
  collision P (pCB P) (CT1 ++ sender_k P PK1 mu1) (CT2 ++ sender_k P PK2 mu2) \/
  half_collision P (pCB P) (Hash P PK1 (pCB P) ++ mu1) (Hash P PK2 (pCB P) ++ mu2) \/
  collision P (pCB P) PK1 PK2.
Proof.
  intros C1 C2 PK1 PK2 mu1 mu2 CT1 CT2 SS P V EP B1 B2 H1 H2.
  destruct (sent_value C1 PK1 mu1 CT1 SS V B1 H1) as (L1 & Lm1 & _ & E1).
  assert (V2 : valid (cP C2)) by (rewrite EP; exact V).
  destruct (sent_value C2 PK2 mu2 CT2 SS V2 B2 H2) as (L2 & Lm2 & _ & E2).
  rewrite EP in *. fold P in E1, L1, Lm1.
  destruct (list_eq_dec Z.eq_dec (CT1 ++ sender_k P PK1 mu1) (CT2 ++ sender_k P PK2 mu2)) as [E|E].
  2:{ right; left. split; [exact E|congruence]. }
  apply app_eq_len in E; [|lia]. destruct E as (EC & Ek).
  destruct (list_eq_dec Z.eq_dec (Hash P PK1 (pCB P) ++ mu1) (Hash P PK2 (pCB P) ++ mu2)) as [E|E].
  2:{ right; right; left. split; [exact E|exact Ek]. }
  destruct (F_sizes P (cGen C1) V) as (_ & _ & _ & HCB & _).
  apply app_eq_len in E; [|rewrite !(F_zlen_Hash P (cGen C1) V) by lia; reflexivity]. destruct E as (EH & Em).
  destruct (list_eq_dec Z.eq_dec PK1 PK2) as [E|E]; [left; auto|do 3 right; split; [exact E|exact EH]].
Qed.
Print Assumptions C51_senders.

(** Two receivers with key pairs made by the library: the same, except that two receivers
    that both reject also agree if their strings s are equal, and one that rejects agrees
    with one that accepts if its string s is the other's derived key. *)
Theorem C51_receivers : forall C1 C2 D1 D2 s1 s2 PK1 PK2 SK1 SK2 CT1 CT2 SS,
  let P := cP C1 in
  valid P -> cP C2 = P -> cP D1 = P -> cP D2 = P -> build_ok C1 -> build_ok C2 ->
  made D1 s1 PK1 SK1 -> made D2 s2 PK2 SK2 -> received C1 SK1 CT1 SS -> received C2 SK2 CT2 SS ->
  let mu1 := Decrypt P SK1 CT1 in
  let mu2 := Decrypt P SK2 CT2 in
  let accepts1 := CT1 = reencrypt P (cGen C1) SK1 mu1 in
  let accepts2 := CT2 = reencrypt P (cGen C2) SK2 mu2 in
  (CT1 = CT2 /\ PK1 = PK2 /\ mu1 = mu2 /\ accepts1 /\ accepts2) \/
  collision P (pCB P) (CT1 ++ receiver_k P (cGen C1) SK1 CT1) (CT2 ++ receiver_k P (cGen C2) SK2 CT2) \/
  half_collision P (pCB P) (Hash P PK1 (pCB P) ++ mu1) (Hash P PK2 (pCB P) ++ mu2) \/
  collision P (pCB P) PK1 PK2 \/
  (CT1 = CT2 /\ ~ accepts1 /\ ~ accepts2 /\ s1 = s2) \/
  (CT1 = CT2 /\ ~ accepts1 /\ accepts2 /\ s1 = sender_k P PK2 mu2) \/
  (CT1 = CT2 /\ accepts1 /\ ~ accepts2 /\ s2 = sender_k P PK1 mu1).
Proof.
  intros C1 C2 D1 D2 s1 s2 PK1 PK2 SK1 SK2 CT1 CT2 SS P V EP ED1 ED2 B1 B2 M1 M2 R1 R2 mu1 mu2 accepts1 accepts2.
  assert (V2 : valid (cP C2)) by (rewrite EP; exact V).
  assert (VD1 : valid (cP D1)) by (rewrite ED1; exact V).
  assert (VD2 : valid (cP D2)) by (rewrite ED2; exact V).
  destruct (made_value D1 s1 PK1 SK1 VD1 M1) as (_ & Es1 & _ & Eh1).
  destruct (made_value D2 s2 PK2 SK2 VD2 M2) as (_ & Es2 & _ & Eh2).
  destruct (received_value C1 SK1 CT1 SS V B1 R1) as (L1 & Bc1 & _ & E1).
  destruct (received_value C2 SK2 CT2 SS V2 B2 R2) as (L2 & Bc2 & _ & E2).
  rewrite EP, ED1, ED2 in *. fold P in E1, L1.
  destruct (list_eq_dec Z.eq_dec (CT1 ++ receiver_k P (cGen C1) SK1 CT1) (CT2 ++ receiver_k P (cGen C2) SK2 CT2)) as [E|E].
  2:{ right; left. split; [exact E|congruence]. }
  apply app_eq_len in E; [|lia]. destruct E as (EC & Ek).
  unfold receiver_k in Ek. fold mu1 mu2 in Ek. unfold accepts1, accepts2.
  destruct (list_eq_dec Z.eq_dec CT1 (reencrypt P (cGen C1) SK1 mu1)) as [A1|A1];
    destruct (list_eq_dec Z.eq_dec CT2 (reencrypt P (cGen C2) SK2 mu2)) as [A2|A2].
  - rewrite Eh1, Eh2 in Ek.
    destruct (list_eq_dec Z.eq_dec (Hash P PK1 (pCB P) ++ mu1) (Hash P PK2 (pCB P) ++ mu2)) as [E|E].
    2:{ right; right; left. split; [exact E|exact Ek]. }
    destruct (F_sizes P (cGen C1) V) as (_ & _ & _ & HCB & _).
    apply app_eq_len in E; [|rewrite !(F_zlen_Hash P (cGen C1) V) by lia; reflexivity]. destruct E as (EH & Em).
    destruct (list_eq_dec Z.eq_dec PK1 PK2) as [E|E]; [left; auto|do 3 right; left; split; [exact E|exact EH]].
  - do 6 right. split; [exact EC|]. split; [exact A1|]. split; [exact A2|]. unfold sender_k. rewrite <- Eh1. congruence.
  - do 5 right. left. split; [exact EC|]. split; [exact A1|]. split; [exact A2|]. unfold sender_k. rewrite <- Eh2. congruence.
  - do 4 right. left. split; [exact EC|]. split; [exact A1|]. split; [exact A2|]. congruence.
Qed.
Print Assumptions C51_receivers.

(** ** The calls exist; public keys are not committed to by arbitrary secret keys *)
Lemma received_exists C SK CT : valid (cP C) -> build_ok C ->
  bytestr (skBytes (cP C)) SK -> bytestr (ctBytes (cP C)) CT -> received C SK CT (Decaps (cP C) (cGen C) SK CT).
Proof.
  intros V Hb (LSK & BSK) (LCT & BCT).
  destruct (F_sizes (cP C) (cGen C) V) as (HN & HD & HB & HCB & HDN & ENN & EbB & EbC & EbMu & Epk & Esk & Ect).
  set (P := cP C) in *. set (mem := SK ++ CT ++ uninit (pCB P)).
  assert (Lm : zlen mem = skBytes P + ctBytes P + pCB P) by (unfold mem; rewrite !zlen_app, zlen_uninit; lia).
  assert (Hsk : holds mem 0 (skBytes P) SK).
  { split; [split; lia|]. unfold mem; apply zslice_app1; lia. }
  assert (Hct : holds mem (skBytes P) (ctBytes P) CT).
  { split; [split; lia|]. unfold mem; apply zslice_mid; lia. }
  assert (Hss : region mem (skBytes P + ctBytes P) (pCB P)) by (split; lia).
  destruct (C05_dec C mem (skBytes P + ctBytes P) (skBytes P) 0 CT SK V Hb Hsk BSK eq_refl Hct BCT Hss) as (l & HR).
  fold P in HR. assert (LD : zlen (Decaps P (cGen C) SK CT) = pCB P).
  { destruct (Decaps_cases P (cGen C) V SK CT LCT BCT) as (H1 & H2).
    destruct (list_eq_dec Z.eq_dec CT (reencrypt P (cGen C) SK (Decrypt P SK CT))) as [A|A];
      [rewrite (H1 A)|rewrite (H2 A)]; apply F_zlen_Hash; auto; exact (cGen C) || lia. }
  exists mem, (skBytes P + ctBytes P), (skBytes P), 0. eexists. exists l.
  repeat (split; [eassumption|]). apply read_stored; auto.
Qed.

Lemma receiver_reject P g SK CT : ~ accepted P g SK CT -> receiver_k P g SK CT = sk_s P SK.
Proof.
  intros H. unfold receiver_k. destruct (list_eq_dec Z.eq_dec CT (reencrypt P g SK (Decrypt P SK CT))) as [A|A]; [|reflexivity].
  exfalso. apply H. exact A.
Qed.
(** A secret key file for PK without secrets: S = 0. *)
Definition zero_key (P : params) (s PK : list Z) : list Z := s ++ PK ++ zrep (16 * pN P) 0 ++ Hash P PK (pCB P).
Lemma zero_key_parts P (g : genA) s PK : valid P -> bytestr (pCB P) s -> bytestr (pkBytes P) PK ->
  bytestr (skBytes P) (zero_key P s PK) /\ sk_s P (zero_key P s PK) = s /\ sk_pk P (zero_key P s PK) = PK /\
  sk_pkh P (zero_key P s PK) = Hash P PK (pCB P) /\ forall i, znth (sk_St P (zero_key P s PK)) i = 0.
Proof.
  intros V (Ls & Bs) (LP & BP).
  destruct (F_sizes P g V) as (HN & HD & HB & HCB & HDN & ENN & EbB & EbC & EbMu & Epk & Esk & Ect).
  assert (LH : zlen (Hash P PK (pCB P)) = pCB P) by (apply F_zlen_Hash; auto; lia).
  assert (LZ : zlen (zrep (16 * pN P) 0) = 16 * pN P) by (apply zlen_zrep; lia).
  unfold zero_key. split.
  { split; [rewrite !zlen_app; lia|]. apply inrange_app; [exact Bs|]. apply inrange_app; [exact BP|].
    apply inrange_app; [apply inrange_zrep0; lia|apply F_Hash_ok; auto]. }
  unfold sk_s, sk_pk, sk_pkh, sk_St. change (part ?l ?o ?k) with (zslice l o k).
  split; [apply zslice_app1; lia|]. split; [apply zslice_mid; lia|].
  split.
  { replace (s ++ PK ++ zrep (16 * pN P) 0 ++ Hash P PK (pCB P)) with ((s ++ PK ++ zrep (16 * pN P) 0) ++ Hash P PK (pCB P)) by (now rewrite <- !app_assoc).
    apply zslice_app2; rewrite ?zlen_app; lia. }
  replace (s ++ PK ++ zrep (16 * pN P) 0 ++ Hash P PK (pCB P)) with ((s ++ PK) ++ zrep (16 * pN P) 0 ++ Hash P PK (pCB P)) by (now rewrite <- !app_assoc).
  rewrite zslice_mid by (rewrite ?zlen_app; lia).
  intros i. unfold S_of_bytes.
  destruct (Z_lt_dec i 0) as [Hi|Hi]; [apply znth_neg; lia|].
  destruct (Z_lt_dec i (8 * pN P)) as [Hi2|Hi2]; [|apply znth_out; rewrite zlen_ztab; lia].
  rewrite znth_ztab by lia. unfold word16. rewrite !znth_zrep by lia. reflexivity.
Qed.

(** For any string s and any two public keys there are secret keys that contain them, with
    the right hash, and a ciphertext for which both give the same secret, because they hash
    the same string: an adversary that chooses secret keys is not bound to a public key. *)
Theorem C51_chosen_keys_refuted : forall C s PK1 PK2,
  let P := cP C in
  valid P -> build_ok C -> bytestr (pCB P) s -> bytestr (pkBytes P) PK1 -> bytestr (pkBytes P) PK2 ->
  exists SK1 SK2 CT SS,
    bytestr (skBytes P) SK1 /\ bytestr (skBytes P) SK2 /\
    sk_pk P SK1 = PK1 /\ sk_pkh P SK1 = Hash P PK1 (pCB P) /\ sk_pk P SK2 = PK2 /\ sk_pkh P SK2 = Hash P PK2 (pCB P) /\
    received C SK1 CT SS /\ received C SK2 CT SS /\
    CT ++ receiver_k P (cGen C) SK1 CT = CT ++ receiver_k P (cGen C) SK2 CT.
Proof.
  intros C s PK1 PK2 P V Hb Hs H1 H2.
  destruct (F_sizes P (cGen C) V) as (HN & HD & HB & HCB & HDN & ENN & EbB & EbC & EbMu & Epk & Esk & Ect).
  destruct (zero_key_parts P (cGen C) s PK1 V Hs H1) as (K1 & S1 & P1 & h1 & Z1).
  destruct (zero_key_parts P (cGen C) s PK2 V Hs H2) as (K2 & S2 & P2 & h2 & Z2).
  set (SK1 := zero_key P s PK1) in *. set (SK2 := zero_key P s PK2) in *.
  set (ctx := fun x : Z => x :: zrep (ctBytes P - 1) 0).
  assert (Lc : forall x, 0 <= x < 256 -> bytestr (ctBytes P) (ctx x)).
  { intros x Hx. split; [unfold ctx; rewrite zlen_cons, zlen_zrep; lia|].
    constructor; [exact Hx|apply inrange_zrep0; lia]. }
  assert (EC : forall x, ct_C P (ctx x) = ct_C P (ctx 0)).
  { intros x. unfold ct_C. f_equal. unfold part, ctx.
    replace (Z.to_nat (pD P * pN P)) with (S (Z.to_nat (pD P * pN P - 1))) by lia. reflexivity. }
  assert (ED : forall SK, (forall i, znth (sk_St P SK) i = 0) -> forall x, Decrypt P SK (ctx x) = Decrypt P SK (ctx 0)).
  { intros SK HZ x. unfold Decrypt. rewrite (EC x). do 2 f_equal. unfold BS_spec. apply ztab_ext. intros t _.
    f_equal. apply zsum_ext. intros k _. rewrite HZ. lia. }
  assert (U : forall SK, (forall i, znth (sk_St P SK) i = 0) -> forall x y, accepted P (cGen C) SK (ctx x) -> accepted P (cGen C) SK (ctx y) -> x = y).
  { intros SK HZ x y A B. assert (E : ctx x = ctx y).
    { apply (C28_unique_ciphertext P (cGen C) SK); auto. rewrite (ED SK HZ x), (ED SK HZ y); reflexivity. }
    injection E; auto. }
  assert (X : exists x, 0 <= x < 256 /\ ~ accepted P (cGen C) SK1 (ctx x) /\ ~ accepted P (cGen C) SK2 (ctx x)).
  { assert (Dec : forall SK x, {accepted P (cGen C) SK (ctx x)} + {~ accepted P (cGen C) SK (ctx x)})
      by (intros; unfold accepted; apply list_eq_dec, Z.eq_dec).
    destruct (Dec SK1 0) as [A0|A0]; destruct (Dec SK2 0) as [B0|B0].
    - exists 1. split; [lia|]. split; intros A; [pose proof (U SK1 Z1 _ _ A0 A)|pose proof (U SK2 Z2 _ _ B0 A)]; lia.
    - destruct (Dec SK2 1) as [B1|B1].
      + exists 2. split; [lia|]. split; intros A; [pose proof (U SK1 Z1 _ _ A0 A)|pose proof (U SK2 Z2 _ _ B1 A)]; lia.
      + exists 1. split; [lia|]. split; [|exact B1]. intros A; pose proof (U SK1 Z1 _ _ A0 A); lia.
    - destruct (Dec SK1 1) as [A1|A1].
      + exists 2. split; [lia|]. split; intros A; [pose proof (U SK1 Z1 _ _ A1 A)|pose proof (U SK2 Z2 _ _ B0 A)]; lia.
      + exists 1. split; [lia|]. split; [exact A1|]. intros A; pose proof (U SK2 Z2 _ _ B0 A); lia.
    - exists 0. split; [lia|]. auto. }
  destruct X as (x & Hx & A1 & A2). pose proof (Lc x Hx) as Lx.
  exists SK1, SK2, (ctx x), (Hash P (ctx x ++ s) (pCB P)).
  split; [exact K1|]. split; [exact K2|]. split; [exact P1|]. split; [exact h1|]. split; [exact P2|]. split; [exact h2|].
  destruct (Decaps_cases P (cGen C) V SK1 (ctx x) (proj1 Lx) (proj2 Lx)) as (_ & E1). specialize (E1 A1). rewrite S1 in E1.
  destruct (Decaps_cases P (cGen C) V SK2 (ctx x) (proj1 Lx) (proj2 Lx)) as (_ & E2). specialize (E2 A2). rewrite S2 in E2.
  split; [rewrite <- E1; apply received_exists; auto|]. split; [rewrite <- E2; apply received_exists; auto|].
  rewrite (receiver_reject _ _ _ _ A1), (receiver_reject _ _ _ _ A2), S1, S2; reflexivity.
Qed.
Print Assumptions C51_chosen_keys_refuted.

(** The hypotheses are met: for every parameter set with tolerable noise (such as toy_small) and
    all random strings the three calls exist and end with the same secret... *)
Theorem C51_calls_exist : forall C s seedSE z mu,
  let P := cP C in
  valid P -> build_ok C -> 2 * pN P * (t_max P) ^ 2 + t_max P < 2 ^ (pD P - pB P - 1) ->
  bytestr (pCB P) s -> bytestr (pCB P) seedSE -> bytestr 16 z -> bytestr (bytesMu P) mu ->
  exists PK SK CT SS, made C s PK SK /\ sent C PK mu CT SS /\ received C SK CT SS.
Proof.
  intros C s seedSE z mu P V Hb Hn Hs Hse Hz Hmu.
  destruct (C01_setting_exists C C C s seedSE z mu 0 0 V eq_refl eq_refl eq_refl eq_refl Hb Hb Hs Hse Hz Hmu) as (mem3 & mem1' & mem2' & Hset).
  pose proof (C01_values _ _ _ _ _ _ _ _ _ _ _ _ _ _ _ _ _ _ _ _ _ _ _ _ Hset) as HV. cbv zeta in HV.
  pose proof (C27_no_failure P (cGen C) s seedSE z mu V Hn (proj1 Hs) (proj1 Hmu) (proj2 Hmu)) as HF.
  pose proof (KeyGen_parts P (cGen C) V s seedSE z (proj1 Hs)) as HK.
  fold P in HV. destruct (KeyGen P (cGen C) s seedSE z) as [PK SK] eqn:EK. cbn [fst snd] in HV.
  pose proof (Encaps_shape P (cGen C) V PK mu) as HE.
  destruct (Encaps P (cGen C) PK mu) as [CT SS] eqn:EE. cbn [fst snd] in HV.
  destruct HV as (V1 & V2 & V3 & V4 & V5 & V6 & V7). destruct HF as (_ & HF). destruct HK as (_ & BPK & LSK & _).
  unfold C01_setting in Hset.
  destruct Hset as (_ & _ & _ & _ & _ & _ & _ & _ & _ & _ & _ & D1 & D2 & Rpk1 & Rsk1 & Dj1 & (l1 & R1) &
    Hpk2 & Rct2 & Rss2 & Dj2 & Dj3 & (l2 & R2) & _).
  exists PK, SK, CT, SS. split; [|split].
  - exists (fun _ _ => Ok (s ++ seedSE ++ z, 0) []), 0, seedSE, z. do 5 eexists.
    split; [exact Hs|]. split; [exact Hse|]. split; [exact Hz|]. split; [exact D1|]. split; [exact Rpk1|]. split; [exact Rsk1|].
    split; [exact Dj1|]. split; [exact R1|]. split; [exact V1|exact V2].
  - assert (Hpk2' := Hpk2). unfold P in V1. rewrite V1 in Hpk2'. exists (fun _ _ => Ok (mu, 0) []), 0. do 6 eexists.
    split; [exact Hmu|]. split; [exact D2|]. split; [exact Hpk2'|]. split; [exact BPK|]. split; [exact Rct2|]. split; [exact Rss2|].
    split; [exact Dj2|]. split; [exact Dj3|]. split; [exact R2|]. split; [exact V3|exact V4].
  - rewrite <- HF. apply received_exists; [exact V|exact Hb|split; [exact LSK|exact V5]|split; [exact V7|exact V6]].
Qed.
Print Assumptions C51_calls_exist.
Example C51_hyps : exists C s seedSE z mu,
  valid (cP C) /\ build_ok C /\ 2 * pN (cP C) * (t_max (cP C)) ^ 2 + t_max (cP C) < 2 ^ (pD (cP C) - pB (cP C) - 1) /\
  bytestr (pCB (cP C)) s /\ bytestr (pCB (cP C)) seedSE /\ bytestr 16 z /\ bytestr (bytesMu (cP C)) mu.
Proof.
  exists {| cP := toy_small; cEn := LE; cImpl := Reference; cGen := GenAES; cAes := AesC |}.
  exists (ztab 16 (fun i => i)), (ztab 16 (fun i => 2 * i)), (ztab 16 (fun i => 3 * i)), (ztab 16 (fun i => 5 * i)).
  refine (conj (proj1 C27_met) (conj _ (conj (proj2 C27_met) _))); [intros H; exfalso; apply H; reflexivity|].
  repeat split; repeat constructor; cbn; lia.
Qed.
(** ... and two receivers with different public keys and the same secret, for the shipped
    parameters, are C51_chosen_keys_refuted. *)
