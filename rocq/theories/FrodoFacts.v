(** Facts about the FrodoKEM algorithms themselves (FrodoSpec), used by the properties. *)
From Verif Require Import CSem Params Util UtilSpec UtilProofs Fips202 KeccakSpec ShakeProofs AesSpec
  MatrixSpec Macrify MatrixProofs MatrixProofs2 EncodeProofs PropMatrix FrodoSpec Kem KemProofs KemWp.

(** C - B'S for B' = S'A+E', B = AS+E, C = S'B+E''+M is M plus the noise. *)
Lemma decrypt_algebra q n A St E S' E' E'' M t : 0 < q -> 0 < n -> 0 <= t < 64 ->
  let i := t / 8 in let k := t mod 8 in
  znth (sub_spec q (add_spec q (SB_E_spec q n S' (AS_plus_E q n A St E) E'') M)
                   (BS_spec q n (SA_plus_E q n A S' E') St)) t mod q =
  (znth M t + (zsum n (fun j => znth S' (i * n + j) * znth E (8 * j + k)) + znth E'' t
   - zsum n (fun j => znth E' (i * n + j) * znth St (k * n + j)))) mod q.
Proof.
  intros Hq Hn Ht i k. assert (Hi : 0 <= i < 8) by (unfold i; dlia). assert (Hk : 0 <= k < 8) by (unfold k; dlia).
  unfold sub_spec, add_spec, SB_E_spec, BS_spec. rewrite !znth_ztab by lia. fold i k. rewrite Z.mod_mod by lia.
  set (T := zsum n (fun j => zsum n (fun l => znth S' (i * n + j) * A j l * znth St (k * n + l)))).
  assert (E1 : zsum n (fun j => znth S' (i * n + j) * znth (AS_plus_E q n A St E) (j * 8 + k)) mod q =
    (zsum n (fun j => znth S' (i * n + j) * znth E (8 * j + k)) + T) mod q).
  { unfold T; rewrite <- zsum_add. apply zsum_mod_ext; [lia|]. intros j Hj.
    unfold AS_plus_E. rewrite znth_ztab by lia. replace ((j * 8 + k) / 8) with j by dlia. replace ((j * 8 + k) mod 8) with k by dlia.
    rewrite Z.mul_mod_idemp_r by lia. unfold AS_E. rewrite Z.mul_add_distr_l. rewrite <- zsum_scale.
    do 2 f_equal. apply zsum_ext; intros; lia. }
  assert (E2 : zsum n (fun l => znth (SA_plus_E q n A S' E') (i * n + l) * znth St (k * n + l)) mod q =
    (zsum n (fun j => znth E' (i * n + j) * znth St (k * n + j)) + T) mod q).
  { unfold T; rewrite zsum_swap. rewrite <- zsum_add. apply zsum_mod_ext; [lia|]. intros l Hl.
    assert (0 <= i * n <= 7 * n) by (split; [apply Z.mul_nonneg_nonneg; lia|apply Z.mul_le_mono_nonneg_r; lia]).
    unfold SA_plus_E. rewrite znth_ztab by lia.
    replace ((i * n + l) / n) with i by (rewrite Z.div_add_l, Z.div_small; lia).
    replace ((i * n + l) mod n) with l by (rewrite Z.add_comm, Z.mod_add, Z.mod_small; lia).
    rewrite Z.mul_mod_idemp_l by lia. unfold SA_E. rewrite Z.mul_add_distr_r. rewrite <- zsum_scale_r. reflexivity. }
  rewrite Zminus_mod, Z.mod_mod, E2 by lia. rewrite <- Zminus_mod.
  rewrite Zminus_mod, Z.mod_mod, Z.add_mod_idemp_l by lia.
  replace (znth E'' t + zsum n (fun j => znth S' (i * n + j) * znth (AS_plus_E q n A St E) (j * 8 + k)) + znth M t)
    with (zsum n (fun j => znth S' (i * n + j) * znth (AS_plus_E q n A St E) (j * 8 + k)) + (znth E'' t + znth M t)) by lia.
  rewrite Zplus_mod, E1, <- Zplus_mod. rewrite <- Zminus_mod. f_equal. lia.
Qed.

Section Facts.
Variables (P : params) (g : genA).
Hypothesis V : valid P.
Local Notation n := (pN P).
Local Notation CB := (pCB P).
Let Cx : config := {| cP := P; cEn := LE; cImpl := Reference; cGen := g; cAes := AesC |}.

Lemma F_sizes : 0 < pN P /\ 1 < pD P <= 16 /\ 0 < pB P < pD P /\ 0 < pCB P /\ 0 < pD P * pN P /\
  NN P = pN P * 8 /\ bytesB P = pD P * pN P /\ bytesC P = pD P * 8 /\ bytesMu P = pB P * 8 /\
  pkBytes P = 16 + pD P * pN P /\ skBytes P = pCB P + (16 + pD P * pN P) + 16 * pN P + pCB P /\ ctBytes P = pD P * pN P + pD P * 8.
Proof.
  pose proof (sizes Cx V) as H; cbn [cP Cx] in H. pose proof (v_D P V); pose proof (v_B P V).
  change (cP Cx) with P in H. intuition lia.
Qed.
Lemma F_zlen_Hash M k : 0 <= k -> zlen (Hash P M k) = k. Proof. exact (zlen_Hash Cx V M k). Qed.
Lemma F_Hash_ok M k : bytes_ok (Hash P M k). Proof. exact (Hash_ok Cx V M k). Qed.
Lemma F_zlen_PackB M : zlen M = n * 8 -> zlen (Pack P M) = pD P * n. Proof. exact (zlen_PackB Cx V M). Qed.
Lemma F_zlen_PackC M : zlen M = 64 -> zlen (Pack P M) = pD P * 8. Proof. exact (zlen_PackC Cx V M). Qed.
Lemma F_Unpack_Pack M k : zlen M = k -> k mod 8 = 0 -> inrange (2 ^ pD P) M -> Unpack P k (Pack P M) = M.
Proof. exact (Unpack_Pack Cx V M k). Qed.
Lemma F_q : 0 < 2 ^ pD P. Proof. destruct F_sizes as (_ & H & _). apply Z.pow_pos_nonneg; lia. Qed.
Lemma ztab_mod_range k f : inrange (2 ^ pD P) (ztab k (fun t => f t mod 2 ^ pD P)).
Proof. apply inrange_ztab; intros; apply Z.mod_pos_bound, F_q. Qed.

(** Packing what was unpacked gives back the bytes of a ciphertext. *)
Lemma pack_ct ct : zlen ct = ctBytes P -> bytes_ok ct -> Pack P (ct_B P ct) ++ Pack P (ct_C P ct) = ct.
Proof.
  destruct F_sizes as (HN & HD & HB & HCB & HDN & ENN & EbB & EbC & EbMu & Epk & Esk & Ect). intros L R.
  assert (Hp : forall k m o, 0 <= k -> 0 <= o -> o + m <= zlen ct -> pD P * k = 8 * m -> 0 <= m -> Pack P (Unpack P k (part ct o m)) = part ct o m).
  { intros k m o Hk Ho Hm E Hm0. unfold Pack, Unpack. 
    replace (zlen (unpack_spec (pD P) k (part ct o m))) with k by (symmetry; apply zlen_repack; lia).
    replace (pD P * k / 8) with m by (rewrite E, Z.mul_comm, Z.div_mul; lia).
    apply pack_unpack_spec; try lia; [apply (inrange_zslice 256 ct o m R)|apply zlen_zslice; lia]. }
  unfold ct_B, ct_C. rewrite !Hp by lia.
  change (part ?l ?o ?k) with (zslice l o k). 
  replace (zslice ct (pD P * n) (pD P * 8)) with (zslice ct (0 + pD P * n) (pD P * 8)) by (f_equal; lia).
  rewrite <- (zslice_split ct 0 (pD P * n) (pD P * 8)) by lia.
  apply zslice_all_n; lia.
Qed.
Lemma Encrypt_shape seedA b pkh mu : let '(B', C', k) := Encrypt P g seedA b pkh mu in
  zlen B' = n * 8 /\ inrange (2 ^ pD P) B' /\ zlen C' = 64 /\ inrange (2 ^ pD P) C' /\
  k = skipn (Z.to_nat CB) (Hash P (pkh ++ mu) (2 * CB)).
Proof.
  destruct F_sizes as (HN & _). unfold Encrypt. split; [apply zlen_SA; lia|]. split; [apply ztab_mod_range|].
  split; [apply zlen_ztab; lia|]. split; [apply ztab_mod_range|reflexivity].
Qed.
(** Comparing the matrices, as the code does, is comparing the bytes. *)
Lemma accepted_matrices sk ct : zlen ct = ctBytes P -> bytes_ok ct ->
  let '(B'', C', _) := Encrypt P g (sk_seedA P sk) (sk_b P sk) (sk_pkh P sk) (Decrypt P sk ct) in
  ct_B P ct ++ ct_C P ct = B'' ++ C' <-> accepted P g sk ct.
Proof.
  intros L R. unfold accepted, reencrypt.
  pose proof (Encrypt_shape (sk_seedA P sk) (sk_b P sk) (sk_pkh P sk) (Decrypt P sk ct)) as HE.
  destruct (Encrypt P g (sk_seedA P sk) (sk_b P sk) (sk_pkh P sk) (Decrypt P sk ct)) as [[B2 C2] k].
  destruct HE as (LB & RB & LC & RC & _).
  destruct F_sizes as (HN & HD & HB & HCB & HDN & ENN & EbB & EbC & EbMu & Epk & Esk & Ect).
  assert (LcB : zlen (ct_B P ct) = n * 8) by (unfold ct_B, Unpack, unpack_spec; rewrite zlen_repack; lia).
  assert (LcC : zlen (ct_C P ct) = 64) by (unfold ct_C, Unpack, unpack_spec; rewrite zlen_repack; lia).
  split; intros E.
  - apply app_eq_len in E; [|lia]. destruct E as (E1 & E2). rewrite <- E1, <- E2. symmetry; apply pack_ct; auto.
  - pose proof (F_zlen_PackB B2 LB) as L1. pose proof (F_zlen_PackC C2 LC) as L2. rewrite E.
    unfold ct_B, ct_C. change (part ?l ?o ?k) with (zslice l o k). rewrite zslice_app1, zslice_app2 by lia.
    rewrite !F_Unpack_Pack by (auto; dlia). reflexivity.
Qed.
(** Decaps in terms of acceptance. *)
Lemma Decaps_cases sk ct : zlen ct = ctBytes P -> bytes_ok ct ->
  (accepted P g sk ct -> Decaps P g sk ct = Hash P (ct ++ key_of P sk (Decrypt P sk ct)) CB) /\
  (~ accepted P g sk ct -> Decaps P g sk ct = Hash P (ct ++ sk_s P sk) CB).
Proof.
  intros L R. pose proof (accepted_matrices sk ct L R) as HA. unfold Decaps, key_of.
  pose proof (Encrypt_shape (sk_seedA P sk) (sk_b P sk) (sk_pkh P sk) (Decrypt P sk ct)) as HE.
  destruct (Encrypt P g (sk_seedA P sk) (sk_b P sk) (sk_pkh P sk) (Decrypt P sk ct)) as [[B2 C2] k].
  destruct HE as (_ & _ & _ & _ & ->).
  destruct (list_eq_dec Z.eq_dec (ct_B P ct ++ ct_C P ct) (B2 ++ C2)); split; intros; try reflexivity; exfalso; tauto.
Qed.

Lemma sample_range r from cnt i : Z.abs (znth (SampleMatrix P r from cnt) i) <= zlen (pCDF P) - 1.
Proof.
  pose proof (v_cdf_len P V).
  assert (H0 : forall w, Z.abs (sample_spec (pCDF P) w) <= zlen (pCDF P) - 1).
  { intros w; unfold sample_spec. pose proof (sample_mag_bound (pCDF P) w ltac:(lia)). destruct (Z.even w); lia. }
  destruct (Z.lt_ge_cases i 0); [rewrite znth_neg by lia; cbn; lia|].
  destruct (Z.lt_ge_cases i cnt); [unfold SampleMatrix; rewrite znth_ztab by lia; apply H0|].
  rewrite znth_out; [cbn; lia|]. destruct (Z.lt_ge_cases cnt 0); [|unfold SampleMatrix; rewrite zlen_ztab; lia].
  unfold SampleMatrix, ztab, zseq. replace (Z.to_nat cnt) with 0%nat by lia. cbn; lia.
Qed.
Lemma S_of_bytes_of_S r from : S_of_bytes P (bytes_of_S (SampleMatrix P r from (8 * n))) = SampleMatrix P r from (8 * n).
Proof.
  destruct F_sizes as (HN & _). pose proof (v_cdf_len P V). set (St := SampleMatrix P r from (8 * n)).
  assert (LS : zlen St = 8 * n) by (apply zlen_ztab; lia).
  apply list_ext; [unfold S_of_bytes; rewrite zlen_ztab; lia|]. unfold S_of_bytes; rewrite zlen_ztab by lia. intros i Hi.
  rewrite znth_ztab by lia. rewrite <- (bytes_of_S_eq LE).
  pose proof (sample_range r from (8 * n) i) as Hr. fold St in Hr.
  assert (Ew : word16 (bytes_of_words LE (map (UINT16_TO_LE LE) (map w16 St))) i = znth St i mod 65536).
  { unfold word16, bytes_of_words. rewrite !zlen_map, !znth_ztab by lia.
    replace (2 * i / 2) with i by dlia. replace ((2 * i + 1) / 2) with i by dlia.
    replace ((2 * i) mod 2) with 0 by dlia. replace ((2 * i + 1) mod 2) with 1 by dlia.
    rewrite !znth_map by (rewrite ?zlen_map; lia). cbn [UINT16_TO_LE byte_of_u16 Z.eqb]. unfold w16. dlia. }
  rewrite Ew. unfold signed16. destruct (Z.ltb_spec (znth St i mod 65536) 32768); dlia.
Qed.

(** The parts of a generated secret key. *)
Lemma KeyGen_parts s seedSE z : zlen s = CB ->
  let '(pk, sk) := KeyGen P g s seedSE z in
  let r := Hash P (95 :: seedSE) (2 * (16 * n)) in
  let St := SampleMatrix P r 0 (8 * n) in
  let E := SampleMatrix P r (8 * n) (8 * n) in
  let seedA := Hash P z 16 in
  let B := AS_plus_E (2 ^ pD P) n (A_spec g n seedA) St E in
  zlen pk = pkBytes P /\ bytes_ok pk /\ zlen sk = skBytes P /\ (bytes_ok s -> bytes_ok sk) /\
  pk = seedA ++ Pack P B /\ zlen (Pack P B) = pD P * n /\ Unpack P (8 * n) (Pack P B) = B /\
  sk_s P sk = s /\ sk_pk P sk = pk /\ sk_seedA P sk = seedA /\ sk_b P sk = Pack P B /\ sk_St P sk = St /\ sk_pkh P sk = Hash P pk CB.
Proof.
  intros Ls. destruct F_sizes as (HN & HD & HB & HCB & HDN & ENN & EbB & EbC & EbMu & Epk & Esk & Ect).
  unfold KeyGen. set (r := Hash P (95 :: seedSE) (2 * (16 * n))). set (seedA := Hash P z 16).
  set (St := SampleMatrix P r 0 (8 * n)). set (E := SampleMatrix P r (8 * n) (8 * n)).
  set (B := AS_plus_E (2 ^ pD P) n (A_spec g n seedA) St E). cbv zeta.
  assert (LA : zlen seedA = 16) by (apply F_zlen_Hash; lia).
  assert (LB : zlen B = n * 8) by (apply zlen_AS; lia).
  pose proof (F_zlen_PackB B LB) as LPB.
  assert (LSt : zlen St = 8 * n) by (apply zlen_ztab; lia).
  assert (LSB : zlen (bytes_of_S St) = 16 * n) by (rewrite zlen_bytes_of_S; lia).
  set (pk := seedA ++ Pack P B). assert (Lpk : zlen pk = 16 + pD P * n) by (unfold pk; rewrite zlen_app; lia).
  assert (LH : zlen (Hash P pk CB) = CB) by (apply F_zlen_Hash; lia).
  assert (Bpk : bytes_ok pk) by (apply inrange_app; [apply F_Hash_ok|apply (repack_range _ 8); lia]).
  split; [lia|]. split; [exact Bpk|]. split; [rewrite !zlen_app; lia|]. split.
  { intros Bs; apply inrange_app; [exact Bs|]. apply inrange_app; [exact Bpk|]. apply inrange_app; [apply bytes_of_S_ok|apply F_Hash_ok]. }
  split; [reflexivity|]. split; [exact LPB|].
  split; [apply F_Unpack_Pack; [lia|dlia|apply ztab_mod_range]|].
  unfold sk_s, sk_pk, sk_seedA, sk_b, sk_St, sk_pkh. change (part ?l ?o ?k) with (zslice l o k).
  split; [apply zslice_app1; lia|].
  split; [apply zslice_mid; lia|].
  split; [unfold pk; rewrite <- app_assoc; apply zslice_mid; lia|].
  split.
  { unfold pk. replace (s ++ (seedA ++ Pack P B) ++ bytes_of_S St ++ Hash P (seedA ++ Pack P B) CB)
      with ((s ++ seedA) ++ Pack P B ++ bytes_of_S St ++ Hash P (seedA ++ Pack P B) CB) by (now rewrite <- !app_assoc).
    apply zslice_mid; rewrite ?zlen_app; lia. }
  split.
  { replace (s ++ pk ++ bytes_of_S St ++ Hash P pk CB) with ((s ++ pk) ++ bytes_of_S St ++ Hash P pk CB) by (now rewrite <- !app_assoc).
    rewrite zslice_mid by (rewrite ?zlen_app; lia). apply S_of_bytes_of_S. }
  replace (s ++ pk ++ bytes_of_S St ++ Hash P pk CB) with ((s ++ pk ++ bytes_of_S St) ++ Hash P pk CB) by (now rewrite <- !app_assoc).
  apply zslice_app2; rewrite ?zlen_app; lia.
Qed.

Lemma Encaps_shape pk mu : let '(ct, ss) := Encaps P g pk mu in
  zlen ct = ctBytes P /\ bytes_ok ct /\ zlen ss = CB /\ bytes_ok ss.
Proof.
  destruct F_sizes as (HN & HD & HB & HCB & HDN & ENN & EbB & EbC & EbMu & Epk & Esk & Ect).
  unfold Encaps. pose proof (Encrypt_shape (firstn 16 pk) (skipn 16 pk) (Hash P pk CB) mu) as HE.
  destruct (Encrypt P g (firstn 16 pk) (skipn 16 pk) (Hash P pk CB) mu) as [[B' C'] k].
  destruct HE as (LB & RB & LC & RC & _). split; [rewrite zlen_app, F_zlen_PackB, F_zlen_PackC by auto; lia|].
  split; [apply inrange_app; apply (repack_range _ 8); lia|]. split; [apply F_zlen_Hash; lia|apply F_Hash_ok].
Qed.

(** Encaps to a generated key: the ciphertext is the re-encryption, and decryption gives
    back the message exactly when the noise is tolerated. *)
Lemma Encaps_reencrypt s seedSE z mu : zlen s = CB ->
  let '(pk, sk) := KeyGen P g s seedSE z in
  let '(ct, ss) := Encaps P g pk mu in
  ct = reencrypt P g sk mu /\ ss = Hash P (ct ++ key_of P sk mu) CB.
Proof.
  intros Ls. pose proof (KeyGen_parts s seedSE z Ls) as HK. destruct (KeyGen P g s seedSE z) as [pk sk].
  destruct HK as (_ & _ & _ & _ & Epk & _ & _ & _ & _ & EA & Eb & _ & Eh).
  unfold Encaps, reencrypt, key_of. rewrite EA, Eb, Eh.
  assert (LA : length (Hash P z 16) = 16%nat) by (pose proof (F_zlen_Hash z 16 ltac:(lia)) as H; unfold zlen in H; lia).
  replace (firstn 16 pk) with (Hash P z 16).
  2:{ rewrite Epk. rewrite firstn_app, LA, Nat.sub_diag, <- LA, firstn_all. cbn; now rewrite app_nil_r. }
  set (B := AS_plus_E _ _ _ _ _) in Epk |- *.
  replace (skipn 16 pk) with (Pack P B).
  2:{ rewrite Epk. rewrite skipn_app, <- LA, skipn_all, Nat.sub_diag. reflexivity. }
  pose proof (Encrypt_shape (Hash P z 16) (Pack P B) (Hash P pk CB) mu) as HE.
  destruct (Encrypt P g (Hash P z 16) (Pack P B) (Hash P pk CB) mu) as [[B' C'] k].
  destruct HE as (_ & _ & _ & _ & ->). split; reflexivity.
Qed.
(** The matrix C - B'S: what is decoded. *)
Definition plain (sk ct : list Z) : list Z :=
  sub_spec (2 ^ pD P) (ct_C P ct) (BS_spec (2 ^ pD P) n (ct_B P ct) (sk_St P sk)).
Lemma plain_Encaps s seedSE z mu t : zlen s = CB -> 0 <= t < 64 ->
  let '(pk, sk) := KeyGen P g s seedSE z in
  let '(ct, ss) := Encaps P g pk mu in
  znth (plain sk ct) t mod 2 ^ pD P = (znth (encode_spec (pD P) (pB P) mu) t + noise P seedSE (Hash P pk CB) mu t) mod 2 ^ pD P.
Proof.
  intros Ls Ht.
  destruct F_sizes as (HN & HD & HB & HCB & HDN & ENN & EbB & EbC & EbMu & Epk & Esk & Ect).
  pose proof (Encaps_reencrypt s seedSE z mu Ls) as HR.
  pose proof (KeyGen_parts s seedSE z Ls) as HK. destruct (KeyGen P g s seedSE z) as [pk sk].
  destruct (Encaps P g pk mu) as [ct ss]. destruct HR as (Ect' & _).
  destruct HK as (_ & _ & _ & _ & Epk' & _ & EUB & _ & _ & EA & Eb & ESt & Eh).
  unfold reencrypt in Ect'. rewrite EA, Eb, Eh in Ect'.
  pose proof (Encrypt_shape (Hash P z 16) (sk_b P sk) (Hash P pk CB) mu) as HE. rewrite Eb in HE.
  revert Ect' HE. unfold Encrypt. cbv zeta.
  set (St := SampleMatrix P (Hash P (95 :: seedSE) (2 * (16 * n))) 0 (8 * n)) in *.
  set (E := SampleMatrix P (Hash P (95 :: seedSE) (2 * (16 * n))) (8 * n) (8 * n)) in *.
  rewrite EUB. set (r' := Hash P (150 :: _) _). set (q := 2 ^ pD P) in *.
  set (A := A_spec g n (Hash P z 16)) in *.
  set (B' := SA_plus_E _ _ _ _ _). set (C' := add_spec _ _ _). intros Ect' (LB & RB & LC & RC & _).
  assert (LPB := F_zlen_PackB B' LB). assert (LPC := F_zlen_PackC C' LC).
  assert (EcB : ct_B P ct = B').
  { unfold ct_B. change (part ?l ?o ?k) with (zslice l o k). rewrite Ect', zslice_app1 by lia. apply F_Unpack_Pack; auto; [lia|dlia]. }
  assert (EcC : ct_C P ct = C').
  { unfold ct_C. change (part ?l ?o ?k) with (zslice l o k). rewrite Ect', zslice_app2 by lia. apply F_Unpack_Pack; auto. }
  unfold plain. rewrite EcB, EcC, ESt. fold q.
  apply (decrypt_algebra q n A St E _ _ _ _ t F_q HN Ht).
Qed.
Lemma Decrypt_Encaps s seedSE z mu : zlen s = CB -> zlen mu = bytesMu P -> bytes_ok mu ->
  let '(pk, sk) := KeyGen P g s seedSE z in
  let '(ct, ss) := Encaps P g pk mu in
  Decrypt P sk ct = mu <-> forall t, 0 <= t < 64 -> tolerated (pD P) (pB P) (noise P seedSE (Hash P pk CB) mu t).
Proof.
  intros Ls Lmu Bmu.
  destruct F_sizes as (HN & HD & HB & HCB & HDN & ENN & EbB & EbC & EbMu & Epk & Esk & Ect).
  pose proof (fun t => plain_Encaps s seedSE z mu t Ls) as HP.
  destruct (KeyGen P g s seedSE z) as [pk sk]. destruct (Encaps P g pk mu) as [ct ss].
  change (Decrypt P sk ct) with (decode_spec (pD P) (pB P) (plain sk ct)).
  destruct (C13_decode_exact P (uninit (8 * pB P)) mu (plain sk ct) (noise P seedSE (Hash P pk CB) mu)) as (m & Hm & Hiff); auto.
  - apply zlen_uninit; lia.
  - lia.
  - eapply inrange_mono; [apply (pow2_le_16 (pD P)); lia|apply ztab_mod_range].
  - rewrite <- Hiff. assert (Em : m = decode_spec (pD P) (pB P) (plain sk ct)); [|rewrite Em; reflexivity].
    eapply returns_inj; [exact Hm|]. apply C19_key_decode; auto; [apply zlen_uninit; lia|].
    eapply inrange_mono; [apply (pow2_le_16 (pD P)); lia|apply ztab_mod_range].
Qed.
End Facts.
