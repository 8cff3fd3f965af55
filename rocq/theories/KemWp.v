(** src/kem.c computes the FrodoKEM algorithms: what each of the three functions does to
    the memory, what it leaves in its local arrays, and that nothing undefined happens. *)
From Verif Require Import CSem Params Util UtilSpec UtilProofs Fips202 KeccakSpec ShakeProofs AesSpec
  MatrixSpec Macrify MatrixProofs MatrixProofs2 EncodeProofs PropMatrix FrodoSpec Kem KemProofs.

Lemma app_nil_mid (a : list Z) : a = [] ++ a ++ []. Proof. cbn; now rewrite app_nil_r. Qed.
Lemma app_nil_l2 (a b : list Z) : a ++ b = [] ++ a ++ b. Proof. reflexivity. Qed.
Lemma app_nil_r2 (a b : list Z) : a ++ b = a ++ b ++ []. Proof. now rewrite app_nil_r. Qed.
Lemma zsplice_same_read (m x : list Z) o n : 0 <= o -> o + zlen x <= zlen m -> n = zlen x ->
  zslice (zsplice m o x) o n = x.
Proof. intros ? ? ->; apply zsplice_slice_same; auto. Qed.

Lemma zlen_uninit n : 0 <= n -> zlen (uninit n) = n. Proof. apply zlen_zrep. Qed.
Lemma zrep_app {A} n m (v : A) : 0 <= n -> 0 <= m -> zrep n v ++ zrep m v = zrep (n + m) v.
Proof. intros; unfold zrep; rewrite Z2Nat.inj_add by lia. symmetry; apply repeat_app. Qed.
Lemma uninit_cons n : 0 <= n -> uninit (1 + n) = undef :: uninit n.
Proof. intros; unfold uninit; rewrite <- zrep_app by lia; reflexivity. Qed.
Lemma bytes_of_words_app en a b : bytes_of_words en (a ++ b) = bytes_of_words en a ++ bytes_of_words en b.
Proof.
  pose proof (zlen_nonneg a); pose proof (zlen_nonneg b).
  apply list_ext; [rewrite zlen_app, !zlen_bytes, zlen_app; lia|].
  rewrite zlen_bytes, zlen_app; intros i Hi. rewrite znth_app, zlen_bytes. unfold bytes_of_words.
  rewrite zlen_app, znth_ztab by lia. rewrite znth_app.
  destruct (Z.ltb_spec i (2 * zlen a)), (Z.ltb_spec (i / 2) (zlen a)); try dlia.
  - rewrite znth_ztab by lia. reflexivity.
  - rewrite znth_ztab by lia. replace ((i - 2 * zlen a) / 2) with (i / 2 - zlen a) by dlia.
    replace ((i - 2 * zlen a) mod 2) with (i mod 2) by dlia. reflexivity.
Qed.

Lemma bytes_of_S_eq en St : bytes_of_words en (map (UINT16_TO_LE en) (map w16 St)) = bytes_of_S St.
Proof.
  unfold bytes_of_S. induction St as [|x St IH]; [reflexivity|]. cbn [map flat_map]. rewrite <- IH.
  replace (UINT16_TO_LE en (w16 x) :: map (UINT16_TO_LE en) (map w16 St)) with
    ([UINT16_TO_LE en (w16 x)] ++ map (UINT16_TO_LE en) (map w16 St)) by reflexivity.
  unfold w16 at 1.
  assert (Hr : 0 <= x mod 65536 < 65536) by (apply Z.mod_pos_bound; lia).
  rewrite <- (le16_bytes en) by exact Hr.
  unfold u16; rewrite (Z.mod_small (UINT16_TO_LE _ _)) by (apply UINT16_TO_LE_range; exact Hr).
  generalize (map (UINT16_TO_LE en) (map w16 St)) as l; generalize (UINT16_TO_LE en (x mod 65536)) as a; clear.
  intros a l. exact (bytes_of_words_app en [a] l).
Qed.
Lemma zlen_bytes_of_S St : zlen (bytes_of_S St) = 2 * zlen St.
Proof. rewrite <- (bytes_of_S_eq LE), zlen_bytes, !zlen_map; reflexivity. Qed.
Lemma bytes_of_S_ok St : bytes_ok (bytes_of_S St).
Proof. unfold bytes_of_S; induction St; [constructor|]. cbn [flat_map]. apply inrange_app; [apply le16_ok|exact IHSt]. Qed.

Lemma zslice_zslice {A} (l : list A) o n p m : 0 <= o -> 0 <= p -> 0 <= m -> p + m <= n ->
  zslice (zslice l o n) p m = zslice l (o + p) m.
Proof.
  intros; unfold zslice. rewrite skipn_firstn_comm, firstn_firstn. rewrite skipn_skipn_add.
  f_equal; [lia|]. f_equal; lia.
Qed.

Lemma app_eq_len {A} (a b c d : list A) : a ++ b = c ++ d -> zlen a = zlen c -> a = c /\ b = d.
Proof.
  revert c; induction a as [|x a IH]; intros [|y c] E L; try (unfold zlen in L; cbn in L; lia); [auto|].
  cbn in E; injection E; intros E' ->. destruct (IH c E') as (-> & ->); [unfold zlen in *; cbn in L; lia|auto].
Qed.

Section Kem.
Variable C : config.
Local Notation P := (cP C).
Hypothesis V : valid P.
Local Notation g := (cGen C).

Lemma sizes : 0 < pN P /\ 1 < pD P /\ 0 < pB P /\ 0 < pCB P /\ NN P = pN P * 8 /\ bytesB P = pD P * pN P /\ 0 < pD P * pN P /\
  bytesC P = pD P * 8 /\ bytesMu P = pB P * 8 /\ pkBytes P = 16 + pD P * pN P /\
  skBytes P = pCB P + (16 + pD P * pN P) + 16 * pN P + pCB P /\ ctBytes P = pD P * pN P + pD P * 8 /\ spLen P = 16 * pN P + 64 /\ bytesH P = pCB P.
Proof.
  pose proof (v_N P V); pose proof (v_D P V); pose proof (v_B P V); pose proof (v_CB P V).
  assert (0 < pD P * pN P) by (apply Z.mul_pos_pos; lia).
  unfold skBytes, pkBytes, ctBytes, spLen, NN, bytesH, NBAR, SEEDA. rewrite (bytesB_eq P), (bytesC_eq P), (bytesMu_eq P).
  repeat split; lia.
Qed.
Lemma zlen_PackB M : zlen M = pN P * 8 -> zlen (Pack P M) = pD P * pN P.
Proof. intros L; rewrite (zlen_Pack C V), L. rewrite Z.mul_assoc. apply Z.div_mul; lia. Qed.
Lemma zlen_PackC M : zlen M = 64 -> zlen (Pack P M) = pD P * 8.
Proof. intros L; rewrite (zlen_Pack C V), L. dlia. Qed.
Lemma zlen_AS m n A s e : 0 <= n -> zlen (AS_plus_E m n A s e) = n * 8.
Proof. intros; apply zlen_ztab; lia. Qed.
Lemma zlen_SA m n A s e : 0 <= n -> zlen (SA_plus_E m n A s e) = n * 8.
Proof. intros; unfold SA_plus_E; rewrite zlen_ztab; lia. Qed.
Lemma AS_ok n A s e : u16s_ok (AS_plus_E 65536 n A s e).
Proof. apply inrange_ztab; intros; apply Z.mod_pos_bound; lia. Qed.
Lemma SA_ok n A s e : u16s_ok (SA_plus_E 65536 n A s e).
Proof. apply inrange_ztab; intros; apply Z.mod_pos_bound; lia. Qed.

Definition kp_wiped (l : kp_locals) (z : list Z) : Prop :=
  kp_S l = zrep (2 * NN P) 0 /\ kp_randomness l = zrep (2 * pCB P) 0 ++ z /\ kp_shake_input l = zrep (1 + pCB P) 0.

Theorem keypair_wp rb rc mem pk sk s seedSE z :
  zlen s = pCB P -> zlen seedSE = pCB P -> zlen z = 16 -> bytes_ok s -> bytes_ok seedSE -> bytes_ok z ->
  returns (rb (uninit (2 * pCB P + 16)) (2 * pCB P + 16)) (s ++ seedSE ++ z, rc) ->
  0 <= pk -> pk + pkBytes P <= zlen mem -> 0 <= sk -> sk + skBytes P <= zlen mem ->
  pk + pkBytes P <= sk \/ sk + skBytes P <= pk ->
  wp (crypto_kem_keypair C rb mem pk sk) (fun '(mem', l, r) =>
    r = 0 /\ mem' = zsplice (zsplice mem pk (fst (KeyGen P g s seedSE z))) sk (snd (KeyGen P g s seedSE z)) /\ kp_wiped l z).
Proof.
  intros Ls Lse Lz Bs Bse Bz (tr & Erb) Hpk Hpk2 Hsk Hsk2 Hdis.
  destruct sizes as (HN & HD & HB & HCB & ENN & EbB & HDN & EbC & EbMu & Epk & Esk & Ect & Esp & EH).
  unfold crypto_kem_keypair; cbv zeta. unfold SEEDA.
  apply wp_bind. replace (pCB P + pCB P + 16) with (2 * pCB P + 16) by lia. rewrite Erb. apply wp_ok.
  apply wp_bind, (sub_mid _ (s ++ seedSE) z []); [now rewrite app_nil_r, <- app_assoc|rewrite zlen_app; lia|lia|].
  apply wp_bind, (shake_to_wp C V); [lia|lia|lia|exact Bz|lia|].
  set (seedA := Hash P z 16).
  assert (LsA : zlen seedA = 16) by (apply (zlen_Hash C V); lia).
  assert (BsA : bytes_ok seedA) by (apply (Hash_ok C V)).
  set (m1 := zsplice mem pk seedA).
  assert (Lm1 : zlen m1 = zlen mem) by (apply zlen_zsplice; lia).
  apply wp_bind, wp_wr; [rewrite zlen_uninit; lia|].
  set (U1 := uninit (pCB P)).
  assert (LU1 : zlen U1 = pCB P) by (apply zlen_uninit; lia).
  replace (zset (uninit (1 + pCB P)) 0 95) with ([95] ++ U1) by (unfold U1; rewrite uninit_cons by lia; reflexivity).
  apply wp_bind, (memcpy_mid _ [95] U1 [] _ s seedSE z); [now rewrite app_nil_r|reflexivity|reflexivity|lia|lia|lia|].
  rewrite app_nil_r. cbn [app].
  apply (hash_words_wp C V _ _ (2 * NN P)); [lia|apply zlen_zrep; lia|lia| |rewrite zlen_cons; lia|lia|].
  { constructor; [lia|exact Bse]. }
  set (r := Hash P (95 :: seedSE) (2 * (2 * NN P))).
  assert (Br : bytes_ok r) by apply (Hash_ok C V).
  replace (hwords r 0 (2 * NN P)) with (hwords r 0 (NN P) ++ hwords r (NN P) (NN P)).
  2:{ replace (2 * NN P) with (NN P + NN P) by lia. rewrite hwords_split by lia. reflexivity. }
  apply wp_bind, (sample_mid C V _ [] (hwords r 0 (NN P)) (hwords r (NN P) (NN P)));
    [reflexivity|reflexivity|rewrite zlen_hwords; lia|apply hwords_ok; exact Br|]. cbn [app].
  apply wp_bind, (sample_mid C V _ (map (fun x => sample_spec (pCDF P) x mod 65536) (hwords r 0 (NN P))) (hwords r (NN P) (NN P)) []);
    [now rewrite app_nil_r|rewrite zlen_map, zlen_hwords; lia|rewrite zlen_hwords; lia|apply hwords_ok; exact Br|].
  rewrite app_nil_r. rewrite !sample_hwords.
  set (St := SampleMatrix P r 0 (NN P)). set (E := SampleMatrix P r (NN P) (NN P)).
  assert (LSt : zlen St = NN P) by (apply zlen_ztab; lia).
  assert (LE : zlen E = NN P) by (apply zlen_ztab; lia).
  apply wp_bind, (sub_mid _ [] (map w16 St) (map w16 E)); [reflexivity|reflexivity|rewrite zlen_map; lia|].
  apply wp_bind, (sub_mid _ (map w16 St) (map w16 E) []); [now rewrite app_nil_r|rewrite zlen_map; lia|rewrite zlen_map; lia|].
  apply wp_bind, wp_sub; [lia|lia|lia|]. unfold m1 at 1. rewrite zsplice_same_read by lia.
  apply wp_bind; eapply wp_mono; [apply (as_wp C V)|].
  { unfold mat_args. rewrite !zlen_map, zlen_zrep, LSt, LE by lia. repeat split; try lia; try apply w16_map_ok. exact BsA. }
  intros B ->. set (Bm := AS_plus_E 65536 (pN P) (A_spec g (pN P) seedA) (map w16 St) (map w16 E)).
  assert (LBm : zlen Bm = pN P * 8) by (apply zlen_AS; lia).
  replace (pkBytes P - 16) with (pD P * pN P) by lia.
  apply wp_bind, wp_sub; [lia|lia|lia|].
  apply wp_bind; eapply wp_mono; [apply (pack_mod C V); [apply zlen_zslice; lia|apply AS_ok|lia]|].
  intros b ->. unfold Bm at 1; rewrite AS_w16 by (pose proof (v_D P V); lia).
  set (BB := AS_plus_E (2 ^ pD P) (pN P) (A_spec g (pN P) seedA) St E).
  assert (LBB : zlen BB = pN P * 8) by (apply zlen_AS; lia).
  replace (pack_spec (pD P) (pD P * pN P) BB) with (Pack P BB).
  2:{ unfold Pack; f_equal. rewrite LBB. rewrite Z.mul_assoc. apply Z.div_mul; lia. }
  pose proof (zlen_PackB BB LBB) as LPB.
  apply wp_bind, wp_put; [lia|lia|].
  replace (pk + 16) with (pk + zlen seedA) by lia. unfold m1; rewrite zsplice_adj by lia.
  set (PK := seedA ++ Pack P BB).
  assert (LPK : zlen PK = pkBytes P) by (unfold PK; rewrite zlen_app; lia).
  assert (BPK : bytes_ok PK) by (apply inrange_app; [exact BsA|apply Pack_ok]).
  set (m2 := zsplice mem pk PK). assert (Lm2 : zlen m2 = zlen mem) by (apply zlen_zsplice; lia).
  apply wp_bind, wp_memcpy; [lia|lia|lia|lia|rewrite !zlen_app; lia|].
  rewrite zslice_app1 by lia.
  assert (Lm3 : zlen (zsplice m2 sk s) = zlen mem) by (rewrite zlen_zsplice; lia).
  assert (Rpk : zslice m2 pk (pkBytes P) = PK) by (apply zsplice_same_read; lia).
  apply wp_bind. unfold memcpy_in.
  replace ((sk + pCB P + pkBytes P <=? pk) || (pk + pkBytes P <=? sk + pCB P)) with true.
  2:{ symmetry; apply orb_true_iff; rewrite !Z.leb_le. lia. }
  apply wp_memcpy; [lia|lia|lia|lia|lia|].
  rewrite zslice_zsplice_other by lia. rewrite Rpk.
  replace (sk + pCB P) with (sk + zlen s) by lia. rewrite zsplice_adj by lia.
  apply wp_bind; eapply wp_mono; [apply (host_to_le_wp C _ (map w16 St) (map w16 E)); [reflexivity|rewrite zlen_map; lia|apply w16_map_ok]|].
  intros S ->.
  set (SB := bytes_of_S St). assert (LSB : zlen SB = 2 * NN P) by (unfold SB; rewrite zlen_bytes_of_S; lia).
  assert (L4 : zlen (zsplice m2 sk (s ++ PK)) = zlen mem) by (rewrite zlen_zsplice; rewrite ?zlen_app; lia).
  apply wp_bind, wp_memcpy; [lia|lia|lia|lia| |].
  { rewrite zlen_bytes, zlen_app, !zlen_map; lia. }
  replace (zslice (bytes_of_words (cEn C) (map (UINT16_TO_LE (cEn C)) (map w16 St) ++ map w16 E)) 0 (2 * NN P)) with SB.
  2:{ unfold SB; rewrite <- (bytes_of_S_eq (cEn C)). symmetry. rewrite bytes_of_words_app.
      apply zslice_app1. rewrite zlen_bytes, !zlen_map; lia. }
  replace (sk + zlen s + pkBytes P) with (sk + zlen (s ++ PK)) by (rewrite zlen_app; lia).
  rewrite zsplice_adj by (rewrite ?zlen_app; lia).
  set (X := (s ++ PK) ++ SB). assert (LX : zlen X = pCB P + pkBytes P + 2 * NN P) by (unfold X; rewrite !zlen_app; lia).
  assert (L5 : zlen (zsplice m2 sk X) = zlen mem) by (rewrite zlen_zsplice; lia).
  apply wp_bind, wp_sub; [lia|lia|lia|]. rewrite zslice_zsplice_other by lia. rewrite Rpk.
  replace (sk + zlen (s ++ PK) + 2 * NN P) with (sk + zlen X) by (rewrite zlen_app; lia).
  apply wp_bind, (shake_to_wp C V); [lia|lia|lia|exact BPK|lia|]. rewrite EH.
  set (H := Hash P PK (pCB P)). assert (LH : zlen H = pCB P) by (apply (zlen_Hash C V); lia).
  rewrite zsplice_adj by lia.
  set (S1 := map (UINT16_TO_LE (cEn C)) (map w16 St)).
  assert (LS1 : zlen S1 = NN P) by (unfold S1; rewrite !zlen_map; lia).
  apply wp_bind, (clear_words_mid _ _ [] S1 (map w16 E)); [reflexivity|reflexivity|lia|]. cbn [app].
  apply wp_bind, (clear_words_mid _ _ (zrep (NN P) 0) (map w16 E) []);
    [now rewrite app_nil_r|rewrite zlen_zrep; lia|rewrite zlen_map; lia|]. rewrite app_nil_r.
  apply wp_bind, (clear_mid _ [] (s ++ seedSE) z); [now rewrite <- app_assoc|reflexivity|rewrite zlen_app; lia|]. cbn [app].
  apply wp_bind, (clear_mid _ [] (95 :: seedSE) []); [now rewrite app_nil_r|reflexivity|rewrite zlen_cons; lia|].
  apply wp_ret. split; [reflexivity|]. split.
  - assert (EK : KeyGen P g s seedSE z = (PK, X ++ H)).
    { unfold KeyGen, X, H, SB, PK, BB, St, E, r, seedA. 
      replace (2 * (2 * NN P)) with (2 * (16 * pN P)) by lia. replace (NN P) with (8 * pN P) by lia.
      now rewrite <- !app_assoc. }
    rewrite EK. reflexivity.
  - unfold kp_wiped; cbn [kp_S kp_randomness kp_shake_input app].
    rewrite zrep_app by lia. rewrite app_nil_r. repeat split; f_equal; lia.
Qed.

(** The optimized S'A+E' routine is only right on little-endian hosts. *)
Definition build_ok : Prop := cImpl C <> Reference -> cEn C = LE.

Lemma sa_wp out s e seedA : build_ok -> mat_args P out s e seedA ->
  wp (sa_plus_e C (2 * NN P) out s e seedA) (fun '(o, e') =>
    o = SA_plus_E 65536 (pN P) (A_spec g (pN P) seedA) s e /\ zlen e' = NN P).
Proof.
  intros Hb M. assert (Hal : (2 * NN P) mod 32 = 0) by (unfold NN, NBAR; pose proof (v_N16 P V); dlia).
  eapply wp_mono; [apply returns_wp, (C26_sa_plus_e C (2 * NN P) out s e seedA V M (conj Hb (fun _ => Hal)))|].
  intros [o e'] E; injection E; intros -> ->.
  pose proof (v_N P V). split; [reflexivity|]. destruct M as (_ & _ & _ & Le & _).
  destruct (cImpl C); [exact Le|rewrite zlen_SA by lia; reflexivity..].
Qed.
Lemma map_mod_ok l : inrange (2 ^ pD P) l -> u16s_ok l.
Proof. pose proof (v_D P V). apply inrange_mono, (pow2_le_16 (pD P)); lia. Qed.
Lemma ztab_mod_ok k f : u16s_ok (ztab k (fun t => f t mod 2 ^ pD P)).
Proof.
  pose proof (v_D P V). apply map_mod_ok, inrange_ztab; intros; apply Z.mod_pos_bound.
  pose proof (pow2_le_16 (pD P)); lia.
Qed.
Lemma map_mod_small q l : inrange q l -> map (fun x => x mod q) l = l.
Proof.
  intros H; apply list_ext; [apply zlen_map|]. rewrite zlen_map; intros i Hi. rewrite znth_map by lia.
  apply Z.mod_small, inrange_znth; auto.
Qed.
Lemma encode_ok mu : u16s_ok (encode_spec (pD P) (pB P) mu).
Proof.
  pose proof (v_B P V); pose proof (v_D P V).
  apply inrange_intro; unfold encode_spec; rewrite zlen_map, zlen_regroup by lia; intros t Ht.
  rewrite znth_map by (rewrite zlen_regroup; lia).
  assert (Hk : 0 <= znth (regroup 8 (pB P) 64 mu) t < 2 ^ pB P)
    by (apply inrange_znth; [apply regroup_range; lia|rewrite zlen_regroup; lia]).
  assert (Hpow : 2 ^ pB P * 2 ^ (pD P - pB P) = 2 ^ pD P) by (rewrite <- Z.pow_add_r by lia; f_equal; lia).
  pose proof (pow2_le_16 (pD P) ltac:(lia)). pose proof (Z.pow_pos_nonneg 2 (pD P - pB P) ltac:(lia) ltac:(lia)).
  split; [apply Z.mul_nonneg_nonneg; lia|].
  apply Z.lt_le_trans with (2 ^ pB P * 2 ^ (pD P - pB P)); [apply Z.mul_lt_mono_pos_r; lia|lia].
Qed.
Lemma zlen_encode mu : zlen (encode_spec (pD P) (pB P) mu) = 64.
Proof. unfold encode_spec; rewrite zlen_map, zlen_regroup; lia. Qed.

(** What the local arrays hold at the end of crypto_kem_enc: everything derived from mu is
    zero except Bp, which is S'A+E' modulo 2^16. *)
Definition en_wiped (l : enc_locals) (pkh ct b : list Z) : Prop :=
  en_V l = zrep 64 0 /\ en_Sp l = zrep (spLen P) 0 /\ en_G2in l = pkh ++ zrep (bytesMu P) 0 /\
  en_G2out l = zrep (2 * pCB P) 0 /\ en_Fin l = ct ++ zrep (pCB P) 0 /\ en_shake_input l = zrep (1 + pCB P) 0 /\
  en_B l = Unpack P (8 * pN P) b /\
  map (fun x => x mod 2 ^ pD P) (en_Bp l) ++ en_C l = ct_B P ct ++ ct_C P ct.

Lemma Unpack_Pack M n : zlen M = n -> n mod 8 = 0 -> inrange (2 ^ pD P) M -> Unpack P n (Pack P M) = M.
Proof.
  intros L Hn R; pose proof (v_D P V). unfold Unpack, Pack. rewrite L. 
  assert (E : 8 * (pD P * n / 8) = pD P * n).
  { assert (exists j, n = 8 * j) as (j & ->) by (exists (n / 8); dlia).
    replace (pD P * (8 * j)) with (pD P * j * 8) by lia. rewrite Z.div_mul; lia. }
  pose proof (zlen_nonneg M). assert (0 <= pD P * n) by (apply Z.mul_nonneg_nonneg; lia).
  rewrite unpack_pack_spec by lia. symmetry; rewrite (zlist_ztab M) at 1. rewrite L. apply ztab_ext; intros i Hi.
  rewrite Z.mod_small; [reflexivity|]. apply inrange_znth; [exact R|lia].
Qed.

Theorem enc_wp rb rc mem ct ss pk mu :
  build_ok ->
  zlen mu = bytesMu P -> bytes_ok mu ->
  returns (rb (uninit (bytesMu P)) (bytesMu P)) (mu, rc) ->
  0 <= pk -> pk + pkBytes P <= zlen mem -> bytes_ok (zslice mem pk (pkBytes P)) ->
  0 <= ct -> ct + ctBytes P <= zlen mem -> 0 <= ss -> ss + pCB P <= zlen mem ->
  (* c1 may not overlap b, which is read after c1 is written *)
  ct + bytesB P <= pk + 16 \/ pk + pkBytes P <= ct ->
  let '(c, k) := Encaps P g (zslice mem pk (pkBytes P)) mu in
  wp (crypto_kem_enc C rb mem ct ss pk) (fun '(mem', l, r) =>
    r = 0 /\ mem' = zsplice (zsplice mem ct c) ss k /\
    en_wiped l (Hash P (zslice mem pk (pkBytes P)) (pCB P)) c (zslice mem (pk + 16) (bytesB P))).
Proof.
  intros Hbo Lmu Bmu (tr & Erb) Hpk Hpk2 Bpk Hct Hct2 Hss Hss2 Hdis.
  destruct sizes as (HN & HD & HB & HCB & ENN & EbB & HDN & EbC & EbMu & Epk & Esk & Ect & Esp & EH).
  destruct (Encaps P g (zslice mem pk (pkBytes P)) mu) as [c k] eqn:EE.
  unfold crypto_kem_enc; cbv zeta. unfold SEEDA, NBAR. change (8 * 8) with 64. rewrite EH.
  set (PK := zslice mem pk (pkBytes P)) in *.
  assert (LPK : zlen PK = pkBytes P) by (apply zlen_zslice; lia).
  assert (ESA : zslice mem pk 16 = firstn 16 PK).
  { unfold PK. replace (pkBytes P) with (16 + (pkBytes P - 16)) by lia. rewrite zslice_split by lia.
    change 16%nat with (Z.to_nat 16). change (firstn (Z.to_nat 16) ?l) with (zslice l 0 16).
    rewrite zslice_app1; [reflexivity|apply zlen_zslice; lia]. }
  assert (Eb : zslice mem (pk + 16) (pD P * pN P) = skipn 16 PK).
  { unfold PK. replace (pkBytes P) with (16 + pD P * pN P) by lia. rewrite zslice_split by lia.
    rewrite skipn_app, skipn_all2; [|unfold zslice; rewrite firstn_length; lia]. cbn [app].
    assert (length (zslice mem pk 16) = 16%nat).
    { pose proof (zlen_zslice mem pk 16 ltac:(lia) ltac:(lia) ltac:(lia)). unfold zlen in *; lia. }
    rewrite H. reflexivity. }
  assert (BSA : bytes_ok (firstn 16 PK)) by (apply inrange_firstn; exact Bpk).
  assert (Bb : bytes_ok (skipn 16 PK)) by (apply inrange_skipn; exact Bpk).
  assert (LSA : zlen (firstn 16 PK) = 16) by (rewrite <- ESA; apply zlen_zslice; lia).
  assert (Lb : zlen (skipn 16 PK) = pD P * pN P) by (rewrite <- Eb; apply zlen_zslice; lia).
  set (seedA := firstn 16 PK) in *. set (b := skipn 16 PK) in *.
  (* 103-108 *)
  apply wp_bind, wp_sub; [lia|lia|lia|]. fold PK.
  assert (EU : uninit (pCB P + bytesMu P) = uninit (pCB P) ++ uninit (bytesMu P)) by (symmetry; apply zrep_app; lia).
  apply wp_bind, (shake_to_mid C V _ [] (uninit (pCB P)) (uninit (bytesMu P)));
    [exact EU|reflexivity|rewrite zlen_uninit; lia|exact Bpk|lia|]. cbn [app].
  set (pkh := Hash P PK (pCB P)).
  assert (Lpkh : zlen pkh = pCB P) by (apply (zlen_Hash C V); lia).
  apply wp_bind, (sub_mid _ pkh (uninit (bytesMu P)) []); [now rewrite app_nil_r|lia|rewrite zlen_uninit; lia|].
  apply wp_bind. rewrite Erb. apply wp_ok.
  apply wp_bind, (put_mid _ pkh (uninit (bytesMu P)) []); [now rewrite app_nil_r|lia|rewrite zlen_uninit; lia|].
  rewrite app_nil_r.
  apply wp_bind, (shake_to_mid C V _ [] (uninit (2 * pCB P)) []);
    [now rewrite app_nil_r|reflexivity|rewrite zlen_uninit; lia|apply inrange_app; [apply (Hash_ok C V)|exact Bmu]|rewrite zlen_app; lia|].
  rewrite app_nil_r; cbn [app]. replace (pCB P + pCB P) with (2 * pCB P) by lia.
  set (G2 := Hash P (pkh ++ mu) (2 * pCB P)).
  assert (LG2 : zlen G2 = 2 * pCB P) by (apply (zlen_Hash C V); lia).
  assert (BG2 : bytes_ok G2) by apply (Hash_ok C V).
  set (seedSE := firstn (Z.to_nat (pCB P)) G2). set (kk := skipn (Z.to_nat (pCB P)) G2).
  assert (EG2 : G2 = seedSE ++ kk) by (symmetry; apply firstn_skipn).
  assert (Lse : zlen seedSE = pCB P) by (unfold seedSE, zlen in *; rewrite firstn_length; lia).
  assert (Lkk : zlen kk = pCB P) by (unfold kk, zlen in *; rewrite skipn_length; lia).
  assert (Bse : bytes_ok seedSE) by (apply inrange_firstn; exact BG2).
  assert (Bkk : bytes_ok kk) by (apply inrange_skipn; exact BG2).
  (* 111-116 *)
  apply wp_bind, wp_wr; [rewrite zlen_uninit; lia|].
  set (U1 := uninit (pCB P)).
  assert (LU1 : zlen U1 = pCB P) by (apply zlen_uninit; lia).
  replace (zset (uninit (1 + pCB P)) 0 150) with ([150] ++ U1) by (unfold U1; rewrite uninit_cons by lia; reflexivity).
  apply wp_bind, (memcpy_mid _ [150] U1 [] _ [] seedSE kk); [now rewrite app_nil_r|exact EG2|reflexivity|reflexivity|lia|lia|].
  rewrite app_nil_r. cbn [app].
  apply (hash_words_wp C V _ _ (spLen P)); [lia|apply zlen_zrep; lia|lia| |rewrite zlen_cons; lia|lia|].
  { constructor; [lia|exact Bse]. }
  set (r := Hash P (150 :: seedSE) (2 * spLen P)).
  assert (Br : bytes_ok r) by apply (Hash_ok C V).
  replace (hwords r 0 (spLen P)) with (hwords r 0 (NN P) ++ hwords r (NN P) (NN P) ++ hwords r (2 * NN P) 64).
  2:{ replace (spLen P) with (NN P + (NN P + 64)) by lia. rewrite !hwords_split by lia.
      replace (0 + NN P + NN P) with (2 * NN P) by lia. reflexivity. }
  (* 117-120 *)
  apply wp_bind, (sample_mid C V _ [] (hwords r 0 (NN P)) (hwords r (NN P) (NN P) ++ hwords r (2 * NN P) 64));
    [reflexivity|reflexivity|rewrite zlen_hwords; lia|apply hwords_ok; exact Br|]. cbn [app]. rewrite sample_hwords.
  set (S' := SampleMatrix P r 0 (NN P)). assert (LS' : zlen S' = NN P) by (apply zlen_ztab; lia).
  apply wp_bind, (sample_mid C V _ (map w16 S') (hwords r (NN P) (NN P)) (hwords r (2 * NN P) 64));
    [reflexivity|rewrite zlen_map; lia|rewrite zlen_hwords; lia|apply hwords_ok; exact Br|]. rewrite sample_hwords.
  set (E' := SampleMatrix P r (NN P) (NN P)). assert (LE' : zlen E' = NN P) by (apply zlen_ztab; lia).
  apply wp_bind, (sub_mid _ [] (map w16 S') (map w16 E' ++ hwords r (2 * NN P) 64)); [reflexivity|reflexivity|rewrite zlen_map; lia|].
  apply wp_bind, (sub_mid _ (map w16 S') (map w16 E') (hwords r (2 * NN P) 64)); [reflexivity|rewrite zlen_map; lia|rewrite zlen_map; lia|].
  apply wp_bind, wp_sub; [lia|lia|lia|]. rewrite ESA.
  apply wp_bind; eapply wp_mono; [apply sa_wp; [exact Hbo|]|].
  { unfold mat_args. rewrite !zlen_map, zlen_zrep, LS', LE' by lia. repeat split; try lia; try apply w16_map_ok. exact BSA. }
  intros [Bp e'] (EBp & Le').
  apply wp_bind, (put_mid _ (map w16 S') (map w16 E') (hwords r (2 * NN P) 64)); [reflexivity|rewrite zlen_map; lia|rewrite zlen_map; lia|].
  assert (LBp : zlen Bp = pN P * 8) by (rewrite EBp; apply zlen_SA; lia).
  assert (EBB : map (fun x => x mod 2 ^ pD P) Bp = SA_plus_E (2 ^ pD P) (pN P) (A_spec g (pN P) seedA) S' E').
  { rewrite EBp. apply SA_w16. pose proof (v_D P V); lia. }
  set (BB := SA_plus_E (2 ^ pD P) (pN P) (A_spec g (pN P) seedA) S' E') in *.
  assert (LBB : zlen BB = pN P * 8) by (apply zlen_SA; lia).
  apply wp_bind, wp_sub; [lia|lia|lia|].
  apply wp_bind; eapply wp_mono; [apply (pack_mod C V); [apply zlen_zslice; lia|rewrite EBp; apply SA_ok|lia]|].
  intros x ->. rewrite EBB. 
  replace (pack_spec (pD P) (bytesB P) BB) with (Pack P BB).
  2:{ unfold Pack; f_equal. rewrite LBB, EbB. rewrite Z.mul_assoc. apply Z.div_mul; lia. }
  pose proof (zlen_PackB BB LBB) as LPB.
  apply wp_bind, wp_put; [lia|lia|].
  set (m1 := zsplice mem ct (Pack P BB)). assert (Lm1 : zlen m1 = zlen mem) by (apply zlen_zsplice; lia).
  (* 123-125 *)
  apply wp_bind, (sample_mid C V _ (map w16 S' ++ e') (hwords r (2 * NN P) 64) []);
    [now rewrite app_nil_r, <- app_assoc|rewrite zlen_app, zlen_map; lia|rewrite zlen_hwords; lia|apply hwords_ok; exact Br|].
  rewrite sample_hwords, app_nil_r, <- app_assoc.
  set (E'' := SampleMatrix P r (2 * NN P) 64). assert (LE'' : zlen E'' = 64) by (apply zlen_ztab; lia).
  apply wp_bind, wp_sub; [lia|lia|lia|].
  replace (pkBytes P - 16) with (pD P * pN P) by lia. unfold m1 at 1; rewrite zslice_zsplice_other by lia. rewrite Eb.
  apply wp_bind; eapply wp_mono; [apply (unpack_wp C V); [apply zlen_zrep; lia|exact Bb|lia]|].
  intros B ->. set (B := Unpack P (NN P) b).
  assert (LB : zlen B = pN P * 8) by (unfold B; rewrite zlen_Unpack; lia).
  apply wp_bind, (sub_mid _ [] (map w16 S') (e' ++ map w16 E'')); [reflexivity|reflexivity|rewrite zlen_map; lia|].
  apply wp_bind, (sub_mid _ (map w16 S' ++ e') (map w16 E'') []);
    [now rewrite app_nil_r, <- app_assoc|rewrite zlen_app, zlen_map; lia|rewrite zlen_map; lia|].
  apply wp_bind; eapply wp_mono; [apply (sb_plus_e_wp P V);
    [apply zlen_zrep; lia|apply inrange_zrep0; lia|exact LB|apply (Unpack_ok16 C V)|rewrite zlen_map; lia|apply w16_map_ok|rewrite zlen_map; lia|apply w16_map_ok]|].
  intros Vm ->. rewrite SB_w16 by (pose proof (v_D P V); lia). set (Vm := SB_E_spec (2 ^ pD P) (pN P) S' B E'').
  assert (LV : zlen Vm = 64) by (apply zlen_ztab; lia).
  (* 128-130 *)
  apply wp_bind, (sub_mid _ pkh mu []); [now rewrite app_nil_r|lia|lia|].
  apply wp_bind; eapply wp_mono; [apply (key_encode_wp P V); [apply zlen_zrep; lia|lia|exact Bmu]|]. intros Cm ->.
  apply wp_bind; eapply wp_mono; [apply (add_wp P V); [exact LV|apply ztab_mod_ok|apply zlen_encode|apply encode_ok]|]. intros Cm ->.
  set (Cm := add_spec (2 ^ pD P) Vm (encode_spec (pD P) (pB P) mu)).
  assert (LC : zlen Cm = 64) by (apply zlen_ztab; lia).
  apply wp_bind, wp_sub; [lia|lia|lia|].
  apply wp_bind; eapply wp_mono; [apply (pack_mod C V); [apply zlen_zslice; lia|apply ztab_mod_ok|lia]|].
  intros x ->.
  assert (RC : inrange (2 ^ pD P) Cm).
  { apply inrange_ztab; intros; apply Z.mod_pos_bound. pose proof (pow2_le_16 (pD P)); pose proof (v_D P V); lia. }
  rewrite (map_mod_small (2 ^ pD P) Cm) by exact RC.
  replace (pack_spec (pD P) (bytesC P) Cm) with (Pack P Cm).
  2:{ unfold Pack; f_equal. rewrite LC, EbC. dlia. }
  pose proof (zlen_PackC Cm LC) as LPC.
  apply wp_bind, wp_put; [lia|lia|].
  unfold m1. replace (ct + bytesB P) with (ct + zlen (Pack P BB)) by lia. rewrite zsplice_adj by lia.
  set (CT := Pack P BB ++ Pack P Cm).
  assert (LCT : zlen CT = ctBytes P) by (unfold CT; rewrite zlen_app; lia).
  assert (BCT : bytes_ok CT) by (apply inrange_app; apply Pack_ok).
  set (m2 := zsplice mem ct CT). assert (Lm2 : zlen m2 = zlen mem) by (apply zlen_zsplice; lia).
  (* 133-135 *)
  assert (EF : uninit (ctBytes P + pCB P) = uninit (ctBytes P) ++ uninit (pCB P)) by (symmetry; apply zrep_app; lia).
  apply wp_bind, wp_memcpy; [lia|lia|lia|rewrite zlen_uninit; lia|lia|].
  replace (zslice m2 ct (ctBytes P)) with CT by (symmetry; apply zsplice_same_read; lia).
  rewrite EF. change (uninit (ctBytes P) ++ uninit (pCB P)) with ([] ++ uninit (ctBytes P) ++ uninit (pCB P)).
  rewrite (zsplice_mid _ (uninit (ctBytes P))) by (rewrite ?zlen_uninit; try reflexivity; lia). cbn [app].
  apply wp_bind, (memcpy_mid _ CT (uninit (pCB P)) [] _ seedSE kk []);
    [now rewrite app_nil_r|now rewrite app_nil_r|lia|lia|rewrite zlen_uninit; lia|lia|]. rewrite app_nil_r.
  apply wp_bind, (shake_to_wp C V); [lia|lia|lia|apply inrange_app; auto|rewrite zlen_app; lia|].
  (* 138-145 *)
  apply wp_bind, (clear_words_mid _ _ [] Vm []); [now rewrite app_nil_r|reflexivity|lia|]. cbn [app].
  apply wp_bind, (clear_words_mid _ _ [] (map w16 S') (e' ++ map w16 E'')); [reflexivity|reflexivity|rewrite zlen_map; lia|]. cbn [app].
  apply wp_bind, (clear_words_mid _ _ (zrep (NN P) 0) e' (map w16 E'')); [reflexivity|rewrite zlen_zrep; lia|lia|].
  apply wp_bind, (clear_words_mid _ _ (zrep (NN P) 0 ++ zrep (NN P) 0) (map w16 E'') []);
    [now rewrite app_nil_r, <- app_assoc|rewrite zlen_app, zlen_zrep; lia|rewrite zlen_map; lia|]. rewrite app_nil_r.
  apply wp_bind, (clear_mid _ pkh mu []); [now rewrite app_nil_r|lia|lia|]. rewrite app_nil_r.
  apply wp_bind, (clear_mid _ [] G2 []); [now rewrite app_nil_r|reflexivity|lia|]. cbn [app].
  apply wp_bind, (clear_mid _ CT kk []); [now rewrite app_nil_r|lia|lia|]. rewrite app_nil_r.
  apply wp_bind, (clear_mid _ [] (150 :: seedSE) []); [now rewrite app_nil_r|reflexivity|rewrite zlen_cons; lia|].
  apply wp_ret. 
  assert (EK : Encaps P g PK mu = (CT, Hash P (CT ++ kk) (pCB P))).
  { unfold Encaps, Encrypt. fold seedA b pkh G2. fold seedSE kk.
    replace (2 * (16 * pN P + 64)) with (2 * spLen P) by lia. fold r.
    replace (8 * pN P) with (NN P) by lia. replace (16 * pN P) with (2 * NN P) by lia. reflexivity. }
  rewrite EE in EK; injection EK; intros -> ->. split; [reflexivity|]. split; [reflexivity|].
  unfold en_wiped; cbn [en_V en_Sp en_G2in en_G2out en_Fin en_shake_input en_B en_Bp en_C]. rewrite !app_nil_r. cbn [app].
  split; [reflexivity|]. split; [rewrite !zrep_app by lia; f_equal; lia|].
  split; [reflexivity|]. split; [reflexivity|]. split; [reflexivity|]. split; [reflexivity|].
  split; [rewrite EbB, Eb; unfold B; f_equal; lia|].
  rewrite EBB. f_equal.
  - unfold ct_B, CT. change (part ?l 0 ?n) with (zslice l 0 n). rewrite zslice_app1 by lia.
    symmetry; apply Unpack_Pack; [lia|dlia|]. apply inrange_ztab; intros; apply Z.mod_pos_bound.
    pose proof (pow2_le_16 (pD P)); pose proof (v_D P V); lia.
  - unfold ct_C, CT. change (part ?l ?o ?n) with (zslice l o n). rewrite zslice_app2 by lia.
    symmetry; apply Unpack_Pack; [lia|reflexivity|exact RC].
Qed.

(** What the local arrays hold at the end of crypto_kem_dec: everything derived from the
    secret key is zero except BBp and CC, the re-encryption of the recovered message. *)
Definition de_wiped (l : dec_locals) (sk ct : list Z) : Prop :=
  let '(B2, C2, _) := Encrypt P g (sk_seedA P sk) (sk_b P sk) (sk_pkh P sk) (Decrypt P sk ct) in
  de_W l = zrep 64 0 /\ de_Sp l = zrep (spLen P) 0 /\ de_S l = zrep (NN P) 0 /\
  de_G2in l = sk_pkh P sk ++ zrep (bytesMu P) 0 /\ de_G2out l = zrep (2 * pCB P) 0 /\
  de_Fin l = ct ++ zrep (pCB P) 0 /\ de_shake_input l = zrep (1 + pCB P) 0 /\
  de_B l = Unpack P (8 * pN P) (sk_b P sk) /\ de_Bp l = ct_B P ct /\ de_C l = ct_C P ct /\
  de_BBp l = B2 /\ de_CC l = C2.

Lemma part_mem mem sk n o k : 0 <= sk -> 0 <= o -> 0 <= k -> o + k <= n -> part (zslice mem sk n) o k = zslice mem (sk + o) k.
Proof. intros; change (part ?l ?o ?n) with (zslice l o n). apply zslice_zslice; lia. Qed.

Lemma even_sk sk : (sk + pCB P + pkBytes P) mod 2 = sk mod 2.
Proof.
  destruct sizes as (HN & HD & HB & HCB & ENN & EbB & HDN & EbC & EbMu & Epk & Esk & Ect & Esp & EH).
  pose proof (v_CB2 P V). pose proof (v_N16 P V).
  assert (exists j, pD P * pN P = 2 * j) as (j & Ej).
  { exists (pD P * 8 * (pN P / 16)). replace (pN P) with (16 * (pN P / 16)) at 1 by dlia. lia. }
  rewrite Epk, Ej. dlia.
Qed.

Lemma load_S_wp x : bytes_ok x -> zlen x = 2 * NN P ->
  wp (for_ 0 (NN P) (fun i S => w <- rd (words_of_bytes (cEn C) x) i ;; wr S i (u16 (LE_TO_UINT16 (cEn C) w))) (uninit (NN P)))
     (fun S => S = ztab (NN P) (fun i => word16 x i)).
Proof.
  intros Bx Lx; pose proof (N8_pos C V).
  apply (wp_for (fun i S => zlen S = NN P /\ forall t, 0 <= t < i -> znth S t = word16 x t)).
  - lia.
  - split; [apply zlen_uninit; lia|lia].
  - intros i S Hi (LS & ES).
    assert (Hw : 0 <= znth (words_of_bytes (cEn C) x) i < 65536) by (apply inrange_znth; [apply inrange_words; exact Bx|rewrite zlen_words, Lx; dlia]).
    apply wp_bind, wp_rd; [rewrite zlen_words, Lx; dlia|lia|].
    rewrite word16_words by (auto; rewrite Lx; dlia).
    assert (Hr : 0 <= word16 x i < 65536).
    { unfold word16. pose proof (inrange_znth_all 256 x (2 * i) ltac:(lia) Bx).
      pose proof (inrange_znth_all 256 x (2 * i + 1) ltac:(lia) Bx). lia. }
    unfold u16; rewrite Z.mod_small by exact Hr.
    apply wp_wr; [lia|]. split; [rewrite zlen_zset; exact LS|]. intros t Ht; rewrite znth_zset by lia.
    destruct (Z.eqb_spec i t) as [->|]; [reflexivity|apply ES; lia].
  - intros S (LS & ES); apply list_ext; [rewrite zlen_ztab; lia|]. intros t Ht; rewrite ES, znth_ztab by lia; reflexivity.
Qed.

Lemma verify_eq a b n : zlen a = n -> zlen b = n -> u16s_ok a -> u16s_ok b ->
  wp (ct_verify a b n) (fun v => (v = 0 /\ a = b) \/ (v = -1 /\ a <> b)).
Proof.
  intros La Lb Ua Ub; pose proof (zlen_nonneg a). eapply wp_mono; [apply ct_verify_wp; auto; lia|].
  intros v [(-> & E)|(-> & i & Hi & E)]; [left|right]; split; auto.
  - apply list_ext; [lia|]. intros i Hi; apply E; lia.
  - intros ->. congruence.
Qed.

Theorem dec_wp mem ss ct sk :
  build_ok ->
  0 <= sk -> sk + skBytes P <= zlen mem -> bytes_ok (zslice mem sk (skBytes P)) -> sk mod 2 = 0 ->
  0 <= ct -> ct + ctBytes P <= zlen mem -> bytes_ok (zslice mem ct (ctBytes P)) ->
  0 <= ss -> ss + pCB P <= zlen mem ->
  let SK := zslice mem sk (skBytes P) in
  let CT := zslice mem ct (ctBytes P) in
  wp (crypto_kem_dec C mem ss ct sk) (fun '(mem', l, r) =>
    r = 0 /\ mem' = zsplice mem ss (Decaps P g SK CT) /\ de_wiped l SK CT).
Proof.
  intros Hbo Hsk Hsk2 Bsk Hal Hct Hct2 Bct Hss Hss2 SK CT.
  destruct sizes as (HN & HD & HB & HCB & ENN & EbB & HDN & EbC & EbMu & Epk & Esk & Ect & Esp & EH).
  pose proof (v_D P V) as HD16.
  unfold crypto_kem_dec; cbv zeta. unfold SEEDA, NBAR. change (8 * 8) with 64. rewrite EH.
  rewrite even_sk, Hal. cbn [Z.eqb].
  fold SK CT in Bsk, Bct.
  assert (Psk : forall o k, 0 <= o -> 0 <= k -> o + k <= skBytes P ->
     zslice mem (sk + o) k = part SK o k /\ zlen (part SK o k) = k /\ bytes_ok (part SK o k)).
  { intros o k Ho Hk Hok. unfold SK; rewrite part_mem by lia. split; [reflexivity|]. split; [apply zlen_zslice; lia|].
    rewrite <- (part_mem mem sk (skBytes P)) by lia. apply (inrange_zslice 256 _ o k Bsk). }
  assert (Pct : forall o k, 0 <= o -> 0 <= k -> o + k <= ctBytes P ->
     zslice mem (ct + o) k = part CT o k /\ zlen (part CT o k) = k /\ bytes_ok (part CT o k)).
  { intros o k Ho Hk Hok. unfold CT; rewrite part_mem by lia. split; [reflexivity|]. split; [apply zlen_zslice; lia|].
    rewrite <- (part_mem mem ct (ctBytes P)) by lia. apply (inrange_zslice 256 _ o k Bct). }
  destruct (Psk 0 (pCB P)) as (Ps & Ls & Bs); [lia..|]. rewrite Z.add_0_r in Ps.
  destruct (Psk (pCB P) 16) as (PA & LA & BA); [lia..|].
  destruct (Psk (pCB P + 16) (pD P * pN P)) as (Pb & Lb & Bb); [lia..|].
  destruct (Psk (pCB P + 16 + pD P * pN P) (16 * pN P)) as (PS & LS & BS); [lia..|].
  destruct (Psk (pCB P + 16 + pD P * pN P + 16 * pN P) (pCB P)) as (Ph & Lh & Bh); [lia..|].
  destruct (Pct 0 (pD P * pN P)) as (P1 & L1 & B1); [lia..|]. rewrite Z.add_0_r in P1.
  destruct (Pct (pD P * pN P) (pD P * 8)) as (P2 & L2 & B2); [lia..|].
  assert (LCT : zlen CT = ctBytes P) by (apply zlen_zslice; lia).
  (* 187-189 *)
  apply wp_bind, wp_sub; [lia|lia|lia|].
  replace (sk + pCB P + pkBytes P) with (sk + (pCB P + 16 + pD P * pN P)) by lia.
  replace (2 * NN P) with (16 * pN P) by lia. rewrite PS.
  apply wp_bind; eapply wp_mono; [apply load_S_wp; [exact BS|lia]|]. intros S ->.
  set (Sw := ztab (NN P) (fun i => word16 (part SK (pCB P + 16 + pD P * pN P) (16 * pN P)) i)).
  assert (LSw : zlen Sw = NN P) by (apply zlen_ztab; lia).
  assert (USw : u16s_ok Sw) by (exact (hwords_ok _ 0 (NN P) BS)).
  (* 192-196 *)
  apply wp_bind, wp_sub; [lia|lia|lia|]. rewrite EbB, P1.
  apply wp_bind; eapply wp_mono; [apply (unpack_wp C V); [apply zlen_zrep; lia|exact B1|lia]|]. intros Bp EBp.
  replace (NN P) with (8 * pN P) in EBp by lia. fold (ct_B P CT) in EBp. subst Bp.
  assert (LcB : zlen (ct_B P CT) = 8 * pN P) by (apply zlen_Unpack; lia).
  assert (RcB : inrange (2 ^ pD P) (ct_B P CT)) by (apply (Unpack_ok C V)).
  apply wp_bind, wp_sub; [lia|lia|lia|]. rewrite EbC, P2.
  apply wp_bind; eapply wp_mono; [apply (unpack_wp C V); [apply zlen_zrep; lia|exact B2|lia]|]. intros Cm EC.
  cbv beta in EC. fold (ct_C P CT) in EC. subst Cm.
  assert (LcC : zlen (ct_C P CT) = 64) by (apply zlen_Unpack; lia).
  assert (RcC : inrange (2 ^ pD P) (ct_C P CT)) by (apply (Unpack_ok C V)).
  apply wp_bind; eapply wp_mono; [apply (mul_bs_wp P V);
    [apply zlen_zrep; lia|apply inrange_zrep0; lia|lia|apply map_mod_ok; exact RcB|lia|exact USw]|]. intros W ->.
  assert (EW : BS_spec (2 ^ pD P) (pN P) (ct_B P CT) Sw = BS_spec (2 ^ pD P) (pN P) (ct_B P CT) (sk_St P SK)).
  { apply BS_cong; [lia|]. intros i Hi. unfold Sw, sk_St, S_of_bytes. rewrite !znth_ztab by lia.
    set (w := word16 _ _). unfold signed16. destruct (w <? 32768); [reflexivity|].
    replace (w - 65536) with (w + (- 2 ^ (16 - pD P)) * 2 ^ pD P).
    2:{ rewrite Z.mul_opp_l, <- Z.pow_add_r by lia. replace (16 - pD P + pD P) with 16 by lia. reflexivity. }
    symmetry; apply Z.mod_add, pow_nz; lia. }
  rewrite EW.
  apply wp_bind; eapply wp_mono; [apply (sub_wp P V); [lia|apply map_mod_ok; exact RcC|apply zlen_ztab; lia|apply ztab_mod_ok]|]. intros W ->.
  assert (EU : uninit (pCB P + bytesMu P) = uninit (pCB P) ++ uninit (bytesMu P)) by (symmetry; apply zrep_app; lia).
  apply wp_bind, (sub_mid _ (uninit (pCB P)) (uninit (bytesMu P)) []);
    [rewrite app_nil_r; exact EU|rewrite zlen_uninit; lia|rewrite zlen_uninit; lia|].
  apply wp_bind; eapply wp_mono; [apply (key_decode_wp P V); [rewrite zlen_uninit; lia|apply zlen_ztab; lia|apply ztab_mod_ok]|].
  intros mu Emu. cbv beta in Emu. fold (Decrypt P SK CT) in Emu. subst mu. set (mu := Decrypt P SK CT).
  assert (Lmu : zlen mu = bytesMu P) by (unfold mu, Decrypt, decode_spec; rewrite zlen_regroup; lia).
  assert (Bmu : bytes_ok mu) by (apply (regroup_range _ 8); lia).
  apply wp_bind, (put_mid _ (uninit (pCB P)) (uninit (bytesMu P)) []);
    [rewrite app_nil_r; exact EU|rewrite zlen_uninit; lia|rewrite zlen_uninit; lia|]. rewrite app_nil_r.
  (* 199-200 *)
  apply wp_bind, wp_memcpy; [lia|lia|lia|rewrite zlen_app, zlen_uninit; lia|lia|].
  replace (sk + (pCB P + 16 + pD P * pN P) + 16 * pN P) with (sk + (pCB P + 16 + pD P * pN P + 16 * pN P)) by lia.
  rewrite Ph. fold (sk_pkh P SK). set (pkh := sk_pkh P SK).
  assert (Lpkh : zlen pkh = pCB P) by exact Lh. assert (Bpkh : bytes_ok pkh) by exact Bh.
  change (uninit (pCB P) ++ mu) with ([] ++ uninit (pCB P) ++ mu).
  rewrite (zsplice_mid _ (uninit (pCB P))) by (rewrite ?zlen_uninit; try reflexivity; lia). cbn [app].
  apply wp_bind, (shake_to_mid C V _ [] (uninit (2 * pCB P)) []);
    [now rewrite app_nil_r|reflexivity|rewrite zlen_uninit; lia|apply inrange_app; auto|rewrite zlen_app; lia|].
  rewrite app_nil_r; cbn [app]. replace (pCB P + pCB P) with (2 * pCB P) by lia.
  set (G2 := Hash P (pkh ++ mu) (2 * pCB P)).
  assert (LG2 : zlen G2 = 2 * pCB P) by (apply (zlen_Hash C V); lia).
  assert (BG2 : bytes_ok G2) by apply (Hash_ok C V).
  set (seedSE := firstn (Z.to_nat (pCB P)) G2). set (kk := skipn (Z.to_nat (pCB P)) G2).
  assert (EG2 : G2 = seedSE ++ kk) by (symmetry; apply firstn_skipn).
  assert (Lse : zlen seedSE = pCB P) by (unfold seedSE, zlen in *; rewrite firstn_length; lia).
  assert (Lkk : zlen kk = pCB P) by (unfold kk, zlen in *; rewrite skipn_length; lia).
  assert (Bse : bytes_ok seedSE) by (apply inrange_firstn; exact BG2).
  assert (Bkk : bytes_ok kk) by (apply inrange_skipn; exact BG2).
  (* 203-209 *)
  apply wp_bind, wp_wr; [rewrite zlen_uninit; lia|].
  set (U1 := uninit (pCB P)).
  assert (LU1 : zlen U1 = pCB P) by (apply zlen_uninit; lia).
  replace (zset (uninit (1 + pCB P)) 0 150) with ([150] ++ U1) by (unfold U1; rewrite uninit_cons by lia; reflexivity).
  apply wp_bind, (memcpy_mid _ [150] U1 [] _ [] seedSE kk); [now rewrite app_nil_r|exact EG2|reflexivity|reflexivity|lia|lia|].
  rewrite app_nil_r. cbn [app].
  apply (hash_words_wp C V _ _ (spLen P)); [lia|apply zlen_zrep; lia|lia| |rewrite zlen_cons; lia|lia|].
  { constructor; [lia|exact Bse]. }
  set (r := Hash P (150 :: seedSE) (2 * spLen P)).
  assert (Br : bytes_ok r) by apply (Hash_ok C V).
  replace (16 * pN P) with (2 * NN P) by lia.
  replace (hwords r 0 (spLen P)) with (hwords r 0 (NN P) ++ hwords r (NN P) (NN P) ++ hwords r (2 * NN P) 64).
  2:{ replace (spLen P) with (NN P + (NN P + 64)) by lia. rewrite !hwords_split by lia.
      replace (0 + NN P + NN P) with (2 * NN P) by lia. reflexivity. }
  (* 209-211 *)
  apply wp_bind, (sample_mid C V _ [] (hwords r 0 (NN P)) (hwords r (NN P) (NN P) ++ hwords r (2 * NN P) 64));
    [reflexivity|reflexivity|rewrite zlen_hwords; lia|apply hwords_ok; exact Br|]. cbn [app]. rewrite sample_hwords.
  set (S' := SampleMatrix P r 0 (NN P)). assert (LS' : zlen S' = NN P) by (apply zlen_ztab; lia).
  apply wp_bind, (sample_mid C V _ (map w16 S') (hwords r (NN P) (NN P)) (hwords r (2 * NN P) 64));
    [reflexivity|rewrite zlen_map; lia|rewrite zlen_hwords; lia|apply hwords_ok; exact Br|]. rewrite sample_hwords.
  set (E' := SampleMatrix P r (NN P) (NN P)). assert (LE' : zlen E' = NN P) by (apply zlen_ztab; lia).
  apply wp_bind, (sub_mid _ [] (map w16 S') (map w16 E' ++ hwords r (2 * NN P) 64)); [reflexivity|reflexivity|rewrite zlen_map; lia|].
  apply wp_bind, (sub_mid _ (map w16 S') (map w16 E') (hwords r (2 * NN P) 64)); [reflexivity|rewrite zlen_map; lia|rewrite zlen_map; lia|].
  apply wp_bind, wp_sub; [lia|lia|lia|]. rewrite PA. fold (sk_seedA P SK). set (seedA := sk_seedA P SK).
  apply wp_bind; eapply wp_mono; [apply sa_wp; [exact Hbo|]|].
  { unfold mat_args. rewrite !zlen_map, zlen_zrep, LS', LE' by lia. repeat split; try lia; try apply w16_map_ok; [exact LA|exact BA]. }
  intros [Bp e'] (EBp & Le').
  apply wp_bind, (put_mid _ (map w16 S') (map w16 E') (hwords r (2 * NN P) 64)); [reflexivity|rewrite zlen_map; lia|rewrite zlen_map; lia|].
  assert (LBp : zlen Bp = pN P * 8) by (rewrite EBp; apply zlen_SA; lia).
  assert (EBB : map (fun x => x mod 2 ^ pD P) Bp = SA_plus_E (2 ^ pD P) (pN P) (A_spec g (pN P) seedA) S' E').
  { rewrite EBp. apply SA_w16. lia. }
  set (BB := SA_plus_E (2 ^ pD P) (pN P) (A_spec g (pN P) seedA) S' E') in *.
  assert (LBB : zlen BB = pN P * 8) by (apply zlen_SA; lia).
  (* 214-216 *)
  apply wp_bind, (sample_mid C V _ (map w16 S' ++ e') (hwords r (2 * NN P) 64) []);
    [now rewrite app_nil_r, <- app_assoc|rewrite zlen_app, zlen_map; lia|rewrite zlen_hwords; lia|apply hwords_ok; exact Br|].
  rewrite sample_hwords, app_nil_r, <- app_assoc.
  set (E'' := SampleMatrix P r (2 * NN P) 64). assert (LE'' : zlen E'' = 64) by (apply zlen_ztab; lia).
  apply wp_bind, wp_sub; [lia|lia|lia|].
  replace (pkBytes P - 16) with (pD P * pN P) by lia. replace (sk + pCB P + 16) with (sk + (pCB P + 16)) by lia. rewrite Pb.
  fold (sk_b P SK). set (b := sk_b P SK).
  apply wp_bind; eapply wp_mono; [apply (unpack_wp C V); [apply zlen_zrep; lia|exact Bb|symmetry; exact Lb]|].
  intros B ->. set (B := Unpack P (NN P) b).
  assert (LB : zlen B = pN P * 8) by (unfold B; rewrite zlen_Unpack; lia).
  apply wp_bind, (sub_mid _ [] (map w16 S') (e' ++ map w16 E'')); [reflexivity|reflexivity|rewrite zlen_map; lia|].
  apply wp_bind, (sub_mid _ (map w16 S' ++ e') (map w16 E'') []);
    [now rewrite app_nil_r, <- app_assoc|rewrite zlen_app, zlen_map; lia|rewrite zlen_map; lia|].
  apply wp_bind; eapply wp_mono; [apply (sb_plus_e_wp P V);
    [apply zlen_ztab; lia|apply ztab_mod_ok|exact LB|apply (Unpack_ok16 C V)|rewrite zlen_map; lia|apply w16_map_ok|rewrite zlen_map; lia|apply w16_map_ok]|].
  intros Vm ->. rewrite SB_w16 by lia. set (Vm := SB_E_spec (2 ^ pD P) (pN P) S' B E'').
  assert (LV : zlen Vm = 64) by (apply zlen_ztab; lia).
  (* 219-220 *)
  apply wp_bind, (sub_mid _ pkh mu []); [now rewrite app_nil_r|lia|lia|].
  apply wp_bind; eapply wp_mono; [apply (key_encode_wp P V); [apply zlen_zrep; lia|lia|exact Bmu]|]. intros Cm ->.
  apply wp_bind; eapply wp_mono; [apply (add_wp P V); [exact LV|apply ztab_mod_ok|apply zlen_encode|apply encode_ok]|]. intros Cm ->.
  set (Cm := add_spec (2 ^ pD P) Vm (encode_spec (pD P) (pB P) mu)).
  assert (LC : zlen Cm = 64) by (apply zlen_ztab; lia).
  (* 223-227 *)
  assert (EF : uninit (ctBytes P + pCB P) = uninit (ctBytes P) ++ uninit (pCB P)) by (symmetry; apply zrep_app; lia).
  apply wp_bind, wp_memcpy; [lia|lia|lia|rewrite zlen_uninit; lia|lia|]. fold CT.
  rewrite EF. change (uninit (ctBytes P) ++ uninit (pCB P)) with ([] ++ uninit (ctBytes P) ++ uninit (pCB P)).
  rewrite (zsplice_mid _ (uninit (ctBytes P))) by (rewrite ?zlen_uninit; try reflexivity; lia). cbn [app].
  apply wp_bind; eapply wp_mono; [apply (mask_q_wp C V); [lia|rewrite EBp; apply SA_ok]|]. intros BBp ->. rewrite EBB.
  (* 232-235 *)
  apply wp_bind; eapply wp_mono; [apply verify_eq; [lia|lia|apply map_mod_ok; exact RcB|apply ztab_mod_ok]|]. intros v1 Hv1.
  apply wp_bind; eapply wp_mono; [apply verify_eq; [lia|lia|apply map_mod_ok; exact RcC|apply ztab_mod_ok]|]. intros v2 Hv2.
  apply wp_bind, (sub_mid _ CT (uninit (pCB P)) []); [now rewrite app_nil_r|lia|rewrite zlen_uninit; lia|].
  apply wp_bind, (sub_mid _ seedSE kk []); [now rewrite app_nil_r|lia|lia|].
  apply wp_bind, wp_sub; [lia|lia|lia|]. rewrite Ps. fold (sk_s P SK).
  assert (Hsel : (s8 (Z.lor v1 v2) = 0 /\ ct_B P CT ++ ct_C P CT = BB ++ Cm) \/ (s8 (Z.lor v1 v2) = -1 /\ ct_B P CT ++ ct_C P CT <> BB ++ Cm)).
  { destruct Hv1 as [(-> & E1)|(-> & E1)], Hv2 as [(-> & E2)|(-> & E2)]; [left; split; [reflexivity|congruence]|right; split; [reflexivity|]..];
      intros E; apply app_eq_len in E; try lia; destruct E; congruence. }
  set (kbar := if list_eq_dec Z.eq_dec (ct_B P CT ++ ct_C P CT) (BB ++ Cm) then kk else sk_s P SK).
  apply wp_bind; eapply wp_mono; [apply ct_select_wp; [exact Bkk|exact Bs|lia|rewrite zlen_uninit; lia|exact Lkk|exact Ls|destruct Hsel as [(-> & _)|(-> & _)]; auto]|].
  intros x Ex. assert (Ek : x = kbar).
  { rewrite Ex. unfold kbar. destruct Hsel as [(-> & E)|(-> & E)]; destruct (list_eq_dec _ _ _); try contradiction; reflexivity. }
  clear Ex; subst x.
  assert (Lkbar : zlen kbar = pCB P) by (unfold kbar; destruct (list_eq_dec _ _ _); [exact Lkk|exact Ls]).
  assert (Bkbar : bytes_ok kbar) by (unfold kbar; destruct (list_eq_dec _ _ _); [exact Bkk|exact Bs]).
  apply wp_bind, (put_mid _ CT (uninit (pCB P)) []); [now rewrite app_nil_r|lia|rewrite zlen_uninit; lia|]. rewrite app_nil_r.
  apply wp_bind, (shake_to_wp C V); [lia|lia|lia|apply inrange_app; auto|rewrite zlen_app; lia|].
  (* 238-246 *)
  apply wp_bind, (clear_words_mid _ _ [] Vm []); [now rewrite app_nil_r|reflexivity|lia|]. cbn [app].
  apply wp_bind, (clear_words_mid _ _ [] (map w16 S') (e' ++ map w16 E'')); [reflexivity|reflexivity|rewrite zlen_map; lia|]. cbn [app].
  apply wp_bind, (clear_words_mid _ _ [] Sw []); [now rewrite app_nil_r|reflexivity|lia|]. cbn [app].
  apply wp_bind, (clear_words_mid _ _ (zrep (NN P) 0) e' (map w16 E'')); [reflexivity|rewrite zlen_zrep; lia|lia|].
  apply wp_bind, (clear_words_mid _ _ (zrep (NN P) 0 ++ zrep (NN P) 0) (map w16 E'') []);
    [now rewrite app_nil_r, <- app_assoc|rewrite zlen_app, zlen_zrep; lia|rewrite zlen_map; lia|]. rewrite app_nil_r.
  apply wp_bind, (clear_mid _ pkh mu []); [now rewrite app_nil_r|lia|lia|]. rewrite app_nil_r.
  apply wp_bind, (clear_mid _ [] G2 []); [now rewrite app_nil_r|reflexivity|lia|]. cbn [app].
  apply wp_bind, (clear_mid _ CT kbar []); [now rewrite app_nil_r|lia|lia|]. rewrite app_nil_r.
  apply wp_bind, (clear_mid _ [] (150 :: seedSE) []); [now rewrite app_nil_r|reflexivity|rewrite zlen_cons; lia|].
  apply wp_ret.
  assert (EE : Encrypt P g seedA b pkh mu = (BB, Cm, kk)).
  { unfold Encrypt. fold G2. fold seedSE kk.
    replace (2 * (16 * pN P + 64)) with (2 * spLen P) by lia. fold r.
    replace (8 * pN P) with (NN P) by lia. replace (16 * pN P) with (2 * NN P) by lia. reflexivity. }
  split; [reflexivity|]. split.
  - unfold Decaps. fold mu seedA b pkh. rewrite EE. reflexivity.
  - unfold de_wiped. fold mu seedA b pkh. rewrite EE. cbn [de_W de_Sp de_S de_G2in de_G2out de_Fin de_shake_input de_B de_Bp de_C de_BBp de_CC app].
    rewrite !app_nil_r.
    split; [reflexivity|]. split; [rewrite !zrep_app by lia; f_equal; lia|].
    repeat (split; [reflexivity|]). split; [unfold B; f_equal; lia|].
    repeat (split; [reflexivity|]). reflexivity.
Qed.
End Kem.
