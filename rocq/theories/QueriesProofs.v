(** The exact lists of the calls of SHAKE in keypair, enc and dec. *)
From Verif Require Import CSem Params Util UtilSpec UtilProofs Fips202 KeccakSpec ShakeProofs AesSpec
  MatrixSpec Macrify MatrixProofs MatrixProofs2 EncodeProofs PropMatrix FrodoSpec Kem KemProofs KemWp
  ResidueProofs RowQueries RowQueriesProofs Queries.

(** The strings for the rows of A. *)
Definition rows (C : config) (seedA : list Z) : list query := rows_for (pN (cP C)) seedA (cGen C) 0 (pN (cP C)).
Lemma wp_pair {A B} (m : res (A * B)) (Q : A -> Prop) :
  wp (bind m (fun '(a, _) => ret a)) Q -> wp (bind m (fun x => ret (fst x))) Q.
Proof. intros H. erewrite bind_cong; [exact H|]. intros [a b]; reflexivity. Qed.
Lemma wp_triple {A B D} (m : res (A * B * D)) (Q : A * B -> Prop) :
  wp (bind m (fun '(a, b, _) => ret (a, b))) Q -> wp (bind m (fun x => ret (fst x))) Q.
Proof. intros H. erewrite bind_cong; [exact H|]. intros [[a b] d]; reflexivity. Qed.
Lemma as_asks_wp C (V : valid (cP C)) out s e seedA : mat_args (cP C) out s e seedA ->
  wp (as_plus_e_asks C out s e seedA) (fun '(o, qs) =>
    o = AS_plus_E 65536 (pN (cP C)) (A_spec (cGen C) (pN (cP C)) seedA) s e /\ qs = rows C seedA).
Proof.
  intros M. assert (L : zlen seedA = 16) by apply M.
  pose proof (as_wp C V out s e seedA M) as H. rewrite as_plus_e_same in H.
  eapply wp_mono; [apply (wp_pc _ fst _ _ (wp_pair _ _ H) (as_asks_pc C out s e seedA V L))|].
  intros [o q] (E & Eq). split; assumption.
Qed.
Lemma sa_asks_wp C (V : valid (cP C)) out s e seedA : build_ok C -> mat_args (cP C) out s e seedA ->
  wp (sa_plus_e_asks C (2 * NN (cP C)) out s e seedA) (fun '(o, e', qs) =>
    o = SA_plus_E 65536 (pN (cP C)) (A_spec (cGen C) (pN (cP C)) seedA) s e /\ zlen e' = NN (cP C) /\ qs = rows C seedA).
Proof.
  intros Hb M. assert (L : zlen seedA = 16) by apply M.
  pose proof (sa_wp C V out s e seedA Hb M) as H. rewrite sa_plus_e_same in H.
  eapply wp_mono; [apply (wp_pc _ fst _ _ (wp_triple _ _ H) (sa_asks_pc C _ out s e seedA V L))|].
  intros [[o e'] q] ((E & E') & Eq). repeat split; assumption.
Qed.

Section Kem.
Variable C : config.
Local Notation P := (cP C).
Hypothesis V : valid P.
Local Notation g := (cGen C).

Lemma keypair_asks_wp rb rc mem pk sk s seedSE z :
  zlen s = pCB P -> zlen seedSE = pCB P -> zlen z = 16 -> bytes_ok s -> bytes_ok seedSE -> bytes_ok z ->
  returns (rb (uninit (2 * pCB P + 16)) (2 * pCB P + 16)) (s ++ seedSE ++ z, rc) ->
  0 <= pk -> pk + pkBytes P <= zlen mem -> 0 <= sk -> sk + skBytes P <= zlen mem ->
  pk + pkBytes P <= sk \/ sk + skBytes P <= pk ->
  wp (crypto_kem_keypair_asks C rb mem pk sk) (fun '(mem', l, r, q) =>
    r = 0 /\ mem' = zsplice (zsplice mem pk (fst (KeyGen P g s seedSE z))) sk (snd (KeyGen P g s seedSE z)) /\
    q = [ask P 39 z 16 16; ask P 44 (95 :: seedSE) (1 + pCB P) (32 * pN P)] ++ rows C (Hash P z 16) ++
        [ask P 64 (fst (KeyGen P g s seedSE z)) (pkBytes P) (pCB P)]).
Proof.
  intros Ls Lse Lz Bs Bse Bz (tr & Erb) Hpk Hpk2 Hsk Hsk2 Hdis.
  destruct (sizes C V) as (HN & HD & HB & HCB & ENN & EbB & HDN & EbC & EbMu & Epk & Esk & Ect & Esp & EH).
  unfold crypto_kem_keypair_asks; cbv zeta. unfold SEEDA.
  apply wp_bind. replace (pCB P + pCB P + 16) with (2 * pCB P + 16) by lia. rewrite Erb. apply wp_ok.
  apply wp_bind, (sub_mid _ (s ++ seedSE) z []); [now rewrite app_nil_r, <- app_assoc|rewrite zlen_app; lia|lia|].
  apply wp_bind, (shake_to_wp C V); [lia|lia|lia|exact Bz|lia|].
  set (seedA := Hash P z 16).
  assert (LsA : zlen seedA = 16) by (apply (zlen_Hash C V); lia).
  assert (BsA : bytes_ok seedA) by (apply (Hash_ok C V)).
  set (m1 := zsplice mem pk seedA).
  assert (Lm1 : zlen m1 = zlen mem) by (apply zlen_zsplice; lia).
  apply wp_bind, wp_wr; [rewrite zlen_uninit; lia|].
  set (U1 := uninit (pCB P)).
  assert (LU1 : zlen U1 = pCB P) by (apply zlen_uninit; lia).
  replace (zset (uninit (1 + pCB P)) 0 95) with ([95] ++ U1) by (unfold U1; rewrite uninit_cons by lia; reflexivity).
  apply wp_bind, (memcpy_mid _ [95] U1 [] _ s seedSE z); [now rewrite app_nil_r|reflexivity|reflexivity|lia|lia|lia|].
  rewrite app_nil_r. cbn [app].
  apply (hash_words_wp C V _ _ (2 * NN P)); [lia|apply zlen_zrep; lia|lia| |rewrite zlen_cons; lia|lia|].
  { constructor; [lia|exact Bse]. }
  set (r := Hash P (95 :: seedSE) (2 * (2 * NN P))).
  assert (Br : bytes_ok r) by apply (Hash_ok C V).
  replace (hwords r 0 (2 * NN P)) with (hwords r 0 (NN P) ++ hwords r (NN P) (NN P)).
  2:{ replace (2 * NN P) with (NN P + NN P) by lia. rewrite hwords_split by lia. reflexivity. }
  apply wp_bind, (sample_mid C V _ [] (hwords r 0 (NN P)) (hwords r (NN P) (NN P)));
    [reflexivity|reflexivity|rewrite zlen_hwords; lia|apply hwords_ok; exact Br|]. cbn [app].
  apply wp_bind, (sample_mid C V _ (map (fun x => sample_spec (pCDF P) x mod 65536) (hwords r 0 (NN P))) (hwords r (NN P) (NN P)) []);
    [now rewrite app_nil_r|rewrite zlen_map, zlen_hwords; lia|rewrite zlen_hwords; lia|apply hwords_ok; exact Br|].
  rewrite app_nil_r. rewrite !sample_hwords.
  set (St := SampleMatrix P r 0 (NN P)). set (E := SampleMatrix P r (NN P) (NN P)).
  assert (LSt : zlen St = NN P) by (apply zlen_ztab; lia).
  assert (LE : zlen E = NN P) by (apply zlen_ztab; lia).
  apply wp_bind, (sub_mid _ [] (map w16 St) (map w16 E)); [reflexivity|reflexivity|rewrite zlen_map; lia|].
  apply wp_bind, (sub_mid _ (map w16 St) (map w16 E) []); [now rewrite app_nil_r|rewrite zlen_map; lia|rewrite zlen_map; lia|].
  apply wp_bind, wp_sub; [lia|lia|lia|]. unfold m1 at 1. rewrite zsplice_same_read by lia.
  apply wp_bind; eapply wp_mono; [apply (as_asks_wp C V)|].
  { unfold mat_args. rewrite !zlen_map, zlen_zrep, LSt, LE by lia. repeat split; try lia; try apply w16_map_ok. exact BsA. }
  intros [B qA] (-> & ->). set (Bm := AS_plus_E 65536 (pN P) (A_spec g (pN P) seedA) (map w16 St) (map w16 E)).
  assert (LBm : zlen Bm = pN P * 8) by (apply zlen_AS; lia).
  replace (pkBytes P - 16) with (pD P * pN P) by lia.
  apply wp_bind, wp_sub; [lia|lia|lia|].
  apply wp_bind; eapply wp_mono; [apply (pack_mod C V); [apply zlen_zslice; lia|apply AS_ok|lia]|].
  intros b ->. unfold Bm at 1; rewrite AS_w16 by (pose proof (v_D P V); lia).
  set (BB := AS_plus_E (2 ^ pD P) (pN P) (A_spec g (pN P) seedA) St E).
  assert (LBB : zlen BB = pN P * 8) by (apply zlen_AS; lia).
  replace (pack_spec (pD P) (pD P * pN P) BB) with (Pack P BB).
  2:{ unfold Pack; f_equal. rewrite LBB. rewrite Z.mul_assoc. apply Z.div_mul; lia. }
  pose proof ((zlen_PackB C V) BB LBB) as LPB.
  apply wp_bind, wp_put; [lia|lia|].
  replace (pk + 16) with (pk + zlen seedA) by lia. unfold m1; rewrite zsplice_adj by lia.
  set (PK := seedA ++ Pack P BB).
  assert (LPK : zlen PK = pkBytes P) by (unfold PK; rewrite zlen_app; lia).
  assert (BPK : bytes_ok PK) by (apply inrange_app; [exact BsA|apply Pack_ok]).
  set (m2 := zsplice mem pk PK). assert (Lm2 : zlen m2 = zlen mem) by (apply zlen_zsplice; lia).
  apply wp_bind, wp_memcpy; [lia|lia|lia|lia|rewrite !zlen_app; lia|].
  rewrite zslice_app1 by lia.
  assert (Lm3 : zlen (zsplice m2 sk s) = zlen mem) by (rewrite zlen_zsplice; lia).
  assert (Rpk : zslice m2 pk (pkBytes P) = PK) by (apply zsplice_same_read; lia).
  apply wp_bind. unfold memcpy_in.
  replace ((sk + pCB P + pkBytes P <=? pk) || (pk + pkBytes P <=? sk + pCB P)) with true.
  2:{ symmetry; apply orb_true_iff; rewrite !Z.leb_le. lia. }
  apply wp_memcpy; [lia|lia|lia|lia|lia|].
  rewrite zslice_zsplice_other by lia. rewrite Rpk.
  replace (sk + pCB P) with (sk + zlen s) by lia. rewrite zsplice_adj by lia.
  apply wp_bind; eapply wp_mono; [apply (host_to_le_wp C _ (map w16 St) (map w16 E)); [reflexivity|rewrite zlen_map; lia|apply w16_map_ok]|].
  intros S ->.
  set (SB := bytes_of_S St). assert (LSB : zlen SB = 2 * NN P) by (unfold SB; rewrite zlen_bytes_of_S; lia).
  assert (L4 : zlen (zsplice m2 sk (s ++ PK)) = zlen mem) by (rewrite zlen_zsplice; rewrite ?zlen_app; lia).
  apply wp_bind, wp_memcpy; [lia|lia|lia|lia| |].
  { rewrite zlen_bytes, zlen_app, !zlen_map; lia. }
  replace (zslice (bytes_of_words (cEn C) (map (UINT16_TO_LE (cEn C)) (map w16 St) ++ map w16 E)) 0 (2 * NN P)) with SB.
  2:{ unfold SB; rewrite <- (bytes_of_S_eq (cEn C)). symmetry. rewrite bytes_of_words_app.
      apply zslice_app1. rewrite zlen_bytes, !zlen_map; lia. }
  replace (sk + zlen s + pkBytes P) with (sk + zlen (s ++ PK)) by (rewrite zlen_app; lia).
  rewrite zsplice_adj by (rewrite ?zlen_app; lia).
  set (X := (s ++ PK) ++ SB). assert (LX : zlen X = pCB P + pkBytes P + 2 * NN P) by (unfold X; rewrite !zlen_app; lia).
  assert (L5 : zlen (zsplice m2 sk X) = zlen mem) by (rewrite zlen_zsplice; lia).
  apply wp_bind, wp_sub; [lia|lia|lia|]. rewrite zslice_zsplice_other by lia. rewrite Rpk.
  replace (sk + zlen (s ++ PK) + 2 * NN P) with (sk + zlen X) by (rewrite zlen_app; lia).
  apply wp_bind, (shake_to_wp C V); [lia|lia|lia|exact BPK|lia|]. rewrite EH.
  set (H := Hash P PK (pCB P)). assert (LH : zlen H = pCB P) by (apply (zlen_Hash C V); lia).
  rewrite zsplice_adj by lia.
  set (S1 := map (UINT16_TO_LE (cEn C)) (map w16 St)).
  assert (LS1 : zlen S1 = NN P) by (unfold S1; rewrite !zlen_map; lia).
  apply wp_bind, (clear_words_mid _ _ [] S1 (map w16 E)); [reflexivity|reflexivity|lia|]. cbn [app].
  apply wp_bind, (clear_words_mid _ _ (zrep (NN P) 0) (map w16 E) []);
    [now rewrite app_nil_r|rewrite zlen_zrep; lia|rewrite zlen_map; lia|]. rewrite app_nil_r.
  apply wp_bind, (clear_mid _ [] (s ++ seedSE) z); [now rewrite <- app_assoc|reflexivity|rewrite zlen_app; lia|]. cbn [app].
  apply wp_bind, (clear_mid _ [] (95 :: seedSE) []); [now rewrite app_nil_r|reflexivity|rewrite zlen_cons; lia|].
  apply wp_ret. split; [reflexivity|].
  assert (EK : KeyGen P g s seedSE z = (PK, X ++ H)).
  { unfold KeyGen, X, H, SB, PK, BB, St, E, r, seedA.
    replace (2 * (2 * NN P)) with (2 * (16 * pN P)) by lia. replace (NN P) with (8 * pN P) by lia.
    now rewrite <- !app_assoc. }
  rewrite EK. cbn [fst snd]. split; [reflexivity|]. cbn [app]. rewrite ?app_nil_r.
  replace (2 * NN P * 2) with (32 * pN P) by lia. reflexivity.
Qed.

Lemma enc_asks_wp rb rc mem ct ss pk mu :
  (build_ok C) ->
  zlen mu = bytesMu P -> bytes_ok mu ->
  returns (rb (uninit (bytesMu P)) (bytesMu P)) (mu, rc) ->
  0 <= pk -> pk + pkBytes P <= zlen mem -> bytes_ok (zslice mem pk (pkBytes P)) ->
  0 <= ct -> ct + ctBytes P <= zlen mem -> 0 <= ss -> ss + pCB P <= zlen mem ->
  (* c1 may not overlap b, which is read after c1 is written *)
  ct + bytesB P <= pk + 16 \/ pk + pkBytes P <= ct ->
  let '(c, k) := Encaps P g (zslice mem pk (pkBytes P)) mu in
  wp (crypto_kem_enc_asks C rb mem ct ss pk) (fun '(mem', l, r, q) =>
    r = 0 /\ mem' = zsplice (zsplice mem ct c) ss k /\
    let PK := zslice mem pk (pkBytes P) in
    let pkh := Hash P PK (pCB P) in
    let G2 := Hash P (pkh ++ mu) (2 * pCB P) in
    q = [ask P 103 PK (pkBytes P) (pCB P); ask P 108 (pkh ++ mu) (pCB P + bytesMu P) (2 * pCB P);
         ask P 113 (150 :: firstn (Z.to_nat (pCB P)) G2) (1 + pCB P) (2 * spLen P)] ++ rows C (firstn 16 PK) ++
        [ask P 135 (c ++ skipn (Z.to_nat (pCB P)) G2) (ctBytes P + pCB P) (pCB P)]).
Proof.
  intros Hbo Lmu Bmu (tr & Erb) Hpk Hpk2 Bpk Hct Hct2 Hss Hss2 Hdis.
  destruct (sizes C V) as (HN & HD & HB & HCB & ENN & EbB & HDN & EbC & EbMu & Epk & Esk & Ect & Esp & EH).
  destruct (Encaps P g (zslice mem pk (pkBytes P)) mu) as [c k] eqn:EE.
  unfold crypto_kem_enc_asks; cbv zeta. unfold SEEDA, NBAR. change (8 * 8) with 64. rewrite EH.
  set (PK := zslice mem pk (pkBytes P)) in *.
  assert (LPK : zlen PK = pkBytes P) by (apply zlen_zslice; lia).
  assert (ESA : zslice mem pk 16 = firstn 16 PK).
  { unfold PK. replace (pkBytes P) with (16 + (pkBytes P - 16)) by lia. rewrite zslice_split by lia.
    change 16%nat with (Z.to_nat 16). change (firstn (Z.to_nat 16) ?l) with (zslice l 0 16).
    rewrite zslice_app1; [reflexivity|apply zlen_zslice; lia]. }
  assert (Eb : zslice mem (pk + 16) (pD P * pN P) = skipn 16 PK).
  { unfold PK. replace (pkBytes P) with (16 + pD P * pN P) by lia. rewrite zslice_split by lia.
    rewrite skipn_app, skipn_all2; [|unfold zslice; rewrite firstn_length; lia]. cbn [app].
    assert (length (zslice mem pk 16) = 16%nat).
    { pose proof (zlen_zslice mem pk 16 ltac:(lia) ltac:(lia) ltac:(lia)). unfold zlen in *; lia. }
    rewrite H. reflexivity. }
  assert (BSA : bytes_ok (firstn 16 PK)) by (apply inrange_firstn; exact Bpk).
  assert (Bb : bytes_ok (skipn 16 PK)) by (apply inrange_skipn; exact Bpk).
  assert (LSA : zlen (firstn 16 PK) = 16) by (rewrite <- ESA; apply zlen_zslice; lia).
  assert (Lb : zlen (skipn 16 PK) = pD P * pN P) by (rewrite <- Eb; apply zlen_zslice; lia).
  set (seedA := firstn 16 PK) in *. set (b := skipn 16 PK) in *.
  (* 103-108 *)
  apply wp_bind, wp_sub; [lia|lia|lia|]. fold PK.
  assert (EU : uninit (pCB P + bytesMu P) = uninit (pCB P) ++ uninit (bytesMu P)) by (symmetry; apply zrep_app; lia).
  apply wp_bind, (shake_to_mid C V _ [] (uninit (pCB P)) (uninit (bytesMu P)));
    [exact EU|reflexivity|rewrite zlen_uninit; lia|exact Bpk|lia|]. cbn [app].
  set (pkh := Hash P PK (pCB P)).
  assert (Lpkh : zlen pkh = pCB P) by (apply (zlen_Hash C V); lia).
  apply wp_bind, (sub_mid _ pkh (uninit (bytesMu P)) []); [now rewrite app_nil_r|lia|rewrite zlen_uninit; lia|].
  apply wp_bind. rewrite Erb. apply wp_ok.
  apply wp_bind, (put_mid _ pkh (uninit (bytesMu P)) []); [now rewrite app_nil_r|lia|rewrite zlen_uninit; lia|].
  rewrite app_nil_r.
  apply wp_bind, (shake_to_mid C V _ [] (uninit (2 * pCB P)) []);
    [now rewrite app_nil_r|reflexivity|rewrite zlen_uninit; lia|apply inrange_app; [apply (Hash_ok C V)|exact Bmu]|rewrite zlen_app; lia|].
  rewrite app_nil_r; cbn [app]. replace (pCB P + pCB P) with (2 * pCB P) by lia.
  set (G2 := Hash P (pkh ++ mu) (2 * pCB P)).
  assert (LG2 : zlen G2 = 2 * pCB P) by (apply (zlen_Hash C V); lia).
  assert (BG2 : bytes_ok G2) by apply (Hash_ok C V).
  set (seedSE := firstn (Z.to_nat (pCB P)) G2). set (kk := skipn (Z.to_nat (pCB P)) G2).
  assert (EG2 : G2 = seedSE ++ kk) by (symmetry; apply firstn_skipn).
  assert (Lse : zlen seedSE = pCB P) by (unfold seedSE, zlen in *; rewrite firstn_length; lia).
  assert (Lkk : zlen kk = pCB P) by (unfold kk, zlen in *; rewrite skipn_length; lia).
  assert (Bse : bytes_ok seedSE) by (apply inrange_firstn; exact BG2).
  assert (Bkk : bytes_ok kk) by (apply inrange_skipn; exact BG2).
  (* 111-116 *)
  apply wp_bind, wp_wr; [rewrite zlen_uninit; lia|].
  set (U1 := uninit (pCB P)).
  assert (LU1 : zlen U1 = pCB P) by (apply zlen_uninit; lia).
  replace (zset (uninit (1 + pCB P)) 0 150) with ([150] ++ U1) by (unfold U1; rewrite uninit_cons by lia; reflexivity).
  apply wp_bind, (memcpy_mid _ [150] U1 [] _ [] seedSE kk); [now rewrite app_nil_r|exact EG2|reflexivity|reflexivity|lia|lia|].
  rewrite app_nil_r. cbn [app].
  apply (hash_words_wp C V _ _ (spLen P)); [lia|apply zlen_zrep; lia|lia| |rewrite zlen_cons; lia|lia|].
  { constructor; [lia|exact Bse]. }
  set (r := Hash P (150 :: seedSE) (2 * spLen P)).
  assert (Br : bytes_ok r) by apply (Hash_ok C V).
  replace (hwords r 0 (spLen P)) with (hwords r 0 (NN P) ++ hwords r (NN P) (NN P) ++ hwords r (2 * NN P) 64).
  2:{ replace (spLen P) with (NN P + (NN P + 64)) by lia. rewrite !hwords_split by lia.
      replace (0 + NN P + NN P) with (2 * NN P) by lia. reflexivity. }
  (* 117-120 *)
  apply wp_bind, (sample_mid C V _ [] (hwords r 0 (NN P)) (hwords r (NN P) (NN P) ++ hwords r (2 * NN P) 64));
    [reflexivity|reflexivity|rewrite zlen_hwords; lia|apply hwords_ok; exact Br|]. cbn [app]. rewrite sample_hwords.
  set (S' := SampleMatrix P r 0 (NN P)). assert (LS' : zlen S' = NN P) by (apply zlen_ztab; lia).
  apply wp_bind, (sample_mid C V _ (map w16 S') (hwords r (NN P) (NN P)) (hwords r (2 * NN P) 64));
    [reflexivity|rewrite zlen_map; lia|rewrite zlen_hwords; lia|apply hwords_ok; exact Br|]. rewrite sample_hwords.
  set (E' := SampleMatrix P r (NN P) (NN P)). assert (LE' : zlen E' = NN P) by (apply zlen_ztab; lia).
  apply wp_bind, (sub_mid _ [] (map w16 S') (map w16 E' ++ hwords r (2 * NN P) 64)); [reflexivity|reflexivity|rewrite zlen_map; lia|].
  apply wp_bind, (sub_mid _ (map w16 S') (map w16 E') (hwords r (2 * NN P) 64)); [reflexivity|rewrite zlen_map; lia|rewrite zlen_map; lia|].
  apply wp_bind, wp_sub; [lia|lia|lia|]. rewrite ESA.
  apply wp_bind; eapply wp_mono; [apply (sa_asks_wp C V); [exact Hbo|]|].
  { unfold mat_args. rewrite !zlen_map, zlen_zrep, LS', LE' by lia. repeat split; try lia; try apply w16_map_ok. exact BSA. }
  intros [[Bp e'] qA] (EBp & Le' & ->).
  apply wp_bind, (put_mid _ (map w16 S') (map w16 E') (hwords r (2 * NN P) 64)); [reflexivity|rewrite zlen_map; lia|rewrite zlen_map; lia|].
  assert (LBp : zlen Bp = pN P * 8) by (rewrite EBp; apply zlen_SA; lia).
  assert (EBB : map (fun x => x mod 2 ^ pD P) Bp = SA_plus_E (2 ^ pD P) (pN P) (A_spec g (pN P) seedA) S' E').
  { rewrite EBp. apply SA_w16. pose proof (v_D P V); lia. }
  set (BB := SA_plus_E (2 ^ pD P) (pN P) (A_spec g (pN P) seedA) S' E') in *.
  assert (LBB : zlen BB = pN P * 8) by (apply zlen_SA; lia).
  apply wp_bind, wp_sub; [lia|lia|lia|].
  apply wp_bind; eapply wp_mono; [apply (pack_mod C V); [apply zlen_zslice; lia|rewrite EBp; apply SA_ok|lia]|].
  intros x ->. rewrite EBB. 
  replace (pack_spec (pD P) (bytesB P) BB) with (Pack P BB).
  2:{ unfold Pack; f_equal. rewrite LBB, EbB. rewrite Z.mul_assoc. apply Z.div_mul; lia. }
  pose proof ((zlen_PackB C V) BB LBB) as LPB.
  apply wp_bind, wp_put; [lia|lia|].
  set (m1 := zsplice mem ct (Pack P BB)). assert (Lm1 : zlen m1 = zlen mem) by (apply zlen_zsplice; lia).
  (* 123-125 *)
  apply wp_bind, (sample_mid C V _ (map w16 S' ++ e') (hwords r (2 * NN P) 64) []);
    [now rewrite app_nil_r, <- app_assoc|rewrite zlen_app, zlen_map; lia|rewrite zlen_hwords; lia|apply hwords_ok; exact Br|].
  rewrite sample_hwords, app_nil_r, <- app_assoc.
  set (E'' := SampleMatrix P r (2 * NN P) 64). assert (LE'' : zlen E'' = 64) by (apply zlen_ztab; lia).
  apply wp_bind, wp_sub; [lia|lia|lia|].
  replace (pkBytes P - 16) with (pD P * pN P) by lia. unfold m1 at 1; rewrite zslice_zsplice_other by lia. rewrite Eb.
  apply wp_bind; eapply wp_mono; [apply (unpack_wp C V); [apply zlen_zrep; lia|exact Bb|lia]|].
  intros B ->. set (B := Unpack P (NN P) b).
  assert (LB : zlen B = pN P * 8) by (unfold B; rewrite zlen_Unpack; lia).
  apply wp_bind, (sub_mid _ [] (map w16 S') (e' ++ map w16 E'')); [reflexivity|reflexivity|rewrite zlen_map; lia|].
  apply wp_bind, (sub_mid _ (map w16 S' ++ e') (map w16 E'') []);
    [now rewrite app_nil_r, <- app_assoc|rewrite zlen_app, zlen_map; lia|rewrite zlen_map; lia|].
  apply wp_bind; eapply wp_mono; [apply (sb_plus_e_wp P V);
    [apply zlen_zrep; lia|apply inrange_zrep0; lia|exact LB|apply (Unpack_ok16 C V)|rewrite zlen_map; lia|apply w16_map_ok|rewrite zlen_map; lia|apply w16_map_ok]|].
  intros Vm ->. rewrite SB_w16 by (pose proof (v_D P V); lia). set (Vm := SB_E_spec (2 ^ pD P) (pN P) S' B E'').
  assert (LV : zlen Vm = 64) by (apply zlen_ztab; lia).
  (* 128-130 *)
  apply wp_bind, (sub_mid _ pkh mu []); [now rewrite app_nil_r|lia|lia|].
  apply wp_bind; eapply wp_mono; [apply (key_encode_wp P V); [apply zlen_zrep; lia|lia|exact Bmu]|]. intros Cm ->.
  apply wp_bind; eapply wp_mono; [apply (add_wp P V); [exact LV|apply (ztab_mod_ok C V)|apply (zlen_encode C)|apply (encode_ok C V)]|]. intros Cm ->.
  set (Cm := add_spec (2 ^ pD P) Vm (encode_spec (pD P) (pB P) mu)).
  assert (LC : zlen Cm = 64) by (apply zlen_ztab; lia).
  apply wp_bind, wp_sub; [lia|lia|lia|].
  apply wp_bind; eapply wp_mono; [apply (pack_mod C V); [apply zlen_zslice; lia|apply (ztab_mod_ok C V)|lia]|].
  intros x ->.
  assert (RC : inrange (2 ^ pD P) Cm).
  { apply inrange_ztab; intros; apply Z.mod_pos_bound. pose proof (pow2_le_16 (pD P)); pose proof (v_D P V); lia. }
  rewrite (map_mod_small (2 ^ pD P) Cm) by exact RC.
  replace (pack_spec (pD P) (bytesC P) Cm) with (Pack P Cm).
  2:{ unfold Pack; f_equal. rewrite LC, EbC. dlia. }
  pose proof ((zlen_PackC C V) Cm LC) as LPC.
  apply wp_bind, wp_put; [lia|lia|].
  unfold m1. replace (ct + bytesB P) with (ct + zlen (Pack P BB)) by lia. rewrite zsplice_adj by lia.
  set (CT := Pack P BB ++ Pack P Cm).
  assert (LCT : zlen CT = ctBytes P) by (unfold CT; rewrite zlen_app; lia).
  assert (BCT : bytes_ok CT) by (apply inrange_app; apply Pack_ok).
  set (m2 := zsplice mem ct CT). assert (Lm2 : zlen m2 = zlen mem) by (apply zlen_zsplice; lia).
  (* 133-135 *)
  assert (EF : uninit (ctBytes P + pCB P) = uninit (ctBytes P) ++ uninit (pCB P)) by (symmetry; apply zrep_app; lia).
  apply wp_bind, wp_memcpy; [lia|lia|lia|rewrite zlen_uninit; lia|lia|].
  replace (zslice m2 ct (ctBytes P)) with CT by (symmetry; apply zsplice_same_read; lia).
  rewrite EF. change (uninit (ctBytes P) ++ uninit (pCB P)) with ([] ++ uninit (ctBytes P) ++ uninit (pCB P)).
  rewrite (zsplice_mid _ (uninit (ctBytes P))) by (rewrite ?zlen_uninit; try reflexivity; lia). cbn [app].
  apply wp_bind, (memcpy_mid _ CT (uninit (pCB P)) [] _ seedSE kk []);
    [now rewrite app_nil_r|now rewrite app_nil_r|lia|lia|rewrite zlen_uninit; lia|lia|]. rewrite app_nil_r.
  apply wp_bind, (shake_to_wp C V); [lia|lia|lia|apply inrange_app; auto|rewrite zlen_app; lia|].
  (* 138-145 *)
  apply wp_bind, (clear_words_mid _ _ [] Vm []); [now rewrite app_nil_r|reflexivity|lia|]. cbn [app].
  apply wp_bind, (clear_words_mid _ _ [] (map w16 S') (e' ++ map w16 E'')); [reflexivity|reflexivity|rewrite zlen_map; lia|]. cbn [app].
  apply wp_bind, (clear_words_mid _ _ (zrep (NN P) 0) e' (map w16 E'')); [reflexivity|rewrite zlen_zrep; lia|lia|].
  apply wp_bind, (clear_words_mid _ _ (zrep (NN P) 0 ++ zrep (NN P) 0) (map w16 E'') []);
    [now rewrite app_nil_r, <- app_assoc|rewrite zlen_app, zlen_zrep; lia|rewrite zlen_map; lia|]. rewrite app_nil_r.
  apply wp_bind, (clear_mid _ pkh mu []); [now rewrite app_nil_r|lia|lia|]. rewrite app_nil_r.
  apply wp_bind, (clear_mid _ [] G2 []); [now rewrite app_nil_r|reflexivity|lia|]. cbn [app].
  apply wp_bind, (clear_mid _ CT kk []); [now rewrite app_nil_r|lia|lia|]. rewrite app_nil_r.
  apply wp_bind, (clear_mid _ [] (150 :: seedSE) []); [now rewrite app_nil_r|reflexivity|rewrite zlen_cons; lia|].
  apply wp_ret. 
  assert (EK : Encaps P g PK mu = (CT, Hash P (CT ++ kk) (pCB P))).
  { unfold Encaps, Encrypt. fold seedA b pkh G2. fold seedSE kk.
    replace (2 * (16 * pN P + 64)) with (2 * spLen P) by lia. fold r.
    replace (8 * pN P) with (NN P) by lia. replace (16 * pN P) with (2 * NN P) by lia. reflexivity. }
  rewrite EE in EK; injection EK; intros -> ->. split; [reflexivity|]. split; [reflexivity|].
  cbv zeta. fold PK pkh G2 seedSE kk seedA. cbn [app]. rewrite ?app_nil_r. rewrite (Z.mul_comm (spLen P) 2). reflexivity.
Qed.

Lemma dec_asks_wp mem ss ct sk :
  (build_ok C) ->
  0 <= sk -> sk + skBytes P <= zlen mem -> bytes_ok (zslice mem sk (skBytes P)) -> sk mod 2 = 0 ->
  0 <= ct -> ct + ctBytes P <= zlen mem -> bytes_ok (zslice mem ct (ctBytes P)) ->
  0 <= ss -> ss + pCB P <= zlen mem ->
  let SK := zslice mem sk (skBytes P) in
  let CT := zslice mem ct (ctBytes P) in
  wp (crypto_kem_dec_asks C mem ss ct sk) (fun '(mem', l, r, q) =>
    r = 0 /\ mem' = zsplice mem ss (Decaps P g SK CT) /\
    let mu := Decrypt P SK CT in
    let G2 := Hash P (sk_pkh P SK ++ mu) (2 * pCB P) in
    q = [ask P 201 (sk_pkh P SK ++ mu) (pCB P + bytesMu P) (2 * pCB P);
         ask P 206 (150 :: firstn (Z.to_nat (pCB P)) G2) (1 + pCB P) (2 * spLen P)] ++ rows C (sk_seedA P SK) ++
        [ask P 236 (CT ++ dec_key P g SK CT) (ctBytes P + pCB P) (pCB P)]).
Proof.
  intros Hbo Hsk Hsk2 Bsk Hal Hct Hct2 Bct Hss Hss2 SK CT.
  destruct (sizes C V) as (HN & HD & HB & HCB & ENN & EbB & HDN & EbC & EbMu & Epk & Esk & Ect & Esp & EH).
  pose proof (v_D P V) as HD16.
  unfold crypto_kem_dec_asks; cbv zeta. unfold SEEDA, NBAR. change (8 * 8) with 64. rewrite EH.
  rewrite (even_sk C V), Hal. cbn [Z.eqb].
  fold SK CT in Bsk, Bct.
  assert (Psk : forall o k, 0 <= o -> 0 <= k -> o + k <= skBytes P ->
     zslice mem (sk + o) k = part SK o k /\ zlen (part SK o k) = k /\ bytes_ok (part SK o k)).
  { intros o k Ho Hk Hok. unfold SK; rewrite part_mem by lia. split; [reflexivity|]. split; [apply zlen_zslice; lia|].
    rewrite <- (part_mem mem sk (skBytes P)) by lia. apply (inrange_zslice 256 _ o k Bsk). }
  assert (Pct : forall o k, 0 <= o -> 0 <= k -> o + k <= ctBytes P ->
     zslice mem (ct + o) k = part CT o k /\ zlen (part CT o k) = k /\ bytes_ok (part CT o k)).
  { intros o k Ho Hk Hok. unfold CT; rewrite part_mem by lia. split; [reflexivity|]. split; [apply zlen_zslice; lia|].
    rewrite <- (part_mem mem ct (ctBytes P)) by lia. apply (inrange_zslice 256 _ o k Bct). }
  destruct (Psk 0 (pCB P)) as (Ps & Ls & Bs); [lia..|]. rewrite Z.add_0_r in Ps.
  destruct (Psk (pCB P) 16) as (PA & LA & BA); [lia..|].
  destruct (Psk (pCB P + 16) (pD P * pN P)) as (Pb & Lb & Bb); [lia..|].
  destruct (Psk (pCB P + 16 + pD P * pN P) (16 * pN P)) as (PS & LS & BS); [lia..|].
  destruct (Psk (pCB P + 16 + pD P * pN P + 16 * pN P) (pCB P)) as (Ph & Lh & Bh); [lia..|].
  destruct (Pct 0 (pD P * pN P)) as (P1 & L1 & B1); [lia..|]. rewrite Z.add_0_r in P1.
  destruct (Pct (pD P * pN P) (pD P * 8)) as (P2 & L2 & B2); [lia..|].
  assert (LCT : zlen CT = ctBytes P) by (apply zlen_zslice; lia).
  (* 187-189 *)
  apply wp_bind, wp_sub; [lia|lia|lia|].
  replace (sk + pCB P + pkBytes P) with (sk + (pCB P + 16 + pD P * pN P)) by lia.
  replace (2 * NN P) with (16 * pN P) by lia. rewrite PS.
  apply wp_bind; eapply wp_mono; [apply (load_S_wp C V); [exact BS|lia]|]. intros S ->.
  set (Sw := ztab (NN P) (fun i => word16 (part SK (pCB P + 16 + pD P * pN P) (16 * pN P)) i)).
  assert (LSw : zlen Sw = NN P) by (apply zlen_ztab; lia).
  assert (USw : u16s_ok Sw) by (exact (hwords_ok _ 0 (NN P) BS)).
  (* 192-196 *)
  apply wp_bind, wp_sub; [lia|lia|lia|]. rewrite EbB, P1.
  apply wp_bind; eapply wp_mono; [apply (unpack_wp C V); [apply zlen_zrep; lia|exact B1|lia]|]. intros Bp EBp.
  replace (NN P) with (8 * pN P) in EBp by lia. fold (ct_B P CT) in EBp. subst Bp.
  assert (LcB : zlen (ct_B P CT) = 8 * pN P) by (apply zlen_Unpack; lia).
  assert (RcB : inrange (2 ^ pD P) (ct_B P CT)) by (apply (Unpack_ok C V)).
  apply wp_bind, wp_sub; [lia|lia|lia|]. rewrite EbC, P2.
  apply wp_bind; eapply wp_mono; [apply (unpack_wp C V); [apply zlen_zrep; lia|exact B2|lia]|]. intros Cm EC.
  cbv beta in EC. fold (ct_C P CT) in EC. subst Cm.
  assert (LcC : zlen (ct_C P CT) = 64) by (apply zlen_Unpack; lia).
  assert (RcC : inrange (2 ^ pD P) (ct_C P CT)) by (apply (Unpack_ok C V)).
  apply wp_bind; eapply wp_mono; [apply (mul_bs_wp P V);
    [apply zlen_zrep; lia|apply inrange_zrep0; lia|lia|apply (map_mod_ok C V); exact RcB|lia|exact USw]|]. intros W ->.
  assert (EW : BS_spec (2 ^ pD P) (pN P) (ct_B P CT) Sw = BS_spec (2 ^ pD P) (pN P) (ct_B P CT) (sk_St P SK)).
  { apply BS_cong; [lia|]. intros i Hi. unfold Sw, sk_St, S_of_bytes. rewrite !znth_ztab by lia.
    set (w := word16 _ _). unfold signed16. destruct (w <? 32768); [reflexivity|].
    replace (w - 65536) with (w + (- 2 ^ (16 - pD P)) * 2 ^ pD P).
    2:{ rewrite Z.mul_opp_l, <- Z.pow_add_r by lia. replace (16 - pD P + pD P) with 16 by lia. reflexivity. }
    symmetry; apply Z.mod_add, pow_nz; lia. }
  rewrite EW.
  apply wp_bind; eapply wp_mono; [apply (sub_wp P V); [lia|apply (map_mod_ok C V); exact RcC|apply zlen_ztab; lia|apply (ztab_mod_ok C V)]|]. intros W ->.
  assert (EU : uninit (pCB P + bytesMu P) = uninit (pCB P) ++ uninit (bytesMu P)) by (symmetry; apply zrep_app; lia).
  apply wp_bind, (sub_mid _ (uninit (pCB P)) (uninit (bytesMu P)) []);
    [rewrite app_nil_r; exact EU|rewrite zlen_uninit; lia|rewrite zlen_uninit; lia|].
  apply wp_bind; eapply wp_mono; [apply (key_decode_wp P V); [rewrite zlen_uninit; lia|apply zlen_ztab; lia|apply (ztab_mod_ok C V)]|].
  intros mu Emu. cbv beta in Emu. fold (Decrypt P SK CT) in Emu. subst mu. set (mu := Decrypt P SK CT).
  assert (Lmu : zlen mu = bytesMu P) by (unfold mu, Decrypt, decode_spec; rewrite zlen_regroup; lia).
  assert (Bmu : bytes_ok mu) by (apply (regroup_range _ 8); lia).
  apply wp_bind, (put_mid _ (uninit (pCB P)) (uninit (bytesMu P)) []);
    [rewrite app_nil_r; exact EU|rewrite zlen_uninit; lia|rewrite zlen_uninit; lia|]. rewrite app_nil_r.
  (* 199-200 *)
  apply wp_bind, wp_memcpy; [lia|lia|lia|rewrite zlen_app, zlen_uninit; lia|lia|].
  replace (sk + (pCB P + 16 + pD P * pN P) + 16 * pN P) with (sk + (pCB P + 16 + pD P * pN P + 16 * pN P)) by lia.
  rewrite Ph. fold (sk_pkh P SK). set (pkh := sk_pkh P SK).
  assert (Lpkh : zlen pkh = pCB P) by exact Lh. assert (Bpkh : bytes_ok pkh) by exact Bh.
  change (uninit (pCB P) ++ mu) with ([] ++ uninit (pCB P) ++ mu).
  rewrite (zsplice_mid _ (uninit (pCB P))) by (rewrite ?zlen_uninit; try reflexivity; lia). cbn [app].
  apply wp_bind, (shake_to_mid C V _ [] (uninit (2 * pCB P)) []);
    [now rewrite app_nil_r|reflexivity|rewrite zlen_uninit; lia|apply inrange_app; auto|rewrite zlen_app; lia|].
  rewrite app_nil_r; cbn [app]. replace (pCB P + pCB P) with (2 * pCB P) by lia.
  set (G2 := Hash P (pkh ++ mu) (2 * pCB P)).
  assert (LG2 : zlen G2 = 2 * pCB P) by (apply (zlen_Hash C V); lia).
  assert (BG2 : bytes_ok G2) by apply (Hash_ok C V).
  set (seedSE := firstn (Z.to_nat (pCB P)) G2). set (kk := skipn (Z.to_nat (pCB P)) G2).
  assert (EG2 : G2 = seedSE ++ kk) by (symmetry; apply firstn_skipn).
  assert (Lse : zlen seedSE = pCB P) by (unfold seedSE, zlen in *; rewrite firstn_length; lia).
  assert (Lkk : zlen kk = pCB P) by (unfold kk, zlen in *; rewrite skipn_length; lia).
  assert (Bse : bytes_ok seedSE) by (apply inrange_firstn; exact BG2).
  assert (Bkk : bytes_ok kk) by (apply inrange_skipn; exact BG2).
  (* 203-209 *)
  apply wp_bind, wp_wr; [rewrite zlen_uninit; lia|].
  set (U1 := uninit (pCB P)).
  assert (LU1 : zlen U1 = pCB P) by (apply zlen_uninit; lia).
  replace (zset (uninit (1 + pCB P)) 0 150) with ([150] ++ U1) by (unfold U1; rewrite uninit_cons by lia; reflexivity).
  apply wp_bind, (memcpy_mid _ [150] U1 [] _ [] seedSE kk); [now rewrite app_nil_r|exact EG2|reflexivity|reflexivity|lia|lia|].
  rewrite app_nil_r. cbn [app].
  apply (hash_words_wp C V _ _ (spLen P)); [lia|apply zlen_zrep; lia|lia| |rewrite zlen_cons; lia|lia|].
  { constructor; [lia|exact Bse]. }
  set (r := Hash P (150 :: seedSE) (2 * spLen P)).
  assert (Br : bytes_ok r) by apply (Hash_ok C V).
  replace (16 * pN P) with (2 * NN P) by lia.
  replace (hwords r 0 (spLen P)) with (hwords r 0 (NN P) ++ hwords r (NN P) (NN P) ++ hwords r (2 * NN P) 64).
  2:{ replace (spLen P) with (NN P + (NN P + 64)) by lia. rewrite !hwords_split by lia.
      replace (0 + NN P + NN P) with (2 * NN P) by lia. reflexivity. }
  (* 209-211 *)
  apply wp_bind, (sample_mid C V _ [] (hwords r 0 (NN P)) (hwords r (NN P) (NN P) ++ hwords r (2 * NN P) 64));
    [reflexivity|reflexivity|rewrite zlen_hwords; lia|apply hwords_ok; exact Br|]. cbn [app]. rewrite sample_hwords.
  set (S' := SampleMatrix P r 0 (NN P)). assert (LS' : zlen S' = NN P) by (apply zlen_ztab; lia).
  apply wp_bind, (sample_mid C V _ (map w16 S') (hwords r (NN P) (NN P)) (hwords r (2 * NN P) 64));
    [reflexivity|rewrite zlen_map; lia|rewrite zlen_hwords; lia|apply hwords_ok; exact Br|]. rewrite sample_hwords.
  set (E' := SampleMatrix P r (NN P) (NN P)). assert (LE' : zlen E' = NN P) by (apply zlen_ztab; lia).
  apply wp_bind, (sub_mid _ [] (map w16 S') (map w16 E' ++ hwords r (2 * NN P) 64)); [reflexivity|reflexivity|rewrite zlen_map; lia|].
  apply wp_bind, (sub_mid _ (map w16 S') (map w16 E') (hwords r (2 * NN P) 64)); [reflexivity|rewrite zlen_map; lia|rewrite zlen_map; lia|].
  apply wp_bind, wp_sub; [lia|lia|lia|]. rewrite PA. fold (sk_seedA P SK). set (seedA := sk_seedA P SK).
  apply wp_bind; eapply wp_mono; [apply (sa_asks_wp C V); [exact Hbo|]|].
  { unfold mat_args. rewrite !zlen_map, zlen_zrep, LS', LE' by lia. repeat split; try lia; try apply w16_map_ok; [exact LA|exact BA]. }
  intros [[Bp e'] qA] (EBp & Le' & ->).
  apply wp_bind, (put_mid _ (map w16 S') (map w16 E') (hwords r (2 * NN P) 64)); [reflexivity|rewrite zlen_map; lia|rewrite zlen_map; lia|].
  assert (LBp : zlen Bp = pN P * 8) by (rewrite EBp; apply zlen_SA; lia).
  assert (EBB : map (fun x => x mod 2 ^ pD P) Bp = SA_plus_E (2 ^ pD P) (pN P) (A_spec g (pN P) seedA) S' E').
  { rewrite EBp. apply SA_w16. lia. }
  set (BB := SA_plus_E (2 ^ pD P) (pN P) (A_spec g (pN P) seedA) S' E') in *.
  assert (LBB : zlen BB = pN P * 8) by (apply zlen_SA; lia).
  (* 214-216 *)
  apply wp_bind, (sample_mid C V _ (map w16 S' ++ e') (hwords r (2 * NN P) 64) []);
    [now rewrite app_nil_r, <- app_assoc|rewrite zlen_app, zlen_map; lia|rewrite zlen_hwords; lia|apply hwords_ok; exact Br|].
  rewrite sample_hwords, app_nil_r, <- app_assoc.
  set (E'' := SampleMatrix P r (2 * NN P) 64). assert (LE'' : zlen E'' = 64) by (apply zlen_ztab; lia).
  apply wp_bind, wp_sub; [lia|lia|lia|].
  replace (pkBytes P - 16) with (pD P * pN P) by lia. replace (sk + pCB P + 16) with (sk + (pCB P + 16)) by lia. rewrite Pb.
  fold (sk_b P SK). set (b := sk_b P SK).
  apply wp_bind; eapply wp_mono; [apply (unpack_wp C V); [apply zlen_zrep; lia|exact Bb|symmetry; exact Lb]|].
  intros B ->. set (B := Unpack P (NN P) b).
  assert (LB : zlen B = pN P * 8) by (unfold B; rewrite zlen_Unpack; lia).
  apply wp_bind, (sub_mid _ [] (map w16 S') (e' ++ map w16 E'')); [reflexivity|reflexivity|rewrite zlen_map; lia|].
  apply wp_bind, (sub_mid _ (map w16 S' ++ e') (map w16 E'') []);
    [now rewrite app_nil_r, <- app_assoc|rewrite zlen_app, zlen_map; lia|rewrite zlen_map; lia|].
  apply wp_bind; eapply wp_mono; [apply (sb_plus_e_wp P V);
    [apply zlen_ztab; lia|apply (ztab_mod_ok C V)|exact LB|apply (Unpack_ok16 C V)|rewrite zlen_map; lia|apply w16_map_ok|rewrite zlen_map; lia|apply w16_map_ok]|].
  intros Vm ->. rewrite SB_w16 by lia. set (Vm := SB_E_spec (2 ^ pD P) (pN P) S' B E'').
  assert (LV : zlen Vm = 64) by (apply zlen_ztab; lia).
  (* 219-220 *)
  apply wp_bind, (sub_mid _ pkh mu []); [now rewrite app_nil_r|lia|lia|].
  apply wp_bind; eapply wp_mono; [apply (key_encode_wp P V); [apply zlen_zrep; lia|lia|exact Bmu]|]. intros Cm ->.
  apply wp_bind; eapply wp_mono; [apply (add_wp P V); [exact LV|apply (ztab_mod_ok C V)|apply (zlen_encode C)|apply (encode_ok C V)]|]. intros Cm ->.
  set (Cm := add_spec (2 ^ pD P) Vm (encode_spec (pD P) (pB P) mu)).
  assert (LC : zlen Cm = 64) by (apply zlen_ztab; lia).
  (* 223-227 *)
  assert (EF : uninit (ctBytes P + pCB P) = uninit (ctBytes P) ++ uninit (pCB P)) by (symmetry; apply zrep_app; lia).
  apply wp_bind, wp_memcpy; [lia|lia|lia|rewrite zlen_uninit; lia|lia|]. fold CT.
  rewrite EF. change (uninit (ctBytes P) ++ uninit (pCB P)) with ([] ++ uninit (ctBytes P) ++ uninit (pCB P)).
  rewrite (zsplice_mid _ (uninit (ctBytes P))) by (rewrite ?zlen_uninit; try reflexivity; lia). cbn [app].
  apply wp_bind; eapply wp_mono; [apply (mask_q_wp C V); [lia|rewrite EBp; apply SA_ok]|]. intros BBp ->. rewrite EBB.
  (* 232-235 *)
  apply wp_bind; eapply wp_mono; [apply verify_eq; [lia|lia|apply (map_mod_ok C V); exact RcB|apply (ztab_mod_ok C V)]|]. intros v1 Hv1.
  apply wp_bind; eapply wp_mono; [apply verify_eq; [lia|lia|apply (map_mod_ok C V); exact RcC|apply (ztab_mod_ok C V)]|]. intros v2 Hv2.
  apply wp_bind, (sub_mid _ CT (uninit (pCB P)) []); [now rewrite app_nil_r|lia|rewrite zlen_uninit; lia|].
  apply wp_bind, (sub_mid _ seedSE kk []); [now rewrite app_nil_r|lia|lia|].
  apply wp_bind, wp_sub; [lia|lia|lia|]. rewrite Ps. fold (sk_s P SK).
  assert (Hsel : (s8 (Z.lor v1 v2) = 0 /\ ct_B P CT ++ ct_C P CT = BB ++ Cm) \/ (s8 (Z.lor v1 v2) = -1 /\ ct_B P CT ++ ct_C P CT <> BB ++ Cm)).
  { destruct Hv1 as [(-> & E1)|(-> & E1)], Hv2 as [(-> & E2)|(-> & E2)]; [left; split; [reflexivity|congruence]|right; split; [reflexivity|]..];
      intros E; apply app_eq_len in E; try lia; destruct E; congruence. }
  set (kbar := if list_eq_dec Z.eq_dec (ct_B P CT ++ ct_C P CT) (BB ++ Cm) then kk else sk_s P SK).
  apply wp_bind; eapply wp_mono; [apply ct_select_wp; [exact Bkk|exact Bs|lia|rewrite zlen_uninit; lia|exact Lkk|exact Ls|destruct Hsel as [(-> & _)|(-> & _)]; auto]|].
  intros x Ex. assert (Ek : x = kbar).
  { rewrite Ex. unfold kbar. destruct Hsel as [(-> & E)|(-> & E)]; destruct (list_eq_dec _ _ _); try contradiction; reflexivity. }
  clear Ex; subst x.
  assert (Lkbar : zlen kbar = pCB P) by (unfold kbar; destruct (list_eq_dec _ _ _); [exact Lkk|exact Ls]).
  assert (Bkbar : bytes_ok kbar) by (unfold kbar; destruct (list_eq_dec _ _ _); [exact Bkk|exact Bs]).
  apply wp_bind, (put_mid _ CT (uninit (pCB P)) []); [now rewrite app_nil_r|lia|rewrite zlen_uninit; lia|]. rewrite app_nil_r.
  apply wp_bind, (shake_to_wp C V); [lia|lia|lia|apply inrange_app; auto|rewrite zlen_app; lia|].
  (* 238-246 *)
  apply wp_bind, (clear_words_mid _ _ [] Vm []); [now rewrite app_nil_r|reflexivity|lia|]. cbn [app].
  apply wp_bind, (clear_words_mid _ _ [] (map w16 S') (e' ++ map w16 E'')); [reflexivity|reflexivity|rewrite zlen_map; lia|]. cbn [app].
  apply wp_bind, (clear_words_mid _ _ [] Sw []); [now rewrite app_nil_r|reflexivity|lia|]. cbn [app].
  apply wp_bind, (clear_words_mid _ _ (zrep (NN P) 0) e' (map w16 E'')); [reflexivity|rewrite zlen_zrep; lia|lia|].
  apply wp_bind, (clear_words_mid _ _ (zrep (NN P) 0 ++ zrep (NN P) 0) (map w16 E'') []);
    [now rewrite app_nil_r, <- app_assoc|rewrite zlen_app, zlen_zrep; lia|rewrite zlen_map; lia|]. rewrite app_nil_r.
  apply wp_bind, (clear_mid _ pkh mu []); [now rewrite app_nil_r|lia|lia|]. rewrite app_nil_r.
  apply wp_bind, (clear_mid _ [] G2 []); [now rewrite app_nil_r|reflexivity|lia|]. cbn [app].
  apply wp_bind, (clear_mid _ CT kbar []); [now rewrite app_nil_r|lia|lia|]. rewrite app_nil_r.
  apply wp_bind, (clear_mid _ [] (150 :: seedSE) []); [now rewrite app_nil_r|reflexivity|rewrite zlen_cons; lia|].
  apply wp_ret.
  assert (EE : Encrypt P g seedA b pkh mu = (BB, Cm, kk)).
  { unfold Encrypt. fold G2. fold seedSE kk.
    replace (2 * (16 * pN P + 64)) with (2 * spLen P) by lia. fold r.
    replace (8 * pN P) with (NN P) by lia. replace (16 * pN P) with (2 * NN P) by lia. reflexivity. }
  split; [reflexivity|]. unfold dec_key, Decaps. cbv zeta. fold mu seedA b pkh. rewrite EE. fold kbar. split; [reflexivity|].
  fold G2 seedSE. cbn [app]. rewrite ?app_nil_r. rewrite (Z.mul_comm (spLen P) 2). reflexivity.
Qed.
End Kem.
