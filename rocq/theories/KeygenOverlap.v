(** Key generation with overlapping buffers (for C32): src/kem.c:15-61 up to the copy of
    the public key into the secret key, and the rest, without assuming that pk and sk are
    apart. *)
From Verif Require Import CSem Params Util UtilSpec UtilProofs Fips202 KeccakSpec ShakeProofs AesSpec
  MatrixSpec Macrify MatrixProofs MatrixProofs2 EncodeProofs PropMatrix FrodoSpec Kem KemProofs KemWp.

Lemma bind_cut {A B D} (m : res A) (k : A -> res D) (f : A -> res B) (h : B -> res D) :
  (forall x, k x = bind (f x) h) -> bind m k = bind (bind m f) h.
Proof.
  intros E. destruct m as [a t|e]; [|reflexivity]. cbn [bind]. rewrite E.
  destruct (f a) as [b t'|e]; [|reflexivity]. cbn [bind]. destruct (h b) as [d t2|e]; [|reflexivity]. now rewrite app_assoc.
Qed.
Lemma bind_last {A D} (m : res A) (h : A -> res D) : bind m h = bind (bind m ret) h.
Proof. destruct m as [a t|e]; [|reflexivity]. cbn. now rewrite app_nil_r. Qed.

Section Cut.
Variable C : config.
Local Notation P := (cP C).
Hypothesis V : valid P.
Local Notation g := (cGen C).

(** src/kem.c:35-56 *)
Definition kp_first (rb : generator) (mem : list Z) (pk sk : Z)
    : res (list Z * list Z * list Z * list Z * list Z) :=
  let en := cEn C in
  let CB := pCB P in
  let pk_b := pk + SEEDA in
  let B := zrep (NN P) 0 in
  let S := zrep (2 * NN P) 0 in
  let randomness := uninit (2 * CB + SEEDA) in
  let shake_input := uninit (1 + CB) in
  ('(randomness, _) <- rb randomness (CB + CB + SEEDA) ;;
  z <- sub randomness (2 * CB) SEEDA ;;
  mem <- shake_to P mem pk SEEDA z SEEDA ;;
  shake_input <- wr shake_input 0 95 ;;
  shake_input <- memcpy shake_input 1 randomness CB CB ;;
  S <- shake_words C S (2 * NN P * 2) shake_input (1 + CB) ;;
  S <- le_to_host en S (2 * NN P) ;;
  S <- sample_at P S 0 (NN P) ;;
  S <- sample_at P S (NN P) (NN P) ;;
  s <- sub S 0 (NN P) ;;
  e <- sub S (NN P) (NN P) ;;
  seedA <- sub mem pk SEEDA ;;
  B <- as_plus_e C B s e seedA ;;
  b <- sub mem pk_b (pkBytes P - SEEDA) ;;
  b <- frodo_pack b (pkBytes P - SEEDA) B (NN P) (pD P) ;;
  mem <- put mem pk_b b ;;
  mem <- memcpy mem sk randomness 0 CB ;;
  ret (mem, B, S, randomness, shake_input))%cm.
(** src/kem.c:57-74 *)
Definition kp_second (pk sk : Z) (st : list Z * list Z * list Z * list Z * list Z) : res (list Z * kp_locals * Z) :=
  let '(mem, B, Sv, randomness, shake_input) := st in
  let en := cEn C in
  let CB := pCB P in
  let sk_pk := sk + CB in
  let sk_S := sk + CB + pkBytes P in
  let sk_pkh := sk + CB + pkBytes P + 2 * NN P in
  (mem <- memcpy_in mem sk_pk pk (pkBytes P) ;;
  S <- host_to_le en Sv (NN P) ;;
  mem <- memcpy mem sk_S (bytes_of_words en S) 0 (2 * NN P) ;;
  h <- sub mem pk (pkBytes P) ;;
  mem <- shake_to P mem sk_pkh (bytesH P) h (pkBytes P) ;;
  S <- clear_words en S 0 (NN P) ;;
  S <- clear_words en S (NN P) (NN P) ;;
  randomness <- clear_at randomness 0 (2 * CB) ;;
  shake_input <- clear_at shake_input 0 (1 + CB) ;;
  ret (mem, {| kp_B := B; kp_S := S; kp_randomness := randomness; kp_shake_input := shake_input |}, 0))%cm.
Lemma keypair_cut rb mem pk sk : crypto_kem_keypair C rb mem pk sk = bind (kp_first rb mem pk sk) (kp_second pk sk).
Proof.
  unfold crypto_kem_keypair, kp_first; cbv zeta.
  apply bind_cut; intros [randomness rc].
  do 16 (apply bind_cut; intros ?).
  cbn [bind ret]. unfold kp_second; cbv zeta. match goal with |- ?x = _ => destruct x; reflexivity end.
Qed.

Lemma first_wp rb rc mem pk sk s seedSE z :
  zlen s = pCB P -> zlen seedSE = pCB P -> zlen z = 16 -> bytes_ok s -> bytes_ok seedSE -> bytes_ok z ->
  returns (rb (uninit (2 * pCB P + 16)) (2 * pCB P + 16)) (s ++ seedSE ++ z, rc) ->
  0 <= pk -> pk + pkBytes P <= zlen mem -> 0 <= sk -> sk + skBytes P <= zlen mem ->
  wp (kp_first rb mem pk sk) (fun '(mem', B, Sv, randomness, shake_input) =>
    exists St E, snd (KeyGen P g s seedSE z) = s ++ fst (KeyGen P g s seedSE z) ++ bytes_of_S St ++ Hash P (fst (KeyGen P g s seedSE z)) (pCB P) /\
      zlen (fst (KeyGen P g s seedSE z)) = pkBytes P /\ bytes_ok (fst (KeyGen P g s seedSE z)) /\
      zlen St = NN P /\ zlen E = NN P /\ Sv = map w16 St ++ map w16 E /\ randomness = s ++ seedSE ++ z /\ shake_input = 95 :: seedSE /\
      mem' = zsplice (zsplice mem pk (fst (KeyGen P g s seedSE z))) sk s).
Proof.
  intros Ls Lse Lz Bs Bse Bz (tr & Erb) Hpk Hpk2 Hsk Hsk2.
  destruct (sizes C V) as (HN & HD & HB & HCB & ENN & EbB & HDN & EbC & EbMu & Epk & Esk & Ect & Esp & EH).
  unfold kp_first; cbv zeta. unfold SEEDA.
  apply wp_bind. replace (pCB P + pCB P + 16) with (2 * pCB P + 16) by lia. rewrite Erb. apply wp_ok.
  apply wp_bind, (sub_mid _ (s ++ seedSE) z []); [now rewrite app_nil_r, <- app_assoc|rewrite zlen_app; lia|lia|].
  apply wp_bind, (shake_to_wp C V); [lia|lia|lia|exact Bz|lia|].
  set (seedA := Hash P z 16).
  assert (LsA : zlen seedA = 16) by (apply (zlen_Hash C V); lia).
  assert (BsA : bytes_ok seedA) by (apply (Hash_ok C V)).
  set (m1 := zsplice mem pk seedA).
  assert (Lm1 : zlen m1 = zlen mem) by (apply zlen_zsplice; lia).
  apply wp_bind, wp_wr; [rewrite zlen_uninit; lia|].
  set (U1 := uninit (pCB P)).
  assert (LU1 : zlen U1 = pCB P) by (apply zlen_uninit; lia).
  replace (zset (uninit (1 + pCB P)) 0 95) with ([95] ++ U1) by (unfold U1; rewrite uninit_cons by lia; reflexivity).
  apply wp_bind, (memcpy_mid _ [95] U1 [] _ s seedSE z); [now rewrite app_nil_r|reflexivity|reflexivity|lia|lia|lia|].
  rewrite app_nil_r. cbn [app].
  apply (hash_words_wp C V _ _ (2 * NN P)); [lia|apply zlen_zrep; lia|lia| |rewrite zlen_cons; lia|lia|].
  { constructor; [lia|exact Bse]. }
  set (r := Hash P (95 :: seedSE) (2 * (2 * NN P))).
  assert (Br : bytes_ok r) by apply (Hash_ok C V).
  replace (hwords r 0 (2 * NN P)) with (hwords r 0 (NN P) ++ hwords r (NN P) (NN P)).
  2:{ replace (2 * NN P) with (NN P + NN P) by lia. rewrite hwords_split by lia. reflexivity. }
  apply wp_bind, (sample_mid C V _ [] (hwords r 0 (NN P)) (hwords r (NN P) (NN P)));
    [reflexivity|reflexivity|rewrite zlen_hwords; lia|apply hwords_ok; exact Br|]. cbn [app].
  apply wp_bind, (sample_mid C V _ (map (fun x => sample_spec (pCDF P) x mod 65536) (hwords r 0 (NN P))) (hwords r (NN P) (NN P)) []);
    [now rewrite app_nil_r|rewrite zlen_map, zlen_hwords; lia|rewrite zlen_hwords; lia|apply hwords_ok; exact Br|].
  rewrite app_nil_r. rewrite !sample_hwords.
  set (St := SampleMatrix P r 0 (NN P)). set (E := SampleMatrix P r (NN P) (NN P)).
  assert (LSt : zlen St = NN P) by (apply zlen_ztab; lia).
  assert (LE : zlen E = NN P) by (apply zlen_ztab; lia).
  apply wp_bind, (sub_mid _ [] (map w16 St) (map w16 E)); [reflexivity|reflexivity|rewrite zlen_map; lia|].
  apply wp_bind, (sub_mid _ (map w16 St) (map w16 E) []); [now rewrite app_nil_r|rewrite zlen_map; lia|rewrite zlen_map; lia|].
  apply wp_bind, wp_sub; [lia|lia|lia|]. unfold m1 at 1. rewrite zsplice_same_read by lia.
  apply wp_bind; eapply wp_mono; [apply (as_wp C V)|].
  { unfold mat_args. rewrite !zlen_map, zlen_zrep, LSt, LE by lia. repeat split; try lia; try apply w16_map_ok. exact BsA. }
  intros B ->. set (Bm := AS_plus_E 65536 (pN P) (A_spec g (pN P) seedA) (map w16 St) (map w16 E)).
  assert (LBm : zlen Bm = pN P * 8) by (apply (zlen_AS); lia).
  replace (pkBytes P - 16) with (pD P * pN P) by lia.
  apply wp_bind, wp_sub; [lia|lia|lia|].
  apply wp_bind; eapply wp_mono; [apply (pack_mod C V); [apply zlen_zslice; lia|apply AS_ok|lia]|].
  intros b ->. unfold Bm at 1; rewrite AS_w16 by (pose proof (v_D P V); lia).
  set (BB := AS_plus_E (2 ^ pD P) (pN P) (A_spec g (pN P) seedA) St E).
  assert (LBB : zlen BB = pN P * 8) by (apply (zlen_AS); lia).
  replace (pack_spec (pD P) (pD P * pN P) BB) with (Pack P BB).
  2:{ unfold Pack; f_equal. rewrite LBB. rewrite Z.mul_assoc. apply Z.div_mul; lia. }
  pose proof (zlen_PackB C V BB LBB) as LPB.
  apply wp_bind, wp_put; [lia|lia|].
  replace (pk + 16) with (pk + zlen seedA) by lia. unfold m1; rewrite zsplice_adj by lia.
  set (PK := seedA ++ Pack P BB).
  assert (LPK : zlen PK = pkBytes P) by (unfold PK; rewrite zlen_app; lia).
  assert (BPK : bytes_ok PK) by (apply inrange_app; [exact BsA|apply Pack_ok]).
  set (m2 := zsplice mem pk PK). assert (Lm2 : zlen m2 = zlen mem) by (apply zlen_zsplice; lia).
  apply wp_bind, wp_memcpy; [lia|lia|lia|lia|rewrite !zlen_app; lia|].
  rewrite zslice_app1 by lia. apply wp_ret. exists St, E.
  assert (EK : KeyGen P g s seedSE z = (PK, s ++ PK ++ bytes_of_S St ++ Hash P PK (pCB P))).
  { unfold KeyGen, PK, BB, St, E, r, seedA.
    replace (2 * (2 * NN P)) with (2 * (16 * pN P)) by lia. replace (NN P) with (8 * pN P) by lia. reflexivity. }
  rewrite EK; cbn [fst snd]. repeat split; auto.
Qed.

Lemma second_wp pk sk mem B St E s seedSE z : 
  zlen s = pCB P -> zlen seedSE = pCB P -> zlen z = 16 -> zlen St = NN P -> zlen E = NN P ->
  0 <= pk -> pk + pkBytes P <= zlen mem -> 0 <= sk -> sk + skBytes P <= zlen mem ->
  bytes_ok (zslice mem pk (pkBytes P)) ->
  pk + pkBytes P <= sk + pCB P \/ sk + pCB P + pkBytes P <= pk ->
  let m2 := zsplice mem (sk + pCB P) (zslice mem pk (pkBytes P) ++ bytes_of_S St) in
  wp (kp_second pk sk (mem, B, map w16 St ++ map w16 E, s ++ seedSE ++ z, 95 :: seedSE)) (fun '(mem', l, r) =>
    r = 0 /\ kp_wiped C l z /\
    mem' = zsplice mem (sk + pCB P) (zslice mem pk (pkBytes P) ++ bytes_of_S St ++ Hash P (zslice m2 pk (pkBytes P)) (pCB P))).
Proof.
  intros Ls Lse Lz LSt LE Hpk Hpk2 Hsk Hsk2 BPK Hdis m2.
  destruct (sizes C V) as (HN & HD & HB & HCB & ENN & EbB & HDN & EbC & EbMu & Epk & Esk & Ect & Esp & EH).
  unfold kp_second; cbv zeta.
  set (PK := zslice mem pk (pkBytes P)) in *. assert (LPK : zlen PK = pkBytes P) by (apply zlen_zslice; lia).
  apply wp_bind. unfold memcpy_in.
  replace ((sk + pCB P + pkBytes P <=? pk) || (pk + pkBytes P <=? sk + pCB P)) with true.
  2:{ symmetry; apply orb_true_iff; rewrite !Z.leb_le. lia. }
  apply wp_memcpy; [lia|lia|lia|lia|lia|]. fold PK.
  apply wp_bind; eapply wp_mono; [apply (host_to_le_wp C _ (map w16 St) (map w16 E)); [reflexivity|rewrite zlen_map; lia|apply w16_map_ok]|].
  intros S ->.
  set (SB := bytes_of_S St) in *. assert (LSB : zlen SB = 2 * NN P) by (unfold SB; rewrite zlen_bytes_of_S; lia).
  assert (L4 : zlen (zsplice mem (sk + pCB P) PK) = zlen mem) by (rewrite zlen_zsplice; lia).
  apply wp_bind, wp_memcpy; [lia|lia|lia|lia| |].
  { rewrite zlen_bytes, zlen_app, !zlen_map; lia. }
  replace (zslice (bytes_of_words (cEn C) (map (UINT16_TO_LE (cEn C)) (map w16 St) ++ map w16 E)) 0 (2 * NN P)) with SB.
  2:{ unfold SB; rewrite <- (bytes_of_S_eq (cEn C)). symmetry. rewrite bytes_of_words_app.
      apply zslice_app1. rewrite zlen_bytes, !zlen_map; lia. }
  replace (sk + pCB P + pkBytes P) with ((sk + pCB P) + zlen PK) by lia.
  rewrite zsplice_adj by lia. fold m2.
  assert (L5 : zlen m2 = zlen mem) by (unfold m2; rewrite zlen_zsplice; rewrite ?zlen_app; lia).
  apply wp_bind, wp_sub; [lia|lia|lia|].
  assert (BPK2 : bytes_ok (zslice m2 pk (pkBytes P))).
  { apply inrange_intro. rewrite zlen_zslice by lia. intros i Hi. rewrite znth_zslice by lia. unfold m2.
    rewrite znth_zsplice by (rewrite ?zlen_app; lia).
    destruct ((sk + pCB P <=? pk + i) && (pk + i <? sk + pCB P + zlen (PK ++ SB))) eqn:Ec.
    - apply andb_true_iff in Ec as [E1 E2]. apply Z.leb_le in E1. apply Z.ltb_lt in E2.
      apply (inrange_znth 256); [apply inrange_app; [exact BPK|apply bytes_of_S_ok]|lia].
    - rewrite <- (znth_zslice mem pk (pkBytes P) i) by lia. apply (inrange_znth 256); [exact BPK|fold PK; lia]. }
  replace (sk + pCB P + zlen PK + 2 * NN P) with (sk + pCB P + zlen (PK ++ SB)) by (rewrite zlen_app; lia).
  apply wp_bind, (shake_to_wp C V); [rewrite ?zlen_app; lia|rewrite ?zlen_app; lia|rewrite ?zlen_app; lia|exact BPK2|rewrite zlen_zslice; lia|]. rewrite EH.
  set (H := Hash P _ (pCB P)). assert (LH : zlen H = pCB P) by (apply (zlen_Hash C V); lia).
  unfold m2 at 1. rewrite zsplice_adj by (rewrite ?zlen_app; lia).
  set (S1 := map (UINT16_TO_LE (cEn C)) (map w16 St)).
  assert (LS1 : zlen S1 = NN P) by (unfold S1; rewrite !zlen_map; lia).
  apply wp_bind, (clear_words_mid _ _ [] S1 (map w16 E)); [reflexivity|reflexivity|lia|]. cbn [app].
  apply wp_bind, (clear_words_mid _ _ (zrep (NN P) 0) (map w16 E) []);
    [now rewrite app_nil_r|rewrite zlen_zrep; lia|rewrite zlen_map; lia|]. rewrite app_nil_r.
  apply wp_bind, (clear_mid _ [] (s ++ seedSE) z); [now rewrite <- app_assoc|reflexivity|rewrite zlen_app; lia|]. cbn [app].
  apply wp_bind, (clear_mid _ [] (95 :: seedSE) []); [now rewrite app_nil_r|reflexivity|rewrite zlen_cons; lia|].
  apply wp_ret. split; [reflexivity|]. split.
  - unfold kp_wiped; cbn [kp_S kp_randomness kp_shake_input app].
    rewrite zrep_app by lia. rewrite app_nil_r. repeat split; f_equal; lia.
  - now rewrite <- app_assoc.
Qed.
End Cut.
