(** C32, key generation: what happens when the buffers for the two keys overlap. *)
From Verif Require Import CSem Params Util UtilSpec UtilProofs Fips202 KeccakSpec AesSpec MatrixSpec Macrify
  MatrixProofs MatrixProofs2 PropMatrix FrodoSpec Kem KemProofs KemWp FrodoFacts PropKem PropKem2 KeygenOverlap.

(** The secret key is s || copy of the public key || S || hash of the public key.  The
    public key after s and S have been written over it, where they overlap it. *)
Definition overlaid (P : params) (PK SK : list Z) (pk sk : Z) : list Z :=
  ztab (pkBytes P) (fun j => let i := pk + j - sk in
    if (0 <=? i) && (i <? pCB P) || (pCB P + pkBytes P <=? i) && (i <? skBytes P - pCB P) then znth SK i else znth PK j).

(** The call is undefined (memcpy between overlapping objects) exactly when the public
    key overlaps its copy in the secret key. *)
Theorem C32_keypair_undefined : forall C rb rc mem pk sk s seedSE z,
  let P := cP C in
  valid P -> bytestr (pCB P) s -> bytestr (pCB P) seedSE -> bytestr 16 z ->
  delivers rb (2 * pCB P + 16) (s ++ seedSE ++ z) rc ->
  region mem pk (pkBytes P) -> region mem sk (skBytes P) ->
  (crypto_kem_keypair C rb mem pk sk = Err UB_overlap <-> ~ disjoint pk (pkBytes P) (sk + pCB P) (pkBytes P)).
Proof.
  intros C rb rc mem pk sk s seedSE z; cbv zeta; intros V (Ls & Bs) (Lse & Bse) (Lz & Bz) Hrb (Hpk & Hpk2) (Hsk & Hsk2).
  rewrite keypair_cut.
  destruct (first_wp C V rb rc mem pk sk s seedSE z Ls Lse Lz Bs Bse Bz Hrb Hpk Hpk2 Hsk Hsk2)
    as ([[[[m B] Sv] ra] sh] & t & E & St & Em & ESK & LPK & BPK & LSt & LE & -> & -> & -> & ->).
  rewrite E. cbn [bind]. set (PK := fst (KeyGen (cP C) (cGen C) s seedSE z)) in *.
  destruct (sizes C V) as (HN & HD & HB & HCB & ENN & EbB & HDN & EbC & EbMu & Epk & Esk & Ect & Esp & EH). set (m1 := zsplice (zsplice mem pk PK) sk s).
  assert (L1 : zlen m1 = zlen mem) by (unfold m1; rewrite !zlen_zsplice; rewrite ?zlen_zsplice; lia).
  unfold disjoint. split.
  - intros E2 Hd.
    assert (Bm : bytes_ok (zslice m1 pk (pkBytes (cP C)))).
    { apply inrange_intro. rewrite zlen_zslice by lia. intros i Hi. rewrite znth_zslice by lia. unfold m1.
      rewrite znth_zsplice by (rewrite ?zlen_zsplice; lia).
      destruct ((sk <=? pk + i) && (pk + i <? sk + zlen s)) eqn:Ec.
      - apply andb_true_iff in Ec as [E3 E4]. apply Z.leb_le in E3. apply Z.ltb_lt in E4. apply (inrange_znth 256); [exact Bs|lia].
      - rewrite znth_zsplice by lia. replace (pk <=? pk + i) with true by (symmetry; apply Z.leb_le; lia).
        replace (pk + i <? pk + zlen PK) with true by (symmetry; apply Z.ltb_lt; lia). cbn [andb].
        apply (inrange_znth 256); [exact BPK|lia]. }
    destruct (second_wp C V pk sk m1 B St Em s seedSE z) as (x & t2 & E3 & _); try assumption; try lia.
    rewrite E3 in E2. discriminate.
  - intros Hn. unfold kp_second; cbv zeta. unfold memcpy_in.
    replace ((sk + pCB (cP C) + pkBytes (cP C) <=? pk) || (pk + pkBytes (cP C) <=? sk + pCB (cP C))) with false; [reflexivity|].
    symmetry. apply orb_false_iff; rewrite !Z.leb_gt. lia.
Qed.
Print Assumptions C32_keypair_undefined.

(** Otherwise it succeeds.  If the buffers overlap at all, bytes of s or of S (or of the
    hash) are then part of the public key the caller goes on to publish: *)
Theorem C32_keypair_overlap : forall C rb rc mem pk sk s seedSE z,
  let P := cP C in
  valid P -> bytestr (pCB P) s -> bytestr (pCB P) seedSE -> bytestr 16 z ->
  delivers rb (2 * pCB P + 16) (s ++ seedSE ++ z) rc ->
  region mem pk (pkBytes P) -> region mem sk (skBytes P) ->
  disjoint pk (pkBytes P) (sk + pCB P) (pkBytes P) ->
  let '(PK, SK) := KeyGen P (cGen C) s seedSE z in
  let over := overlaid P PK SK pk sk in
  exists l, returns (crypto_kem_keypair C rb mem pk sk)
    (stored (stored mem pk PK) sk
       (s ++ (if pk <? sk + pCB P then over else PK) ++ zslice SK (pCB P + pkBytes P) (2 * NN P) ++ Hash P over (pCB P)), l, 0).
Proof.
  intros C rb rc mem pk sk s seedSE z; cbv zeta; intros V (Ls & Bs) (Lse & Bse) (Lz & Bz) Hrb (Hpk & Hpk2) (Hsk & Hsk2) Hd.
  destruct (KeyGen (cP C) (cGen C) s seedSE z) as [PK SK] eqn:EKG.
  rewrite keypair_cut.
  destruct (first_wp C V rb rc mem pk sk s seedSE z Ls Lse Lz Bs Bse Bz Hrb Hpk Hpk2 Hsk Hsk2)
    as ([[[[m B] Sv] ra] sh] & t & E & St & Em & ESK & LPK & BPK & LSt & LE & -> & -> & -> & ->).
  rewrite E. cbn [bind]. rewrite EKG in *. cbn [fst snd] in *.
  destruct (sizes C V) as (HN & HD & HB & HCB & ENN & EbB & HDN & EbC & EbMu & Epk & Esk & Ect & Esp & EH). set (m1 := zsplice (zsplice mem pk PK) sk s).
  assert (L1 : zlen m1 = zlen mem) by (unfold m1; rewrite !zlen_zsplice; rewrite ?zlen_zsplice; lia).
  assert (LSB : zlen (bytes_of_S St) = 2 * NN (cP C)) by (rewrite zlen_bytes_of_S; lia).
  assert (Lov : zlen (overlaid (cP C) PK SK pk sk) = pkBytes (cP C)) by (apply zlen_ztab; lia).
  assert (ESB : zslice SK (pCB (cP C) + pkBytes (cP C)) (2 * NN (cP C)) = bytes_of_S St).
  { rewrite ESK, app_assoc. rewrite (zslice_mid (s ++ PK) (bytes_of_S St)); rewrite ?zlen_app; try lia; reflexivity. }
  assert (Zs : forall i, 0 <= i < pCB (cP C) -> znth SK i = znth s i).
  { intros i Hi. rewrite ESK. rewrite znth_app1 by lia. reflexivity. }
  assert (ZS : forall i, pCB (cP C) + pkBytes (cP C) <= i < skBytes (cP C) - pCB (cP C) -> znth SK i = znth (bytes_of_S St) (i - (pCB (cP C) + pkBytes (cP C)))).
  { intros i Hi. rewrite <- ESB. rewrite znth_zslice by lia. f_equal; lia. }
  (* the bytes at pk before the copy, and before the hash *)
  assert (Epk1 : zslice m1 pk (pkBytes (cP C)) = if pk <? sk + pCB (cP C) then overlaid (cP C) PK SK pk sk else PK).
  { apply list_ext; [rewrite zlen_zslice by lia; destruct (pk <? sk + pCB (cP C)); lia|]. rewrite zlen_zslice by lia. intros i Hi.
    rewrite znth_zslice by lia. unfold m1. rewrite znth_zsplice by (rewrite ?zlen_zsplice; lia).
    rewrite (znth_zsplice mem) by lia.
    replace (pk <=? pk + i) with true by (symmetry; apply Z.leb_le; lia).
    replace (pk + i <? pk + zlen PK) with true by (symmetry; apply Z.ltb_lt; lia). cbn [andb].
    replace (pk + i - pk) with i by lia.
    destruct (Z.ltb_spec pk (sk + pCB (cP C))) as [Hlt|Hge].
    - unfold overlaid. rewrite znth_ztab by lia. cbv zeta.
      destruct (Z.leb_spec sk (pk + i)) as [H1|H1]; cbn [andb].
      + replace (0 <=? pk + i - sk) with true by (symmetry; apply Z.leb_le; lia). cbn [andb].
        destruct (Z.ltb_spec (pk + i) (sk + zlen s)); destruct (Z.ltb_spec (pk + i - sk) (pCB (cP C))); try lia; cbn [orb].
        * rewrite Zs by lia. reflexivity.
        * unfold disjoint in Hd. exfalso; lia.
      + replace (0 <=? pk + i - sk) with false by (symmetry; apply Z.leb_gt; lia). cbn [andb orb].
        replace (pCB (cP C) + pkBytes (cP C) <=? pk + i - sk) with false by (symmetry; apply Z.leb_gt; lia). reflexivity.
    - replace (pk + i <? sk + zlen s) with false; [rewrite andb_false_r; reflexivity|]. symmetry; apply Z.ltb_ge.
      unfold disjoint in Hd. lia. }
  assert (Bm : bytes_ok (zslice m1 pk (pkBytes (cP C)))).
  { rewrite Epk1. destruct (pk <? sk + pCB (cP C)); [|exact BPK]. apply inrange_intro. rewrite Lov. intros j Hj. unfold overlaid.
    rewrite znth_ztab by lia. cbv zeta.
    assert (BSK : forall i, 0 <= i < skBytes (cP C) - pCB (cP C) -> 0 <= znth SK i < 256).
    { intros i Hi. rewrite ESK, !app_assoc. rewrite znth_app1 by (rewrite !zlen_app; lia). apply (inrange_znth 256).
      - apply inrange_app; [apply inrange_app; [exact Bs|exact BPK]|apply bytes_of_S_ok].
      - rewrite !zlen_app; lia. }
    destruct (_ || _) eqn:Eo; [|apply (inrange_znth 256); [exact BPK|lia]].
    apply BSK. apply orb_true_iff in Eo as [Eo|Eo]; apply andb_true_iff in Eo as [E1 E2]; apply Z.leb_le in E1; apply Z.ltb_lt in E2; lia. }
  destruct (second_wp C V pk sk m1 B St Em s seedSE z) as ([[m' l] r] & t2 & E3 & -> & _ & Em'); try assumption; try lia.
  cbv zeta in Em'. rewrite Epk1 in Em'. set (copy := if pk <? sk + pCB (cP C) then _ else _) in *.
  assert (Lc : zlen copy = pkBytes (cP C)) by (unfold copy; destruct (pk <? sk + pCB (cP C)); lia).
  exists l. rewrite E3. eexists. f_equal. f_equal. f_equal. rewrite Em'. unfold stored. rewrite ESB.
  assert (Epk2 : zslice (zsplice m1 (sk + pCB (cP C)) (copy ++ bytes_of_S St)) pk (pkBytes (cP C)) = overlaid (cP C) PK SK pk sk).
  { assert (Lz2 : zlen (zsplice m1 (sk + pCB (cP C)) (copy ++ bytes_of_S St)) = zlen mem) by (rewrite zlen_zsplice; rewrite ?zlen_app; lia).
    apply list_ext; [rewrite zlen_zslice by lia; lia|]. rewrite zlen_zslice by lia. intros i Hi.
    rewrite znth_zslice by lia. rewrite znth_zsplice by (rewrite ?zlen_app; lia). rewrite zlen_app, Lc, LSB.
    rewrite <- (znth_zslice m1 pk (pkBytes (cP C)) i) by lia. rewrite Epk1. unfold copy.
    destruct (Z.ltb_spec pk (sk + pCB (cP C))) as [Hlt|Hge].
    - unfold disjoint in Hd. replace (sk + pCB (cP C) <=? pk + i) with false by (symmetry; apply Z.leb_gt; lia). reflexivity.
    - unfold overlaid. rewrite znth_ztab by lia. cbv zeta. unfold disjoint in Hd.
      replace (sk + pCB (cP C) <=? pk + i) with true by (symmetry; apply Z.leb_le; lia). cbn [andb].
      replace (pk + i - sk <? pCB (cP C)) with false by (symmetry; apply Z.ltb_ge; lia). rewrite andb_false_r. cbn [orb].
      replace (pCB (cP C) + pkBytes (cP C) <=? pk + i - sk) with true by (symmetry; apply Z.leb_le; lia). cbn [andb].
      destruct (Z.ltb_spec (pk + i) (sk + pCB (cP C) + (pkBytes (cP C) + 2 * NN (cP C)))); destruct (Z.ltb_spec (pk + i - sk) (skBytes (cP C) - pCB (cP C))); try lia.
      rewrite ZS by lia. rewrite znth_app2 by lia. f_equal. lia.
    }
  rewrite Epk2. unfold m1. replace (sk + pCB (cP C)) with (sk + zlen s) by lia.
  pose proof (zlen_Hash C V (overlaid (cP C) PK SK pk sk) (pCB (cP C)) ltac:(lia)) as LHa.
  rewrite zsplice_adj; [reflexivity|lia|]. rewrite !zlen_app. rewrite zlen_zsplice by lia. rewrite Lc, LSB, LHa. lia.
Qed.
Print Assumptions C32_keypair_overlap.

(** The byte at every shared address is the secret key's byte (of s or of S; the last
    [pCB P] bytes of the secret key, a hash, apart): sending the public key sends it. *)
Theorem C32_keypair_leak : forall C rb rc mem pk sk s seedSE z mem' l r,
  let P := cP C in
  let SK := snd (KeyGen P (cGen C) s seedSE z) in
  valid P -> bytestr (pCB P) s -> bytestr (pCB P) seedSE -> bytestr 16 z ->
  delivers rb (2 * pCB P + 16) (s ++ seedSE ++ z) rc ->
  region mem pk (pkBytes P) -> region mem sk (skBytes P) ->
  returns (crypto_kem_keypair C rb mem pk sk) (mem', l, r) ->
  r = 0 /\ forall i, pk <= i < pk + pkBytes P -> sk <= i < sk + skBytes P - pCB P -> znth mem' i = znth SK (i - sk).
Proof.
  intros C rb rc mem pk sk s seedSE z mem' l r; cbv zeta. intros V Hs Hse Hz Hrb Hpk Hsk HR.
  assert (Hd : disjoint pk (pkBytes (cP C)) (sk + pCB (cP C)) (pkBytes (cP C))).
  { destruct (Z_le_gt_dec (pk + pkBytes (cP C)) (sk + pCB (cP C))); [left; lia|].
    destruct (Z_le_gt_dec (sk + pCB (cP C) + pkBytes (cP C)) pk); [right; lia|]. exfalso.
    pose proof (proj2 (C32_keypair_undefined C rb rc mem pk sk s seedSE z V Hs Hse Hz Hrb Hpk Hsk)) as U.
    destruct HR as (t & E). rewrite U in E; [discriminate|]. unfold disjoint; lia. }
  pose proof (C32_keypair_overlap C rb rc mem pk sk s seedSE z V Hs Hse Hz Hrb Hpk Hsk Hd) as K.
  pose proof (KeyGen_parts (cP C) (cGen C) V s seedSE z (proj1 Hs)) as KP.
  assert (EK : exists X Y, snd (KeyGen (cP C) (cGen C) s seedSE z) = s ++ fst (KeyGen (cP C) (cGen C) s seedSE z) ++ X ++ Y) by (eexists; eexists; reflexivity).
  destruct (KeyGen (cP C) (cGen C) s seedSE z) as [PK SK]. destruct K as (l2 & t2 & K). destruct HR as (t & E). rewrite E in K.
  apply (f_equal (fun x => match x with Ok v _ => v | Err _ => (mem', l, r) end)) in K. cbn beta iota in K.
  pose proof (f_equal (fun v => fst (fst v)) K) as Em. pose proof (f_equal snd K) as Er. cbn [fst snd] in *. clear K.
  subst r. split; [reflexivity|]. intros i Hi Hi2. rewrite Em.
  destruct KP as (LPK & BPK & LSK & _). destruct EK as (X & Y & ESK). destruct Hs as (Ls & _). destruct Hpk, Hsk.
  destruct (sizes C V) as (HN & HD & HB & HCB & ENN & EbB & HDN & EbC & EbMu & Epk & Esk & Ect & Esp & EH).
  pose proof (zlen_Hash C V (overlaid (cP C) PK SK pk sk) (pCB (cP C)) ltac:(lia)) as LHa.
  assert (Lov : zlen (overlaid (cP C) PK SK pk sk) = pkBytes (cP C)) by (apply zlen_ztab; lia).
  set (copy := if _ <? _ then _ else _) in *.
  assert (Lc : zlen copy = pkBytes (cP C)) by (unfold copy; destruct (pk <? sk + pCB (cP C)); lia).
  assert (LS : zlen (zslice SK (pCB (cP C) + pkBytes (cP C)) (2 * NN (cP C))) = 2 * NN (cP C)) by (apply zlen_zslice; lia).
  unfold stored. rewrite znth_zsplice.
  2: lia.
  2:{ rewrite !zlen_app, zlen_zsplice by lia. lia. }
  replace (sk <=? i) with true by (symmetry; apply Z.leb_le; lia).
  replace (i <? _) with true by (symmetry; apply Z.ltb_lt; rewrite !zlen_app; lia). cbn [andb].
  unfold disjoint in Hd. destruct (Z_lt_ge_dec (i - sk) (pCB (cP C))) as [H3|H3].
  - rewrite znth_app1 by lia. rewrite ESK, znth_app1 by lia. reflexivity.
  - rewrite znth_app2 by lia. rewrite znth_app2 by lia. rewrite znth_app1 by lia. rewrite znth_zslice by lia. f_equal. lia.
Qed.
Print Assumptions C32_keypair_leak.

(** An overlap of ten bytes with s, one with S, and one with the copy. *)
Example C32_keypair_hyps :
  let r := ztab 64 (fun i => (i * 7 + 3) mod 256) in
  delivers rand976 64 (zslice r 0 24 ++ zslice r 24 24 ++ zslice r 48 16) 0 /\
  region (uninit 100000) 16 (pkBytes frodo976) /\ region (uninit 100000) 15638 (skBytes frodo976) /\
  ~ disjoint 16 (pkBytes frodo976) 15638 (skBytes frodo976) /\
  disjoint 16 (pkBytes frodo976) (15638 + 24) (pkBytes frodo976) /\
  region (uninit 100000) 46000 (pkBytes frodo976) /\ 
  ~ disjoint 46000 (pkBytes frodo976) 15638 (skBytes frodo976) /\
  disjoint 46000 (pkBytes frodo976) (15638 + 24) (pkBytes frodo976) /\
  region (uninit 100000) 20000 (pkBytes frodo976) /\
  ~ disjoint 20000 (pkBytes frodo976) (15638 + 24) (pkBytes frodo976).
Proof.
  intros r. assert (L : zlen (uninit 100000) = 100000) by (apply zlen_uninit; lia).
  split; [exists []; reflexivity|]. unfold region; rewrite L. unfold disjoint. repeat split; try (cbn; lia).
Qed.
