(** C39: what the self test kem_test (tests/test_kem.c) checks. *)
From Verif Require Import CSem Params UtilProofs KeccakProofs FrodoSpec FrodoFacts Kem KemProofs KemWp PropMatrix PropKem TestKem.
From Verif Require KatProofs.

(** The randomness of one turn: s, seedSE and z of the key pair, mu of the encapsulation, and
    the four bytes that choose the position. *)
Record draws := { r_s : list Z; r_se : list Z; r_z : list Z; r_mu : list Z; r_b : list Z }.
Definition drawn (P : params) (r : draws) : Prop :=
  bytestr (pCB P) (r_s r) /\ bytestr (pCB P) (r_se r) /\ bytestr 16 (r_z r) /\ bytestr (bytesMu P) (r_mu r) /\ bytestr 4 (r_b r).
(** The generator delivers them, call after call, from the k-th on. *)
Inductive supplies (P : params) (rb : Z -> generator) : Z -> list draws -> Prop :=
| supplies_nil k : supplies P rb k []
| supplies_cons k r rs c1 c2 c3 : drawn P r ->
    delivers (rb k) (2 * pCB P + 16) (r_s r ++ r_se r ++ r_z r) c1 ->
    delivers (rb (k + 1)) (bytesMu P) (r_mu r) c2 ->
    delivers (rb (k + 2)) 4 (r_b r) c3 ->
    supplies P rb (k + 3) rs -> supplies P rb k (r :: rs).

(** The altered ciphertext: the four bytes, as an integer in the byte order of the host, modulo
    half the length of a ciphertext, 1 instead of 0, give a position; the two bytes there are
    XORed with the two bytes of the position. *)
Definition integer (en : endian) (b : list Z) : Z :=
  match en with
  | LE => znth b 0 + 256 * znth b 1 + 65536 * znth b 2 + 16777216 * znth b 3
  | BE => znth b 3 + 256 * znth b 2 + 65536 * znth b 1 + 16777216 * znth b 0
  end.
Definition position (P : params) (en : endian) (b : list Z) : Z :=
  let p := integer en b mod (ctBytes P / 2) in if p =? 0 then 1 else p.
Definition altered (P : params) (en : endian) (CT b : list Z) : list Z :=
  let p := position P en b in
  let lo := p mod 256 in
  let hi := p / 256 in
  ztab (ctBytes P) (fun i =>
    if i =? 2 * p then Z.lxor (znth CT i) (match en with LE => lo | BE => hi end)
    else if i =? 2 * p + 1 then Z.lxor (znth CT i) (match en with LE => hi | BE => lo end)
    else znth CT i).
(** A turn passes: the honest ciphertext decapsulates to the encapsulated secret, the altered
    one to the secret of implicit rejection, F(ct || s). *)
Definition passes (P : params) (g : genA) (en : endian) (r : draws) : Prop :=
  let '(PK, SK) := KeyGen P g (r_s r) (r_se r) (r_z r) in
  let '(CT, SS) := Encaps P g PK (r_mu r) in
  let CT' := altered P en CT (r_b r) in
  Decaps P g SK CT = SS /\ Decaps P g SK CT' = Hash P (CT' ++ r_s r) (pCB P).

(** kem_test's arrays: inside the memory, pairwise disjoint, sk and ct at even addresses. *)
Definition tarrays (P : params) (mem : list Z) (fr : tframe) : Prop :=
  region mem (t_pk fr) (pkBytes P) /\ region mem (t_sk fr) (skBytes P) /\ region mem (t_ct fr) (ctBytes P) /\
  region mem (t_sse fr) (pCB P) /\ region mem (t_ssd fr) (pCB P) /\
  ForallOrdPairs (fun x y => disjoint (fst x) (snd x) (fst y) (snd y))
    [(t_pk fr, pkBytes P); (t_sk fr, skBytes P); (t_ct fr, ctBytes P); (t_sse fr, pCB P); (t_ssd fr, pCB P)] /\
  t_sk fr mod 2 = 0 /\ t_ct fr mod 2 = 0.

(* ------------------------------------------------------------------ *)
Lemma mod_lxor a b n : 0 <= n -> Z.lxor a b mod 2 ^ n = Z.lxor (a mod 2 ^ n) (b mod 2 ^ n).
Proof.
  intros Hn. apply Z.bits_inj'. intros k Hk. rewrite Z.lxor_spec, !Z.testbit_mod_pow2, Z.lxor_spec by lia.
  destruct (k <? n); reflexivity.
Qed.
Lemma lxor_byte a b : 0 <= a < 256 -> 0 <= b < 256 -> 0 <= Z.lxor a b < 256.
Proof. apply (lxor_range 8). lia. Qed.
Lemma word_bytes x y p : 0 <= x < 256 -> 0 <= y < 256 -> 0 <= p < 65536 ->
  let w := u16 (Z.lxor (x + 256 * y) p) in w mod 256 = Z.lxor x (p mod 256) /\ w / 256 = Z.lxor y (p / 256).
Proof.
  intros Hx Hy Hp w.
  assert (Hw : w = Z.lxor (x + 256 * y) p).
  { unfold w, u16. apply Z.mod_small. apply (lxor_range 16); change (2 ^ 16) with 65536; lia. }
  rewrite Hw. split.
  - change 256 with (2 ^ 8) at 2. rewrite mod_lxor by lia. change (2 ^ 8) with 256. f_equal. dlia.
  - rewrite <- (Z.shiftr_div_pow2 _ 8) by lia. rewrite Z.shiftr_lxor, !Z.shiftr_div_pow2 by lia. change (2 ^ 8) with 256. f_equal. dlia.
Qed.

Section Test.
Variable C : config.
Notation P := (cP C).
Notation g := (cGen C).
Hypothesis V : valid P.
Hypothesis Hb : build_ok C.
Hypothesis Hct : ctBytes P <= 131072.
Lemma tsizes : 0 < pCB P /\ 0 < pkBytes P /\ pCB P < skBytes P /\ 4 <= ctBytes P /\ 0 <= bytesMu P.
Proof.
  destruct (F_sizes P g V) as (HN & HD & HB & HCB & HDN & ENN & EbB & EbC & EbMu & Epk & Esk & Ect). lia.
Qed.
Lemma position_range en b : 1 <= position P en b /\ 2 * position P en b + 1 < ctBytes P /\ position P en b < 65536.
Proof.
  destruct tsizes as (_ & _ & _ & H & _). unfold position. pose proof (Z.mod_pos_bound (integer en b) (ctBytes P / 2) ltac:(dlia)) as Hm.
  set (p := integer en b mod (ctBytes P / 2)) in *. clearbody p. destruct (Z.eqb_spec p 0); dlia.
Qed.
Lemma zlen_altered en CT b : zlen (altered P en CT b) = ctBytes P.
Proof. destruct tsizes as (_ & _ & _ & H & _). apply zlen_ztab. lia. Qed.
Lemma altered_ok en CT b : zlen CT = ctBytes P -> bytes_ok CT -> bytes_ok (altered P en CT b).
Proof.
  intros L B. destruct (position_range en b) as (H1 & H2 & H3). apply inrange_ztab. intros i Hi.
  pose proof (inrange_znth 256 CT i B ltac:(lia)).
  destruct (i =? 2 * position P en b); [apply lxor_byte; [assumption|destruct en; dlia]|].
  destruct (i =? 2 * position P en b + 1); [apply lxor_byte; [assumption|destruct en; dlia]|assumption].
Qed.
Lemma xor_word_wp en mem ct CT b : holds mem ct (ctBytes P) CT -> bytes_ok CT -> ct mod 2 = 0 ->
  wp (xor_word en mem ct (position P en b)) (fun m => m = stored mem ct (altered P en CT b)).
Proof.
  intros ((H1 & H2) & H3) B Hal. destruct (position_range en b) as (P1 & P2 & P3). set (p := position P en b) in *.
  assert (LC : zlen CT = ctBytes P) by (rewrite <- H3; apply zlen_zslice; lia).
  assert (N : forall i, 0 <= i < ctBytes P -> znth mem (ct + i) = znth CT i) by (intros i Hi; rewrite <- H3, znth_zslice by lia; reflexivity).
  unfold xor_word. rewrite Hal. apply wp_bind. apply wp_ret.
  pose proof (inrange_znth 256 CT (2 * p) B ltac:(lia)) as R0. pose proof (inrange_znth 256 CT (2 * p + 1) B ltac:(lia)) as R1.
  apply wp_bind, wp_rd; [lia|rewrite N by lia; lia|]. replace (ct + 2 * p + 1) with (ct + (2 * p + 1)) by lia.
  apply wp_bind, wp_rd; [lia|rewrite N by lia; lia|]. rewrite !N by lia.
  set (w := u16 (Z.lxor (u16_at en (znth CT (2 * p)) (znth CT (2 * p + 1))) p)).
  assert (Hw : byte_of_u16 en w 0 = znth (altered P en CT b) (2 * p) /\ byte_of_u16 en w 1 = znth (altered P en CT b) (2 * p + 1)).
  { unfold altered. fold p. rewrite !znth_ztab by lia. rewrite !Z.eqb_refl. destruct (Z.eqb_spec (2 * p + 1) (2 * p)); [lia|].
    unfold w, u16_at, byte_of_u16. destruct en.
    - exact (word_bytes (znth CT (2 * p)) (znth CT (2 * p + 1)) p R0 R1 ltac:(lia)).
    - rewrite (Z.add_comm (256 * _) (znth CT (2 * p + 1))).
      destruct (word_bytes (znth CT (2 * p + 1)) (znth CT (2 * p)) p R1 R0 ltac:(lia)) as (W1 & W2). split; assumption. }
  destruct Hw as (-> & ->).
  apply wp_bind, wp_wr; [lia|]. apply wp_wr; [rewrite zlen_zset; lia|].
  pose proof (zlen_altered en CT b) as LA.
  assert (NA : forall i, 0 <= i < ctBytes P -> i <> 2 * p -> i <> 2 * p + 1 -> znth (altered P en CT b) i = znth CT i).
  { intros i Hi N1 N2. unfold altered. fold p. rewrite znth_ztab by lia. destruct (Z.eqb_spec i (2 * p)); [lia|]. destruct (Z.eqb_spec i (2 * p + 1)); [lia|reflexivity]. }
  set (CT' := altered P en CT b) in *. clearbody CT' w.
  unfold stored. apply list_ext; [rewrite !zlen_zset, zlen_zsplice; lia|]. rewrite !zlen_zset. intros i Hi.
  rewrite znth_zsplice by lia. rewrite LA.
  destruct (Z.eq_dec i (ct + (2 * p + 1))) as [->|N1].
  { rewrite znth_zset_eq by (rewrite ?zlen_zset; lia). destruct (Z.leb_spec ct (ct + (2 * p + 1))), (Z.ltb_spec (ct + (2 * p + 1)) (ct + ctBytes P)); try lia.
    cbn [andb]. f_equal. lia. }
  rewrite znth_zset_ne by (rewrite ?zlen_zset; lia). destruct (Z.eq_dec i (ct + 2 * p)) as [->|N2].
  { rewrite znth_zset_eq by lia. destruct (Z.leb_spec ct (ct + 2 * p)), (Z.ltb_spec (ct + 2 * p) (ct + ctBytes P)); try lia. cbn [andb]. f_equal. lia. }
  rewrite znth_zset_ne by lia. destruct (Z.leb_spec ct i), (Z.ltb_spec i (ct + ctBytes P)); cbn [andb]; try reflexivity.
  rewrite NA by lia. rewrite <- N by lia. f_equal. lia.
Qed.
Lemma same_wp mem a b n x y : holds mem a n x -> holds mem b n y -> 0 <= n ->
  wp (same_in mem a b n) (fun e => e = true <-> x = y).
Proof.
  intros ((H1 & H2) & <-) ((H3 & H4) & <-) Hn. unfold same_in. apply wp_bind, wp_sub; try lia. apply wp_bind, wp_sub; try lia.
  apply wp_ret. destruct (list_eq_dec Z.eq_dec _ _); split; intros; try congruence.
Qed.
Lemma integer_u32 en b : u32_at en (znth b 0) (znth b 1) (znth b 2) (znth b 3) = integer en b.
Proof. destruct en; cbn [u32_at integer]; lia. Qed.
Lemma zlen_Decaps SK CT : zlen (Decaps P g SK CT) = pCB P.
Proof. pose proof (v_CB _ V). unfold Decaps. destruct (Encrypt _ _ _ _ _ _) as [[? ?] ?]. apply (F_zlen_Hash P g V); lia. Qed.
Lemma tdisjoint mem fr : tarrays P mem fr ->
  disjoint (t_pk fr) (pkBytes P) (t_sk fr) (skBytes P) /\ disjoint (t_ct fr) (ctBytes P) (t_pk fr) (pkBytes P) /\
     disjoint (t_ct fr) (ctBytes P) (t_sk fr) (skBytes P) /\ disjoint (t_sse fr) (pCB P) (t_sk fr) (skBytes P) /\
     disjoint (t_sse fr) (pCB P) (t_ct fr) (ctBytes P) /\ disjoint (t_ssd fr) (pCB P) (t_sse fr) (pCB P) /\
     disjoint (t_ssd fr) (pCB P) (t_sk fr) (skBytes P) /\ disjoint (t_ssd fr) (pCB P) (t_ct fr) (ctBytes P).
Proof.
  intros (_ & _ & _ & _ & _ & Ds & _).
  inversion Ds as [|? ? D1 Ds1']; subst. inversion Ds1' as [|? ? D2 Ds2]; subst. inversion Ds2 as [|? ? D3 Ds3]; subst. inversion Ds3 as [|? ? D4 Ds4]; subst.
    rewrite Forall_forall in D1, D2, D3, D4.
    pose proof (D1 (t_sk fr, skBytes P) ltac:(cbn; auto)). pose proof (D1 (t_ct fr, ctBytes P) ltac:(cbn; auto)).
    pose proof (D2 (t_ct fr, ctBytes P) ltac:(cbn; auto)). pose proof (D2 (t_sse fr, pCB P) ltac:(cbn; auto)). pose proof (D2 (t_ssd fr, pCB P) ltac:(cbn; auto)).
    pose proof (D3 (t_sse fr, pCB P) ltac:(cbn; auto)). pose proof (D3 (t_ssd fr, pCB P) ltac:(cbn; auto)). pose proof (D4 (t_ssd fr, pCB P) ltac:(cbn; auto)).
    cbn [fst snd] in *. unfold disjoint in *. lia.
Qed.
(** The first half of a turn, up to the first comparison. *)
Lemma first_half {A} fr mem rk re r c1 c2 (k : list Z -> bool -> res A) Q : tarrays P mem fr -> drawn P r ->
  delivers rk (2 * pCB P + 16) (r_s r ++ r_se r ++ r_z r) c1 -> delivers re (bytesMu P) (r_mu r) c2 ->
  (forall mem3 e, zlen mem3 = zlen mem ->
    (let '(PK, SK) := KeyGen P g (r_s r) (r_se r) (r_z r) in let '(CT, SS) := Encaps P g PK (r_mu r) in
     holds mem3 (t_sk fr) (skBytes P) SK /\ holds mem3 (t_ct fr) (ctBytes P) CT /\ (e = true <-> Decaps P g SK CT = SS)) -> wp (k mem3 e) Q) ->
  wp ('(mem, _, _) <- crypto_kem_keypair C rk mem (t_pk fr) (t_sk fr) ;;
      '(mem, _, _) <- crypto_kem_enc C re mem (t_ct fr) (t_sse fr) (t_pk fr) ;;
      '(mem, _, _) <- crypto_kem_dec C mem (t_ssd fr) (t_ct fr) (t_sk fr) ;;
      same <- same_in mem (t_sse fr) (t_ssd fr) (pCB P) ;; k mem same) Q.
Proof.
  intros (Rpk & Rsk & Rct & Rse & Rsd & Ds & Hal & Hal2) (Ds1 & Dse & Dz & Dmu & Db) G1 G2 Hk.
  destruct tsizes as (HCB & Hpk & Hsk & Hct4 & Hmu).
  pose proof (tdisjoint mem fr ltac:(repeat (split; [assumption|]); assumption)) as Dis.
  destruct Dis as (Dps & Dcp & Dcs & Des & Dec & Dde & Dds & Ddc).
  assert (TA : forall m, zlen m = zlen mem -> tarrays P m fr).
  { intros m Lm. unfold tarrays, region in *. rewrite Lm. tauto. }
  assert (LS : forall m a x, region m a (zlen x) -> zlen (stored m a x) = zlen m) by (intros m a x (? & ?); apply zlen_zsplice; lia).
  (* key pair *)
  pose proof (C05_keypair C rk c1 mem (t_pk fr) (t_sk fr) _ _ _ V Ds1 Dse Dz G1 Rpk Rsk Dps) as HK. cbv zeta in HK.
  pose proof (KeyGen_parts P g V (r_s r) (r_se r) (r_z r) (proj1 Ds1)) as KP.
  assert (Es : sk_s P (snd (KeyGen P g (r_s r) (r_se r) (r_z r))) = r_s r).
  { unfold KeyGen. cbn [snd]. unfold sk_s, part. change (firstn (Z.to_nat (pCB P)) (skipn (Z.to_nat 0) ?l)) with (zslice l 0 (pCB P)).
    apply zslice_app1. exact (proj1 Ds1). }
  destruct (KeyGen P g (r_s r) (r_se r) (r_z r)) as [PK SK]. cbv zeta in KP. cbn [snd] in Es.
  destruct KP as (LPK & BPK & LSK & BSK & _). specialize (BSK (proj2 Ds1)). destruct HK as (l1 & HK).
  apply wp_bind. eapply wp_mono; [apply returns_wp, HK|]. intros x ->.
  assert (R1 : region mem (t_pk fr) (zlen PK)) by (rewrite LPK; exact Rpk).
  assert (L1 : zlen (stored mem (t_pk fr) PK) = zlen mem) by (apply LS, R1).
  assert (R2 : region (stored mem (t_pk fr) PK) (t_sk fr) (zlen SK)) by (unfold region in *; rewrite L1, LSK; exact Rsk).
  set (mem1 := stored (stored mem (t_pk fr) PK) (t_sk fr) SK) in *.
  assert (Lm1 : zlen mem1 = zlen mem) by (unfold mem1; rewrite LS by exact R2; exact L1).
  assert (Hpk1 : holds mem1 (t_pk fr) (pkBytes P) PK).
  { eapply (KatProofs.holds_other _ _ (skBytes P)); [apply KatProofs.holds_same; [exact Rpk|exact LPK|lia]|rewrite LSK in R2; exact R2|exact LSK|lia|lia|]. unfold disjoint in *; lia. }
  assert (Hsk1 : holds mem1 (t_sk fr) (skBytes P) SK) by (apply KatProofs.holds_same; [rewrite LSK in R2; exact R2|exact LSK|lia]).
  clearbody mem1.
  (* encapsulation *)
  assert (Rg : forall m a n, zlen m = zlen mem -> region mem a n -> region m a n) by (intros m a n E H; unfold region in *; rewrite E; exact H).
  pose proof (C05_enc C re c2 mem1 (t_ct fr) (t_sse fr) (t_pk fr) PK (r_mu r) V Hb Dmu G2 Hpk1 BPK (Rg _ _ _ Lm1 Rct) (Rg _ _ _ Lm1 Rse) Dcp) as HE.
  cbv zeta in HE. pose proof (Encaps_shape P g V PK (r_mu r)) as SH. destruct (Encaps P g PK (r_mu r)) as [CT SS]. destruct SH as (LCT & BCT & LSS & BSS).
  destruct HE as (l2 & HE). apply wp_bind. eapply wp_mono; [apply returns_wp, HE|]. intros x ->.
  assert (R3 : region mem1 (t_ct fr) (zlen CT)) by (rewrite LCT; apply Rg; assumption).
  assert (L2 : zlen (stored mem1 (t_ct fr) CT) = zlen mem) by (rewrite LS by exact R3; exact Lm1).
  assert (R4 : region (stored mem1 (t_ct fr) CT) (t_sse fr) (zlen SS)) by (rewrite LSS; apply Rg; assumption).
  set (mem2 := stored (stored mem1 (t_ct fr) CT) (t_sse fr) SS) in *.
  assert (Lm2 : zlen mem2 = zlen mem) by (unfold mem2; rewrite LS by exact R4; exact L2).
  assert (Hsk2 : holds mem2 (t_sk fr) (skBytes P) SK).
  { eapply (KatProofs.holds_other _ _ (pCB P)); [|rewrite LSS in R4; exact R4|exact LSS|lia|lia|exact Des].
    eapply (KatProofs.holds_other _ _ (ctBytes P)); [exact Hsk1|rewrite LCT in R3; exact R3|exact LCT|lia|lia|exact Dcs]. }
  assert (Hct2 : holds mem2 (t_ct fr) (ctBytes P) CT).
  { eapply (KatProofs.holds_other _ _ (pCB P)); [apply KatProofs.holds_same; [rewrite LCT in R3; exact R3|exact LCT|lia]|rewrite LSS in R4; exact R4|exact LSS|lia|lia|exact Dec]. }
  assert (Hse2 : holds mem2 (t_sse fr) (pCB P) SS) by (apply KatProofs.holds_same; [rewrite LSS in R4; exact R4|exact LSS|lia]).
  clearbody mem2.
  (* decapsulation of the honest ciphertext *)
  destruct (C05_dec C mem2 (t_ssd fr) (t_ct fr) (t_sk fr) CT SK V Hb Hsk2 BSK Hal Hct2 BCT (Rg _ _ _ Lm2 Rsd)) as (l3 & HD).
  apply wp_bind. eapply wp_mono; [apply returns_wp, HD|]. intros x ->.
  pose proof (zlen_Decaps SK CT) as LD. set (D := Decaps P g SK CT) in *.
  assert (R5 : region mem2 (t_ssd fr) (zlen D)) by (rewrite LD; apply Rg; assumption).
  set (mem3 := stored mem2 (t_ssd fr) D) in *.
  assert (Lm3 : zlen mem3 = zlen mem) by (unfold mem3; rewrite LS by exact R5; exact Lm2).
  assert (Hd3 : holds mem3 (t_ssd fr) (pCB P) D) by (apply KatProofs.holds_same; [rewrite LD in R5; exact R5|exact LD|lia]).
  assert (Hse3 : holds mem3 (t_sse fr) (pCB P) SS) by (eapply (KatProofs.holds_other _ _ (pCB P)); [exact Hse2|rewrite LD in R5; exact R5|exact LD|lia|lia|exact Dde]).
  assert (Hsk3 : holds mem3 (t_sk fr) (skBytes P) SK) by (eapply (KatProofs.holds_other _ _ (pCB P)); [exact Hsk2|rewrite LD in R5; exact R5|exact LD|lia|lia|exact Dds]).
  assert (Hct3 : holds mem3 (t_ct fr) (ctBytes P) CT) by (eapply (KatProofs.holds_other _ _ (pCB P)); [exact Hct2|rewrite LD in R5; exact R5|exact LD|lia|lia|exact Ddc]).
  clearbody mem3.
  apply wp_bind. eapply wp_mono; [apply (same_wp _ _ _ _ SS D Hse3 Hd3); lia|]. intros e He.
  apply Hk; [exact Lm3|]. split; [exact Hsk3|]. split; [exact Hct3|]. rewrite He. split; congruence.
Qed.
Lemma kem_turn_wp fr mem rk re rp r c1 c2 c3 : tarrays P mem fr -> drawn P r ->
  delivers rk (2 * pCB P + 16) (r_s r ++ r_se r ++ r_z r) c1 -> delivers re (bytesMu P) (r_mu r) c2 -> delivers rp 4 (r_b r) c3 ->
  wp (kem_turn C fr rk re rp mem) (fun '(mem', ok) => tarrays P mem' fr /\ (ok = true <-> passes P g (cEn C) r)).
Proof.
  intros (Rpk & Rsk & Rct & Rse & Rsd & Ds & Hal & Hal2) (Ds1 & Dse & Dz & Dmu & Db) G1 G2 G3.
  destruct tsizes as (HCB & Hpk & Hsk & Hct4 & Hmu).
  pose proof (tdisjoint mem fr ltac:(repeat (split; [assumption|]); assumption)) as Dis.
  destruct Dis as (Dps & Dcp & Dcs & Des & Dec & Dde & Dds & Ddc).
  assert (TA : forall m, zlen m = zlen mem -> tarrays P m fr).
  { intros m Lm. unfold tarrays, region in *. rewrite Lm. tauto. }
  assert (LS : forall m a x, region m a (zlen x) -> zlen (stored m a x) = zlen m) by (intros m a x (? & ?); apply zlen_zsplice; lia).
  unfold kem_turn. eapply (first_half fr mem rk re r c1 c2); [repeat (split; [assumption|]); assumption|repeat (split; [assumption|]); assumption|exact G1|exact G2|].
  intros mem3 e Lm3. unfold passes.
  pose proof (KeyGen_parts P g V (r_s r) (r_se r) (r_z r) (proj1 Ds1)) as KP.
  assert (Es : sk_s P (snd (KeyGen P g (r_s r) (r_se r) (r_z r))) = r_s r).
  { unfold KeyGen. cbn [snd]. unfold sk_s, part. change (firstn (Z.to_nat (pCB P)) (skipn (Z.to_nat 0) ?l)) with (zslice l 0 (pCB P)).
    apply zslice_app1. exact (proj1 Ds1). }
  destruct (KeyGen P g (r_s r) (r_se r) (r_z r)) as [PK SK]. cbv zeta in KP. cbn [snd] in Es.
  destruct KP as (LPK & BPK & LSK & BSK & _). specialize (BSK (proj2 Ds1)).
  pose proof (Encaps_shape P g V PK (r_mu r)) as SH. destruct (Encaps P g PK (r_mu r)) as [CT SS]. destruct SH as (LCT & BCT & _ & _). intros (Hsk3 & Hct3 & He).
  assert (Rg : forall m a n, zlen m = zlen mem -> region mem a n -> region m a n) by (intros m a n E H; unfold region in *; rewrite E; exact H).
  destruct e; cbn [negb].
  2:{ apply wp_branch; [intros _|discriminate]. apply wp_ret. split; [apply TA, Lm3|]. split; [discriminate|].
      intros (E & _). apply He. exact E. }
  apply wp_branch; [discriminate|intros _]. assert (ED : Decaps P g SK CT = SS) by (apply He; reflexivity). clear He.
  (* the alteration *)
  apply wp_bind. eapply wp_mono; [apply returns_wp, G3|]. intros x ->. destruct Db as (Lb & Bb).
  pose proof (fun i H => inrange_znth 256 (r_b r) i Bb H) as Nb.
  apply wp_bind, wp_rd; [lia|apply Nb; lia|]. apply wp_bind, wp_rd; [lia|apply Nb; lia|]. apply wp_bind, wp_rd; [lia|apply Nb; lia|]. apply wp_bind, wp_rd; [lia|apply Nb; lia|].
  rewrite integer_u32. apply wp_bind.
  apply (wp_mono _ (fun p => p = position P (cEn C) (r_b r))).
  { unfold position. apply wp_branch; intros Hp; rewrite Hp; apply wp_ret; reflexivity. }
  intros p ->. apply wp_bind. eapply wp_mono; [apply (xor_word_wp _ _ _ CT); [exact Hct3|exact BCT|exact Hal2]|]. intros x ->.
  pose proof (zlen_altered (cEn C) CT (r_b r)) as LA. pose proof (altered_ok (cEn C) CT (r_b r) LCT BCT) as BA.
  set (CT' := altered P (cEn C) CT (r_b r)) in *. clearbody CT'.
  assert (R6 : region mem3 (t_ct fr) (zlen CT')) by (rewrite LA; apply Rg; assumption).
  set (mem4 := stored mem3 (t_ct fr) CT') in *.
  assert (Lm4 : zlen mem4 = zlen mem) by (unfold mem4; rewrite LS by exact R6; exact Lm3).
  assert (Hct4' : holds mem4 (t_ct fr) (ctBytes P) CT') by (apply KatProofs.holds_same; [rewrite LA in R6; exact R6|exact LA|lia]).
  assert (Hsk4 : holds mem4 (t_sk fr) (skBytes P) SK) by (eapply (KatProofs.holds_other _ _ (ctBytes P)); [exact Hsk3|rewrite LA in R6; exact R6|exact LA|lia|lia|exact Dcs]).
  clearbody mem4.
  (* decapsulation of the altered ciphertext *)
  destruct (C05_dec C mem4 (t_ssd fr) (t_ct fr) (t_sk fr) CT' SK V Hb Hsk4 BSK Hal Hct4' BA (Rg _ _ _ Lm4 Rsd)) as (l4 & HD').
  apply wp_bind. eapply wp_mono; [apply returns_wp, HD'|]. intros x ->.
  pose proof (zlen_Decaps SK CT') as LD'. set (D' := Decaps P g SK CT') in *.
  assert (R7 : region mem4 (t_ssd fr) (zlen D')) by (rewrite LD'; apply Rg; assumption).
  set (mem5 := stored mem4 (t_ssd fr) D') in *.
  assert (Lm5 : zlen mem5 = zlen mem) by (unfold mem5; rewrite LS by exact R7; exact Lm4).
  assert (Hd5 : holds mem5 (t_ssd fr) (pCB P) D') by (apply KatProofs.holds_same; [rewrite LD' in R7; exact R7|exact LD'|lia]).
  assert (Hsk5 : holds mem5 (t_sk fr) (skBytes P) SK) by (eapply (KatProofs.holds_other _ _ (pCB P)); [exact Hsk4|rewrite LD' in R7; exact R7|exact LD'|lia|lia|exact Dds]).
  assert (Hct5 : holds mem5 (t_ct fr) (ctBytes P) CT') by (eapply (KatProofs.holds_other _ _ (pCB P)); [exact Hct4'|rewrite LD' in R7; exact R7|exact LD'|lia|lia|exact Ddc]).
  clearbody mem5.
  (* F(ct || s) *)
  destruct Hct5 as ((X1 & X2) & X3). destruct Hsk5 as ((X4 & X5) & X6).
  apply wp_bind, wp_sub; [lia|lia|exact X2|]. rewrite X3.
  assert (LU : zlen (uninit (ctBytes P + pCB P)) = ctBytes P + pCB P) by (apply zlen_uninit; lia).
  apply wp_bind, wp_memcpy; try lia. rewrite (zslice_all_n CT') by exact LA.
  assert (Esk : zslice mem5 (t_sk fr) (pCB P) = r_s r).
  { rewrite <- Es, <- X6. unfold sk_s, part. change (firstn (Z.to_nat (pCB P)) (skipn (Z.to_nat 0) ?l)) with (zslice l 0 (pCB P)).
    apply list_ext; [rewrite !zlen_zslice; rewrite ?zlen_zslice; lia|]. rewrite zlen_zslice by lia. intros i Hi. rewrite !znth_zslice by (rewrite ?zlen_zslice; lia). reflexivity. }
  apply wp_bind, wp_sub; [lia|lia|lia|]. rewrite Esk.
  apply wp_bind, wp_memcpy; try lia; [rewrite zlen_zsplice by lia; lia|rewrite (proj1 Ds1); lia|]. rewrite (zslice_all_n (r_s r)) by exact (proj1 Ds1).
  assert (EF : zsplice (zsplice (uninit (ctBytes P + pCB P)) 0 CT') (ctBytes P) (r_s r) = CT' ++ r_s r).
  { pose proof (proj1 Ds1) as LS1. apply list_ext; [rewrite !zlen_zsplice, zlen_app by (rewrite ?zlen_zsplice; lia); lia|]. rewrite !zlen_zsplice by (rewrite ?zlen_zsplice; lia). intros i Hi.
    rewrite !znth_zsplice by (rewrite ?zlen_zsplice; lia). rewrite LA, LS1. destruct (Z.lt_ge_cases i (ctBytes P)).
    - rewrite znth_app1 by lia. destruct (Z.leb_spec (ctBytes P) i); [lia|]. cbn [andb]. destruct (Z.leb_spec 0 i), (Z.ltb_spec i (0 + ctBytes P)); try lia. cbn [andb]. f_equal. lia.
    - rewrite znth_app2 by lia. rewrite LA. destruct (Z.leb_spec (ctBytes P) i), (Z.ltb_spec i (ctBytes P + pCB P)); try lia. reflexivity. }
  rewrite EF. apply wp_bind. apply (shake_to_wp C V); [apply Rse|lia|apply (Rg _ _ _ Lm5 Rse)|apply inrange_app; [exact BA|exact (proj2 Ds1)]|rewrite zlen_app, LA, (proj1 Ds1); reflexivity|].
  assert (LH : zlen (Hash P (CT' ++ r_s r) (pCB P)) = pCB P) by (apply (F_zlen_Hash P g V); lia).
  set (H := Hash P (CT' ++ r_s r) (pCB P)) in *. clearbody H.
  assert (R8 : region mem5 (t_sse fr) (zlen H)) by (rewrite LH; apply Rg; assumption).
  fold (stored mem5 (t_sse fr) H). set (mem6 := stored mem5 (t_sse fr) H) in *.
  assert (Lm6 : zlen mem6 = zlen mem) by (unfold mem6; rewrite LS by exact R8; exact Lm5).
  assert (Hse6 : holds mem6 (t_sse fr) (pCB P) H) by (apply KatProofs.holds_same; [rewrite LH in R8; exact R8|exact LH|lia]).
  assert (Hd6 : holds mem6 (t_ssd fr) (pCB P) D').
  { eapply (KatProofs.holds_other _ _ (pCB P)); [exact Hd5|rewrite LH in R8; exact R8|exact LH|lia|lia|]. unfold disjoint in *; lia. }
  clearbody mem6.
  apply wp_bind. eapply wp_mono; [apply (same_wp _ _ _ _ H D' Hse6 Hd6); lia|]. intros e He.
  destruct e; cbn [negb]; (apply wp_branch; [discriminate + intros _|discriminate + intros _]); try (apply wp_ret; split; [apply TA, Lm6|]).
  - split; [intros _; split; [exact ED|symmetry; apply He; reflexivity]|reflexivity].
  - split; [discriminate|]. intros (_ & E). apply He. congruence.
Qed.
Lemma kem_loop_ok fr rb : forall k rs, supplies P rb k rs -> forall mem, tarrays P mem fr ->
  wp (kem_loop (length rs) C fr rb k mem) (fun v => v = true <-> Forall (passes P g (cEn C)) rs).
Proof.
  induction 1 as [k|k r rs c1 c2 c3 Hd G1 G2 G3 Hs IH]; intros mem Hm; cbn [kem_loop length].
  - apply wp_ret. split; [constructor|reflexivity].
  - apply wp_bind. eapply wp_mono; [apply (kem_turn_wp fr mem _ _ _ r c1 c2 c3); assumption|]. intros [mem' ok] (Hm' & Hok).
    apply wp_branch; intros Eb.
    + eapply wp_mono; [apply IH, Hm'|]. intros v Hv. rewrite Hv. split.
      * intros F. constructor; [apply Hok, Eb|exact F].
      * intros F. inversion F; assumption.
    + apply wp_ret. split; [discriminate|]. intros F. inversion F as [|? ? F1 _]; subst. apply Hok in F1. congruence.
Qed.
End Test.

(* ------------------------------------------------------------------ *)
(** ** C39: the verdict of the self test *)
(** Whatever the generator delivers, kem_test returns, and reports success exactly when every
    round passes: for each round, decapsulating the honest ciphertext gives the encapsulated
    secret and decapsulating the altered one gives F(ct || s). *)
Theorem C39_verdict : forall C fr mem rb rs,
  let P := cP C in
  valid P -> build_ok C -> ctBytes P <= 131072 -> tarrays P mem fr -> supplies P rb 0 rs ->
  exists v, returns (kem_test C fr rb (zlen rs) mem) v /\ (v = true <-> Forall (passes P (cGen C) (cEn C)) rs).
Proof.
  intros C fr mem rb rs P V Hb Hct Hm Hs. unfold kem_test.
  replace (Z.to_nat (zlen rs)) with (length rs) by (unfold zlen; lia).
  destruct (wp_returns_ex _ _ (kem_loop_ok C V Hb Hct fr rb 0 rs Hs mem Hm)) as (v & H1 & H2). exists v. split; assumption.
Qed.
Print Assumptions C39_verdict.

(** The altered ciphertext is never the honest one: it is a byte string of the same length that
    differs from it in one or both of the two bytes at an even offset other than 0, and nowhere
    else. *)
Theorem C39_altered : forall P en CT b,
  valid P -> ctBytes P <= 131072 -> bytestr (ctBytes P) CT ->
  let CT' := altered P en CT b in
  bytestr (ctBytes P) CT' /\ CT' <> CT /\
  exists p, 1 <= p /\ 2 * p + 1 < ctBytes P /\
    forall i, 0 <= i < ctBytes P -> i <> 2 * p -> i <> 2 * p + 1 -> znth CT' i = znth CT i.
Proof.
  intros P en CT b V Hct (L & B).
  set (C := {| cP := P; cEn := LE; cImpl := Reference; cGen := GenSHAKE; cAes := AesC |}).
  destruct (position_range C V Hct en b) as (P1 & P2 & P3). cbn [cP C] in *.
  cbv zeta. split; [split; [apply (zlen_altered C V)|apply (altered_ok C V Hct); assumption]|].
  assert (X : forall x y, 0 <= x < 256 -> y <> 0 -> Z.lxor x y <> x).
  { intros x y Hx Hy E. apply Hy. rewrite <- (Z.lxor_0_l y), <- (Z.lxor_nilpotent x), Z.lxor_assoc, E. reflexivity. }
  pose proof (inrange_znth 256 CT (2 * position P en b) B ltac:(lia)) as R0. pose proof (inrange_znth 256 CT (2 * position P en b + 1) B ltac:(lia)) as R1.
  split.
  - intros E. pose proof (f_equal (fun l => znth l (2 * position P en b)) E) as E0. pose proof (f_equal (fun l => znth l (2 * position P en b + 1)) E) as E1.
    unfold altered in E0, E1. rewrite znth_ztab in E0, E1 by lia. rewrite !Z.eqb_refl in *.
    destruct (Z.eqb_spec (2 * position P en b + 1) (2 * position P en b)); [lia|].
    set (p := position P en b) in *.
    assert (Hne : p mod 256 <> 0 \/ p / 256 <> 0) by dlia.
    destruct en, Hne as [Hn|Hn]; [exact (X _ _ R0 Hn E0)|exact (X _ _ R1 Hn E1)|exact (X _ _ R1 Hn E1)|exact (X _ _ R0 Hn E0)].
  - exists (position P en b). split; [lia|]. split; [lia|]. intros i Hi N1 N2. unfold altered. rewrite znth_ztab by lia.
    destruct (Z.eqb_spec i (2 * position P en b)); [lia|]. destruct (Z.eqb_spec i (2 * position P en b + 1)); [lia|reflexivity].
Qed.
Print Assumptions C39_altered.

(** On this library a round fails only by a decryption failure of the honest ciphertext (some
    entry of its noise is not tolerated) or because the altered ciphertext is, byte for byte,
    an encryption of another message. *)
Theorem C39_fails_only : forall P g en r,
  valid P -> ctBytes P <= 131072 -> drawn P r -> ~ passes P g en r ->
  let '(PK, SK) := KeyGen P g (r_s r) (r_se r) (r_z r) in
  let '(CT, SS) := Encaps P g PK (r_mu r) in
  let CT' := altered P en CT (r_b r) in
  (forall t, 0 <= t < 64 -> tolerated (pD P) (pB P) (noise P (r_se r) (Hash P PK (pCB P)) (r_mu r) t)) ->
  accepted P g SK CT' /\ Decrypt P SK CT' <> r_mu r.
Proof.
  intros P g en r V Hct (Ds1 & Dse & Dz & Dmu & Db) Hp.
  pose proof (Decrypt_Encaps P g V (r_s r) (r_se r) (r_z r) (r_mu r) (proj1 Ds1) (proj1 Dmu) (proj2 Dmu)) as HD.
  pose proof (Encaps_reencrypt P g V (r_s r) (r_se r) (r_z r) (r_mu r) (proj1 Ds1)) as HR.
  assert (Es : sk_s P (snd (KeyGen P g (r_s r) (r_se r) (r_z r))) = r_s r).
  { unfold KeyGen. cbn [snd]. unfold sk_s, part. change (firstn (Z.to_nat (pCB P)) (skipn (Z.to_nat 0) ?l)) with (zslice l 0 (pCB P)).
    apply zslice_app1. exact (proj1 Ds1). }
  unfold passes in Hp.
  destruct (KeyGen P g (r_s r) (r_se r) (r_z r)) as [PK SK]. pose proof (Encaps_shape P g V PK (r_mu r)) as HS.
  destruct (Encaps P g PK (r_mu r)) as [CT SS]. destruct HS as (LCT & BCT & _). destruct HR as (HR & HR2). cbn [snd] in Es.
  cbv zeta. intros Ht. apply HD in Ht.
  destruct (C39_altered P en CT (r_b r) V Hct (conj LCT BCT)) as ((LA & BA) & Hne & _).
  set (CT' := altered P en CT (r_b r)) in *. clearbody CT'.
  assert (HA : accepted P g SK CT) by (unfold accepted; rewrite Ht; exact HR).
  destruct (Decaps_cases P g V SK CT LCT BCT) as (H1 & _). destruct (Decaps_cases P g V SK CT' LA BA) as (_ & H2).
  assert (Hacc : accepted P g SK CT').
  { unfold accepted in *. destruct (list_eq_dec Z.eq_dec CT' (reencrypt P g SK (Decrypt P SK CT'))) as [E|E]; [exact E|exfalso].
    apply Hp. split; [rewrite (H1 HA), Ht; symmetry; exact HR2|]. rewrite (H2 E), Es. reflexivity. }
  split; [exact Hacc|]. intros E. apply Hne. apply (C28_unique_ciphertext P g SK); [exact Hacc|exact HA|congruence].
Qed.
Print Assumptions C39_fails_only.

(** The hypotheses of C39_verdict hold, for FrodoKEM-640 and two rounds ... *)
Definition test640 : config := {| cP := frodo640; cEn := LE; cImpl := Reference; cGen := GenSHAKE; cAes := AesC |}.
Definition tframe640 : tframe := {| t_pk := 0; t_sk := 10000; t_ct := 30000; t_sse := 40000; t_ssd := 40016 |}.
Definition counter (k : Z) : generator := fun _ n => ret (ztab n (fun i => (i + k) mod 256), 0).
Definition draw640 (k : Z) : draws :=
  let x := ztab 48 (fun i => (i + k) mod 256) in
  {| r_s := zslice x 0 16; r_se := zslice x 16 16; r_z := zslice x 32 16;
     r_mu := ztab 16 (fun i => (i + (k + 1)) mod 256); r_b := ztab 4 (fun i => (i + (k + 2)) mod 256) |}.
Lemma drawn640 k : drawn frodo640 (draw640 k).
Proof.
  assert (B : forall n k, 0 <= n -> bytestr n (ztab n (fun i => (i + k) mod 256))).
  { intros n j Hn. split; [apply zlen_ztab, Hn|apply inrange_ztab; intros; apply Z.mod_pos_bound; lia]. }
  destruct (B 48 k ltac:(lia)) as (L & I).
  repeat split; try (apply zlen_zslice; lia); try (apply inrange_zslice; exact I); try (apply B; cbn; lia); cbn [draw640 r_mu r_b];
    try (apply inrange_ztab; intros; apply Z.mod_pos_bound; lia); apply zlen_ztab; cbn; lia.
Qed.
Lemma supplied640 k rs : supplies frodo640 counter (k + 3) rs -> supplies frodo640 counter k (draw640 k :: rs).
Proof.
  apply supplies_cons with (c1 := 0) (c2 := 0) (c3 := 0); [apply drawn640| | | ]; exists []; unfold counter, ret; repeat f_equal.
Qed.
Example C39_verdict_hyps : valid frodo640 /\ build_ok test640 /\ ctBytes frodo640 <= 131072 /\ ctBytes frodo976 <= 131072 /\ ctBytes frodo1344 <= 131072 /\
  tarrays frodo640 (uninit 60000) tframe640 /\ supplies frodo640 counter 0 [draw640 0; draw640 3].
Proof.
  split; [apply valid_640|]. split; [intros H; exfalso; apply H; reflexivity|]. repeat (split; [vm_compute; congruence|]). split.
  - assert (L : zlen (uninit 60000) = 60000) by (apply zlen_uninit; lia). unfold tarrays, region. rewrite L. cbn [tframe640 t_pk t_sk t_ct t_sse t_ssd].
    repeat (split; [vm_compute; split; congruence|]). split; [|split; reflexivity].
    repeat (apply FOP_cons; [repeat (apply Forall_cons; [left; vm_compute; congruence|]); apply Forall_nil|]). apply FOP_nil.
  - apply supplied640. apply (supplied640 3). constructor.
Qed.
(** ... and the alteration is not trivial: these four bytes choose position 1 + 256. *)
Example C39_altered_ex : position frodo640 LE [1; 1; 0; 0] = 257 /\ position frodo640 BE [0; 0; 0; 0] = 1 /\
  position frodo640 LE [52; 19; 0; 0] = 56.
Proof. vm_compute. auto. Qed.
