(** More properties of the API: C21 (unwritten randomness), C31 (alignment), C32 (overlap). *)
From Verif Require Import CSem Params Util UtilSpec UtilProofs Fips202 KeccakSpec AesSpec MatrixSpec Macrify
  MatrixProofs MatrixProofs2 PropMatrix FrodoSpec Kem KemProofs KemWp FrodoFacts PropKem.
From Verif Require Fips202x4.

(* ------------------------------------------------------------------ *)
(** ** C21: the generator fails without writing *)
(** Then both functions read uninitialised memory: the call has no defined result at all
    (and in particular no error is reported). *)
Definition rand_untouched (rc : Z) : generator := fun buf _ => Ok (buf, rc) [].
Lemma shake_uninit r buf n : r = 168 \/ r = 136 -> shake r buf n (uninit 16) 16 = Err UB_uninit.
Proof. intros [-> | ->]; vm_compute; reflexivity. Qed.
Lemma sub_uninit n o k : 0 <= o -> 0 <= k -> o + k <= n -> exists t, sub (uninit n) o k = Ok (uninit k) t.
Proof.
  intros. destruct (wp_sub (uninit n) o k (fun x => x = uninit k)) as (x & t & E & ->); try lia; [rewrite zlen_uninit; lia| |eauto].
  apply list_ext; [rewrite zlen_zslice by (rewrite ?zlen_uninit; lia); rewrite zlen_uninit; lia|].
  rewrite zlen_zslice by (rewrite ?zlen_uninit; lia). intros i Hi. unfold uninit. rewrite znth_zslice by (rewrite ?zlen_zrep; lia).
  rewrite !znth_zrep by lia. reflexivity.
Qed.
Theorem C21_keypair_unwritten : forall C rc mem pk sk,
  valid (cP C) -> region mem pk (pkBytes (cP C)) ->
  crypto_kem_keypair C (rand_untouched rc) mem pk sk = Err UB_uninit.
Proof.
  intros C rc mem pk sk V (H1 & H2). pose proof (v_CB _ V).
  destruct (F_sizes (cP C) (cGen C) V) as (HN & HD & HB & HCB & HDN & ENN & EbB & EbC & EbMu & Epk & Esk & Ect).
  unfold crypto_kem_keypair, rand_untouched; cbv zeta. cbn [bind].
  destruct (sub_uninit (2 * pCB (cP C) + SEEDA) (2 * pCB (cP C)) SEEDA) as (t & ->); unfold SEEDA in *; try lia.
  cbn [bind]. unfold shake_to.
  destruct (wp_sub mem pk 16 (fun _ => True)) as (x & t2 & E & _); try lia; try exact I.
  rewrite E. cbn [bind]. rewrite shake_uninit by apply (v_rate _ V). reflexivity.
Qed.
Print Assumptions C21_keypair_unwritten.

(* ------------------------------------------------------------------ *)
(** ** C31: alignment *)
(** Decapsulation is defined exactly when sk is even (all other hypotheses as in C03). *)
Theorem C31_dec_iff : forall C mem ss ct sk CT SK,
  let P := cP C in
  valid P -> build_ok C ->
  holds mem sk (skBytes P) SK -> bytes_ok SK ->
  holds mem ct (ctBytes P) CT -> bytes_ok CT -> region mem ss (pCB P) ->
  (exists v, returns (crypto_kem_dec C mem ss ct sk) v) <-> sk mod 2 = 0.
Proof.
  intros C mem ss ct sk CT SK P V Hb Hsk Bsk Hct Bct Hss. split.
  - intros (v & t & E). destruct (Z.mod_pos_bound sk 2 ltac:(lia)) as [_ ?].
    destruct (Z.eq_dec (sk mod 2) 0) as [|N]; [assumption|exfalso].
    rewrite C31_dec_misaligned in E; [discriminate|exact V|]. pose proof (Z.mod_pos_bound sk 2). lia.
  - intros Ha. destruct (C05_dec C mem ss ct sk CT SK V Hb Hsk Bsk Ha Hct Bct Hss) as (l & HR). eauto.
Qed.
Print Assumptions C31_dec_iff.
(** The vector accesses of the AVX2 build: in the model a misaligned aligned-load is an
    error, so that enc and dec return means that all of them are aligned and in range,
    for every N divisible by 16. *)
Theorem C31_avx2_dec : forall P g a mem ss ct sk CT SK,
  let C := {| cP := P; cEn := LE; cImpl := AVX2; cGen := g; cAes := a |} in
  valid P -> holds mem sk (skBytes P) SK -> bytes_ok SK -> sk mod 2 = 0 ->
  holds mem ct (ctBytes P) CT -> bytes_ok CT -> region mem ss (pCB P) ->
  exists v, returns (crypto_kem_dec C mem ss ct sk) v.
Proof.
  intros P g a mem ss ct sk CT SK C V Hsk Bsk Ha Hct Bct Hss.
  destruct (C05_dec C mem ss ct sk CT SK V ltac:(intros _; reflexivity) Hsk Bsk Ha Hct Bct Hss) as (l & HR). eauto.
Qed.
Print Assumptions C31_avx2_dec.
Theorem C31_avx2_enc : forall P g a rb rc mem ct ss pk PK mu,
  let C := {| cP := P; cEn := LE; cImpl := AVX2; cGen := g; cAes := a |} in
  valid P -> bytestr (bytesMu P) mu -> delivers rb (bytesMu P) mu rc ->
  holds mem pk (pkBytes P) PK -> bytes_ok PK ->
  region mem ct (ctBytes P) -> region mem ss (pCB P) -> disjoint ct (ctBytes P) pk (pkBytes P) ->
  exists v, returns (crypto_kem_enc C rb mem ct ss pk) v.
Proof.
  intros P g a rb rc mem ct ss pk PK mu C V Hmu Hrb Hpk Bpk Hct Hss Hd.
  pose proof (C05_enc C rb rc mem ct ss pk PK mu V ltac:(intros _; reflexivity) Hmu Hrb Hpk Bpk Hct Hss Hd) as K. cbv zeta in K.
  destruct (Encaps _ _ _ _) as [CT SS]. destruct K as (l & HR). eauto.
Qed.
Print Assumptions C31_avx2_enc.
(** The check is real: with the error matrix on any other address than a multiple of 32
    the multiplication is an error... *)
Theorem C31_misaligned_e : forall ebase N i A s e, 0 < N -> zlen s = 8 * N -> u16s_ok s -> 0 <= i -> i + 8 <= N -> ebase mod 32 <> 0 ->
  sa_block_avx ebase N i A s e = Err UB_align.
Proof.
  intros ebase N i A s e HN Ls Bs Hi Hi2 Hm. unfold sa_block_avx. unfold for_ at 1.
  change (Z.to_nat (NBAR - 0)) with 8%nat. cbn [for_n].
  match goal with |- context [for_ 0 8 ?f (uninit 128)] =>
    assert (W : wp (for_ 0 8 f (uninit 128)) (fun _ => True)) end.
  { apply wp_for with (I := fun _ sp => zlen sp = 128); auto; [lia|].
    intros p sp Hp L. apply wp_bind. apply wp_rd; [lia| |].
    - pose proof (inrange_znth 65536 s (0 * N + i + p) Bs ltac:(lia)). unfold undef; lia.
    - apply wp_put; unfold mm256_set1_epi16; rewrite ?zlen_zrep; try lia. rewrite zlen_zsplice; rewrite ?zlen_zrep; lia. }
  destruct W as (sp & t & E & _). cbn [bind emit]. rewrite E. cbn [bind].
  unfold for_step. replace (Z.to_nat ((N - 0 + 16 - 1) / 16)) with (S (Z.to_nat ((N - 1) / 16))).
  2:{ replace (N - 0 + 16 - 1) with (N - 1 + 1 * 16) by lia. rewrite Z.div_add by lia. 
      assert (0 <= (N - 1) / 16) by (apply Z.div_pos; lia). lia. }
  cbn [for_n]. unfold mm256_load at 1. replace (ebase + 2 * (0 * N + 0)) with ebase by lia.
  destruct (Z.eqb_spec (ebase mod 32) 0); [contradiction|]. reflexivity.
Qed.
Print Assumptions C31_misaligned_e.
(** ... and the four-way permutation is an error when its shuffle tables are not on a
    32-byte boundary, which nothing in the source asks for (C10 assumes it). *)
Theorem C31_shuffle_tables : forall ss, Fips202x4.KeccakP1600times4_PermuteAll_24rounds false ss = Err UB_align.
Proof. reflexivity. Qed.
Print Assumptions C31_shuffle_tables.

(* ------------------------------------------------------------------ *)
(** ** C32: overlapping buffers *)
(** Decapsulation: the secret does not depend on where it is written, even on top of the
    ciphertext or of the secret key. *)
Theorem C32_dec_any_overlap : forall C mem1 mem2 ss1 ss2 ct1 ct2 sk1 sk2 CT SK,
  let P := cP C in
  valid P -> build_ok C -> bytes_ok SK -> bytes_ok CT ->
  holds mem1 sk1 (skBytes P) SK -> sk1 mod 2 = 0 -> holds mem1 ct1 (ctBytes P) CT -> region mem1 ss1 (pCB P) ->
  holds mem2 sk2 (skBytes P) SK -> sk2 mod 2 = 0 -> holds mem2 ct2 (ctBytes P) CT -> region mem2 ss2 (pCB P) ->
  exists SS l1 l2, zlen SS = pCB P /\
    returns (crypto_kem_dec C mem1 ss1 ct1 sk1) (stored mem1 ss1 SS, l1, 0) /\
    returns (crypto_kem_dec C mem2 ss2 ct2 sk2) (stored mem2 ss2 SS, l2, 0).
Proof.
  intros C mem1 mem2 ss1 ss2 ct1 ct2 sk1 sk2 CT SK P V Hb BSK BCT Hsk1 Ha1 Hct1 Hss1 Hsk2 Ha2 Hct2 Hss2.
  destruct (C05_dec C mem1 ss1 ct1 sk1 CT SK V Hb Hsk1 BSK Ha1 Hct1 BCT Hss1) as (l1 & H1).
  destruct (C05_dec C mem2 ss2 ct2 sk2 CT SK V Hb Hsk2 BSK Ha2 Hct2 BCT Hss2) as (l2 & H2).
  exists (Decaps P (cGen C) SK CT), l1, l2. split; [|auto]. pose proof (v_CB _ V).
  unfold Decaps. destruct (Encrypt _ _ _ _ _ _) as [[? ?] ?]. apply (F_zlen_Hash P (cGen C) V); fold P in H; lia.
Qed.
Print Assumptions C32_dec_any_overlap.
Example C32_dec_hyps : (* ss inside ct, ss inside sk *)
  region mem976 1100 24 /\ region mem976 50100 24 /\ 50000 mod 2 = 0.
Proof. assert (L : zlen mem976 = 100000) by (apply zlen_ztab; lia). unfold region; rewrite L. repeat split; lia. Qed.
(** Encapsulation: the shared secret may be written over the public key, and the first
    part of the ciphertext over everything but the part of pk read later (the hypotheses
    of C32_enc_tolerated); *)
Theorem C32_enc_tolerated : forall C rb rc mem ct ss pk PK mu,
  let P := cP C in
  valid P -> build_ok C ->
  bytestr (bytesMu P) mu -> delivers rb (bytesMu P) mu rc ->
  holds mem pk (pkBytes P) PK -> bytes_ok PK ->
  region mem ct (ctBytes P) -> region mem ss (pCB P) ->
  (ct + bytesB P <= pk + 16 \/ pk + pkBytes P <= ct) ->
  let '(CT, SS) := Encaps P (cGen C) PK mu in
  exists l, returns (crypto_kem_enc C rb mem ct ss pk) (stored (stored mem ct CT) ss SS, l, 0).
Proof.
  intros C rb rc mem ct ss pk PK mu P V Hb (Lmu & Bmu) Hrb ((Hpk & Hpk2) & <-) Bpk (Hct & Hct2) (Hss & Hss2) Hd.
  pose proof (enc_wp C V rb rc mem ct ss pk mu Hb Lmu Bmu Hrb Hpk Hpk2 Bpk Hct Hct2 Hss Hss2 Hd) as H.
  fold P in H. destruct (Encaps P (cGen C) (zslice mem pk (pkBytes P)) mu) as [CT SS]. apply wp_returns_ex in H.
  destruct H as ([[m l] r] & HR & -> & -> & _). exists l; exact HR.
Qed.
Print Assumptions C32_enc_tolerated.
(** other overlaps of ct with pk change the ciphertext.  Same public key, same message,
    two positions of ct. *)
Definition Ctoy : config := {| cP := toy_small; cEn := LE; cImpl := Reference; cGen := GenAES; cAes := AesNI |}.
Definition memtoy : list Z := ztab 1000 (fun i => (i * i + 5) mod 256).
Definition randtoy : generator := fun _ n => Ok (zrep n 1, 0) [].
Definition c2byte (r : res (list Z * enc_locals * Z)) (ct : Z) : option Z :=
  match r with Ok (m, _, 0) _ => Some (znth m (ct + bytesB toy_small)) | _ => None end.
Lemma c2byte_inv r ct x : c2byte r ct = Some x ->
  exists m l, returns r (m, l, 0) /\ znth m (ct + bytesB toy_small) = x.
Proof.
  destruct r as [[[m l] rc] t|e]; [|discriminate]. destruct rc; try discriminate.
  intros E; injection E; intros; exists m, l; split; [exists t; reflexivity|assumption].
Qed.
Lemma c2_apart : c2byte (crypto_kem_enc Ctoy randtoy memtoy 500 0 100) 500 = Some 112.
Proof. vm_compute. reflexivity. Qed.
Lemma c2_overlap : c2byte (crypto_kem_enc Ctoy randtoy memtoy 116 0 100) 116 = Some 101.
Proof. vm_compute. reflexivity. Qed.
Theorem C32_enc_any_overlap_refuted :
  ~ (forall C rb rc mem ct1 ct2 ss pk PK mu mem1 l1 mem2 l2,
      let P := cP C in
      valid P -> build_ok C -> bytestr (bytesMu P) mu -> delivers rb (bytesMu P) mu rc ->
      holds mem pk (pkBytes P) PK -> bytes_ok PK ->
      region mem ct1 (ctBytes P) -> region mem ct2 (ctBytes P) -> region mem ss (pCB P) ->
      disjoint ss (pCB P) ct1 (ctBytes P) -> disjoint ss (pCB P) ct2 (ctBytes P) ->
      returns (crypto_kem_enc C rb mem ct1 ss pk) (mem1, l1, 0) ->
      returns (crypto_kem_enc C rb mem ct2 ss pk) (mem2, l2, 0) ->
      zslice mem1 ct1 (ctBytes P) = zslice mem2 ct2 (ctBytes P)).
Proof.
  intros H. destruct (c2byte_inv _ _ _ c2_apart) as (m1 & l1 & R1 & E1).
  destruct (c2byte_inv _ _ _ c2_overlap) as (m2 & l2 & R2 & E2).
  assert (L : zlen memtoy = 1000) by (apply zlen_ztab; lia).
  assert (Bm : bytes_ok memtoy) by (apply inrange_ztab; intros; apply mod256).
  specialize (H Ctoy randtoy 0 memtoy 500 116 0 100 (zslice memtoy 100 256) (zrep 16 1) m1 l1 m2 l2).
  cbv zeta in H. change (cP Ctoy) with toy_small in H. unfold region in H; rewrite L in H.
  specialize (H ltac:(solve_valid) ltac:(intros _; reflexivity)).
  specialize (H ltac:(split; [reflexivity|repeat constructor; lia]) ltac:(exists []; reflexivity)).
  specialize (H ltac:(split; [unfold region; rewrite L; cbn; lia|reflexivity]) ltac:(apply inrange_zslice; exact Bm)).
  specialize (H ltac:(cbn; lia) ltac:(cbn; lia) ltac:(cbn; lia) ltac:(left; cbn; lia) ltac:(left; cbn; lia)).
  specialize (H R1 R2). 
  assert (Z1 : znth (zslice m1 500 (ctBytes toy_small)) (bytesB toy_small) = 112).
  { rewrite znth_zslice by (cbn; lia). exact E1. }
  rewrite H, znth_zslice in Z1 by (cbn; lia). rewrite E2 in Z1. discriminate.
Qed.
Print Assumptions C32_enc_any_overlap_refuted.
