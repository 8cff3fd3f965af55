(** Property C44: the builds with OpenSSL when calls of the library fail. *)
From Verif Require Import CSem Params FrodoSpec PropMatrix Kem KemProofs KemWp FrodoFacts PropKem AesSpec Rng RngProofs OpenSsl OpenSslProofs.

(** ** Vocabulary of the statements *)
(** EVP_CIPHER_CTX_free is the only call that cannot fail. *)
Definition can_fail (c : evp_call) : Prop := c <> CtxFree.
(** Making the calls [plan] one after the other, of which the k-th succeeds iff [ok k]: either
    all succeed and the value v comes out, or abort() is called after the first that fails. *)
Definition right_or_abort {A} (ok : Z -> bool) (plan : list evp_call) (v : A) (o : outcome A) : Prop :=
  (o = Returns v plan /\ forall k c, nth_error plan k = Some c -> can_fail c -> ok (Z.of_nat k) = true)
  \/
  exists k c, nth_error plan k = Some c /\ can_fail c /\ ok (Z.of_nat k) = false /\
    (forall j c', (j < k)%nat -> nth_error plan j = Some c' -> can_fail c' -> ok (Z.of_nat j) = true) /\
    o = Aborts (firstn (k + 1) plan).
(** The library is used as its documentation asks: one context is made, initialised once,
    encrypts whole blocks with lengths that fit an int, the 2 * N * N bytes of the matrix
    altogether, and is freed once, after the last use.  Without AES it is not used. *)
Definition proper_use (g : genA) (N : Z) (plan : list evp_call) : Prop :=
  match g with
  | GenAES => exists lens, plan = CtxNew :: EncryptInit :: map EncryptUpdate lens ++ [CtxFree] /\
      (forall n, In n lens -> n mod 16 = 0 /\ 0 < n < 2 ^ 31) /\ fold_right Z.add 0 lens = 2 * N * N
  | GenSHAKE => plan = []
  end.

(** ** Proofs *)
Lemma perform_cases {A} ok (v : A) : forall cs l,
  let o := perform ok cs v l in
  (o = Returns v (l ++ cs) /\ forall k c, nth_error cs k = Some c -> can_fail c -> ok (zlen l + Z.of_nat k) = true)
  \/
  exists k c, nth_error cs k = Some c /\ can_fail c /\ ok (zlen l + Z.of_nat k) = false /\
    (forall j c', (j < k)%nat -> nth_error cs j = Some c' -> can_fail c' -> ok (zlen l + Z.of_nat j) = true) /\
    o = Aborts (l ++ firstn (k + 1) cs).
Proof.
  induction cs as [|c cs IH]; intros l; cbn [perform]; cbv zeta.
  - left. rewrite app_nil_r. split; [reflexivity|]. intros [|k] c H; discriminate.
  - specialize (IH (l ++ [c])). cbv zeta in IH.
    assert (ZL : zlen (l ++ [c]) = zlen l + 1) by (rewrite zlen_app; reflexivity).
    assert (HC : c = CtxFree \/ can_fail c) by (unfold can_fail; destruct c; auto; right; discriminate).
    assert (HE : evp ok c l = Returns tt (l ++ [c]) /\ (can_fail c -> ok (zlen l) = true) \/
                 evp ok c l = Aborts (l ++ [c]) /\ can_fail c /\ ok (zlen l) = false).
    { unfold evp, can_fail. destruct c; try (left; split; [reflexivity|congruence]);
        (destruct (ok (zlen l)) eqn:E; [left; split; [reflexivity|auto]|right; split; [reflexivity|split; [discriminate|auto]]]). }
    unfold ebind. destruct HE as [(-> & Hok)|(-> & Hf & Hok)].
    + destruct IH as [(E & H)|(k & d & H1 & H2 & H3 & H4 & H5)].
      * left. rewrite E, <- app_assoc. split; [reflexivity|]. intros [|k] d Hd Hcd.
        { injection Hd as ->. rewrite Z.add_0_r. auto. }
        cbn in Hd. specialize (H k d Hd Hcd). rewrite ZL in H. replace (zlen l + Z.of_nat (S k)) with (zlen l + 1 + Z.of_nat k) by lia. exact H.
      * right. exists (S k), d. rewrite ZL in H3. split; [exact H1|]. split; [exact H2|].
        split; [replace (zlen l + Z.of_nat (S k)) with (zlen l + 1 + Z.of_nat k) by lia; exact H3|]. split.
        { intros [|j] c' Hj Hc' Hcf.
          - injection Hc' as ->. rewrite Z.add_0_r. auto.
          - cbn in Hc'. rewrite ZL in H4. replace (zlen l + Z.of_nat (S j)) with (zlen l + 1 + Z.of_nat j) by lia.
            apply (H4 j c'); auto; lia. }
        rewrite H5, <- app_assoc. reflexivity.
    + right. exists O, c. split; [reflexivity|]. split; [exact Hf|]. split; [rewrite Z.add_0_r; exact Hok|]. split; [intros j c' Hj; lia|].
      reflexivity.
Qed.
Lemma follows_right {A} ok (m' : ev A) m plan v : follows ok m' m plan -> returns m v -> right_or_abort ok plan v (m' []).
Proof. intros HF HR. rewrite (HF v HR). exact (perform_cases ok v plan []). Qed.

Lemma times_map n len : times n [EncryptUpdate len] = map EncryptUpdate (repeat len n).
Proof. induction n as [|n IH]; cbn; [reflexivity|]. rewrite IH. reflexivity. Qed.
Lemma sum_repeat len n : fold_right Z.add 0 (repeat len n) = Z.of_nat n * len.
Proof. induction n as [|n IH]; [reflexivity|]. cbn [repeat fold_right]. rewrite IH. lia. Qed.
Lemma opt_proper g N rounds len : 0 <= rounds -> rounds * len = 2 * N * N -> len mod 16 = 0 -> 0 < len < 2 ^ 31 -> proper_use g N (opt_calls g rounds len).
Proof.
  intros Hr Hs Hm Hl. destruct g; cbn [opt_calls proper_use]; [|reflexivity]. exists (repeat len (Z.to_nat rounds)).
  split; [rewrite times_map; reflexivity|]. split; [intros n Hn; apply repeat_spec in Hn; subst n; auto|].
  rewrite sum_repeat, Z2Nat.id by lia. exact Hs.
Qed.
Lemma ref_proper g N : N mod 8 = 0 -> 0 < N < 2 ^ 15 -> proper_use g N (ref_calls g N).
Proof.
  intros Hm Hl. destruct g; cbn [ref_calls proper_use]; [|reflexivity]. exists [N * N * 2].
  split; [reflexivity|]. split; [|cbn [fold_right]; ring]. intros n [<-|[]].
  assert (E : N = 8 * (N / 8)) by (apply Z.div_exact; lia). split.
  - rewrite E. replace (8 * (N / 8) * (8 * (N / 8)) * 2) with (8 * (N / 8) * (N / 8) * 16) by ring. apply Z.mod_mul; lia.
  - split; [apply Z.mul_pos_pos; [apply Z.mul_pos_pos|]; lia|]. assert (N * N < 2 ^ 15 * 2 ^ 15) by (apply Z.mul_lt_mono_nonneg; lia). lia.
Qed.

(** What the three functions ask of the library: no more than the parameter set and the build
    decide it. *)
Definition keypair_plan (C : config) : list evp_call := as_calls C.
Definition encdec_plan (C : config) : list evp_call := sa_calls C.
Lemma plans_proper C : valid (cP C) -> pN (cP C) < 32768 ->
  proper_use (cGen C) (pN (cP C)) (keypair_plan C) /\ proper_use (cGen C) (pN (cP C)) (encdec_plan C).
Proof.
  intros V Hn. pose proof (v_N _ V) as H0. pose proof (v_N16 _ V) as H16. set (N := pN (cP C)) in *.
  assert (E : N = 16 * (N / 16)) by (apply Z.div_exact; lia). set (q := N / 16) in *.
  assert (H8 : N mod 8 = 0) by (rewrite E; replace (16 * q) with (2 * q * 8) by ring; apply Z.mod_mul; lia).
  assert (D4 : (N - 0 + 4 - 1) / 4 = 4 * q) by (replace (N - 0 + 4 - 1) with (3 + 4 * q * 4) by lia; rewrite Z.div_add by lia; reflexivity).
  assert (D8 : (N - 0 + 8 - 1) / 8 = 2 * q) by (replace (N - 0 + 8 - 1) with (7 + 2 * q * 8) by lia; rewrite Z.div_add by lia; reflexivity).
  unfold keypair_plan, encdec_plan, as_calls, sa_calls. fold N. rewrite D4, D8.
  destruct (cImpl C); split; try (apply ref_proper; lia); apply opt_proper; try lia;
    solve [rewrite E; ring | rewrite E; replace (4 * (16 * q) * 2) with (8 * q * 16) by ring; apply Z.mod_mul; lia
          | rewrite E; replace (8 * (16 * q) * 2) with (16 * q * 16) by ring; apply Z.mod_mul; lia].
Qed.

(** ** C44 *)
(** crypto_kem_keypair: whatever calls of the library fail, it stores the key pair FrodoKEM
    prescribes and returns 0, having made the calls of the plan, or the process aborts at the
    first call that failed. *)
Theorem C44_keypair : forall C, cAes C = AesEVP -> valid (cP C) -> pN (cP C) < 32768 ->
  let P := cP C in
  exists plan, proper_use (cGen C) (pN P) plan /\
  forall ok rb rc mem pk sk s seedSE z,
  bytestr (pCB P) s -> bytestr (pCB P) seedSE -> bytestr 16 z ->
  delivers rb (2 * pCB P + 16) (s ++ seedSE ++ z) rc ->
  region mem pk (pkBytes P) -> region mem sk (skBytes P) -> disjoint pk (pkBytes P) sk (skBytes P) ->
  let '(PK, SK) := KeyGen P (cGen C) s seedSE z in
  exists l, right_or_abort ok plan (stored (stored mem pk PK) sk SK, l, 0) (evp_keypair ok C rb mem pk sk []).
Proof.
  intros C HA V Hn P. exists (keypair_plan C). split; [apply plans_proper; auto|].
  intros ok rb rc mem pk sk s seedSE z Hs He Hz Hrb Hpk Hsk Hd.
  pose proof (C05_keypair C rb rc mem pk sk s seedSE z V Hs He Hz Hrb Hpk Hsk Hd) as H. cbv zeta in H. fold P in H.
  destruct (KeyGen P (cGen C) s seedSE z) as [PK SK]. destruct H as (l & H). exists l.
  eapply follows_right; [apply keypair_follows, HA|exact H].
Qed.
Print Assumptions C44_keypair.
(** crypto_kem_enc *)
Theorem C44_enc : forall C, cAes C = AesEVP -> valid (cP C) -> pN (cP C) < 32768 -> build_ok C ->
  let P := cP C in
  exists plan, proper_use (cGen C) (pN P) plan /\
  forall ok rb rc mem ct ss pk PK mu,
  bytestr (bytesMu P) mu -> delivers rb (bytesMu P) mu rc ->
  holds mem pk (pkBytes P) PK -> bytes_ok PK ->
  region mem ct (ctBytes P) -> region mem ss (pCB P) -> disjoint ct (ctBytes P) pk (pkBytes P) ->
  let '(CT, SS) := Encaps P (cGen C) PK mu in
  exists l, right_or_abort ok plan (stored (stored mem ct CT) ss SS, l, 0) (evp_enc ok C rb mem ct ss pk []).
Proof.
  intros C HA V Hn Hb P. exists (encdec_plan C). split; [apply plans_proper; auto|].
  intros ok rb rc mem ct ss pk PK mu Hmu Hrb Hpk BPK Hct Hss Hd.
  pose proof (C05_enc C rb rc mem ct ss pk PK mu V Hb Hmu Hrb Hpk BPK Hct Hss Hd) as H. cbv zeta in H. fold P in H.
  destruct (Encaps P (cGen C) PK mu) as [CT SS]. destruct H as (l & H). exists l.
  eapply follows_right; [apply enc_follows, HA|exact H].
Qed.
Print Assumptions C44_enc.
(** crypto_kem_dec *)
Theorem C44_dec : forall C, cAes C = AesEVP -> valid (cP C) -> pN (cP C) < 32768 -> build_ok C ->
  let P := cP C in
  exists plan, proper_use (cGen C) (pN P) plan /\
  forall ok mem ss ct sk CT SK,
  holds mem sk (skBytes P) SK -> bytes_ok SK -> sk mod 2 = 0 ->
  holds mem ct (ctBytes P) CT -> bytes_ok CT -> region mem ss (pCB P) ->
  exists l, right_or_abort ok plan (stored mem ss (Decaps P (cGen C) SK CT), l, 0) (evp_dec ok C mem ss ct sk []).
Proof.
  intros C HA V Hn Hb P. exists (encdec_plan C). split; [apply plans_proper; auto|].
  intros ok mem ss ct sk CT SK Hsk BSK Hal Hct BCT Hss.
  destruct (C05_dec C mem ss ct sk CT SK V Hb Hsk BSK Hal Hct BCT Hss) as (l & H). exists l.
  eapply follows_right; [apply dec_follows, HA|exact H].
Qed.
Print Assumptions C44_dec.

(** The block cipher call of the known-answer tests' generator (tests/rng.h). *)
Theorem C44_aes256_ecb : forall ok key ctr buf, bytestr 32 key -> bytestr 16 ctr -> zlen buf = 16 ->
  right_or_abort ok [CtxNew; EncryptInit; EncryptUpdate 16; CtxFree] (AES256 key ctr) (evp_AES256_ECB ok key ctr buf []).
Proof.
  intros ok key ctr buf (Lk & Bk) (Lc & Bc) Lb. eapply follows_right; [apply ecb_follows|].
  destruct (wp_returns_ex _ _ (AES256_ECB_wp AesEVP key ctr buf Lk Bk Lc Bc Lb)) as (r & H & ->). exact H.
Qed.
Print Assumptions C44_aes256_ecb.

(** What [right_or_abort] means to a caller who gets control back: every call of the library
    succeeded, no context is left, and the value is the right one. *)
Theorem C44_returned : forall A ok plan (v w : A) o cs, right_or_abort ok plan v o -> o = Returns w cs ->
  w = v /\ cs = plan /\ forall k c, nth_error plan k = Some c -> can_fail c -> ok (Z.of_nat k) = true.
Proof.
  intros A ok plan v w o cs [(-> & H)|(k & c & _ & _ & _ & _ & ->)] E; [|discriminate]. injection E as <- <-. auto.
Qed.
Print Assumptions C44_returned.
(** A failed call leads to abort(): the function does not return. *)
Theorem C44_failed : forall A ok plan (v : A) o k c, right_or_abort ok plan v o ->
  nth_error plan k = Some c -> can_fail c -> ok (Z.of_nat k) = false -> exists j, (j <= k)%nat /\ o = Aborts (firstn (j + 1) plan).
Proof.
  intros A ok plan v o k c [(-> & H)|(j & d & H1 & H2 & H3 & H4 & ->)] Hk Hc Hf.
  - rewrite (H k c Hk Hc) in Hf. discriminate.
  - exists j. split; [|reflexivity]. destruct (le_lt_dec j k) as [|Hlt]; [assumption|]. rewrite (H4 k c Hlt Hk Hc) in Hf. discriminate.
Qed.
Print Assumptions C44_failed.

(** A setting: FrodoKEM-640-AES, optimized build with OpenSSL.  If the third encryption fails
    (call number 4), the process aborts with five calls made and the context still open; if
    nothing fails, 163 calls are made. *)
Definition C640evp : config := {| cP := frodo640; cEn := LE; cImpl := Optimized; cGen := GenAES; cAes := AesEVP |}.
Definition rand640 : generator := fun buf n => Ok (ztab n (fun i => (i * 7 + 3) mod 256), 0) [].
Example C44_hyps :
  let r := ztab 48 (fun i => (i * 7 + 3) mod 256) in
  cAes C640evp = AesEVP /\ valid (cP C640evp) /\ pN (cP C640evp) < 32768 /\ build_ok C640evp /\
  bytestr 16 (zslice r 0 16) /\ bytestr 16 (zslice r 16 16) /\ bytestr 16 (zslice r 32 16) /\
  delivers rand640 48 (zslice r 0 16 ++ zslice r 16 16 ++ zslice r 32 16) 0 /\
  region (uninit 40000) 16 (pkBytes frodo640) /\ region (uninit 40000) 10000 (skBytes frodo640) /\
  disjoint 16 (pkBytes frodo640) 10000 (skBytes frodo640).
Proof.
  intros r. assert (Lr : zlen r = 48) by (apply zlen_ztab; lia).
  assert (Br : bytes_ok r) by (apply inrange_ztab; intros; apply mod256).
  assert (L : zlen (uninit 40000) = 40000) by (apply zlen_uninit; lia).
  split; [reflexivity|]. split; [apply valid_640|]. split; [reflexivity|]. split; [intros _; reflexivity|].
  repeat split; try (apply zlen_zslice; lia); try (apply inrange_zslice; exact Br);
    try (unfold region; rewrite L); try (unfold disjoint); try (cbn; lia).
  exists []. reflexivity.
Qed.
Example C44_abort : evp_keypair (fun k => negb (k =? 4)) C640evp rand640 (uninit 40000) 16 10000 [] =
  Aborts [CtxNew; EncryptInit; EncryptUpdate 5120; EncryptUpdate 5120; EncryptUpdate 5120].
Proof.
  destruct C44_hyps as (HA & V & Hn & Hb & H1 & H2 & H3 & H4 & H5 & H6 & H7).
  pose proof (C05_keypair C640evp rand640 0 (uninit 40000) 16 10000 _ _ _ V H1 H2 H3 H4 H5 H6 H7) as H. cbv zeta in H.
  destruct (KeyGen _ _ _ _ _) as [PK SK]. destruct H as (l & H).
  rewrite (keypair_follows (fun k => negb (k =? 4)) C640evp HA _ _ _ _ _ H []). reflexivity.
Qed.
Example C44_calls : length (keypair_plan C640evp) = 163%nat /\ length (encdec_plan C640evp) = 83%nat.
Proof. split; reflexivity. Qed.
