(** C17: what an observer of the control flow and of the addresses sees.

    The trace of a run lists, in order, every branch decision, every loop bound, every index
    at which an array is read or written and every range handed to another function.  Two
    runs with the same trace take the same path and touch the same addresses.  (The time a
    single machine instruction takes is not in the model.) *)
From Verif Require Import CSem Params Util Aes Macrify FrodoSpec Kem KemProofs KemWp PropMatrix PropKem LowProofs LowKem.

(** Both computations run to the end and leave the same trace. *)
Definition same_trace {A B} (m1 : res A) (m2 : res B) : Prop := exists v1 v2 t, m1 = Ok v1 t /\ m2 = Ok v2 t.
(** Does the build look up the AES S-box at indices that depend on the seed of A?  Only the
    portable AES does. *)
Definition table_aes (C : config) : Prop := cGen C = GenAES /\ cAes C = AesC.

Lemma same_trace_low {A B} (m1 : res A) (m2 : res B) R v1 v2 : low m1 m2 R -> returns m1 v1 -> returns m2 v2 -> same_trace m1 m2.
Proof. intros H (t1 & E1) (t2 & E2). destruct (H _ _ _ _ E1 E2) as (-> & _). exists v1, v2, t2; auto. Qed.
Lemma seed_rel_of C a b : (table_aes C -> a = b) -> seed_rel (cGen C) (cAes C) a b.
Proof. intros H Hg Ha; apply H; split; assumption. Qed.

(** Decapsulation: any two ciphertexts, any two secret keys, accepted or rejected.  With the
    portable AES the public seeds of A in the two keys have to agree. *)
Theorem C17_dec : forall C mem1 mem2 ss ct sk CT1 SK1 CT2 SK2,
  let P := cP C in
  valid P -> build_ok C -> zlen mem1 = zlen mem2 ->
  holds mem1 sk (skBytes P) SK1 -> holds mem2 sk (skBytes P) SK2 -> bytes_ok SK1 -> bytes_ok SK2 -> sk mod 2 = 0 ->
  holds mem1 ct (ctBytes P) CT1 -> holds mem2 ct (ctBytes P) CT2 -> bytes_ok CT1 -> bytes_ok CT2 ->
  region mem1 ss (pCB P) ->
  (table_aes C -> part SK1 (pCB P) 16 = part SK2 (pCB P) 16) ->
  same_trace (crypto_kem_dec C mem1 ss ct sk) (crypto_kem_dec C mem2 ss ct sk).
Proof.
  intros C mem1 mem2 ss ct sk CT1 SK1 CT2 SK2 P V Hb Hm Hk1 Hk2 Bk1 Bk2 Hal Hc1 Hc2 Bc1 Bc2 Hss E.
  assert (Hss2 : region mem2 ss (pCB P)) by (unfold region in *; lia).
  destruct (C05_dec C mem1 ss ct sk CT1 SK1 V Hb Hk1 Bk1 Hal Hc1 Bc1 Hss) as (l1 & R1).
  destruct (C05_dec C mem2 ss ct sk CT2 SK2 V Hb Hk2 Bk2 Hal Hc2 Bc2 Hss2) as (l2 & R2).
  eapply same_trace_low; [|exact R1|exact R2]. apply low_dec; [exact Hm|]. apply seed_rel_of. intros Ht.
  destruct (sizes C V) as (HN & HD & HB & HCB & ENN & EbB & HDN & EbC & EbMu & Epk & Esk & Ect & Esp & EH).
  destruct Hk1 as ((K1 & K2) & <-), Hk2 as (_ & <-). specialize (E Ht). fold P in Esk, HCB, HN, HDN.
  rewrite !part_mem in E by lia. exact E.
Qed.
Print Assumptions C17_dec.
(** Encapsulation: any two public keys, any two messages. *)
Theorem C17_enc : forall C rb1 rb2 rc1 rc2 t mem1 mem2 ct ss pk PK1 PK2 mu1 mu2,
  let P := cP C in
  valid P -> build_ok C -> zlen mem1 = zlen mem2 ->
  bytestr (bytesMu P) mu1 -> bytestr (bytesMu P) mu2 ->
  rb1 (uninit (bytesMu P)) (bytesMu P) = Ok (mu1, rc1) t ->
  rb2 (uninit (bytesMu P)) (bytesMu P) = Ok (mu2, rc2) t ->
  holds mem1 pk (pkBytes P) PK1 -> holds mem2 pk (pkBytes P) PK2 -> bytes_ok PK1 -> bytes_ok PK2 ->
  region mem1 ct (ctBytes P) -> region mem1 ss (pCB P) -> disjoint ct (ctBytes P) pk (pkBytes P) ->
  (table_aes C -> part PK1 0 16 = part PK2 0 16) ->
  same_trace (crypto_kem_enc C rb1 mem1 ct ss pk) (crypto_kem_enc C rb2 mem2 ct ss pk).
Proof.
  intros C rb1 rb2 rc1 rc2 t mem1 mem2 ct ss pk PK1 PK2 mu1 mu2 P V Hb Hm Hmu1 Hmu2 G1 G2 Hk1 Hk2 Bk1 Bk2 Hct Hss Hd E.
  assert (Hss2 : region mem2 ss (pCB P)) by (unfold region in *; lia).
  assert (Hct2 : region mem2 ct (ctBytes P)) by (unfold region in *; lia).
  pose proof (C05_enc C rb1 rc1 mem1 ct ss pk PK1 mu1 V Hb Hmu1 (ex_intro _ t G1) Hk1 Bk1 Hct Hss Hd) as R1.
  pose proof (C05_enc C rb2 rc2 mem2 ct ss pk PK2 mu2 V Hb Hmu2 (ex_intro _ t G2) Hk2 Bk2 Hct2 Hss2 Hd) as R2.
  destruct (Encaps _ _ PK1 mu1) as [c1 k1], (Encaps _ _ PK2 mu2) as [c2 k2]. destruct R1 as (l1 & R1), R2 as (l2 & R2).
  destruct (sizes C V) as (HN & HD & HB & HCB & ENN & EbB & HDN & EbC & EbMu & Epk & Esk & Ect & Esp & EH).
  fold P in HDN, Epk. destruct Hk1 as ((K1 & K2) & <-), Hk2 as (_ & <-).
  eapply same_trace_low; [|exact R1|exact R2].
  apply (low_enc C V _ _ _ _ _ _ _ mu1 mu2 rc1 rc2 t Hm K1 K2 Bk1 Bk2); [|apply Hmu1|apply Hmu2|exact G1|exact G2].
  apply seed_rel_of. intros Ht. specialize (E Ht). rewrite !part_mem in E by lia. rewrite Z.add_0_r in E. exact E.
Qed.
Print Assumptions C17_enc.
(** Key generation: any two sets of random bytes.  [z] is the part from which the public seed
    of A is derived. *)
Theorem C17_keypair : forall C rb1 rb2 rc1 rc2 t mem1 mem2 pk sk s1 seedSE1 z1 s2 seedSE2 z2,
  let P := cP C in
  let n := 2 * pCB P + 16 in
  valid P -> zlen mem1 = zlen mem2 ->
  bytestr (pCB P) s1 -> bytestr (pCB P) seedSE1 -> bytestr 16 z1 ->
  bytestr (pCB P) s2 -> bytestr (pCB P) seedSE2 -> bytestr 16 z2 ->
  rb1 (uninit n) n = Ok (s1 ++ seedSE1 ++ z1, rc1) t ->
  rb2 (uninit n) n = Ok (s2 ++ seedSE2 ++ z2, rc2) t ->
  region mem1 pk (pkBytes P) -> region mem1 sk (skBytes P) -> disjoint pk (pkBytes P) sk (skBytes P) ->
  (table_aes C -> z1 = z2) ->
  same_trace (crypto_kem_keypair C rb1 mem1 pk sk) (crypto_kem_keypair C rb2 mem2 pk sk).
Proof.
  intros C rb1 rb2 rc1 rc2 t mem1 mem2 pk sk s1 e1 z1 s2 e2 z2 P n V Hm Hs1 He1 Hz1 Hs2 He2 Hz2 G1 G2 Hpk Hsk Hd E.
  assert (Hpk2 : region mem2 pk (pkBytes P)) by (unfold region in *; lia).
  assert (Hsk2 : region mem2 sk (skBytes P)) by (unfold region in *; lia).
  pose proof (C05_keypair C rb1 rc1 mem1 pk sk s1 e1 z1 V Hs1 He1 Hz1 (ex_intro _ t G1) Hpk Hsk Hd) as R1.
  pose proof (C05_keypair C rb2 rc2 mem2 pk sk s2 e2 z2 V Hs2 He2 Hz2 (ex_intro _ t G2) Hpk2 Hsk2 Hd) as R2.
  destruct (KeyGen _ _ s1 e1 z1) as [p1 q1], (KeyGen _ _ s2 e2 z2) as [p2 q2]. destruct R1 as (l1 & R1), R2 as (l2 & R2).
  destruct Hs1 as (Ls1 & Bs1), He1 as (Le1 & Be1), Hz1 as (Lz1 & Bz1), Hs2 as (Ls2 & Bs2), He2 as (Le2 & Be2), Hz2 as (Lz2 & Bz2).
  fold P in Ls1, Le1, Ls2, Le2.
  assert (Zt : forall s e z : list Z, zlen s = pCB P -> zlen e = pCB P -> zlen z = 16 -> zslice (s ++ e ++ z) (2 * pCB P) 16 = z).
  { intros s e z A B D. rewrite <- (app_nil_r z) at 1. rewrite app_assoc. apply zslice_mid; [rewrite zlen_app; lia|lia]. }
  eapply same_trace_low; [|exact R1|exact R2].
  apply (low_keypair C V _ _ _ _ _ _ (s1 ++ e1 ++ z1) (s2 ++ e2 ++ z2) rc1 rc2 t Hm);
    [apply Hpk|apply Hpk|rewrite !zlen_app; fold P; lia|rewrite !zlen_app; fold P; lia| | |exact G1|exact G2|].
  - apply inrange_app; [assumption|apply inrange_app; assumption].
  - apply inrange_app; [assumption|apply inrange_app; assumption].
  - fold P. rewrite !Zt by assumption. apply seed_rel_of, E.
Qed.
Print Assumptions C17_keypair.

(** The hypotheses are met by two memories that differ in every byte: different keys, different
    ciphertexts, and (SHAKE build) different seeds of A. *)
Definition mem976' : list Z := ztab 100000 (fun i => (i * i + 6) mod 256).
Example C17_dec_hyps :
  zlen mem976 = zlen mem976' /\ ~ table_aes C976 /\
  holds mem976' 50000 (skBytes frodo976) (zslice mem976' 50000 31296) /\ bytes_ok (zslice mem976' 50000 31296) /\
  holds mem976' 1000 (ctBytes frodo976) (zslice mem976' 1000 15744) /\ bytes_ok (zslice mem976' 1000 15744) /\
  (forall i, 0 <= i < 100000 -> znth mem976 i <> znth mem976' i).
Proof.
  assert (L : zlen mem976' = 100000) by (apply zlen_ztab; lia).
  assert (Bm : bytes_ok mem976') by (apply inrange_ztab; intros; apply mod256).
  split; [rewrite L; apply zlen_ztab; lia|]. split; [intros (H & _); discriminate H|].
  unfold holds, region. rewrite L.
  split; [split; [split; [lia|cbn; lia]|reflexivity]|]. split; [apply inrange_zslice; exact Bm|].
  split; [split; [split; [lia|cbn; lia]|reflexivity]|]. split; [apply inrange_zslice; exact Bm|].
  intros i Hi. unfold mem976, mem976'. rewrite !znth_ztab by lia.
  intros H. pose proof (Z.div_mod (i * i + 5) 256 ltac:(lia)). pose proof (Z.div_mod (i * i + 6) 256 ltac:(lia)). lia.
Qed.

(** The condition for the portable AES cannot be dropped: expanding two seeds that differ
    leaves different traces (the S-box is read at different places). *)
Definition trace_of {A} (m : res A) : list event := match m with Ok _ t => t | Err _ => [] end.
Theorem C17_table_aes_needed : exists seed1 seed2,
  bytestr 16 seed1 /\ bytestr 16 seed2 /\
  ~ same_trace (AES128_load_schedule AesC seed1 (uninit 176)) (AES128_load_schedule AesC seed2 (uninit 176)) /\
  same_trace (AES128_load_schedule AesNI seed1 (uninit 176)) (AES128_load_schedule AesNI seed2 (uninit 176)).
Proof.
  exists (zrep 16 0), (zrep 16 1).
  split; [split; [reflexivity|repeat (constructor; [lia|]); constructor]|]. split; [split; [reflexivity|repeat (constructor; [lia|]); constructor]|]. split.
  - intros (v1 & v2 & t & E1 & E2).
    assert (T : trace_of (AES128_load_schedule AesC (zrep 16 0) (uninit 176)) = trace_of (AES128_load_schedule AesC (zrep 16 1) (uninit 176)))
      by (rewrite E1, E2; reflexivity).
    revert T. vm_compute. discriminate.
  - eexists _, _, _. split; vm_compute; reflexivity.
Qed.
Print Assumptions C17_table_aes_needed.

(** The functions through which the secrets pass, one by one: the trace depends on the sizes only. *)
Theorem C17_sample : forall cdf s1 s2 n v1 v2, zlen s1 = zlen s2 ->
  returns (frodo_sample_n cdf s1 n) v1 -> returns (frodo_sample_n cdf s2 n) v2 -> same_trace (frodo_sample_n cdf s1 n) (frodo_sample_n cdf s2 n).
Proof. intros. eapply same_trace_low; [apply low_sample_n; assumption|eassumption|eassumption]. Qed.
Theorem C17_ct_verify : forall a1 b1 a2 b2 n v1 v2,
  returns (ct_verify a1 b1 n) v1 -> returns (ct_verify a2 b2 n) v2 -> same_trace (ct_verify a1 b1 n) (ct_verify a2 b2 n).
Proof. intros. eapply same_trace_low; [apply low_ct_verify|eassumption|eassumption]. Qed.
Theorem C17_ct_select : forall r1 a1 b1 r2 a2 b2 n s1 s2 v1 v2, zlen r1 = zlen r2 ->
  returns (ct_select r1 a1 b1 n s1) v1 -> returns (ct_select r2 a2 b2 n s2) v2 ->
  same_trace (ct_select r1 a1 b1 n s1) (ct_select r2 a2 b2 n s2).
Proof. intros. eapply same_trace_low; [apply low_ct_select; assumption|eassumption|eassumption]. Qed.
Theorem C17_decode : forall P o1 o2 w1 w2 v1 v2, zlen o1 = zlen o2 ->
  returns (frodo_key_decode P o1 w1) v1 -> returns (frodo_key_decode P o2 w2) v2 ->
  same_trace (frodo_key_decode P o1 w1) (frodo_key_decode P o2 w2).
Proof. intros. eapply same_trace_low; [apply low_key_decode; assumption|eassumption|eassumption]. Qed.
Print Assumptions C17_sample.
Print Assumptions C17_ct_verify.
Print Assumptions C17_ct_select.
Print Assumptions C17_decode.
