(** Traces of kem.c. *)
From Verif Require Import CSem Params Util Fips202 Aes Macrify KeccakSpec UtilSpec MatrixSpec FrodoSpec Kem KemProofs KemWp LowProofs.

Lemma low_sub_eq l1 l2 o n : low (sub l1 o n) (sub l2 o n) (fun a b => samelen a b /\ a = zslice l1 o n /\ b = zslice l2 o n).
Proof.
  intros a1 t1 a2 t2 E1 E2. destruct (low_sub l1 l2 o n _ _ _ _ E1 E2) as (-> & H & _). split; [reflexivity|split; [exact H|]].
  unfold sub in *. destruct (_ && _ && _); [|discriminate]. destruct (_ && _ && _); [|discriminate].
  inversion E1; inversion E2; subst; auto.
Qed.
Lemma low_memcpy_in m1 m2 d s n : samelen m1 m2 -> low (memcpy_in m1 d s n) (memcpy_in m2 d s n) samelen.
Proof. intros. unfold memcpy_in. destruct (_ || _); [now apply low_memcpy|apply low_fail_l]. Qed.
Lemma low_shake_to P m1 m2 o n i1 i2 k : samelen m1 m2 -> low (shake_to P m1 o n i1 k) (shake_to P m2 o n i2 k) samelen.
Proof. intros. unfold shake_to. lows. Qed.
Lemma low_shake_words C s1 s2 n i1 i2 k : samelen s1 s2 -> low (shake_words C s1 n i1 k) (shake_words C s2 n i2 k) samelen.
Proof. intros. unfold shake_words. lows. Qed.
Lemma low_sample_at P s1 s2 o n : samelen s1 s2 -> low (sample_at P s1 o n) (sample_at P s2 o n) samelen.
Proof. intros. unfold sample_at. lows. Qed.
Lemma low_clear_words en s1 s2 o n : samelen s1 s2 -> low (clear_words en s1 o n) (clear_words en s2 o n) samelen.
Proof. intros. unfold clear_words. lows. Qed.
Lemma low_clear_at s1 s2 o n : samelen s1 s2 -> low (clear_at s1 o n) (clear_at s2 o n) samelen.
Proof. intros. unfold clear_at. lows. Qed.
Lemma low_host_to_le en s1 s2 n : samelen s1 s2 -> low (host_to_le en s1 n) (host_to_le en s2 n) samelen.
Proof. intros. unfold host_to_le. apply (low_for samelen); [assumption|]. intros. lows. Qed.
Lemma low_mask_q P s1 s2 n : samelen s1 s2 -> low (mask_q P s1 n) (mask_q P s2 n) samelen.
Proof. intros. unfold mask_q. apply (low_for samelen); [assumption|]. intros. lows. Qed.
Ltac head_more ::=
  lazymatch goal with
  | |- low (memcpy_in _ _ _ _) _ _ => apply low_memcpy_in; lsolve
  | |- low (shake_to _ _ _ _ _ _) _ _ => apply low_shake_to; lsolve
  | |- low (shake_words _ _ _ _ _) _ _ => apply low_shake_words; lsolve
  | |- low (sample_at _ _ _ _) _ _ => apply low_sample_at; lsolve
  | |- low (clear_words _ _ _ _) _ _ => apply low_clear_words; lsolve
  | |- low (clear_at _ _ _) _ _ => apply low_clear_at; lsolve
  | |- low (host_to_le _ _ _) _ _ => apply low_host_to_le; lsolve
  | |- low (le_to_host _ _ _) _ _ => apply low_le_to_host; lsolve
  | |- low (mask_q _ _ _) _ _ => apply low_mask_q; lsolve
  | |- low (frodo_pack _ _ _ _ _) _ _ => apply low_pack; lsolve
  | |- low (frodo_unpack _ _ _ _ _) _ _ => apply low_unpack; lsolve
  | |- low (frodo_mul_bs _ _ _ _) _ _ => apply low_mul_bs; lsolve
  | |- low (frodo_mul_add_sb_plus_e _ _ _ _ _) _ _ => apply low_sb_plus_e; lsolve
  | |- low (frodo_add _ _ _) _ _ => apply low_add; lsolve
  | |- low (frodo_sub _ _ _) _ _ => apply low_fsub; lsolve
  | |- low (frodo_key_encode _ _ _) _ _ => apply low_key_encode; lsolve
  | |- low (frodo_key_decode _ _ _) _ _ => apply low_key_decode; lsolve
  | |- low (ct_verify _ _ _) _ _ => apply low_ct_verify
  | |- low (ct_select _ _ _ _ _) _ _ => apply low_ct_select; lsolve
  | |- low (as_plus_e _ _ _ _ _) _ _ => apply low_as_plus_e; [assumption|lsolve]
  end.

Definition mem_rel {L} (a b : list Z * L * Z) : Prop := samelen (fst (fst a)) (fst (fst b)).
(** The generator's result for the buffer it is given. *)
Lemma low_gen {A} (m1 m2 : res A) v1 v2 t : m1 = Ok v1 t -> m2 = Ok v2 t -> low m1 m2 (fun a b => a = v1 /\ b = v2).
Proof. intros -> -> a1 t1 a2 t2 E1 E2. inversion E1; inversion E2; subst; auto. Qed.

Section Low.
Context (C : config) (V : valid (cP C)).
Let P := cP C.
Theorem low_dec m1 m2 ss ct sk : samelen m1 m2 ->
  seed_rel (cGen C) (cAes C) (zslice m1 (sk + pCB P) 16) (zslice m2 (sk + pCB P) 16) ->
  low (crypto_kem_dec C m1 ss ct sk) (crypto_kem_dec C m2 ss ct sk) mem_rel.
Proof.
  intros Hm E. unfold crypto_kem_dec. cbv zeta. fold P.
  eapply low_bind with (R := samelen).
  { destruct (_ =? 0); [|apply low_fail_l]. eapply low_mono; [apply low_sub|]. intros a b H; apply H. }
  intros x1 x2 Hx. eapply low_bind; [apply (low_for samelen); [reflexivity|]; intros; lows|]. intros S1 S2 HS.
  do 19 lowstep.
  eapply low_bind; [apply low_sub_eq|]. intros sd1 sd2 (_ & -> & ->).
  eapply low_bind; [apply low_sa_plus_e; [exact E|lsolve|lsolve]|]. intros [? ?] [? ?] (? & ?). cbn [fst snd] in *.
  repeat lowstep. assumption.
Qed.
Theorem low_enc rb1 rb2 m1 m2 ct ss pk mu1 mu2 rc1 rc2 t : samelen m1 m2 ->
  0 <= pk -> pk + pkBytes P <= zlen m1 ->
  bytes_ok (zslice m1 pk (pkBytes P)) -> bytes_ok (zslice m2 pk (pkBytes P)) ->
  seed_rel (cGen C) (cAes C) (zslice m1 pk 16) (zslice m2 pk 16) ->
  zlen mu1 = bytesMu P -> zlen mu2 = bytesMu P ->
  rb1 (uninit (bytesMu P)) (bytesMu P) = Ok (mu1, rc1) t ->
  rb2 (uninit (bytesMu P)) (bytesMu P) = Ok (mu2, rc2) t ->
  low (crypto_kem_enc C rb1 m1 ct ss pk) (crypto_kem_enc C rb2 m2 ct ss pk) mem_rel.
Proof.
  intros Hm Hpk Hpk2 B1 B2 E L1 L2 G1 G2. unfold samelen in Hm.
  destruct (sizes C V) as (HN & HD & HB & HCB & ENN & EbB & HDN & EbC & EbMu & Epk & Esk & Ect & Esp & EH).
  fold P in HN, HD, HB, HCB, ENN, EbB, HDN, EbC, EbMu, Epk, Esk, Ect, Esp, EH. unfold crypto_kem_enc. cbv zeta. fold P.
  eapply low_bind; [apply low_sub_eq|]. intros x1 x2 (Hx & -> & ->).
  assert (EU : uninit (pCB P + bytesMu P) = uninit (pCB P) ++ uninit (bytesMu P)) by (symmetry; apply zrep_app; lia).
  rewrite EH at 1 2.
  assert (W : forall inp, bytes_ok inp -> zlen inp = pkBytes P -> wp (shake_to P (uninit (pCB P + bytesMu P)) 0 (bytesH P) inp (pkBytes P))
      (fun G => G = Hash P inp (pCB P) ++ uninit (bytesMu P))).
  { intros inp Hb Hl. rewrite EH. apply (shake_to_mid C V _ [] (uninit (pCB P)) (uninit (bytesMu P)));
      [exact EU|reflexivity|rewrite zlen_uninit; lia|exact Hb|auto|]. reflexivity. }
  eapply low_bind_wp; [apply low_shake_to; reflexivity|apply W; [exact B1|apply zlen_zslice; lia]|apply W; [exact B2|apply zlen_zslice; lia]|].
  intros G1' G2' _ -> ->.
  set (h1 := Hash P _ _). set (h2 := Hash P _ _).
  assert (Lh1 : zlen h1 = pCB P) by (apply (zlen_Hash C V); lia).
  assert (Lh2 : zlen h2 = pCB P) by (apply (zlen_Hash C V); lia).
  eapply low_bind; [apply low_sub_eq|]. intros u1 u2 (Hu & -> & ->). rewrite EH.
  assert (SU : forall h, zlen h = pCB P -> zslice (h ++ uninit (bytesMu P)) (pCB P) (bytesMu P) = uninit (bytesMu P)).
  { intros h Hh. rewrite <- (app_nil_r (h ++ _)), <- app_assoc. apply zslice_mid; [lia|rewrite zlen_uninit; lia]. }
  rewrite !SU by assumption.
  eapply low_bind; [eapply low_gen; eassumption|]. intros [? ?] [? ?] (E1 & E2). inversion E1; inversion E2; subst. clear E1 E2.
  assert (samelen mu1 mu2) by (unfold samelen in *; lia).
  assert (samelen (h1 ++ uninit (bytesMu P)) (h2 ++ uninit (bytesMu P))) by (unfold samelen; rewrite !zlen_app; lia).
  assert (samelen m1 m2) by exact Hm.
  do 10 lowstep.
  eapply low_bind; [apply low_sub_eq|]. intros sd1 sd2 (_ & -> & ->).
  eapply low_bind; [apply low_sa_plus_e; [exact E|lsolve|lsolve]|]. intros [? ?] [? ?] (? & ?). cbn [fst snd] in *.
  repeat lowstep. assumption.
Qed.
Theorem low_keypair rb1 rb2 m1 m2 pk sk r1 r2 rc1 rc2 t : samelen m1 m2 ->
  let n := 2 * pCB P + 16 in
  0 <= pk -> pk + pkBytes P <= zlen m1 ->
  zlen r1 = n -> zlen r2 = n -> bytes_ok r1 -> bytes_ok r2 ->
  rb1 (uninit n) n = Ok (r1, rc1) t -> rb2 (uninit n) n = Ok (r2, rc2) t ->
  seed_rel (cGen C) (cAes C) (zslice r1 (2 * pCB P) 16) (zslice r2 (2 * pCB P) 16) ->
  low (crypto_kem_keypair C rb1 m1 pk sk) (crypto_kem_keypair C rb2 m2 pk sk) mem_rel.
Proof.
  intros Hm n Hpk Hpk2 L1 L2 B1 B2 G1 G2 E. unfold samelen in Hm. subst n.
  destruct (sizes C V) as (HN & HD & HB & HCB & ENN & EbB & HDN & EbC & EbMu & Epk & Esk & Ect & Esp & EH).
  fold P in HN, HD, HB, HCB, ENN, EbB, HDN, EbC, EbMu, Epk, Esk, Ect, Esp, EH. unfold crypto_kem_keypair. cbv zeta. unfold SEEDA. fold P.
  replace (pCB P + pCB P + 16) with (2 * pCB P + 16) by lia.
  eapply low_bind; [eapply low_gen; eassumption|]. intros [? ?] [? ?] (E1 & E2). inversion E1; inversion E2; subst. clear E1 E2.
  eapply low_bind; [apply low_sub_eq|]. intros z1 z2 (Hz & -> & ->).
  set (z1 := zslice r1 _ 16) in *. set (z2 := zslice r2 _ 16) in *.
  assert (W : forall m z, bytes_ok z -> zlen z = 16 -> zlen m = zlen m1 -> wp (shake_to P m pk 16 z 16)
      (fun m' => m' = zsplice m pk (Hash P z 16))).
  { intros m z Hb Hl Hm'. apply (shake_to_wp C V); auto; lia. }
  assert (Bz1 : bytes_ok z1) by (apply inrange_zslice; assumption).
  assert (Bz2 : bytes_ok z2) by (apply inrange_zslice; assumption).
  assert (Lz1 : zlen z1 = 16) by (apply zlen_zslice; lia).
  assert (Lz2 : zlen z2 = 16) by (apply zlen_zslice; lia).
  eapply low_bind_wp; [apply low_shake_to; exact Hm|apply W; auto|apply W; auto|].
  intros n1 n2 Hn E1 E2. 
  assert (samelen r1 r2) by (unfold samelen; lia).
  do 8 lowstep.
  eapply low_bind; [apply low_sub_eq|]. intros sd1 sd2 (_ & Es1 & Es2).
  assert (R : forall m z, zlen m = zlen m1 -> zslice (zsplice m pk (Hash P z 16)) pk 16 = Hash P z 16).
  { intros m z Hl. apply zsplice_same_read; rewrite ?(zlen_Hash C V); lia. }
  rewrite E1, R in Es1 by reflexivity. rewrite E2, R in Es2 by auto.
  assert (E' : seed_rel (cGen C) (cAes C) sd1 sd2) by (intros Hg Ha; rewrite Es1, Es2, (E Hg Ha); reflexivity).
  clear Es1 Es2 E1 E2.
  repeat lowstep. assumption.
Qed.
End Low.
