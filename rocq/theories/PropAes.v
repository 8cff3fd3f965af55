(** Property C08: src/aes/ computes FIPS 197 (AesSpec.v). *)
From Verif Require Import CSem Params Aes AesSpec AesProofs AesProofs2.

Lemma concat_16 n (f : Z -> list Z) : 0 <= n -> (forall i, 0 <= i < n -> zlen (f i) = 16) ->
  concat (ztab n f) = ztab (16 * n) (fun j => znth (f (j / 16)) (j mod 16)).
Proof.
  intros Hn; pattern n; apply natlike_ind; [| |exact Hn].
  - reflexivity.
  - intros m Hm IH Hf; unfold ztab at 1, zseq.
    replace (Z.to_nat (Z.succ m)) with (Z.to_nat m + 1)%nat by lia.
    rewrite seq_app, !map_app, concat_app; cbn [seq map concat Nat.add].
    change (concat (map f (map Z.of_nat (seq 0 (Z.to_nat m))))) with (concat (ztab m f)).
    rewrite IH by (intros; apply Hf; lia).
    rewrite Z2Nat.id, app_nil_r by lia.
    specialize (Hf m ltac:(lia)).
    apply list_ext; rewrite zlen_app, ?zlen_ztab by lia; [lia|].
    intros i Hi; rewrite znth_app, zlen_ztab by lia.
    rewrite (znth_ztab (16 * Z.succ m)) by lia.
    destruct (Z.ltb_spec i (16 * m)); [rewrite znth_ztab by lia; reflexivity|].
    replace (i / 16) with m by dlia; f_equal; dlia.
Qed.

Section ECBspec.
Variables (Nk Nr : Z) (key : list Z).
Hypothesis HN : Nk = 4 /\ Nr = 10 \/ Nk = 8 /\ Nr = 14.
Hypothesis Hlen : zlen key = 4 * Nk.
Hypothesis Hkey : bytes_ok key.
Lemma ECB_spec_ECB inp n : 0 <= n -> zlen inp = 16 * n -> bytes_ok inp ->
  ECB_spec Nk Nr key inp n = ECB (Cipher_spec Nr (KeyExpansion Nk Nr key)) inp.
Proof.
  intros Hn Hl Hb; unfold ECB, ECB_spec.
  replace (zlen inp / 16) with n by (rewrite Hl; dlia).
  rewrite (concat_16 n); [reflexivity|exact Hn|].
  intros i Hi; apply (Cipher_spec_ok Nk Nr key HN Hlen Hkey).
  split; [rewrite zlen_zslice by lia; reflexivity|apply inrange_zslice; exact Hb].
Qed.
End ECBspec.

Lemma len16 (l : list Z) : zlen l mod 16 = 0 -> exists n, 0 <= n /\ zlen l = 16 * n.
Proof. intros H; exists (zlen l / 16); pose proof (zlen_nonneg l); split; dlia. Qed.

(** ** C08: the code as its callers use it -- expand the key into the schedule
    buffer, encrypt any number of blocks -- gives ECB mode of AES, for the portable
    and the AES-NI implementation, whatever the buffers held before. *)
Theorem C08_aes128 : forall im key sch plain cipher,
  zlen key = 16 -> bytes_ok key -> zlen sch = 176 ->
  zlen plain mod 16 = 0 -> bytes_ok plain -> zlen cipher = zlen plain ->
  returns (sch <- AES128_load_schedule im key sch ;;
           AES_ECB_enc_sch im 10 plain (zlen plain) sch cipher)
          (ECB (AES128 key) plain).
Proof.
  intros im key sch plain cipher Hk Hkb Hs Hp Hpb Hc; apply wp_returns.
  destruct (len16 _ Hp) as (n & Hn & En).
  assert (HN : 4 = 4 /\ 10 = 10 \/ 4 = 8 /\ 10 = 14) by auto.
  apply wp_bind; eapply wp_mono with (P := sched_upto 4 10 key (16 * (10 + 1))).
  - destruct im; [apply load_schedule_c_wp|apply aes128_load_schedule_ni_wp|apply evp_init_wp]; auto.
  - intros s H; rewrite En; unfold AES128.
    change (fun b => Cipher_spec 10 (KeyExpansion 4 10 key) b) with (Cipher_spec 10 (KeyExpansion 4 10 key)).
    rewrite <- (ECB_spec_ECB 4 10 key HN Hk Hkb plain n Hn En Hpb).
    apply ECB_wp; auto; lia.
Qed.
Print Assumptions C08_aes128.
Theorem C08_aes256 : forall im key sch plain cipher,
  zlen key = 32 -> bytes_ok key -> zlen sch = 240 ->
  zlen plain mod 16 = 0 -> bytes_ok plain -> zlen cipher = zlen plain ->
  returns (sch <- AES256_load_schedule im key sch ;;
           AES_ECB_enc_sch im 14 plain (zlen plain) sch cipher)
          (ECB (AES256 key) plain).
Proof.
  intros im key sch plain cipher Hk Hkb Hs Hp Hpb Hc; apply wp_returns.
  destruct (len16 _ Hp) as (n & Hn & En).
  assert (HN : 8 = 4 /\ 14 = 10 \/ 8 = 8 /\ 14 = 14) by auto.
  apply wp_bind; eapply wp_mono with (P := sched_upto 8 14 key (16 * (14 + 1))).
  - destruct im; [apply load_schedule_c_wp|apply aes256_load_schedule_ni_wp|apply evp_init_wp]; auto.
  - intros s H; rewrite En; unfold AES256.
    change (fun b => Cipher_spec 14 (KeyExpansion 8 14 key) b) with (Cipher_spec 14 (KeyExpansion 8 14 key)).
    rewrite <- (ECB_spec_ECB 8 14 key HN Hk Hkb plain n Hn En Hpb).
    apply ECB_wp; auto; lia.
Qed.
Print Assumptions C08_aes256.

(** Encrypting a buffer onto itself, as the reference matrix code does. *)
Theorem C08_aes128_inplace : forall im key sch buf,
  zlen key = 16 -> bytes_ok key -> zlen sch = 176 -> zlen buf mod 16 = 0 -> bytes_ok buf ->
  returns (sch <- AES128_load_schedule im key sch ;;
           AES_ECB_enc_sch_inplace im 10 buf (zlen buf) sch)
          (ECB (AES128 key) buf).
Proof.
  intros im key sch buf Hk Hkb Hs Hp Hpb; apply wp_returns.
  destruct (len16 _ Hp) as (n & Hn & En).
  assert (HN : 4 = 4 /\ 10 = 10 \/ 4 = 8 /\ 10 = 14) by auto.
  apply wp_bind; eapply wp_mono with (P := sched_upto 4 10 key (16 * (10 + 1))).
  - destruct im; [apply load_schedule_c_wp|apply aes128_load_schedule_ni_wp|apply evp_init_wp]; auto.
  - intros s H; rewrite En; unfold AES128.
    change (fun b => Cipher_spec 10 (KeyExpansion 4 10 key) b) with (Cipher_spec 10 (KeyExpansion 4 10 key)).
    rewrite <- (ECB_spec_ECB 4 10 key HN Hk Hkb buf n Hn En Hpb).
    apply ECB_inplace_wp; auto; lia.
Qed.
Print Assumptions C08_aes128_inplace.
Theorem C08_aes256_inplace : forall im key sch buf,
  zlen key = 32 -> bytes_ok key -> zlen sch = 240 -> zlen buf mod 16 = 0 -> bytes_ok buf ->
  returns (sch <- AES256_load_schedule im key sch ;;
           AES_ECB_enc_sch_inplace im 14 buf (zlen buf) sch)
          (ECB (AES256 key) buf).
Proof.
  intros im key sch buf Hk Hkb Hs Hp Hpb; apply wp_returns.
  destruct (len16 _ Hp) as (n & Hn & En).
  assert (HN : 8 = 4 /\ 14 = 10 \/ 8 = 8 /\ 14 = 14) by auto.
  apply wp_bind; eapply wp_mono with (P := sched_upto 8 14 key (16 * (14 + 1))).
  - destruct im; [apply load_schedule_c_wp|apply aes256_load_schedule_ni_wp|apply evp_init_wp]; auto.
  - intros s H; rewrite En; unfold AES256.
    change (fun b => Cipher_spec 14 (KeyExpansion 8 14 key) b) with (Cipher_spec 14 (KeyExpansion 8 14 key)).
    rewrite <- (ECB_spec_ECB 8 14 key HN Hk Hkb buf n Hn En Hpb).
    apply ECB_inplace_wp; auto; lia.
Qed.
Print Assumptions C08_aes256_inplace.

(** The two schedules are the same bytes: the FIPS 197 round keys in order. *)
Theorem C08_schedules : forall im key sch,
  (zlen key = 16 -> bytes_ok key -> zlen sch = 176 ->
   returns (AES128_load_schedule im key sch) (concat (KeyExpansion 4 10 key))) /\
  (zlen key = 32 -> bytes_ok key -> zlen sch = 240 ->
   returns (AES256_load_schedule im key sch) (concat (KeyExpansion 8 14 key))).
Proof.
  assert (K : forall Nk Nr key s, (Nk = 4 /\ Nr = 10 \/ Nk = 8 /\ Nr = 14) -> zlen key = 4 * Nk ->
    sched_upto Nk Nr key (16 * (Nr + 1)) s -> s = concat (KeyExpansion Nk Nr key)).
  { intros Nk Nr key s HN Hl (L & E).
    assert (LW : zlen (KeyExpansion Nk Nr key) = 4 * (Nr + 1)).
    { unfold KeyExpansion; rewrite zlen_expand, zlen_ztab; lia. }
    assert (C4 : forall w : list (list Z), (forall i, 0 <= i < zlen w -> zlen (word w i) = 4) ->
       zlen (concat w) = 4 * zlen w /\ forall j, 0 <= j < 4 * zlen w -> znth (concat w) j = znth (word w (j / 4)) (j mod 4)).
    { induction w as [|x w IH]; intros H.
      - split; [reflexivity|intros j Hj; change (zlen []) with 0 in Hj; lia].
      - pose proof (zlen_nonneg w).
        assert (Hx : zlen x = 4) by (apply (H 0); rewrite zlen_cons; lia).
        assert (W1 : forall i, 0 <= i < zlen w -> word (x :: w) (i + 1) = word w i).
        { intros i Hi; unfold word; replace (Z.to_nat (i + 1)) with (S (Z.to_nat i)) by lia; reflexivity. }
        destruct IH as (IH1 & IH2).
        { intros i Hi; rewrite <- W1 by exact Hi; apply H; rewrite zlen_cons; lia. }
        cbn [concat]; rewrite zlen_app, zlen_cons, Hx; split; [lia|].
        intros j Hj; rewrite znth_app, Hx; destruct (Z.ltb_spec j 4).
        + rewrite Z.div_small, Z.mod_small by lia; reflexivity.
        + rewrite IH2 by lia. replace (j / 4) with ((j - 4) / 4 + 1) by dlia.
          rewrite W1 by dlia; f_equal; dlia. }
    destruct (C4 (KeyExpansion Nk Nr key)) as (C1 & C2).
    { intros i Hi; apply word_W_len; auto; lia. }
    apply list_ext; [lia|]; intros j Hj; rewrite E by lia; rewrite C2 by lia; reflexivity. }
  intros im key sch; split; intros Hk Hb Hs; apply wp_returns.
  - assert (HN : 4 = 4 /\ 10 = 10 \/ 4 = 8 /\ 10 = 14) by auto.
    eapply wp_mono with (P := sched_upto 4 10 key (16 * (10 + 1))).
    + destruct im; [apply load_schedule_c_wp|apply aes128_load_schedule_ni_wp|apply evp_init_wp]; auto.
    + intros s H; apply K; auto.
  - assert (HN : 8 = 4 /\ 14 = 10 \/ 8 = 8 /\ 14 = 14) by auto.
    eapply wp_mono with (P := sched_upto 8 14 key (16 * (14 + 1))).
    + destruct im; [apply load_schedule_c_wp|apply aes256_load_schedule_ni_wp|apply evp_init_wp]; auto.
    + intros s H; apply K; auto.
Qed.
Print Assumptions C08_schedules.

(** Non-vacuity: two different blocks under the FIPS 197 key, in place. *)
Example C08_nonvacuous :
  returns (sch <- AES128_load_schedule AesC (zseq 16) (uninit 176) ;;
           AES_ECB_enc_sch_inplace AesC 10 (ztab 32 (fun i => 17 * (i mod 16))) 32 sch)
    (let c := [0x69; 0xc4; 0xe0; 0xd8; 0x6a; 0x7b; 0x04; 0x30; 0xd8; 0xcd; 0xb7; 0x80; 0x70; 0xb4; 0xc5; 0x5a] in c ++ c).
Proof. eexists; vm_compute; reflexivity. Qed.
