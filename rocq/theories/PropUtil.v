(** Properties C11, C12, C14, C15, C16: packing, sampling, comparison, selection.
    [returns m v] (CSem.v): the modelled C function finishes without undefined
    behaviour and returns [v]. *)
From Coq Require Import Sorted.
From Verif Require Import CSem Params Util UtilSpec UtilProofs.

(* ------------------------------------------------------------------ *)
(** ** C12: what packing and unpacking write, bit by bit. *)

(** Bit t (most significant first) of byte m of the packed string is bit
    8m+t of the input stream (element (8m+t)/D, bit D-1-(8m+t) mod D), and 0 past
    the end of the input.  Holds for any 16-bit contents (dirty high bits), any
    lengths (short or long output buffer) and any previous buffer contents. *)
Theorem C12_pack_bits : forall D out inp m t,
  1 <= D <= 16 -> u16s_ok inp -> 0 <= m < zlen out -> 0 <= t < 8 ->
  exists r, returns (frodo_pack out (zlen out) inp (zlen inp) D) r /\
    zlen r = zlen out /\ bytes_ok r /\
    Z.testbit (znth r m) (7 - t) =
      (if 8 * m + t <? D * zlen inp
       then Z.testbit (znth inp ((8 * m + t) / D)) (D - 1 - (8 * m + t) mod D) else false).
Proof.
  intros D out inp m t HD Hi Hm Ht; exists (pack_spec D (zlen out) inp).
  split; [apply wp_returns, frodo_pack_wp; auto|].
  split; [apply zlen_repack; lia|].
  split; [apply (repack_range D 8); lia|].
  pose proof (stream_bit_repack D 8 (zlen out) inp (8 * m + t) ltac:(lia) ltac:(lia) ltac:(lia)) as H.
  destruct (Z.ltb_spec (8 * m + t) (8 * zlen out)); [|lia].
  unfold stream_bit in H at 1.
  replace ((8 * m + t) / 8) with m in H by dlia.
  replace (8 - 1 - (8 * m + t) mod 8) with (7 - t) in H by dlia.
  fold (pack_spec D (zlen out) inp) in H.
  destruct (Z.ltb_spec (8 * m + t) (D * zlen inp)).
  - unfold stream_bit in H. apply Z.b2z_inj in H; exact H.
  - unfold stream_bit in H. rewrite (znth_out inp) in H.
    + rewrite Z.testbit_0_l in H; apply Z.b2z_inj in H; exact H.
    + apply Z.div_le_lower_bound; lia.
Qed.
Print Assumptions C12_pack_bits.

Theorem C12_unpack_bits : forall D out inp m t,
  1 <= D <= 16 -> bytes_ok inp -> 0 <= m < zlen out -> 0 <= t < D ->
  exists r, returns (frodo_unpack out (zlen out) inp (zlen inp) D) r /\
    zlen r = zlen out /\ inrange (2 ^ D) r /\
    Z.testbit (znth r m) (D - 1 - t) =
      (if D * m + t <? 8 * zlen inp
       then Z.testbit (znth inp ((D * m + t) / 8)) (7 - (D * m + t) mod 8) else false).
Proof.
  intros D out inp m t HD Hi Hm Ht; exists (unpack_spec D (zlen out) inp).
  split; [apply wp_returns, frodo_unpack_wp; auto|].
  split; [apply zlen_repack; lia|].
  split; [apply (repack_range 8 D); lia|].
  pose proof (stream_bit_repack 8 D (zlen out) inp (D * m + t) ltac:(lia) ltac:(lia) ltac:(nia)) as H.
  destruct (Z.ltb_spec (D * m + t) (D * zlen out)); [|nia].
  unfold stream_bit in H at 1.
  assert (E1 : (D * m + t) / D = m) by (symmetry; apply Z.div_unique with (r := t); lia).
  assert (E2 : (D * m + t) mod D = t) by (symmetry; apply Z.mod_unique with (q := m); lia).
  rewrite E1, E2 in H.
  fold (unpack_spec D (zlen out) inp) in H.
  destruct (Z.ltb_spec (D * m + t) (8 * zlen inp)).
  - unfold stream_bit in H. apply Z.b2z_inj in H; exact H.
  - unfold stream_bit in H. rewrite (znth_out inp) in H.
    + rewrite Z.testbit_0_l in H; apply Z.b2z_inj in H; exact H.
    + apply Z.div_le_lower_bound; lia.
Qed.
Print Assumptions C12_unpack_bits.

(** Bits above D of an element never influence the packed bytes. *)
Theorem C12_high_bits_ignored : forall D out inp inp',
  1 <= D <= 16 -> u16s_ok inp -> u16s_ok inp' -> zlen inp = zlen inp' ->
  (forall i, 0 <= i < zlen inp -> znth inp i mod 2 ^ D = znth inp' i mod 2 ^ D) ->
  exists r, returns (frodo_pack out (zlen out) inp (zlen inp) D) r /\
            returns (frodo_pack out (zlen out) inp' (zlen inp') D) r.
Proof.
  intros D out inp inp' HD H1 H2 HL HE; exists (pack_spec D (zlen out) inp).
  split; [apply wp_returns, frodo_pack_wp; auto|].
  replace (pack_spec D (zlen out) inp) with (pack_spec D (zlen out) inp');
    [apply wp_returns, frodo_pack_wp; auto|].
  unfold pack_spec. rewrite <- (repack_mod D 8 _ inp), <- (repack_mod D 8 _ inp') by lia; f_equal.
  apply list_ext; rewrite !zlen_map; [lia|]. intros i Hi; rewrite !znth_map by lia.
  symmetry; apply HE; lia.
Qed.
Print Assumptions C12_high_bits_ignored.

(* ------------------------------------------------------------------ *)
(** ** C11: packing is lossless. *)
Theorem C11_unpack_pack : forall D buf buf2 v nb,
  1 <= D <= 16 -> inrange (2 ^ D) v -> zlen buf = nb -> D * zlen v <= 8 * nb -> zlen buf2 = zlen v ->
  exists bytes, returns (frodo_pack buf nb v (zlen v) D) bytes /\ zlen bytes = nb /\
                returns (frodo_unpack buf2 (zlen v) bytes nb D) v.
Proof.
  intros D buf buf2 v nb HD Hv Hb Hle Hb2.
  assert (Hv16 : u16s_ok v) by (apply inrange_mono with (2 := Hv); apply pow2_le_16; lia).
  assert (0 <= nb) by (subst; apply zlen_nonneg).
  exists (pack_spec D nb v). split; [apply wp_returns, frodo_pack_wp; auto|].
  assert (E : zlen (pack_spec D nb v) = nb) by (apply zlen_repack; lia).
  split; [exact E|].
  rewrite <- E at 2. apply wp_returns. eapply wp_mono; [apply frodo_unpack_wp; auto|].
  - apply (repack_range D 8); lia.
  - intros r ->. rewrite unpack_pack_spec by lia.
    transitivity (ztab (zlen v) (znth v)); [|symmetry; apply zlist_ztab].
    apply ztab_ext; intros m Hm; apply Z.mod_small; now apply inrange_znth.
Qed.
Print Assumptions C11_unpack_pack.

Theorem C11_pack_unpack : forall D buf buf2 bytes n,
  1 <= D <= 16 -> bytes_ok bytes -> zlen buf = n -> D * n = 8 * zlen bytes -> zlen buf2 = zlen bytes ->
  exists v, returns (frodo_unpack buf n bytes (zlen bytes) D) v /\ zlen v = n /\
            returns (frodo_pack buf2 (zlen bytes) v n D) bytes.
Proof.
  intros D buf buf2 bytes n HD Hb Hbuf HE Hb2.
  assert (0 <= n) by (subst; apply zlen_nonneg).
  exists (unpack_spec D n bytes). split; [apply wp_returns, frodo_unpack_wp; auto|].
  assert (E : zlen (unpack_spec D n bytes) = n) by (apply zlen_repack; lia).
  split; [exact E|].
  rewrite <- E at 2. apply wp_returns. eapply wp_mono; [apply frodo_pack_wp; auto|].
  - apply inrange_mono with (2 := repack_range 8 D n bytes ltac:(lia)); apply pow2_le_16; lia.
  - intros r ->. apply pack_unpack_spec; auto; lia.
Qed.
Print Assumptions C11_pack_unpack.

(** So an encoding determines the vector and conversely. *)
Theorem C11_encoding_unique : forall D buf v1 v2 r,
  1 <= D <= 16 -> inrange (2 ^ D) v1 -> inrange (2 ^ D) v2 -> zlen v1 = zlen v2 ->
  D * zlen v1 <= 8 * zlen buf ->
  returns (frodo_pack buf (zlen buf) v1 (zlen v1) D) r ->
  returns (frodo_pack buf (zlen buf) v2 (zlen v2) D) r -> v1 = v2.
Proof.
  intros D buf v1 v2 r HD H1 H2 HL Hle R1 R2.
  assert (U : forall v, inrange (2 ^ D) v -> u16s_ok v)
    by (intros v Hv; apply inrange_mono with (2 := Hv); apply pow2_le_16; lia).
  assert (E1 := returns_inj _ _ _ R1 (wp_returns _ _ (frodo_pack_wp D buf _ v1 HD (U _ H1) eq_refl))).
  assert (E2 := returns_inj _ _ _ R2 (wp_returns _ _ (frodo_pack_wp D buf _ v2 HD (U _ H2) eq_refl))).
  apply (pack_inj D (zlen v1) (zlen buf)); auto; try lia; try apply zlen_nonneg. congruence.
Qed.
Print Assumptions C11_encoding_unique.

Example C11_nonvacuous :
  returns (frodo_pack (uninit 4) 4 [1; 32767] 2 15) [0; 3; 255; 252] /\
  returns (frodo_unpack (uninit 2) 2 [0; 3; 255; 252] 4 15) [1; 32767].
Proof. split; eexists; vm_compute; reflexivity. Qed.
(** Short buffer, long buffer, dirty high bit. *)
Example C12_nonvacuous :
  returns (frodo_pack (uninit 3) 3 [32769; 32767] 2 15) [0; 3; 255] /\
  returns (frodo_pack (uninit 6) 6 [1; 32767] 2 15) [0; 3; 255; 252; 0; 0].
Proof. split; eexists; vm_compute; reflexivity. Qed.

(* ------------------------------------------------------------------ *)
(** ** C14: noise sampling. *)

(** Values: element i of the result depends only on element i of the input:
    magnitude = number of table entries (without the last) below the upper 15
    bits, sign = low bit, stored modulo 2^16. *)
Theorem C14_sample_exact : forall P s,
  valid P -> u16s_ok s ->
  returns (frodo_sample_n (pCDF P) s (zlen s)) (map (fun x => sample_spec (pCDF P) x mod 65536) s).
Proof. intros P s V Hs; destruct V; apply wp_returns, frodo_sample_n_wp; auto. Qed.
Print Assumptions C14_sample_exact.

(** Published distributions (FrodoKEM specification, table of error
    distributions): number of 16-bit words, out of 65536, giving 0, 1 (and -1), 2 (and -2) ... *)
Definition chi640 := [9288; 8720; 7216; 5264; 3384; 1918; 958; 422; 164; 56; 17; 4; 1].
Definition chi976 := [11278; 10277; 7774; 4882; 2545; 1101; 396; 118; 29; 6; 1].
Definition chi1344 := [18286; 14320; 6876; 2023; 364; 40; 2].
(** How many of the 65536 words give the value v. *)
Definition hits (cdf : list Z) (v : Z) : Z := zsum 65536 (fun w => Z.b2z (sample_spec cdf w =? v)).

Lemma filter_lt_sorted u l : StronglySorted Z.lt l -> forall k, 0 <= k < zlen l ->
  (k < Z.of_nat (length (filter (fun c => c <? u) l)) <-> znth l k < u).
Proof.
  induction 1 as [|x l HS IH HF]; intros k Hk; [unfold zlen in Hk; cbn in Hk; lia|].
  rewrite zlen_cons in Hk; cbn [filter].
  assert (HA : forall i, 0 <= i < zlen l -> x < znth l i).
  { intros i Hi; rewrite Forall_forall in HF; apply HF.
    unfold znth; destruct (Z.ltb_spec i 0); [lia|]; apply nth_In; unfold zlen in Hi; lia. }
  destruct (Z.eqb_spec k 0) as [->|].
  - rewrite znth_cons0. destruct (Z.ltb_spec x u); cbn [length]; [lia|].
    split; [|lia]. intros HL. exfalso.
    destruct (filter (fun c => c <? u) l) as [|y l'] eqn:E; [cbn in HL; lia|].
    assert (Hy : In y (filter (fun c => c <? u) l)) by (rewrite E; now left).
    apply filter_In in Hy; destruct Hy as (Hy & Hyu); apply Z.ltb_lt in Hyu.
    rewrite Forall_forall in HF; specialize (HF y Hy); lia.
  - rewrite znth_consS by lia. specialize (IH (k - 1) ltac:(lia)).
    destruct (Z.ltb_spec x u).
    + cbn [length]; rewrite <- IH; lia.
    + specialize (HA (k - 1) ltac:(lia)). split; [|lia].
      intros HL; assert (k - 1 < Z.of_nat (length (filter (fun c => c <? u) l))) by lia. tauto.
Qed.
Lemma zsum_ones m : 0 <= m -> zsum m (fun _ => 1) = m.
Proof.
  intros Hm; pattern m; apply natlike_ind; auto. intros x Hx IH; unfold Z.succ; rewrite zsum_succ; lia.
Qed.
Lemma count_above c n : -1 <= c < n -> zsum n (fun u => Z.b2z (c <? u)) = n - c - 1.
Proof.
  intros H. replace n with ((c + 1) + (n - c - 1)) at 1 by lia.
  rewrite zsum_split by lia.
  rewrite (zsum_ext (c + 1) _ (fun _ => 0)), zsum_zero.
  2:{ intros i Hi; destruct (Z.ltb_spec c i); [lia|reflexivity]. }
  rewrite (zsum_ext (n - c - 1) _ (fun _ => 1)).
  2:{ intros i Hi; destruct (Z.ltb_spec c (c + 1 + i)); [reflexivity|lia]. }
  rewrite zsum_ones; lia.
Qed.
Lemma zsum_double n f : 0 <= n -> zsum (2 * n) f = zsum n (fun u => f (2 * u) + f (2 * u + 1)).
Proof.
  intros Hn; pattern n; apply natlike_ind; auto.
  intros x Hx IH; unfold Z.succ. replace (2 * (x + 1)) with (2 * x + 1 + 1) by lia.
  rewrite !zsum_succ, IH by lia. lia.
Qed.

(** Number of 15-bit values with magnitude at least k. *)
Lemma mag_even cdf u : sample_mag cdf (2 * u) = Z.of_nat (length (filter (fun c => c <? u) (removelast cdf))).
Proof. unfold sample_mag. now replace (2 * u / 2) with u by dlia. Qed.
Lemma mag_odd cdf u : sample_mag cdf (2 * u + 1) = sample_mag cdf (2 * u).
Proof. unfold sample_mag. replace (2 * u / 2) with u by dlia. now replace ((2 * u + 1) / 2) with u by dlia. Qed.

Definition atleast (cdf : list Z) (k : Z) : Z := zsum 32768 (fun u => Z.b2z (k <=? sample_mag cdf (2 * u))).
Lemma atleast_eq cdf k : StronglySorted Z.lt (removelast cdf) -> inrange 32768 cdf -> 0 <= k ->
  atleast cdf k = if k =? 0 then 32768
                  else if k <=? zlen (removelast cdf) then 32768 - znth (removelast cdf) (k - 1) - 1 else 0.
Proof.
  intros HS HR Hk; unfold atleast.
  destruct (Z.eqb_spec k 0) as [->|].
  - rewrite (zsum_ext _ _ (fun _ => 1)); [apply zsum_ones; lia|].
    intros u Hu; rewrite mag_even. destruct (Z.leb_spec 0 (Z.of_nat (length (filter (fun c => c <? u) (removelast cdf))))); [reflexivity|lia].
  - destruct (Z.leb_spec k (zlen (removelast cdf))).
    + rewrite (zsum_ext _ _ (fun u => Z.b2z (znth (removelast cdf) (k - 1) <? u))).
      * apply count_above.
        assert (HR' : inrange 32768 (removelast cdf)).
        { unfold inrange in *; rewrite Forall_forall in *; intros x Hx; apply HR.
          destruct cdf as [|c0 cd]; [contradiction|].
          rewrite (app_removelast_last 0 (l := c0 :: cd)) by discriminate. apply in_or_app; now left. }
        pose proof (inrange_znth 32768 _ (k - 1) HR'); lia.
      * intros u Hu; f_equal. rewrite mag_even.
        pose proof (filter_lt_sorted u _ HS (k - 1) ltac:(lia)) as HH.
        destruct (Z.leb_spec k (Z.of_nat (length (filter (fun c => c <? u) (removelast cdf)))));
        destruct (Z.ltb_spec (znth (removelast cdf) (k - 1)) u); auto; exfalso; lia.
    + rewrite (zsum_ext _ _ (fun _ => 0)); [apply zsum_zero|].
      intros u Hu; rewrite mag_even. pose proof (filter_length_le (fun c => c <? u) (removelast cdf)).
      unfold zlen in *.
      destruct (Z.leb_spec k (Z.of_nat (length (filter (fun c => c <? u) (removelast cdf))))); [lia|reflexivity].
Qed.
Lemma hits_eq cdf v :
  hits cdf v = (if v =? 0 then 2 else 1) * (atleast cdf (Z.abs v) - atleast cdf (Z.abs v + 1)).
Proof.
  unfold hits, atleast. change 65536 with (2 * 32768). rewrite zsum_double by lia.
  rewrite <- zsum_sub, <- zsum_scale.
  apply zsum_ext; intros u Hu. unfold sample_spec; rewrite mag_odd.
  replace (Z.even (2 * u)) with true by (rewrite Z.even_mul; reflexivity).
  replace (Z.even (2 * u + 1)) with false
    by (rewrite Z.add_comm, Z.even_add_mul_2; reflexivity).
  assert (0 <= sample_mag cdf (2 * u)) by (unfold sample_mag; lia).
  destruct (Z.eqb_spec v 0); destruct (Z.eqb_spec (sample_mag cdf (2 * u)) v);
  destruct (Z.eqb_spec (- sample_mag cdf (2 * u)) v); destruct (Z.leb_spec (Z.abs v) (sample_mag cdf (2 * u)));
  destruct (Z.leb_spec (Z.abs v + 1) (sample_mag cdf (2 * u))); cbn; lia.
Qed.

Lemma hits_chi cdf chi : StronglySorted Z.lt (removelast cdf) -> inrange 32768 cdf -> 1 <= zlen cdf -> zlen chi = zlen cdf ->
  forallb (fun k => znth chi k =? (if k =? 0 then 2 else 1) *
     ((if k =? 0 then 32768 else 32768 - znth cdf (k - 1) - 1) -
      (if k + 1 =? zlen cdf then 0 else 32768 - znth cdf k - 1))) (zseq (zlen cdf)) = true ->
  forall v, hits cdf v = znth chi (Z.abs v).
Proof.
  intros HS HR H1 HL HT v.
  assert (Ercdf : forall i, 0 <= i < zlen cdf - 1 -> znth (removelast cdf) i = znth cdf i).
  { intros i Hi; destruct cdf as [|c0 cd]; [cbn in H1; unfold zlen in H1; cbn in H1; lia|].
    rewrite (app_removelast_last 0 (l := c0 :: cd)) at 2 by discriminate.
    rewrite znth_app1; auto. rewrite removelast_firstn_z, zlen_zslice; lia. }
  assert (Elen : zlen (removelast cdf) = zlen cdf - 1) by (rewrite removelast_firstn_z, zlen_zslice; lia).
  rewrite hits_eq, !atleast_eq by (auto; lia). rewrite Elen.
  destruct (Z.ltb_spec (Z.abs v) (zlen cdf)).
  - rewrite forallb_forall in HT. specialize (HT (Z.abs v)).
    assert (Hin : In (Z.abs v) (zseq (zlen cdf))).
    { rewrite <- (zseq_nth (zlen cdf) (Z.abs v) 0) by lia. apply nth_In.
      unfold zseq; rewrite map_length, seq_length; lia. }
    specialize (HT Hin); apply Z.eqb_eq in HT; rewrite HT.
    replace (Z.abs v =? 0) with (v =? 0) by (destruct (Z.eqb_spec v 0), (Z.eqb_spec (Z.abs v) 0); auto; lia).
    f_equal. f_equal.
    + destruct (Z.eqb_spec v 0); [reflexivity|]. destruct (Z.leb_spec (Z.abs v) (zlen cdf - 1)); [|lia].
      rewrite Ercdf by lia; reflexivity.
    + destruct (Z.eqb_spec (Z.abs v + 1) 0); [lia|].
      destruct (Z.eqb_spec (Z.abs v + 1) (zlen cdf)); destruct (Z.leb_spec (Z.abs v + 1) (zlen cdf - 1)); try lia.
      rewrite Ercdf by lia. do 3 f_equal. lia.
  - rewrite (znth_out chi) by lia.
    destruct (Z.eqb_spec (Z.abs v) 0); [lia|]; destruct (Z.eqb_spec (Z.abs v + 1) 0); [lia|].
    destruct (Z.leb_spec (Z.abs v) (zlen cdf - 1)); [lia|].
    destruct (Z.leb_spec (Z.abs v + 1) (zlen cdf - 1)); lia.
Qed.

Theorem C14_distribution :
  (forall v, hits (pCDF frodo640) v = znth chi640 (Z.abs v)) /\
  (forall v, hits (pCDF frodo976) v = znth chi976 (Z.abs v)) /\
  (forall v, hits (pCDF frodo1344) v = znth chi1344 (Z.abs v)).
Proof.
  split; [|split]; (apply hits_chi;
    [cbn; repeat constructor; lia|repeat constructor; lia|cbn; lia|reflexivity|vm_compute; reflexivity]).
Qed.
Print Assumptions C14_distribution.

Example C14_nonvacuous :
  returns (frodo_sample_n (pCDF frodo640) [0; 1; 65535; 65534; 9288; 9289] 6) [0; 0; 65524; 12; 1; 65535].
Proof. eexists; vm_compute; reflexivity. Qed.

(* ------------------------------------------------------------------ *)
(** ** C15, C16: comparison and selection. *)
Theorem C15_ct_verify : forall a b len,
  u16s_ok a -> u16s_ok b -> 0 <= len <= zlen a -> len <= zlen b ->
  exists r, returns (ct_verify a b len) r /\ (r = 0 \/ r = -1) /\
    (r = 0 <-> forall i, 0 <= i < len -> znth a i = znth b i).
Proof.
  intros a b len Ha Hb Hl Hl2.
  destruct (ct_verify_wp a b len) as (r & t & E & H); auto; try lia.
  exists r; split; [exists t; exact E|].
  destruct H as [(-> & H)|(-> & i & Hi & Hne)].
  - split; [now left|]; tauto.
  - split; [now right|]. split; [discriminate|]. intros F; exfalso; apply Hne; auto.
Qed.
Print Assumptions C15_ct_verify.

Theorem C16_ct_select : forall r a b,
  bytes_ok a -> bytes_ok b -> zlen r = zlen a -> zlen b = zlen a ->
  returns (ct_select r a b (zlen a) 0) a /\ returns (ct_select r a b (zlen a) (-1)) b.
Proof.
  intros r a b Ha Hb L1 L2; pose proof (zlen_nonneg a).
  split; apply wp_returns.
  - apply (ct_select_wp r a b (zlen a) 0); auto.
  - apply (ct_select_wp r a b (zlen a) (-1)); auto.
Qed.
Print Assumptions C16_ct_select.

Example C15_nonvacuous :
  returns (ct_verify [1; 65535; 3] [1; 65535; 3] 3) 0 /\
  returns (ct_verify [1; 65535; 3] [1; 32767; 3] 3) (-1) /\
  returns (ct_verify [1; 2; 3] [1; 2; 4] 2) 0.
Proof. repeat split; eexists; vm_compute; reflexivity. Qed.
Example C16_nonvacuous :
  returns (ct_select (uninit 2) [1; 255] [2; 128] 2 0) [1; 255] /\
  returns (ct_select (uninit 2) [1; 255] [2; 128] 2 (-1)) [2; 128].
Proof. repeat split; eexists; vm_compute; reflexivity. Qed.
